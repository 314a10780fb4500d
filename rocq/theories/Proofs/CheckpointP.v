From Coq Require Import String List Arith ZArith Bool Lia.
From Verif Require Import Base.Num Base.GoRes Spec.Order Model.EarlyStop Spec.EarlyStop Model.Checkpoint Spec.Checkpoint.
Import ListNotations.
Local Open Scope list_scope.

Lemma due_rem p k : p <> 0%Z -> (Z.rem (Z.of_nat k) p =? 0)%Z = due p k.
Proof.
  intros Hp. unfold due. destruct (Z.eqb_spec (Z.rem (Z.of_nat k) p) 0) as [E|E], (Z.eqb_spec (Z.of_nat k mod p) 0) as [E'|E']; auto.
  - destruct E'. apply Z.mod_divide; auto. now apply Z.rem_divide.
  - destruct E. apply Z.rem_divide; auto. now apply Z.mod_divide.
Qed.

Section P.
  Context {N : Num} (laws : lt_laws N) {T : Type}.
  Definition tracks (best : option N) (seen : list N) : Prop :=
    match best with
    | None => forall u, In u seen -> countable u = false
    | Some b => countable b = true /\ In b seen /\ forall u, In u seen -> countable u = true -> nlt u b = false
    end.
  Lemma countable_improves (v : N) : improves true None v = countable v.
  Proof. reflexivity. Qed.
  Lemma lt_countable (a b : N) : nlt a b = true -> countable a = true.
  Proof.
    intros H. unfold countable. destruct (lt_not_nan _ laws _ _ H) as [-> _]. destruct (lt_inf _ laws _ _ H) as [-> _]. reflexivity.
  Qed.
  Lemma not_nan (a : N) : countable a = true -> nisnan a = false.
  Proof. unfold countable. destruct (nisnan a); auto. Qed.
  Lemma improves_low best seen v : tracks best seen -> improves true best v = new_low seen v.
  Proof.
    intros Tr. unfold new_low. destruct best as [b|]; cbn [tracks] in Tr.
    - destruct Tr as (Cb & Ib & Lb). cbn [improves]. destruct (nlt v b) eqn:E.
      + rewrite (lt_countable _ _ E). cbn [andb]. symmetry. apply forallb_forall. intros u Hu.
        destruct (countable u) eqn:Cu; auto. cbn [negb orb]. specialize (Lb u Hu Cu).
        destruct (nlt v u) eqn:Vu; auto. rewrite (lt_negtrans _ laws v u b) in E; try discriminate; auto using not_nan.
        now apply not_nan, (lt_countable v b).
      + symmetry. apply andb_false_iff. destruct (countable v) eqn:Cv; [right|now left].
        apply not_true_iff_false. intros H. rewrite forallb_forall in H. specialize (H b Ib). rewrite Cb, E in H. discriminate.
    - rewrite countable_improves. destruct (countable v); auto. symmetry. apply forallb_forall. intros u Hu. now rewrite (Tr u Hu).
  Qed.
  Lemma tracks_step best seen v : tracks best seen -> tracks (if new_low seen v then Some v else best) (seen ++ [v]).
  Proof.
    intros Tr. rewrite <- (improves_low best seen v Tr). destruct (improves true best v) eqn:I.
    - pose proof I as I'. rewrite (improves_low best seen v Tr) in I'. apply andb_prop in I' as [Cv Fv]. rewrite forallb_forall in Fv.
      cbn [tracks]. split; [exact Cv|]. split; [apply in_app_iff; right; now left|]. intros u Hu Cu. apply in_app_iff in Hu as [Hu|[<-|[]]].
      + specialize (Fv u Hu). rewrite Cu in Fv. cbn in Fv. destruct (nlt u v) eqn:E; auto.
        pose proof (lt_trans _ laws _ _ _ Fv E) as X. rewrite (lt_irrefl _ laws) in X. discriminate.
      + apply (lt_irrefl _ laws).
    - destruct best as [b|]; cbn [tracks] in *.
      + destruct Tr as (Cb & Ib & Lb). split; auto. split; [apply in_app_iff; auto|]. intros u Hu Cu. apply in_app_iff in Hu as [Hu|[<-|[]]]; auto.
      + intros u Hu. apply in_app_iff in Hu as [Hu|[<-|[]]]; auto.
  Qed.

  Variables (next : list T -> T) (loss : list T -> N) (period : Z).
  Hypothesis Hp : period <> 0%Z.
  Let grow (ts : list T) : res T := Ok (next ts).
  Notation ens := (ensemble next).
  Let score (n : nat) : N := loss (ens n).
  Notation loop := (cp_loop (fun _ => true) period).
  Notation step := (checkpoint (fun _ : list T => true) period).
  Lemma file_cons k j m (b : option N) (s : cp N T) : file k (mkcp b ((j, m) :: cp_files s)) = if (j =? k)%Z then Some m else file k s.
  Proof. unfold file. cbn. destruct (j =? k)%Z; reflexivity. Qed.
  Lemma file_best k (b : option N) (s : cp N T) : file k (mkcp b (cp_files s)) = file k s.
  Proof. reflexivity. Qed.

  (** ** All saved *)
  Lemma step_all k ts ev (s : cp N T) : exists s', step false (Z.of_nat k) ts ev s = (s', Ok tt)
    /\ forall j, file (Z.of_nat j) s' = if Nat.eqb k j && due period k then Some ts else file (Z.of_nat j) s.
  Proof.
    unfold checkpoint. rewrite (proj2 (Z.eqb_neq _ _) Hp), due_rem by exact Hp. destruct (due period k); cbn [negb].
    - eexists. split; [reflexivity|]. intros j. rewrite file_cons, andb_true_r. destruct (Nat.eqb_spec k j), (Z.eqb_spec (Z.of_nat k) (Z.of_nat j)); auto; lia.
    - exists s. split; [reflexivity|]. intros j. now rewrite andb_false_r.
  Qed.
  Lemma loop_all : forall n k ev (s : cp N T), exists s', loop false grow loss n (Z.of_nat k) ev s (ens k) = (s', Ok (ens (k + n)))
    /\ forall j, file (Z.of_nat j) s' = if (k <=? j) && (j <? k + n) && due period j then Some (ens (S j)) else file (Z.of_nat j) s.
  Proof.
    induction n as [|n IH]; intros k ev s.
    - exists s. rewrite Nat.add_0_r. split; [reflexivity|]. intros j. destruct (Nat.leb_spec k j), (Nat.ltb_spec j k); auto; lia.
    - cbn [cp_loop]. destruct (step_all k (ens k) ev s) as (s1 & -> & F1). unfold grow at 1.
      change (ens k ++ [next (ens k)]) with (ens (S k)). destruct (step_all k (ens (S k)) (Some (loss (ens (S k)))) s1) as (s2 & -> & F2).
      replace (Z.of_nat k + 1)%Z with (Z.of_nat (S k)) by lia. destruct (IH (S k) (Some (loss (ens (S k)))) s2) as (s3 & -> & F3).
      exists s3. rewrite <- Nat.add_succ_comm. split; [reflexivity|]. intros j. rewrite F3, F2, F1.
      destruct (Nat.eqb_spec k j) as [->|D].
      + destruct (Nat.leb_spec (S j) j), (Nat.leb_spec j j), (Nat.ltb_spec j (S j + n)); try lia. cbn. destruct (due period j); reflexivity.
      + cbn [andb]. destruct (Nat.leb_spec (S k) j), (Nat.leb_spec k j); try lia; reflexivity.
  Qed.

  (** ** Improvements only *)
  Lemma step_some k ts v seen (s : cp N T) : tracks (cp_best s) seen -> exists s', step true (Z.of_nat k) ts (Some v) s = (s', Ok tt)
    /\ (if due period k then tracks (cp_best s') (seen ++ [v]) else s' = s)
    /\ forall j, file (Z.of_nat j) s' = if Nat.eqb k j && due period k && new_low seen v then Some ts else file (Z.of_nat j) s.
  Proof.
    intros Tr. unfold checkpoint. rewrite (proj2 (Z.eqb_neq _ _) Hp), due_rem by exact Hp. pose proof (tracks_step _ _ v Tr) as Ts.
    rewrite <- (improves_low _ _ v Tr) in *. destruct (due period k); cbn [negb].
    - destruct (improves true (cp_best s) v).
      + eexists. split; [reflexivity|]. split; [exact Ts|]. intros j. rewrite file_cons, !andb_true_r.
        destruct (Nat.eqb_spec k j), (Z.eqb_spec (Z.of_nat k) (Z.of_nat j)); auto; lia.
      + eexists. split; [reflexivity|]. split; [exact Ts|]. intros j. rewrite file_best. now rewrite andb_false_r.
    - exists s. split; [reflexivity|]. split; [reflexivity|]. intros j. now rewrite andb_false_r.
  Qed.
  Lemma step_none k ts (s : cp N T) : exists s', step true (Z.of_nat k) ts None s = (s', Ok tt) /\ cp_best s' = cp_best s
    /\ forall j, file (Z.of_nat j) s' = if Nat.eqb k j && due period k then Some ts else file (Z.of_nat j) s.
  Proof.
    unfold checkpoint. rewrite (proj2 (Z.eqb_neq _ _) Hp), due_rem by exact Hp. destruct (due period k); cbn [negb].
    - eexists. split; [reflexivity|]. split; [reflexivity|]. intros j. rewrite file_cons, andb_true_r. destruct (Nat.eqb_spec k j), (Z.eqb_spec (Z.of_nat k) (Z.of_nat j)); auto; lia.
    - exists s. split; [reflexivity|]. split; [reflexivity|]. intros j. now rewrite andb_false_r.
  Qed.
  Lemma looked_S k : looked period (S k) = looked period k ++ (if due period k then match k with O => [1] | _ => [k; S k] end else []).
  Proof. unfold looked. rewrite seq_S, flat_map_app. cbn [flat_map Nat.add]. now rewrite app_nil_r. Qed.
  Lemma due_0 : due period 0 = true.
  Proof. unfold due. change (Z.of_nat 0) with 0%Z. now rewrite Zmod_0_l. Qed.
  Definition content (j : nat) : option (list T) := option_map ens (kept period score j).
  Lemma loop_improved : forall n k (s : cp N T), tracks (cp_best s) (map score (looked period k)) -> (forall j, k <= j -> file (Z.of_nat j) s = None) ->
    exists s', loop true grow loss n (Z.of_nat k) (match k with O => None | _ => Some (score k) end) s (ens k) = (s', Ok (ens (k + n)))
    /\ forall j, file (Z.of_nat j) s' = if (k <=? j) && (j <? k + n) then content j else file (Z.of_nat j) s.
  Proof.
    induction n as [|n IH]; intros k s Tr Fr.
    - exists s. rewrite Nat.add_0_r. split; [reflexivity|]. intros j. destruct (Nat.leb_spec k j), (Nat.ltb_spec j k); auto; lia.
    - cbn [cp_loop].
      assert (B : exists s1, step true (Z.of_nat k) (ens k) (match k with O => None | _ => Some (score k) end) s = (s1, Ok tt)
        /\ tracks (cp_best s1) (map score (looked period k ++ match k with O => [] | _ => if due period k then [k] else [] end))
        /\ forall j, file (Z.of_nat j) s1 = if Nat.eqb k j then (if due period k && match k with O => true | _ => new_low (map score (looked period k)) (score k) end then Some (ens k) else None) else file (Z.of_nat j) s).
      { destruct k as [|k].
        - destruct (step_none 0 (ens 0) s) as (s1 & E & B & F). exists s1. split; [exact E|]. split; [rewrite B; exact Tr|].
          intros j. rewrite F. rewrite due_0. destruct (Nat.eqb_spec 0 j); reflexivity.
        - destruct (step_some (S k) (ens (S k)) (score (S k)) _ s Tr) as (s1 & E & B & F). exists s1. split; [exact E|]. split.
          + destruct (due period (S k)); [now rewrite map_app | subst s1; now rewrite app_nil_r].
          + intros j. rewrite F. destruct (Nat.eqb_spec (S k) j) as [<-|D]; cbn [andb]; auto. destruct (due period (S k) && _); auto. }
      destruct B as (s1 & -> & T1 & F1). unfold grow at 1. change (ens k ++ [next (ens k)]) with (ens (S k)).
      destruct (step_some k (ens (S k)) (score (S k)) _ s1 T1) as (s2 & E2 & T2 & F2). fold (score (S k)). rewrite E2.
      replace (Z.of_nat k + 1)%Z with (Z.of_nat (S k)) by lia.
      assert (T2' : tracks (cp_best s2) (map score (looked period (S k)))).
      { rewrite looked_S. destruct k as [|k].
        - rewrite due_0 in *. exact T2.
        - destruct (due period (S k)).
          + rewrite map_app in *. rewrite <- app_assoc in T2. exact T2.
          + subst s2. exact T1. }
      assert (F2' : forall j, file (Z.of_nat j) s2 = if Nat.eqb k j then content k else file (Z.of_nat j) s).
      { intros j. rewrite F2, F1. destruct (Nat.eqb_spec k j) as [<-|D]; cbn [andb]; auto. unfold content, kept. destruct k as [|k].
        - rewrite due_0. cbn [andb map app looked flat_map seq]. destruct (new_low [] (score 1)); reflexivity.
        - destruct (due period (S k)); cbn [andb]; auto. destruct (new_low _ (score (S (S k)))); auto. destruct (new_low _ (score (S k))); auto. }
      destruct (IH (S k) s2 T2') as (s3 & E3 & F3).
      { intros j Hj. rewrite F2'. destruct (Nat.eqb_spec k j); [lia|]. apply Fr. lia. }
      exists s3. rewrite <- Nat.add_succ_comm. split; [exact E3|]. intros j. rewrite F3, F2'.
      destruct (Nat.eqb_spec k j) as [->|D].
      + destruct (Nat.leb_spec (S j) j), (Nat.leb_spec j j), (Nat.ltb_spec j (S j + n)); try lia. reflexivity.
      + destruct (Nat.leb_spec (S k) j), (Nat.leb_spec k j); try lia; reflexivity.
  Qed.
End P.
