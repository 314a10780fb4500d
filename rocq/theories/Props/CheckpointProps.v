(** C135: ModelCheckpoint. *)
From Coq Require Import String List Arith ZArith Bool Lia.
From Verif Require Import Base.Num Base.GoRes Base.FTac Spec.Order Proofs.OrderP Model.EarlyStop Spec.EarlyStop Model.Checkpoint Spec.Checkpoint Proofs.CheckpointP.
Import ListNotations.
Local Open Scope list_scope.

(** Without saveOnlyImproved, as long as saving succeeds: training goes on as without the callback, and there is a file for each round that
    is a multiple of the period; it holds the trees up to and including that round. *)
Theorem C135_every : forall (N : Num) (T : Type) (next : list T -> T) (loss : list T -> N) period n, period <> 0%Z ->
  exists s, fit_checkpoint (fun _ => true) period false (fun ts => Ok (next ts)) loss (Z.of_nat n) = (s, Ok (ensemble next n))
  /\ forall k, file (Z.of_nat k) s = if (k <? n) && due period k then Some (ensemble next (S k)) else None.
Proof.
  intros N T next loss period n Hp. unfold fit_checkpoint. rewrite Nat2Z.id.
  destruct (loop_all next loss period Hp n 0 None (mkcp None [])) as (s & E & F). exists s. split; [exact E|]. intros k. rewrite F.
  cbn [Nat.leb Nat.add]. cbn [andb]. destruct ((k <? n) && due period k); reflexivity.
Qed.

(** With saveOnlyImproved the callback looks at a round that is due twice, before it with the loss of the round before and after it, and the
    file of the round holds [kept] trees: all if its loss is below all losses looked at; otherwise the trees without those of the
    round itself, if the loss of the round before was below those looked at; otherwise there is no file. *)
Theorem C135_improved : forall (N : Num), lt_laws N -> forall (T : Type) (next : list T -> T) (loss : list T -> N) period n, period <> 0%Z ->
  exists s, fit_checkpoint (fun _ => true) period true (fun ts => Ok (next ts)) loss (Z.of_nat n) = (s, Ok (ensemble next n))
  /\ forall k, file (Z.of_nat k) s = if k <? n then option_map (ensemble next) (kept period (fun m => loss (ensemble next m)) k) else None.
Proof.
  intros N laws T next loss period n Hp. unfold fit_checkpoint. rewrite Nat2Z.id.
  destruct (loop_improved laws next loss period Hp n 0 (mkcp None [])) as (s & E & F).
  - intros u [].
  - reflexivity.
  - exists s. split; [exact E|]. intros k. rewrite F. cbn [Nat.leb Nat.add andb]. reflexivity.
Qed.

(** With period 1 the file of a later round exists exactly if its loss is below the losses of all rounds before, and holds its trees. *)
Theorem C135_period_one : forall (N : Num), lt_laws N -> forall (score : nat -> N) k,
  kept 1 score (S k) = if new_low (map score (seq 1 (S k))) (score (S (S k))) then Some (S (S k)) else None.
Proof.
  intros N laws score k. unfold kept.
  assert (D : forall j, due 1 j = true) by (intros j; unfold due; now rewrite Z.mod_1_r). rewrite D.
  assert (L : forall m j, In j (looked 1 m) <-> 1 <= j <= m).
  { intros m j. unfold looked. rewrite in_flat_map. split.
    - intros (i & Hi & Hj). apply in_seq in Hi. rewrite D in Hj. destruct i; cbn in Hj; lia.
    - intros H. exists (j - 1). split; [apply in_seq; lia|]. rewrite D. destruct j as [|[|j]]; cbn; lia. }
  assert (X : forall l l' v, (forall j, In j l <-> In j l') -> @new_low N (map score l) v = new_low (map score l') v).
  { intros l l' v H. unfold new_low. f_equal. apply eq_true_iff_eq. rewrite !forallb_forall.
    split; intros F u Hu; apply F; apply in_map_iff in Hu as (j & <- & Hj); apply in_map; now apply H. }
  rewrite (X (looked 1 (S k) ++ [S k]) (seq 1 (S k))).
  2:{ intros j. rewrite in_app_iff, L, in_seq. cbn. lia. }
  destruct (new_low (map score (seq 1 (S k))) (score (S (S k)))); auto.
  replace (new_low (map score (looked 1 (S k))) (score (S k))) with false; auto. symmetry. unfold new_low. apply andb_false_iff.
  destruct (countable (score (S k))) eqn:C; [right|now left]. apply not_true_iff_false. intros F. rewrite forallb_forall in F.
  specialize (F (score (S k)) (in_map score _ _ (proj2 (L (S k) (S k)) ltac:(lia)))). rewrite C, (lt_irrefl _ laws) in F. discriminate.
Qed.

(** Users would expect the file of round 2 to hold the model after round 2.  With period 2 and losses 5, 3, 4 it holds the two trees that were
    there before the round. *)
Theorem C135_stale_refuted : exists (next : list nat -> nat) (loss : list nat -> F0),
  let s := fst (fit_checkpoint (fun _ => true) 2 true (fun ts => Ok (next ts)) loss 3) in
  file 0 s = Some [0] /\ file 2 s = Some [0; 1] /\ snd (fit_checkpoint (fun _ => true) 2 true (fun ts => Ok (next ts)) loss 3) = Ok [0; 1; 2].
Proof.
  exists (@length nat), (fun ts => nth (length ts) [f 9 1; f 5 1; f 3 1; f 4 1] (f 0 1)). vm_compute. repeat split.
Qed.
(** A first loss of NaN leaves the model without trees in the first file; a period of 0 panics. *)
Theorem C135_nan_refuted : exists (next : list nat -> nat) (loss : list nat -> F0),
  file 0 (fst (fit_checkpoint (fun _ => true) 1 true (fun ts => Ok (next ts)) loss 2)) = Some [].
Proof. exists (@length nat), (fun ts => f64_nan). vm_compute. reflexivity. Qed.
Theorem C135_zero : forall (N : Num) (T : Type) can only (grow : list T -> res T) (loss : list T -> N) n, (0 < n)%Z ->
  snd (fit_checkpoint can 0 only grow loss n) = Panic.
Proof. intros N T can only grow loss n H. unfold fit_checkpoint. destruct (Z.to_nat n) eqn:E; [lia|]. reflexivity. Qed.

(** When saving can fail: training ends with the error at the first round due at which it does, before or after the round's tree, and
    the files of the rounds before are those of a training without failures. *)
Section Unsaved.
  Context {N : Num} {T : Type} (next : list T -> T) (loss : list T -> N) (can : list T -> bool) (period : Z) (Hp : period <> 0%Z).
  Definition saved (k : nat) : bool := negb (due period k) || can (ensemble next k) && can (ensemble next (S k)).
  Lemma step_can k ts ev (s : cp N T) : let s' := fst (checkpoint can period false (Z.of_nat k) ts ev s) in
    snd (checkpoint can period false (Z.of_nat k) ts ev s) = (if negb (due period k) || can ts then Ok tt else Err (EOther 1)) /\
    forall j, file (Z.of_nat j) s' = if Nat.eqb k j && due period k && can ts then Some ts else file (Z.of_nat j) s.
  Proof.
    unfold checkpoint. rewrite (proj2 (Z.eqb_neq _ _) Hp), due_rem by exact Hp. destruct (due period k); cbn [negb orb].
    - destruct (can ts); (split; [reflexivity|]); intros j; cbn [fst]; [rewrite file_cons, !andb_true_r|now rewrite andb_false_r]. destruct (Nat.eqb_spec k j), (Z.eqb_spec (Z.of_nat k) (Z.of_nat j)); auto; lia.
    - split; [reflexivity|]. intros j. now rewrite andb_false_r.
  Qed.
  Lemma loop_can : forall n k ev (s : cp N T), let r := cp_loop can period false (fun ts => Ok (next ts)) loss n (Z.of_nat k) ev s (ensemble next k) in
    snd r = (if forallb saved (seq k n) then Ok (ensemble next (k + n)) else Err (EWrapped (EOther 1))) /\
    forall j, (j < k -> file (Z.of_nat j) (fst r) = file (Z.of_nat j) s) /\
      (k <= j < k + n -> forallb saved (seq k (S j - k)) = true -> file (Z.of_nat j) (fst r) = if due period j then Some (ensemble next (S j)) else file (Z.of_nat j) s).
  Proof.
    induction n as [|n IH]; intros k ev s r.
    - split; [unfold r; cbn; now rewrite Nat.add_0_r|]. intros j. split; [reflexivity|lia].
    - unfold r. cbn [cp_loop]. destruct (step_can k (ensemble next k) ev s) as [A1 B1]. destruct (checkpoint can period false (Z.of_nat k) (ensemble next k) ev s) as [s1 r1]. cbn [fst snd] in A1, B1. subst r1.
      change (forallb saved (seq k (S n))) with (saved k && forallb saved (seq (S k) n)). unfold saved at 1.
      destruct (due period k) eqn:D; cbn [negb orb]; [destruct (can (ensemble next k)) eqn:C1|]; cbn [andb].
      2:{ cbn [fst snd]. split; [reflexivity|]. intros j. split.
          - intros Hj. rewrite B1. destruct (Nat.eqb_spec k j); [lia|reflexivity].
          - intros Hj F. exfalso. replace (S j - k) with (S (j - k)) in F by lia. change (saved k && forallb saved (seq (S k) (j - k)) = true) in F. unfold saved in F at 1. rewrite D, C1 in F. discriminate. }
      all: change (ensemble next k ++ [next (ensemble next k)]) with (ensemble next (S k)).
      all: destruct (step_can k (ensemble next (S k)) (Some (loss (ensemble next (S k)))) s1) as [A2 B2]; destruct (checkpoint can period false (Z.of_nat k) (ensemble next (S k)) _ s1) as [s2 r2]; cbn [fst snd] in A2, B2; subst r2; rewrite D; cbn [negb orb].
      1: destruct (can (ensemble next (S k))) eqn:C2.
      2:{ cbn [fst snd]. split; [reflexivity|]. intros j. split.
          - intros Hj. rewrite B2, B1. destruct (Nat.eqb_spec k j); [lia|reflexivity].
          - intros Hj F. exfalso. replace (S j - k) with (S (j - k)) in F by lia. change (saved k && forallb saved (seq (S k) (j - k)) = true) in F. unfold saved in F at 1. rewrite D, C1, C2 in F. discriminate. }
      all: replace (Z.of_nat k + 1)%Z with (Z.of_nat (S k)) by lia; destruct (IH (S k) (Some (loss (ensemble next (S k)))) s2) as [I1 I2]; rewrite I1.
      all: split; [now rewrite Nat.add_succ_r|]; intros j; destruct (I2 j) as [J1 J2]; split; [intros Hj; rewrite J1, B2, B1 by lia; destruct (Nat.eqb_spec k j); [lia|reflexivity]|].
      all: intros Hj F; replace (S j - k) with (S (j - k)) in F by lia; change (saved k && forallb saved (seq (S k) (j - k)) = true) in F; apply andb_prop in F; destruct F as [_ F].
      all: destruct (Nat.eq_dec j k) as [-> | Nj]; [rewrite J1, B2, B1, Nat.eqb_refl, D by lia; cbn; reflexivity|].
      all: rewrite J2 by (try lia; replace (S j - S k) with (j - k) by lia; exact F); destruct (due period j); [reflexivity|]; rewrite B2, B1; destruct (Nat.eqb_spec k j); [lia|reflexivity].
  Qed.
  Theorem C135_unsaved n : let r := fit_checkpoint can period false (fun ts => Ok (next ts)) loss (Z.of_nat n) in
    snd r = (if forallb saved (seq 0 n) then Ok (ensemble next n) else Err (EWrapped (EOther 1))) /\
    forall j, j < n -> forallb saved (seq 0 (S j)) = true -> file (Z.of_nat j) (fst r) = if due period j then Some (ensemble next (S j)) else None.
  Proof.
    unfold fit_checkpoint. rewrite Nat2Z.id. destruct (loop_can n 0 None (mkcp None [])) as [A B]. split; [exact A|]. intros j Hj F. destruct (B j) as [_ K]. apply K; [lia|]. now rewrite Nat.sub_0_r.
  Qed.
End Unsaved.

(** ** Examples *)
Example C135_ex_improved : map (kept 2 (fun n => nth n [f 9 1; f 5 1; f 6 1; f 4 1; f 8 1; f 2 1; f 3 1; f 3 1; f 1 1] (f 0 1))) (seq 0 7)
  = [Some 1; None; Some 3; None; Some 5; None; None].
Proof. vm_compute. reflexivity. Qed.
Example C135_ex_files : map fst (cp_files (fst (fit_checkpoint (fun _ => true) 3 false (fun ts => Ok (length ts)) (fun _ : list nat => f 1 1) 7))) = [6; 6; 3; 3; 0; 0]%Z.
Proof. vm_compute. reflexivity. Qed.

Print Assumptions C135_every.
Print Assumptions C135_improved.
Print Assumptions C135_period_one.
Print Assumptions C135_stale_refuted.
Print Assumptions C135_nan_refuted.
Print Assumptions C135_zero.
Example C135_ex_unsaved : let r := fit_checkpoint (fun ts : list nat => length ts <? 4) 2 false (fun ts => Ok (length ts)) (fun _ => f 1 1) 7 in
  snd r = Err (EWrapped (EOther 1)) /\ file 0 (fst r) = Some [0] /\ file 2 (fst r) = Some [0; 1; 2] /\ file 4 (fst r) = None.
Proof. vm_compute. repeat split. Qed.
Print Assumptions C135_unsaved.
