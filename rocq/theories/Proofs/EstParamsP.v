From Coq Require Import String List Bool ZArith Ascii Permutation Lia.
From Verif Require Import Base.GoMap Model.EstParams Spec.EstParams.
Import ListNotations.
Local Open Scope string_scope.
Local Open Scope list_scope.

Section P.
Context {F : Type}.
Notation pval := (pval F).
Notation logistic := (logistic F).
Lemma same_type_eq a b : same_type a b = true <-> a = b.
Proof. destruct a, b; cbn; split; congruence. Qed.

(** * Logistic *)
Definition seed_after (m : smap pval) (old : Z) : Z := match sget "random_state" m with Some (VInt64 z) => z | _ => old end.
Lemma logistic_set_ok : forall l (m : logistic), NoDup (skeys l) -> (forall e, In e l -> accepted logistic_types e) ->
  exists m', logistic_set l m = (m', Done) /\ (forall k, lparams m' k = match sget k l with Some v => v | None => lparams m k end)
    /\ lseed m' = seed_after l (lseed m).
Proof.
  induction l as [|[k v] r IH]; intros m N A; [exists m; auto|].
  pose proof (A (k, v) (or_introl eq_refl)) as Ak. unfold accepted in Ak. cbn [fst snd] in Ak.
  inversion N as [|? ? Nk Nr]; subst.
  cbn [logistic_set]. destruct (sget k logistic_types) as [t|]; [|discriminate]. injection Ak as ->. rewrite (proj2 (same_type_eq _ _) eq_refl).
  destruct (IH (mklog (assign k v (lparams m)) (if k =? "random_state" then match v with VInt64 z => z | _ => lseed m end else lseed m)) Nr)
    as (m' & E & P & S); [intros e He; apply A; now right|].
  exists m'. split; [exact E|]. split.
  - intros k'. rewrite P. cbn [sget lparams]. unfold assign. destruct (String.eqb_spec k' k) as [->|D]; auto.
    apply sget_none in Nk. now rewrite Nk.
  - rewrite S. unfold seed_after. cbn [sget lseed]. rewrite (String.eqb_sym "random_state" k).
    destruct (String.eqb_spec k "random_state") as [->|D]; auto. apply sget_none in Nk. rewrite Nk.
    destruct v; auto.
Qed.
Lemma logistic_set_bad : forall l (m : logistic), NoDup (skeys l) -> (exists e, In e l /\ ~ accepted logistic_types e) ->
  snd (logistic_set l m) <> Done.
Proof.
  induction l as [|[k v] r IH]; intros m N (e & He & Ne); [destruct He|]. cbn [logistic_set].
  inversion N as [|? ? Nk Nr]; subst. destruct (sget k logistic_types) as [t|] eqn:E; [|discriminate].
  destruct (same_type t (type_of v)) eqn:T; [|discriminate]. apply IH; auto. exists e. split; auto. destruct He as [<-|He]; auto.
  destruct Ne. unfold accepted. cbn [fst snd]. rewrite E. f_equal. now apply same_type_eq.
Qed.
Lemma logistic_set_each : forall l (m : logistic) k, NoDup (skeys l) ->
  lparams (fst (logistic_set l m)) k = lparams m k \/ sget k l = Some (lparams (fst (logistic_set l m)) k).
Proof.
  induction l as [|[k0 v] r IH]; intros m k N; [now left|]. cbn [logistic_set]. inversion N as [|? ? Nk Nr]; subst.
  destruct (sget k0 logistic_types) as [t|]; [|now left]. destruct (same_type t (type_of v)); [|now left].
  set (m1 := mklog _ _). destruct (IH m1 k Nr) as [E|E].
  - assert (Q : lparams m1 k = if k =? k0 then v else lparams m k) by reflexivity. rewrite Q in E. cbn [sget].
    destruct (String.eqb_spec k k0); [right; now rewrite E | now left].
  - right. cbn [sget]. destruct (String.eqb_spec k k0) as [->|]; auto.
    apply sget_none in Nk. rewrite Nk in E. discriminate.
Qed.
Lemma logistic_set_typed : forall l (m : logistic), well_typed logistic_types (lparams m) -> well_typed logistic_types (lparams (fst (logistic_set l m))).
Proof.
  induction l as [|[k0 v] r IH]; intros m W; [exact W|]. cbn [logistic_set].
  destruct (sget k0 logistic_types) as [t|] eqn:E; [|exact W]. destruct (same_type t (type_of v)) eqn:T; [|exact W].
  apply IH. cbn [lparams]. intros k u Hk. unfold assign. destruct (String.eqb_spec k k0) as [->|]; [|now apply W].
  apply same_type_eq in T. congruence.
Qed.
Lemma sget_map_keys (f : string -> pval) ks k : sget k (map (fun x => (x, f x)) ks) = if existsb (fun x => k =? x) ks then Some (f k) else None.
Proof. induction ks as [|a r IH]; cbn; auto. destruct (String.eqb_spec k a) as [->|]; auto. Qed.
Lemma keys_map (f : string -> pval) ks : skeys (map (fun x => (x, f x)) ks) = ks.
Proof. unfold skeys. rewrite map_map. cbn. apply map_id. Qed.
Lemma keys_in {V} (t : smap V) k : existsb (fun x => k =? x) (skeys t) = match sget k t with Some _ => true | None => false end.
Proof. induction t as [|[a v] r IH]; cbn; auto. destruct (String.eqb_spec k a); auto. Qed.
Lemma logistic_nodup : NoDup (skeys logistic_types).
Proof. repeat constructor; cbn; intuition discriminate. Qed.
Lemma logistic_get_sget (m : logistic) k : sget k (logistic_get m) = match sget k logistic_types with Some _ => Some (lparams m k) | None => None end.
Proof. unfold logistic_get. rewrite sget_map_keys, keys_in. destruct (sget k logistic_types); auto. Qed.
Lemma logistic_get_accepted (m : logistic) e : well_typed logistic_types (lparams m) -> In e (logistic_get m) -> accepted logistic_types e.
Proof.
  intros W H. unfold logistic_get in H. apply in_map_iff in H as (k & <- & H). unfold accepted. cbn [fst snd].
  destruct (sget k logistic_types) as [t|] eqn:E; [|apply sget_none in E; contradiction]. f_equal. symmetry. now apply W.
Qed.

(** * Linear *)
Lemma linear_fold (m : smap pval) : forall ts (f : fields F) k, NoDup (skeys ts) ->
  fold_left (fun f kt => match sget (fst kt) m with
                           | Some v => if same_type (snd kt) (type_of v) then assign (fst kt) v f else f
                           | None => f end) ts f k
  = match sget k ts, sget k m with Some t, Some v => if same_type t (type_of v) then v else f k | _, _ => f k end.
Proof.
  induction ts as [|[a t] r IH]; intros f k N; [reflexivity|]. cbn [fold_left fst snd]. inversion N as [|? ? Nk Nr]; subst. rewrite IH by auto.
  cbn [sget]. destruct (String.eqb_spec k a) as [->|D].
  - apply sget_none in Nk. rewrite Nk. destruct (sget a m) as [v|]; auto. destruct (same_type t (type_of v)); auto.
    unfold assign. now rewrite String.eqb_refl.
  - assert (E : (match sget a m with Some v => if same_type t (type_of v) then assign a v f else f | None => f end) k = f k).
    { destruct (sget a m) as [v|]; auto. destruct (same_type t (type_of v)); auto. unfold assign. destruct (String.eqb_spec k a); [contradiction|auto]. }
    rewrite E. reflexivity.
Qed.
Lemma linear_nodup : NoDup (skeys linear_types).
Proof. repeat constructor; cbn; intuition discriminate. Qed.
Lemma sget_app {V} (a b : smap V) k : sget k (a ++ b) = match sget k a with Some v => Some v | None => sget k b end.
Proof. induction a as [|[x v] r IH]; cbn; auto. destruct (k =? x); auto. Qed.

(** * Pipeline *)
Lemma ambiguous_app : forall n s, ambiguous (append n (append "_" s)) = false -> False \/ (exists c r, s = String c r /\ c <> "_"%char).
Proof.
  induction n as [|a n IH]; intros s H.
  - cbn in H. destruct s as [|c r]; [discriminate|]. destruct (ascii_dec c "_"); [discriminate|]. right. exists c, r. auto.
  - cbn [append ambiguous] in H. apply IH. destruct (ascii_dec a "_"); auto. apply orb_false_elim in H. tauto.
Qed.
Lemma append_split : forall a b x y, append a x = append b y -> (exists s, b = append a s /\ x = append s y) \/ (exists s, a = append b s /\ y = append s x).
Proof.
  induction a as [|c a IH]; intros b x y E.
  - left. exists b. auto.
  - destruct b as [|d b]; [right; exists (String c a); cbn in *; auto|]. cbn in E. injection E as -> E.
    destruct (IH b x y E) as [(s & -> & ->)|(s & -> & ->)]; [left|right]; exists s; auto.
Qed.
Lemma app_inj_r : forall a x y, append a x = append a y -> x = y.
Proof. induction a; cbn; auto. intros x y E. injection E as E. auto. Qed.
Lemma append_nil s : append s "" = s.
Proof. induction s; cbn; congruence. Qed.
Lemma prefix_case n s k k' : ambiguous (append n s) = false -> append "__" k = append s (append "__" k') -> s = EmptyString.
Proof.
  intros A E. destruct s as [|c s]; auto. exfalso. cbn in E. injection E as E1 E. subst c. destruct s as [|c s].
  - destruct (ambiguous_app n "" A) as [[]|(x & r & X & _)]. discriminate.
  - cbn in E. injection E as E1 E. subst c. change (String "_" (String "_" s)) with (append "_" (String "_" s)) in A.
    destruct (ambiguous_app n _ A) as [[]|(x & r & X & Y)]. injection X as X1 X2. apply Y. now symmetry.
Qed.
Lemma nested_inj n n' k k' : ambiguous n = false -> ambiguous n' = false -> nested n k = nested n' k' -> n = n' /\ k = k'.
Proof.
  intros A A' E. unfold nested in E. destruct (append_split _ _ _ _ E) as [(s & -> & X)|(s & -> & X)].
  - pose proof (prefix_case n s k k' A' X). subst s. cbn in X. injection X as ->. rewrite append_nil. auto.
  - pose proof (prefix_case n' s k' k A X). subst s. cbn in X. injection X as ->. rewrite append_nil. auto.
Qed.
Fixpoint has2 (s : string) : bool :=
  match s with String a (String b _ as r) => ((a =? "_")%char && (b =? "_")%char) || has2 r | _ => false end.
Lemma nested_has2 n k : has2 (nested n k) = true.
Proof.
  unfold nested. induction n as [|a n IH]; [reflexivity|]. change (append (String a n) (append "__" k)) with (String a (append n (append "__" k))).
  destruct (append n (append "__" k)) as [|b r] eqn:E; [destruct n; discriminate|].
  change (((a =? "_")%char && (b =? "_")%char) || has2 (String b r) = true). rewrite IH. apply orb_true_r.
Qed.
Definition put_step (m : smap pval) (s : string * getter F) : smap pval :=
  match snd s with GetNow l => fold_left (fun m e => sput (nested (fst s) (fst e)) (snd e) m) l m | _ => m end.
Lemma put_entries n : forall l (m : smap pval) q, (forall e, In e l -> nested n (fst e) <> q) ->
  sget q (fold_left (fun m e => sput (nested n (fst e)) (snd e) m) l m) = sget q m.
Proof.
  induction l as [|e r IH]; intros m q H; [reflexivity|]. cbn [fold_left]. rewrite IH by (intros; apply H; now right).
  apply sget_put_other. intros E. apply (H e); [now left | now symmetry].
Qed.
Lemma put_entries_get n : ambiguous n = false -> forall l (m : smap pval) k, NoDup (skeys l) ->
  sget (nested n k) (fold_left (fun m e => sput (nested n (fst e)) (snd e) m) l m) = match sget k l with Some v => Some v | None => sget (nested n k) m end.
Proof.
  intros A. induction l as [|[a v] r IH]; intros m k N; [reflexivity|]. cbn [fold_left fst snd]. inversion N as [|? ? Nk Nr]; subst. rewrite IH by auto.
  cbn [sget]. destruct (String.eqb_spec k a) as [->|D].
  - apply sget_none in Nk. rewrite Nk. apply sget_put_same.
  - destruct (sget k r); auto. apply sget_put_other. intros E. destruct (nested_inj _ _ _ _ A A E) as [_ ->]. now apply D.
Qed.
Lemma put_other s (m : smap pval) n k : ambiguous n = false -> ambiguous (fst s) = false -> fst s <> n -> sget (nested n k) (put_step m s) = sget (nested n k) m.
Proof.
  intros A B D. unfold put_step. destruct (snd s); auto. apply put_entries. intros e _ E. destruct (nested_inj _ _ _ _ B A E) as [E' _]. contradiction.
Qed.
Lemma put_others : forall ss (m : smap pval) n k, ambiguous n = false -> (forall s, In s ss -> ambiguous (fst s) = false /\ fst s <> n) ->
  sget (nested n k) (fold_left put_step ss m) = sget (nested n k) m.
Proof.
  induction ss as [|s r IH]; intros m n k A H; [reflexivity|]. cbn [fold_left]. rewrite IH; auto.
  - destruct (H s (or_introl eq_refl)). now apply put_other.
  - intros x Hx. apply H. now right.
Qed.
Lemma put_none : forall ss (m : smap pval) q, has2 q = false -> sget q (fold_left put_step ss m) = sget q m.
Proof.
  induction ss as [|s r IH]; intros m q A; [reflexivity|]. cbn [fold_left]. rewrite IH; auto. unfold put_step. destruct (snd s); auto.
  apply put_entries. intros e _ <-. rewrite nested_has2 in A. discriminate.
Qed.
Lemma puts_get : forall l (m : smap pval) k, NoDup (skeys l) ->
  sget k (fold_left (fun m e => sput (fst e) (snd e) m) l m) = match sget k l with Some v => Some v | None => sget k m end.
Proof.
  induction l as [|[a v] r IH]; intros m k N; [reflexivity|]. cbn [fold_left fst snd]. inversion N as [|? ? Nk Nr]; subst. rewrite IH by auto.
  rewrite sget_put. cbn [sget]. destruct (String.eqb_spec k a) as [->|D]; auto. apply sget_none in Nk. now rewrite Nk.
Qed.
End P.
