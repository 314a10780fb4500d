(** C24 and C95: saving and loading models with encoding/gob. *)
From Coq Require Import List Arith Bool ZArith QArith Reals Lia.
From Verif Require Import Base.Num Base.RTac Base.GoRes Base.Mat Model.Linear Model.Persist Spec.Persist.
Import ListNotations.
Close Scope Q_scope.
Close Scope R_scope.
Local Open Scope list_scope.

Section C24.
Variables (M B : Type) (encode : M -> list (list B) * bool) (decode : list B -> option M).
Notation bytes m := (concat (fst (encode m))).

Lemma run_app (f : option (list B)) a b : run B f (a ++ b) = run B (run B f a) b.
Proof. apply fold_left_app. Qed.
Lemma run_append l : forall l0, run B (Some l0) (map Append l) = Some (l0 ++ l).
Proof.
  unfold run. induction l as [|x l IH]; cbn; intros l0; [rewrite app_nil_r; reflexivity|].
  rewrite IH, <- app_assoc. reflexivity.
Qed.
Lemma crash_open file m k : crash M B encode true file m (S k) = Some (firstn k (bytes m)).
Proof.
  unfold crash, save_steps. cbn [firstn]. unfold run. cbn [fold_left do_step].
  rewrite firstn_map. exact (run_append (firstn k (bytes m)) []).
Qed.

(** The file at every crash point: untouched before it is opened, from then on a prefix of the
    new encoding, whatever was there before. *)
Theorem C24_file (file : option (list B)) (m : M) (k : nat) :
  (k = 0 -> crash M B encode true file m k = file) /\
  (0 < k -> crash M B encode true file m k = Some (firstn (k - 1) (bytes m))).
Proof.
  split; intros H; [subst; reflexivity|]. destruct k as [|k]; [lia|].
  rewrite crash_open. cbn. rewrite Nat.sub_0_r. reflexivity.
Qed.

(** A later load gives the old content only if the crash came before the file was opened; it
    gives the new model once all bytes are written, and an error in between. *)
Theorem C24_load (file : option (list B)) (m : M) (k : nat) :
  codec encode decode -> snd (encode m) = true ->
  (k = 0 -> load M B decode (crash M B encode true file m k) = load M B decode file) /\
  (0 < k <= List.length (bytes m) -> load M B decode (crash M B encode true file m k) = Err (EOther 2)) /\
  (List.length (bytes m) < k -> load M B decode (crash M B encode true file m k) = Ok m).
Proof.
  intros C E. destruct (C m E) as [C1 C2]. destruct (C24_file file m k) as [F0 F1].
  split; [intros H; rewrite (F0 H); reflexivity|]. split; intros H.
  - rewrite F1 by lia. unfold load. rewrite C2; [reflexivity|].
    pose proof (firstn_skipn (k - 1) (bytes m)) as S.
    assert (L : List.length (skipn (k - 1) (bytes m)) <> 0) by (rewrite skipn_length; lia).
    destruct (skipn (k - 1) (bytes m)) as [|b r]; [cbn in L; congruence|]. exists b, r. symmetry. exact S.
  - rewrite F1 by lia. unfold load. rewrite firstn_all2 by lia. rewrite C1. reflexivity.
Qed.

(** Completed saves: what was saved is loaded; if the file cannot be created it keeps its
    content; if the model cannot be encoded the old content is gone nevertheless. *)
Theorem C24_save (file : option (list B)) (m : M) :
  codec encode decode ->
  (snd (encode m) = true ->
   snd (save M B encode true file m) = Ok tt /\ load M B decode (fst (save M B encode true file m)) = Ok m) /\
  (snd (encode m) = false ->
   is_ok (snd (save M B encode true file m)) = false /\ fst (save M B encode true file m) = Some (bytes m)) /\
  is_ok (snd (save M B encode false file m)) = false /\ fst (save M B encode false file m) = file.
Proof.
  intros C. unfold save, save_result. cbn [fst snd negb].
  assert (F : run B file (save_steps M B encode true m) = Some (bytes m)) by (exact (run_append (bytes m) [])).
  split; [|split].
  - intros E. rewrite E, F. split; [reflexivity|]. unfold load. rewrite (proj1 (C m E)). reflexivity.
  - intros E. rewrite E, F. split; reflexivity.
  - split; reflexivity.
Qed.
End C24.

(** A small codec that meets the contract: a number [n] as [n] ones and a zero, in two
    messages; 100 cannot be encoded. *)
Definition ex_enc (n : nat) : list (list nat) * bool := if n =? 100 then ([], false) else ([repeat 1 n; [0]], true).
Fixpoint ex_dec (l : list nat) : option nat :=
  match l with [] => None | 0 :: _ => Some 0 | S _ :: r => option_map S (ex_dec r) end.
Lemma ex_dec_ones n r : ex_dec (repeat 1 n ++ r) = option_map (fun x => n + x) (ex_dec r).
Proof. induction n as [|n IH]; cbn; [destruct (ex_dec r); reflexivity|]. rewrite IH. destruct (ex_dec r); reflexivity. Qed.
Example ex_codec : codec ex_enc ex_dec.
Proof.
  intros m. unfold ex_enc. destruct (m =? 100); cbn [fst snd]; [discriminate|]. intros _. cbn [concat]. split.
  - rewrite app_nil_r, ex_dec_ones. cbn. f_equal. lia.
  - intros p (b & r & H). rewrite app_nil_r in H.
    assert (P : exists j, p = repeat 1 j).
    { clear - H. revert p H. induction m as [|m IH]; cbn; intros p H.
      - destruct p as [|x p]; [exists 0; reflexivity|]. inversion H. destruct p; discriminate.
      - destruct p as [|x p]; [exists 0; reflexivity|]. inversion H; subst. destruct (IH p) as [j ->]; [assumption|]. exists (S j). reflexivity. }
    destruct P as [j ->]. rewrite <- (app_nil_r (repeat 1 j)), ex_dec_ones. reflexivity.
Qed.
Example ex_save : load nat nat ex_dec (fst (save nat nat ex_enc true (Some [1; 0]) 3)) = Ok 3 /\
  crash nat nat ex_enc true (Some [1; 0]) 3 2 = Some [1].
Proof. split; reflexivity. Qed.

(** So saving over a file can lose the old model without storing the new one: by stopping at
    the wrong moment, or just because the new model cannot be encoded. *)
Theorem C24_atomic_refuted :
  (exists (file : option (list nat)) m k, load nat nat ex_dec file = Ok 1 /\ is_ok (load nat nat ex_dec (crash nat nat ex_enc true file m k)) = false) /\
  (exists (file : option (list nat)) m, load nat nat ex_dec file = Ok 1 /\ is_ok (snd (save nat nat ex_enc true file m)) = false /\
     is_ok (load nat nat ex_dec (fst (save nat nat ex_enc true file m))) = false).
Proof.
  split; [exists (Some [1; 0]), 3, 2|exists (Some [1; 0]), 100]; vm_compute; auto.
Qed.

(** *** C95: the fields of linear.LinearRegression *)
Section C95.
Context {N : Num}.

(** Loading into a new model restores the saved one; a zero intercept of either sign comes back
    as the zero of the new model. *)
Theorem C95_fresh (src : linreg N) :
  gob_load src lr_new =
  (mklr (lr_fitted src) (lr_sfeat src) (lr_ssamp src) (lr_weights src)
     (if neqb (lr_icept src) n0 then n0 else lr_icept src) (lr_nfeat src), Ok tt).
Proof.
  unfold gob_load, lr_new, sent_nat, sent_float. cbn [lr_weights lr_fitted lr_sfeat lr_ssamp lr_icept lr_nfeat].
  destruct src as [f s1 s2 w b n]; cbn [lr_weights lr_fitted lr_sfeat lr_ssamp lr_icept lr_nfeat].
  rewrite orb_false_r. destruct s1, s2, n; destruct w; reflexivity.
Qed.

(** Loading a fitted model into a model that has weights panics, and the model is left with the
    new state and dimensions but its old weights and intercept. *)
Theorem C95_used (src target : linreg N) w w0 :
  lr_weights src = Some w -> lr_weights target = Some w0 ->
  snd (gob_load src target) = Panic /\
  lr_weights (fst (gob_load src target)) = Some w0 /\ lr_icept (fst (gob_load src target)) = lr_icept target /\
  lr_fitted (fst (gob_load src target)) = (lr_fitted src || lr_fitted target)%bool /\
  (lr_sfeat src <> 0 -> lr_sfeat (fst (gob_load src target)) = lr_sfeat src).
Proof.
  intros E1 E2. unfold gob_load. rewrite E1, E2. cbn. repeat split.
  unfold sent_nat. destruct (lr_sfeat src); [congruence|reflexivity].
Qed.

(** Loading a saved new (unfitted) model changes nothing and reports success, whatever is
    loaded into. *)
Theorem C95_unfitted (target : linreg N) :
  neqb n0 (n0 (n := N)) = true -> gob_load lr_new target = (target, Ok tt).
Proof.
  intros E. unfold gob_load, lr_new, sent_float, sent_nat. cbn [lr_weights lr_fitted lr_sfeat lr_ssamp lr_icept lr_nfeat].
  rewrite E. destruct target as [f s1 s2 w b n]; cbn. destruct w; reflexivity.
Qed.
End C95.

(** Over the reals a saved model is restored exactly in a new one and predicts the same. *)
Theorem C95_restores (src : linreg RNum) :
  gob_load src lr_new = (src, Ok tt) /\
  (forall X, lr_predict (fst (gob_load src lr_new)) X = lr_predict src X).
Proof.
  assert (E : gob_load src lr_new = (src, Ok tt)).
  { rewrite C95_fresh. destruct src as [f s1 s2 w b n]; cbn [lr_weights lr_fitted lr_sfeat lr_ssamp lr_icept lr_nfeat].
    destruct (neqb b n0) eqn:K; [|reflexivity]. cbn in K. apply Reqb_true in K. subst. reflexivity. }
  split; [exact E|]. intros X. rewrite E. reflexivity.
Qed.

(** "After LoadModel succeeds the model is the saved one" fails for models used before. *)
Definition gq (w : list Q) (b : Q) : linreg QNum := @mklr QNum true (List.length w) 3 (Some w) b (List.length w).
Theorem C95_used_refuted :
  (exists src target : linreg QNum, snd (gob_load src target) = Ok tt /\
     is_ok (lr_predict src (@mkmat QNum 1 [[1%Q]])) = false /\
     lr_predict (fst (gob_load src target)) (@mkmat QNum 1 [[1%Q]]) = Ok ([5%Q] : list QNum)) /\
  (exists src target : linreg QNum, snd (gob_load src target) = Panic /\
     lr_predict (fst (gob_load src target)) (@mkmat QNum 1 [[1%Q]]) = Ok ([5%Q] : list QNum) /\
     lr_predict src (@mkmat QNum 1 [[1%Q]]) = Ok ([9%Q] : list QNum)).
Proof.
  split; [exists lr_new, (gq [2%Q] 3%Q)|exists (gq [4%Q] 5%Q), (gq [2%Q] 3%Q)]; vm_compute; auto.
Qed.
Example ex_gob : gob_load (gq [2%Q] 3%Q) lr_new = (gq [2%Q] 3%Q, Ok tt).
Proof. reflexivity. Qed.

Print Assumptions C24_file.
Print Assumptions C24_load.
Print Assumptions C24_save.
Print Assumptions C24_atomic_refuted.
Print Assumptions C95_fresh.
Print Assumptions C95_used.
Print Assumptions C95_unfitted.
Print Assumptions C95_restores.
Print Assumptions C95_used_refuted.
