(** C04-C07 - pkg/errors/numerical.go, pkg/errors/recovery.go. *)
From Coq Require Import List Arith ZArith Bool Reals Lra.
From Flocq Require Import IEEE754.BinarySingleNaN.
From Verif Require Import Base.Num Base.GoRes Base.RTac Base.FTac Model.Numerical Proofs.NumericalP.
Import ListNotations.

(** ** C04: NaN/Inf detection is exact on IEEE doubles. *)
Theorem C04_stability_iff_finite : forall fexp flog (values : list F64),
  @check_numerical_stability (FNum fexp flog) values = None <->
  (forall v, In v values -> is_finite v = true).
Proof. exact check_stability_float. Qed.
Print Assumptions C04_stability_iff_finite.

Theorem C04_scalar_iff_finite : forall fexp flog (v : F64),
  @check_scalar (FNum fexp flog) v = if is_finite v then None else Some [v].
Proof. intros fexp flog [s|s| |s m e h]; reflexivity. Qed.
Print Assumptions C04_scalar_iff_finite.

Theorem C04_matrix_iff_finite : forall fexp flog (at_ : nat -> nat -> F64) rows cols,
  @check_matrix (FNum fexp flog) at_ rows cols = None <->
  (forall i j, i < rows -> j < cols -> is_finite (at_ i j) = true).
Proof. exact check_matrix_float. Qed.
Print Assumptions C04_matrix_iff_finite.

(** What the matrix check reports: between one and ten entries, all of them
    non-finite and all from the first row that has a non-finite entry. *)
Theorem C04_matrix_report : forall (N : Num) (at_ : nat -> nat -> N) rows cols vs,
  check_matrix at_ rows cols = Some vs ->
  vs <> [] /\ length vs <= 10 /\
  exists i, i < rows /\
    (forall v, In v vs -> (nisnan v || nisinf v = true) /\ exists j, j < cols /\ at_ i j = v) /\
    (forall i' j, i' < i -> j < cols -> nisnan (at_ i' j) || nisinf (at_ i' j) = false).
Proof. exact @check_matrix_some. Qed.
Print Assumptions C04_matrix_report.

Example C04_example :
  option_map (map fs) (@check_numerical_stability F0 [f 1 2; f64_inf true; f 3 1])
    = Some (map fs [f 1 2; f64_inf true; f 3 1])
  /\ option_map (map fs) (@check_numerical_stability F0 [f 1 2; f 3 1]) = None
  /\ option_map (map fs)
       (@check_matrix F0 (fun i j => if (i =? 2) && (j =? 1) then f64_nan else f 1 1) 4 3)
     = Some [fs f64_nan].
Proof. vm_compute. repeat split. Qed.

(** ** C05: clipping. *)
Theorem C05_clip_value_in_range : forall fexp flog (v lo hi : F64),
  f64_isnan v = false -> f64_isnan lo = false -> f64_isnan hi = false -> Bleb lo hi = true ->
  Bleb lo (@clip_value (FNum fexp flog) v lo hi) = true /\
  Bleb (@clip_value (FNum fexp flog) v lo hi) hi = true.
Proof. exact clip_in_range. Qed.
Print Assumptions C05_clip_value_in_range.

Theorem C05_clip_value_identity : forall fexp flog (v lo hi : F64),
  Bleb lo v = true -> Bleb v hi = true -> @clip_value (FNum fexp flog) v lo hi = v.
Proof. exact clip_identity. Qed.
Print Assumptions C05_clip_value_identity.

(** NaN is passed through, so the result of ClipValue may be outside of the range. *)
Theorem C05_clip_value_nan : forall fexp flog (lo hi : F64),
  @clip_value (FNum fexp flog) f64_nan lo hi = f64_nan.
Proof. exact clip_nan. Qed.
Print Assumptions C05_clip_value_nan.

(** ClipGradient, exact arithmetic: the result never exceeds the bound ... *)
Theorem C05_clip_gradient_norm : forall (g : list R) (m : R), (0 <= m)%R ->
  (sqrt (Rsum (map (fun x => x * x)%R (@clip_gradient RNum g m))) <= m)%R.
Proof. exact clip_gradient_norm. Qed.
Print Assumptions C05_clip_gradient_norm.

(** ... is the input when that is within the bound ... *)
Theorem C05_clip_gradient_identity : forall (g : list R) (m : R),
  (sqrt (Rsum (map (fun x => x * x)%R g)) <= m)%R -> @clip_gradient RNum g m = g.
Proof. exact clip_gradient_inside. Qed.
Print Assumptions C05_clip_gradient_identity.

(** ... and otherwise a shrunk copy of it whose norm is exactly the bound. *)
Theorem C05_clip_gradient_direction : forall (g : list R) (m : R),
  (0 <= m)%R -> (m < sqrt (Rsum (map (fun x => x * x)%R g)))%R ->
  (exists c, (0 <= c <= 1)%R /\ @clip_gradient RNum g m = map (fun x => x * c)%R g) /\
  sqrt (Rsum (map (fun x => x * x)%R (@clip_gradient RNum g m))) = m.
Proof. exact clip_gradient_outside. Qed.
Print Assumptions C05_clip_gradient_direction.

Example C05_example_float :
  fs (@clip_value F0 (f 7 1) (f (-1) 1) (f 1 1)) = fs (f 1 1) /\
  fs (@clip_value F0 (f64_inf true) (f (-1) 1) (f 1 1)) = fs (f (-1) 1) /\
  map fs (@clip_gradient F0 [f 30 1; f 40 1] (f 100 1)) = map fs [f 30 1; f 40 1] /\
  map fs (@clip_gradient F0 [f 30 1; f 40 1] (f 25 1)) = map fs [f 15 1; f 20 1].
Proof. vm_compute. repeat split. Qed.
Example C05_example_real : (5 < sqrt (Rsum (map (fun x => x * x) [30; 40])))%R.
Proof.
  simpl. replace (30 * 30 + (40 * 40 + 0))%R with (50 * 50)%R by ring.
  rewrite sqrt_square; lra.
Qed.

(** ** C06: recovery. *)
(** A wrapped body never lets a panic escape, whatever it nests. *)
Theorem C06_no_panic_escapes : forall p, call (PSafe p) <> None.
Proof. discriminate. Qed.
Print Assumptions C06_no_panic_escapes.

(** The wrapper returns exactly the body's own result, or the panic error when
    (and only when) a panic left the body. *)
Theorem C06_safe_execute : forall p,
  (forall e, call p = Some e -> safe_execute p = e) /\
  (call p = None -> safe_execute p = Some EPanic) /\
  (safe_execute p = None <-> call p = Some None).
Proof.
  intros p. rewrite safe_execute_spec. destruct (call p) as [e|].
  - split; [intros e' H; congruence|]. split; [discriminate|]. split; congruence.
  - split; [discriminate|]. split; [reflexivity|]. split; discriminate.
Qed.
Print Assumptions C06_safe_execute.

(** A deferred Recover in a function with a named result: the call reports
    success only if the body returned nil, and an error that was already set when
    the panic happened is still found on the unwrap chain (errors.Is). *)
Fixpoint unwraps_to (e0 e : err) : Prop :=
  e = e0 \/ match e with EWrapped inner => unwraps_to e0 inner | _ => False end.

Theorem C06_deferred_recover : forall b,
  (recover_deferred b = None <-> b = Returned None) /\
  (forall e0, b = Returned (Some e0) \/ b = Panicked (Some e0) ->
     exists e, recover_deferred b = Some e /\ unwraps_to e0 e) /\
  (b = Panicked None -> recover_deferred b = Some EPanic).
Proof.
  intros [[e|]|[e|]]; cbn [recover_deferred]; (split; [split; congruence|]).
  - split; [|discriminate]. intros e0 [H|H]; [injection H as <-|discriminate].
    exists e. split; [reflexivity|]. destruct e; now left.
  - split; [|discriminate]. intros e0 [H|H]; discriminate.
  - split; [|discriminate]. intros e0 [H|H]; [discriminate|injection H as <-].
    exists (EWrapped e). split; [reflexivity|]. right. destruct e; now left.
  - split; [|reflexivity]. intros e0 [H|H]; discriminate.
Qed.
Print Assumptions C06_deferred_recover.

(** Panic reports do not leak out of nested wrappers: a wrapper around a body
    that runs a wrapped panicking part and handles it is transparent. *)
Theorem C06_nested : forall p q,
  safe_execute (PThen (PSafe p) q) =
  match safe_execute p with Some e => Some e | None => safe_execute q end.
Proof.
  intros p q. rewrite !safe_execute_spec. cbn [call].
  destruct (call p) as [[e|]|]; reflexivity.
Qed.
Print Assumptions C06_nested.

Example C06_example :
  safe_execute (PThen (PRet None) (PSafe (PThen (PRet None) PPanic))) = Some EPanic /\
  safe_execute (PThen (PSafe (PRet None)) (PRet (Some EValue))) = Some EValue /\
  call (PThen (PRet None) PPanic) = None.
Proof. repeat split. Qed.

(** ** C07: LogSumExp over the reals. *)
Theorem C07_log_sum_exp : forall values : list R, values <> [] ->
  @log_sum_exp RNum values = ln (Rsum (map exp values)).
Proof. exact log_sum_exp_R. Qed.
Print Assumptions C07_log_sum_exp.

Theorem C07_bounds : forall v0 (rest : list R), exists m,
  In m (v0 :: rest) /\ (forall v, In v (v0 :: rest) -> (v <= m)%R) /\
  (m <= @log_sum_exp RNum (v0 :: rest) <= m + ln (INR (length (v0 :: rest))))%R.
Proof.
  intros v0 rest. exists (@lse_max RNum v0 rest).
  split; [exact (lse_max_in v0 rest)|]. split; [|exact (log_sum_exp_bounds v0 rest)].
  intros v [<-|Hv]; [exact (proj1 (lse_max_ge v0 rest))|exact (proj2 (lse_max_ge v0 rest) v Hv)].
Qed.
Print Assumptions C07_bounds.

(** The exponential is never taken of a positive number, so it cannot overflow. *)
Theorem C07_exp_arguments_nonpositive : forall (values : list R) a,
  In a (@lse_exp_args RNum values) -> (a <= 0)%R.
Proof. exact lse_args_nonpos. Qed.
Print Assumptions C07_exp_arguments_nonpositive.

Theorem C07_shift : forall (values : list R) c, values <> [] ->
  @log_sum_exp RNum (map (fun v => v + c)%R values) = (@log_sum_exp RNum values + c)%R.
Proof. exact log_sum_exp_shift. Qed.
Print Assumptions C07_shift.

Example C07_example : @log_sum_exp RNum [3%R] = 3%R /\ @lse_exp_args RNum [1%R; 3%R] = [-2; 0]%R.
Proof.
  split.
  - rewrite log_sum_exp_R by easy. simpl. rewrite Rplus_0_r. apply ln_exp.
  - unfold lse_exp_args, lse_max. cbn. rdecide. repeat f_equal; lra.
Qed.
