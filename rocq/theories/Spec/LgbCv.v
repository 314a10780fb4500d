(** What is expected of CrossValidateRegressor and CrossValidateClassifier. *)
From Coq Require Import String List Arith ZArith Bool.
From Verif Require Import Base.Num Base.GoRes Base.Mat Model.ParamMap Model.LgbTree Model.LgbEstimator.
Import ListNotations.
Local Open Scope string_scope.
Local Open Scope list_scope.
Local Open Scope num_scope.

Section LgbCvSpec.
  Context {N : Num}.
  (** The regressor with the quantile, Huber, Fair and Tweedie parameters of NewLGBMRegressor *)
  Definition plain (r : rgr N) : rgr N :=
    mkrgr (r_fitted r) (r_model r) (r_nfeat r) (r_h r) (nlit 1 2) n1 n1 (nlit 3 2) (r_cats r).
  (** Training parameters without a least gain for splits, and with categorical features *)
  Definition any_gain (s : settings N) : settings N :=
    mkset (s_iters s) (s_lr s) (s_leaves s) (s_depth s) (s_minleaf s) (s_l2 s) (s_l1 s) n0 (s_bagfrac s) (s_bagfreq s) (s_ffrac s)
          (s_maxbin s) (s_minbin s) (s_obj s) (s_class s) (s_boost s) (s_huber s) (s_quantile s) (s_fair s) (s_tweedie s) (s_cats s)
          (s_onehot s) (s_seed s) (s_det s) (s_verb s) (s_early s).
  Definition categorical (cats : list Z) (s : settings N) : settings N :=
    mkset (s_iters s) (s_lr s) (s_leaves s) (s_depth s) (s_minleaf s) (s_l2 s) (s_l1 s) (s_mingain s) (s_bagfrac s) (s_bagfreq s) (s_ffrac s)
          (s_maxbin s) (s_minbin s) (s_obj s) (s_class s) (s_boost s) (s_huber s) (s_quantile s) (s_fair s) (s_tweedie s) cats
          (s_onehot s) (s_seed s) (s_det s) (s_verb s) (s_early s).
  (** The initial score plus the whole leaf values that the trees reach *)
  Definition unscaled (toint : N -> Z) (fuel : nat) (m : gmodel N) (x : list N) (v : N) : Prop :=
    exists outs, Forall2 (fun t o => tree_predict toint fuel t x = Some (Ok o)) (m_trees m) outs /\ v = fold_left nadd outs (m_init m).
  (** The rows labelled zero or one *)
  Definition zero_or_one (t : N) : bool := (t =? n0) || (t =? n1).
End LgbCvSpec.
