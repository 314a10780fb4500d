(** C106 and C108: witnesses and examples for the estimators LGBMClassifier and LGBMRegressor. *)
From Coq Require Import String List Arith Bool ZArith Lia Reals Lra.
From Verif Require Import Base.Num Base.GoRes Base.Mat Base.RTac Base.FTac Spec.Order Spec.LgbEstimator.
From Verif Require Import Model.LgbTransform Model.LgbTree Model.LgbTrain Model.ParamMap Model.LgbEstimator.
From Verif Require Import Proofs.OrderP Proofs.LgbEstimatorP Proofs.LgbEstimatorRP Props.LgbEstimatorProps.
Import ListNotations.
Local Open Scope string_scope.
Local Open Scope list_scope.
Local Open Scope R_scope.

(** Probabilities that are not numbers: the label 0, which is none of the classes. *)
Definition FE : Num := FNum (fun x => if f64_isnan x then x else f 1 1) (fun x => x).
Definition held (cls : list Z) (m : gmodel FE) : clf FE := @mkclf FE true (Some m) cls (m_nfeat m) (m_class m) (c_h new_clf) [].
Definition row0 : matrix FE := @mkmat FE 1 [[f 0 1]].
Definition answers (c : clf FE) (X : matrix FE) : option (list (list SpecFloat.spec_float)) :=
  match @clf_predict FE (fun _ => 0%Z) 9 c X with Some (Ok Q) => Some (map (map fs) (mrows Q)) | _ => None end.
Theorem C106_nan_refuted : exists (c : clf FE) m, stored c m /\ c_classes c = [5; 6; 7]%Z /\ answers c row0 = Some [[fs (f 0 1)]].
Proof.
  exists (held [5; 6; 7]%Z (@constant_model FE "multiclass" 3 1 f64_nan)), (@constant_model FE "multiclass" 3 1 f64_nan).
  split; [split; reflexivity|]. split; [reflexivity|]. vm_compute. reflexivity.
Qed.
(** A classifier for the labels 3 and 7 whose second Fit fails, because all labels are 9, answers 9. *)
Definition nine (_ : FE) : Z := 9%Z.
Definition no_trainer (_ : settings FE) (_ : option FE) (_ : option (list FE)) (_ : matrix FE) (_ : list FE) : option (res (gmodel FE)) := None.
Theorem C106_one_class_refuted : exists (c c' : clf FE) m e, stored c m /\ c_classes c = [3; 7]%Z
  /\ @clf_fit FE nine (fun l => l) no_trainer None None row0 row0 c = Some (c', Err e)
  /\ answers c row0 = Some [[fs (f 7 1)]] /\ answers c' row0 = Some [[fs (f 9 1)]].
Proof.
  exists (held [3; 7]%Z (@constant_model FE "binary" 1 1 (f 0 1))). eexists _, (@constant_model FE "binary" 1 1 (f 0 1)), _.
  split; [split; reflexivity|]. split; [reflexivity|]. split; [reflexivity|]. split; vm_compute; reflexivity.
Qed.
(** Loading that classifier from its own file changes its answer from 7 to 1. *)
Theorem C106_reload_refuted : exists (c : clf FE) m, stored c m /\ c_classes c = [3; 7]%Z
  /\ answers c row0 = Some [[fs (f 7 1)]] /\ answers (fst (clf_load (Ok m) c)) row0 = Some [[fs (f 1 1)]].
Proof.
  exists (held [3; 7]%Z (@constant_model FE "binary" 1 1 (f 0 1))), (@constant_model FE "binary" 1 1 (f 0 1)).
  split; [split; reflexivity|]. split; [reflexivity|]. split; vm_compute; reflexivity.
Qed.
(** The hypotheses of the theorems on loading: a regression model with one feature *)
Example C106_load_example : let m := @constant_model FE "regression" 1 1 (f 5 2) in
  outputs_count m = 1%nat /\ is_binary (m_obj m) = false /\ (exists P, predict_model (fun _ => 0%Z) 9 m row0 = Some (Ok P))
  /\ clf_predict (fun _ => 0%Z) 9 (fst (clf_load_text (Ok m) new_clf)) row0 = Some Panic
  /\ answers (fst (clf_load (Ok m) new_clf)) row0 = Some [[fs (f 0 1)]].
Proof. split; [reflexivity|]. split; [reflexivity|]. split; [eexists; reflexivity|]. split; [reflexivity|vm_compute; reflexivity]. Qed.
(** A classifier that notes two columns for a model with one *)
Example C106_width_example : exists c m, stored c m /\ c_nfeat c <> m_nfeat m /\ clf_predict (N := FE) (fun _ => 0%Z) 9 c row0 = Some (Err (EDimension 2 1)).
Proof.
  exists (@mkclf FE true (Some (@constant_model FE "binary" 1 1 (f 0 1))) [3; 7]%Z 2 1 (c_h new_clf) []), (@constant_model FE "binary" 1 1 (f 0 1)).
  split; [split; reflexivity|]. split; [discriminate|reflexivity].
Qed.
(** Settings that differ only in what training does not read *)
Example C106_settings_example : same_training (@mkhyper FE 31 (-1) (f 1 10) 100 20 (f 1 1000) (f 1 1) 0 (f 1 1) (f 0 1) (f 0 1) 42 "binary" "auto" (-1) false (-1) 0 "" "")
  (@mkhyper FE 31 (-1) (f 1 10) 100 20 (f 9 1) (f 1 1) 0 (f 1 1) (f 0 1) (f 0 1) 42 "cross_entropy" "auc" 8 false (-1) 0 "dart" "split").
Proof. unfold same_training. repeat split. Qed.

Definition trained_rgr (obj : string) (v : R) : rgr RNum :=
  @mkrgr RNum true (Some (@constant_model RNum obj 1 1 v)) 1 new_hyper (1 / 2) 1 1 (3 / 2) [].
(** A negative prediction: the quantile 9/10 lies below the quantile 1/10. *)
Theorem C108_quantiles_refuted : exists (r : rgr RNum) X a b,
  @rgr_quantiles RNum whole 9 r X [1 / 10; 9 / 10] = Some (Ok [@mkmat R 1 [[a]]; @mkmat R 1 [[b]]]) /\ b < a.
Proof.
  assert (HP : @rgr_predict RNum whole 9 (trained_rgr "quantile" (-1)) one_row = Some (Ok (@mkmat R 1 [[-1]]))) by reflexivity.
  exists (trained_rgr "quantile" (-1)), one_row, (@shifted RNum (1 / 10) (-1)), (@shifted RNum (9 / 10) (-1)). split.
  - unfold rgr_quantiles. cbn [trained_rgr r_fitted r_model constant_model m_obj negb String.eqb Ascii.eqb Bool.eqb]. cbn [quantiles_of]. rewrite HP.
    repeat match goal with |- context [@nle RNum ?a ?b] => change (@nle RNum a b) with (Rleb a b) end. cbn [n0 n1 RNum].
    destruct (Rleb_spec (1 / 10) 0); [lra|]. destruct (Rleb_spec 1 (1 / 10)); [lra|]. destruct (Rleb_spec (9 / 10) 0); [lra|]. destruct (Rleb_spec 1 (9 / 10)); [lra|].
    reflexivity.
  - unfold shifted. rewrite !nlit_R. cbn [nadd nmul nsub RNum]. unR. lra.
Qed.
(** One target too many; one target too few *)
Example C108_targets_example : exists P, @rgr_predict RNum whole 9 (trained_rgr "regression" 1) two_points = Some (Ok P) /\ (nrows two_points < nrows three_points)%nat
  /\ (0 < nrows one_row <= nrows two_points)%nat.
Proof. eexists. split; [reflexivity|]. cbn. lia. Qed.
Example C108_width_example : exists r m, stores r m /\ r_nfeat r <> m_nfeat m /\ @rgr_predict RNum whole 9 r one_row = Some (Err (EDimension 2 1)).
Proof.
  exists (@mkrgr RNum true (Some (@constant_model RNum "regression" 1 1 1)) 2 new_hyper (1 / 2) 1 1 (3 / 2) []), (@constant_model RNum "regression" 1 1 1).
  split; [split; reflexivity|]. split; [discriminate|reflexivity].
Qed.
Definition mean_trainer (s : settings RNum) (_ : option RNum) (_ : option (list RNum)) (X : matrix RNum) (_ : list RNum) : option (res (gmodel RNum)) :=
  Some (Ok (@constant_model RNum "regression" 1 (Z.of_nat (mcols X)) 1)).
Example C108_fit_example : exists r', rgr_fit mean_trainer two_points two_points (@new_rgr RNum) = Some (r', Ok tt) /\ stores r' (@constant_model RNum "regression" 1 1 1).
Proof. eexists. split; [reflexivity|split; reflexivity]. Qed.
Example C108_nan_example : cmp_laws FE /\ nisnan (f64_nan : FE) = true
  /\ exists Q, rgr_quantiles (N := FE) (fun _ => 0%Z) 9 (@mkrgr FE true (Some (@constant_model FE "quantile" 1 1 (f 1 1))) 1 new_hyper (f 1 2) (f 1 1) (f 1 1) (f 3 2) []) row0 [f64_nan] = Some (Ok Q).
Proof. split; [apply cmp_laws_F|]. split; [reflexivity|]. eexists. reflexivity. Qed.


Print Assumptions C106_nan_refuted.
Print Assumptions C106_one_class_refuted.
Print Assumptions C106_reload_refuted.
Print Assumptions C108_quantiles_refuted.
