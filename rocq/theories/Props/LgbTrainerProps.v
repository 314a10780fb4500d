(** C127: class weights of the lightgbm trainer; C128: calling Fit again; C129: monotone constraints. *)
From Coq Require Import String List Arith ZArith Bool Lia Permutation Reals Lra.
From Verif Require Import Base.Num Base.GoRes Base.ListX Base.RTac Base.FTac Base.GoSort Model.LgbTransform Model.LgbTree Model.LgbHist Model.LgbTrain Model.LgbObjective
  Model.LgbText Model.LgbTrainer Spec.LgbTrainer Proofs.LgbTreeP Proofs.LgbBoostP Proofs.LgbTrainerP Props.LgbHistProps.
Import ListNotations.
Local Open Scope string_scope.
Local Open Scope list_scope.

(** ** C127 *)
(** Training with class weights gives the trees, scores and initial score of training with the sample weights multiplied by the
    weight of the class; rows of a class without weight count as with weight 1.  Over the real numbers. *)
Theorem C127_sample_weights : forall toint X cols sortf sortr o fuel (p : tparams RNum) cw m bags (y : list RNum) (t : trainer RNum),
  class_weights toint cw y = Ok (Some m) ->
  omap learnt (trainer_fit toint X cols sortf sortr o fuel p cw bags y t)
  = omap learnt (trainer_fit toint X cols sortf sortr o fuel p CwNil bags y (@set_weight RNum (Some (combined toint m (in_force t y) y)) t)).
Proof. intros. now apply fit_R. Qed.

(** "balanced" gives all classes the same total weight: the number of rows divided by the number of classes. *)
Theorem C127_balanced : forall (toint : RNum -> Z) (y : list RNum), y <> [] ->
  exists m, class_weights toint (CwString "balanced") y = Ok (Some m)
    /\ forall c, In c (map toint y) -> class_total toint m y c = (INR (List.length y) / INR (List.length (classes_of toint y)))%R.
Proof. intros toint y H. exists (balanced toint y). split; [now apply class_weights_balanced|]. intros c Hc. now apply balanced_total. Qed.

(** Anything but "balanced" and the two kinds of maps is refused, before any round. *)
Theorem C127_refused : forall (N : Num) toint X cols sortf sortr o fuel (p : tparams N) cw bags y (t : trainer N), y <> [] ->
  (exists s, cw = CwString s /\ s <> "balanced") \/ cw = CwOther
  \/ (exists l, cw = CwStrings l /\ Exists (fun e => atoi (fst e) = None \/ snd e = None) l) ->
  exists e, trainer_fit toint X cols sortf sortr o fuel p cw bags y t = Some (Err e).
Proof.
  intros N toint X cols sortf sortr o fuel p cw bags y t Hy H. unfold trainer_fit.
  enough (E : exists e, class_weights toint cw y = Err e) by (destruct E as [e ->]; eauto). destruct y as [|a y]; [congruence|].
  destruct H as [(s & -> & Hs)|[->|(l & -> & Hl)]]; cbn [class_weights].
  - destruct (String.eqb_spec s "balanced"); [congruence|eauto].
  - eauto.
  - match goal with |- context [foldM ?f [] l] => destruct (foldM f [] l) as [m'|e|] eqn:E end; cbn [bind]; [|eauto|].
    + exfalso. apply named_ok in E. apply Exists_exists in Hl. destruct Hl as (x & Hx & K). rewrite Forall_forall in E. destruct (E x Hx). tauto.
    + exfalso. revert E. generalize (@nil (Z * N)). clear. induction l as [|[k v] l IH]; intros acc; [discriminate|]. cbn [foldM fst snd].
      destruct (atoi k); [|discriminate]. destruct v; [|discriminate]. cbn [bind]. apply IH.
Qed.

(** With names that stand for different numbers, every entry is found whatever the order in which the map is visited. *)
Theorem C127_names : forall (N : Num) (toint : N -> Z) (l : list (string * option N)) y c, y <> [] ->
  NoDup (map (fun e => atoi (fst e)) l) -> Forall (fun e => atoi (fst e) <> None /\ snd e <> None) l ->
  exists m, class_weights toint (CwStrings l) y = Ok (Some m) /\
    forall w, zget c m = Some w <-> exists k, In (k, Some w) l /\ atoi k = Some c.
Proof.
  intros N toint l y c Hy ND H. destruct y as [|a y]; [congruence|]. cbn [class_weights]. destruct (named_runs l [] H) as [m E]. rewrite E. cbn [bind]. exists m.
  split; [reflexivity|]. intros w. rewrite (named_get l [] m c ND E). split.
  - destruct (find _ l) as [[k v]|] eqn:F; [|discriminate]. cbn [snd]. intros ->. apply find_some in F. destruct F as [F1 F2]. cbn [fst] in F2.
    exists k. split; [exact F1|]. destruct (atoi k) as [d|]; [|discriminate]. apply Z.eqb_eq in F2. now subst.
  - intros (k & Hk & Ek). clear E H. induction l as [|[k' v'] l IH]; [destruct Hk|]. cbn [map fst] in ND. inversion ND as [|x r H1 H2]; subst. cbn [find fst].
    destruct Hk as [[= -> ->]|Hk].
    + rewrite Ek, Z.eqb_refl. reflexivity.
    + destruct (atoi k') as [d|] eqn:Ek'; [|exact (IH H2 Hk)]. destruct (Z.eqb_spec d c) as [->|]; [|exact (IH H2 Hk)].
      exfalso. apply H1. apply in_map_iff. exists (k, Some w). cbn. split; [congruence|exact Hk].
Qed.
(** Two names of the same class: the weight depends on the order of the visit, which Go leaves open. *)
Theorem C127_names_refuted : exists (l l' : list (string * option F0)) m m',
  Permutation l l' /\ NoDup (map fst l) /\ class_weights (fun _ => 1%Z) (CwStrings l) [f 1 1] = Ok (Some m)
  /\ class_weights (fun _ => 1%Z) (CwStrings l') [f 1 1] = Ok (Some m') /\ zget 1 m = Some (f 2 1) /\ zget 1 m' = Some (f 3 1) /\ fs (f 2 1) <> fs (f 3 1).
Proof.
  exists [("01", Some (f 3 1)); ("1", Some (f 2 1))], [("1", Some (f 2 1)); ("01", Some (f 3 1))], [(1%Z, f 2 1)], [(1%Z, f 3 1)].
  split; [constructor|]. split; [repeat constructor; cbn; intuition discriminate|]. split; [reflexivity|]. split; [reflexivity|]. split; [reflexivity|]. split; [reflexivity|].
  vm_compute. discriminate.
Qed.

(** The reported training loss is weighted by the sample weights only, whatever the class weights. *)
Theorem C127_loss : forall (N : Num) toint X cols sortf sortr o fuel (p : tparams N) cw bags y (t t' : trainer N),
  trainer_fit toint X cols sortf sortr o fuel p cw bags y t = Some (Ok t') -> bags <> [] ->
  match tr_preds t with Some ps => List.length ps = List.length y | None => True end -> List.length (in_force t y) = List.length y ->
  last (tr_losses t') n0 = train_loss y (in_force t y) (o_loss o) (scores t' y).
Proof.
  intros N toint X cols sortf sortr o fuel p cw bags y t t' E Hb H1 H2. unfold trainer_fit in E. fold (in_force t y) in E.
  destruct (class_weights _ _ _) as [m| |]; try discriminate. destruct (if tr_initset t then _ else _) as [i| |]; try discriminate.
  destruct (loop_losses _ _ _ _ _ _ _ _ _ _ _ _ _ _ E) as [_ L]; [|exact H2|exact (L Hb)].
  unfold scores. cbn. destruct (tr_preds t); [exact H1|apply repeat_length].
Qed.

(** ** C128 *)
(** Fit on the same data again continues the training: as one call with all rounds. *)
Theorem C128_continues : forall (N : Num) toint X cols sortf sortr o fuel (p : tparams N) cw bags1 bags2 y (t : trainer N),
  match trainer_fit toint X cols sortf sortr o fuel p cw bags1 y t with
  | Some (Ok t') => trainer_fit toint X cols sortf sortr o fuel p cw bags2 y t'
  | x => x
  end = trainer_fit toint X cols sortf sortr o fuel p cw (bags1 ++ bags2) y t.
Proof. intros. apply fit_twice. Qed.

(** After a call of Fit, a call with more rows (and at least one round) panics, unless more sample weights are set and there are no scores yet. *)
Theorem C128_more_rows : forall (N : Num) toint X X' cols cols' sortf sortr sortf' sortr' o o' fuel fuel' (p p' : tparams N) cw cw' bags bags' y y' (t t' : trainer N) m i,
  tr_preds t = None -> tr_weight t = None -> trainer_fit toint X cols sortf sortr o fuel p cw bags y t = Some (Ok t') ->
  (List.length y < List.length y') -> bags' <> [] -> class_weights toint cw' y' = Ok m -> o_init o' y' = Ok i ->
  trainer_fit toint X' cols' sortf' sortr' o' fuel' p' cw' bags' y' t' = Some Panic.
Proof.
  intros N toint X X' cols cols' sortf sortr sortf' sortr' o o' fuel fuel' p p' cw cw' bags bags' y y' t t' m i Hp Hw E HL Hb Hm Hi.
  eapply fit_more_rows; [exact Hm|right; eauto|exact Hb| |reflexivity]. left. unfold trainer_fit in E. rewrite Hw in E.
  destruct (class_weights _ cw _) as [m0| |]; try discriminate. destruct (if tr_initset t then _ else _) as [j| |]; try discriminate.
  destruct (loop_keeps _ _ _ _ _ _ _ _ _ _ _ _ _ _ E) as (A1 & _). cbn in A1. rewrite A1, repeat_length. exact HL.
Qed.

(** Fit on other targets for the same rows goes on from the scores of the first call, which start at the first initial score,
    keeps the first trees, but takes the initial score of the new targets into the model. *)
Theorem C128_other_targets : forall (N : Num) toint X cols sortf sortr o fuel (p : tparams N) bags1 bags2 y1 y2 (t1 t2 : trainer N) i,
  trainer_fit toint X cols sortf sortr o fuel p CwNil bags1 y1 new_trainer = Some (Ok t1) -> bags1 <> [] ->
  trainer_fit toint X cols sortf sortr o fuel p CwNil bags2 y2 t1 = Some (Ok t2) -> List.length y2 = List.length y1 -> i < List.length y1 ->
  exists init1 init2 outs, o_init o y1 = Ok init1 /\ o_init o y2 = Ok init2 /\ tr_init t2 = init2
    /\ List.length (tr_trees t2) = List.length bags1 + List.length bags2
    /\ Forall2 (fun tr out => tree_predict toint fuel tr (row X cols i) = Some (Ok out)) (tr_trees t2) outs
    /\ nth_error (scores t2 y2) i = Some (fold_left (fun a out => (a + out * tp_lr p)%num) outs init1).
Proof.
  intros N toint X cols sortf sortr o fuel p bags1 bags2 y1 y2 t1 t2 i E1 Hb E2 HL Hi.
  destruct (fit_scores toint X cols sortf sortr o fuel p y1 new_trainer bags1 t1 i (tr_init t1)) as (A1 & A2 & A3 & A4 & new1 & outs1 & B1 & B2 & B3 & B4).
  { exact I. }
  { unfold in_force. cbn. apply repeat_length. }
  { exact E1. }
  { cbn. now apply nth_error_repeat. }
  cbn [tr_initset new_trainer tr_trees app] in A1, A2, B1.
  assert (P1 : exists ps, tr_preds t1 = Some ps).
  { unfold trainer_fit in E1. cbn [class_weights tr_initset new_trainer] in E1. destruct (o_init o y1) as [j| |]; try discriminate.
    destruct (loop_keeps _ _ _ _ _ _ _ _ _ _ _ _ _ _ E1) as (_ & _ & _ & _ & K). specialize (K Hb). destruct (tr_preds t1); [eauto|congruence]. }
  destruct P1 as [ps P1]. unfold scores in A3, B4. rewrite P1 in A3, B4.
  destruct (fit_scores toint X cols sortf sortr o fuel p y2 t1 bags2 t2 i (fold_left (fun a out => (a + out * tp_lr p)%num) outs1 (tr_init t1))) as (C1 & C2 & C3 & C4 & new2 & outs2 & D1 & D2 & D3 & D4).
  { rewrite P1. congruence. }
  { unfold in_force. rewrite A4. unfold in_force. cbn. rewrite repeat_length. congruence. }
  { exact E2. }
  { rewrite P1. exact B4. }
  rewrite A2 in C1. exists (tr_init t1), (tr_init t2), (outs1 ++ outs2). do 3 (split; [auto|]). split; [rewrite D1, B1, app_length; congruence|].
  split; [rewrite D1, B1; now apply Forall2_app|]. rewrite fold_left_app. exact D4.
Qed.

(** So a model can be wrong by the difference of the initial scores: targets 0, 0 and then 10, 10 for the same rows, learning rate
    1.  The scores in training are about 10, the Predictor says about 20. *)
Definition quick_params : tparams F0 := mktp (-1) 31 1 1 (f 1 1024) (f 0 1) (f 0 1) 255 [] (f 1 1) (f 1 1) [].
Definition rows2 (i j : nat) : F0 := nth i [f 1 1; f 2 1] (f 0 1).
Definition near (a b : F0) : bool := nlt (nabs (nsub a b)) (f 1 1048576).
Definition refitted : option (res (trainer F0)) :=
  match trainer_fit (fun _ => 0%Z) rows2 1 fsort (fun l => l) l2 9 quick_params CwNil [[0; 1]] [f 0 1; f 0 1] new_trainer with
  | Some (Ok t) => trainer_fit (fun _ => 0%Z) rows2 1 fsort (fun l => l) l2 9 quick_params CwNil [[0; 1]] [f 10 1; f 10 1] t
  | x => x
  end.
Theorem C128_refit_refuted :
  match refitted with
  | Some (Ok t) =>
      match predictor_raw (fun _ => 0%Z) 9 (trainer_model 1 "regression" 0 quick_params t) (row rows2 1 0) with
      | Some (Ok [v]) => near v (f 20 1) && near (nth 0 (scores t [f 10 1; f 10 1]) (f 0 1)) (f 10 1) && Nat.eqb (List.length (tr_trees t)) 2
      | _ => false
      end
  | _ => false
  end = true.
Proof. vm_compute. reflexivity. Qed.

(** ** C129 *)
(** MonotoneConstraints has no effect on training. *)
Theorem C129_ignored : forall (N : Num) toint X cols sortf sortr o fuel (p : tparams N) mono cw bags y (t : trainer N),
  trainer_fit toint X cols sortf sortr o fuel (with_mono mono p) cw bags y t = trainer_fit toint X cols sortf sortr o fuel p cw bags y t.
Proof. intros. apply fit_mono. Qed.
(** A feature declared increasing, and predictions that decrease in it *)
Theorem C129_increasing_refuted :
  match trainer_fit (fun _ => 0%Z) rows2 1 fsort (fun l => l) l2 9 (with_mono [1%Z] quick_params) CwNil [[0; 1]] [f 1 1; f (-1) 1] new_trainer with
  | Some (Ok t) =>
      let m := trainer_model 1 "regression" 0 quick_params t in
      match predictor_raw (fun _ => 0%Z) 9 m [f 1 1], predictor_raw (fun _ => 0%Z) 9 m [f 2 1] with
      | Some (Ok [a]), Some (Ok [b]) => near a (f 1 1) && near b (f (-1) 1)
      | _, _ => false
      end
  | _ => false
  end = true.
Proof. vm_compute. reflexivity. Qed.
(** The check that is not used would have refused this split: gradient sums -1 and 1, hessian sums 1. *)
Example C129_check : satisfies_monotone [1%Z] 0 (f (-1) 1) (f 1 1) (f 1 1) (f 1 1) = false
  /\ satisfies_monotone [(-1)%Z] 0 (f (-1) 1) (f 1 1) (f 1 1) (f 1 1) = true /\ satisfies_monotone [] 0 (f (-1) 1) (f 1 1) (f 1 1) (f 1 1) = true.
Proof. vm_compute. repeat split; reflexivity. Qed.

(** ** Examples *)
(** Weights of the classes 0 (three rows) and 1 (one row): 2/3 and 2 *)
Definition toint2 (v : F0) : Z := if nlt v (f 1 1) then 0%Z else 1%Z.
Example C127_example :
  match class_weights toint2 (CwString "balanced") [f 0 1; f 1 1; f 0 1; f 0 1] with
  | Ok (Some [(0%Z, a); (1%Z, b)]) => near a (f 2 3) && near b (f 2 1)
  | _ => false
  end = true.
Proof. vm_compute. reflexivity. Qed.
(** Class weights change the leaf: rows 0 and 4 in one leaf, weight 3 for class 1.  The mean 2 becomes 3, while the reported loss
    stays unweighted: (9 + 1) / 4. *)
Definition flat (i j : nat) : F0 := f 1 1.
Definition weighted_run : option (res (trainer F0)) :=
  trainer_fit toint2 flat 1 fsort (fun l => l) l2 9 quick_params (CwInts [(1%Z, f 3 1)]) [[0; 1]] [f 0 1; f 4 1] new_trainer.
Example C127_loss_example :
  match weighted_run with
  | Some (Ok t) => near (nth 0 (scores t []) (f 0 1)) (f 3 1) && near (last (tr_losses t) (f 0 1)) (f 5 2)
  | _ => false
  end = true.
Proof. vm_compute. reflexivity. Qed.
Example C127_refused_example : Exists (fun e => atoi (fst e) = None \/ snd e = None) [("1", Some (f 1 1)); ("one", Some (f 1 1))]
  /\ NoDup (map (fun e : string * option F0 => atoi (fst e)) [("1", Some (f 1 1)); ("-2", Some (f 1 1))]).
Proof. split; [apply Exists_cons_tl, Exists_cons_hd; left; reflexivity|]. vm_compute. repeat constructor; cbn; intuition discriminate. Qed.
(** Two rows, then three *)
Example C128_rows_example :
  match trainer_fit (fun _ => 0%Z) rows2 1 fsort (fun l => l) l2 9 quick_params CwNil [[0; 1]] [f 0 1; f 0 1] new_trainer with
  | Some (Ok t) => match trainer_fit (fun _ => 0%Z) rows2 1 fsort (fun l => l) l2 9 quick_params CwNil [[0; 1; 2]] [f 0 1; f 0 1; f 1 1] t with
                   | Some Panic => true
                   | _ => false
                   end
  | _ => false
  end = true.
Proof. vm_compute. reflexivity. Qed.

Print Assumptions C127_sample_weights.
Print Assumptions C127_balanced.
Print Assumptions C127_refused.
Print Assumptions C127_names.
Print Assumptions C127_names_refuted.
Print Assumptions C127_loss.
Print Assumptions C128_continues.
Print Assumptions C128_more_rows.
Print Assumptions C128_other_targets.
Print Assumptions C128_refit_refuted.
Print Assumptions C129_ignored.
Print Assumptions C129_increasing_refuted.
