(** C134: Booster.DumpModel. *)
From Coq Require Import String List Arith ZArith Bool Lia.
From Verif Require Import Base.Num Base.GoRes Base.ListX Base.FTac Model.LgbTree Spec.LgbTree Proofs.LgbTreeP Proofs.LgbArrayP
  Model.LgbDump Spec.LgbDump Proofs.LgbDumpP.
Import ListNotations.
Local Open Scope list_scope.

(** From the dump of a trained model anyone can compute the raw scores: for every sample the values read off the trees, added up from
    the initial score to the classes in turn, are those of the model; the dump is without values exactly where the model panics.
    The numbers of classes, features, trees and leaves and the rates are those of the model. *)
Theorem C134_scores : forall (N : Num) (toint : N -> Z) (m : gmodel N) ts fuel,
  Forall2 (fun T t => stores (gt_nodes T) 0 t /\ isize t < fuel) (m_trees m) ts ->
  exists d, dump_model fuel m = Some d
    /\ dd_class d = m_class m /\ dd_maxfeat d = (m_nfeat m - 1)%Z /\ dd_objective d = m_obj m
    /\ map dt_leaves (dd_trees d) = map gt_nleaves (m_trees m) /\ map dt_shrink (dd_trees d) = map gt_shrink (m_trees m)
    /\ forall x, model_raw toint fuel m x = Some (match read_all x (dd_trees d) with Some outs => Ok (add_up d (m_init m) outs) | None => Panic end).
Proof.
  intros N toint m ts fuel F. destruct (dump_trees_ok n0 _ _ _ 0 F) as (ds & E & I1 & I2 & I3 & R).
  exists (mkdd (m_class m) (if (2 <? m_class m)%Z then m_class m else 1%Z) (m_nfeat m - 1)%Z (m_obj m) ds). unfold dump_model. rewrite E.
  split; [reflexivity|]. split; [reflexivity|]. split; [reflexivity|]. split; [reflexivity|]. split; [exact I2|]. split; [exact I3|].
  intros x. unfold model_raw. rewrite (sequence_eval toint n0 x _ _ _ F). cbn [dd_trees]. rewrite R.
  destruct (omap_all _ ts) as [outs|] eqn:Q; [|reflexivity]. do 2 f_equal. unfold add_up, accumulate. cbn [dd_per dd_trees].
  rewrite I1. replace (length outs) with (length (m_trees m)).
  2:{ rewrite (omap_all_len _ _ _ Q). clear -F. induction F; cbn; auto. }
  replace (outputs_count m) with (Z.to_nat (if (2 <? m_class m)%Z then m_class m else 1%Z)) by (unfold outputs_count; destruct (2 <? m_class m)%Z; reflexivity).
  rewrite <- (map_const_repeat (m_init m) _ 0). apply accumulate_map.
Qed.

(** The dump of a tree read from a text file has no leaf values: they are kept in an array that the dump does not contain, so no
    sample gets a value. *)
Theorem C134_values_lost : forall (N : Num) (d : tdoc N) t first fuel, well_formed d t -> isize t < fuel ->
  exists T s, finalize first d = Ok T /\ dump_structure fuel T = Some (SNodes s) /\ dump_values s = [] /\ forall x, read_dump s x = None.
Proof.
  intros N d t first fuel W Hf. destruct (finalize_spec d t first W) as [ns [E [Hl HF]]]. destruct W as [is [ls [D [Hnd [Hls _]]]]].
  pose proof (describes_inner _ _ _ _ _ D) as Hi. cbn in Hi.
  match type of E with _ = Ok ?T => set (T0 := T) in * end.
  destruct (dump_text_values d T0 HF t 0 is ls fuel D Hls Hf Hi) as (s & Es & V & R).
  exists T0, s. split; [exact E|]. split; [|auto]. unfold dump_structure.
  destruct (gt_nodes T0) as [|n r] eqn:Q; [|now rewrite Es].
  exfalso. destruct (describes_node _ _ _ _ _ D Hi) as [i0 [is0 [Ei0 ->]]].
  destruct (describes_range _ _ _ _ _ D i0 (or_introl eq_refl)) as [Hr _]. cbn in Q. rewrite Q in Hl. cbn in Hl. lia.
Qed.

(** A model whose node refers to itself has no dump: the recursion never ends. *)
Theorem C134_cycle_refuted : exists t : gtree F0, forall fuel, dump_structure fuel t = None.
Proof.
  exists (mkgt [mkgn 0 0 TNum 0 (f 0 1) [] true (f 0 1) (f 0 1) (f 0 1)] [] (f 1 1) (f 0 1) 1). intros fuel. unfold dump_structure. cbn [gt_nodes].
  match goal with |- option_map _ ?d = _ => assert (E : d = None); [|now rewrite E] end.
  induction fuel as [|fuel IH]; [reflexivity|]. cbn [dump]. change (getZ _ 0) with (Some (mkgn 0 0 TNum 0 (f 0 1) [] true (f 0 1) (f 0 1) (f 0 1))).
  cbn [g_isleaf g_left g_right Z.eqb andb Z.leb Z.compare]. rewrite IH. reflexivity.
Qed.

(** ** Example *)
Definition exT (a b : F0) : gtree F0 := mkgt
  [mkgn 1 2 TNum 0 (f 1 1) [] true (f 1 1) (f 0 1) (f 0 1); mkgn (-1) (-1) TLeaf 0 (f 0 1) [] false (f 0 1) a (f 0 1);
   mkgn (-1) (-1) TLeaf 0 (f 0 1) [] false (f 0 1) b (f 0 1)] [] (f 1 1) (f 0 1) 2.
Definition ext (a b : F0) : btree F0 := BNode (mktest 0 (f 1 1) MissNaN true) (BLeaf a) (BLeaf b).
Lemma exT_stores a b : stores (gt_nodes (exT a b)) 0 (ext a b).
Proof.
  refine (st_node (gt_nodes (exT a b)) 0 (mkgn 1 2 TNum 0 (f 1 1) [] true (f 1 1) (f 0 1) (f 0 1)) _ _ eq_refl eq_refl _ _ _ _ _); cbn [g_left g_right g_feat]; try lia.
  - exact (st_leaf (gt_nodes (exT a b)) 1 (mkgn (-1) (-1) TLeaf 0 (f 0 1) [] false (f 0 1) a (f 0 1)) eq_refl eq_refl eq_refl).
  - exact (st_leaf (gt_nodes (exT a b)) 2 (mkgn (-1) (-1) TLeaf 0 (f 0 1) [] false (f 0 1) b (f 0 1)) eq_refl eq_refl eq_refl).
Qed.
Definition exM : gmodel F0 := mkgm "regression" 1 2 (-1) (f 1 10) [exT (f 3 1) (f 4 1); exT (f 5 1) (f 6 1)] 1 (f 10 1).
Example C134_ex_hyp : Forall2 (fun T t => stores (gt_nodes T) 0 t /\ isize t < 2) (m_trees exM) [ext (f 3 1) (f 4 1); ext (f 5 1) (f 6 1)].
Proof. repeat constructor; apply exT_stores. Qed.
Example C134_ex_scores :
  match dump_model 2 exM with
  | Some d => match read_all [f 2 1] (dd_trees d) with Some outs => map fs (add_up d (m_init exM) outs) = map fs [f 20 1] | None => False end
  | None => False end.
Proof. vm_compute. reflexivity. Qed.

(** The dump does not contain the initial score, nor which splits are categorical: models with the same dump can give different scores. *)
Definition exM0 : gmodel F0 := mkgm "regression" 1 2 (-1) (f 1 10) [exT (f 3 1) (f 4 1); exT (f 5 1) (f 6 1)] 1 (f 0 1).
Theorem C134_initial_refuted : exists m m' : gmodel F0, forall fuel, dump_model fuel m = dump_model fuel m'
  /\ option_map (rmap (map fs)) (model_raw (fun _ => 0%Z) 2 m [f 2 1]) = Some (Ok [fs (f 20 1)])
  /\ option_map (rmap (map fs)) (model_raw (fun _ => 0%Z) 2 m' [f 2 1]) = Some (Ok [fs (f 10 1)]).
Proof. exists exM, exM0. intros fuel. split; [reflexivity|]. split; vm_compute; reflexivity. Qed.
Definition exC (ty : ntype) : gtree F0 := mkgt
  [mkgn 1 2 ty 0 (f 1 1) [2]%Z true (f 1 1) (f 0 1) (f 0 1); mkgn (-1) (-1) TLeaf 0 (f 0 1) [] false (f 0 1) (f 3 1) (f 0 1);
   mkgn (-1) (-1) TLeaf 0 (f 0 1) [] false (f 0 1) (f 4 1) (f 0 1)] [] (f 1 1) (f 0 1) 2.
Theorem C134_categorical_refuted : exists t t' : gtree F0, (forall fuel, dump_structure fuel t = dump_structure fuel t')
  /\ option_map (rmap fs) (tree_predict (fun _ => 2%Z) 2 t [f 2 1]) = Some (Ok (fs (f 4 1)))
  /\ option_map (rmap fs) (tree_predict (fun _ => 2%Z) 2 t' [f 2 1]) = Some (Ok (fs (f 3 1))).
Proof.
  exists (exC TNum), (exC TCat). split; [|split; vm_compute; reflexivity]. intros fuel. unfold dump_structure. cbn [exC gt_nodes]. f_equal.
  destruct fuel as [|fuel]; [reflexivity|]. destruct fuel as [|fuel]; reflexivity.
Qed.

Print Assumptions C134_scores.
Print Assumptions C134_values_lost.
Print Assumptions C134_cycle_refuted.
Print Assumptions C134_initial_refuted.
Print Assumptions C134_categorical_refuted.
