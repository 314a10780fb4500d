(** C144: finding errors again *)
From Coq Require Import String List Bool Lia.
From Verif Require Import Model.ErrChain.
Import ListNotations.
Local Open Scope string_scope.

(** The ways in which an error that is not nil is passed on *)
Inductive layer : Type := LStack | LWrap (msg : string) | LModel (i : nat) (op kd : string) | LRecover (i : nat) (op shown : string).
(** The types that no way of passing on adds *)
Definition own (t : etype) : Prop := match t with TModel | TStack | TMessage | TFmt => False | _ => True end.
(** One text within another *)
Definition within (a b : string) : Prop := exists x y, b = x ++ a ++ y.

Section C144.
  Context {P : Type} (show : etype -> P -> string).
  Definition pass (l : layer) (e : error P) : error P :=
    match l with
    | LStack => with_stack e | LWrap msg => wrap msg e | LModel i op kd => new_model i op kd e
    | LRecover i op shown => recover i op (Panics shown None e)
    end.
  (** From the innermost to the outermost *)
  Definition pass_all (ls : list layer) (e : error P) : error P := fold_left (fun e l => pass l e) ls e.
  Lemma pass_some l x : exists y, pass l (Some x) = Some y /\ In x (chain y) /\ within (text show x) (text show y) /\
    (forall t, own t -> as_type t (Some y) = as_type t (Some x)).
  Proof.
    assert (S : forall (a b : string), within a (b ++ a)). { intros a b. exists b, "". f_equal. clear. induction a as [|c a IH]; [reflexivity|]. cbn. now rewrite <- IH. }
    assert (I : forall z : err P, In z (chain z)). { intros z. destruct z; now left. }
    assert (A : forall a b c : string, (a ++ b) ++ c = a ++ b ++ c). { intros a b c. induction a as [|h a IH]; [reflexivity|]. cbn. now rewrite IH. }
    destruct l as [|msg|i op kd|i op shown]; eexists; (split; [reflexivity|]); cbn [chain text].
    - split; [now right; apply I|]. split; [exact (S _ "")|]. intros t Ht. destruct t; try contradiction; reflexivity.
    - split; [do 2 right; apply I|]. split; [|intros t Ht; destruct t; try contradiction; reflexivity]. rewrite <- A. apply S.
    - split; [do 2 right; apply I|]. split; [|intros t Ht; destruct t; try contradiction; reflexivity]. rewrite <- !A. apply S.
    - split; [right; apply I|]. split; [|intros t Ht; destruct t; try contradiction; reflexivity]. eexists; eexists; reflexivity.
  Qed.
  Lemma chain_in : forall (z y : err P), In y (chain z) -> exists pre, (chain z = pre ++ chain y)%list.
  Proof.
    fix IH 1. intros z y Hy. destruct z as [t i p|i op kd [x|]|i op s v|x|m x|a b x]; cbn [chain] in Hy |- *.
    all: destruct Hy as [<- | Hy]; [exists []; reflexivity|].
    all: try contradiction.
    all: destruct (IH x y Hy) as (pre & E); eexists (_ :: pre)%list; cbn [app]; f_equal; exact E.
  Qed.
  Lemma chain_trans (x y z : err P) : In x (chain y) -> In y (chain z) -> In x (chain z).
  Proof. intros Hx Hy. destruct (chain_in z y Hy) as (pre & ->). apply in_or_app. now right. Qed.
  Lemma within_trans a b c : within a b -> within b c -> within a c.
  Proof.
    assert (A : forall a b c : string, (a ++ b) ++ c = a ++ b ++ c). { intros u v w. induction u as [|h u IH]; [reflexivity|]. cbn. now rewrite IH. }
    intros (x & y & ->) (u & v & ->). exists (u ++ x), (y ++ v). now rewrite !A.
  Qed.
  Lemma pass_all_some ls x : exists y, pass_all ls (Some x) = Some y /\ In x (chain y) /\ within (text show x) (text show y) /\
    (forall t, own t -> as_type t (Some y) = as_type t (Some x)).
  Proof.
    revert x. induction ls as [|l ls IH]; intros x.
    - exists x. split; [reflexivity|]. split; [destruct x; now left|]. split; [|auto]. exists "", "". cbn. clear. induction (text show x) as [|c a IH]; [reflexivity|]. cbn. now rewrite <- IH.
    - destruct (pass_some l x) as (y & Ey & H1 & H2 & H3). destruct (IH y) as (z & Ez & K1 & K2 & K3). exists z. change (pass_all (l :: ls) (Some x)) with (pass_all ls (pass l (Some x))). rewrite Ey.
      split; [exact Ez|]. split; [eapply chain_trans; eauto|]. split; [eapply within_trans; eauto|]. intros t Ht. now rewrite K3, H3.
  Qed.

  (** However often the error of a constructor is passed on, As finds its struct by its type, and no other struct by another type. *)
  Theorem C144_found ls t t' i p : own t -> own t' -> as_type t' (pass_all ls (new_obj t i p)) = if etype_beq t t' then Some (Obj t i p) else None.
  Proof.
    intros Ht Ht'. destruct (pass_all_some ls (StackE (Obj t i p))) as (y & Ey & _ & _ & H). change (new_obj t i p) with (Some (StackE (Obj t i p))). rewrite Ey, H by exact Ht'.
    destruct t; try contradiction; destruct t'; try contradiction; reflexivity.
  Qed.
  (** For model errors As finds the outermost. *)
  Theorem C144_model_found ls ls' i op kd x : Forall (fun l => match l with LModel _ _ _ => False | _ => True end) ls' ->
    exists y, pass_all ls (Some x) = Some y /\ as_type TModel (pass_all (ls ++ LModel i op kd :: ls')%list (Some x)) = Some (ModelE i op kd (Some y)).
  Proof.
    intros Hl. destruct (pass_all_some ls x) as (y & Ey & _). exists y. split; [exact Ey|]. unfold pass_all in *. rewrite fold_left_app, Ey. cbn [fold_left pass].
    assert (G : forall e : err P, as_type TModel (Some e) = Some (ModelE i op kd (Some y)) -> as_type TModel (fold_left (fun e l => pass l e) ls' (Some e)) = Some (ModelE i op kd (Some y))).
    { clear -Hl. induction Hl as [|l ls' H _ IH]; intros e He; [exact He|]. destruct l; try contradiction; cbn [fold_left pass with_stack wrap option_map recover]; apply IH; exact He. }
    apply G. reflexivity.
  Qed.
  (** Is finds every error that was passed on, by whatever it is the same as itself. *)
  Theorem C144_is ls same mark x : (same x x = true) -> is_err same mark (pass_all ls (Some x)) x = true.
  Proof.
    intros Hs. destruct (pass_all_some ls x) as (y & -> & H & _). unfold is_err. apply orb_true_iff. left. apply existsb_exists. eauto.
  Qed.
  (** The text of the error stays in the text of what it is passed on as. *)
  Theorem C144_text ls x : exists y, pass_all ls (Some x) = Some y /\ within (text show x) (text show y).
  Proof. destruct (pass_all_some ls x) as (y & E & _ & H & _). eauto. Qed.
  (** nil stays nil with Wrap and WithStack; NewModelError of nil is an error. *)
  Theorem C144_nil msg i op kd : wrap msg (@None (err P)) = None /\ with_stack (@None (err P)) = None /\ new_model i op kd (@None (err P)) <> None.
  Proof. repeat split; discriminate. Qed.
  (** No constructor's error has the type of its struct: a type assertion never succeeds, before or after passing on. *)
  Theorem C144_assertion ls t i p y : own t -> pass_all ls (new_obj t i p) = Some y -> type_of y <> t.
  Proof.
    intros Ht. assert (G : forall x : err P, (type_of x = TStack \/ type_of x = TFmt) -> forall y, pass_all ls (Some x) = Some y -> type_of y = TStack \/ type_of y = TFmt).
    { clear. induction ls as [|l ls IH]; intros x Hx y; [intros [= <-]; exact Hx|]. change (pass_all (l :: ls) (Some x)) with (pass_all ls (pass l (Some x))).
      destruct l; cbn [pass with_stack wrap option_map recover new_model]; apply IH; cbn; auto. }
    intros E. destruct (G (StackE (Obj t i p)) (or_introl eq_refl) y E) as [K | K]; rewrite K; destruct t; cbn in Ht; try contradiction; discriminate.
  Qed.
  (** A panic in SafeExecute is a PanicError, and nothing else is found in it whatever was given to panic. *)
  Theorem C144_panic i op shown v s t : as_type t (safe_execute i op (Panics shown v s)) = if etype_beq TPanic t then Some (PanicE i op shown v : err P) else None.
  Proof. unfold safe_execute, recover, as_type. cbn [chain find type_of]. destruct (etype_beq TPanic t); reflexivity. Qed.
  (** A panic recovered where an error was set already is found by As only if that error holds one; what is found is that of the error. *)
  Theorem C144_panic_set i op shown v x t : t <> TFmt -> as_type t (recover i op (Panics shown v (Some x))) = as_type t (Some x : error P) /\
    exists y, recover i op (Panics shown v (Some x)) = Some y /\ within (text show x) (text show y) /\ within shown (text show y).
  Proof.
    intros Ht. split; [destruct t; try congruence; reflexivity|]. eexists. split; [reflexivity|]. cbn [text]. split; [eexists; eexists; reflexivity|].
    assert (A : forall a b c : string, (a ++ b) ++ c = a ++ b ++ c). { intros u w z. induction u as [|h u IH]; [reflexivity|]. cbn. now rewrite IH. }
    exists ("panic in " ++ op ++ ": "), (" (original error: " ++ text show x ++ ")"). now rewrite !A.
  Qed.
  (** Nested calls of SafeExecute give what the innermost gives. *)
  Theorem C144_nested o i op is : fold_left (fun e (q : nat * string) => safe_execute (fst q) (snd q) (Returns e)) is (safe_execute i op o) = safe_execute (P := P) i op o.
  Proof. induction is as [|q r IH]; [reflexivity|]. exact IH. Qed.
End C144.

(** Expected, and false: that an error given to panic is found by its type after SafeExecute. *)
Theorem C144_panic_value_refuted : exists x : err nat, as_type TValue (Some x) <> None /\
  as_type TValue (safe_execute 1 "Fit" (Panics "goml: Fit: bad" (Some x) None)) = None /\ forall same mark, same (PanicE 1 "Fit" "goml: Fit: bad" (Some x)) x = false -> mark (PanicE 1 "Fit" "goml: Fit: bad" (Some x)) x = false ->
  is_err same mark (safe_execute 1 "Fit" (Panics "goml: Fit: bad" (Some x) None)) x = false.
Proof.
  exists (StackE (Obj TValue 0 7)). split; [discriminate|]. split; [reflexivity|]. intros same mark Hs Hm. unfold is_err, safe_execute, recover. cbn [chain existsb]. now rewrite Hm, Hs.
Qed.
(** Expected, and false: that a recovered panic is found as a PanicError. *)
Theorem C144_panic_found_refuted : exists x : err nat, recover 1 "Fit" (Panics "index out of range" None (Some x)) <> None /\
  as_type TPanic (recover 1 "Fit" (Panics "index out of range" None (Some x))) = None.
Proof. exists (StackE (Obj TDimension 0 7)). split; [discriminate|reflexivity]. Qed.
(** A dimension error passed on through two wraps and a model error *)
Example C144_example : let e := pass_all [LWrap "load"; LModel 2 "Fit" "bad input"; LWrap "run"] (new_obj TDimension 0 5) in
  as_type TDimension e = Some (Obj TDimension 0 5) /\ as_type TValue e = None /\ option_map (text (fun _ _ => "dims")) e = Some "run: goml: Fit: bad input: load: dims" /\
  option_map type_of (as_type TModel e) = Some TModel /\ option_map type_of e = Some TStack.
Proof. repeat split; reflexivity. Qed.
Print Assumptions C144_found. Print Assumptions C144_model_found. Print Assumptions C144_is. Print Assumptions C144_text. Print Assumptions C144_nil. Print Assumptions C144_assertion.
Print Assumptions C144_panic. Print Assumptions C144_panic_set. Print Assumptions C144_nested. Print Assumptions C144_panic_value_refuted. Print Assumptions C144_panic_found_refuted.
