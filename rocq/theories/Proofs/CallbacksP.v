From Coq Require Import List Arith Bool Lia.
From Verif Require Import Spec.AtomicState Model.Callbacks Spec.Callbacks.
Import ListNotations.

Lemma setp_same {A} (f : nat -> A) t v : setp f t v t = v.
Proof. unfold setp. now rewrite Nat.eqb_refl. Qed.
Lemma setp_other {A} (f : nat -> A) t v u : u <> t -> setp f t v u = f u.
Proof. intros H. unfold setp. now rewrite (proj2 (Nat.eqb_neq u t) H). Qed.

Lemma steps_trans c1 c2 c3 : steps c1 c2 -> steps c2 c3 -> steps c1 c3.
Proof. intros H1 H2. induction H2; [assumption|]. econstructor; [apply IHsteps; assumption|eassumption]. Qed.

(** *** The lock, whatever the programs do *)
Definition sane (m : rwmutex) : Prop := writer m <> None -> waiting m = None /\ readers m = [].
Lemma exec_sane t i s m s' m' : sane m -> exec t i s m = Some (s', m') -> sane m'.
Proof.
  unfold sane. intros H E. destruct m as [r w p]. destruct i; cbn in E, H |- *.
  - destruct w, p; try discriminate. injection E as <- <-. cbn. congruence.
  - destruct (existsb _ r) eqn:X; [|discriminate]. injection E as <- <-. cbn. intros K. destruct (H K) as [-> ->]. discriminate.
  - destruct w, p; try discriminate. injection E as <- <-. cbn. congruence.
  - destruct p, r; try discriminate. destruct (Nat.eqb t n); [|discriminate]. injection E as <- <-. auto.
  - destruct w; [|discriminate]. destruct (Nat.eqb t n); [|discriminate]. injection E as <- <-. cbn. congruence.
  - injection E as <- <-. exact H.
Qed.
Lemma steps_sane s progs c : steps (start s progs) c -> sane (mu c).
Proof.
  intros H. remember (start s progs) as c0. induction H as [|c0 t c c' H IH K]; subst; [cbn; unfold sane; cbn; congruence|].
  specialize (IH eq_refl). destruct K as [s0 m th i rest s' m' E X]. eapply exec_sane; eassumption.
Qed.
Lemma sane_after m : sane (mu m) -> forall c', steps m c' -> sane (mu c').
Proof.
  intros S c' H. induction H as [|c t c1 c2 H IH K]; [assumption|]. specialize (IH S). destruct K. eapply exec_sane; eassumption.
Qed.
(** Others cannot release a lock. *)
Lemma exec_writer t u i s m s' m' : sane m -> writer m = Some t -> exec u i s m = Some (s', m') ->
  (u = t /\ i = IUnlock) \/ (m' = m /\ exists g, i = IMem g) .
Proof.
  intros S W E. destruct m as [r w p]. cbn in W. subst w. destruct (S ltac:(discriminate)) as [P R]. cbn in P, R. subst p r.
  destruct i; cbn in E; try discriminate.
  - destruct (Nat.eqb_spec u t); [|discriminate]. left. auto.
  - right. injection E as _ <-. eauto.
Qed.
Lemma leave_in t u l : t <> u -> In t l -> In t (leave u l).
Proof.
  induction l as [|x l IH]; intros H; [auto|]. cbn [leave]. destruct (Nat.eqb_spec u x).
  - intros [->|K]; [congruence|assumption].
  - intros [->|K]; [now left|right; auto].
Qed.
Lemma exec_reader t u i s m s' m' : sane m -> In t (readers m) -> exec u i s m = Some (s', m') ->
  (u = t /\ i = IRUnlock) \/ In t (readers m').
Proof.
  intros S R E. destruct m as [r w p]. cbn in R. destruct i; cbn in E.
  - destruct w, p; try discriminate. injection E as <- <-. right. now right.
  - destruct (existsb _ r); [|discriminate]. injection E as <- <-. destruct (Nat.eq_dec u t); [left; auto|right]. cbn. apply leave_in; auto.
  - destruct w, p; try discriminate. injection E as <- <-. now right.
  - destruct p, r; try discriminate. destruct R.
  - destruct w; [|discriminate]. destruct (Nat.eqb u n); [|discriminate]. injection E as <- <-. now right.
  - injection E as <- <-. now right.
Qed.

(** *** Callbacks that do not use the manager *)
Inductive phase := Out | RD | WAIT | WR.
Section Phases.
  (** [strict]: accesses as in careful programs *)
  Variable strict : bool.
  Definition fine (p : phase) (g : st -> st) : Prop :=
    match p with Out => strict = false | RD => strict = true -> forall s, g s = s | WAIT => False | WR => True end.
  Fixpoint ok (p : phase) (l : list instr) : Prop :=
    match l with
    | [] => p = Out
    | IMem g :: l => fine p g /\ ok p l
    | IRLock :: l => p = Out /\ ok RD l
    | IRUnlock :: l => p = RD /\ ok Out l
    | IAnnounce :: l => p = Out /\ ok WAIT l
    | IAcquire :: l => p = WAIT /\ ok WR l
    | IUnlock :: l => p = WR /\ ok Out l
    end.
  Lemma ok_mem p gs l : Forall (fine p) gs -> ok p l -> ok p (map IMem gs ++ l).
  Proof. intros H K. induction H as [|g gs Hg _ IH]; [exact K|]. cbn. auto. Qed.
  Definition admitted (a : act) : Prop := quiet a /\ (strict = true -> careful a).
  Lemma direct_code b : Forall direct b -> exists gs, flat_map code b = map IMem gs.
  Proof.
    induction 1 as [|a b Ha _ [gs IH]]; [exists []; reflexivity|]. destruct a; try destruct Ha. exists (g :: gs). cbn. now rewrite IH.
  Qed.
  Lemma reading_code b : Forall direct b -> (strict = true -> Forall reading b) ->
    exists gs, flat_map code b = map IMem gs /\ Forall (fine RD) gs.
  Proof.
    induction 1 as [|a b Ha _ IH]; intros R; [exists []; split; [reflexivity|constructor]|]. destruct a; try destruct Ha.
    destruct IH as (gs & E & F); [intros S; specialize (R S); now inversion R|]. exists (g :: gs). cbn. rewrite E. split; [reflexivity|].
    constructor; [|exact F]. intros S. specialize (R S). now inversion R.
  Qed.
  Lemma ok_act a l : admitted a -> ok Out l -> ok Out (code a ++ l).
  Proof.
    intros [Q C] K. destruct a; cbn in Q; cbn [code app].
    - cbn. auto.
    - cbn. auto.
    - cbn. split; [|exact K]. destruct strict; [destruct (C eq_refl)|reflexivity].
    - cbn [ok]. split; [reflexivity|]. destruct (reading_code body Q) as (gs & E & F); [intros S; apply (C S)|]. rewrite E, <- app_assoc.
      apply ok_mem; [exact F|]. cbn. auto.
    - cbn [ok]. split; [reflexivity|]. split; [reflexivity|]. destruct (direct_code body Q) as (gs & E). rewrite E, <- app_assoc.
      apply ok_mem; [apply Forall_forall; intros g _; exact I|]. cbn. auto.
  Qed.
  Lemma ok_program l : Forall admitted l -> ok Out (program l).
  Proof. induction 1 as [|a l H _ IH]; [reflexivity|]. cbn. now apply ok_act. Qed.

  Definition inv (c : conf) : Prop := exists ph : nat -> phase,
    (forall t, ok (ph t) (left_to_do c t)) /\ NoDup (readers (mu c)) /\ (forall t, In t (readers (mu c)) <-> ph t = RD)
    /\ (forall t, writer (mu c) = Some t <-> ph t = WR) /\ (forall t, waiting (mu c) = Some t <-> ph t = WAIT) /\ sane (mu c).
  Lemma leave_not t l : NoDup l -> ~ In t (leave t l) /\ NoDup (leave t l).
  Proof.
    induction 1 as [|u l H N [IH1 IH2]]; [split; [auto|constructor]|]. cbn. destruct (Nat.eqb_spec t u); [subst; auto|]. split.
    - intros [E|K]; [congruence|auto].
    - constructor; [|exact IH2]. intros K. apply H. clear -K. induction l as [|x l IH]; [destruct K|]. cbn in K.
      destruct (Nat.eqb t x); [now right|]. destruct K as [->|K]; [now left|right; auto].
  Qed.
  Lemma leave_sub t u l : In u (leave t l) -> In u l.
  Proof. induction l as [|x l IH]; [auto|]. cbn. destruct (Nat.eqb t x); [now right|]. intros [->|K]; [now left|right; auto]. Qed.
  Lemma inv_step t c c' : inv c -> step t c c' -> inv c'.
  Proof.
    intros (ph & O & ND & R & W & P & S) H. destruct H as [s m th i rest s' m' E X]. cbn in *.
    pose proof (exec_sane _ _ _ _ _ _ S X) as S'. pose proof (O t) as Ot. rewrite E in Ot.
    assert (Oth : forall q, ok q rest -> forall u, ok (setp ph t q u) (setp th t rest u)).
    { intros q Kq u. destruct (Nat.eq_dec u t) as [->|Hu]; [now rewrite !setp_same|]. rewrite !setp_other by exact Hu. apply O. }
    assert (U : forall q u v, setp ph t q u = v <-> (u = t /\ q = v) \/ (u <> t /\ ph u = v)).
    { intros q u v. destruct (Nat.eq_dec u t) as [->|Hu]; [rewrite setp_same; tauto|rewrite setp_other by exact Hu; tauto]. }
    destruct m as [r w p]. destruct i; cbn in X, Ot.
    - destruct Ot as [E0 K]. destruct w, p; try discriminate. injection X as <- <-. exists (setp ph t RD). cbn in *.
      split; [apply Oth; exact K|]. split; [|split; [|split; [|split; [|exact S']]]].
      + constructor; [|exact ND]. rewrite R, E0. discriminate.
      + intros u. rewrite U, R. split; [intros [<-|H]; [now left|]|intros [[<- _]|[_ H]]; auto].
        right. split; [|exact H]. intros ->. congruence.
      + intros u. rewrite U, <- W. split; [discriminate|]. intros [[_ H]|[_ H]]; discriminate.
      + intros u. rewrite U, <- P. split; [discriminate|]. intros [[_ H]|[_ H]]; discriminate.
    - destruct Ot as [E0 K]. destruct (existsb _ r); [|discriminate]. injection X as <- <-. exists (setp ph t Out). cbn in *.
      destruct (leave_not t r ND) as [L1 L2].
      split; [apply Oth; exact K|]. split; [exact L2|]. split; [|split; [|split; [|exact S']]].
      + intros u. rewrite U, <- R. split.
        * intros H. right. split; [intros ->; auto|eapply leave_sub; eassumption].
        * intros [[_ H]|[H1 H2]]; [discriminate|apply leave_in; auto].
      + intros u. rewrite U, <- W. split; [|intros [[_ H]|[_ H]]; [discriminate|exact H]]. intros H. right. split; [|exact H]. intros ->. apply W in H. congruence.
      + intros u. rewrite U, <- P. split; [|intros [[_ H]|[_ H]]; [discriminate|exact H]]. intros H. right. split; [|exact H]. intros ->. apply P in H. congruence.
    - destruct Ot as [E0 K]. destruct w, p; try discriminate. injection X as <- <-. exists (setp ph t WAIT). cbn in *.
      split; [apply Oth; exact K|]. split; [exact ND|]. split; [|split; [|split; [|exact S']]].
      + intros u. rewrite U, R. split; [|intros [[_ H]|[_ H]]; [discriminate|exact H]]. intros H. right. split; [|exact H]. intros ->. congruence.
      + intros u. rewrite U, <- W. split; [discriminate|]. intros [[_ H]|[_ H]]; discriminate.
      + intros u. rewrite U, <- P. split; [intros [= <-]; now left|]. intros [[-> _]|[_ H]]; [reflexivity|discriminate].
    - destruct Ot as [E0 K]. destruct p as [q|]; [|discriminate]. destruct r; [|discriminate]. destruct (Nat.eqb_spec t q) as [<-|]; [|discriminate].
      injection X as <- <-. exists (setp ph t WR). cbn in *.
      assert (Ew : w = None) by (destruct w as [v|]; [|reflexivity]; destruct (S ltac:(discriminate)) as [S1 _]; cbn in S1; discriminate). subst w.
      split; [apply Oth; exact K|]. split; [constructor|]. split; [|split; [|split; [|exact S']]].
      + intros u. rewrite U, <- R. split; [intros []|]. intros [[_ H]|[_ H]]; [discriminate|exact H].
      + intros u. rewrite U, <- W. split; [intros [= <-]; now left|]. intros [[-> _]|[_ H]]; [reflexivity|discriminate].
      + intros u. rewrite U, <- P. split; [discriminate|]. intros [[_ H]|[H1 H2]]; [discriminate|]. congruence.
    - destruct Ot as [E0 K]. destruct w as [q|]; [|discriminate]. destruct (Nat.eqb_spec t q) as [<-|]; [|discriminate].
      injection X as <- <-. exists (setp ph t Out). cbn in *. destruct (S ltac:(discriminate)) as [S1 S2]. cbn in S1, S2. subst p r.
      split; [apply Oth; exact K|]. split; [constructor|]. split; [|split; [|split; [|exact S']]].
      + intros u. rewrite U, <- R. split; [intros []|]. intros [[_ H]|[_ H]]; [discriminate|exact H].
      + intros u. rewrite U, <- W. split; [discriminate|]. intros [[_ H]|[H1 H2]]; [discriminate|]. congruence.
      + intros u. rewrite U, <- P. split; [discriminate|]. intros [[_ H]|[_ H]]; discriminate.
    - destruct Ot as [F K]. injection X as <- <-. exists ph. cbn in *. split; [|auto].
      intros u. destruct (Nat.eq_dec u t) as [->|Hu]; [rewrite setp_same; exact K|]. rewrite setp_other by exact Hu. apply O.
  Qed.
  Lemma inv_reach s progs c : (forall t, Forall admitted (progs t)) -> steps (start s progs) c -> inv c.
  Proof.
    intros A H. remember (start s progs) as c0. induction H as [|c0 t c c' H IH K]; subst.
    - exists (fun _ => Out). cbn. split; [intros t; now apply ok_program|]. split; [constructor|]. repeat split; try discriminate; try (intros []).
      all: unfold sane; cbn; congruence.
    - eapply inv_step; [now apply IH|exact K].
  Qed.
  Lemma can_step t i rest c s' m' : left_to_do c t = i :: rest -> exec t i (fields c) (mu c) = Some (s', m') -> exists c', step t c c'.
  Proof. destruct c as [s m th]. cbn. intros E X. eexists. econstructor; eassumption. Qed.
  Lemma inv_progress c t : inv c -> left_to_do c t <> [] -> exists u c', step u c c'.
  Proof.
    intros (ph & O & ND & R & W & P & S) Ht. destruct (writer (mu c)) as [u|] eqn:Ew.
    - exists u. pose proof (proj1 (W u) eq_refl) as E. specialize (O u). rewrite E in O. destruct (left_to_do c u) as [|i rest] eqn:El; [discriminate|].
      destruct i; cbn in O; try (destruct O; discriminate).
      + eapply can_step; [exact El|]. cbn. rewrite Ew, Nat.eqb_refl. reflexivity.
      + eapply can_step; [exact El|]. reflexivity.
    - destruct (readers (mu c)) as [|u r] eqn:Er.
      + destruct (waiting (mu c)) as [u|] eqn:Ep.
        * exists u. pose proof (proj1 (P u) eq_refl) as E. specialize (O u). rewrite E in O. destruct (left_to_do c u) as [|i rest] eqn:El; [discriminate|].
          destruct i; cbn in O; try (destruct O; discriminate); [|destruct O as [[] _]].
          eapply can_step; [exact El|]. cbn. rewrite Ep, Er, Nat.eqb_refl. reflexivity.
        * exists t. specialize (O t). destruct (left_to_do c t) as [|i rest] eqn:El; [congruence|].
          assert (E : ph t = Out).
          { destruct (ph t) eqn:E; [reflexivity| | |]; exfalso.
            - apply R in E. destruct E.
            - apply P in E. discriminate.
            - apply W in E. discriminate. }
          rewrite E in O. destruct i; cbn in O; try (destruct O; discriminate); eapply can_step; try exact El; cbn; rewrite ?Ew, ?Ep; reflexivity.
      + exists u. assert (E : ph u = RD) by (apply R; now left). specialize (O u). rewrite E in O.
        destruct (left_to_do c u) as [|i rest] eqn:El; [discriminate|]. destruct i; cbn in O; try (destruct O; discriminate).
        * eapply can_step; [exact El|]. cbn. rewrite Er. cbn. rewrite Nat.eqb_refl. reflexivity.
        * eapply can_step; [exact El|]. reflexivity.
  Qed.
End Phases.

Lemma no_deadlock s progs c t : (forall t, Forall quiet (progs t)) -> steps (start s progs) c -> left_to_do c t <> [] -> exists u c', step u c c'.
Proof.
  intros Q H. apply (inv_progress false). eapply inv_reach; [|exact H]. intros u. eapply Forall_impl; [|apply Q]. intros a Ha. split; [exact Ha|discriminate].
Qed.
Lemma careful_quiet a : careful a -> quiet a.
Proof. destruct a; cbn; auto. apply Forall_impl. intros a. destruct a; cbn; auto. Qed.
Lemma exclusive s progs c u c' : (forall t, Forall careful (progs t)) -> steps (start s progs) c -> step u c c' -> fields c' <> fields c ->
  writer (mu c) = Some u /\ readers (mu c) = [].
Proof.
  intros Q H K D. assert (I : inv true c).
  { eapply inv_reach; [|exact H]. intros v. eapply Forall_impl; [|apply Q]. intros a Ha. split; [now apply careful_quiet|intros _; exact Ha]. }
  destruct I as (ph & O & ND & R & W & P & S). destruct K as [s0 m th i rest s' m' E X]. cbn in *. specialize (O u). rewrite E in O.
  destruct i; cbn in X, O.
  - destruct m as [r [w|] [p|]]; cbn in *; congruence.
  - destruct (existsb _ _); congruence.
  - destruct m as [r [w|] [p|]]; cbn in *; congruence.
  - destruct (waiting m); [|congruence]. destruct (readers m); [|congruence]. destruct (Nat.eqb _ _); congruence.
  - destruct (writer m); [|congruence]. destruct (Nat.eqb _ _); congruence.
  - injection X as <- <-. destruct O as [F _]. destruct (ph u) eqn:E2; cbn in F; try congruence; [exfalso; apply D; now apply F|destruct F|].
    split; [now apply W|]. assert (E3 : writer m = Some u) by now apply W. apply S. congruence.
Qed.

(** *** Callbacks that use the manager *)
Definition tail (a : act) (rest post : list act) (unlock : instr) : list instr := program (a :: rest) ++ unlock :: program post.
Lemma first_instr a : ~ direct a -> exists i l, code a = i :: l /\ (i = IRLock \/ i = IAnnounce).
Proof. destruct a; cbn; intros H; try (now destruct H); eauto 6. Qed.
Lemma mem_suffix (gs : list (st -> st)) K i rest : map IMem gs ++ K = i :: rest ->
  (gs = [] /\ K = i :: rest) \/ exists g gs', gs = g :: gs' /\ i = IMem g /\ rest = map IMem gs' ++ K.
Proof. destruct gs as [|g gs]; cbn; intros H; [left; auto|right]. injection H as <- <-. eauto. Qed.

Section Reenter.
  Variables (s : st) (progs : nat -> list act) (t : nat) (pre d rest post : list act) (a : act).
  Hypothesis Hd : Forall direct d.
  Hypothesis Ha : ~ direct a.
  Variable K : list instr.
  Hypothesis HK : K = tail a rest post IUnlock.
  Hypothesis Hp : progs t = pre ++ AWithMut (d ++ a :: rest) :: post.
  Lemma reenter_code : exists gs, program (progs t) = program pre ++ IAnnounce :: IAcquire :: map IMem gs ++ K.
  Proof.
    destruct (direct_code d Hd) as (gs & E). exists gs. rewrite Hp, HK. unfold program, tail. rewrite flat_map_app. cbn [flat_map code].
    rewrite flat_map_app, E. unfold program. cbn [flat_map]. cbn [app]. rewrite <- !app_assoc. cbn [app]. reflexivity.
  Qed.
  Definition at_point (c : conf) : Prop :=
    (exists x y gs, left_to_do c t = x ++ y ++ map IMem gs ++ K /\ (y = [IAnnounce; IAcquire] \/ (y = [IAcquire] /\ x = [])))
    \/ (exists gs, left_to_do c t = map IMem gs ++ K /\ writer (mu c) = Some t).
  Lemma K_first : exists i l, K = i :: l /\ (i = IRLock \/ i = IAnnounce).
  Proof. destruct (first_instr a Ha) as (i & l & E & H). exists i, (l ++ flat_map code rest ++ IUnlock :: program post). split; [|exact H]. rewrite HK. unfold tail, program. cbn [flat_map]. rewrite E. cbn. now rewrite <- app_assoc. Qed.
  Lemma reenter_step u c c' : sane (mu c) -> at_point c -> step u c c' -> at_point c'.
  Proof.
    intros S A H. destruct H as [s0 m th i r s' m' E X]. destruct A as [(x & y & gs & E1 & Hy)|(gs & E1 & W)]; cbn in *.
    - destruct (Nat.eq_dec t u) as [<-|Hu].
      2:{ left. exists x, y, gs. cbn. rewrite setp_other by exact Hu. auto. }
      rewrite E in E1. destruct x as [|i' x]; cbn [app] in E1.
      + destruct Hy as [->|[-> _]]; cbn [app] in E1; injection E1 as -> ->.
        * left. exists [], [IAcquire], gs. cbn. rewrite setp_same. auto.
        * right. exists gs. cbn. rewrite setp_same. split; [reflexivity|]. cbn in X. destruct (waiting m); [|discriminate]. destruct (readers m); [|discriminate].
          destruct (Nat.eqb t n); [|discriminate]. now injection X as _ <-.
      + injection E1 as -> ->. left. exists x, y, gs. cbn. rewrite setp_same. split; [reflexivity|]. destruct Hy as [->|[_ H]]; [now left|discriminate].
    - destruct (exec_writer _ _ _ _ _ _ _ S W X) as [[-> ->]|[-> _]].
      + exfalso. rewrite E in E1. symmetry in E1. destruct (mem_suffix _ _ _ _ E1) as [[_ E2]|(g & gs' & _ & E2 & _)]; [|discriminate].
        destruct K_first as (i & l & Ek & Hi). rewrite Ek in E2. injection E2 as -> _. destruct Hi; discriminate.
      + right. destruct (Nat.eq_dec t u) as [<-|Hu]; [|exists gs; cbn; rewrite setp_other by exact Hu; auto].
        rewrite E in E1. symmetry in E1. destruct (mem_suffix _ _ _ _ E1) as [[-> E2]|(g & gs' & -> & -> & ->)].
        * exfalso. destruct K_first as (j & l & Ek & Hi). rewrite Ek in E2. injection E2 as -> ->. destruct m as [rr w p]. cbn in W. subst w.
          destruct Hi as [->| ->]; cbn in X; discriminate.
        * exists gs'. cbn. rewrite setp_same. auto.
  Qed.
  Lemma reenter_reach c : steps (start s progs) c -> at_point c.
  Proof.
    intros H. remember (start s progs) as c0. induction H as [|c0 u c c' H IH X]; subst.
    - left. destruct reenter_code as (gs & E). exists (program pre), [IAnnounce; IAcquire], gs. cbn. rewrite E. auto.
    - eapply reenter_step; [eapply steps_sane; eassumption|now apply IH|exact X].
  Qed.
  Lemma reenter_never c : steps (start s progs) c -> exists x, left_to_do c t = x ++ K.
  Proof.
    intros H. destruct (reenter_reach c H) as [(x & y & gs & E & _)|(gs & E & _)].
    - exists (x ++ y ++ map IMem gs). rewrite E, <- !app_assoc. reflexivity.
    - eauto.
  Qed.
  Lemma reenter_holds c c' : steps (start s progs) c -> left_to_do c t = K -> steps c c' ->
    left_to_do c' t = K /\ writer (mu c') = Some t /\ mu c' = mu c.
  Proof.
    intros H E H'. assert (W : writer (mu c) = Some t).
    { destruct (reenter_reach c H) as [(x & y & gs & E1 & Hy)|(gs & _ & W)]; [exfalso|exact W].
      rewrite E in E1. apply (f_equal (@length instr)) in E1. rewrite !app_length in E1. destruct Hy as [->|[-> _]]; cbn in E1; lia. }
    pose proof (steps_sane _ _ _ H) as S. clear H. induction H' as [|c u c1 c2 H IH X]; [auto|]. destruct (IH E W S) as (E1 & W1 & M1).
    pose proof (sane_after _ S _ H) as S1. destruct X as [s0 m th i r s' m' E0 X]. cbn in *. subst m.
    destruct (exec_writer _ _ _ _ _ _ _ S1 W1 X) as [[-> ->]|[-> (g & ->)]].
    - exfalso. rewrite E1 in E0. destruct K_first as (i & l & Ek & Hi). rewrite Ek in E0. injection E0 as -> _. destruct Hi; discriminate.
    - destruct (Nat.eq_dec t u) as [<-|Hu]; [|rewrite setp_other by exact Hu; auto]. exfalso.
      rewrite E1 in E0. destruct K_first as (i & l & Ek & Hi). rewrite Ek in E0. injection E0 as -> _. destruct Hi; discriminate.
  Qed.
End Reenter.

Section ReadWrite.
  Variables (s : st) (progs : nat -> list act) (t : nat) (pre d rest post : list act) (a : act).
  Hypothesis Hd : Forall direct d.
  Hypothesis Ha : writes a.
  Variable K : list instr.
  Hypothesis HK : K = tail a rest post IRUnlock.
  Hypothesis Hp : progs t = pre ++ AWith (d ++ a :: rest) :: post.
  Lemma rw_code : exists gs, program (progs t) = program pre ++ IRLock :: map IMem gs ++ K.
  Proof.
    destruct (direct_code d Hd) as (gs & E). exists gs. rewrite Hp, HK. unfold program, tail. rewrite flat_map_app. cbn [flat_map code].
    rewrite flat_map_app, E. unfold program. cbn [flat_map]. cbn [app]. rewrite <- !app_assoc. cbn [app]. reflexivity.
  Qed.
  Lemma rw_K : exists l, K = IAnnounce :: IAcquire :: l.
  Proof. rewrite HK. unfold tail, program. destruct a; try destruct Ha; cbn; eauto. Qed.
  Definition rw_point (c : conf) : Prop :=
    (exists x gs, left_to_do c t = x ++ IRLock :: map IMem gs ++ K)
    \/ (exists gs, left_to_do c t = map IMem gs ++ K /\ In t (readers (mu c)))
    \/ (left_to_do c t = skipn 1 K /\ In t (readers (mu c)) /\ waiting (mu c) = Some t).
  Lemma exec_waiting u i s0 m s' m' : sane m -> waiting m = Some t -> In t (readers m) -> exec u i s0 m = Some (s', m') ->
    (u = t /\ i = IAcquire) \/ waiting m' = Some t.
  Proof.
    intros S W R E. destruct m as [r w p]. cbn in W, R. subst p. assert (w = None) as -> by (destruct w; [destruct (S ltac:(discriminate)) as [X _]; discriminate|reflexivity]).
    destruct i; cbn in E; try discriminate.
    - destruct (existsb _ r); [|discriminate]. injection E as _ <-. now right.
    - destruct r; [destruct R|discriminate].
    - injection E as _ <-. now right.
  Qed.
  Lemma rw_step u c c' : sane (mu c) -> rw_point c -> step u c c' -> rw_point c'.
  Proof.
    intros S A H. destruct rw_K as (l & Ek). destruct H as [s0 m th i r s' m' E X]. destruct A as [(x & gs & E1)|[(gs & E1 & R)|(E1 & R & W)]]; cbn in *.
    - destruct (Nat.eq_dec t u) as [<-|Hu]; [|left; exists x, gs; cbn; rewrite setp_other by exact Hu; auto].
      rewrite E in E1. destruct x as [|i' x]; cbn [app] in E1; injection E1 as -> ->.
      + right. left. exists gs. cbn. rewrite setp_same. split; [reflexivity|]. cbn in X. destruct m as [rr [w|] [p|]]; cbn in X; try discriminate. injection X as _ <-. now left.
      + left. exists x, gs. cbn. now rewrite setp_same.
    - destruct (exec_reader _ _ _ _ _ _ _ S R X) as [[-> ->]|R'].
      + exfalso. rewrite E in E1. symmetry in E1. destruct (mem_suffix _ _ _ _ E1) as [[_ E2]|(g & gs' & _ & E2 & _)]; [|discriminate]. rewrite Ek in E2. discriminate.
      + destruct (Nat.eq_dec t u) as [<-|Hu]; [|right; left; exists gs; cbn; rewrite setp_other by exact Hu; auto].
        rewrite E in E1. symmetry in E1. destruct (mem_suffix _ _ _ _ E1) as [[-> E2]|(g & gs' & -> & -> & ->)].
        * right. right. cbn. rewrite setp_same. rewrite E2. split; [reflexivity|]. split; [exact R'|]. rewrite Ek in E2. injection E2 as <- _. cbn in X.
          destruct m as [rr [w|] [p|]]; cbn in X; try discriminate. injection X as _ <-. reflexivity.
        * right. left. exists gs'. cbn. rewrite setp_same. auto.
    - destruct (exec_reader _ _ _ _ _ _ _ S R X) as [[-> ->]|R'].
      + exfalso. rewrite E1 in E. rewrite Ek in E. discriminate.
      + destruct (exec_waiting _ _ _ _ _ _ S W R X) as [[-> ->]|W'].
        * exfalso. cbn in X. rewrite W in X. destruct (readers m); [destruct R|discriminate].
        * right. right. cbn. destruct (Nat.eq_dec t u) as [<-|Hu]; [|rewrite setp_other by exact Hu; auto]. exfalso.
          rewrite E1, Ek in E. cbn in E. injection E as <- _. cbn in X. rewrite W in X. destruct (readers m); [destruct R|discriminate].
  Qed.
  Lemma rw_never c : steps (start s progs) c -> exists x, left_to_do c t = x ++ skipn 1 K.
  Proof.
    intros H. assert (P : rw_point c).
    { remember (start s progs) as c0. induction H as [|c0 u c c' H IH X]; subst.
      - left. destruct rw_code as (gs & E). exists (program pre), gs. cbn. exact E.
      - eapply rw_step; [eapply steps_sane; eassumption|now apply IH|exact X]. }
    destruct rw_K as (l & Ek). destruct P as [(x & gs & E)|[(gs & E & _)|(E & _)]].
    - exists (x ++ IRLock :: map IMem gs ++ [IAnnounce]). rewrite E, Ek. cbn. rewrite <- !app_assoc. cbn. rewrite <- app_assoc. reflexivity.
    - exists (map IMem gs ++ [IAnnounce]). rewrite E, Ek. cbn. rewrite <- app_assoc. reflexivity.
    - exists []. exact E.
  Qed.
End ReadWrite.

(** *** Only reading *)
Fixpoint nested (n : nat) (l : list instr) : Prop :=
  match l with
  | [] => n = 0
  | IRLock :: l => nested (S n) l
  | IRUnlock :: l => match n with 0 => False | S n => nested n l end
  | IMem _ :: l => nested n l
  | _ => False
  end.
Fixpoint nested_code (a : act) : reads_only a -> forall n l, nested n l -> nested n (code a ++ l).
Proof.
  destruct a; cbn; intros H n l K; try exact K; try (now destruct H).
  rewrite <- app_assoc. cbn. assert (K' : nested (S n) (IRUnlock :: l)) by exact K. clear K. revert K'. generalize (IRUnlock :: l). generalize (S n). clear n l.
  induction body as [|a body IH]; intros n l K; [exact K|]. cbn. destruct H as [H1 H2]. rewrite <- app_assoc. apply nested_code; [exact H1|]. now apply IH.
Qed.
Lemma nested_program l : Forall reads_only l -> nested 0 (program l).
Proof. induction 1 as [|a l H _ IH]; [reflexivity|]. cbn. now apply nested_code. Qed.
Definition times (t : nat) (l : list nat) : nat := count_occ Nat.eq_dec l t.
Arguments times : simpl never.
Lemma times_leave t l : times t (leave t l) = pred (times t l).
Proof.
  unfold times. induction l as [|u l IH]; [reflexivity|]. cbn. destruct (Nat.eqb_spec t u) as [<-|N].
  - destruct (Nat.eq_dec t t); [reflexivity|congruence].
  - cbn. destruct (Nat.eq_dec u t); [congruence|exact IH].
Qed.
Lemma times_leave_other t u l : u <> t -> times u (leave t l) = times u l.
Proof.
  intros H. unfold times. induction l as [|x l IH]; [reflexivity|]. cbn. destruct (Nat.eqb_spec t x) as [<-|N].
  - destruct (Nat.eq_dec t u); [congruence|reflexivity].
  - cbn. destruct (Nat.eq_dec x u); [now rewrite IH|exact IH].
Qed.
Definition rinv (c : conf) : Prop := writer (mu c) = None /\ waiting (mu c) = None /\ forall t, nested (times t (readers (mu c))) (left_to_do c t).
Lemma rinv_step t c c' : rinv c -> step t c c' -> rinv c'.
Proof.
  intros (W & P & N) H. destruct H as [s m th i rest s' m' E X]. unfold rinv in *. destruct m as [r w p]. cbn in *. subst w p.
  pose proof (N t) as Nt. rewrite E in Nt. destruct i; cbn in X, Nt; try (now destruct Nt).
  - injection X as _ <-. cbn. split; [reflexivity|]. split; [reflexivity|]. intros u. unfold times in *. cbn. destruct (Nat.eq_dec t u) as [<-|Hu].
    + rewrite setp_same. exact Nt.
    + rewrite setp_other by auto. apply N.
  - destruct (existsb _ r); [|discriminate]. injection X as _ <-. cbn. split; [reflexivity|]. split; [reflexivity|]. intros u. destruct (Nat.eq_dec u t) as [->|Hu].
    + rewrite setp_same, times_leave. destruct (times t r); [destruct Nt|exact Nt].
    + rewrite setp_other by exact Hu. rewrite times_leave_other by exact Hu. apply N.
  - injection X as _ <-. cbn. split; [reflexivity|]. split; [reflexivity|]. intros u. destruct (Nat.eq_dec u t) as [->|Hu]; [now rewrite setp_same|].
    rewrite setp_other by exact Hu. apply N.
Qed.
Lemma nested_reads s progs c t : (forall t, Forall reads_only (progs t)) -> steps (start s progs) c -> left_to_do c t <> [] -> exists c', step t c c'.
Proof.
  intros R H Ht. assert (I : rinv c).
  { remember (start s progs) as c0. induction H as [|c0 u c c' H IH X]; subst.
    - unfold rinv. cbn. repeat split. intros u. now apply nested_program.
    - eapply rinv_step; [|exact X]. apply IH; [reflexivity|].
      destruct X as [s0 m th i rest s' m' E X]. cbn in *. destruct (Nat.eq_dec t u) as [->|Hu]; [rewrite E; discriminate|]. now rewrite setp_other in Ht by exact Hu. }
  destruct I as (W & P & N). specialize (N t). destruct c as [s0 [r w p] th]. cbn in *. subst w p. destruct (th t) as [|i rest] eqn:E; [congruence|].
  destruct i; cbn in N; try (now destruct N).
  - eexists. econstructor; [exact E|reflexivity].
  - eexists. econstructor; [exact E|]. cbn. replace (existsb (Nat.eqb t) r) with true; [reflexivity|]. symmetry. apply existsb_exists. exists t.
    split; [|apply Nat.eqb_refl]. apply (count_occ_In Nat.eq_dec). unfold times in N. destruct (count_occ _ r t); [destruct N|lia].
  - eexists. econstructor; [exact E|reflexivity].
Qed.
Definition clash (t : nat) : list act := match t with 0 => [AWith [AGet]] | 1 => [ASet (fun s => s)] | _ => [] end.
Lemma clash_stuck s : exists c, steps (start s clash) c /\ stuck c /\ left_to_do c 0 <> [] /\ left_to_do c 1 <> [].
Proof.
  eexists. split; [|split].
  - eapply steps_next; [eapply steps_next; [apply steps_refl|]|].
    + unfold start. apply (step_intro 0) with (i := IRLock) (rest := [IRLock; IMem (fun s => s); IRUnlock; IRUnlock]); reflexivity.
    + apply (step_intro 1) with (i := IAnnounce) (rest := [IAcquire; IMem (fun s => s); IUnlock]); reflexivity.
  - intros t c' H. inversion H as [s0 m th i rest s' m' E X Hc Hc']. subst.
    destruct t as [|[|t]]; cbn in E; try discriminate; injection E as <- <-; cbn in X; discriminate.
  - split; cbn; discriminate.
Qed.

(** *** Warn *)
Arguments given : simpl never.
Arguments coming : simpl never.
Section WarnP.
  Variable body : nat -> list wact.
  Fixpoint wok (p : bool) (l : list winstr) : Prop :=
    match l with
    | [] => p = false
    | JLock :: l => p = false /\ wok true l
    | JUnlock :: l => p = true /\ wok false l
    | JOther :: l => wok p l
    | _ :: l => p = true /\ wok p l
    end.
  Lemma wok_program l : wok false (wprogram l).
  Proof. induction l as [|a l IH]; [reflexivity|]. destruct a; cbn; auto 6. Qed.
  Lemma harmless_code o : harmless o -> flat_map wcode o = repeat JOther (length o).
  Proof. induction 1 as [|b o -> _ IH]; [reflexivity|]. cbn. now rewrite IH. Qed.
  Lemma wok_harmless p o l : harmless o -> wok p l -> wok p (wprogram o ++ l).
  Proof. induction 1 as [|a o -> _ IH]; intros H; [exact H|]. cbn. auto. Qed.
  Lemma inside_holds p l : wok p l -> inside l -> p = true.
  Proof.
    intros H (d & rest & -> & N). revert p H. induction d as [|i d IH]; intros p H; [apply H|]. cbn in H.
    destruct i; try (now apply H); [exfalso; apply N; now left|]. apply IH; [|exact H]. intros K. apply N. now right.
  Qed.
  Definition winv (c : wconf) : Prop := exists ph : nat -> bool, (forall t, wok (ph t) (todo c t)) /\ forall t, lock c = Some t <-> ph t = true.
  Lemma winv_step t c c' : (forall k, harmless (body k)) -> winv c -> wstep body t c c' -> winv c'.
  Proof.
    intros Hb (ph & O & L) H.
    assert (Keep : forall th rest, (forall u, wok (ph u) (th u)) -> wok (ph t) rest -> forall u, wok (ph u) (setp th t rest u)).
    { intros th rest Hth Hr u. destruct (Nat.eq_dec u t) as [->|Hu]; [now rewrite setp_same|]. rewrite setp_other by exact Hu. apply Hth. }
    assert (Move : forall th q rest, (forall u, wok (ph u) (th u)) -> wok q rest -> forall u, wok (setp ph t q u) (setp th t rest u)).
    { intros th q rest Hth Hr u. destruct (Nat.eq_dec u t) as [->|Hu]; [now rewrite !setp_same|]. rewrite !setp_other by exact Hu. apply Hth. }
    pose proof (O t) as Ot. inversion H; subst; cbn in *.
    - rewrite H0 in Ot. cbn in Ot. destruct Ot as [E0 K]. exists (setp ph t true). cbn. split; [now apply Move|]. intros u. destruct (Nat.eq_dec u t) as [->|Hu].
      + rewrite setp_same. tauto.
      + rewrite setp_other by exact Hu. rewrite <- L. split; [congruence|discriminate].
    - rewrite H0 in Ot. cbn in Ot. destruct Ot as [E0 K]. exists (setp ph t false). cbn. split; [now apply Move|]. intros u. destruct (Nat.eq_dec u t) as [->|Hu].
      + rewrite setp_same. split; discriminate.
      + rewrite setp_other by exact Hu. rewrite <- L. split; [discriminate|congruence].
    - rewrite H0 in Ot. cbn in Ot. destruct Ot as [E0 K]. exists ph. cbn. split; [|exact L]. apply Keep; [exact O|]. apply wok_harmless; auto.
    - rewrite H0 in Ot. cbn in Ot. destruct Ot as [E0 K]. exists ph. cbn. split; [|exact L]. now apply Keep.
    - rewrite H0 in Ot. cbn in Ot. destruct Ot as [E0 K]. exists ph. cbn. split; [|exact L]. now apply Keep.
    - rewrite H0 in Ot. cbn in Ot. destruct Ot as [E0 K]. exists ph. cbn. split; [|exact L]. now apply Keep.
    - rewrite H0 in Ot. cbn in Ot. exists ph. cbn. split; [|exact L]. now apply Keep.
  Qed.
  Lemma winv_start h z progs : winv (wstart h z progs).
  Proof. exists (fun _ => false). cbn. split; [intros t; apply wok_program|]. intros t. split; discriminate. Qed.
  Lemma winv_reach h z progs c : (forall k, harmless (body k)) -> wsteps body (wstart h z progs) c -> winv c.
  Proof.
    intros Hb H. remember (wstart h z progs) as c0. induction H as [|c0 t c c' H IH X]; subst; [apply winv_start|]. eapply winv_step; eauto.
  Qed.
  Lemma deliver_steps l h z d th t w rest : th t = JDeliver w :: rest -> exists c', wstep body t (mkw l h z d th) c'.
  Proof. intros E. destruct (receiver h z) eqn:R; eexists; [eapply w_call; eassumption|eapply w_drop; eassumption]. Qed.
  Lemma warn_progress h z progs c t : (forall k, harmless (body k)) -> wsteps body (wstart h z progs) c -> todo c t <> [] ->
    exists u c', wstep body u c c'.
  Proof.
    intros Hb H Ht. destruct (winv_reach _ _ _ _ Hb H) as (ph & O & L). destruct c as [l h' z' d th]. cbn in *. destruct l as [u|].
    - exists u. pose proof (proj1 (L u) eq_refl) as E. specialize (O u). rewrite E in O. destruct (th u) as [|i rest] eqn:El; [discriminate|].
      destruct i; cbn in O; try (destruct O; discriminate).
      + eexists. eapply w_unlock; exact El.
      + eapply deliver_steps; eassumption.
      + eexists. eapply w_handler; exact El.
      + eexists. eapply w_zerolog; exact El.
      + eexists. eapply w_other; exact El.
    - exists t. assert (E : ph t = false) by (destruct (ph t) eqn:E; [apply L in E; discriminate|reflexivity]). specialize (O t). rewrite E in O.
      destruct (th t) as [|i rest] eqn:El; [congruence|]. destruct i; cbn in O; try (destruct O; discriminate).
      + eexists. eapply w_lock; exact El.
      + eexists. eapply w_other; exact El.
  Qed.
  Lemma one_inside h z progs c t u : (forall k, harmless (body k)) -> wsteps body (wstart h z progs) c -> inside (todo c t) -> inside (todo c u) -> t = u.
  Proof.
    intros Hb H Ht Hu. destruct (winv_reach _ _ _ _ Hb H) as (ph & O & L). apply (inside_holds _ _ (O t)) in Ht. apply (inside_holds _ _ (O u)) in Hu.
    apply L in Ht. apply L in Hu. congruence.
  Qed.

  Lemma coming_program l : coming (wprogram l) = warnings l.
  Proof. unfold coming, warnings, wprogram. induction l as [|a l IH]; [reflexivity|]. destruct a; cbn; now rewrite IH. Qed.
  Lemma coming_harmless o l : harmless o -> coming (wprogram o ++ l) = coming l.
  Proof. induction 1 as [|a o -> _ IH]; [reflexivity|]. exact IH. Qed.
  Lemma given_snoc t d u k w : given t (d ++ [(u, k, w)]) = given t d ++ (if Nat.eqb u t then [w] else []).
  Proof. unfold given. rewrite filter_app, map_app. cbn. now destruct (Nat.eqb u t). Qed.
  Definition once (progs : nat -> list wact) (c : wconf) : Prop :=
    handler c <> None /\ (forall t, ~ In (JSetHandler None) (todo c t)) /\ forall t, given t (delivered c) ++ coming (todo c t) = warnings (progs t).
  Lemma not_in_harmless o : harmless o -> ~ In (JSetHandler None) (wprogram o).
  Proof. induction 1 as [|a o -> _ IH]; [intros []|]. cbn. intros [K|K]; [discriminate|auto]. Qed.
  Lemma not_in_program l : Forall keeps_handler l -> ~ In (JSetHandler None) (wprogram l).
  Proof.
    induction 1 as [|a l Ha _ IH]; [intros []|]. cbn. rewrite in_app_iff. intros [K|K]; [|auto].
    destruct a; cbn in K; intuition (try discriminate). apply Ha. congruence.
  Qed.
  Lemma once_step progs t c c' : (forall k, harmless (body k)) -> once progs c -> wstep body t c c' -> once progs c'.
  Proof.
    intros Hb (Hh & N & G) H. unfold once in *.
    assert (Nin : forall th rest x, (forall u, ~ In (JSetHandler None) (th u)) -> th t = x ++ rest -> forall u, ~ In (JSetHandler None) (setp th t rest u)).
    { intros th rest x Hth E u. destruct (Nat.eq_dec u t) as [->|Hu]; [rewrite setp_same|rewrite setp_other by exact Hu; apply Hth].
      specialize (Hth t). rewrite E, in_app_iff in Hth. tauto. }
    assert (Com : forall d th rest i, (forall u, given u d ++ coming (th u) = warnings (progs u)) -> th t = i :: rest -> (forall w, i <> JDeliver w) ->
      forall u, given u d ++ coming (setp th t rest u) = warnings (progs u)).
    { intros d th rest i Hth E Hi u. destruct (Nat.eq_dec u t) as [->|Hu]; [rewrite setp_same|rewrite setp_other by exact Hu; apply Hth].
      rewrite <- (Hth t), E. destruct i; try reflexivity. now destruct (Hi w). }
    inversion H; subst; cbn in *.
    all: try (split; [assumption|split; [eapply (Nin _ _ [_]); [exact N|eassumption]|eapply Com; [exact G|eassumption|discriminate]]]).
    - split; [exact Hh|]. split.
      + intros u. destruct (Nat.eq_dec u t) as [->|Hu]; [rewrite setp_same|rewrite setp_other by exact Hu; apply N].
        specialize (N t). rewrite H0 in N. cbn in N. rewrite in_app_iff. intros [K|K]; [now apply not_in_harmless in K|tauto].
      + intros u. rewrite given_snoc, <- G. destruct (Nat.eqb_spec t u) as [<-|Hu].
        * rewrite setp_same, H0, coming_harmless by apply Hb. rewrite <- app_assoc. reflexivity.
        * rewrite setp_other by auto. now rewrite app_nil_r.
    - exfalso. unfold receiver in H1. destruct z; [discriminate|]. congruence.
    - split; [|split; [eapply (Nin _ _ [_]); [exact N|eassumption]|eapply Com; [exact G|eassumption|discriminate]]].
      intros ->. apply (N t). rewrite H0. now left.
  Qed.
  Lemma once_reach h z progs c : (forall k, harmless (body k)) -> h <> None -> (forall t, Forall keeps_handler (progs t)) ->
    wsteps body (wstart h z progs) c -> forall t, given t (delivered c) ++ coming (todo c t) = warnings (progs t).
  Proof.
    intros Hb Hh Hk H. enough (once progs c) by apply H0. remember (wstart h z progs) as c0. induction H as [|c0 t c c' H IH X]; subst.
    - unfold once. cbn. split; [exact Hh|]. split; [intros t; now apply not_in_program|]. intros t. apply coming_program.
    - eapply once_step; eauto.
  Qed.

  (** A handler that uses the warnings *)
  Variables (k : nat) (o rest : list wact) (a : wact).
  Hypothesis Hbody : body k = o ++ a :: rest.
  Hypothesis Ho : harmless o.
  Hypothesis Ha : a <> WOther.
  Definition no_sets (l : list winstr) : Prop := forall h, ~ In (JSetHandler h) l /\ ~ In (JSetZerolog h) l.
  Definition held (t : nat) (c : wconf) : Prop :=
    (exists n l, todo c t = repeat JOther n ++ JLock :: l) /\ lock c = Some t /\ (forall u, u <> t -> wok false (todo c u)).
  Lemma held_step t u c c' : held t c -> wstep body u c c' -> held t c' /\ delivered c' = delivered c.
  Proof.
    intros ((n & l & E) & L & O) H. unfold held. destruct (Nat.eq_dec u t) as [->|Hu].
    - destruct n as [|n]; cbn in E; inversion H; subst; cbn in *; try congruence.
      split; [|reflexivity]. split; [exists n, l; rewrite setp_same; congruence|]. split; [exact L|]. intros v Hv. rewrite setp_other by exact Hv. now apply O.
    - pose proof (O u Hu) as Ou. inversion H; subst; cbn in *; rewrite H0 in Ou; cbn in Ou; try (destruct Ou; discriminate); try congruence.
      split; [|reflexivity]. split; [exists n, l; now rewrite setp_other by auto|]. split; [exact L|]. intros v Hv. destruct (Nat.eq_dec v u) as [->|Hvu].
      + rewrite setp_same. exact Ou.
      + rewrite setp_other by exact Hvu. now apply O.
  Qed.
  Lemma held_steps t c c' : held t c -> wsteps body c c' -> held t c' /\ delivered c' = delivered c.
  Proof.
    intros Hh H. induction H as [|c u c1 c2 H IH X]; [auto|]. destruct (IH Hh) as [H1 H2]. destruct (held_step _ _ _ _ H1 X) as [H3 H4]. split; [exact H3|congruence].
  Qed.
  Definition before (h z : option nat) (c : wconf) : Prop :=
    delivered c = [] /\ handler c = h /\ zerolog c = z /\ (forall t, no_sets (todo c t)) /\ winv c.
  Lemma body_code l : exists n r, wprogram (body k) ++ l = repeat JOther n ++ JLock :: r.
  Proof.
    rewrite Hbody. unfold wprogram. rewrite flat_map_app. cbn [flat_map]. exists (length o).
    rewrite (harmless_code o Ho). destruct a; try congruence; cbn; rewrite <- app_assoc; cbn; eexists; reflexivity.
  Qed.
  Lemma before_step h z t c c' : receiver h z = Some k -> before h z c -> wstep body t c c' ->
    before h z c' \/ (held t c' /\ exists w, delivered c' = [(t, k, w)]).
  Proof.
    intros Hr (D & Eh & Ez & N & (ph & O & L)) H.
    destruct (match todo c t with JDeliver _ :: _ => true | _ => false end) eqn:Ed.
    - right. inversion H; subst; cbn in *; rewrite H0 in Ed; try discriminate; [|congruence].
      assert (k0 = k) as -> by congruence. subst. split; [|cbn; eauto]. unfold held. cbn.
      pose proof (O t) as Ot. rewrite H0 in Ot. cbn in Ot. destruct Ot as [Pt _]. destruct (body_code rest0) as (n & r & E).
      split; [exists n, r; now rewrite setp_same|]. split; [now apply L|]. intros u Hu. rewrite setp_other by exact Hu.
      specialize (O u). destruct (ph u) eqn:E2; [|exact O]. apply L in E2. apply L in Pt. congruence.
    - left. assert (W : winv c'). 
      { clear N. assert (Q : winv c) by (exists ph; auto).
        assert (Keep : forall th rest, (forall u, wok (ph u) (th u)) -> wok (ph t) rest -> forall u, wok (ph u) (setp th t rest u)).
        { intros th rs Hth Hrs u. destruct (Nat.eq_dec u t) as [->|Hu]; [now rewrite setp_same|]. rewrite setp_other by exact Hu. apply Hth. }
        assert (Move : forall th q rest, (forall u, wok (ph u) (th u)) -> wok q rest -> forall u, wok (setp ph t q u) (setp th t rest u)).
        { intros th q rs Hth Hrs u. destruct (Nat.eq_dec u t) as [->|Hu]; [now rewrite !setp_same|]. rewrite !setp_other by exact Hu. apply Hth. }
        pose proof (O t) as Ot. inversion H; subst; cbn in *; rewrite H0 in Ot, Ed; cbn in Ot; try discriminate.
        - destruct Ot as [E0 K]. exists (setp ph t true). cbn. split; [now apply Move|]. intros u. destruct (Nat.eq_dec u t) as [->|Hu].
          + rewrite setp_same. tauto.
          + rewrite setp_other by exact Hu. rewrite <- L. split; [congruence|discriminate].
        - destruct Ot as [E0 K]. exists (setp ph t false). cbn. split; [now apply Move|]. intros u. destruct (Nat.eq_dec u t) as [->|Hu].
          + rewrite setp_same. split; discriminate.
          + rewrite setp_other by exact Hu. rewrite <- L. split; [discriminate|congruence].
        - destruct Ot as [E0 K]. exists ph. cbn. split; [|exact L]. now apply Keep.
        - destruct Ot as [E0 K]. exists ph. cbn. split; [|exact L]. now apply Keep.
        - exists ph. cbn. split; [|exact L]. now apply Keep. }
      assert (NS : forall th i rest, (forall u, no_sets (th u)) -> th t = i :: rest -> forall u, no_sets (setp th t rest u)).
      { intros th i rs Hth E u h'. destruct (Nat.eq_dec u t) as [->|Hu]; [rewrite setp_same|rewrite setp_other by exact Hu; apply Hth].
        specialize (Hth t h'). rewrite E in Hth. cbn in Hth. tauto. }
      inversion H; subst; cbn in *.
      all: try (rewrite H0 in Ed; discriminate).
      all: try (repeat split; try assumption; eapply NS; eassumption).
      + exfalso. destruct (N t h') as [N1 _]. apply N1. rewrite H0. now left.
      + exfalso. destruct (N t z') as [_ N1]. apply N1. rewrite H0. now left.
  Qed.
  Lemma no_sets_program l : Forall sets_nothing l -> no_sets (wprogram l).
  Proof.
    intros H h. induction H as [|b l Hb _ [IH1 IH2]]; [split; intros []|]. cbn. rewrite !in_app_iff.
    destruct b; try destruct Hb; cbn; intuition discriminate.
  Qed.
  Lemma handler_reach h z progs c : receiver h z = Some k -> (forall t, Forall sets_nothing (progs t)) -> wsteps body (wstart h z progs) c ->
    before h z c \/ exists t w, held t c /\ delivered c = [(t, k, w)].
  Proof.
    intros Hr Hs H. remember (wstart h z progs) as c0. induction H as [|c0 t c c' H IH X]; subst.
    - left. unfold before. cbn. repeat split; try (apply no_sets_program; apply Hs). apply winv_start.
    - destruct (IH eq_refl) as [B|(u & w & B & D)].
      + destruct (before_step _ _ _ _ _ Hr B X) as [B'|[B' (w & D)]]; [now left|right; eauto].
      + right. destruct (held_step _ _ _ _ B X) as [B' D']. exists u, w. split; [exact B'|congruence].
  Qed.
End WarnP.
