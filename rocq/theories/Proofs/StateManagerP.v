From Coq Require Import List ZArith Bool Lia Arith.
From Verif Require Import Spec.AtomicState Model.StateManager.
Import ListNotations.

Definition is_read (i : instr) : bool :=
  match i with RdFitted | RdNFeatures | RdNSamples => true | _ => false end.
Definition is_write (i : instr) : bool :=
  match i with WrFitted _ | WrNFeatures _ | WrNSamples _ => true | _ => false end.

Fixpoint execs (is_ : list instr) (f loc : st) : st * st :=
  match is_ with
  | [] => (f, loc)
  | i :: r => execs r (fst (exec_mem i f loc)) (snd (exec_mem i f loc))
  end.

Definition incs_r (o : op) (rest : list instr) (loc s : st) : Prop :=
  exists mems, rest = mems ++ [RUnlock] /\ Forall (fun i => is_read i = true) mems /\
    fst (atomic o s) = s /\ result o (snd (execs mems s loc)) = snd (atomic o s).

Definition incs_w (o : op) (rest : list instr) (f loc s : st) : Prop :=
  exists mems, rest = mems ++ [Unlock] /\ Forall (fun i => is_write i = true) mems /\
    fst (execs mems f loc) = fst (atomic o s) /\ result o loc = snd (atomic o s).

Definition holder (t : nat) (l : lock) : Prop :=
  match l with LFree => False | LRead hs => In t hs | LWrite u => u = t end.

Definition tinv (f : st) (l : lock) (s : st) (ts : tstate) (p : phase) (t : nat) : Prop :=
  match ts with
  | TIdle => p = Idle /\ ~ holder t l
  | TRun o rest loc =>
      (rest = [] /\ p = Effected o (result o loc) /\ ~ holder t l) \/
      (rest = code o /\ p = Pending o /\ ~ holder t l) \/
      (p = Pending o /\ (exists hs, l = LRead hs /\ In t hs) /\ incs_r o rest loc s) \/
      (p = Pending o /\ l = LWrite t /\ incs_w o rest f loc s)
  end.

Definition linv (f : st) (l : lock) (s : st) : Prop :=
  match l with
  | LFree => f = s
  | LRead hs => f = s /\ hs <> [] /\ NoDup hs
  | LWrite _ => True
  end.

Definition R (c : conf) (a : st * phases) : Prop :=
  linv (fields c) (lk c) (fst a) /\
  forall t, tinv (fields c) (lk c) (fst a) (threads c t) (snd a t) t.

Lemma code_rlock o rest loc s : code o = RLock :: rest -> incs_r o rest loc s.
Proof.
  destruct o; cbn; intros H; try discriminate; injection H as <-.
  - exists [RdFitted]. repeat split. repeat constructor.
  - exists [RdNFeatures; RdNSamples]. repeat split; repeat constructor.
  - exists [RdFitted]. repeat split. repeat constructor.
  - exists [RdFitted; RdNFeatures; RdNSamples]. repeat split; repeat constructor.
Qed.

Lemma code_lock o rest loc s : code o = Lock :: rest -> incs_w o rest s loc s.
Proof.
  destruct o; cbn; intros H; try discriminate; injection H as <-.
  - exists [WrFitted true]. repeat split. repeat constructor.
  - exists [WrFitted false; WrNFeatures 0%Z; WrNSamples 0%Z]. repeat split; repeat constructor.
  - exists [WrNFeatures nf; WrNSamples ns]. repeat split; repeat constructor.
  - exists [WrFitted b; WrNFeatures nf; WrNSamples ns]. repeat split; repeat constructor.
Qed.

Lemma code_head o i rest : code o = i :: rest -> i = RLock \/ i = Lock.
Proof. destruct o; cbn; intros H; injection H as <- _; auto. Qed.

Lemma setp_same {A} (g : nat -> A) t x : setp g t x t = x.
Proof. unfold setp. now rewrite Nat.eqb_refl. Qed.
Lemma setp_other {A} (g : nat -> A) t x u : u <> t -> setp g t x u = g u.
Proof. intros H. unfold setp. apply Nat.eqb_neq in H. now rewrite H. Qed.

Lemma read_keeps i f loc f' loc' : is_read i = true -> exec_mem i f loc = (f', loc') -> f' = f.
Proof. destruct i; cbn; intros H E; try discriminate; injection E as <- _; reflexivity. Qed.
Lemma write_keeps i f loc f' loc' : is_write i = true -> exec_mem i f loc = (f', loc') -> loc' = loc.
Proof. destruct i; cbn; intros H E; try discriminate; injection E as _ <-; reflexivity. Qed.

Lemma incs_r_mem o i rest f loc f' loc' :
  is_mem i = true -> exec_mem i f loc = (f', loc') ->
  incs_r o (i :: rest) loc f -> f' = f /\ incs_r o rest loc' f.
Proof.
  intros Hm He (mems & E & Hr & Hs & Hres). destruct mems as [|j mems].
  - injection E as -> _. discriminate.
  - injection E as <- ->. inversion Hr; subst.
    pose proof (read_keeps _ _ _ _ _ H1 He) as ->. split; [reflexivity|].
    exists mems. cbn [execs] in Hres. rewrite He in Hres. cbn [fst snd] in Hres. auto.
Qed.

Lemma incs_w_mem o i rest f loc f' loc' s :
  is_mem i = true -> exec_mem i f loc = (f', loc') ->
  incs_w o (i :: rest) f loc s -> incs_w o rest f' loc' s.
Proof.
  intros Hm He (mems & E & Hr & Hs & Hres). destruct mems as [|j mems].
  - injection E as -> _. discriminate.
  - injection E as <- ->. inversion Hr; subst.
    pose proof (write_keeps _ _ _ _ _ H1 He) as ->.
    exists mems. cbn [execs] in Hs. rewrite He in Hs. cbn [fst snd] in Hs. auto.
Qed.

Lemma incs_r_unlock o rest loc s i : is_mem i = false -> incs_r o (i :: rest) loc s ->
  i = RUnlock /\ rest = [] /\ fst (atomic o s) = s /\ result o loc = snd (atomic o s).
Proof.
  intros Hm (mems & E & Hr & Hs & Hres). destruct mems as [|j mems].
  - injection E as -> ->. auto.
  - injection E as <- ->. inversion Hr; subst. destruct i; discriminate.
Qed.

Lemma incs_w_unlock o rest f loc s i : is_mem i = false -> incs_w o (i :: rest) f loc s ->
  i = Unlock /\ rest = [] /\ f = fst (atomic o s) /\ result o loc = snd (atomic o s).
Proof.
  intros Hm (mems & E & Hr & Hs & Hres). destruct mems as [|j mems].
  - injection E as -> ->. cbn in Hs. auto.
  - injection E as <- ->. inversion Hr; subst. destruct i; discriminate.
Qed.

(** Threads that do not hold the lock do not depend on fields or lock contents. *)
Lemma tinv_nonholder f l s ts p t f' l' s' :
  tinv f l s ts p t -> ~ holder t l -> ~ holder t l' -> tinv f' l' s' ts p t.
Proof.
  unfold tinv. destruct ts as [|o rest loc]; intros H Hn Hn'.
  - destruct H; auto.
  - destruct H as [(A & B & C)|[(A & B & C)|[(A & (hs & -> & C) & D)|(A & -> & D)]]]; auto.
    + now contradiction Hn.
    + now contradiction Hn.
Qed.

Lemma remove_keeps t u hs : u <> t -> (In u (remove Nat.eq_dec t hs) <-> In u hs).
Proof.
  intros H. split; intros Hi.
  - now apply in_remove in Hi.
  - now apply in_in_remove.
Qed.

Lemma remove_NoDup t hs : NoDup hs -> NoDup (remove Nat.eq_dec t hs).
Proof.
  induction 1 as [|x l Hx Hl IH]; cbn; [constructor|].
  destruct (Nat.eq_dec t x); [exact IH|]. constructor; [|exact IH].
  intros Hi. apply in_remove in Hi. tauto.
Qed.

Lemma sim_step c e c' a :
  step c e c' -> R c a ->
  (e = None /\ (R c' a \/ exists a', spec_step a None a' /\ R c' a')) \/
  (exists ev a', e = Some ev /\ spec_step a (Some ev) a' /\ R c' a').
Proof.
  intros Hstep [Hl Ht]. destruct a as [s ph]. cbn [fst snd] in *.
  destruct Hstep as [f l th t o Hth | f l th t o i rest loc f' loc' Hth Hm He
                    | f l th t o i rest loc l' Hth Hm He | f l th t o loc Hth];
    cbn [fields lk threads] in *.
  - (* invocation *)
    right. exists (Inv t o), (s, setp ph t (Pending o)).
    pose proof (Ht t) as H0. rewrite Hth in H0. destruct H0 as [Hp Hn].
    split; [reflexivity|]. split; [now constructor|].
    split; [exact Hl|]. cbn [fst snd fields lk threads]. intros u.
    destruct (Nat.eq_dec u t) as [->|Hu].
    + rewrite !setp_same. cbn. right. left. auto.
    + rewrite !setp_other by exact Hu. apply Ht.
  - (* memory access *)
    left. split; [reflexivity|]. left.
    pose proof (Ht t) as H0. rewrite Hth in H0.
    destruct H0 as [(A & _)|[(A & _)|[(A & (hs & -> & C) & D)|(A & -> & D)]]].
    + discriminate.
    + symmetry in A. apply code_head in A as [->| ->]; discriminate.
    + destruct Hl as (-> & Hne & Hnd).
      destruct (incs_r_mem _ _ _ _ _ _ _ Hm He D) as [-> D'].
      split; [cbn; auto|]. cbn [fst snd fields lk threads]. intros u.
      destruct (Nat.eq_dec u t) as [->|Hu].
      * rewrite setp_same. cbn. right; right; left. eauto.
      * rewrite setp_other by exact Hu. apply Ht.
    + pose proof (incs_w_mem _ _ _ _ _ _ _ _ Hm He D) as D'.
      split; [exact I|]. cbn [fst snd fields lk threads]. intros u.
      destruct (Nat.eq_dec u t) as [->|Hu].
      * rewrite setp_same. cbn. right; right; right. auto.
      * rewrite setp_other by exact Hu.
        eapply tinv_nonholder; [apply Ht|cbn; congruence|cbn; congruence].
  - (* lock operation *)
    left. split; [reflexivity|].
    pose proof (Ht t) as H0. rewrite Hth in H0.
    destruct H0 as [(A & _)|[(A & B & C)|[(A & (hs & -> & C) & D)|(A & -> & D)]]].
    + discriminate.
    + (* acquiring *)
      left. symmetry in A. destruct (code_head _ _ _ A) as [->| ->].
      * (* RLock *)
        destruct l as [|hs|w]; cbn in He; try discriminate; injection He as <-.
        -- cbn in Hl. subst f. split; [cbn; repeat split; [easy|repeat constructor; easy]|].
           cbn [fst snd fields lk threads]. intros u.
           destruct (Nat.eq_dec u t) as [->|Hu].
           ++ rewrite setp_same. cbn. right; right; left. split; [exact B|].
              split; [exists [t]; split; [reflexivity|now left]|].
              eapply code_rlock; exact A.
           ++ rewrite setp_other by exact Hu.
              eapply tinv_nonholder; [apply Ht|easy|cbn; intros [E|[]]; congruence].
        -- destruct Hl as (-> & Hne & Hnd). cbn in C.
           split; [cbn; repeat split; [easy|constructor; assumption]|].
           cbn [fst snd fields lk threads]. intros u.
           destruct (Nat.eq_dec u t) as [->|Hu].
           ++ rewrite setp_same. cbn. right; right; left. split; [exact B|].
              split; [exists (t :: hs); split; [reflexivity|now left]|].
              eapply code_rlock; exact A.
           ++ rewrite setp_other by exact Hu. specialize (Ht u). unfold tinv in *.
              destruct (th u) as [|o' rest' loc'].
              ** destruct Ht as [? Hn]. split; [assumption|]. cbn in *. intros [E|E]; [congruence|auto].
              ** destruct Ht as [(X & Y & Z)|[(X & Y & Z)|[(X & (hs' & Y & Z) & W)|(X & Y & W)]]].
                 --- left. repeat split; auto. cbn in *. intros [E|E]; [congruence|auto].
                 --- right; left. repeat split; auto. cbn in *. intros [E|E]; [congruence|auto].
                 --- right; right; left. injection Y as <-. repeat split; auto.
                     exists (t :: hs). split; [reflexivity|now right].
                 --- discriminate.
      * (* Lock *)
        destruct l as [|hs|w]; cbn in He; try discriminate; injection He as <-.
        cbn in Hl. subst f. split; [exact I|].
        cbn [fst snd fields lk threads]. intros u.
        destruct (Nat.eq_dec u t) as [->|Hu].
        -- rewrite setp_same. cbn. right; right; right. split; [exact B|].
           split; [reflexivity|]. eapply code_lock; exact A.
        -- rewrite setp_other by exact Hu.
           eapply tinv_nonholder; [apply Ht|easy|cbn; congruence].
    + (* RUnlock *)
      right. destruct Hl as (-> & Hne & Hnd).
      destruct (incs_r_unlock _ _ _ _ _ Hm D) as (-> & -> & Hs & Hr).
      cbn in He. injection He as <-.
      exists (fst (atomic o s), setp ph t (Effected o (snd (atomic o s)))).
      split; [now constructor|]. rewrite Hs. cbn [fst snd].
      pose proof (remove_NoDup t hs Hnd) as Hnd'.
      assert (Hnt : ~ In t (remove Nat.eq_dec t hs)) by apply remove_In.
      assert (Hku : forall u, u <> t -> (In u (remove Nat.eq_dec t hs) <-> In u hs))
        by (intros u Hu; now apply remove_keeps).
      destruct (remove Nat.eq_dec t hs) as [|h hs'] eqn:Er.
      * split; [reflexivity|]. cbn [fst snd fields lk threads]. intros u.
        destruct (Nat.eq_dec u t) as [->|Hu].
        -- rewrite !setp_same. cbn. left. rewrite Hr. auto.
        -- rewrite !setp_other by exact Hu.
           eapply tinv_nonholder; [apply Ht|cbn; rewrite <- Hku by exact Hu; easy|easy].
      * split; [cbn; repeat split; [easy|exact Hnd']|].
        cbn [fst snd fields lk threads]. intros u.
        destruct (Nat.eq_dec u t) as [->|Hu].
        -- rewrite !setp_same. cbn [tinv]. left. rewrite Hr. repeat split. exact Hnt.
        -- rewrite !setp_other by exact Hu. specialize (Ht u). unfold tinv in *.
           destruct (th u) as [|o' rest' loc'].
           ++ destruct Ht as [? Hn]. split; [assumption|]. cbn [holder] in *. now rewrite Hku.
           ++ destruct Ht as [(X & Y & Z)|[(X & Y & Z)|[(X & (hs'' & Y & Z) & W)|(X & Y & W)]]].
              ** left. repeat split; auto. cbn [holder] in *. now rewrite Hku.
              ** right; left. repeat split; auto. cbn [holder] in *. now rewrite Hku.
              ** right; right; left. injection Y as <-. repeat split; auto.
                 exists (h :: hs'). split; [reflexivity|]. now apply Hku.
              ** discriminate.
    + (* Unlock *)
      right. destruct (incs_w_unlock _ _ _ _ _ _ Hm D) as (-> & -> & Hs & Hr).
      cbn in He. injection He as <-.
      exists (fst (atomic o s), setp ph t (Effected o (snd (atomic o s)))).
      split; [now constructor|]. cbn [fst snd].
      split; [exact Hs|]. cbn [fst snd fields lk threads]. intros u.
      destruct (Nat.eq_dec u t) as [->|Hu].
      * rewrite !setp_same. cbn. left. rewrite Hr. auto.
      * rewrite !setp_other by exact Hu.
        eapply tinv_nonholder; [apply Ht|cbn; congruence|easy].
  - (* return *)
    right. pose proof (Ht t) as H0. rewrite Hth in H0.
    destruct H0 as [(_ & B & C)|[(A & _)|[(A & _ & (mems & D & _))|(A & _ & (mems & D & _))]]].
    + exists (Ret t o (result o loc)), (s, setp ph t Idle).
      split; [reflexivity|]. split; [now constructor|].
      split; [exact Hl|]. cbn [fst snd fields lk threads]. intros u.
      destruct (Nat.eq_dec u t) as [->|Hu].
      * rewrite !setp_same. cbn. auto.
      * rewrite !setp_other by exact Hu. apply Ht.
    + destruct o; discriminate.
    + destruct mems; discriminate.
    + destruct mems; discriminate.
Qed.

Lemma sim_history c h c' a :
  history step c h c' -> R c a -> exists a', history spec_step a h a' /\ R c' a'.
Proof.
  intros H. revert a. induction H as [c|c c1 c2 h Hs _ IH|c e c1 c2 h Hs _ IH]; intros a Ha.
  - exists a. split; [constructor|exact Ha].
  - destruct (sim_step _ _ _ _ Hs Ha) as [(_ & [H1|(a1 & H1 & H2)])|(ev & a1 & E & _)].
    + apply IH, H1.
    + destruct (IH _ H2) as (a2 & H3 & H4). exists a2. split; [eapply hist_tau; eauto|exact H4].
    + discriminate.
  - destruct (sim_step _ _ _ _ Hs Ha) as [(E & _)|(ev & a1 & E & H1 & H2)]; [discriminate|].
    injection E as <-. destruct (IH _ H2) as (a2 & H3 & H4).
    exists a2. split; [eapply hist_vis; eauto|exact H4].
Qed.

Lemma R_init : R init (mkst false 0 0, fun _ => Idle).
Proof. split; [reflexivity|]. intros t. cbn. auto. Qed.

Lemma state_manager_linearizable : linearizable step init (mkst false 0 0).
Proof.
  intros h c Hh. destruct (sim_history _ _ _ _ Hh R_init) as (a & Ha & _). eauto.
Qed.

(** ** Consequences for the atomic object, read off its automaton. *)

(** Deadlock freedom of the lock protocol: as long as some call is running,
    some thread can take a step. *)
Definition reachable (c : conf) : Prop := exists h, history step init h c.

Lemma reachable_inv c : reachable c -> exists a, R c a.
Proof. intros [h Hh]. destruct (sim_history _ _ _ _ Hh R_init) as (a & _ & Ha). eauto. Qed.

Lemma running_can_step c t o rest loc :
  reachable c -> threads c t = TRun o rest loc -> exists e c', step c e c'.
Proof.
  intros Hr Ht. destruct (reachable_inv _ Hr) as [[s ph] [Hl Hi]]. destruct c as [f l th].
  cbn [fields lk threads fst snd] in *.
  (* the lock holder, if any, can always proceed *)
  assert (Hh : forall u, holder u l -> exists e c', step (mkconf f l th) e c').
  { intros u Hu. specialize (Hi u). unfold tinv in Hi.
    destruct (th u) as [|o' rest' loc'] eqn:Eu; [tauto|].
    destruct Hi as [(_ & _ & X)|[(_ & _ & X)|[(X & (hs & -> & Y) & (mems & -> & W & _))|(X & -> & (mems & -> & W & _))]]];
      try tauto.
    - destruct mems as [|i mems].
      + exists None. eexists. eapply step_lock; [exact Eu|reflexivity|reflexivity].
      + inversion W; subst. exists None. 
        destruct (exec_mem i f loc') as [f1 l1] eqn:Em. eexists.
        eapply step_mem; [exact Eu|destruct i; easy|exact Em].
    - destruct mems as [|i mems].
      + exists None. eexists. eapply step_lock; [exact Eu|reflexivity|reflexivity].
      + inversion W; subst. exists None. 
        destruct (exec_mem i f loc') as [f1 l1] eqn:Em. eexists.
        eapply step_mem; [exact Eu|destruct i; easy|exact Em]. }
  destruct l as [|hs|w].
  - pose proof (Hi t) as H0. rewrite Ht in H0.
    destruct H0 as [(-> & _)|[(-> & _)|[(_ & (hs & E & _) & _)|(_ & E & _)]]]; try discriminate.
    + exists (Some (Ret t o (result o loc))). eexists. now apply step_ret.
    + destruct (code o) as [|i rest'] eqn:Ec; [destruct o; discriminate|].
      exists None. destruct (code_head _ _ _ Ec) as [->| ->];
        eexists; eapply step_lock; eauto; reflexivity.
  - destruct Hl as (_ & Hne & _). destruct hs as [|u hs]; [easy|]. apply (Hh u). now left.
  - apply (Hh w). reflexivity.
Qed.
