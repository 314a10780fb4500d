(** Proofs about memory-mapped data sets. *)
From Coq Require Import List Arith ZArith Bool Lia FinFun.
From Verif Require Import Base.GoRes Base.GoInt Base.Mat Model.Dataset Spec.Dataset.
Import ListNotations.
Local Open Scope list_scope.

Lemma skipn_add {A} (l : list A) n : forall k, skipn (n + k) l = skipn k (skipn n l).
Proof.
  revert l. induction n as [|n IH]; intros l k; [reflexivity|]. destruct l; [cbn; now rewrite skipn_nil|]. cbn [plus skipn]. apply IH.
Qed.
Definition block (es : nat) (mem : list Z) (k : nat) : list Z := firstn es (skipn (k * es) mem).
Definition store (es : nat) (mem : list Z) (k : nat) (e : list Z) : list Z := firstn (k * es) mem ++ e ++ skipn (k * es + es) mem.
Lemma store_length es mem k e : List.length e = es -> k * es + es <= List.length mem -> List.length (store es mem k e) = List.length mem.
Proof. intros He Hk. unfold store. rewrite !app_length, firstn_length, skipn_length. lia. Qed.
Lemma store_block es mem k e k' : List.length e = es -> k * es + es <= List.length mem ->
  block es (store es mem k e) k' = if Nat.eqb k k' then e else block es mem k'.
Proof.
  intros He Hk. unfold block, store. assert (L : List.length (firstn (k * es) mem) = k * es) by (rewrite firstn_length; lia).
  destruct (Nat.eqb_spec k k') as [<-|Hne].
  - rewrite skipn_app, L, Nat.sub_diag, skipn_all2 by lia. cbn [skipn app]. rewrite firstn_app, He, Nat.sub_diag, firstn_O, app_nil_r.
    rewrite <- He. apply firstn_all.
  - destruct (Nat.lt_ge_cases k' k) as [H|H].
    + assert (Hm : k' * es + es <= k * es) by nia. rewrite skipn_app, L. replace (k' * es - k * es) with 0 by lia. cbn [skipn].
      rewrite firstn_app, skipn_length, L. replace (es - (k * es - k' * es)) with 0 by lia. rewrite firstn_O, app_nil_r.
      rewrite skipn_firstn_comm, firstn_firstn. f_equal. lia.
    + assert (Hm : k * es + es <= k' * es) by nia. rewrite app_assoc, skipn_app, app_length, L, He.
      rewrite skipn_all2 by (rewrite app_length, L, He; lia). cbn [app]. rewrite <- skipn_add. f_equal. f_equal. lia.
Qed.
Lemma get_put k : forall v, (0 <= v < 256 ^ Z.of_nat k)%Z -> get_le (put_le k v) = v.
Proof.
  induction k as [|k IH]; intros v Hv; [cbn in *; lia|]. rewrite Nat2Z.inj_succ, Z.pow_succ_r in Hv by lia. cbn [put_le get_le].
  rewrite IH; [pose proof (Z.div_mod v 256); lia|]. split; [apply Z.div_pos; lia|]. apply Z.div_lt_upper_bound; lia.
Qed.
Lemma put_length k : forall v, List.length (put_le k v) = k.
Proof. induction k; intros v; cbn; [reflexivity|]. now rewrite IHk. Qed.
Lemma zseq_in n i : In i (zseq n) <-> (0 <= i < n)%Z.
Proof.
  unfold zseq. rewrite in_map_iff. split.
  - intros (k & <- & H). apply in_seq in H. lia.
  - intros H. exists (Z.to_nat i). split; [lia|]. apply in_seq. lia.
Qed.
Lemma zseq_length n : List.length (zseq n) = Z.to_nat n.
Proof. unfold zseq. now rewrite map_length, seq_length. Qed.
Lemma zseq_app a b : (0 <= a)%Z -> (0 <= b)%Z -> zseq (a + b) = zseq a ++ map (fun i => (a + i)%Z) (zseq b).
Proof.
  intros Ha Hb. unfold zseq. rewrite Z2Nat.inj_add, seq_app, map_app by assumption. f_equal. cbn [plus].
  replace (seq (Z.to_nat a) (Z.to_nat b)) with (map (fun i => Z.to_nat a + i)%nat (seq 0 (Z.to_nat b))).
  - rewrite !map_map. apply map_ext. intros i. lia.
  - generalize (Z.to_nat b) as m. intros m. clear. change (Z.to_nat a) with (Z.to_nat a + 0)%nat at 2 || idtac.
    assert (K : forall s, map (fun i => Z.to_nat a + i)%nat (seq s m) = seq (Z.to_nat a + s) m).
    { induction m as [|m IH]; intros s; [reflexivity|]. cbn. f_equal. rewrite IH. f_equal. lia. }
    rewrite K. f_equal. lia.
Qed.
Lemma mapM_ok {A B} (f : A -> res B) (g : A -> B) l : (forall x, In x l -> f x = Ok (g x)) -> mapM f l = Ok (map g l).
Proof.
  induction l as [|x l IH]; intros H; [reflexivity|]. cbn [mapM map]. rewrite (H x (or_introl eq_refl)). cbn [bind].
  rewrite IH by (intros y Hy; apply H; now right). reflexivity.
Qed.

Lemma zseq_S n : (0 <= n)%Z -> zseq (n + 1) = 0%Z :: map (fun i => (1 + i)%Z) (zseq n).
Proof. intros H. rewrite Z.add_comm, zseq_app by lia. reflexivity. Qed.
Lemma NoDup_zseq n : NoDup (zseq n).
Proof. unfold zseq. apply Injective_map_NoDup; [intros a b; lia|apply seq_NoDup]. Qed.
Lemma NoDup_prod {A B} (l : list A) (m : list B) : NoDup l -> NoDup m -> NoDup (list_prod l m).
Proof.
  intros Hl Hm. induction Hl as [|x l Hx Hl IH]; [constructor|]. cbn [list_prod].
  assert (K : forall k, NoDup k -> incl k m -> NoDup (map (fun y => (x, y)) k ++ list_prod l m)).
  { intros k Hk Hi. induction Hk as [|y k Hy Hk IHk]; [exact IH|]. cbn. constructor.
    - intros H. apply in_app_or in H as [H|H].
      + apply in_map_iff in H as (z & E & Hz). injection E as ->. contradiction.
      + apply in_prod_iff in H as [H _]. contradiction.
    - apply IHk. intros z Hz. apply Hi. now right. }
  apply K; [exact Hm|apply incl_refl].
Qed.

Section DatasetP.
  Variables to32 of32 toi64 ofi64 toi32 ofi32 : Z -> Z.
  Notation enc := (enc to32 toi64 toi32).
  Notation dec := (dec of32 ofi64 ofi32).
  Notation entry := (entry of32 ofi64 ofi32).
  Notation get_chunk := (get_chunk of32 ofi64 ofi32).
  Notation set_chunk := (set_chunk to32 toi64 toi32).

  Lemma enc_length t v : t <> Other -> List.length (enc t v) = Z.to_nat (elem_size t).
  Proof. destruct t; intros H; try congruence; apply put_length. Qed.
  Lemma es_pos t : (4 <= elem_size t <= 8)%Z.
  Proof. destruct t; cbn; lia. Qed.
  (** No wrapping inside the data set *)
  Lemma index_exact d start i j : usable d -> (0 <= start)%Z -> (0 <= i)%Z -> (start + i < d_rows d)%Z -> (0 <= j < d_cols d)%Z ->
    index d start i j = (((start + i) * d_cols d + j) * elem_size (d_type d))%Z
    /\ (0 <= ((start + i) * d_cols d + j) * elem_size (d_type d))%Z
    /\ (((start + i) * d_cols d + j) * elem_size (d_type d) + elem_size (d_type d) <= Z.of_nat (List.length (d_mem d)))%Z.
  Proof.
    intros (Hr & Hc & Hl & H63) Hs Hi Hsi Hj. pose proof (es_pos (d_type d)) as He. rewrite Hl.
    set (es := elem_size (d_type d)) in *. set (c := d_cols d) in *. set (r := d_rows d) in *.
    assert (A : ((start + i) * c + j + 1 <= r * c)%Z) by nia.
    assert (B : (((start + i) * c + j + 1) * es <= r * c * es)%Z) by nia.
    assert (S1 : (0 <= start * c)%Z) by nia. assert (I1 : (0 <= i * c)%Z) by nia.
    assert (S2 : (start * c <= start * c * es)%Z) by nia. assert (I2 : (i * c + j <= (i * c + j) * es)%Z) by nia.
    assert (Sum : (start * c * es + (i * c + j) * es + es <= r * c * es)%Z) by nia.
    unfold index. fold es c. unfold int64 in *.
    rewrite (wrap_id (start * c)) by (unfold int64; lia). rewrite (wrap_id (i * c)) by (unfold int64; nia).
    rewrite (wrap_id (start * c * es)) by (unfold int64; nia). rewrite (wrap_id (i * c + j)) by (unfold int64; nia).
    rewrite (wrap_id ((i * c + j) * es)) by (unfold int64; nia). rewrite wrap_id by (unfold int64; nia).
    split; [ring|]. split; nia.
  Qed.
  Lemma read_entry d start i j : usable d -> (0 <= start)%Z -> (0 <= i)%Z -> (start + i < d_rows d)%Z -> (0 <= j < d_cols d)%Z ->
    read_elem of32 ofi64 ofi32 (d_type d) (d_mem d) (index d start i j) = Ok (entry d (start + i) j).
  Proof.
    intros U Hs Hi Hsi Hj. destruct (index_exact d start i j U Hs Hi Hsi Hj) as (E & R1 & R2). rewrite E. unfold read_elem, in_range, entry.
    replace (_ && _) with true by (symmetry; apply andb_true_iff; split; apply Z.leb_le; assumption). destruct (d_type d); reflexivity.
  Qed.
  Lemma get_chunk_ok d start stop : usable d -> (0 <= start < stop)%Z -> (stop <= d_rows d)%Z ->
    get_chunk d start stop = Ok (mkmat (Z.to_nat (d_cols d)) (rows_of of32 ofi64 ofi32 d start stop)).
  Proof.
    intros U Hs He. pose proof U as (Hr & Hc & Hl & H63). unfold Dataset.get_chunk.
    destruct (Z.ltb_spec start 0); [lia|]. destruct (Z.ltb_spec (d_rows d) stop); [lia|]. destruct (Z.leb_spec stop start); [lia|]. cbn [orb].
    pose proof (es_pos (d_type d)) as Hes.
    assert (Hrc : (0 <= (stop - start) * d_cols d <= d_rows d * d_cols d)%Z) by (split; [nia|apply Z.mul_le_mono_nonneg_r; lia]).
    assert (Hr1 : (d_rows d <= d_rows d * d_cols d)%Z) by nia.
    assert (Hr2 : (d_rows d * d_cols d <= d_rows d * d_cols d * elem_size (d_type d))%Z) by nia.
    assert (Hn : (0 <= (stop - start) * d_cols d <= d_rows d * d_cols d * elem_size (d_type d))%Z) by lia.
    assert (Hr63 : (d_rows d <= d_rows d * d_cols d * elem_size (d_type d))%Z) by lia.
    rewrite (wrap_id (stop - start)) by (unfold int64; lia). rewrite wrap_id by (unfold int64; lia).
    destruct (Z.ltb_spec ((stop - start) * d_cols d) 0); [lia|].
    rewrite (mapM_ok _ (fun i => row_of of32 ofi64 ofi32 d (start + i))).
    - cbn [bind]. destruct (Z.leb_spec (d_cols d) 0); [lia|]. destruct (Z.leb_spec (stop - start) 0); [lia|]. reflexivity.
    - intros i Hi. apply zseq_in in Hi. apply mapM_ok. intros j Hj. apply zseq_in in Hj. apply read_entry; [exact U| | | |]; lia.
  Qed.
  Lemma get_chunk_bad d start stop : ~ (0 <= start < stop /\ stop <= d_rows d)%Z -> get_chunk d start stop = Err (EOther 2).
  Proof.
    intros H. unfold Dataset.get_chunk. destruct (Z.ltb_spec start 0); [reflexivity|]. destruct (Z.ltb_spec (d_rows d) stop); [reflexivity|].
    destruct (Z.leb_spec stop start); [reflexivity|]. exfalso. apply H. lia.
  Qed.

  (** Writing the entries one after the other *)
  Definition stored (t : dtype) (v : Z) : Z := dec t (enc t v).
  Lemma foldM_app {S A} (f : S -> A -> res S) l1 l2 s : foldM f s (l1 ++ l2) = let* s' := foldM f s l1 in foldM f s' l2.
  Proof. revert s. induction l1 as [|x l1 IH]; intros s; cbn [foldM app bind]; [reflexivity|]. destruct (f s x); cbn [bind]; [apply IH|reflexivity|reflexivity]. Qed.
  Lemma foldM_map {S A B} (f : S -> B -> res S) (g : A -> B) l s : foldM f s (map g l) = foldM (fun s x => f s (g x)) s l.
  Proof. revert s. induction l as [|x l IH]; intros s; cbn [foldM map bind]; [reflexivity|]. destruct (f s (g x)); cbn [bind]; auto. Qed.
  Lemma foldM_nest {S A B} (f : S -> A -> B -> res S) (l : list A) (m : list B) s :
    foldM (fun s x => foldM (fun s y => f s x y) s m) s l = foldM (fun s p => f s (fst p) (snd p)) s (list_prod l m).
  Proof.
    revert s. induction l as [|x l IH]; intros s; [reflexivity|]. cbn [foldM list_prod]. rewrite foldM_app, foldM_map. cbn [fst snd].
    destruct (foldM (fun s y => f s x y) s m); cbn [bind]; auto.
  Qed.
  Lemma writes_ok d start (val : Z -> Z -> Z) : usable d -> (0 <= start)%Z -> forall l mem,
    List.length mem = List.length (d_mem d) -> NoDup l ->
    (forall p, In p l -> (0 <= fst p)%Z /\ (start + fst p < d_rows d)%Z /\ (0 <= snd p < d_cols d)%Z) ->
    exists mem', foldM (fun mem p => write_elem to32 toi64 toi32 (d_type d) mem (index d start (fst p) (snd p)) (val (fst p) (snd p))) mem l = Ok mem'
      /\ List.length mem' = List.length (d_mem d)
      /\ forall i j, (0 <= i < d_rows d)%Z -> (0 <= j < d_cols d)%Z ->
           ((exists p, In p l /\ i = (start + fst p)%Z /\ j = snd p /\ entry (with_mem d mem') i j = stored (d_type d) (val (fst p) (snd p)))
            \/ (~ In ((i - start)%Z, j) l /\ entry (with_mem d mem') i j = entry (with_mem d mem) i j)).
  Proof.
    intros U Hs. induction l as [|p l IH]; intros mem Hlen D Hin.
    - exists mem. split; [reflexivity|]. split; [exact Hlen|]. intros i j _ _. right. split; [intros []|reflexivity].
    - inversion D as [|? ? D1 D2]; subst. destruct (Hin p (or_introl eq_refl)) as (P1 & P2 & P3).
      destruct p as [pi pj]. cbn [fst snd] in *.
      destruct (index_exact d start pi pj U Hs P1 P2 P3) as (E & R1 & R2).
      set (k := Z.to_nat ((start + pi) * d_cols d + pj)). set (es := Z.to_nat (elem_size (d_type d))). pose proof (es_pos (d_type d)) as Hes.
      assert (Hk : Z.to_nat (((start + pi) * d_cols d + pj) * elem_size (d_type d)) = (k * es)%nat) by (unfold k, es; rewrite Z2Nat.inj_mul; nia).
      set (mem1 := match d_type d with Other => mem | _ => store es mem k (enc (d_type d) (val pi pj)) end).
      assert (E1 : write_elem to32 toi64 toi32 (d_type d) mem (index d start pi pj) (val pi pj) = Ok mem1).
      { rewrite E. unfold write_elem, mem1, in_range. rewrite Hlen.
        replace (_ && _) with true by (symmetry; apply andb_true_iff; split; apply Z.leb_le; lia).
        unfold store. rewrite Hk.
        assert (Hk2 : Z.to_nat (((start + pi) * d_cols d + pj) * elem_size (d_type d) + elem_size (d_type d)) = (k * es + es)%nat) by (unfold es in *; lia).
        rewrite Hk2. destruct (d_type d); reflexivity. }
      assert (Lk : (k * es + es <= List.length mem)%nat) by (unfold es in *; lia).
      assert (Lm : List.length mem1 = List.length (d_mem d)).
      { unfold mem1. rewrite <- Hlen. destruct (d_type d) eqn:Et; try reflexivity; apply store_length; try exact Lk; unfold es; apply enc_length; discriminate. }
      assert (Hent : forall i j, (0 <= i < d_rows d)%Z -> (0 <= j < d_cols d)%Z ->
         entry (with_mem d mem1) i j = if ((i =? start + pi) && (j =? pj))%Z then stored (d_type d) (val pi pj) else entry (with_mem d mem) i j).
      { intros i j Hi Hj. unfold Spec.Dataset.entry. cbn [with_mem d_type d_cols d_mem]. fold es.
        set (k' := Z.to_nat (i * d_cols d + j)).
        assert (Hk' : Z.to_nat ((i * d_cols d + j) * elem_size (d_type d)) = (k' * es)%nat) by (unfold k', es; rewrite Z2Nat.inj_mul; nia).
        rewrite Hk'. assert (Hkk : Nat.eqb k k' = ((i =? start + pi) && (j =? pj))%Z).
        { apply eq_true_iff_eq. rewrite Nat.eqb_eq, andb_true_iff, !Z.eqb_eq. unfold k, k'. split; [|intros [-> ->]; reflexivity].
          intros H. apply Z2Nat.inj in H; [|nia|nia]. assert (start + pi = i)%Z by nia. subst i. split; lia. }
        rewrite <- Hkk. fold (block es mem1 k') (block es mem k'). unfold mem1.
        destruct (d_type d) eqn:Et; try (rewrite store_block; [destruct (Nat.eqb k k'); reflexivity|unfold es; apply enc_length; discriminate|exact Lk]).
        destruct (Nat.eqb k k'); reflexivity. }
      destruct (IH mem1 Lm D2) as (mem' & F & L' & K); [intros q Hq; apply Hin; now right|].
      exists mem'. cbn [foldM fst snd]. rewrite E1. cbn [bind]. split; [exact F|]. split; [exact L'|].
      intros i j Hi Hj. destruct (K i j Hi Hj) as [(q & Q1 & Q2 & Q3 & Q4)|[Q1 Q2]].
      + left. exists q. split; [now right|auto].
      + rewrite Q2, (Hent i j Hi Hj). destruct ((i =? start + pi) && (j =? pj))%Z eqn:Eq.
        * apply andb_true_iff in Eq as [Eq1 Eq2]. apply Z.eqb_eq in Eq1, Eq2. left. exists (pi, pj). cbn. auto.
        * right. split; [|reflexivity]. intros [H|H]; [|exact (Q1 H)]. injection H as H1 H2.
          apply andb_false_iff in Eq as [Eq|Eq]; apply Z.eqb_neq in Eq; lia.
  Qed.
  Lemma set_chunk_ok d start chunk : usable d -> (0 <= start)%Z -> (start + Z.of_nat (nrows chunk) <= d_rows d)%Z ->
    Z.of_nat (mcols chunk) = d_cols d ->
    exists mem', set_chunk d start chunk = Ok mem'
      /\ List.length mem' = List.length (d_mem d)
      /\ forall i j, (0 <= i < d_rows d)%Z -> (0 <= j < d_cols d)%Z ->
           entry (with_mem d mem') i j =
             if ((start <=? i) && (i <? start + Z.of_nat (nrows chunk)))%Z then stored (d_type d) (mat_at chunk (i - start) j) else entry d i j.
  Proof.
    intros U Hs Hr Hc. pose proof U as (Hr0 & Hc0 & Hl & H63). pose proof (es_pos (d_type d)) as Hes.
    assert (Hr1 : (d_rows d <= d_rows d * d_cols d)%Z) by nia.
    assert (Hr2 : (d_rows d * d_cols d <= d_rows d * d_cols d * elem_size (d_type d))%Z) by nia.
    unfold Dataset.set_chunk. rewrite wrap_id by (unfold int64; lia).
    destruct (Z.ltb_spec start 0); [lia|]. destruct (Z.ltb_spec (d_rows d) (start + Z.of_nat (nrows chunk))); [lia|].
    rewrite Hc, Z.eqb_refl. cbn [orb negb].
    rewrite (foldM_nest (fun mem i j => write_elem to32 toi64 toi32 (d_type d) mem (index d start i j) (mat_at chunk i j))).
    destruct (writes_ok d start (mat_at chunk) U Hs (list_prod (zseq (Z.of_nat (nrows chunk))) (zseq (d_cols d))) (d_mem d) eq_refl) as (mem' & F & L & K).
    - apply NoDup_prod; apply NoDup_zseq.
    - intros [a b] H1. apply in_prod_iff in H1 as [H1 H2]. apply zseq_in in H1, H2. cbn. lia.
    - exists mem'. split; [exact F|]. split; [exact L|]. intros i j Hi Hj. specialize (K i j Hi Hj).
      replace (with_mem d (d_mem d)) with d in K by (destruct d; reflexivity).
      destruct (Z.leb_spec start i) as [H1|H1]; destruct (Z.ltb_spec i (start + Z.of_nat (nrows chunk))) as [H2|H2]; cbn [andb].
      + destruct K as [(p & P1 & P2 & P3 & P4)|[K _]].
        * rewrite P4. f_equal. f_equal; lia.
        * exfalso. apply K. apply in_prod_iff. rewrite !zseq_in. lia.
      + destruct K as [(p & P1 & P2 & _)|[_ K]]; [|exact K]. destruct p as [a b]. apply in_prod_iff in P1 as [P1 _]. apply zseq_in in P1. cbn in P2. lia.
      + destruct K as [(p & P1 & P2 & _)|[_ K]]; [|exact K]. destruct p as [a b]. apply in_prod_iff in P1 as [P1 _]. apply zseq_in in P1. cbn in P2. lia.
      + destruct K as [(p & P1 & P2 & _)|[_ K]]; [|exact K]. destruct p as [a b]. apply in_prod_iff in P1 as [P1 _]. apply zseq_in in P1. cbn in P2. lia.
  Qed.
  Lemma set_chunk_bad d start chunk : int64 start -> (start + Z.of_nat (nrows chunk) < 2 ^ 63)%Z ->
    ~ (0 <= start /\ start + Z.of_nat (nrows chunk) <= d_rows d /\ Z.of_nat (mcols chunk) = d_cols d)%Z ->
    set_chunk d start chunk = Err (EOther 3).
  Proof.
    intros I H63 H. unfold int64 in I. unfold Dataset.set_chunk. rewrite wrap_id by (unfold int64; lia).
    destruct (Z.ltb_spec start 0); [reflexivity|]. destruct (Z.ltb_spec (d_rows d) (start + Z.of_nat (nrows chunk))); [reflexivity|].
    destruct (Z.eqb_spec (Z.of_nat (mcols chunk)) (d_cols d)); [|reflexivity]. exfalso. apply H. lia.
  Qed.

  (** Iteration *)
  Section Iter.
    Context {S E : Type}.
    Variable fn : matrix Z -> Z -> list Z * S -> (list Z * S) * option E.
    Hypothesis Hfn : forall c s st, List.length (fst (fst (fn c s st))) = List.length (fst st).
    Lemma usable_mem d mem : usable d -> List.length mem = List.length (d_mem d) -> usable (with_mem d mem).
    Proof. intros (A & B & C & D) H. unfold usable. cbn. rewrite H. auto. Qed.
    Definition outcome (r : (list Z * S) * option E) : (list Z * S) * iter_result :=
      (fst r, match snd r with None => IDone | Some e => IFailed e end).
    Lemma iterate_blocks d size : usable d -> (1 <= size)%Z -> int64 size -> forall n k st fuel,
      (0 <= k)%Z -> (k + Z.of_nat n = (d_rows d + size - 1) / size)%Z -> List.length (fst st) = List.length (d_mem d) -> n < fuel ->
      iterate of32 ofi64 ofi32 fn fuel (d_rows d) (d_cols d) (d_type d) size (k * size) st =
      Some (outcome (visits of32 ofi64 ofi32 fn d
             (map (fun i => ((k + i) * size, Z.min ((k + i + 1) * size) (d_rows d)))%Z (zseq (Z.of_nat n))) st)).
    Proof.
      intros U Hsz I. pose proof U as (Hr0 & Hc0 & Hl & H63). pose proof (es_pos (d_type d)) as Hes. unfold int64 in I.
      assert (Hr1 : (d_rows d <= d_rows d * d_cols d)%Z) by nia.
      assert (Hr2 : (d_rows d * d_cols d * 4 <= d_rows d * d_cols d * elem_size (d_type d))%Z) by (apply Z.mul_le_mono_nonneg_l; lia).
      pose proof (Z.div_mod (d_rows d + size - 1) size ltac:(lia)) as DM. pose proof (Z.mod_pos_bound (d_rows d + size - 1) size ltac:(lia)) as MB.
      induction n as [|n IH]; intros k st fuel Hk Hn Hst Hf; (destruct fuel as [|fuel]; [lia|]); cbn [iterate].
      - destruct (Z.ltb_spec (k * size) (d_rows d)) as [H|H]; [exfalso; nia|]. reflexivity.
      - assert (Hlt : (k * size < d_rows d)%Z).
        { assert (k + 1 <= (d_rows d + size - 1) / size)%Z by lia. nia. }
        destruct (Z.ltb_spec (k * size) (d_rows d)); [|lia].
        assert (Hsum : (k * size + size < 2 ^ 63)%Z).
        { destruct (Z.eq_dec k 0) as [->|]; [lia|]. assert (size <= k * size)%Z by nia. lia. }
        rewrite wrap_id by (unfold int64; nia).
        assert (Estop : (if (d_rows d <? k * size + size)%Z then d_rows d else (k * size + size)%Z) = Z.min ((k + 0 + 1) * size) (d_rows d)).
        { destruct (Z.ltb_spec (d_rows d) (k * size + size)); lia. }
        rewrite Estop. replace (mkds (d_rows d) (d_cols d) (d_type d) (fst st)) with (with_mem d (fst st)) by reflexivity.
        rewrite get_chunk_ok; [|apply usable_mem; assumption|nia|cbn; lia].
        replace (Z.of_nat (Datatypes.S n)) with (Z.of_nat n + 1)%Z by lia. rewrite zseq_S by lia. cbn [map visits].
        rewrite map_map. replace ((k + 0) * size)%Z with (k * size)%Z by ring.
        cbn [with_mem d_cols].
        pose proof (Hfn (mkmat (Z.to_nat (d_cols d)) (rows_of of32 ofi64 ofi32 (with_mem d (fst st)) (k * size) (Z.min ((k + 0 + 1) * size) (d_rows d)))) (k * size) st) as HL.
        destruct (fn _ _ st) as [st' [e|]]; [reflexivity|]. cbn [fst] in HL.
        replace (k * size + size)%Z with ((k + 1) * size)%Z by ring. rewrite IH; [|lia|lia|congruence|lia].
        do 3 f_equal. apply map_ext. intros i. f_equal; [ring|]. f_equal. ring.
    Qed.
  End Iter.
  Lemma blocks_cover d size : (1 <= size)%Z -> (0 < d_rows d)%Z ->
    concat (map (fun b => rows_of of32 ofi64 ofi32 d (fst b) (snd b)) (blocks (d_rows d) size)) = all_rows of32 ofi64 ofi32 d.
  Proof.
    intros Hsz Hr. pose proof (Z.div_mod (d_rows d + size - 1) size ltac:(lia)) as DM. pose proof (Z.mod_pos_bound (d_rows d + size - 1) size ltac:(lia)) as MB.
    assert (K : forall n k, (0 <= k)%Z -> (k + Z.of_nat n = (d_rows d + size - 1) / size)%Z ->
      concat (map (fun b => rows_of of32 ofi64 ofi32 d (fst b) (snd b)) (map (fun i => ((k + i) * size, Z.min ((k + i + 1) * size) (d_rows d)))%Z (zseq (Z.of_nat n))))
      = rows_of of32 ofi64 ofi32 d (Z.min (k * size) (d_rows d)) (d_rows d)).
    { induction n as [|n IH]; intros k Hk Hn.
      - cbn. unfold rows_of. replace (d_rows d - Z.min (k * size) (d_rows d))%Z with 0%Z by nia. reflexivity.
      - replace (Z.of_nat (Datatypes.S n)) with (Z.of_nat n + 1)%Z by lia. rewrite zseq_S by lia. cbn [map concat fst snd]. rewrite map_map.
        specialize (IH (k + 1)%Z ltac:(lia) ltac:(lia)).
        rewrite map_map in IH. rewrite map_map. cbn [fst snd] in *.
        rewrite (map_ext _ (fun i => rows_of of32 ofi64 ofi32 d ((k + 1 + i) * size) (Z.min ((k + 1 + i + 1) * size) (d_rows d)))%Z)
          by (intros i; f_equal; [ring|f_equal; ring]).
        rewrite IH.
        assert (Hlt : (k * size < d_rows d)%Z).
        { assert (k + 1 <= (d_rows d + size - 1) / size)%Z by lia. nia. }
        replace ((k + 0) * size)%Z with (k * size)%Z by ring. replace ((k + 0 + 1) * size)%Z with ((k + 1) * size)%Z by ring.
        rewrite (Z.min_l (k * size)) by lia. set (m := Z.min ((k + 1) * size) (d_rows d)). assert (Hm : (k * size <= m <= d_rows d)%Z) by (unfold m; lia).
        unfold rows_of. replace (d_rows d - k * size)%Z with ((m - k * size) + (d_rows d - m))%Z by ring.
        rewrite (zseq_app (m - k * size)) by lia. rewrite map_app, map_map. f_equal. apply map_ext. intros i. f_equal. ring. }
    unfold blocks, all_rows. rewrite (map_ext _ (fun i => ((0 + i) * size, Z.min ((0 + i + 1) * size) (d_rows d)))%Z) by reflexivity.
    replace ((d_rows d + size - 1) / size)%Z with (Z.of_nat (Z.to_nat ((d_rows d + size - 1) / size))) by (apply Z2Nat.id, Z.div_pos; lia).
    rewrite K; [|lia|rewrite Z2Nat.id; [ring|apply Z.div_pos; lia]]. f_equal. lia.
  Qed.
End DatasetP.

(** The chunk processor *)
Section ProcessP.
  Context {Row S E : Type}.
  Variable fn : list Row -> S -> S * option E.
  Definition poutcome (r : S * option E) : S * proc_result := (fst r, match snd r with None => PDone | Some e => PFailed e end).
  Lemma process_rows_chunks size : (0 <= size)%Z -> forall rows buffer s, (Z.of_nat (List.length buffer) < Z.max 1 size)%Z ->
    exists chunks, concat chunks = buffer ++ rows
      /\ (forall c, In c chunks -> c <> [] /\ (Z.of_nat (List.length c) <= Z.max 1 size)%Z)
      /\ (forall c, In c (removelast chunks) -> Z.of_nat (List.length c) = Z.max 1 size)
      /\ process_rows fn size rows buffer s = poutcome (chunk_calls fn chunks s).
  Proof.
    intros Hz. induction rows as [|r rows IH]; intros buffer s Hb; cbn [process_rows].
    - rewrite app_nil_r. destruct buffer as [|b buffer].
      + exists []. cbn. repeat split; try contradiction.
      + exists [b :: buffer]. cbn [concat removelast chunk_calls]. rewrite app_nil_r. split; [reflexivity|]. split.
        * intros c [<-|[]]. split; [discriminate|lia].
        * split; [intros c []|]. destruct (fn (b :: buffer) s) as [s' [e|]]; reflexivity.
    - destruct (Z.leb_spec size (Z.of_nat (List.length (buffer ++ [r])))) as [H|H].
      + rewrite app_length in H. cbn [List.length] in H.
        assert (HL : Z.of_nat (List.length (buffer ++ [r])) = Z.max 1 size) by (rewrite app_length; cbn [List.length]; lia).
        destruct (fn (buffer ++ [r]) s) as [s' o] eqn:Ef.
        destruct (IH [] s') as (chunks & A & B & C & D); [cbn; lia|].
        assert (Hne : buffer ++ [r] <> []) by (destruct buffer; discriminate).
        exists ((buffer ++ [r]) :: chunks). split; [cbn [concat]; rewrite A, <- app_assoc; reflexivity|]. split; [|split].
        * intros c [<-|Hc]; [split; [exact Hne|lia]|]. now apply B.
        * intros c Hc. destruct chunks as [|c0 chunks]; [destruct Hc|]. cbn [removelast] in Hc. destruct Hc as [<-|Hc]; [exact HL|]. now apply C.
        * cbn [chunk_calls]. rewrite Ef. destruct o as [e|]; [reflexivity|exact D].
      + destruct (IH (buffer ++ [r]) s) as (chunks & A & B & C & D); [lia|]. exists chunks. rewrite A, <- app_assoc. auto.
  Qed.
End ProcessP.
