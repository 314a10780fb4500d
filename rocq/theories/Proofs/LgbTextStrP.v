(** Lines, fields and integers of model files. *)
From Coq Require Import String List Arith ZArith Bool Lia Ascii DecimalString DecimalZ DecimalPos Decimal.
From Verif Require Import Base.Num Base.GoRes Base.ListX Model.LgbTree Model.LgbText Spec.LgbText.
Import ListNotations.
Local Open Scope string_scope.
Local Open Scope list_scope.

Lemma append_nil_r s : (s ^^ "") = s.
Proof. induction s as [|c s IH]; [reflexivity|]. cbn. now rewrite IH. Qed.
Lemma append_assoc a b c : ((a ^^ b) ^^ c) = (a ^^ (b ^^ c)).
Proof. induction a as [|x a IH]; [reflexivity|]. cbn. now rewrite IH. Qed.
Lemma append_eq_nil a b : (a ^^ b) = "" -> a = "" /\ b = "".
Proof. destruct a; [now split|discriminate]. Qed.
Lemma all_chars_app P a b : all_chars P (a ^^ b) = all_chars P a && all_chars P b.
Proof. induction a as [|x a IH]; [reflexivity|]. cbn. now rewrite IH, andb_assoc. Qed.
Lemma all_chars_imp (P Q : ascii -> bool) s : (forall c, P c = true -> Q c = true) -> all_chars P s = true -> all_chars Q s = true.
Proof.
  intros H. induction s as [|c s IH]; [reflexivity|]. cbn. intros E. apply andb_true_iff in E as [E1 E2].
  now rewrite (H _ E1), IH.
Qed.
Lemma newline_space : is_space newline = true. Proof. reflexivity. Qed.
Lemma solid_line s : all_chars (fun c => negb (is_space c)) s = true -> one_line s = true.
Proof.
  apply all_chars_imp. intros c H. destruct (Ascii.eqb_spec c newline) as [->|]; [|reflexivity].
  now rewrite newline_space in H.
Qed.
Lemma token_line s : token s = true -> one_line s = true.
Proof. unfold token. intros H. apply andb_true_iff in H as [_ H]. now apply solid_line. Qed.

(** ** Lines *)
Lemma lines_from_app x t : one_line x = true -> forall cur, lines_from (x ^^ String newline t) cur = (cur ^^ x) :: lines t.
Proof.
  induction x as [|c x IH]; intros H cur; cbn [String.append lines_from].
  - now rewrite Ascii.eqb_refl, append_nil_r.
  - unfold one_line in *. cbn [all_chars] in H. apply andb_true_iff in H as [H1 H2]. apply negb_true_iff in H1. rewrite H1.
    rewrite IH by exact H2. now rewrite append_assoc.
Qed.
Lemma lines_text ls : Forall (fun l => one_line l = true) ls -> lines (text_of ls) = ls ++ [""].
Proof.
  induction 1 as [|l ls Hl _ IH]; [reflexivity|]. cbn [text_of]. unfold lines. rewrite lines_from_app by exact Hl. cbn [String.append app].
  now rewrite IH.
Qed.

(** ** Trimming *)
Lemma trim_right_app a c b : is_space c = false -> trim_right (a ^^ String c b) = a ^^ String c (trim_right b).
Proof.
  intros H. induction a as [|x a IH].
  - cbn [String.append trim_right]. destruct (trim_right b); [now rewrite H|reflexivity].
  - cbn [String.append trim_right]. rewrite IH. destruct (a ^^ String c (trim_right b)) eqn:E; [|reflexivity].
    apply append_eq_nil in E as [_ E]. discriminate.
Qed.
Lemma trim_right_solid s : all_chars (fun c => negb (is_space c)) s = true -> trim_right s = s.
Proof.
  induction s as [|c s IH]; [reflexivity|]. cbn [all_chars trim_right]. intros H. apply andb_true_iff in H as [H1 H2].
  rewrite (IH H2). apply negb_true_iff in H1. destruct s; [now rewrite H1|reflexivity].
Qed.
Lemma trim_left_solid s : all_chars (fun c => negb (is_space c)) s = true -> trim_left s = s.
Proof. destruct s as [|c s]; [reflexivity|]. cbn. intros H. apply andb_true_iff in H as [H1 _]. apply negb_true_iff in H1. now rewrite H1. Qed.
Lemma trim_solid s : all_chars (fun c => negb (is_space c)) s = true -> trim s = s.
Proof. intros H. unfold trim. now rewrite trim_left_solid, trim_right_solid. Qed.
Lemma fields_trim_right s : forall cur, fields_from (trim_right s) cur = fields_from s cur.
Proof.
  induction s as [|c s IH]; intros cur; [reflexivity|]. cbn [trim_right fields_from]. destruct (trim_right s) as [|c' r'] eqn:E.
  - destruct (is_space c) eqn:Ec; cbn [fields_from].
    + destruct cur; rewrite <- (IH ""); reflexivity.
    + rewrite Ec. apply IH.
  - cbn [fields_from]. destruct (is_space c) eqn:Ec.
    + destruct cur; rewrite <- (IH ""); reflexivity.
    + rewrite <- IH. reflexivity.
Qed.
Lemma fields_trim_left s : fields (trim_left s) = fields s.
Proof.
  induction s as [|c s IH]; [reflexivity|]. cbn [trim_left]. destruct (is_space c) eqn:Ec; [|reflexivity].
  rewrite IH. unfold fields. cbn [fields_from]. now rewrite Ec.
Qed.
(** The value stored for the text after the equals sign *)
Definition stored (v : string) : string := trim (trim_right v).
Lemma fields_stored v : fields (stored v) = fields v.
Proof.
  unfold stored, trim. unfold fields at 1. rewrite fields_trim_right. etransitivity; [exact (fields_trim_left (trim_right v))|].
  apply fields_trim_right.
Qed.
Lemma stored_solid v : all_chars (fun c => negb (is_space c)) v = true -> stored v = v.
Proof. intros H. unfold stored. rewrite (trim_right_solid v) by exact H. now apply trim_solid. Qed.
Lemma token_solid v : token v = true -> all_chars (fun c => negb (is_space c)) v = true.
Proof. unfold token. intros H. now apply andb_true_iff in H as [_ H]. Qed.

(** ** Fields *)
Lemma fields_from_solid t : all_chars (fun c => negb (is_space c)) t = true -> forall r cur, fields_from (t ^^ r) cur = fields_from r (cur ^^ t).
Proof.
  induction t as [|c t IH]; intros H r cur; cbn [String.append fields_from].
  - now rewrite append_nil_r.
  - cbn [all_chars] in H. apply andb_true_iff in H as [H1 H2]. apply negb_true_iff in H1. rewrite H1, IH by exact H2.
    now rewrite append_assoc.
Qed.
Lemma fields_join l : Forall (fun t => token t = true) l -> fields (join l) = l.
Proof.
  induction 1 as [|t l Ht Hl IH]; [reflexivity|]. unfold fields, join in *.
  assert (Hs := token_solid _ Ht).
  assert (Hne : t <> "") by (intros ->; discriminate).
  destruct l as [|u l].
  - cbn [String.concat]. rewrite <- (append_nil_r t) at 1. rewrite fields_from_solid by exact Hs. cbn [String.append fields_from].
    destruct t; [now destruct Hne|reflexivity].
  - change (String.concat " " (t :: u :: l)) with (t ^^ (" " ^^ String.concat " " (u :: l))). rewrite fields_from_solid by exact Hs.
    cbn [String.append fields_from is_space]. change (is_space " ") with true. cbn match.
    destruct t as [|c t]; [now destruct Hne|]. f_equal. exact IH.
Qed.
Lemma fields_from_tokens s : forall cur, all_chars (fun c => negb (is_space c)) cur = true ->
  Forall (fun t => token t = true) (fields_from s cur).
Proof.
  induction s as [|c s IH]; intros cur Hc; cbn [fields_from].
  - destruct cur; [constructor|]. constructor; [|constructor]. exact Hc.
  - destruct (is_space c) eqn:Ec.
    + destruct cur; [now apply IH|]. constructor; [exact Hc|]. now apply IH.
    + apply IH. rewrite all_chars_app, Hc. cbn. now rewrite Ec.
Qed.
Lemma fields_tokens s : Forall (fun t => token t = true) (fields s).
Proof. now apply fields_from_tokens. Qed.

(** ** Integers *)
Lemma digits_solid d : all_chars (fun c => negb (is_space c)) (NilEmpty.string_of_uint d) = true.
Proof. induction d as [|d IH|d IH|d IH|d IH|d IH|d IH|d IH|d IH|d IH|d IH]; [reflexivity|exact IH..]. Qed.
Lemma uint_solid d : all_chars (fun c => negb (is_space c)) (NilZero.string_of_uint d) = true.
Proof. destruct d; [reflexivity|apply digits_solid..]. Qed.
Lemma uint_nonempty d : NilZero.string_of_uint d <> "".
Proof. destruct d; discriminate. Qed.
Lemma show_int_token z : token (show_int z) = true.
Proof.
  unfold show_int. destruct (Z.to_int z) as [u|u]; cbn [NilZero.string_of_int].
  - unfold token. rewrite uint_solid. pose proof (uint_nonempty u) as H. destruct (NilZero.string_of_uint u); [now destruct H|reflexivity].
  - unfold token. cbn [all_chars]. now rewrite uint_solid.
Qed.
Lemma to_int_nonnil z : Z.to_int z <> Pos Nil /\ Z.to_int z <> Neg Nil.
Proof.
  destruct z as [|p|p]; cbn; [now split| |]; (split; [|]); intros E; try discriminate; injection E as E;
    now apply (Unsigned.to_uint_nonnil p).
Qed.
Lemma digits_not_plus d c r : NilEmpty.string_of_uint d = String c r -> c <> "+"%char.
Proof. destruct d; cbn; intros E; try discriminate; injection E as <- <-; discriminate. Qed.
Lemma uint_not_plus d c r : NilZero.string_of_uint d = String c r -> c <> "+"%char.
Proof. destruct d; [intros E; injection E as <- <-; discriminate|apply digits_not_plus..]. Qed.
Lemma read_show z : read_int (show_int z) = Some z.
Proof.
  assert (Hi : NilZero.int_of_string (show_int z) = Some (Z.to_int z)) by (apply NilZero.isi; apply to_int_nonnil).
  unfold read_int. destruct (show_int z) as [|c r] eqn:E; [discriminate|].
  destruct (Ascii.eqb_spec c "+"%char) as [->|_].
  - exfalso. unfold show_int in E. destruct (Z.to_int z); cbn [NilZero.string_of_int] in E; [now apply uint_not_plus in E|discriminate].
  - rewrite Hi. cbn [option_map]. now rewrite DecimalZ.of_to.
Qed.
Lemma atoi_show z : (- 2 ^ 63 <= z <= 2 ^ 63 - 1)%Z -> atoi (show_int z) = Some z.
Proof.
  intros [H1 H2]. unfold atoi. rewrite read_show. cbn [within].
  now rewrite (proj2 (Z.leb_le _ _) H1), (proj2 (Z.leb_le _ _) H2).
Qed.
Lemma int32_show z : (- 2 ^ 31 <= z <= 2 ^ 31 - 1)%Z -> parse_int32 (show_int z) = Some z.
Proof.
  intros [H1 H2]. unfold parse_int32. rewrite read_show. cbn [within].
  now rewrite (proj2 (Z.leb_le _ _) H1), (proj2 (Z.leb_le _ _) H2).
Qed.
Lemma uint32_show z : (0 <= z <= 2 ^ 32 - 1)%Z -> parse_uint32 (show_int z) = Some z.
Proof.
  intros [H1 H2]. unfold parse_uint32.
  assert (Hu : option_map Z.of_uint (NilZero.uint_of_string (show_int z)) = Some z).
  { pose proof (DecimalZ.of_to z) as Hz. pose proof (to_int_nonnil z) as [Hn _]. unfold show_int.
    destruct z as [|p|p]; [reflexivity| |lia]. cbn [Z.to_int NilZero.string_of_int] in *.
    rewrite NilZero.usu by (intros E; apply Hn; now rewrite E). cbn [option_map]. now f_equal. }
  rewrite Hu. cbn [within]. now rewrite (proj2 (Z.leb_le _ _) H1), (proj2 (Z.leb_le _ _) H2).
Qed.
Lemma lax_show z : (- 2 ^ 63 <= z <= 2 ^ 63 - 1)%Z -> atoi_lax (show_int z) = z.
Proof. intros H. unfold atoi_lax. rewrite read_show. lia. Qed.

(** ** Lines of the form key=value *)
Definition kv (k v : string) : string := k ^^ String "=" v.
Definition key_ok (k : string) : bool :=
  match k with String c _ => negb (Ascii.eqb c "T"%char) && negb (Ascii.eqb c "="%char) | "" => false end
  && all_chars (fun c => negb (is_space c) && negb (Ascii.eqb c "="%char)) k.
Lemma key_solid k : all_chars (fun c => negb (is_space c) && negb (Ascii.eqb c "="%char)) k = true ->
  all_chars (fun c => negb (is_space c)) k = true.
Proof. apply all_chars_imp. intros c H. now apply andb_true_iff in H as [H _]. Qed.
Lemma split_kv k v : all_chars (fun c => negb (is_space c) && negb (Ascii.eqb c "="%char)) k = true -> split_eq (kv k v) = Some (k, v).
Proof.
  unfold kv. induction k as [|c k IH]; [reflexivity|]. cbn [all_chars String.append split_eq]. intros H.
  apply andb_true_iff in H as [H1 H2]. apply andb_true_iff in H1 as [_ H1]. apply negb_true_iff in H1. rewrite H1. now rewrite IH.
Qed.
Lemma trim_kv k v : all_chars (fun c => negb (is_space c)) k = true -> trim (kv k v) = kv k (trim_right v).
Proof.
  intros H. unfold trim, kv. assert (E : trim_left (k ^^ String "=" v) = k ^^ String "=" v).
  { destruct k as [|c k]; [reflexivity|]. cbn [String.append trim_left]. cbn [all_chars] in H.
    apply andb_true_iff in H as [H _]. apply negb_true_iff in H. now rewrite H. }
  rewrite E. now apply trim_right_app.
Qed.
Lemma prefix_kv k v : key_ok k = true -> String.prefix "Tree=" (kv k v) = false.
Proof.
  unfold key_ok. destruct k as [|c k]; [discriminate|]. intros H. apply andb_true_iff in H as [H _]. apply andb_true_iff in H as [H _].
  apply negb_true_iff, Ascii.eqb_neq in H. unfold kv. cbn [String.append String.prefix].
  destruct (ascii_dec "T" c) as [E|_]; [now destruct H|reflexivity].
Qed.
Lemma kv_nonempty k v : kv k v <> "".
Proof. unfold kv. destruct k; discriminate. Qed.
Lemma one_line_kv k v : all_chars (fun c => negb (is_space c)) k = true -> one_line v = true -> one_line (kv k v) = true.
Proof.
  intros Hk Hv. unfold one_line, kv. rewrite all_chars_app. apply andb_true_iff. split; [now apply solid_line|]. cbn [all_chars].
  exact Hv.
Qed.
Lemma one_line_join l : Forall (fun t => one_line t = true) l -> one_line (join l) = true.
Proof.
  induction 1 as [|t l Ht Hl IH]; [reflexivity|]. unfold join in *. destruct l as [|u l]; [exact Ht|].
  change (String.concat " " (t :: u :: l)) with (t ^^ (" " ^^ String.concat " " (u :: l))).
  unfold one_line in *. rewrite all_chars_app, Ht. cbn [String.append all_chars andb]. exact IH.
Qed.
Lemma stored_token v : token v = true -> stored v = v.
Proof. intros H. apply stored_solid. now apply token_solid. Qed.
Lemma key_parts k : key_ok k = true -> all_chars (fun c => negb (is_space c) && negb (Ascii.eqb c "="%char)) k = true.
Proof. unfold key_ok. intros H. now apply andb_true_iff in H as [_ H]. Qed.
Lemma read_params_kv k v rest b p : key_ok k = true ->
  read_params (kv k v :: rest) b p = read_params rest 0 ((k, stored v) :: p).
Proof.
  intros Hk. cbn [read_params]. pose proof (key_parts k Hk) as Hs. pose proof (key_solid k Hs) as Hs'.
  rewrite trim_kv by exact Hs'. rewrite prefix_kv by exact Hk. rewrite split_kv by exact Hs. rewrite (trim_solid k Hs').
  destruct (kv k (trim_right v)) eqn:E; [now apply kv_nonempty in E|]. reflexivity.
Qed.
Lemma prefix_tree v : String.prefix "Tree=" (kv "Tree" v) = true.
Proof. destruct v; reflexivity. Qed.
Lemma read_params_tree v rest b p : read_params (kv "Tree" v :: rest) b p = read_params rest b p.
Proof. cbn [read_params]. rewrite trim_kv by reflexivity. now rewrite prefix_tree. Qed.
