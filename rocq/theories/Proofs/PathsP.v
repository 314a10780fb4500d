From Coq Require Import String Ascii List Bool Lia.
From Verif Require Import Base.GoRes Model.Paths Spec.Paths.
Import ListNotations.
Local Open Scope string_scope.
Local Open Scope list_scope.

Definition slashless (x : string) : bool := negb (existsb (Ascii.eqb "/") (list_ascii_of_string x)).
Lemma parts_not_nil p : parts p <> [].
Proof. destruct p as [|c r]; [discriminate|]. cbn. destruct (Ascii.eqb c "/"); [discriminate|]. destruct (parts r); discriminate. Qed.
Lemma parts_slashless p : forallb slashless (parts p) = true.
Proof.
  induction p as [|c r IH]; [reflexivity|]. cbn [parts]. destruct (Ascii.eqb_spec c "/") as [->|N]; [exact IH|].
  destruct (parts r) as [|h t]; cbn [forallb] in *.
  - unfold slashless. cbn [list_ascii_of_string existsb]. destruct (Ascii.eqb_spec "/" c); [congruence|reflexivity].
  - apply andb_prop in IH. destruct IH as [H1 H2]. rewrite H2, andb_true_r. unfold slashless in *. cbn [list_ascii_of_string existsb]. destruct (Ascii.eqb_spec "/" c); [congruence|exact H1].
Qed.
Lemma parts_one x : slashless x = true -> parts x = [x].
Proof.
  induction x as [|c r IH]; [reflexivity|]. unfold slashless. cbn [list_ascii_of_string existsb parts]. intros H. destruct (Ascii.eqb_spec c "/") as [->|N]; [discriminate|].
  destruct (Ascii.eqb_spec "/" c) as [|_]; [congruence|]. rewrite IH by exact H. reflexivity.
Qed.
Lemma parts_app x s : slashless x = true -> parts (x ++ String "/" s)%string = x :: parts s.
Proof.
  induction x as [|c r IH]; [reflexivity|]. unfold slashless. cbn [list_ascii_of_string existsb parts append]. intros H. destruct (Ascii.eqb_spec c "/") as [->|N]; [discriminate|].
  destruct (Ascii.eqb_spec "/" c) as [|_]; [congruence|]. rewrite IH by exact H. reflexivity.
Qed.
Lemma parts_join ps : ps <> [] -> forallb slashless ps = true -> parts (join ps) = ps.
Proof.
  induction ps as [|x ps IH]; [congruence|]. intros _ H. cbn [forallb] in H. apply andb_prop in H. destruct H as [H1 H2]. destruct ps as [|y ps]; [now apply parts_one|].
  change (join (x :: y :: ps)) with (x ++ String "/" (join (y :: ps)))%string. rewrite parts_app by exact H1. now rewrite IH.
Qed.
Lemma join_parts p : join (parts p) = p.
Proof.
  induction p as [|c r IH]; [reflexivity|]. cbn [parts]. pose proof (parts_not_nil r) as N. destruct (parts r) as [|h t] eqn:E; [congruence|]. destruct (Ascii.eqb_spec c "/") as [->|Nc].
  - change (join ("" :: h :: t)) with (String "/" (join (h :: t))). now rewrite IH.
  - destruct t as [|y t].
    + cbn in IH |- *. now rewrite IH.
    + change (join (String c h :: y :: t)) with (String c (h ++ String "/" (join (y :: t)))%string). change (join (h :: y :: t)) with (h ++ String "/" (join (y :: t)))%string in IH. now rewrite IH.
Qed.

(** ** What remains *)
(** Reversed: names on top of dots, no dots for a rooted path *)
Fixpoint dots_only (k : list string) : bool := match k with [] => true | y :: r => (y =? "..")%string && dots_only r end.
Fixpoint short (root : bool) (k : list string) : bool :=
  match k with [] => true | y :: r => if (y =? "..")%string then negb root && dots_only r else negb ((y =? "") || (y =? "."))%string && slashless y && short root r end.
Lemma dots_short k root : root = false -> dots_only k = true -> short root k = true.
Proof. intros -> H. destruct k as [|y r]; [reflexivity|]. cbn in *. apply andb_prop in H. destruct H as [-> H]. exact H. Qed.
Lemma shorten_short root ps kept : forallb slashless ps = true -> short root kept = true -> exists k, shorten root ps kept = rev k /\ short root k = true.
Proof.
  revert kept. induction ps as [|x ps IH]; intros kept Hs Hk; [exists kept; auto|]. cbn [forallb] in Hs. apply andb_prop in Hs. destruct Hs as [Hx Hs]. cbn [shorten].
  destruct (((x =? "") || (x =? "."))%string) eqn:E0; [auto|]. destruct (String.eqb_spec x "..") as [->|N].
  - destruct kept as [|y k].
    + destruct root; apply IH; auto.
    + cbn [short] in Hk. destruct (y =? "..")%string eqn:E.
      * apply IH; [exact Hs|]. cbn [short]. rewrite String.eqb_refl. cbn [dots_only]. rewrite E. exact Hk.
      * apply IH; [exact Hs|]. apply andb_prop in Hk. apply Hk.
  - apply IH; [exact Hs|]. cbn [short]. apply String.eqb_neq in N. rewrite N, E0, Hx. exact Hk.
Qed.
(** A short list stays. *)
Lemma dots_app a b : dots_only (a ++ b) = dots_only a && dots_only b.
Proof. induction a as [|x a IH]; [reflexivity|]. cbn. rewrite IH. now rewrite andb_assoc. Qed.
Lemma short_app root a b : short root (a ++ b) = true -> short root b = true.
Proof.
  induction a as [|y a IH]; [auto|]. cbn [short app]. destruct (y =? "..")%string.
  - intros H. apply andb_prop in H. destruct H as [Hr H]. rewrite dots_app in H. apply andb_prop in H. apply dots_short; [now destruct root|apply H].
  - intros H. apply andb_prop in H. apply IH, H.
Qed.
Lemma shorten_stays root : forall ps kept, short root (rev ps ++ kept) = true -> shorten root ps kept = rev kept ++ ps.
Proof.
  induction ps as [|x ps IH]; intros kept H; [cbn; now rewrite app_nil_r|]. cbn [rev] in H. rewrite <- app_assoc in H. cbn [app] in H. pose proof (short_app _ _ _ H) as Hx. cbn [shorten].
  assert (G : shorten root ps (x :: kept) = rev kept ++ x :: ps) by (rewrite IH by exact H; cbn [rev]; now rewrite <- app_assoc).
  cbn [short] in Hx. destruct (String.eqb_spec x "..") as [->|N].
  - cbn [String.eqb orb]. cbn [Ascii.eqb Bool.eqb orb]. apply andb_prop in Hx. destruct Hx as [Hr Hd]. destruct kept as [|y k]; [destruct root; [discriminate|exact G]|]. cbn [dots_only] in Hd. apply andb_prop in Hd. destruct Hd as [-> _]. exact G.
  - apply andb_prop in Hx. destruct Hx as [Hx _]. apply andb_prop in Hx. destruct Hx as [Hx _]. apply negb_true_iff in Hx. rewrite Hx. exact G.
Qed.
Lemma short_slashless root k : short root k = true -> forallb slashless k = true.
Proof.
  induction k as [|y r IH]; [reflexivity|]. cbn [short forallb]. destruct (String.eqb_spec y "..") as [->|N].
  - intros H. apply andb_prop in H. destruct H as [Hr H]. cbn [slashless list_ascii_of_string existsb]. apply IH. apply dots_short; [now destruct root|exact H].
  - intros H. apply andb_prop in H. destruct H as [H1 H2]. apply andb_prop in H1. rewrite (proj2 H1). apply IH, H2.
Qed.
Lemma forallb_rev {A} (f : A -> bool) l : forallb f (rev l) = forallb f l.
Proof. induction l as [|x l IH]; [reflexivity|]. cbn. rewrite forallb_app, IH. cbn. now rewrite andb_true_r, andb_comm. Qed.
Lemma short_first root k x r : short root k = true -> rev k = x :: r -> x <> "" /\ slashless x = true /\ x <> ".".
Proof.
  intros H E. assert (I : In x k) by (apply in_rev; rewrite E; now left). pose proof (short_slashless _ _ H) as S. rewrite forallb_forall in S. split; [|split; [auto|]].
  all: clear E S; induction k as [|y k IH]; [contradiction|]; cbn [short] in H; destruct I as [-> | I].
  all: destruct (String.eqb_spec x "..") as [->|N]; try discriminate.
  all: try (apply andb_prop in H; destruct H as [H _]; apply andb_prop in H; destruct H as [H _]; apply negb_true_iff, orb_false_elim in H; destruct H as [H1 H2]; apply String.eqb_neq in H1, H2; assumption).
  all: destruct (y =? "..")%string; apply andb_prop in H; destruct H as [H1 H2]; apply IH; auto; apply dots_short; auto; now destruct root.
Qed.
(** The elements of a cleaned path *)
Lemma clean_short p : exists k, short (rooted p) k = true /\ shorten (rooted p) (parts p) [] = rev k.
Proof. destruct (shorten_short (rooted p) (parts p) [] (parts_slashless p) eq_refl) as (k & E & S). eauto. Qed.
Lemma clean_idem p : clean (clean p) = clean p.
Proof.
  destruct (clean_short p) as (k & S & E). unfold clean at 2 3. rewrite E. destruct (rooted p) eqn:R.
  - destruct k as [|y k]; [reflexivity|]. unfold clean. change (rooted (String "/" (join (rev (y :: k))))) with true. cbv iota.
    assert (K : parts (String "/" (join (rev (y :: k)))) = "" :: rev (y :: k)). { cbn [parts]. cbn [Ascii.eqb Bool.eqb]. f_equal. apply parts_join; [cbn; destruct (rev k); cbn; discriminate|]. rewrite forallb_rev. now apply short_slashless with true. }
    rewrite K. cbn [shorten String.eqb orb]. rewrite shorten_stays by (rewrite rev_involutive, app_nil_r; exact S). reflexivity.
  - destruct (rev k) as [|x r] eqn:Ek; [reflexivity|]. destruct (short_first _ _ _ _ S Ek) as (N1 & N2 & N3). unfold clean.
    assert (Rt : rooted (join (x :: r)) = false). { destruct x as [|c x]; [congruence|]. unfold slashless in N2. cbn [list_ascii_of_string existsb] in N2. destruct (Ascii.eqb_spec "/" c) as [|Nc]; [discriminate|]. destruct r; cbn [join String.concat append rooted]; destruct (Ascii.eqb_spec c "/"); congruence. }
    rewrite Rt. rewrite parts_join; [|discriminate|rewrite <- Ek, forallb_rev; now apply short_slashless with false].
    rewrite shorten_stays by (rewrite <- Ek, rev_involutive, app_nil_r; exact S). reflexivity.
Qed.

(** ** Following *)
Lemma follow_app dir a xs ys : follow dir a (xs ++ ys) = match follow dir a xs with Some b => follow dir b ys | None => None end.
Proof. revert a. induction xs as [|x xs IH]; intros a; [reflexivity|]. cbn [follow app]. destruct (follow1 dir a x); [apply IH|reflexivity]. Qed.
Lemma follow_shorten dir root start : (root = true -> start = []) -> forall ps kept pos a, short root kept = true -> forallb slashless ps = true ->
  follow dir start (rev kept) = Some pos -> follow dir pos ps = Some a -> follow dir start (shorten root ps kept) = Some a.
Proof.
  intros Hroot. induction ps as [|x ps IH]; intros kept pos a Hk Hs Hf H.
  - cbn in *. congruence.
  - cbn [forallb] in Hs. apply andb_prop in Hs. destruct Hs as [Hx Hs]. cbn [follow] in H. unfold follow1 in H. destruct (dir pos) eqn:D; [|discriminate]. cbn [shorten].
    destruct (((x =? "") || (x =? "."))%string) eqn:E0; [eapply IH; eauto|].
    assert (Push : forall b, follow1 dir pos x = Some b -> follow dir start (rev (x :: kept)) = Some b) by (intros b Hb; cbn [rev]; rewrite follow_app, Hf; cbn [follow]; now rewrite Hb).
    assert (F1 : follow1 dir pos x = Some (if (x =? "..")%string then up pos else pos ++ [x])) by (unfold follow1; rewrite D, E0; reflexivity).
    destruct (String.eqb_spec x "..") as [->|N].
    + destruct kept as [|y k].
      * cbn in Hf. injection Hf as <-. destruct root.
        -- apply (IH [] start a); auto. change (follow dir (up start) ps = Some a) in H. rewrite (Hroot eq_refl) in H |- *. exact H.
        -- apply (IH [".."] (up start) a); auto.
      * pose proof Hk as Hk'. cbn [short] in Hk. destruct (y =? "..")%string eqn:Ey.
        -- eapply IH; [| |apply Push, F1|exact H]; auto. cbn [short]. rewrite String.eqb_refl. cbn [dots_only]. rewrite Ey. exact Hk.
        -- apply andb_prop in Hk. destruct Hk as [Hy Hk]. apply andb_prop in Hy. destruct Hy as [Hy _]. apply negb_true_iff in Hy.
           cbn [rev] in Hf. rewrite follow_app in Hf. destruct (follow dir start (rev k)) as [q|] eqn:Eq; [|discriminate]. cbn [follow] in Hf. unfold follow1 in Hf. destruct (dir q); [|discriminate].
           rewrite Hy, Ey in Hf. injection Hf as <-. change (follow dir (up (q ++ [y])) ps = Some a) in H. unfold up in H. rewrite removelast_last in H. apply (IH k q a); auto.
    + eapply IH; [| |apply Push, F1|exact H]; auto. cbn [short]. apply String.eqb_neq in N. rewrite N, E0, Hx. exact Hk.
Qed.
Lemma prefix_rooted p : prefix "/" p = rooted p.
Proof. destruct p as [|c r]; [reflexivity|]. cbn [prefix rooted]. destruct (ascii_dec "/" c) as [<-|N]; [destruct r; reflexivity|]. destruct (Ascii.eqb_spec c "/"); congruence. Qed.
(** The elements of a cleaned path *)
Lemma clean_elements p : exists k, short (rooted p) k = true /\ shorten (rooted p) (parts p) [] = rev k /\ rooted (clean p) = rooted p /\
  (rev k <> [] -> clean p = if rooted p then String "/" (join (rev k)) else join (rev k)) /\
  (rev k = [] -> clean p = if rooted p then "/" else ".") /\
  parts (clean p) = match rev k with [] => if rooted p then [""; ""] else ["."] | _ => (if rooted p then [""] else []) ++ rev k end.
Proof.
  destruct (clean_short p) as (k & S & E). exists k. split; [exact S|]. split; [exact E|]. unfold clean. rewrite E. destruct (rooted p) eqn:R.
  - split; [reflexivity|]. split; [reflexivity|]. split; [intros ->; reflexivity|]. destruct (rev k) as [|x r] eqn:Ek; [reflexivity|].
    change (parts (String "/" (join (x :: r)))) with ("" :: parts (join (x :: r))). cbn [app]. f_equal. apply parts_join; [discriminate|]. rewrite <- Ek, forallb_rev. now apply short_slashless with true.
  - destruct (rev k) as [|x r] eqn:Ek.
    + split; [reflexivity|]. split; [congruence|]. split; [reflexivity|]. reflexivity.
    + destruct (short_first _ _ _ _ S Ek) as (N1 & N2 & N3).
      split. { destruct x as [|c x]; [congruence|]. unfold slashless in N2. cbn [list_ascii_of_string existsb] in N2. destruct (Ascii.eqb_spec "/" c) as [|Nc]; [discriminate|]. destruct r; cbn [join String.concat append rooted]; destruct (Ascii.eqb_spec c "/"); congruence. }
      split; [reflexivity|]. split; [congruence|]. cbn [app]. apply parts_join; [discriminate|]. rewrite <- Ek, forallb_rev. now apply short_slashless with false.
Qed.
(** Two dots in a row *)
Lemma has_dots_spec s : has_dots s = true <-> exists a b, s = (a ++ ".." ++ b)%string.
Proof.
  split.
  - induction s as [|c r IH]; [discriminate|]. cbn [has_dots]. destruct r as [|d r]; [discriminate|]. intros H. apply orb_prop in H. destruct H as [H | H].
    + apply andb_prop in H. destruct H as [H1 H2]. apply Ascii.eqb_eq in H1, H2. subst. exists "", r. reflexivity.
    + destruct (IH H) as (a & b & E). exists (String c a), b. cbn [append]. now rewrite E.
  - intros (a & b & ->). induction a as [|c a IH]; [reflexivity|]. change (String c a ++ ".." ++ b)%string with (String c (a ++ ".." ++ b)). remember (a ++ ".." ++ b)%string as s eqn:Es. clear Es. destruct s as [|d s]; [discriminate|].
    change (has_dots (String c (String d s))) with ((Ascii.eqb c "." && Ascii.eqb d ".") || has_dots (String d s)). rewrite IH. apply orb_true_r.
Qed.
Lemma has_dots_app x s : has_dots (x ++ String "/" s)%string = has_dots x || has_dots s.
Proof.
  induction x as [|c x IH].
  - cbn [append has_dots]. destruct s; reflexivity.
  - destruct x as [|d x].
    + cbn [append] in *. change (has_dots (String c (String "/" s))) with ((Ascii.eqb c "." && Ascii.eqb "/" ".") || has_dots (String "/" s)). rewrite IH. change (Ascii.eqb "/" ".") with false. now rewrite andb_false_r.
    + change (String c (String d x) ++ String "/" s)%string with (String c (String d (x ++ String "/" s))). change (has_dots (String c (String d (x ++ String "/" s)))) with ((Ascii.eqb c "." && Ascii.eqb d ".") || has_dots (String d x ++ String "/" s)%string).
      rewrite IH. change (has_dots (String c (String d x))) with ((Ascii.eqb c "." && Ascii.eqb d ".") || has_dots (String d x)). apply orb_assoc.
Qed.
Lemma has_dots_join ps : has_dots (join ps) = existsb has_dots ps.
Proof.
  induction ps as [|x ps IH]; [reflexivity|]. destruct ps as [|y ps]; [cbn; now rewrite orb_false_r|]. change (join (x :: y :: ps)) with (x ++ String "/" (join (y :: ps)))%string. rewrite has_dots_app, IH. reflexivity.
Qed.
