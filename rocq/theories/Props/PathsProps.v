(** C145: the file paths of the model loaders *)
From Coq Require Import String Ascii List Bool Lia.
From Verif Require Import Base.GoRes Model.Paths Spec.Paths Proofs.PathsP.
Import ListNotations.
Local Open Scope string_scope.
Local Open Scope list_scope.

(** Cleaning does not change which file is meant: where the path leads somewhere, the cleaned path leads to the same place, outside of the
    working directory or not. *)
Theorem C145_same_file dir cwd p a : resolve parts dir cwd p = Some a -> resolve parts dir cwd (clean p) = Some a.
Proof.
  unfold resolve. rewrite !prefix_rooted. intros H. destruct (clean_elements p) as (k & S & E & R & _ & _ & P). rewrite R.
  assert (D : dir (if rooted p then [] else cwd) = true). { pose proof (parts_not_nil p). destruct (parts p) as [|x r]; [congruence|]. cbn [follow] in H. unfold follow1 in H. destruct (dir _); [reflexivity|discriminate]. }
  assert (G : follow dir (if rooted p then [] else cwd) (rev k) = Some a).
  { rewrite <- E. eapply follow_shorten; [now intros ->|reflexivity|apply parts_slashless|reflexivity|exact H]. }
  rewrite P. destruct (rev k) as [|x r].
  - cbn [follow] in G. injection G as <-. destruct (rooted p); cbn [follow]; unfold follow1; rewrite D; cbn [orb String.eqb]; rewrite ?D; reflexivity.
  - destruct (rooted p); [|exact G]. cbn [app]. change (follow dir [] ("" :: x :: r)) with (match follow1 dir [] "" with Some b => follow dir b (x :: r) | None => None end). unfold follow1. rewrite D. exact G.
Qed.
(** Cleaning twice is cleaning once. *)
Theorem C145_clean_once p : clean (clean p) = clean p.
Proof. apply clean_idem. Qed.

Lemma proper_short x : proper x = true -> slashless x = true /\ ((x =? "") || (x =? "."))%string = false /\ (x =? "..")%string = false.
Proof. unfold proper, slashless. intros H. apply andb_prop in H. destruct H as [H1 H2]. apply negb_true_iff in H1. apply orb_false_elim in H1. tauto. Qed.
Lemma proper_list root xs : forallb proper xs = true -> short root (rev xs) = true.
Proof.
  intros H. rewrite <- forallb_rev in H. induction (rev xs) as [|y r IH]; [reflexivity|]. cbn [forallb] in H. apply andb_prop in H. destruct H as [H1 H2]. cbn [short]. destruct (proper_short y H1) as (A & B & C). rewrite C, B, A. exact (IH H2).
Qed.
Lemma clean_names (root : bool) x xs : forallb proper (x :: xs) = true -> clean (if root then String "/" (join (x :: xs)) else join (x :: xs)) = if root then String "/" (join (x :: xs)) else join (x :: xs).
Proof.
  intros H. assert (Sl : forallb slashless (x :: xs) = true). { rewrite forallb_forall in *. intros y Hy. now apply proper_short, H. }
  assert (Rt : rooted (join (x :: xs)) = false). { cbn [forallb] in Sl, H. apply andb_prop in Sl, H. destruct Sl as [N2 _]. destruct H as [H _]. destruct x as [|c x]; [discriminate|]. unfold slashless in N2. cbn [list_ascii_of_string existsb] in N2. destruct (Ascii.eqb_spec "/" c) as [|Nc]; [discriminate|]. destruct xs; cbn [join String.concat append rooted]; destruct (Ascii.eqb_spec c "/"); congruence. }
  unfold clean. destruct root.
  - change (rooted (String "/" (join (x :: xs)))) with true. change (parts (String "/" (join (x :: xs)))) with ("" :: parts (join (x :: xs))). rewrite parts_join by (try discriminate; exact Sl).
    change (shorten true ("" :: x :: xs) []) with (shorten true (x :: xs) []). rewrite shorten_stays; [reflexivity|]. rewrite app_nil_r. now apply proper_list.
  - rewrite Rt, parts_join by (try discriminate; exact Sl). rewrite shorten_stays; [reflexivity|]. rewrite app_nil_r. now apply proper_list.
Qed.
Lemma simple_iff p : simple p <-> clean p = p /\ has_dots p = false.
Proof.
  split.
  - intros [-> | [-> | (x & xs & F & Hp)]]; [split; reflexivity|split; reflexivity|].
    assert (H1 : forallb proper (x :: xs) = true). { rewrite forallb_forall. rewrite Forall_forall in F. intros y Hy. apply F, Hy. }
    assert (H2 : has_dots (join (x :: xs)) = false). { rewrite has_dots_join. destruct (existsb has_dots (x :: xs)) eqn:E; [|reflexivity]. apply existsb_exists in E. destruct E as (y & Hy & E). rewrite Forall_forall in F. destruct (proj2 (F y Hy)). now apply has_dots_spec. }
    destruct Hp as [-> | ->]; [split; [exact (clean_names false x xs H1)|exact H2]|]. change ("/" ++ String.concat "/" (x :: xs))%string with ("" ++ String "/" (join (x :: xs)))%string.
    split; [exact (clean_names true x xs H1)|]. rewrite has_dots_app, H2. reflexivity.
  - intros [C D]. destruct (clean_elements p) as (k & S & _ & _ & E1 & E2 & _). rewrite C in E1, E2. destruct (rev k) as [|x xs] eqn:Ek.
    + rewrite (E2 eq_refl). destruct (rooted p); [now left|now right; left].
    + right. right. exists x, xs. specialize (E1 ltac:(discriminate)). assert (Dj : existsb has_dots (x :: xs) = false).
      { rewrite <- has_dots_join. rewrite E1 in D. destruct (rooted p); [|exact D]. change (String "/" (join (x :: xs))) with ("" ++ String "/" (join (x :: xs)))%string in D. rewrite has_dots_app in D. exact D. }
      split; [|destruct (rooted p); auto]. apply Forall_forall. intros y Hy.
      assert (Dy : has_dots y = false). { destruct (has_dots y) eqn:K; [|reflexivity]. exfalso. rewrite <- Bool.not_true_iff_false in Dj. apply Dj. apply existsb_exists. eauto. }
      split; [|intros K; apply has_dots_spec in K; congruence].
      assert (Iy : In y k) by (apply in_rev; rewrite Ek; exact Hy). pose proof (short_slashless _ _ S) as Sl. rewrite forallb_forall in Sl. specialize (Sl y Iy). unfold proper. fold (slashless y). rewrite Sl, andb_true_r.
      clear -S Iy Dy. assert (Ny : (y =? "..")%string = false) by (apply String.eqb_neq; intros ->; discriminate).
      induction k as [|z k IH]; [contradiction|]. cbn [short] in S. destruct Iy as [-> | Iy].
      * rewrite Ny in S |- *. rewrite orb_false_r. apply andb_prop in S. destruct S as [S _]. apply andb_prop in S. apply S.
      * destruct (z =? "..")%string; apply andb_prop in S; destruct S as [S1 S2]; apply IH; auto. apply dots_short; [now destruct (rooted p)|exact S2].
Qed.

(** The loader of compact text models takes exactly the simple paths, and opens them as they are. *)
Theorem C145_text p q : leaves_path p = Ok q <-> q = p /\ simple p.
Proof.
  rewrite simple_iff. unfold leaves_path. destruct (String.eqb_spec (clean p) p) as [E|E]; cbn [negb].
  - rewrite E. destruct (has_dots p); split; intros H; [discriminate|destruct H as (_ & _ & ?); discriminate|injection H as <-; auto|destruct H as [-> _]; reflexivity].
  - split; [discriminate|]. intros (_ & K & _). contradiction.
Qed.
(** The loader of compact JSON models takes those that are simple after cleaning. *)
Theorem C145_json p q : json_path p = Ok q <-> q = clean p /\ simple (clean p).
Proof.
  rewrite simple_iff. unfold json_path. rewrite clean_idem. destruct (has_dots (clean p)); split; intros H; [discriminate|destruct H as (_ & _ & ?); discriminate|injection H as <-; auto|destruct H as [-> _]; reflexivity].
Qed.
(** The file that either of the two opens for a path that does not begin at the root is below the working directory. *)
Theorem C145_below dir cwd p q a : leaves_path p = Ok q \/ json_path p = Ok q -> prefix "/" p = false -> resolve parts dir cwd q = Some a -> exists xs, a = cwd ++ xs.
Proof.
  intros H Hp Hr. rewrite prefix_rooted in Hp. assert (Q : q = clean p /\ simple q).
  { destruct H as [H | H]; [apply C145_text in H|apply C145_json in H]; destruct H as [-> H]; [|auto]. split; [|exact H]. apply simple_iff in H. symmetry. apply H. }
  destruct Q as [-> Hs]. unfold resolve in Hr. rewrite prefix_rooted in Hr. destruct (clean_elements p) as (k & S & _ & R & E1 & _ & P). rewrite R, Hp in Hr. rewrite Hp in P. rewrite P in Hr.
  assert (G : forall xs c, (forall y, In y xs -> y <> "..") -> follow dir c xs = Some a -> exists zs, a = c ++ zs).
  { clear. induction xs as [|x xs IH]; intros c Hd Hf; [injection Hf as <-; exists []; now rewrite app_nil_r|]. cbn [follow] in Hf. unfold follow1 in Hf. destruct (dir c); [|discriminate].
    destruct (_ || _)%bool; [apply IH; auto; intros; apply Hd; now right|]. destruct (String.eqb_spec x "..") as [->|N]; [destruct (Hd ".."); [now left|reflexivity]|].
    destruct (IH (c ++ [x])) as (zs & ->); [intros; apply Hd; now right|exact Hf|]. exists (x :: zs). now rewrite <- app_assoc. }
  eapply G; [|exact Hr]. intros y Hy ->. apply simple_iff in Hs. destruct Hs as [_ Hd]. destruct (rev k) as [|x xs] eqn:Ek.
  - destruct Hy as [Hy | []]. discriminate.
  - rewrite E1, Hp in Hd by discriminate. rewrite has_dots_join in Hd. rewrite <- Bool.not_true_iff_false in Hd. apply Hd. apply existsb_exists. exists "..". split; [exact Hy|reflexivity].
Qed.
(** LoadModelAutoDetect takes simple paths whatever is in the file. *)
Theorem C145_auto json p : simple p -> auto_path json p = Ok p.
Proof.
  intros H. pose proof H as K. apply simple_iff in K. destruct K as [K _]. unfold auto_path. destruct (json (clean p)); [apply C145_json; rewrite K; auto|now apply C145_text].
Qed.

(** Expected, and false: that "./" in front of a path makes no difference.  It does for text models, and LoadModelAutoDetect therefore takes
    the path for one kind of content only. *)
Theorem C145_dot_refuted : exists p q, (forall dir cwd, dir cwd = true -> resolve parts dir cwd p = resolve parts dir cwd q) /\ leaves_path p = Ok p /\ leaves_path q = Err (EOther 1) /\
  json_path q = Ok p /\ auto_path (fun _ => true) q = Ok p /\ auto_path (fun _ => false) q = Err (EOther 1).
Proof.
  exists "model.txt", "./model.txt". split; [|repeat split; reflexivity]. intros dir cwd H. unfold resolve. cbn [prefix parts]. cbn. unfold follow1. rewrite H. cbn. now rewrite H.
Qed.
(** Expected, and false: that only paths that lead upwards are refused. *)
Theorem C145_dots_refuted : exists p, proper p = true /\ leaves_path p = Err (EOther 2) /\ json_path p = Err (EOther 2) /\ load_path p = Ok p.
Proof. exists "model..v2.txt". repeat split; reflexivity. Qed.
(** Expected, since the source says "to prevent path traversal attacks", and false: that LoadFromFile stays below the working directory. *)
Theorem C145_traversal_refuted : exists p, load_path p = Ok p /\ forall cwd a b, resolve parts (fun _ => true) (cwd ++ [a; b]) p = Some (cwd ++ ["secret"]).
Proof.
  exists "../../secret". split; [reflexivity|]. intros cwd a b. unfold resolve. cbn [prefix]. change (parts "../../secret") with ["..";"..";"secret"]. cbn [follow]. unfold follow1. cbn.
  unfold up. replace (cwd ++ [a; b]) with ((cwd ++ [a]) ++ [b]) by now rewrite <- app_assoc. now rewrite !removelast_last.
Qed.
(** And cleaning can find a file where the path leads nowhere. *)
Theorem C145_missing_refuted : exists dir p, load_path p = Ok "model.txt" /\ resolve parts dir [] p = None /\ resolve parts dir [] "model.txt" = Some ["model.txt"].
Proof. exists (fun a => match a with [] => true | _ => false end), "missing/../model.txt". repeat split; reflexivity. Qed.
Example C145_example : clean "a//b/./../c/" = "a/c" /\ clean "/../x" = "/x" /\ clean "" = "." /\ clean "a/../../b" = "../b" /\ json_path "models/../model.json" = Ok "model.json" /\ leaves_path "/etc/passwd" = Ok "/etc/passwd".
Proof. repeat split; reflexivity. Qed.
Print Assumptions C145_same_file. Print Assumptions C145_clean_once. Print Assumptions C145_text. Print Assumptions C145_json. Print Assumptions C145_below. Print Assumptions C145_auto.
Print Assumptions C145_dot_refuted. Print Assumptions C145_dots_refuted. Print Assumptions C145_traversal_refuted. Print Assumptions C145_missing_refuted.
