(** What ranking metrics mean, over lists of (score, label) pairs. *)
From Coq Require Import List Reals Bool.
From Verif Require Import Base.Num Base.RTac.
Import ListNotations.
Local Open Scope R_scope.

(** Scores of the positive (label 1) and negative items. *)
Definition pos_scores (l : list (R * R)) : list R :=
  map fst (filter (fun x => Reqb (snd x) 1) l).
Definition neg_scores (l : list (R * R)) : list R :=
  map fst (filter (fun x => negb (Reqb (snd x) 1)) l).

(** How well one positive/negative pair is ranked: 1, 1/2 on a tie, or 0. *)
Definition pair_score (p q : R) : R :=
  if Rltb q p then 1 else if Reqb q p then 1 / 2 else 0.

(** Sum over all pairs. *)
Definition pair_sum (ps qs : list R) : R :=
  Rsum (map (fun p => Rsum (map (fun q => pair_score p q) qs)) ps).

(** The Mann-Whitney statistic: the mean over all positive/negative pairs. *)
Definition mann_whitney (l : list (R * R)) : R :=
  pair_sum (pos_scores l) (neg_scores l) /
  (INR (length (pos_scores l)) * INR (length (neg_scores l))).

(** Discounted cumulative gain of a ranking, best position first: gain
    [2^rel - 1] at position [i] (from 0) discounted by [log2 (i + 2)]; only the
    first [k] positions count. *)
Definition gain (rel : R) : R := Rpower 2 rel - 1.
Definition discount (i : nat) : R := ln (INR (i + 2)) / ln 2.
Fixpoint dcg_spec (i k : nat) (rels : list R) : R :=
  match k, rels with
  | S k', r :: rest => gain r / discount i + dcg_spec (S i) k' rest
  | _, _ => 0
  end.

(** Average precision of a ranking of binary relevances: the mean over the
    relevant positions of the fraction of relevant items up to there. *)
Definition is_rel (r : R) : bool := Reqb r 1.
Definition precision_at (rels : list R) (i : nat) : R :=
  INR (length (filter is_rel (firstn (S i) rels))) / INR (S i).
Definition ap_spec (rels : list R) : R :=
  Rsum (map (precision_at rels) (filter (fun i => is_rel (nth i rels 0)) (seq 0 (length rels)))) /
  INR (length (filter is_rel rels)).

(** Every positive item is scored strictly above every negative item. *)
Definition separated (l : list (R * R)) : Prop :=
  forall a b, In a l -> In b l -> snd a = 1 -> snd b = 0 -> fst b < fst a.
