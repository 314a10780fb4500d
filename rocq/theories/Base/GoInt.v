(** Go's 64-bit int: arithmetic wraps around. *)
From Coq Require Import ZArith Lia.
Local Open Scope Z_scope.

Definition wrap (z : Z) : Z := (z + 2 ^ 63) mod 2 ^ 64 - 2 ^ 63.
Definition int64 (z : Z) : Prop := - 2 ^ 63 <= z < 2 ^ 63.
Lemma wrap_int64 z : int64 (wrap z).
Proof. unfold int64, wrap. pose proof (Z.mod_pos_bound (z + 2 ^ 63) (2 ^ 64) eq_refl). lia. Qed.
Lemma wrap_id z : int64 z -> wrap z = z.
Proof. unfold int64, wrap. intros H. rewrite Z.mod_small; lia. Qed.
