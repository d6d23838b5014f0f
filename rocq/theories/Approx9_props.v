(** Further theorem about C19. *)
From Verif Require Import Base Approx9_proofs.
From Verif Require Import Approx_model.

Theorem C19_move_limits : forall vlb vub L U x y,
  (sub_lb vlb vub L x <= y <-> vlb <= y /\ L + (x - Rabs L) / 10 <= y /\ x - y <= (vub - vlb) / 2) /\
  (y <= sub_ub vlb vub U x <-> y <= vub /\ y <= U - (U - x) / 10 /\ y - x <= (vub - vlb) / 2).
Proof. exact move_limit_lemma. Qed.
Print Assumptions C19_move_limits.
Example C19_limits_ex : sub_lb 0 10 1 3 <= 3 /\ 3 <= sub_ub 0 10 8 3.
Proof. destruct (move_limit_lemma 0 10 1 8 3 3) as [A B]. rewrite A, B, (Rabs_right 1) by lra. lra. Qed.
