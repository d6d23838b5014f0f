(** Vocabulary of the statements about runs of the particle swarm solver. *)
Require Import Reals List.
From Verif Require Export Swarm_model.
Local Open Scope R_scope.

(** The updates [j, j+n) found no better solution. *)
Definition idle (imp : nat -> bool) (j n : nat) : Prop := forall k, (j <= k < j + n)%nat -> imp k = false.
(** The number of improvements among the updates 1 .. n. *)
Fixpoint improvements (imp : nat -> bool) (n : nat) : nat :=
  match n with O => O | S m => (if imp (S m) then 1 else 0) + improvements imp m end.
(** Position within the bounds, velocity within a fifth of the range. *)
Definition in_box (c : coord) : Prop :=
  c_lb c <= c_x c <= c_ub c /\ - ((c_ub c - c_lb c) / 5) <= c_v c <= (c_ub c - c_lb c) / 5.
