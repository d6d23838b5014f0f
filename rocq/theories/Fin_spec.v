(** Specification of fin plate joints: the elastic distribution of forces in a bolt group. *)
From Verif Require Import Base Fin_model.
Require Import Reals List.
Import ListNotations.
Local Open Scope R_scope.

(** Position of the i-th of n equally spaced bolts relative to their centre. *)
Definition grid_pos (n : nat) (p : R) (i : nat) : R := (INR i - (INR n - 1) / 2) * p.
(** The bolts of a pattern with n1 rows and n2 columns relative to the centre of the group. *)
Definition bolts (n1 n2 : nat) (p1 p2 : R) : list (R * R) :=
  flat_map (fun i => map (fun k => (grid_pos n2 p2 k, grid_pos n1 p1 i)) (seq 0 n2)) (seq 0 n1).
(** Polar second moment of the group. *)
Definition polar (l : list (R * R)) : R := Rsum (map (fun b => fst b ^ 2 + snd b ^ 2) l).
(** Vertical and horizontal force in a bolt under a vertical force V at the distance z from the centre,
    distributed elastically. *)
Definition force_v (l : list (R * R)) (V z : R) (b : R * R) : R := V / INR (length l) + V * z * fst b / polar l.
Definition force_h (l : list (R * R)) (V z : R) (b : R * R) : R := V * z * snd b / polar l.
(** The bolts of a joint. *)
Definition group (j : fin) : list (R * R) := bolts (p_n1 (j_p j)) (p_n2 (j_p j)) (p_py (j_p j)) (p_px (j_p j)).
(** One or two vertical rows of bolts at positive distances. *)
Definition standard (j : fin) : Prop :=
  (p_n2 (j_p j) = 1%nat /\ (2 <= p_n1 (j_p j))%nat \/ p_n2 (j_p j) = 2%nat /\ (1 <= p_n1 (j_p j))%nat /\ 0 < p_px (j_p j)) /\
  0 < p_py (j_p j) /\ 0 <= fz j.
