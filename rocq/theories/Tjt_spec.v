(** Specifications for the joints of tubular trusses. *)
Require Import Reals List.
From Verif Require Import Base EC3_model Rhs_model Tjt_model.
Local Open Scope R_scope.

(** A vector of length one. *)
Definition unit_vec (v : pt) : Prop := fst v * fst v + snd v * snd v = 1.
(** The vector of length one at the angle a (radians) from the direction v, counterclockwise. *)
Definition turned (v : pt) (a : R) : pt := (fst v * cos a - snd v * sin a, fst v * sin a + snd v * cos a).
(** Mirror image of a point with respect to the line x = s, and of a vector. *)
Definition mirror_pt (s : R) (p : pt) : pt := (2 * s - fst p, snd p).
Definition mirror_vec (v : pt) : pt := (- fst v, snd v).
(** Two joints at mirrored nodes whose chords run from left to right in mirrored directions, on the same chord. *)
Definition mirrored_joints (s : R) (j k : kj) : Prop :=
  j_node k = mirror_pt s (j_node j) /\ j_v k = mirror_vec (- fst (j_v j), - snd (j_v j)) /\ j_top k = j_top j.
(** Coordinate along a direction from a point. *)
Definition along (o v p : pt) : R := (fst p - fst o) * fst v + (snd p - snd o) * snd v.
(** Distance between two points. *)
Definition pdist (p q : pt) : R := sqrt ((fst q - fst p) ^ 2 + (snd q - snd p) ^ 2).
