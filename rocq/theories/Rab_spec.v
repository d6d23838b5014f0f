(** Specification for the exported outline of hollow sections. *)
Require Import Reals List. Import ListNotations.
Local Open Scope R_scope.

(** Distance of two points. *)
Definition dist2 (p q : R * R) : R := sqrt ((fst p - fst q) * (fst p - fst q) + (snd p - snd q) * (snd p - snd q)).
(** Length of a line through points. *)
Fixpoint path_len (l : list (R * R)) : R :=
  match l with a :: ((b :: _) as r) => dist2 a b + path_len r | _ => 0 end.
(** A point lies on the middle line of the wall of a hollow section of width W, height H, thickness T, outer corner
    radius R0: on a straight part or on the circle of radius R0 - T/2 about the centre of a corner. *)
Definition on_midline (W H T R0 : R) (p : R * R) : Prop :=
  let x := Rabs (fst p) in let y := Rabs (snd p) in
  (y = H/2 - T/2 /\ x <= W/2 - R0) \/ (x = W/2 - T/2 /\ y <= H/2 - R0) \/
  (W/2 - R0 <= x /\ H/2 - R0 <= y /\ (x - (W/2 - R0))^2 + (y - (H/2 - R0))^2 = (R0 - T/2)^2).
(** Area of the section: outer less inner rounded rectangle. *)
Definition hollow_area (W H T R0 : R) : R :=
  (W * H - (4 - PI) * R0^2) - ((W - 2*T) * (H - 2*T) - (4 - PI) * (R0 - T)^2).
