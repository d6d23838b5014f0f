(** Specification of the checks in the apex zone of timber beams. *)
From Verif Require Export Apx_model Timber_spec.
Require Import List Bool. Import ListNotations.
Local Open Scope R_scope.

(** The sections [f], [g] next to the position [x] on either side. *)
Definition neighbours (secs : list tf) (x : R) (f g : tf) : Prop :=
  In f secs /\ In g secs /\ f_loc f < x < f_loc g /\ forall h, In h secs -> f_loc h <= f_loc f \/ f_loc g <= f_loc h.
(** The sections reach over the position [x]. *)
Definition reaches (secs : list tf) (x : R) : Prop :=
  exists f0 fl, hd_error secs = Some f0 /\ hd_error (rev secs) = Some fl /\ f_loc f0 <= x <= f_loc fl.
(** Bending stress of a rectangle and its shear stress (EN 1995-1-1, 6.1.6 and 6.1.7). *)
Definition bending_stress (m : tmem) (f : tf) : R := 6 * f_My f / (t_B m * t_H m (f_loc f) ^ 2).
(** Shear stress with the width reduced by cracks. *)
Definition shear_stress (m : tmem) (cr : R) (f : tf) : R := 3 * f_Vz f / (2 * (cr * t_B m) * t_H m (f_loc f)).
(** The last uniform load in y direction; 0 if there is none. *)
Definition last_uniform (ls : list tload) (p : R) : Prop :=
  (exists l1 l l2, ls = l1 ++ l :: l2 /\ tl_y l = true /\ tl_0 l = p /\ tl_1 l = p /\
     forall l', In l' l2 -> tl_y l' = false \/ tl_0 l' <> tl_1 l') \/
  (p = 0 /\ forall l', In l' ls -> tl_y l' = false \/ tl_0 l' <> tl_1 l').
(** The beam seen from the other side: sections in reverse order with shear forces of opposite sign. *)
Definition mirrored (secs : list tf) : list tf :=
  rev (map (fun f => mkTF (f_N f) (f_My f) (f_Mz f) (f_Vy f) (- f_Vz f) (f_T f) (1 - f_loc f)) secs).
