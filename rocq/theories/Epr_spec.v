(** Specification vocabulary for the constraints of end plate optimisation. *)
From Verif Require Export Epr_model.
Local Open Scope R_scope.

(** What the caller asks for: kN, kNm and percent. *)
Definition strong_in_bending (MEd : R) (r : resp) : Prop := 1000000 * MEd <= rM r.
Definition strong_in_shear (VEd : R) (r : resp) : Prop := 1000 * VEd <= rV r.
(** The stiffness in kNm/rad differs from the target by at most [dev] percent of it. *)
Definition near_target (dev St S : R) : Prop := Rabs (S / 1000000 - St) <= dev / 100 * St.
