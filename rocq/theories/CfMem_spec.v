(** Vocabulary of the statements about cold-formed members. *)
Require Import Reals List.
From Verif Require Export EC3_spec CfMem_model.
Local Open Scope R_scope.

Definition cf_ok (m : cfm) : Prop :=
  0 < f_Aeff m /\ 0 < f_fy m /\ 0 < f_E m /\ 0 < f_G m /\ 0 < f_Iy m /\ 0 < f_Iz m /\ 0 < f_It m /\ 0 <= f_Iw m /\ 0 < f_h m /\
  0 <= f_ay m <= 1 /\ 0 <= f_az m <= 1 /\ 0 < f_L m /\ 0 < f_ky m /\ 0 < f_kz m.
(** Critical load of an Euler column of length l. *)
Definition euler (EI l : R) : R := PI ^ 2 * EI / l ^ 2.
(** The same member with another length. *)
Definition with_length (m : cfm) (L : R) : cfm :=
  mkCf (f_Aeff m) (f_fy m) (f_E m) (f_G m) (f_Iy m) (f_Iz m) (f_It m) (f_Iw m) (f_h m) (f_ay m) (f_az m) L (f_ky m) (f_kz m).
(** EN 1993-1-1, 6.3.1.1-6.3.1.2 with the effective area: N = chi A f, where chi is 1 up to the slenderness 0.2 and
    1/chi solves the Ayrton-Perry equation beyond. *)
Definition reduced (A f Ncr al N : R) : Prop :=
  exists l chi, 0 <= l /\ l ^ 2 * Ncr = A * f /\ N = chi * (A * f) /\ 0 < chi <= 1 /\ (l <= 2/10 -> chi = 1) /\ (2/10 <= l -> perry al l (1 / chi)).
