(** Specifications for the minimisation of eccentricities. *)
Require Import Reals List.
From Verif Require Import Base EC3_model Tjt_model Ecc_model.
Import ListNotations.
Local Open Scope R_scope.

(** Scalar product of two lists of the same length. *)
Fixpoint dotl (a b : list R) : R := match a, b with x :: a, y :: b => x * y + dotl a b | _, _ => 0 end.
(** Sum of two lists of the same length. *)
Fixpoint addl (a b : list R) : list R := match a, b with x :: a, y :: b => (x + y) :: addl a b | _, _ => [] end.
(** The values given to the local coordinates of joint p. *)
Definition given (vs : list evar) (xs : list R) (p : nat) (x y : R) : Prop :=
  (exists v, In (v, x) (combine vs xs) /\ v_joint v = p /\ v_isx v = true) /\
  (exists v, In (v, y) (combine vs xs) /\ v_joint v = p /\ v_isx v = false).
