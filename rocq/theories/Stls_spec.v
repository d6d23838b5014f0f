(** Specification of the stress-strain relation of stainless steel. *)
Require Import Reals.
Local Open Scope R_scope.

(** Data for which the relation is meant: strain at the proof strength ec = f/E + 0.002. *)
Definition ss_ok (f E Ec eu fu : R) : Prop :=
  0 < f /\ 0 < E /\ 0 < Ec /\ f <= fu /\ f / E + 2/1000 < eu /\ 2 * (fu - f) < (eu - (f / E + 2/1000)) * Ec.
