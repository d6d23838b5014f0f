(** Specification for the incremental second order analysis and the mode shapes. *)
Require Import Reals List Bool PeanoNat. Import ListNotations.
From Verif Require Import Base Mat.
Local Open Scope R_scope.

(** Sum of the load vectors of a case with all factors one. *)
Definition unit_load (lc : nat) (ls : list (nat * vec)) (j : nat) : R :=
  Rsum (map (fun l => snd l j) (filter (fun l => Nat.eqb (fst l) lc) ls)).
(** Displacements of the linear analysis of those loads. *)
Definition unit_disp (n : nat) (S : nat -> nat -> R) (lc : nat) (ls : list (nat * vec)) (i : nat) : R :=
  sumn n (fun j => S i j * unit_load lc ls j).
(** Number of degrees of freedom below [d] that are not supported: the row of [d] in the reduced system. *)
Fixpoint reduced_row (supp : list nat) (d : nat) : nat :=
  match d with O => O | S d => (reduced_row supp d + (if in_dec Nat.eq_dec d supp then 0 else 1))%nat end.
