(** Specification of the load vector, without the loops of the model. *)
From Verif Require Export Elr_model.
Require Import List ZArith. Import ListNotations.
Local Open Scope R_scope.

(** Forces and degrees of freedom of a load. *)
Definition forces (l : fload) : list R := match l with PointL _ f v _ => map (Rmult f) v | LineL _ _ F _ => F end.
Definition freedoms (l : fload) : list Z := match l with PointL _ _ _ d => d | LineL _ _ _ d => d end.
(** Force of a load along the degree of freedom with number [i]. *)
Definition share (l : fload) (i : nat) : R :=
  Rsum (map (fun p => if Z.eq_dec (fst p) (Z.of_nat i) then snd p else 0) (combine (freedoms l) (forces l))).
(** A load fits the model: a force per degree of freedom, numbers below [n], no free one twice. *)
Definition fits (n : nat) (l : fload) : Prop :=
  length (forces l) = length (freedoms l) /\ (forall d, In d (freedoms l) -> (d < Z.of_nat n)%Z) /\
  forall i j d, nth_error (freedoms l) i = Some d -> nth_error (freedoms l) j = Some d -> (0 <= d)%Z -> i = j.
(** A line load on an element that is not a plane beam. *)
Definition off_beam (l : fload) : Prop := match l with PointL _ _ _ _ => False | LineL _ k _ _ => k <> Kbeam end.
