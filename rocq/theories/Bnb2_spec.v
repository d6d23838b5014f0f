(** Vocabulary of the statements about nodes of branch and bound. *)
Require Import Reals List.
Import ListNotations.
From Verif Require Export Bnb2_model.
Local Open Scope R_scope.

(** Bounds of the variable coincide to the tolerance. *)
Definition pinned (v : nvar) : Prop := Rabs (n_up v - n_lo v) < 1 / 1000000.
(** The entries of a vector that belong to variables that are not pinned, in order. *)
Inductive rest : list nvar -> list R -> list R -> Prop :=
| r_nil : rest [] [] []
| r_pin v vs x xs ys : pinned v -> rest vs xs ys -> rest (v :: vs) (x :: xs) ys
| r_free v vs x xs ys : ~ pinned v -> rest vs xs ys -> rest (v :: vs) (x :: xs) (x :: ys).
(** Points within bounds that satisfy [P]. *)
Definition point_of (P : list R -> Prop) (bx : bounds) (x : list R) : Prop :=
  Forall2 (fun b a => fst b <= a <= snd b) bx x /\ P x.
(** A linear-programming solver that is exact: no answer only if there is no point, otherwise a point at which variable
    [i] has its smallest ([true]) or largest value. *)
Definition exact_lp (P : list R -> Prop) (lp : bool -> nat -> bounds -> option (list R)) : Prop :=
  forall mn i bx, (i < length bx)%nat ->
    match lp mn i bx with
    | None => forall x, ~ point_of P bx x
    | Some x => point_of P bx x /\ forall y, point_of P bx y -> if mn then nth i x 0 <= nth i y 0 else nth i y 0 <= nth i x 0
    end.
