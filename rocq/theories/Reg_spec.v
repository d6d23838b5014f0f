(** Vocabulary of the statements about the registration of variables and constraints. *)
Require Import List.
Import ListNotations.
From Verif Require Export Reg_model.

(** [l'] is [l] with later repetitions left out: same elements, no repetition, and in the order of first appearance. *)
Inductive firsts : list nat -> list nat -> list nat -> Prop :=
| f_nil seen : firsts seen [] []
| f_new seen x l r : ~ In x seen -> firsts (seen ++ [x]) l r -> firsts seen (x :: l) (x :: r)
| f_old seen x l r : In x seen -> firsts seen l r -> firsts seen (x :: l) r.
(** Constraints are registered with add only. *)
Definition by_add (o : op) : Prop := match o with OAddConstraint _ => False | _ => True end.
