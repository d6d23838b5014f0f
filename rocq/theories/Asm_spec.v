(** Vocabulary of the statements about sub-problems. *)
Require Import Reals List.
Import ListNotations.
From Verif Require Export Asm_model Approx_spec.
Local Open Scope R_scope.

(** Type of a constraint. *)
Definition type_of (c : acon) : atype := match c with ALin _ _ t => t | ANon _ _ t => t end.
(** No variable is locked. *)
Definition none_locked (vs : list avar) : Prop := Forall (fun v => av_locked v = false) vs.
(** The expansion point is admissible: positive for the convex linearisation, strictly between the asymptotes otherwise. *)
Definition admissible (k : sub) (L U x : list R) : Prop :=
  match k with SConlin => Approx_spec.positive x | _ => length L = length x /\ length U = length x /\ between L x U end.
(** A given gradient has one entry per free variable. *)
Definition sized (g : option (list R -> list R)) : Prop :=
  match g with None => True | Some g => forall x, length (g x) = length x end.
(** On [0, h] beyond [a] the function has two derivatives, the second one of size at most [M]. *)
Definition smooth (phi d1 d2 : R -> R) (a h M : R) : Prop :=
  forall t, a <= t <= a + h -> derivable_pt_lim phi t (d1 t) /\ derivable_pt_lim d1 t (d2 t) /\ Rabs (d2 t) <= M.
