(** Specification vocabulary for the two-phase solver. *)
From Verif Require Export Tph_model.
Require Import List PeanoNat. Import ListNotations.
Local Open Scope R_scope.

(** [b] is the only value nearest to [x]. *)
Definition only_nearest (b x : R) (l : list R) : Prop := In b l /\ forall v, In v l -> v <> b -> Rabs (b - x) < Rabs (v - x).
(** Position [j] holds a nearest value. *)
Definition nearest_at (j : nat) (x : R) (l : list R) : Prop := exists b, nth_error l j = Some b /\ forall v, In v l -> Rabs (b - x) <= Rabs (v - x).
(** Ascending lists without repetition. *)
Fixpoint ascending (l : list R) : Prop := match l with [] => True | a :: r => (forall b, In b r -> a < b) /\ ascending r end.
