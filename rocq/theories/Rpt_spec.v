(** Specification vocabulary for the report of constraints. *)
From Verif Require Export Rpt_model.
Require Import List PeanoNat Permutation. Import ListNotations.
Local Open Scope R_scope.

(** Value of constraint [i]. *)
Definition val (cs : list rcon) (i : nat) : R := nth i (map snd cs) 0.
(** Contract of numpy.argpartition(g, -k): all indices, those of the [k] largest values last. *)
Definition partitioned (cs : list rcon) (k : nat) (part : list nat) : Prop :=
  Permutation part (seq 0 (length cs)) /\
  forall i j, In i (firstn (length cs - k) part) -> In j (skipn (length cs - k) part) -> val cs i <= val cs j.
(** A constraint does not hold. *)
Definition violated (c : rcon) : Prop := match fst c with Clt => 0 < snd c | Cgt => snd c < 0 | Ceq => snd c <> 0 end.
(** Constraint [i] of the problem does not hold. *)
Definition violated_at (cs : list rcon) (i : nat) : Prop := exists c, nth_error cs i = Some c /\ violated c.
(** Constraint [i] comes before [j] in the report: by a larger value, or a larger number at equal values. *)
Definition before (cs : list rcon) (i j : nat) : Prop := val cs j < val cs i \/ (val cs j = val cs i /\ (j <= i)%nat).
