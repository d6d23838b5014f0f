(** Vocabulary of the statements about linearisation. *)
From Verif Require Export Linearize_model Solvers_spec.

(** The function a constraint computes is affine in the full vector. *)
Definition affine (n : nat) (c : lcon) : Prop :=
  match c with
  | LinC a _ => length a = n
  | NonC f => exists a d, length a = n /\ forall y, length y = n -> f y = dot a y + d
  end.
(** No variable is locked. *)
Definition no_locks (vs : list lvar) : Prop := Forall (fun v => lv_locked v = false) vs.
(** Coordinate i replaced by t. *)
Definition at_coord (x : list R) (i : nat) (t : R) : list R := set_nth i t x.
(** Value of the affine function with row r at y. *)
Definition affine_value (r : list R * R) (y : list R) : R := dot (fst r) y - snd r.
