(** C13, interaction with locked variables. *)
From Verif Require Import OptVars_proofs Problem2_proofs.

(** index2binary sizes its rows by the unlocked variables (opt_functions.py:287),
    but a linear constraint is evaluated over all variables: with any locked
    variable every generated constraint raises. *)
Theorem C13_locked_variable_always_raises : forall (a : list R) (b : R) (vs : list var) (x : list R),
  length a = length (free_vars vs) -> locked_vars vs <> [] -> lin_call a b vs x = None.
Proof. exact short_row_raises_lemma. Qed.
Print Assumptions C13_locked_variable_always_raises.
Example C13_locked_ex : let vs := [plainvar 0 10 (Some 5) true; plainvar 0 10 (Some 2) false] in
  length [1] = length (free_vars vs) /\ locked_vars vs <> [].
Proof. split; [reflexivity|discriminate]. Qed.
