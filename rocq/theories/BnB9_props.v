(** Further theorems about C20. *)
From Verif Require Import Base Problem_proofs BnB9_proofs.
From Verif Require Import BnB_model BnB_spec.

Theorem C20_branching_variable : forall vs xR cur mx j p xr, choose_loop 0 vs xR (None, 0) = Some (cur, mx) -> cur = Some (j, p, xr) ->
  exists v, nth_error vs j = Some v /\ b_kind v <> BCont /\ exists viol, violation v xr = Some viol /\ 0 < viol.
Proof. exact branch_variable_lemma. Qed.
Print Assumptions C20_branching_variable.
Theorem C20_allowed_integer : forall v b x, -100000 <= fst b -> snd b <= 100000 -> b_kind v = BInt ->
  (allowed v b x = Some true <-> fst b <= x <= snd b /\ exists z, Rabs (x - IZR z) <= 1 / 10000).
Proof. exact allowed_lemma. Qed.
Print Assumptions C20_allowed_integer.
Theorem C20_all_allowed : forall vs, forall bx xR b, all_allowed vs bx xR = Some b ->
  (b = true <-> forall i v d x, nth_error vs i = Some v -> nth_error bx i = Some d -> nth_error xR i = Some x -> allowed v d x = Some true).
Proof. exact all_allowed_lemma. Qed.
Print Assumptions C20_all_allowed.
Example C20_allowed_ex : exists v, b_kind v = BInt /\ allowed v (0, 5) 3 = Some true.
Proof.
  eexists (mkBv BInt 0%Z). split; [reflexivity|]. apply allowed_lemma; cbn; try lra; auto. split; [lra|]. exists 3%Z. rewrite Rminus_eq_0, Rabs_R0. lra.
Qed.
