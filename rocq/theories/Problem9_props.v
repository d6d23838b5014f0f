(** Further theorems about C09, C10, C13 and C87. *)
From Verif Require Import Base Problem_proofs Problem9_proofs.
From Verif Require Import Problem_model Problem_spec.

(** C09: '>' constraints reduce the penalty by what they are violated. *)
Theorem C09_gt_value : forall Rw gs, 0 <= Rw -> Forall (fun c => fst c = CGt) gs ->
  exact_penalty Rw gs [] = - (Rw * Rsum (map (fun c => Rmax 0 (- snd c)) gs)) /\ exact_penalty Rw gs [] <= 0.
Proof. exact exact_gt_lemma. Qed.
Print Assumptions C09_gt_value.
Example C09_gt_ex : exact_penalty 2 [(CGt, -3)] [] <= 0.
Proof. apply exact_gt_lemma; [lra|repeat constructor]. Qed.
(** C10: the augmented Lagrangian is built from the updated multipliers. *)
Theorem C10_augmented_terms : forall Rineq Req mult val, 0 < Rineq -> 0 < Req ->
  4 * Rineq * aug_term CLt Rineq Req mult val = upd_mult CLt Rineq Req mult val ^ 2 /\
  4 * Rineq * aug_term CGt Rineq Req mult val = upd_mult CGt Rineq Req mult val ^ 2 /\
  4 * Req * aug_term CEq Rineq Req mult val = upd_mult CEq Rineq Req mult val ^ 2 - mult ^ 2 /\
  4 * Rineq * aug_bound Rineq mult val = Rmax (mult + 2 * Rineq * val) 0 ^ 2.
Proof. exact aug_terms_lemma. Qed.
Print Assumptions C10_augmented_terms.
Example C10_aug_ex : 4 * 2 * aug_bound 2 1 3 = Rmax (1 + 2 * 2 * 3) 0 ^ 2.
Proof. apply (aug_terms_lemma 2 1 1 3); lra. Qed.
(** C13: the variables that are kept are those without a catalogue. *)
Theorem C13_kept_variables : forall K vars j, In (TOther j) (final_vars K vars) <-> nth_error vars j = Some None.
Proof. exact kept_variables_lemma. Qed.
Print Assumptions C13_kept_variables.
Example C13_kept_ex : In (TOther 1) (final_vars 2 [Some [[1; 2]]; None]).
Proof. apply kept_variables_lemma. reflexivity. Qed.
(** C87 *)
Theorem C87_value : forall Rw obj gs vs, 0 < Rw -> Forall holds_strictly gs -> Forall bounds_hold_strictly vs ->
  inverse_barrier Rw obj gs vs = obj + Rsum (map (fun s => / (Rw * s)) (slacks gs vs)).
Proof. exact inverse_value_lemma. Qed.
Print Assumptions C87_value.
Example C87_value_ex : slacks [(CLt, -2); (CGt, 3)] [] = [- -2; 3] /\ Forall holds_strictly [(CLt, -2); (CGt, 3)].
Proof. split; [reflexivity|]. repeat constructor; unfold holds_strictly; cbn; lra. Qed.
