(** C33, C89: linearisation. *)
From Verif Require Import Linearize_spec Linearize_proofs.

(** C33: the linearisation has the original's value at the point, and leaves the
    variables as they were. *)
Theorem C33_value_reproduced : forall vs cons x, snd (linearize vs cons x) = x /\
  Forall2 (fun c r => length (fst r) = length (free_l vs) /\ affine_value r x = con_at vs c x) cons (fst (linearize vs cons x)).
Proof. exact linearize_value_lemma. Qed.
Print Assumptions C33_value_reproduced.
Theorem C33_affine_reproduced_partial : forall vs cons x, length x = length (free_l vs) ->
  (no_locks vs \/ Forall (fun c => match c with LinC _ _ => False | NonC _ => True end) cons) ->
  Forall (affine (length vs)) cons ->
  Forall2 (fun c r => forall y, length y = length x -> affine_value r y = con_at vs c y) cons (fst (linearize vs cons x)).
Proof. exact linearize_affine_lemma. Qed.
Print Assumptions C33_affine_reproduced_partial.
Example C33_ex : length [6; 1] = length (free_l [mkLv false 0 10; mkLv false 0 10]) /\
  no_locks [mkLv false 0 10; mkLv false 0 10] /\ Forall (affine 2) [LinC [1; 2] 5; NonC (fun y => dot [3; 4] y + 1)].
Proof.
  split; [reflexivity|]. split; [repeat constructor|]. repeat constructor.
  exists [3; 4], 1. split; auto.
Qed.
(** Finding: with a locked variable in front, the row of a linear constraint is
    shifted by one variable. *)
Theorem C33_locked_variable_refuted : exists vs a b x r xf y, length x = length (free_l vs) /\ length a = length vs /\
  linearize vs [LinC a b] x = ([r], xf) /\ length y = length x /\ affine_value r y <> con_at vs (LinC a b) y.
Proof. exact linearize_locks_refuted. Qed.
Print Assumptions C33_locked_variable_refuted.
(** The coefficient of a differentiable constraint is its slope at a point within
    the difference step. *)
Theorem C33_slope : forall vs f x i dphi, length x = length (free_l vs) -> (i < length x)%nat ->
  let h := fd_step (nth i x 0) (nth i (map lv_ub (free_l vs)) 0) in
  (forall t, Rmin (nth i x 0) (nth i x 0 + h) <= t <= Rmax (nth i x 0) (nth i x 0 + h) ->
     derivable_pt_lim (fun s => con_at vs (NonC f) (at_coord x i s)) t (dphi t)) ->
  exists r xf t, linearize vs [NonC f] x = ([r], xf) /\
    Rmin (nth i x 0) (nth i x 0 + h) < t < Rmax (nth i x 0) (nth i x 0 + h) /\ nth i (fst r) 0 = dphi t.
Proof. exact linearize_slope_lemma. Qed.
Print Assumptions C33_slope.
Example C33_slope_ex : forall t, derivable_pt_lim (fun s => con_at [mkLv false 0 10] (NonC (fun y => nth 0 y 0 * nth 0 y 0)) (at_coord [3] 0 s)) t (1 * t + t * 1).
Proof. intros t. unfold at_coord; simpl. apply (derivable_pt_lim_mult (fun s => s) (fun s => s)); apply derivable_pt_lim_id. Qed.
Theorem C33_step_size : forall v ub, Rabs (fd_step v ub) = Rmax (1 / 1000000 * Rabs v) (1 / 100000000).
Proof. exact fd_step_size_lemma. Qed.
Print Assumptions C33_step_size.
Theorem C33_step_inside_bounds : forall lb ub v, lb <= v <= ub -> 2 * Rmax (1 / 1000000 * Rabs v) (1 / 100000000) <= ub - lb ->
  lb <= v + fd_step v ub <= ub.
Proof. exact fd_step_inside_lemma. Qed.
Print Assumptions C33_step_inside_bounds.
Example C33_step_ex : 0 <= 10 <= 10 /\ 2 * Rmax (1 / 1000000 * Rabs 10) (1 / 100000000) <= 10 - 0.
Proof. split; [lra|]. rmx; lra. Qed.

(** C89: rows handed to the linear program. *)
Theorem C89_subproblem_rows_partial : forall vs cons x, length x = length (free_l vs) -> no_locks vs -> Forall (affine (length vs)) cons ->
  forall y, length y = length x ->
  (Forall (slp_row_ok y 0) (fst (linearize vs cons x)) <-> Forall (fun c => holds (CLt, con_at vs c y)) cons).
Proof. exact slp_rows_lemma. Qed.
Print Assumptions C89_subproblem_rows_partial.
Example C89_ex : length [6] = length (free_l [mkLv false 0 10]) /\ no_locks [mkLv false 0 10] /\ Forall (affine 1) [LinC [1] 5].
Proof. repeat split; repeat constructor. Qed.
(** Finding: a '>' constraint is handed over with the wrong direction. *)
Theorem C89_gt_rows_refuted : exists vs c x y, length x = length (free_l vs) /\ no_locks vs /\ affine (length vs) c /\
  length y = length x /\ Forall (slp_row_ok y 0) (fst (linearize vs [c] x)) /\ ~ holds (CGt, con_at vs c y).
Proof. exact slp_gt_lemma. Qed.
Print Assumptions C89_gt_rows_refuted.
