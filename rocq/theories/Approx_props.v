(** C15-C19: convex separable approximations (CONLIN, MMA). *)
From Verif Require Import Approx_spec Approx_proofs.

(** C15 *)
Theorem C15_conlin_matches_value_and_gradient : forall (xk : list R) (fk : R) (dfk : list R),
  positive xk -> length dfk = length xk ->
  conlin xk fk dfk xk = fk /\
  forall i, (i < length xk)%nat -> partial_deriv (conlin xk fk dfk) xk i (nth i dfk 0).
Proof. exact conlin_interpolates_lemma. Qed.
Print Assumptions C15_conlin_matches_value_and_gradient.
Theorem C15_conlin_conservative : forall (xk : list R) (fk : R) (dfk x : list R),
  positive xk -> positive x -> length dfk = length xk -> length x = length xk ->
  first_order xk fk dfk x <= conlin xk fk dfk x /\
  reciprocal xk fk dfk x <= conlin xk fk dfk x.
Proof. exact conlin_conservative_lemma. Qed.
Print Assumptions C15_conlin_conservative.
Example C15_ex : positive [1; 2] /\ positive [3; 1/2] /\ length [1; -1] = length [1; 2].
Proof. unfold positive; repeat split; repeat constructor; lra. Qed.

(** C16 *)
Theorem C16_conlin_convex : forall (xk : list R) (fk : R) (dfk : list R),
  positive xk -> length dfk = length xk ->
  convex_on (length xk) positive (conlin xk fk dfk).
Proof. exact conlin_convex_lemma. Qed.
Print Assumptions C16_conlin_convex.
Example C16_ex : positive [1; 2] /\ length [5; -1] = length [1; 2].
Proof. unfold positive; split; repeat constructor; lra. Qed.

(** C17 *)
Theorem C17_mma_matches_value : forall (xk : list R) (fk : R) (dfk L U : list R),
  same_len xk dfk L U -> mma xk fk dfk L U xk = fk.
Proof. exact mma_value_lemma. Qed.
Print Assumptions C17_mma_matches_value.
Theorem C17_mma_gradient_correct : forall (xk : list R) (fk : R) (dfk L U x : list R),
  same_len xk dfk L U -> length x = length xk -> between L x U ->
  forall i, (i < length xk)%nat ->
  partial_deriv (mma xk fk dfk L U) x i (nth i (mma_grad xk dfk L U x) 0).
Proof. exact mma_grad_lemma. Qed.
Print Assumptions C17_mma_gradient_correct.
Theorem C17_mma_gradient_at_expansion_point : forall (xk dfk L U : list R),
  same_len xk dfk L U -> between L xk U -> mma_grad xk dfk L U xk = dfk.
Proof. exact mma_grad_at_lemma. Qed.
Print Assumptions C17_mma_gradient_at_expansion_point.
Theorem C17_mma_convex : forall (xk : list R) (fk : R) (dfk L U : list R),
  same_len xk dfk L U -> between L xk U ->
  convex_on (length xk) (fun x => between L x U) (mma xk fk dfk L U).
Proof. exact mma_convex_lemma. Qed.
Print Assumptions C17_mma_convex.
Example C17_ex : same_len [1; 2] [3; -4] [0; 0] [5; 6] /\ between [0; 0] [1; 2] [5; 6].
Proof. unfold same_len, between; repeat split; repeat constructor; lra. Qed.

(** C18: after any number of iterations, whatever points the sub-problem solver
    returned, every recorded asymptote pair encloses its iterate; no index
    error occurs. *)
Theorem C18_asymptotes_enclose_iterate : forall (Dx x0 : list R) (xs : list (list R)),
  length x0 = length Dx -> Forall (fun d => 0 < d) Dx ->
  Forall (fun x => length x = length Dx) xs ->
  exists recs, mma_run Dx xs (mma_start x0) = Some recs /\
    map (fun r => fst (fst r)) recs = firstn (length xs) (x0 :: xs) /\
    Forall (fun r => encloses Dx (fst (fst r)) (snd (fst r)) (snd r)) recs.
Proof. exact mma_start_lemma. Qed.
Print Assumptions C18_asymptotes_enclose_iterate.
Example C18_ex : length [1; 1] = length [2; 3] /\ Forall (fun d => 0 < d) [2; 3] /\
  Forall (fun x : list R => length x = length [2; 3]) [[1; 2]; [0; 0]; [5; 5]].
Proof. repeat split; repeat constructor; lra. Qed.

(** C19: the intended statement fails for negative lower asymptotes: after four
    iterations inside the bounds the sub-problem's lower bound lies below the
    lower asymptote, so the pole of the approximation is inside the sub-problem. *)
Theorem C19_negative_asymptote_refuted :
  exists vlb vub x0 xs recs x L U,
    vlb < vub /\ Forall (fun v => vlb <= hd 0 v <= vub) (x0 :: xs) /\
    mma_run [vub - vlb] xs (mma_start x0) = Some recs /\ In ([x], [L], [U]) recs /\
    vlb <= sub_lb vlb vub L x /\ sub_lb vlb vub L x < L < sub_ub vlb vub U x.
Proof. exact sub_lb_refuted_lemma. Qed.
Print Assumptions C19_negative_asymptote_refuted.
(** Missing from the full property: iterates not exceeding |L|. *)
Theorem C19_subproblem_bounds_partial : forall vlb vub L U x : R,
  L < x < U -> Rabs L < x -> vlb <= x <= vub -> vlb < vub ->
  vlb <= sub_lb vlb vub L x /\ sub_ub vlb vub U x <= vub /\
  L < sub_lb vlb vub L x <= x /\ x <= sub_ub vlb vub U x < U.
Proof. exact sub_bounds_lemma. Qed.
Print Assumptions C19_subproblem_bounds_partial.
Example C19_ex : 1 < 2 < 5 /\ Rabs 1 < 2 /\ 0 <= 2 <= 10 /\ 0 < 10.
Proof. rewrite Rabs_R1; lra. Qed.
(** The upper bound is right without restriction. *)
Theorem C19_upper_bound : forall vlb vub U x : R, x < U -> vlb <= x <= vub -> vlb < vub ->
  x <= sub_ub vlb vub U x < U /\ sub_ub vlb vub U x <= vub.
Proof. exact sub_upper_lemma. Qed.
Print Assumptions C19_upper_bound.
(** The older OptimizationProblem.mma is right for all signs. *)
Theorem C19_problem_mma_bounds : forall mu vlb vub L U x : R,
  0 < mu <= 1 -> L < x < U -> vlb <= x <= vub ->
  vlb <= sub_lb' mu vlb L x /\ sub_ub' mu vub U x <= vub /\
  L < sub_lb' mu vlb L x <= x /\ x <= sub_ub' mu vub U x < U.
Proof. exact sub_bounds'_lemma. Qed.
Print Assumptions C19_problem_mma_bounds.
Example C19_ex2 : 0 < 8/10 <= 1 /\ -5 < -4 < -3 /\ -10 <= -4 <= 10.
Proof. lra. Qed.
