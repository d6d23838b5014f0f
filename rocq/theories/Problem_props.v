(** Properties C06, C08-C14, C87 (constraints, penalties, discrete variables). *)
From Verif Require Import Problem_proofs.

(** C06 *)
Theorem C06_feasible_iff_all_hold : forall (tol : R) (gs : list (ctype * R)),
  feasible tol gs = true <-> Forall (holds_within tol) gs.
Proof. exact feasible_iff_lemma. Qed.
Print Assumptions C06_feasible_iff_all_hold.
Theorem C06_feasible_order_independent : forall (tol : R) (gs gs' : list (ctype * R)),
  Permutation gs gs' -> feasible tol gs = feasible tol gs'.
Proof. exact feasible_perm_lemma. Qed.
Print Assumptions C06_feasible_order_independent.
Theorem C06_feasible_tolerance_monotone : forall (tol tol' : R) (gs : list (ctype * R)),
  tol <= tol' -> feasible tol gs = true -> feasible tol' gs = true.
Proof. exact feasible_mono_lemma. Qed.
Print Assumptions C06_feasible_tolerance_monotone.
Example C06_ex : 0 <= 1/10 /\ feasible 0 [(CLt, -1); (CGt, 2); (CEq, 0)] = true.
Proof. split; [lra|]. apply feasible_iff_lemma. repeat constructor; simpl; lra. Qed.

(** C08 *)
Theorem C08_exterior_penalty_exact_on_feasible_set :
  forall (Rw : R) (p : nat) (obj : R) (gs : list (ctype * R)) (vs : list bvar),
  0 < Rw -> Nat.Even p -> (1 <= p)%nat ->
  obj <= exterior_penalty Rw p obj gs vs /\
  (exterior_penalty Rw p obj gs vs = obj <-> Forall holds gs /\ Forall bounds_hold vs).
Proof. exact exterior_penalty_lemma. Qed.
Print Assumptions C08_exterior_penalty_exact_on_feasible_set.
Theorem C08_exterior_penalty_monotone_in_weight :
  forall (Rw Rw' : R) (p : nat) (obj : R) (gs : list (ctype * R)) (vs : list bvar),
  0 < Rw <= Rw' -> Nat.Even p -> (1 <= p)%nat ->
  exterior_penalty Rw p obj gs vs <= exterior_penalty Rw' p obj gs vs.
Proof. exact exterior_weight_mono_lemma. Qed.
Print Assumptions C08_exterior_penalty_monotone_in_weight.
Example C08_ex : 0 < 10 /\ Nat.Even 2 /\ (1 <= 2)%nat /\ Forall holds [(CLt, -1); (CGt, 2); (CEq, 0)] /\
  Forall bounds_hold [(1, 0, 2)].
Proof.
  split; [lra|]. split; [exists 1%nat; lia|]. split; [lia|].
  split; repeat constructor; simpl; unfold XLB, XUB in *; intros; lra.
Qed.
(** With an odd exponent a violated equality lowers the function. *)
Theorem C08_odd_exponent_refuted :
  exists Rw obj gs, 0 < Rw /\ ~ Forall holds gs /\ exterior_penalty Rw 3 obj gs [] < obj.
Proof. exact exterior_odd_refuted_lemma. Qed.
Print Assumptions C08_odd_exponent_refuted.

(** C09: full statement is the one below without the restriction on types. *)
Theorem C09_exact_penalty_partial : forall (Rw : R) (gs : list (ctype * R)) (vs : list bvar),
  0 < Rw -> Forall (fun c => fst c <> CGt) gs ->
  0 <= exact_penalty Rw gs vs /\
  (exact_penalty Rw gs vs = 0 <-> Forall holds gs /\ Forall bounds_hold vs).
Proof. exact exact_penalty_partial_lemma. Qed.
Print Assumptions C09_exact_penalty_partial.
Example C09_ex : 0 < 1 /\ Forall (fun c => fst c <> CGt) [(CLt, -1); (CEq, 3)].
Proof. split; [lra|]. repeat constructor; simpl; congruence. Qed.
Theorem C09_exact_penalty_refuted :
  exists Rw gs gs', 0 < Rw /\ ~ Forall holds gs /\ exact_penalty Rw gs [] < 0 /\
    (forall c, In c gs' -> ~ holds c) /\ gs' <> [] /\ exact_penalty Rw gs' [] = 0.
Proof. exact exact_penalty_refuted_lemma. Qed.
Print Assumptions C09_exact_penalty_refuted.

(** C10 *)
Theorem C10_inequality_multipliers_nonnegative :
  forall (Rineq Req : R) (cs : list (ctype * R * R)) (vs : list mvar) ms vs',
  update_lag_mult Rineq Req cs vs = (ms, vs') ->
  Forall2 (fun c m => fst (fst c) <> CEq -> 0 <= m) cs ms /\
  Forall2 (fun v v' => (XLB < m_lb v -> 0 <= m_lbm v') /\ (m_ub v < XUB -> 0 <= m_ubm v') /\
                       m_x v' = m_x v /\ m_lb v' = m_lb v /\ m_ub v' = m_ub v) vs vs'.
Proof. exact update_nonneg_lemma. Qed.
Print Assumptions C10_inequality_multipliers_nonnegative.
(** The new multiplier is (up to the sign convention of the type) the slope of
    the augmented-Lagrangian term at the current constraint value. *)
Theorem C10_update_is_slope_of_augmented_term :
  forall (ty : ctype) (Rineq Req mult val h : R),
  0 < Rineq -> 0 <= Req ->
  let s := match ty with CLt => 1 | CGt => -1 | CEq => -1 end in
  0 <= aug_term ty Rineq Req mult (val + h) - aug_term ty Rineq Req mult val
       - s * upd_mult ty Rineq Req mult val * h <= (Rineq + Req) * h ^ 2.
Proof. exact update_is_slope_lemma. Qed.
Print Assumptions C10_update_is_slope_of_augmented_term.
Theorem C10_lower_bound_multiplier : forall (Rineq : R) (v : mvar), XLB < m_lb v ->
  m_lbm (upd_bounds Rineq v) = Rmax (m_lbm v + 2 * Rineq * (m_lb v - m_x v)) 0.
Proof. exact lower_bound_own_lemma. Qed.
Print Assumptions C10_lower_bound_multiplier.
(** The same for the upper bound is false: it starts from the lower multiplier. *)
Theorem C10_upper_bound_multiplier_refuted :
  exists Rineq v, 0 < Rineq /\ XLB < m_lb v /\ m_ub v < XUB /\ m_lb v <= m_x v <= m_ub v /\
    0 <= m_lbm v /\ 0 <= m_ubm v /\
    m_ubm (upd_bounds Rineq v) <> Rmax (m_ubm v + 2 * Rineq * (m_x v - m_ub v)) 0.
Proof. exact upper_bound_refuted_lemma. Qed.
Print Assumptions C10_upper_bound_multiplier_refuted.
Theorem C10_upper_bound_multiplier_partial : forall (Rineq : R) (v : mvar), m_ub v < XUB ->
  m_lbm (upd_bounds Rineq v) = m_ubm v ->
  m_ubm (upd_bounds Rineq v) = Rmax (m_ubm v + 2 * Rineq * (m_x v - m_ub v)) 0.
Proof. exact upper_bound_partial_lemma. Qed.
Print Assumptions C10_upper_bound_multiplier_partial.
Example C10_ex : 0 < 1 /\ 0 <= 1 /\ XLB < m_lb (mkMvar 1 0 1 0 0) /\ m_ub (mkMvar 1 0 1 0 0) < XUB /\
  m_lbm (upd_bounds 1 (mkMvar 1 0 1 0 0)) = m_ubm (mkMvar 1 0 1 0 0).
Proof.
  unfold XLB, XUB; simpl. repeat split; try lra. unfold XLB. destruct (Rlt_dec _ 0); [|lra].
  rewrite Rmax_right; lra.
Qed.

(** C11 *)
Theorem C11_smaller_is_adjacent : forall (values : list R) (x v : R),
  smaller_value values x = Some v <->
  In v values /\ v < x /\ (forall w, In w values -> ~ (v < w < x)).
Proof. exact smaller_lemma. Qed.
Print Assumptions C11_smaller_is_adjacent.
Theorem C11_larger_is_adjacent : forall (values : list R) (x v : R),
  larger_value values x = Some v <->
  In v values /\ x < v /\ (forall w, In w values -> ~ (x < w < v)).
Proof. exact larger_lemma. Qed.
Print Assumptions C11_larger_is_adjacent.
Theorem C11_smaller_raises_iff_none_below : forall (values : list R) (x : R),
  smaller_value values x = None <-> forall v, In v values -> x <= v.
Proof. exact smaller_none_lemma. Qed.
Print Assumptions C11_smaller_raises_iff_none_below.
Theorem C11_larger_raises_iff_none_above : forall (values : list R) (x : R),
  larger_value values x = None <-> forall v, In v values -> v <= x.
Proof. exact larger_none_lemma. Qed.
Print Assumptions C11_larger_raises_iff_none_above.
Example C11_ex : smaller_value [5; 1; 3; 3] 4 = Some 3.
Proof. apply smaller_lemma. split; [simpl; auto|]. split; [lra|]. intros w [<-|[<-|[<-|[<-|[]]]]]; lra. Qed.

(** C12 *)
Theorem C12_discrete_violation_is_distance : forall (values : list R) (x viol : R),
  disc_violation values x = Some viol ->
  exists d, is_distance values x d /\ 0 <= viol /\ (viol = d \/ viol = 0 /\ d <= 1 / 1000) /\ (d > 1 / 1000 -> viol = d).
Proof. exact disc_violation_lemma. Qed.
Print Assumptions C12_discrete_violation_is_distance.
Theorem C12_allowed_discrete_has_no_violation : forall (values : list R) (x : R),
  disc_allowed values x = Some true -> disc_violation values x = Some 0.
Proof. exact disc_allowed_lemma. Qed.
Print Assumptions C12_allowed_discrete_has_no_violation.
Theorem C12_discrete_converse_refuted :
  exists values x, disc_violation values x = Some 0 /\ disc_allowed values x = Some false.
Proof. exact disc_converse_refuted_lemma. Qed.
Print Assumptions C12_discrete_converse_refuted.
Theorem C12_integer_violation_is_distance_partial : forall x : R,
  0 <= int_violation x /\
  (int_violation x = 0 <-> exists z, Rabs (x - IZR z) <= 1 / 10000) /\
  (int_violation x <> 0 -> forall z, int_violation x <= Rabs (x - IZR z)).
Proof. exact int_violation_lemma. Qed.
Print Assumptions C12_integer_violation_is_distance_partial.
Theorem C12_integer_allowed_iff_no_violation : forall lb ub x : R,
  -100000 <= lb -> ub <= 100000 ->
  (int_allowed lb ub x = true <-> lb <= x <= ub /\ int_violation x = 0).
Proof. exact int_allowed_lemma. Qed.
Print Assumptions C12_integer_allowed_iff_no_violation.
Theorem C12_integer_large_values_refuted :
  exists lb ub x, lb <= x <= ub /\ int_allowed lb ub x = true /\ int_violation x <> 0.
Proof. exact int_allowed_refuted_lemma. Qed.
Print Assumptions C12_integer_large_values_refuted.
Example C12_ex : disc_allowed [1; 2] 2 = Some true /\ -100000 <= 0 /\ 7 <= 100000.
Proof.
  split; [|lra]. unfold disc_allowed, list_min, list_max; simpl.
  rewrite (Rmin_left 1 2), (Rmax_right 1 2) by lra. rewrite (Rabs_left (1-2)), (Rabs_right (2-2)) by lra.
  rewrite Rmin_right by lra. f_equal. rdec; try lra. apply Rltb_true. unfold INT_TOL; lra.
Qed.

(** C13 *)
Theorem C13_binary_reformulation : forall (K : nat) (vars : list ivar) (sigma : tag -> R),
  binaries_01 vars sigma ->
  ((forall c, In c (gen_cons K (final_vars K vars) 0 vars) -> satisfies (final_vars K vars) sigma c) <->
   (forall g profs, nth_error vars g = Some (Some profs) -> exists j, selects K sigma g profs j)).
Proof. exact index2binary_lemma. Qed.
Print Assumptions C13_binary_reformulation.
Theorem C13_selected_profile_unique : forall K sigma g profs j j',
  selects K sigma g profs j -> selects K sigma g profs j' -> j = j'.
Proof. exact selects_unique. Qed.
Print Assumptions C13_selected_profile_unique.
Example C13_ex : let vars := [None; Some [[10]; [20]]] in
  let sigma := fun t => match t with TBin 1 1 => 1 | TProp 1 0 => 20 | _ => 0 end in
  binaries_01 vars sigma /\ selects 1 sigma 1 [[10]; [20]] 1.
Proof.
  cbv zeta. split.
  - intros [|[|g]] profs j N L; simpl in N; try discriminate; [|destruct g; discriminate].
    injection N as <-. simpl in L. destruct j as [|[|j]]; simpl; auto; lia.
  - repeat split; auto.
    + intros [|[|j]] L D; simpl in *; auto; lia.
    + intros [|k] L; [|lia]. simpl. unfold roundn. replace (20 * 10 ^ 3) with (IZR 20000) by (simpl; lra).
      rewrite roundZ_IZR. simpl; lra.
Qed.

(** C14 *)
Theorem C14_potentially_active_exactly : forall (gs : list (ctype * R)) (n : nat),
  In n (potentially_active gs) <->
  exists c, nth_error gs n = Some c /\
    match c with (CEq, _) => True | (CLt, g) => - (25/100) < g | (CGt, g) => g < 25/100 end.
Proof. exact pot_active_lemma. Qed.
Print Assumptions C14_potentially_active_exactly.
Theorem C14_violated_are_potentially_active : forall (gs : list (ctype * R)) (n : nat) c,
  nth_error gs n = Some c -> ~ holds_strictly c -> In n (potentially_active gs).
Proof. exact pot_active_violated_lemma. Qed.
Print Assumptions C14_violated_are_potentially_active.
Example C14_ex : nth_error [(CLt, -1); (CGt, -2)] 1 = Some (CGt, -2) /\ ~ holds_strictly (CGt, -2).
Proof. split; [reflexivity|simpl; lra]. Qed.

(** C87 *)
Theorem C87_inverse_barrier : forall (Rw obj : R) (gs : list (ctype * R)) (vs : list bvar),
  0 < Rw -> Forall holds_strictly gs -> Forall bounds_hold_strictly vs ->
  obj <= inverse_barrier Rw obj gs vs /\
  (forall ty g M, In (ty, g) gs -> ty <> CEq -> 0 < M -> Rabs g <= 1 / (Rw * M) ->
     obj + M <= inverse_barrier Rw obj gs vs).
Proof. exact inverse_barrier_lemma. Qed.
Print Assumptions C87_inverse_barrier.
Example C87_ex : 0 < 1 /\ Forall holds_strictly [(CLt, -1); (CGt, 2)] /\ Forall bounds_hold_strictly [(1, 0, 2)].
Proof. split; [lra|]. split; repeat constructor; simpl; intros; lra. Qed.
