(** C25-C32, C88: iterative solvers, swarm, grid search, two-phase and discrete neighbourhood. *)
From Verif Require Import Solvers_spec Solvers_proofs Solvers2_proofs.

(** C25: a new solver returns the best feasible iterate, or the last iterate if
    none was feasible. *)
Theorem C25_returns_best_feasible_iterate : forall P act late maxiter x0 bf bx states, ordered (op_bounds P) -> length x0 = length (op_bounds P) ->
  osolve P act late maxiter None None x0 = Some (bf, bx, states) ->
  Forall (inside (op_bounds P)) states /\
  bf = Some (op_f P bx) /\
  ((exists x, In x states /\ ok_at P x) ->
     In bx states /\ ok_at P bx /\ forall x, In x states -> ok_at P x -> op_f P bx <= op_f P x) /\
  ((forall x, In x states -> ~ ok_at P x) -> bx = last states x0).
Proof. exact solve_best_lemma. Qed.
Print Assumptions C25_returns_best_feasible_iterate.
(** C25: the run raises nothing when the directions have the right length. *)
Theorem C25_run_is_total : forall P act late maxiter x0, ordered (op_bounds P) -> length x0 = length (op_bounds P) ->
  (forall k, length (act k) = length (op_bounds P)) ->
  exists r, osolve P act late maxiter None None x0 = Some r.
Proof. exact solve_total_lemma. Qed.
Print Assumptions C25_run_is_total.
Definition c25P : oprob := mkOp (fun x => nth 0 x 0) [(CLt, fun x => 1 - nth 0 x 0)] (1/10000) [(0, 10)].
Example C25_ex : ordered (op_bounds c25P) /\ length [5] = length (op_bounds c25P) /\
  exists r, osolve c25P (fun _ => [-1]) (fun _ => false) 3 None None [5] = Some r.
Proof.
  split; [repeat constructor; simpl; lra|]. split; [reflexivity|].
  apply C25_run_is_total; try reflexivity. repeat constructor; simpl; lra.
Qed.
(** Finding: the starting point is not an iterate; a feasible start better than
    every visited point is lost. *)
Theorem C25_better_start_lost_refuted : exists P act maxiter x0 bf bx states,
  ordered (op_bounds P) /\ inside (op_bounds P) x0 /\ ok_at P x0 /\
  osolve P act (fun _ => false) maxiter None None x0 = Some (bf, bx, states) /\ op_f P x0 < op_f P bx.
Proof. exact start_ignored_refuted. Qed.
Print Assumptions C25_better_start_lost_refuted.
(** Finding: a solver object that is used a second time returns the best point of
    the earlier run, although the new run visited feasible points. *)
Theorem C25_reused_solver_refuted : exists P act maxiter bf0 bx0 x0 bf bx states,
  ordered (op_bounds P) /\ inside (op_bounds P) x0 /\ (exists x, In x states /\ ok_at P x) /\
  osolve P act (fun _ => false) maxiter (Some bf0) (Some bx0) x0 = Some (bf, bx, states) /\
  ~ In bx states /\ ~ inside (op_bounds P) bx /\ bf <> Some (op_f P bx).
Proof. exact reuse_refuted. Qed.
Print Assumptions C25_reused_solver_refuted.

(** C26 *)
Theorem C26_step_stays_in_bounds : forall bounds x a, length x = length bounds -> length a = length bounds -> ordered bounds ->
  exists y, ostep bounds x a = Some y /\ inside bounds y.
Proof. exact step_inside_lemma. Qed.
Print Assumptions C26_step_stays_in_bounds.
Theorem C26_inside_step_unchanged : forall bounds x a y, vadd x a = Some y -> inside bounds y -> ostep bounds x a = Some y.
Proof. exact step_exact_lemma. Qed.
Print Assumptions C26_inside_step_unchanged.
(** The point reached is, in every coordinate, the nearest one in the bounds. *)
Theorem C26_step_nearest : forall bounds x a y, vadd x a = Some y -> length y = length bounds -> ordered bounds ->
  exists z, ostep bounds x a = Some z /\
    forall w, inside bounds w -> Forall2 Rle (map Rabs (vsub y z)) (map Rabs (vsub y w)).
Proof. exact step_nearest_lemma. Qed.
Print Assumptions C26_step_nearest.
Example C26_ex : ostep [(0, 10); (0, 1)] [5; 1] [7; -3] = Some [10; 0].
Proof. unfold ostep; simpl. unfold np_clip. repeat f_equal; rmx; lra. Qed.

(** C27 *)
Theorem C27_global_best : forall bf gens g, pso_run gens (g_new bf) = Some g ->
  ((exists p, In p (concat gens) /\ pfeas p) -> exists b, In b (concat gens) /\ pfeas b /\
     g_f g = Some (p_fv b) /\ g_scv g = Some (p_scv b) /\ g_x g = Some (p_x b) /\
     forall p, In p (concat gens) -> pfeas p -> p_fv b <= p_fv p) /\
  ((forall p, In p (concat gens) -> ~ pfeas p) -> g_scv g = None).
Proof. exact pso_best_lemma. Qed.
Print Assumptions C27_global_best.
Theorem C27_global_best_never_worsens : forall bf gens more g g2 f, pso_run gens (g_new bf) = Some g ->
  pso_run (gens ++ more) (g_new bf) = Some g2 -> (exists s, g_scv g = Some s /\ s <= 1 / 100000000) -> g_f g = Some f ->
  exists f2 s2, g_f g2 = Some f2 /\ g_scv g2 = Some s2 /\ s2 <= 1 / 100000000 /\ f2 <= f.
Proof. exact pso_monotone_lemma. Qed.
Print Assumptions C27_global_best_never_worsens.
Theorem C27_personal_best : forall evals, evals <> [] -> exists b,
  In b evals /\ fold_left visit_own evals (mkG None None None) = mkG (Some (p_fv b)) (Some (p_scv b)) (Some (p_x b)) /\
  (pfeas b -> forall p, In p evals -> pfeas p -> p_fv b <= p_fv p) /\
  (~ pfeas b -> forall p, In p evals -> p_scv b <= p_scv p).
Proof. exact own_best_lemma. Qed.
Print Assumptions C27_personal_best.
Example C27_ex : pso_run [[mkPart [1] 7 0; mkPart [2] 5 1]; [mkPart [3] 6 0]] (g_new None) =
  Some (mkG (Some 6) (Some 0) (Some [3])).
Proof.
  unfold pso_run, update_best; simpl fold_left. unfold visit, lt_inf, above_tol; simpl.
  repeat (match goal with
    | |- context [Rleb ?a ?b] => first [rewrite (proj2 (Rleb_true a b)) by (unfold G_TOL; lra) | rewrite (proj2 (Rleb_false a b)) by (unfold G_TOL; lra)]
    | |- context [Rltb ?a ?b] => first [rewrite (proj2 (Rltb_true a b)) by (unfold G_TOL; lra) | rewrite (proj2 (Rltb_false a b)) by (unfold G_TOL; lra)]
    end; simpl).
  reflexivity.
Qed.
(** Finding: with no feasible particle, the point kept is the least violated one of
    the first generation only. *)
Theorem C27_least_violated_refuted : exists gens g x,
  pso_run gens (g_new None) = Some g /\ g_x g = Some x /\
  exists p q, In p (concat gens) /\ In q (concat gens) /\ p_x p = x /\ p_x q <> x /\ p_scv q < p_scv p /\
  (forall r, In r (concat gens) -> ~ pfeas r).
Proof. exact pso_infeasible_refuted. Qed.
Print Assumptions C27_least_violated_refuted.
(** Finding: the sum of violations ignores the direction of '>' constraints. *)
Theorem C27_gt_constraints_refuted : exists gs vs, 
  exact_penalty 1 gs vs <= 1 / 100000000 /\ ~ Forall (holds_within (1/10000)) gs /\ Forall bounds_hold vs.
Proof. exact pso_gt_refuted. Qed.
Print Assumptions C27_gt_constraints_refuted.

(** C28 *)
Theorem C28_continuous_move_in_bounds : forall x v bounds, length x = length bounds -> length v = length bounds -> ordered bounds ->
  exists y, pso_move None x v bounds = Some y /\ inside bounds y.
Proof. exact pso_move_lemma. Qed.
Print Assumptions C28_continuous_move_in_bounds.
Theorem C28_discrete_move_partial : forall vals, vals <> [] -> forall x v bounds, length x = length bounds -> length v = length bounds -> ordered bounds ->
  Forall (fun b => Forall (fun w => fst b <= w <= snd b) vals) bounds ->
  exists y c, pso_move None x v bounds = Some c /\ pso_move (Some vals) x v bounds = Some y /\
    inside bounds y /\ Forall2 (fun ci yi => nearest_value vals ci yi) c y.
Proof. exact pso_move_disc_lemma. Qed.
Print Assumptions C28_discrete_move_partial.
Example C28_ex : (1 :: 2 :: []) <> [] /\ ordered [(1, 2)] /\
  Forall (fun b : R * R => Forall (fun w => fst b <= w <= snd b) [1; 2]) [(1, 2)].
Proof. repeat split; try discriminate; repeat constructor; simpl; lra. Qed.
(** Finding: every coordinate is rounded to the catalogue of the first variable. *)
Theorem C28_first_catalogue_refuted : exists vals1 vals2 x v y,
  pso_move (Some vals1) x v [(1, 2); (10, 20)] = Some y /\
  In 1 vals1 /\ In 2 vals1 /\ In 10 vals2 /\ In 20 vals2 /\ Forall (fun w => 10 <= w <= 20) vals2 /\
  ~ In (nth 1 y 0) vals2 /\ ~ (10 <= nth 1 y 0 <= 20).
Proof. exact pso_move_refuted. Qed.
Print Assumptions C28_first_catalogue_refuted.
Theorem C28_velocity_limits : forall w c1 c2 v x own glob vmin vmax, vmin <= vmax ->
  vmin <= pso_velocity w c1 c2 v x own glob vmin vmax <= vmax.
Proof. exact pso_velocity_lemma. Qed.
Print Assumptions C28_velocity_limits.
Theorem C28_craziness_limits : forall r vmin vmax, vmin <= vmax -> 0 <= r < 1 -> vmin <= pso_crazy r vmin vmax <= vmax.
Proof. exact pso_crazy_lemma. Qed.
Print Assumptions C28_craziness_limits.
Example C28_velocity_ex : pso_velocity 1 1 1 2 0 5 3 (-4) 4 = 4.
Proof. unfold pso_velocity. rmx; lra. Qed.

(** C29: all combinations, each once. *)
Theorem C29_grid_is_the_product : forall V (params : list (nat * list V)), params <> [] ->
  exists l, grid params = Some l /\
    (forall g, In g l -> assignment params g) /\
    (forall g, Forall2 (fun p e => fst e = fst p /\ In (snd e) (snd p)) params g ->
       exists g', In g' l /\ Permutation g g') /\
    length l = fold_right Nat.mul 1%nat (map (fun p => length (snd p)) params) /\
    (Forall (fun p => NoDup (snd p)) params -> NoDup l).
Proof. exact @grid_lemma. Qed.
Print Assumptions C29_grid_is_the_product.
Theorem C29_run_tries_each_combination_once : forall V (params : list (nat * list V)) pg l,
  grid params = Some l -> map snd (gs_run l pg) = l.
Proof. intros V params pg l _. unfold gs_run. rewrite map_map. apply map_id. Qed.
Print Assumptions C29_run_tries_each_combination_once.
(** Finding: the grid of problem parameters has no effect on the calls made. *)
Theorem C29_problem_parameters_unused_refuted : exists (sg : list (list (nat * nat))) pg pg',
  pg <> pg' /\ gs_run sg pg = gs_run sg pg'.
Proof. exists [[(0, 1)]]%nat, [[(0, 5)]]%nat, []. split; [discriminate|reflexivity]. Qed.
Print Assumptions C29_problem_parameters_unused_refuted.
Example C29_ex : grid [(1, [7; 8]); (0, [5])]%nat = Some [[(0, 5); (1, 7)]; [(0, 5); (1, 8)]]%nat.
Proof. reflexivity. Qed.

(** C30 *)
Theorem C30_move_box_partial : forall ty ml mu lb ub v, lb <= v <= ub -> 0 <= ml -> 0 <= mu ->
  (ty = MRelative -> 0 <= v) ->
  lb <= fst (move_box ty ml mu lb ub v) /\ snd (move_box ty ml mu lb ub v) <= ub /\
  fst (move_box ty ml mu lb ub v) <= v <= snd (move_box ty ml mu lb ub v).
Proof. exact move_box_lemma. Qed.
Print Assumptions C30_move_box_partial.
Example C30_ex : 0 <= 3 <= 10 /\ move_box MRange (1/10) (1/10) 0 10 3 = (2, 4).
Proof. split; [lra|]. unfold move_box. f_equal; rmx; lra. Qed.
(** Finding: relative move limits at a negative value exclude the current point. *)
Theorem C30_relative_limits_negative_refuted : exists ml mu lb ub v, lb <= v <= ub /\ 0 < ml /\ 0 < mu /\
  ~ (fst (move_box MRelative ml mu lb ub v) <= v).
Proof. exact move_box_refuted. Qed.
Print Assumptions C30_relative_limits_negative_refuted.
Theorem C30_limits_shrink : forall gamma m k, 0 < gamma < 1 -> 0 < m ->
  0 < shrink_n gamma k m <= m /\ shrink_n gamma (S k) m < shrink_n gamma k m /\
  shrink_n gamma k m = m * (1 - gamma) ^ k.
Proof. exact shrink_lemma. Qed.
Print Assumptions C30_limits_shrink.
Example C30_shrink_ex : shrink_n (1/2) 3 1 = 1/8.
Proof. unfold shrink_n, shrink; lra. Qed.

(** C31 *)
Theorem C31_window_contains_nearest_partial : forall values x ll ul, values <> [] -> (1 <= ul)%nat ->
  exists w pre post v, window values x ll ul = Some w /\ values = pre ++ w ++ post /\
    In v w /\ nearest_value values x v.
Proof. exact window_lemma. Qed.
Print Assumptions C31_window_contains_nearest_partial.
Theorem C31_window_size : forall values x ll ul w, window values x ll ul = Some w ->
  (length w <= ll + ul)%nat.
Proof. exact window_size. Qed.
Print Assumptions C31_window_size.
Example C31_ex : [1; 2; 4] <> [] /\ (1 <= 2)%nat.
Proof. split; [discriminate|lia]. Qed.
(** Finding: with upper limit 0 the window is empty. *)
Theorem C31_empty_window_refuted : exists values x ll, values <> [] /\ window values x ll 0 = Some [].
Proof. exact window_refuted. Qed.
Print Assumptions C31_empty_window_refuted.
(** Finding: the window is built around the last iterate of the first phase, not
    around the optimum it returned. *)
Theorem C31_wrong_centre_refuted : exists P act maxiter x0 bf bx states values w,
  osolve P act (fun _ => false) maxiter None None x0 = Some (bf, bx, states) /\ ok_at P bx /\
  window values (nth 0 (last states x0) 0) 1 3 = Some w /\
  forall v, nearest_value values (nth 0 bx 0) v -> ~ In v w.
Proof. exact two_phase_last_refuted. Qed.
Print Assumptions C31_wrong_centre_refuted.

(** C32 *)
Theorem C32_all_combinations_of_nearest_values : forall k vs x, length x = length vs ->
  exists N L, neighborhood k vs x = Some N /\
    Forall2 (fun vx sel => k_nearest k (snd vx) (fst vx) sel) (listed vs x) L /\
    (forall p, In p N <-> Forall2 (fun sel a => In a sel) L p).
Proof. exact neighborhood_lemma. Qed.
Print Assumptions C32_all_combinations_of_nearest_values.
Theorem C32_contains_nearest_point : forall k vs x N, (1 <= k)%nat -> length x = length vs ->
  Forall (fun vx => fst vx <> []) (listed vs x) -> neighborhood k vs x = Some N ->
  exists p, In p N /\ Forall2 (fun vx a => nearest_value (fst vx) (snd vx) a) (listed vs x) p.
Proof. exact neighborhood_nearest_lemma. Qed.
Print Assumptions C32_contains_nearest_point.
Example C32_ex : (1 <= 2)%nat /\ length [3/2; 7] = length [NDisc [1; 2; 4]; NInt 0 9] /\
  Forall (fun vx => fst vx <> []) (listed [NDisc [1; 2; 4]; NInt 0 9] [3/2; 7]).
Proof. split; [lia|]. split; [reflexivity|]. repeat constructor; discriminate. Qed.
(** Finding: continuous variables contribute no coordinate to the points. *)
Theorem C32_continuous_variables_refuted : exists k vs x N, length x = length vs /\ neighborhood k vs x = Some N /\
  Forall (fun p => length p <> length vs) N /\ N <> [].
Proof. exact neighborhood_cont_refuted. Qed.
Print Assumptions C32_continuous_variables_refuted.

(** C88: what the recorded history is. *)
Theorem C88_history_characterised_partial : forall bounds arr x0 a acts s', hrun bounds (a :: acts) (hinit arr x0) = Some s' ->
  exists x1 l, iterates bounds x0 (a :: acts) = Some (x1 :: l) /\
    h_states s' = x1 :: l /\
    read_xvals s' = x0 :: (match l with [] => [x1] | _ => l ++ [last l x1] end) /\
    nth 0 (h_heap s') [] = if arr then x1 else x0.
Proof. exact history_lemma. Qed.
Print Assumptions C88_history_characterised_partial.
Example C88_ex : exists s, hrun [(0, 10)] [[1]; [2]] (hinit true [0]) = Some s.
Proof. eexists. reflexivity. Qed.
Theorem C88_history_refuted : exists bounds x0 acts s' l,
  hrun bounds acts (hinit true x0) = Some s' /\ iterates bounds x0 acts = Some l /\
  read_xvals s' <> x0 :: l /\ nth 0 (h_heap s') [] <> x0.
Proof. exact history_refuted. Qed.
Print Assumptions C88_history_refuted.
