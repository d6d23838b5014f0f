(** C209 to C219: translations to external solvers, heuristic solvers, steepest descent, the
    augmented Lagrangian method, variable groups. *)
From Verif Require Import Base Tac Heur_proofs Heur2_proofs Heur3_proofs.
From Verif Require Import Heur_model Heur_spec.

(** C209 *)
Theorem C209_constraints : forall vs cs x, scipy_ok (slsqp_cons vs cs) x <-> all_hold vs cs x.
Proof. exact slsqp_cons_lemma. Qed.
Print Assumptions C209_constraints.
Theorem C209_bounds : forall vs, Forall (fun v => tv_lb v <= tv_ub v) vs ->
  inside (slsqp_bounds vs) (slsqp_x0 vs) /\
  (forall x, inside (slsqp_bounds vs) x <-> Forall2 (fun v xi => tv_lb v <= xi <= tv_ub v) (tfree vs) x).
Proof. exact slsqp_bounds_lemma. Qed.
Print Assumptions C209_bounds.
Theorem C209_cobyla_bounds_refuted : exists vs cs x, Forall (fun v => tv_lb v <= tv_ub v) vs /\
  scipy_ok (fst (cobyla_problem vs cs)) x /\ snd (cobyla_problem vs cs) = [] /\
  ~ inside (slsqp_bounds vs) x.
Proof. exact cobyla_refuted_lemma. Qed.
Print Assumptions C209_cobyla_bounds_refuted.
Example C209_ex : scipy_ok (slsqp_cons [mkTv vCont 0 5 (Some 2); mkTv vCont 0 5 None] [Lin sLe [1; 1] 4; NonLin sEq (fun x => hd 0 x - 1); NonLin sGe (fun x => hd 0 x)]) [1].
Proof. apply slsqp_cons_lemma. repeat constructor; simpl; lra. Qed.

(** C210 *)
Theorem C210_unlocked : forall vs cs x, Forall (fun v => tv_fixed v = None) vs -> length x = length vs ->
  (tr_ok (tr_cons cs) x <-> all_hold vs cs x).
Proof. exact tr_cons_lemma. Qed.
Print Assumptions C210_unlocked.
Theorem C210_nonlinear : forall vs cs x, Forall (fun c => match c with NonLin _ _ => True | Lin _ _ _ => False end) cs ->
  (tr_ok (tr_cons cs) x <-> all_hold vs cs x).
Proof. exact tr_nonlinear_lemma. Qed.
Print Assumptions C210_nonlinear.
Theorem C210_locked_refuted : exists vs cs x, length x = length (tfree vs) /\
  tr_ok (tr_cons cs) x /\ ~ all_hold vs cs x.
Proof. exact tr_locked_refuted_lemma. Qed.
Print Assumptions C210_locked_refuted.
Example C210_ex : tr_ok (tr_cons [Lin sGe [1; 2] 4; NonLin sLt (fun x => hd 0 x - 2)]) [1; 2].
Proof. apply (tr_cons_lemma [mkTv vCont 0 5 None; mkTv vCont 0 5 None]); [repeat constructor|reflexivity|]. repeat constructor; simpl; lra. Qed.

(** C211 *)
Theorem C211_rows : forall vs cs x, Forall (fun v => tv_fixed v = None) vs -> length x = length vs ->
  Forall (fun c => exists ty a b, c = Lin ty a b /\ (ty = sLt \/ ty = sGt \/ ty = sEq)) cs ->
  (rows_ok (lp_rows cs) x <-> all_hold vs cs x).
Proof. exact lp_rows_lemma. Qed.
Print Assumptions C211_rows.
Theorem C211_nonlinear_refuted : exists vs cs x, length x = length vs /\
  Forall (fun v => tv_fixed v = None) vs /\ rows_ok (lp_rows cs) x /\ ~ all_hold vs cs x.
Proof. exact lp_nonlinear_refuted_lemma. Qed.
Print Assumptions C211_nonlinear_refuted.
Theorem C211_le_refuted : exists vs cs x, length x = length vs /\
  Forall (fun v => tv_fixed v = None) vs /\ all_hold vs cs x /\ ~ rows_ok (lp_rows cs) x.
Proof. exact lp_le_refuted_lemma. Qed.
Print Assumptions C211_le_refuted.
Theorem C211_locked_refuted : exists vs cs x, length x = length (tfree vs) /\
  rows_ok (lp_rows cs) x /\ ~ all_hold vs cs x.
Proof. exact lp_locked_refuted_lemma. Qed.
Print Assumptions C211_locked_refuted.
Theorem C211_milp_variables : forall vs x, Forall (fun v => tv_fixed v = None) vs ->
  Forall (fun v => tv_class v = vCont \/ tv_class v = vBin) vs ->
  (milp_ok (milp_vars vs) x <-> Forall2 var_ok vs x).
Proof. exact milp_vars_lemma. Qed.
Print Assumptions C211_milp_variables.
Theorem C211_milp_relaxation : forall vs x, Forall (fun v => tv_fixed v = None) vs ->
  Forall2 var_ok vs x -> milp_ok (milp_vars vs) x.
Proof. exact milp_relaxed_lemma. Qed.
Print Assumptions C211_milp_relaxation.
Theorem C211_milp_integer_refuted : exists vs x, Forall (fun v => tv_fixed v = None) vs /\
  milp_ok (milp_vars vs) x /\ ~ Forall2 var_ok vs x.
Proof. exact milp_integer_refuted_lemma. Qed.
Print Assumptions C211_milp_integer_refuted.
Example C211_ex : rows_ok (lp_rows [Lin sLt [1; 2] 6; Lin sGt [1; 0] 1; Lin sEq [1; -1] 0]) [2; 2] /\
  milp_ok (milp_vars [mkTv vBin 0 1 None; mkTv vCont 0 3 None]) [1; 2].
Proof.
  split.
  - apply (lp_rows_lemma [mkTv vCont 0 5 None; mkTv vCont 0 5 None]); [repeat constructor|reflexivity| |].
    + constructor; [|constructor; [|constructor; [|constructor]]]; do 3 eexists; (split; [reflexivity|tauto]).
    + constructor; [|constructor; [|constructor; [|constructor]]]; unfold demands; simpl; lra.
  - apply milp_vars_lemma; [repeat constructor|repeat constructor; simpl; tauto|].
    constructor; [|constructor; [|constructor]]; unfold var_ok; simpl; lra.
Qed.

(** C212 *)
Theorem C212_range : forall ty ml mu v x l u, tv_class v <> vBin -> tv_lb v <= x <= tv_ub v ->
  0 <= ml -> 0 <= mu -> (ty = MRelative -> 0 <= x) -> mislp_range ty ml mu v x = Some (l, u) ->
  tv_lb v <= l <= x /\ x <= u <= tv_ub v.
Proof. exact mislp_range_lemma. Qed.
Print Assumptions C212_range.
Theorem C212_neighbours : forall ty ml mu v values x l u i, tv_class v = vDisc values ->
  (forall w, In w values -> tv_lb v <= w <= tv_ub v) ->
  (forall a b, (a < b < length values)%nat -> nth a values 0 < nth b values 0) ->
  (i < length values)%nat -> x = nth i values 0 -> mislp_range ty ml mu v x = Some (l, u) ->
  (forall w, ((0 < i)%nat -> w = nth (i - 1) values 0 -> l <= w) /\ ((i + 1 < length values)%nat -> w = nth (i + 1) values 0 -> w <= u)).
Proof. exact mislp_neighbours_lemma. Qed.
Print Assumptions C212_neighbours.
Theorem C212_selection : forall vs x, Forall (fun v => tv_class v <> vBin) vs -> length x = length vs ->
  ((forall i values, In (i, values) (mislp_select vs) -> picks values (nth i x 0)) <->
   (forall i v values, nth_error vs i = Some v -> tv_class v = vDisc values -> In (nth i x 0) values)).
Proof. exact mislp_select_lemma. Qed.
Print Assumptions C212_selection.
Theorem C212_rows : forall rows x beta, Forall (fun r => snd (fst r) = sLt \/ snd (fst r) = sEq) rows ->
  (Forall (fun r => let '(a, eq, b) := r in if eq : bool then dot a x = b else dot a x <= b + beta) (mislp_rows rows) <->
   Forall (fun r => let '(a, ty, b) := r in match ty with sEq => dot a x - b = 0 | _ => dot a x - b <= beta end) rows).
Proof. exact mislp_rows_lemma. Qed.
Print Assumptions C212_rows.
Theorem C212_rounding : forall sol, Forall2 (fun a b => Rabs (b - a) <= 5/10000 /\ (forall z, a = IZR z / 1000 -> b = a)) sol (mislp_next sol).
Proof. exact mislp_next_lemma. Qed.
Print Assumptions C212_rounding.
Theorem C212_checker : forall cons x, mip_feasible cons x = true <->
  Forall (fun c => let '(a, l, u) := c in l - 1/100000 <= dot a x <= u + 1/100000) cons.
Proof. exact mip_feasible_lemma. Qed.
Print Assumptions C212_checker.
Theorem C212_gt_refuted : exists rows x, ~ Forall (fun r => demands (snd (fst r)) (dot (fst (fst r)) x - snd r)) rows /\ mislp_rows rows = [].
Proof. exact mislp_gt_refuted_lemma. Qed.
Print Assumptions C212_gt_refuted.
Theorem C212_binary_refuted : exists vs, In (mkTv (vDisc [1; 2]) 1 2 None) vs /\ mislp_select vs = [].
Proof. exact mislp_binary_refuted_lemma. Qed.
Print Assumptions C212_binary_refuted.
Theorem C212_rounding_refuted : exists values sol, Forall (fun a => In a values) sol /\ ~ Forall (fun a => In a values) (mislp_next sol).
Proof. exact mislp_round_refuted_lemma. Qed.
Print Assumptions C212_rounding_refuted.
Example C212_ex : mislp_range MRange (1/10) (1/10) (mkTv vCont 0 10 None) 5 = Some (4, 6) /\ picks [10; 20; 30] 20.
Proof.
  split; [|apply picks_lemma; simpl; auto]. unfold mislp_range; simpl. f_equal. f_equal; rmx; lra.
Qed.

(** C213 *)
Theorem C213_weights : forall alpha beta pher heur i, length heur = length pher -> (i < length pher)%nat ->
  nth i (aco_weights alpha beta pher heur) 0 = Rpower (nth i pher 0) alpha * Rpower (nth i heur 0) beta /\
  0 < nth i (aco_weights alpha beta pher heur) 0.
Proof. exact aco_weights_lemma. Qed.
Print Assumptions C213_weights.
Theorem C213_probabilities : forall w, w <> [] -> Forall (fun a => 0 < a) w ->
  Rsum (aco_probs w) = 1 /\ Forall (fun p => 0 < p <= 1) (aco_probs w) /\
  (forall i, (i < length w)%nat -> nth i (aco_probs w) 0 * Rsum w = nth i w 0).
Proof. exact aco_probs_lemma. Qed.
Print Assumptions C213_probabilities.
Theorem C213_local_update : forall xi, forall m c i j, fits m c -> (i < length m)%nat ->
  ent (aco_local xi m c) i j = if Nat.eqb (nth i c 0%nat) j then xi * ent m i j else ent m i j.
Proof. exact aco_local_lemma. Qed.
Print Assumptions C213_local_update.
Theorem C213_global_update : forall rho top ants m, Forall (fun a => fits m (a_choice a)) ants ->
  ((top <= length ants)%nat -> exists m' order, aco_global rho top ants m = Some m' /\
     Permutation order ants /\ ranked order /\ map (@length R) m' = map (@length R) m /\
     forall i j, (i < length m)%nat -> ent m' i j = ent m i j +
       Rsum (map (fun k => adds i j (nth k order (mkAnt [] [] 0)) (rho * (INR top - INR k) / a_fit (nth k order (mkAnt [] [] 0)))) (seq 0 top))) /\
  ((length ants < top)%nat -> aco_global rho top ants m = None).
Proof. exact aco_global_lemma. Qed.
Print Assumptions C213_global_update.
Theorem C213_better_adds_more : forall rho top r1 r2 f1 f2, 0 < rho -> 0 < f1 -> f1 <= f2 -> (r1 < r2 < top)%nat ->
  0 < aco_deposit rho top r2 f2 < aco_deposit rho top r1 f1.
Proof. exact aco_deposit_lemma. Qed.
Print Assumptions C213_better_adds_more.
Theorem C213_positive : forall rho top ants m m', 0 <= rho -> Forall (fun a => fits m (a_choice a) /\ 0 < a_fit a) ants ->
  aco_global rho top ants m = Some m' -> forall i j, (i < length m)%nat -> 0 < ent m i j -> 0 < ent m' i j.
Proof. exact aco_positive_lemma. Qed.
Print Assumptions C213_positive.
Theorem C213_best : forall nmax gens b N', aco_loop nmax gens None 0 = (b, N') ->
  exists k, (k <= length gens)%nat /\ (k = length gens \/ (nmax < N')%nat) /\ (N' <= k)%nat /\
  match b with
  | None => concat (firstn k gens) = []
  | Some (f, x) => (exists a, In a (concat (firstn k gens)) /\ a_fit a = f /\ a_x a = x) /\
                   Forall (fun a => f <= a_fit a) (concat (firstn k gens))
  end.
Proof. exact aco_loop_lemma. Qed.
Print Assumptions C213_best.
Example C213_ex : Rsum (aco_probs [1; 3]) = 1 /\ nth 1 (aco_probs [1; 3]) 0 * 4 = 3.
Proof.
  destruct (aco_probs_lemma [1; 3]) as (A & _ & B); [discriminate|repeat constructor; lra|]. split; auto.
  specialize (B 1%nat ltac:(simpl; lia)). replace (Rsum [1; 3]) with 4 in B by (unfold Rsum; simpl; lra). exact B.
Qed.
Example C213_ex2 : exists m', aco_global 1 2 [mkAnt [0%nat] [1] 4; mkAnt [1%nat] [2] 2] [[1; 1]] = Some m' /\ ent m' 0 1 = 2.
Proof.
  unfold aco_global, sort_ants. simpl. destruct (Rleb 4 2) eqn:E; [apply Rleb_true in E; lra|]. simpl. eexists. split; [reflexivity|].
  unfold ent, aco_deposit. simpl. lra.
Qed.

(** C214 *)
Theorem C214_best : forall f g bounds inds s, let t := ga_run f g bounds inds s in
  ga_f t <= ga_f s /\ Forall (fun v => ga_f t <= v) (ga_values f g bounds inds) /\
  (t = s \/ exists ind, In ind inds /\ ga_value f g bounds ind = ga_f t /\ ga_f t < ga_f s /\
    ga_x t = Some (map (fun xb => clamp (fst (snd xb)) (snd (snd xb)) (fst xb)) (combine ind bounds))).
Proof. exact ga_best_lemma. Qed.
Print Assumptions C214_best.
Theorem C214_penalty : forall g, 0 <= ga_penalty g /\ (ga_penalty g = 0 <-> Forall (fun v => v <= 0) g).
Proof. exact ga_penalty_lemma. Qed.
Print Assumptions C214_penalty.
Theorem C214_cache : forall f g bounds d s ind d' s' v, ordered bounds ->
  Forall (fun e => snd e = ga_value f g bounds (fst e)) d -> ga_cached f g bounds d s ind = (d', s', v) ->
  v = ga_value f g bounds ind /\ Forall (fun e => snd e = ga_value f g bounds (fst e)) d'.
Proof. exact ga_cached_lemma. Qed.
Print Assumptions C214_cache.
Theorem C214_point : forall bounds ind, ordered bounds -> ga_point bounds (ga_point bounds ind) = ga_point bounds ind.
Proof. exact ga_point_idem. Qed.
Print Assumptions C214_point.
Theorem C214_types_refuted : (exists g, demands sGt g /\ 0 < ga_penalty [g]) /\ (exists g, ~ demands sGt g /\ ga_penalty [g] = 0) /\
  (exists g, ~ demands sEq g /\ ga_penalty [g] = 0).
Proof. exact ga_gt_refuted_lemma. Qed.
Print Assumptions C214_types_refuted.
Theorem C214_unrounded_refuted : exists f g bounds inds s x, ga_x (ga_run f g bounds inds s) = Some x /\
  f x + ga_penalty (g x) <> ga_f (ga_run f g bounds inds s).
Proof. exact ga_unrounded_refuted_lemma. Qed.
Print Assumptions C214_unrounded_refuted.
Example C214_ex : ga_penalty [-3; 0] = 0 /\ ga_penalty [1/10; -3] = 20000.
Proof.
  split; [apply ga_penalty_lemma; repeat constructor; lra|]. unfold ga_penalty, Rsum. simpl.
  replace (Rmin (Rmax (1/10) 0) 100) with (1/10) by (rmx; lra). replace (Rmin (Rmax (-3) 0) 100) with 0 by (rmx; lra). lra.
Qed.

(** C215 *)
Theorem C215_step : forall f g ub0 s a y, dvns_trial ub0 (d_X s) a = Some y ->
  exists t b, dvns_step f g ub0 s a = Some (t, y, b) /\ d_X t = d_X s /\ d_cons t = g y /\
  (b = true <-> f y < d_best s /\ Forall (fun v => v <= 0) (g y)) /\
  d_best t = (if b then f y else d_best s).
Proof. exact dvns_step_lemma. Qed.
Print Assumptions C215_step.
Theorem C215_run : forall f g ub0 acts x0 t l, 0 <= ub0 -> dvns_run f g ub0 acts (dvns_init g x0) = Some (t, l) ->
  d_X t = last l x0 /\ falling 10000 (map f l) /\
  Forall (fun y => Forall (fun v => v <= 0) (g y) /\ Forall (fun v => 0 <= v <= ub0) y /\ length y = length x0) l /\
  dvns_result f false t = ValueAndPoint (f (last l x0)) (last l x0).
Proof. exact dvns_solve_lemma. Qed.
Print Assumptions C215_run.
Theorem C215_heavy_refuted : exists f g x0 a ub0, 0 <= ub0 /\ (forall y, Forall (fun v => v <= 0) (g y)) /\
  (exists y, dvns_trial ub0 x0 a = Some y /\ f y < f x0) /\
  forall acts t l, Forall (fun b => length b = length x0) acts -> dvns_run f g ub0 acts (dvns_init g x0) = Some (t, l) -> l = [] /\ d_X t = x0.
Proof. exact dvns_heavy_refuted_lemma. Qed.
Print Assumptions C215_heavy_refuted.
Theorem C215_bounds_refuted : exists f g (ubs : list R) x0 acts t l, Forall2 (fun u v => 0 <= v <= u) ubs x0 /\
  dvns_run f g (hd 0 ubs) acts (dvns_init g x0) = Some (t, l) /\ ~ Forall2 (fun u v => 0 <= v <= u) ubs (d_X t).
Proof. exact dvns_bounds_refuted_lemma. Qed.
Print Assumptions C215_bounds_refuted.
Example C215_ex : exists t, dvns_run (fun x => hd 0 x) (fun _ => [-1]) 9 [[-1]] (dvns_init (fun _ => [-1]) [5]) = Some (t, [[4]]).
Proof.
  assert (T : dvns_trial 9 [5] [-1] = Some [4]) by (unfold dvns_trial; simpl; f_equal; f_equal; rmx; lra).
  destruct (dvns_step_lemma (fun x => hd 0 x) (fun _ => [-1]) 9 (dvns_init (fun _ => [-1]) [5]) [-1] [4] T) as (t & b & E & _ & _ & [_ B] & _).
  rewrite B in E by (simpl; split; [lra|repeat constructor; lra]). cbn [dvns_run]. rewrite E. eexists. reflexivity.
Qed.

(** C216 *)
Theorem C216_neighbourhood : forall step index lb ub v, (1 <= step)%nat -> lb <= v <= ub -> (index = true -> 0 <= v) ->
  let b := vns_bounds step index lb ub v in
  fst b <= v <= snd b /\ snd b <= ub /\ (index = false -> lb <= fst b) /\ (index = true -> 0 <= fst b) /\
  (forall w, fst b <= w <= snd b -> Rabs (w - v) <= (if index then INR step else INR step * (ub - lb) / 10)).
Proof. exact vns_bounds_lemma. Qed.
Print Assumptions C216_neighbourhood.
Theorem C216_expansion : forall step index lb ub v, lb <= v <= ub ->
  fst (vns_bounds (S step) index lb ub v) <= fst (vns_bounds step index lb ub v) /\
  snd (vns_bounds step index lb ub v) <= snd (vns_bounds (S step) index lb ub v).
Proof. exact vns_widen_lemma. Qed.
Print Assumptions C216_expansion.
Theorem C216_action : forall arrays maxexp vars prev, forall res values s a b s',
  vns_action arrays maxexp vars prev res values s = Some (a, b, s') ->
  (v_fopt s' = v_fopt s /\ a = map (fun _ => 0) vars) \/
  (exists f x after, In (f, x, after) res /\ f < v_fopt s /\ v_fopt s' = f /\ a = vsub x prev /\ v_exp s' = 0%nat /\
     b = map (fun v => let '(_, l, u) := v in (l, u)) vars).
Proof. exact vns_action_lemma. Qed.
Print Assumptions C216_action.
Theorem C216_moves_to_point : forall x prev, length x = length prev -> vadd prev (vsub x prev) = Some x.
Proof. exact vns_point_lemma. Qed.
Print Assumptions C216_moves_to_point.
Theorem C216_accepts : forall arrays maxexp vars prev f x after res values s, (v_exp s < 10)%nat ->
  f < v_fopt s -> (forall i, (i < length x)%nat -> nth i x 0 <> nth i prev 0) -> x <> [] -> length x = length prev ->
  vns_action arrays maxexp vars prev ((f, x, after) :: res) values s =
  Some (vsub x prev, map (fun v => let '(_, l, u) := v in (l, u)) vars, mkVst f 0 (v_step s)).
Proof. exact vns_first_lemma. Qed.
Print Assumptions C216_accepts.
Theorem C216_partial_move_refuted : exists vars prev f x s, f < v_fopt s /\ x <> prev /\ length x = length prev /\ (v_exp s < 10)%nat /\
  exists a b s', vns_action true 0 vars prev [(f, x, x)] prev s = Some (a, b, s') /\ v_fopt s' = v_fopt s.
Proof. exact vns_partial_move_refuted_lemma. Qed.
Print Assumptions C216_partial_move_refuted.
Theorem C216_bounds_left_refuted : exists vars values prev res s a b s',
  vns_action true 0 vars prev res values s = Some (a, b, s') /\ b <> map (fun v => let '(_, l, u) := v in (l, u)) vars.
Proof. exact vns_bounds_left_refuted_lemma. Qed.
Print Assumptions C216_bounds_left_refuted.
Theorem C216_discrete_refuted : exists step values lb ub v l u, (1 <= step)%nat /\ In v values /\ list_min values = Some lb /\ list_max values = Some ub /\
  vns_disc_bounds step values lb ub v = Some (l, u) /\ l < lb /\ ub < u.
Proof. exact vns_disc_refuted_lemma. Qed.
Print Assumptions C216_discrete_refuted.
Example C216_ex : vns_action true 3 [(false, 0, 10)] [5] [(1, [4], [4])] [5] (mkVst 2 0 1) = Some (vsub [4] [5], [(0, 10)], mkVst 1 0 1).
Proof. apply vns_first_lemma; simpl; try lra; try lia; try discriminate. intros [|i] H; [simpl; lra|lia]. Qed.

(** C217 *)
Theorem C217_direction : forall df, 0 < vnorm df -> vnorm (sd_dir df) = 1 /\ dot df (sd_dir df) = - vnorm df.
Proof. exact sd_dir_lemma. Qed.
Print Assumptions C217_direction.
Theorem C217_descent : forall f grad ls maxiter x0 h, (forall x d a, ls x d = Some a -> f (vaxpy a d x) <= f x) ->
  sd_solve f grad ls maxiter x0 = Some h ->
  exists new, h = new ++ [x0] /\ (length new <= maxiter)%nat /\ decreasing f h /\
    forall y, In y h -> f (hd x0 h) <= f y.
Proof. exact sd_solve_lemma. Qed.
Print Assumptions C217_descent.
Theorem C217_total : forall f grad ls, (forall x d, ls x d <> None) -> forall maxiter x0, exists h, sd_solve f grad ls maxiter x0 = Some h.
Proof. exact sd_total_lemma. Qed.
Print Assumptions C217_total.
Theorem C217_failed_search : forall f grad ls maxiter x0, (1 <= maxiter)%nat -> 1 / 100000000 <= vnorm (grad x0) -> (forall x d, ls x d = None) ->
  sd_solve f grad ls maxiter x0 = None.
Proof. exact sd_fail_lemma. Qed.
Print Assumptions C217_failed_search.
Example C217_ex : dot [3; 4] (sd_dir [3; 4]) = - 5.
Proof.
  assert (N : vnorm [3; 4] = 5).
  { unfold vnorm, Rsum. simpl. replace (3 * (3 * 1) + (4 * (4 * 1) + 0)) with (Rsqr 5) by (unfold Rsqr; ring). apply sqrt_Rsqr. lra. }
  rewrite (proj2 (sd_dir_lemma [3; 4] ltac:(lra))). lra.
Qed.

(** C218 *)
Theorem C218_run : forall f argmin, forall fuel k Rineq Req s hist fs stop s' h R',
  mult_ok s -> alm_loop f argmin fuel k Rineq Req s hist fs stop = (s', h, R') ->
  mult_ok s' /\ exists j new, (j <= fuel)%nat /\ h = new ++ hist /\ (length new = j \/ length new = S j)%nat /\ (length new <= fuel)%nat /\
    R' = (Rineq * (15/10) ^ j, Req * (15/10) ^ j).
Proof. exact alm_loop_lemma. Qed.
Print Assumptions C218_run.
Theorem C218_optimal : forall f s Rineq Req y z, 0 < Rineq -> 0 < Req -> mult_ok s -> one_sided s ->
  length y = length (al_vars s) -> alm_update s Rineq Req y = s ->
  (forall w, length w = length y -> aug_lag f s Rineq Req y <= aug_lag f s Rineq Req w) ->
  al_feasible s y /\ (al_feasible s z -> f y <= f z).
Proof. exact alm_fixed_lemma. Qed.
Print Assumptions C218_optimal.
Theorem C218_reuse_refuted : exists f argmin s x0 fs,
  length (snd (fst (alm_loop f argmin 3 0 1 1 s [x0] [f x0] 0))) = 4%nat /\
  length (snd (fst (alm_loop f argmin 3 0 1 1 s [x0] (fs ++ [f x0]) 0))) = 3%nat.
Proof. exact alm_reuse_refuted_lemma. Qed.
Print Assumptions C218_reuse_refuted.
(** minimise x subject to x >= 1: the multiplier 1 is a fixed point at x = 1. *)
Example C218_ex : let s := mkAlm [(CGt, 1, fun x => hd 0 x - 1)] [(XLB, XUB, 0, 0)] in
  mult_ok s /\ one_sided s /\ alm_update s 1 1 [1] = s.
Proof.
  cbv zeta. split; [split; repeat constructor; simpl; intros; lra|]. split; [repeat constructor; lra|].
  unfold alm_update, upd_bounds; simpl. f_equal.
  - repeat f_equal. rmx; lra.
  - destruct (Rlt_dec XLB XLB); [lra|]. destruct (Rlt_dec XUB XUB); [lra|]. reflexivity.
Qed.

(** C219 *)
Theorem C219_continuous : forall attrs lbs ubs vals,
  length (group_cont attrs lbs ubs vals) = Nat.min (Nat.min (length attrs) (length lbs)) (Nat.min (length ubs) (length vals)) /\
  forall i g, nth_error (group_cont attrs lbs ubs vals) i = Some g ->
    nth_error attrs i = Some (gv_attr g) /\ nth_error lbs i = Some (gv_lb g) /\ nth_error ubs i = Some (gv_ub g) /\ nth_error vals i = Some (gv_value g).
Proof. exact group_cont_lemma. Qed.
Print Assumptions C219_continuous.
Theorem C219_discrete : forall attrs vals cats l, group_disc attrs vals cats = Some l ->
  length l = Nat.min (length attrs) (Nat.min (length vals) (length cats)) /\
  forall i g, nth_error l i = Some g ->
    nth_error attrs i = Some (gv_attr g) /\ nth_error vals i = Some (gv_value g) /\ nth_error cats i = Some (gv_values g) /\
    In (gv_lb g) (gv_values g) /\ In (gv_ub g) (gv_values g) /\ forall w, In w (gv_values g) -> gv_lb g <= w <= gv_ub g.
Proof. exact group_disc_lemma. Qed.
Print Assumptions C219_discrete.
Theorem C219_default_refuted : exists attrs lbs ubs g, In g (group_cont attrs lbs ubs (group_values (length attrs) None)) /\
  gv_lb g <= gv_ub g /\ ~ (gv_lb g <= gv_value g <= gv_ub g).
Proof. exact group_default_refuted_lemma. Qed.
Print Assumptions C219_default_refuted.
Theorem C219_short_refuted : exists attrs lbs ubs, (length (group_cont attrs lbs ubs (group_values (length attrs) None)) < length attrs)%nat.
Proof. exact group_short_refuted_lemma. Qed.
Print Assumptions C219_short_refuted.
Example C219_ex : length (group_cont [0%nat; 1%nat] [1; 2] [10; 20] (group_values 2 (Some [5; 6]))) = 2%nat.
Proof. reflexivity. Qed.

(** Every component moves by the step length times its direction. *)
Theorem C217_step : forall a d x i, (i < length x)%nat -> (i < length d)%nat -> nth i (vaxpy a d x) 0 = nth i x 0 + a * nth i d 0.
Proof.
  intros a d x i. unfold vaxpy. revert d i. induction x as [|y x IH]; intros d i; cbn [length]; [lia|]. destruct d as [|e d]; cbn [length]; [lia|].
  destruct i as [|i]; intros H1 H2; [reflexivity|]. cbn [combine map nth]. apply IH; lia.
Qed.
Print Assumptions C217_step.
(** Two steps that change the objective by less than the tolerance end the search at the second point;
    a step that changes it by more does not count. *)
Theorem C217_stopping : forall f grad ls n x0 a b, let y := vaxpy a (sd_dir (grad x0)) x0 in let z := vaxpy b (sd_dir (grad y)) y in
  1 / 100000000 <= vnorm (grad x0) -> 1 / 100000000 <= vnorm (grad y) -> ls x0 (sd_dir (grad x0)) = Some a -> ls y (sd_dir (grad y)) = Some b ->
  Rabs (f z - f y) <= 1 / 100000000 + 1 / 10000 * Rabs (f y) ->
  (Rabs (f y - f x0) <= 1 / 100000000 + 1 / 10000 * Rabs (f x0) -> sd_solve f grad ls (S (S n)) x0 = Some [z; y; x0])
  /\ (1 / 100000000 + 1 / 10000 * Rabs (f x0) < Rabs (f y - f x0) -> 1 / 100000000 <= vnorm (grad z) -> ls z (sd_dir (grad z)) = None ->
      sd_solve f grad ls 3 x0 = Some [z; y; x0] /\ sd_solve f grad ls (S (S (S (S n)))) x0 = Some [z; y; x0]).
Proof.
  intros f grad ls n x0 a b y z G0 G1 L0 L1 S1. unfold sd_solve, SD_GRAD_TOL.
  assert (T0 : Rltb (vnorm (grad x0)) SD_GRAD_TOL = false) by (apply Rltb_false; unfold SD_GRAD_TOL; lra).
  assert (T1 : Rltb (vnorm (grad y)) SD_GRAD_TOL = false) by (apply Rltb_false; unfold SD_GRAD_TOL; lra).
  split.
  - intros S0. cbn [sd_loop]. rewrite T0, L0. fold y. rewrite (proj2 (Rleb_true _ _) S0). cbn [Nat.eqb]. rewrite T1, L1. fold z.
    rewrite (proj2 (Rleb_true _ _) S1). reflexivity.
  - intros S0 G2 L2. assert (T2 : Rltb (vnorm (grad z)) SD_GRAD_TOL = false) by (apply Rltb_false; unfold SD_GRAD_TOL; lra).
    split; cbn [sd_loop]; rewrite T0, L0; fold y; rewrite (proj2 (Rleb_false _ _) S0); cbn [Nat.eqb]; rewrite T1, L1; fold z;
    rewrite (proj2 (Rleb_true _ _) S1); cbn [Nat.eqb]; rewrite T2, L2; rewrite ?(proj2 (Rleb_true _ _) S1); reflexivity.
Qed.
Print Assumptions C217_stopping.
Example C217_stopping_ex : sd_solve (fun _ => 5) (fun _ => [3; 4]) (fun _ _ => Some 10) 7 [0; 0] = Some [[-12; -16]; [-6; -8]; [0; 0]].
Proof.
  assert (V : vnorm [3; 4] = 5). { unfold vnorm. replace 5 with (sqrt (5 * 5)) by (rewrite sqrt_square; lra). f_equal. cbn. lra. }
  assert (Y : vaxpy 10 (sd_dir [3; 4]) [0; 0] = [-6; -8]). { unfold vaxpy, sd_dir. rewrite V. cbn. repeat f_equal; lra. }
  assert (Z : vaxpy 10 (sd_dir [3; 4]) [-6; -8] = [-12; -16]). { unfold vaxpy, sd_dir. rewrite V. cbn. repeat f_equal; lra. }
  pose proof (C217_stopping (fun _ => 5) (fun _ => [3; 4]) (fun _ _ => Some 10) 5 [0; 0] 10 10) as K. cbv beta zeta in K. rewrite !Y, !Z, !V in K.
  assert (Q : Rabs (5 - 5) <= 1 / 100000000 + 1 / 10000 * Rabs 5) by (rewrite Rminus_diag_eq, Rabs_R0 by reflexivity; pose proof (Rabs_pos 5); lra).
  apply K; try reflexivity; try lra; exact Q.
Qed.
(** Without given values every variable of a group starts at zero. *)
Theorem C219_default_zero : forall attrs lbs ubs g, In g (group_cont attrs lbs ubs (group_values (length attrs) None)) -> gv_value g = 0.
Proof.
  intros attrs. cbn [group_values]. induction attrs as [|a l IH]; intros lbs ubs g; [intros []|]. destruct lbs as [|b lbs]; [intros []|]. destruct ubs as [|c ubs]; [intros []|].
  cbn [length repeat group_cont]. intros [<-|H]; [reflexivity|]. apply (IH lbs ubs). exact H.
Qed.
Print Assumptions C219_default_zero.
(** The neighbours of the catalogue that limit the range of a discrete variable: the lower limit is the
    distance to the entry before, the upper limit that to the entry after it. *)
Theorem C216_discrete_neighbours : forall step values lb ub v k a b, nearest_idx values v = Some (S k) ->
  nth_error values k = Some a -> nth_error values (S (S k)) = Some b ->
  exists l u, vns_disc_bounds step values lb ub v = Some (l, u) /\ v - a <= l /\ b - v <= u
    /\ (l = v - a \/ l = lb - (ub - lb) / (INR step * INR (length values))) /\ (u = b - v \/ u = ub + (ub - lb) / (INR step * INR (length values))).
Proof.
  intros step values lb ub v k a b Hn Ha Hb. unfold vns_disc_bounds. rewrite Hn.
  assert (L : (S (S k) < length values)%nat) by (apply nth_error_Some; congruence).
  replace (Nat.eqb (S k) (length values - 1)) with false by (symmetry; apply Nat.eqb_neq; lia).
  replace (S k - 1)%nat with k by lia. replace (S k + 1)%nat with (S (S k)) by lia. rewrite (nth_error_nth _ _ 0 Ha), (nth_error_nth _ _ 0 Hb).
  eexists. eexists. split; [reflexivity|]. split; [apply Rmax_r|]. split; [apply Rmax_r|]. split; unfold Rmax; destruct (Rle_dec _ _); auto.
Qed.
Print Assumptions C216_discrete_neighbours.
