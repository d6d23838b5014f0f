(** Properties C01-C05, C07, C83-C86 (optimisation variables). *)
From Verif Require Import OptVars_proofs.

(** A two-variable problem used in the examples: a locked profile and a free one. *)
Definition ex_vars : list var :=
  [mkVar KCont 0 10 (Some 5) true 1 TSingle (Some 5);
   mkVar (KIndex 3) 0 2 (Some 1) false 1 TSingle (Some 1);
   mkVar KCont (-1) 1 (Some 0) false 1 TNone None].

Lemma ex_vars_wf : Forall wf_var ex_vars.
Proof. repeat constructor; unfold wf_var; simpl; try lra; repeat split; try lia; lra. Qed.

(** C01 *)
Theorem C01_substitution_stays_in_bounds : forall (vs : list var) (xs : list R),
  Forall wf_var vs -> length xs = length (free_vars vs) ->
  exists vs', subst_vars xs vs = Some vs' /\
    locked_vars vs' = locked_vars vs /\
    map v_value (free_vars vs') =
      map (fun vx => Some (stored (fst vx) (clamp (v_lb (fst vx)) (v_ub (fst vx)) (snd vx))))
          (combine (free_vars vs) xs) /\
    Forall (fun v => exists x, v_value v = Some x /\ v_lb v <= x <= v_ub v) (free_vars vs').
Proof. exact substitution_clamps_lemma. Qed.
Print Assumptions C01_substitution_stays_in_bounds.
Example C01_ex : Forall wf_var ex_vars /\ length [7; -3] = length (free_vars ex_vars).
Proof. split; [exact ex_vars_wf|reflexivity]. Qed.

(** C01 over histories of calls, with vectors of any length. *)
Theorem C01_substitution_history : forall (vs : list var) (xss : list (list R)),
  Forall wf_var vs -> Forall within_bounds (free_vars vs) ->
  exists vs', run_substs xss vs = Some vs' /\
    Forall2 untouched_if_locked vs vs' /\
    Forall within_bounds (free_vars vs').
Proof. exact substitution_history_lemma. Qed.
Print Assumptions C01_substitution_history.
Example C01_history_ex : Forall wf_var ex_vars /\ Forall within_bounds (free_vars ex_vars).
Proof. split; [exact ex_vars_wf|]. repeat constructor; unfold within_bounds; simpl; lra. Qed.

(** C02 *)
Theorem C02_locked_variable_never_moves : forall (ops : list vop) (i : nat) (vs vs' : list var) (v : var),
  nth_error vs i = Some v -> v_locked v = true -> is_index v = false ->
  Forall (fun o => ~ unlocks i o) ops ->
  vrun ops vs = Some vs' -> nth_error vs' i = Some v.
Proof. exact locked_never_moves_lemma. Qed.
Print Assumptions C02_locked_variable_never_moves.
Example C02_ex : exists vs',
  vrun [OSubst [2]; OVarSubst 0 7; OLock 0 (Some 3); OUnlock 1]
       [plainvar 0 10 (Some 5) true; plainvar 0 10 (Some 1) false] = Some vs'.
Proof. eexists; cbn -[clamp]. unfold substitute; cbn -[clamp]. reflexivity. Qed.

(** C02 for index variables: safe through calls made on the problem. *)
Theorem C02_locked_variable_safe_through_problem :
  forall (ops : list vop) (i : nat) (vs vs' : list var) (v : var),
  nth_error vs i = Some v -> v_locked v = true ->
  Forall problem_level ops ->
  vrun ops vs = Some vs' -> nth_error vs' i = Some v.
Proof. exact locked_never_moves_problem_lemma. Qed.
Print Assumptions C02_locked_variable_safe_through_problem.
Example C02_problem_ex : exists vs', vrun [OSubst [1]; OSubst [0]] [demo_index true; demo_index false] = Some vs'.
Proof.
  assert (W : Forall wf_var [demo_index true; demo_index false]).
  { repeat constructor; unfold wf_var; simpl; try lra; repeat split; try lia; lra. }
  destruct (substitution_history_lemma [demo_index true; demo_index false] [[1]; [0]] W) as (vs' & E & _).
  { repeat constructor; unfold within_bounds; simpl; lra. }
  exists vs'. cbn [run_substs vrun vstep] in *.
  destruct (subst_vars [1] _) as [v1|]; [|discriminate]. destruct (subst_vars [0] v1); auto.
Qed.

(** C03 is false: a locked index variable takes a directly substituted value,
    while the structure keeps the old section. *)
Theorem C03_locked_index_variable_refuted :
  exists (v v' : var) (x : R),
    wf_var v /\ v_locked v = true /\ substitute v x = Some v' /\ v_value v' <> v_value v /\
    v_written v' = v_written v.
Proof. exact locked_index_refuted_lemma. Qed.
Print Assumptions C03_locked_index_variable_refuted.

(** C04 *)
Theorem C04_constraint_sees_full_vector : forall (vs : list var) (x : list R),
  Forall wf_var vs -> free_have_values vs -> locks_have_values vs -> length x = length (free_vars vs) ->
  exists r vs', nonlin_call vs x = Some (r, vs') /\ completes vs x r.
Proof. exact constraint_sees_full_vector_lemma. Qed.
Print Assumptions C04_constraint_sees_full_vector.
Example C04_ex : Forall wf_var ex_vars /\ free_have_values ex_vars /\ locks_have_values ex_vars /\
  length [2; 1] = length (free_vars ex_vars) /\ completes ex_vars [2; 1] [Some 5; Some 2; Some 1].
Proof.
  split; [exact ex_vars_wf|]. split; [repeat constructor; simpl; congruence|].
  split; [intros v [<-|[<-|[<-|[]]]]; simpl; congruence|]. split; [reflexivity|].
  split; [reflexivity|]. split; [|reflexivity].
  intros [|[|[|[|i]]]] v E L; simpl in E; try discriminate; injection E as <-; simpl in *; try discriminate; auto.
Qed.

(** The vector is pinned down by [completes]. *)
Theorem C04_full_vector_unique : forall (vs : list var) (xs : list R) (r1 r2 : list (option R)),
  completes vs xs r1 -> completes vs xs r2 -> r1 = r2.
Proof. exact completes_unique. Qed.
Print Assumptions C04_full_vector_unique.

(** Without values for the locked variables the alignment is lost. *)
Theorem C04_unvalued_lock_refuted :
  exists vs x r vs',
    Forall wf_var vs /\ free_have_values vs /\ length x = length (free_vars vs) /\
    nonlin_call vs x = Some (r, vs') /\ ~ completes vs x r.
Proof. exact unvalued_lock_refuted_lemma. Qed.
Print Assumptions C04_unvalued_lock_refuted.

(** C05: the objective function gets the completed vector ... *)
Theorem C05_objective_sees_full_vector : forall (vs : list var) (x : list R),
  Forall wf_var vs -> locks_have_values vs -> length x = length (free_vars vs) ->
  exists full vs', objective_call vs x = Some (full, vs') /\ completes vs x (map Some full).
Proof. exact objective_sees_full_vector_lemma. Qed.
Print Assumptions C05_objective_sees_full_vector.

(** ... but the free variables may be assigned entries of other variables. *)
Theorem C05_objective_misassigns_refuted :
  exists vs x full vs',
    Forall wf_var vs /\ locks_have_values vs /\ length x = length (free_vars vs) /\
    Forall2 (fun v y => v_lb v <= y <= v_ub v) (free_vars vs) x /\
    objective_call vs x = Some (full, vs') /\
    map v_value (free_vars vs') <> map Some x.
Proof. exact objective_misassigns_refuted_lemma. Qed.
Print Assumptions C05_objective_misassigns_refuted.

(** Full statement of C05: as below without the ordering of locked after free. *)
Theorem C05_objective_assigns_partial : forall (vs1 vs2 : list var) (x : list R),
  Forall wf_var (vs1 ++ vs2) -> locks_have_values (vs1 ++ vs2) ->
  Forall (fun v => v_locked v = false) vs1 -> Forall (fun v => v_locked v = true) vs2 ->
  length x = length vs1 ->
  exists full vs', objective_call (vs1 ++ vs2) x = Some (full, vs') /\
    map v_value (free_vars vs') =
    map (fun vx => Some (stored (fst vx) (clamp (v_lb (fst vx)) (v_ub (fst vx)) (snd vx)))) (combine vs1 x).
Proof. exact objective_assigns_partial_lemma. Qed.
Print Assumptions C05_objective_assigns_partial.
Example C05_ex : let vs1 := [plainvar 0 10 None false] in let vs2 := [plainvar 0 10 (Some 5) true] in
  Forall wf_var (vs1 ++ vs2) /\ locks_have_values (vs1 ++ vs2) /\
  Forall (fun v => v_locked v = false) vs1 /\ Forall (fun v => v_locked v = true) vs2.
Proof.
  simpl. split; [repeat constructor; unfold wf_var; simpl; lra|].
  split; [intros v [<-|[<-|[]]]; simpl; congruence|]. split; repeat constructor.
Qed.

(** C07: at a point within the bounds a linear constraint is a.x - b, exactly
    if the point differs from the stored one by more than X_TOL, and up to
    (sum |a_i|) * X_TOL otherwise. *)
Theorem C07_linear_constraint_affine : forall (a : list R) (b : R) (vs : list var) (x : list R),
  Forall wf_var vs -> no_index vs -> free_have_values vs -> locks_have_values vs ->
  in_box vs x -> length a = length vs ->
  exists g vs' full, lin_call a b vs x = Some (g, vs') /\
    completes vs x (map Some full) /\
    Rabs (g - (dot a full - b)) <= l1 a * (1 / 100000000) /\
    (forall X, map v_value (free_vars vs) = map Some X -> (1 / 100000000) < norm_diff X x -> g = dot a full - b).
Proof. exact lin_value_lemma. Qed.
Print Assumptions C07_linear_constraint_affine.
Example C07_ex : let vs := [plainvar 0 10 (Some 5) true; plainvar 0 10 (Some 2) false] in
  Forall wf_var vs /\ no_index vs /\ free_have_values vs /\ locks_have_values vs /\ in_box vs [3].
Proof.
  simpl. split; [repeat constructor; unfold wf_var; simpl; lra|]. split; [repeat constructor|].
  split; [repeat constructor; simpl; congruence|].
  split; [intros v [<-|[<-|[]]]; simpl; congruence|]. repeat constructor; simpl; lra.
Qed.

(** Outside the bounds the value is that of the clamped point. *)
Theorem C07_out_of_bounds_refuted :
  exists a b vs x g vs',
    Forall wf_var vs /\ no_index vs /\ free_have_values vs /\ length x = length vs /\
    Forall (fun v => v_locked v = false) vs /\
    lin_call a b vs x = Some (g, vs') /\ 1 <= Rabs (g - (dot a x - b)).
Proof. exact lin_out_of_box_refuted_lemma. Qed.
Print Assumptions C07_out_of_bounds_refuted.

(** With an index variable in the problem a linear constraint always raises. *)
Theorem C07_index_variable_always_raises : forall a b vs x,
  existsb is_index vs = true -> lin_call a b vs x = None.
Proof. exact lin_index_always_fails_lemma. Qed.
Print Assumptions C07_index_variable_always_raises.
Example C07_index_ex : existsb is_index ex_vars = true.
Proof. reflexivity. Qed.

(** C83 *)
Theorem C83_scaling_preserves_written_value_partial : forall (v : var) (s x : R),
  0 < s -> v_scaling v = 1 -> v_locked v = false -> is_index v = false ->
  (v_target v = TSingle \/ v_target v = TListFun) ->
  (v_lb v <= x <= v_ub v <-> v_lb (scale v s) <= x / s <= v_ub (scale v s)) /\
  exists v', substitute (scale v s) (x / s) = Some v' /\ v_written v' = Some x.
Proof. exact scaled_write_lemma. Qed.
Print Assumptions C83_scaling_preserves_written_value_partial.
Example C83_ex : let v := mkVar KCont 0 10 None false 1 TSingle None in
  0 < 100 /\ v_scaling v = 1 /\ v_locked v = false /\ is_index v = false /\
  (v_target v = TSingle \/ v_target v = TListFun).
Proof. simpl; repeat split; auto; lra. Qed.

Theorem C83_list_target_refuted :
  exists v s x v', 0 < s /\ v_scaling v = 1 /\ v_locked v = false /\ v_target v = TList /\
    substitute (scale v s) (x / s) = Some v' /\ v_written v' <> Some x.
Proof. exact scaled_write_refuted_lemma. Qed.
Print Assumptions C83_list_target_refuted.

Theorem C83_scale_twice_refuted :
  exists v s1 s2 x v', 0 < s1 /\ 0 < s2 /\ v_scaling v = 1 /\ v_locked v = false /\ v_target v = TSingle /\
    substitute (scale (scale v s1) s2) (x / s1 / s2) = Some v' /\ v_written v' <> Some x.
Proof. exact scale_twice_refuted_lemma. Qed.
Print Assumptions C83_scale_twice_refuted.

(** C84 *)
Theorem C84_constraint_analysis_is_fresh :
  forall (vs : list var) (ops : list pop_op) (p : prob) (x : list R) (lids : list nat) (p' : prob),
  prun ops (fresh_prob vs) = Some p -> con_call p x lids = Some p' ->
  forall l, In l lids -> lookup_done (p_done p') l = Some (true, snap (p_vars p')).
Proof. exact constraint_analysis_fresh_lemma. Qed.
Print Assumptions C84_constraint_analysis_is_fresh.
Example C84_ex : exists p p', prun [PSubst [4]] (fresh_prob [plainvar 0 10 (Some 1) false]) = Some p /\
  con_call p [5] [1%nat; 2%nat] = Some p'.
Proof.
  eexists; eexists; split.
  - simpl. unfold prob_substitute; simpl. unfold substitute; simpl. reflexivity.
  - unfold con_call; simpl. unfold prob_substitute; simpl. unfold substitute; simpl.
    match goal with |- context [Rlt_dec ?a ?b] => destruct (Rlt_dec a b) as [C|C] end; [reflexivity|].
    exfalso; apply C. rewrite clamp_id by lra. unfold norm_diff; simpl.
    replace ((4-5)*(4-5)+0) with (1*1) by ring. rewrite sqrt_square by lra. unfold X_TOL; lra.
Qed.

(** C85: linearisation with a numerical objective gradient uses fresh analyses ... *)
Theorem C85_linearize_fresh_without_gradient_partial : forall p i xi lids p',
  linearize_probe false p i xi lids = Some p' ->
  forall l, In l lids -> lookup_done (p_done p') l = Some (true, snap (p_vars p')).
Proof. exact linearize_fresh_lemma. Qed.
Print Assumptions C85_linearize_fresh_without_gradient_partial.
Example C85_ex : exists p', linearize_probe false (fresh_prob [plainvar 0 10 (Some 5) false]) 0 6 [1%nat] = Some p'.
Proof.
  unfold linearize_probe; simpl. unfold obj_call, prob_substitute; simpl. unfold substitute; simpl.
  unfold con_call; simpl. destruct (Rlt_dec _ _); eauto. unfold prob_substitute; simpl. unfold substitute; simpl. eauto.
Qed.

(** ... with a supplied gradient it reads results of an earlier design. *)
Theorem C85_linearize_stale_refuted :
  exists vs p0 p x xi p',
    Forall wf_var vs /\
    con_call p0 x [1%nat] = Some p /\ p0 = fresh_prob vs /\
    linearize_probe true p 0 xi [1%nat] = Some p' /\
    lookup_done (p_done p') 1 <> Some (true, snap (p_vars p')).
Proof. exact linearize_stale_refuted_lemma. Qed.
Print Assumptions C85_linearize_stale_refuted.

(** An objective that asks for an analysis never sees one of the current design. *)
Theorem C85_objective_stale_refuted :
  exists vs p0 p p',
    Forall wf_var vs /\ p0 = fresh_prob vs /\
    obj_call true p0 [5] = Some p /\ obj_call true p [6] = Some p' /\
    (forall l b s, lookup_done (p_done p') l = Some (b, s) -> s <> snap (p_vars p')).
Proof. exact objective_stale_refuted_lemma. Qed.
Print Assumptions C85_objective_stale_refuted.

(** C86 *)
Theorem C86_first_point_kept_partial : forall xs xss vs q p1,
  prob_substitute (fresh_prob vs) xs = Some p1 ->
  Forall (fun X => exists Y, X = Some Y /\ nonzero Y) (trace (xs :: xss) (fresh_prob vs)) ->
  run_psubsts (xs :: xss) (fresh_prob vs) = Some q ->
  p_x0 q = Some (clamped xs (free_vars vs)).
Proof. exact x0_first_lemma. Qed.
Print Assumptions C86_first_point_kept_partial.
Example C86_ex : exists p1, prob_substitute (fresh_prob [plainvar 1 10 None false]) [2] = Some p1 /\
  Forall (fun X => exists Y, X = Some Y /\ nonzero Y) (trace [[2]] (fresh_prob [plainvar 1 10 None false])).
Proof.
  eexists; split; [unfold prob_substitute; simpl; unfold substitute; simpl; reflexivity|].
  simpl. unfold substitute; simpl. constructor; [|constructor].
  eexists; split; [reflexivity|]. exists (clamp 1 10 2); split; [simpl; auto|]. rewrite clamp_id; lra.
Qed.

Theorem C86_zero_start_refuted :
  exists vs p1 p2, Forall wf_var vs /\
    prob_substitute (fresh_prob vs) [0] = Some p1 /\ prob_substitute p1 [3] = Some p2 /\
    p_x0 p1 = Some [0] /\ p_x0 p2 = Some [3].
Proof. exact x0_zero_start_refuted_lemma. Qed.
Print Assumptions C86_zero_start_refuted.
