(** C20-C24: branch and bound. *)
From Verif Require Import BnB_spec BnB_proofs BnB2_proofs.

(** C20: the children of a node contain exactly one copy of every admissible
    point of the parent, nothing outside the parent, and not the relaxed point. *)
Theorem C20_branching_covers_and_separates_partial : forall vs (orig : box) (xR : list R) nd c1 c2,
  length orig = length vs -> wf_path (length vs) (n_path nd) ->
  branch vs xR nd = Some (c1, c2) ->
  (wf_path (length vs) (n_path c1) /\ wf_path (length vs) (n_path c2)) /\
  (forall x, admissible vs x -> in_bounds (node_box orig (n_path nd)) x ->
     (in_bounds (node_box orig (n_path c1)) x /\ ~ in_bounds (node_box orig (n_path c2)) x) \/
     (in_bounds (node_box orig (n_path c2)) x /\ ~ in_bounds (node_box orig (n_path c1)) x)) /\
  (forall x, in_bounds (node_box orig (n_path c1)) x \/ in_bounds (node_box orig (n_path c2)) x ->
     in_bounds (node_box orig (n_path nd)) x) /\
  (~ in_bounds (node_box orig (n_path c1)) xR /\ ~ in_bounds (node_box orig (n_path c2)) xR).
Proof. exact branch_covers_lemma. Qed.
Print Assumptions C20_branching_covers_and_separates_partial.
(** Finding: branching on an integer variable raises (integer variables carry no
    list of values), so the integer case of C20 is only reached as an exception. *)
Theorem C20_integer_branching_raises : forall vs (xR : list R) nd i v xr viol,
  nth_error vs i = Some v -> b_kind v = BInt -> nth_error xR i = Some xr ->
  violation v xr = Some viol -> 0 < viol ->
  (forall j w y, nth_error vs j = Some w -> nth_error xR j = Some y -> j <> i -> violation w y = Some 0) ->
  branch vs xR nd = None.
Proof. exact branch_integer_raises. Qed.
Print Assumptions C20_integer_branching_raises.
Example C20_ex : exists c1 c2, branch [mkBv (BDisc [1; 3]) 0] [5/2] (mkNode [] None) = Some (c1, c2).
Proof. exact branch_example. Qed.

(** C21 *)
Theorem C21_global_optimum : forall P (Feas : list R -> Prop) O maxiter s,
  length (p_box P) = length (p_vs P) -> good_rows (p_vs P) (p_lin P) ->
  (forall x, Feas x -> Forall (row_holds x) (p_lin P)) ->
  obt_sound P Feas O -> relax_sound P Feas O ->
  bnb_solve P O maxiter = Some s -> s_open s = [] ->
  forall x, admissible (p_vs P) x -> Feas x -> in_bounds (p_box P) x ->
  exists fb xb, s_best s = Some (fb, xb) /\ fb <= p_f P x.
Proof. exact bnb_optimal_lemma. Qed.
Print Assumptions C21_global_optimum.
(** Hypotheses met: minimise |x - 5/2| over the list {1, 3}; the run ends with
    no open node and incumbent 3. *)
Example C21_ex :
  (length (p_box exP) = length (p_vs exP) /\ good_rows (p_vs exP) (p_lin exP) /\ obt_sound exP (fun _ => True) exO /\ relax_sound exP (fun _ => True) exO) /\
  exists s, bnb_solve exP exO 5 = Some s /\ s_open s = [] /\ s_best s = Some (Rabs (3 - 5/2), [3]).
Proof. exact (conj ex_contracts ex_run). Qed.
(** Finding: a continuous variable in the problem makes every node that is not
    fathomed raise. *)
Theorem C21_continuous_variable_raises : forall P O k nd rest best bx1 flb xR,
  Exists (fun v => b_kind v = BCont) (p_vs P) ->
  feasibility_tightening (p_vs P) (p_lin P) (node_box (p_box P) (n_path nd)) = Some bx1 ->
  existsb (fun b => Rltb (snd b) (fst b)) (o_obt O k bx1) = false ->
  o_relax O k (o_obt O k bx1) = Some (flb, xR) -> fathomed flb best = false ->
  process P O k nd rest best = None.
Proof. exact continuous_raises_lemma. Qed.
Print Assumptions C21_continuous_variable_raises.
(** Depth-first selection picks a deepest node, and among those one with the
    least bound. *)
Theorem C21_depth_first_selection : forall nodes, nodes <> [] ->
  exists n, depth_first nodes = Some n /\ In n nodes /\
  (forall m, In m nodes -> (length (n_path m) <= length (n_path n))%nat) /\
  (forall m, In m nodes -> length (n_path m) = length (n_path n) -> lb_le (n_lb n) (n_lb m)).
Proof. exact depth_first_lemma. Qed.
Print Assumptions C21_depth_first_selection.

(** C22 *)
Theorem C22_incumbent_never_worsens : forall P O m1 m2 s1 s2, (m1 <= m2)%nat ->
  bnb_solve P O m1 = Some s1 -> bnb_solve P O m2 = Some s2 -> best_le (s_best s2) (s_best s1).
Proof. exact incumbent_improves_lemma. Qed.
Print Assumptions C22_incumbent_never_worsens.
Theorem C22_incumbent_has_its_value : forall P O maxiter s fb xb,
  (forall k bx flb xR, o_relax O k bx = Some (flb, xR) -> flb = p_f P xR) ->
  bnb_solve P O maxiter = Some s -> s_best s = Some (fb, xb) -> fb = p_f P xb.
Proof. exact incumbent_value_lemma. Qed.
Print Assumptions C22_incumbent_has_its_value.
Example C22_ex : (forall k bx flb xR, o_relax exO k bx = Some (flb, xR) -> flb = p_f exP xR) /\
  exists s, bnb_solve exP exO 5 = Some s /\ s_best s = Some (Rabs (3 - 5/2), [3]).
Proof.
  split.
  - intros k [|[l u] [|? ?]] flb xR; simpl; try discriminate. destruct (Rle_dec l u); [|discriminate].
    intros H; injection H as <- <-. reflexivity.
  - destruct ex_run as (s & A & _ & B). eauto.
Qed.

(** C23: refuted -- a heuristic point violating a '>' constraint becomes the
    incumbent although every relaxed point satisfies all constraints. *)
Theorem C23_accepts_infeasible_refuted : exists P O s fb xb,
  (forall k bx flb xR, o_relax O k bx = Some (flb, xR) -> flb = p_f P xR /\ ok_within (p_tol P) (p_cons P) xR) /\
  bnb_solve P O 5 = Some s /\ s_best s = Some (fb, xb) /\ ~ ok_within (p_tol P) (p_cons P) xb.
Proof. exact accepts_infeasible_refuted. Qed.
Print Assumptions C23_accepts_infeasible_refuted.
(** What holds: with '<' constraints only. Missing: '>' and '=' constraints. *)
Theorem C23_incumbent_feasible_partial : forall P O maxiter s fb xb,
  Forall (fun c => fst c = CLt) (p_cons P) ->
  (forall k bx flb xR, o_relax O k bx = Some (flb, xR) -> ok_within (p_tol P) (p_cons P) xR) ->
  bnb_solve P O maxiter = Some s -> s_best s = Some (fb, xb) -> ok_within (p_tol P) (p_cons P) xb.
Proof. exact incumbent_feasible_lemma. Qed.
Print Assumptions C23_incumbent_feasible_partial.

(** C24: refuted for '>' rows and for rows with a coefficient below 1e-9. *)
Theorem C24_tightening_gt_refuted : exists vs lcons bx x bx',
  Forall (fun c => length (snd (fst c)) = length vs) lcons /\ admissible vs x /\ in_bounds bx x /\
  Forall (row_holds x) lcons /\ feasibility_tightening vs lcons bx = Some bx' /\ ~ in_bounds bx' x.
Proof. exact tighten_gt_refuted. Qed.
Print Assumptions C24_tightening_gt_refuted.
Theorem C24_tightening_tiny_refuted : exists vs lcons bx x bx',
  Forall (fun c => fst (fst c) = CLt /\ length (snd (fst c)) = length vs) lcons /\ admissible vs x /\ in_bounds bx x /\
  Forall (row_holds x) lcons /\ feasibility_tightening vs lcons bx = Some bx' /\ ~ in_bounds bx' x.
Proof. exact tighten_tiny_refuted. Qed.
Print Assumptions C24_tightening_tiny_refuted.
(** What holds: rows of type '<' whose coefficients are zero or above 1e-9.
    Missing: '>' and '=' rows and tiny coefficients. *)
Theorem C24_tightening_partial : forall vs lcons bx x,
  good_rows vs lcons -> admissible vs x -> in_bounds bx x -> Forall (row_holds x) lcons ->
  exists bx', feasibility_tightening vs lcons bx = Some bx' /\ in_bounds bx' x.
Proof. exact tightening_lemma. Qed.
Print Assumptions C24_tightening_partial.
Example C24_ex : good_rows [mkBv BInt 0; mkBv (BDisc [1; 2; 4]) 0] [(CLt, [1; -1], 1)] /\
  admissible [mkBv BInt 0; mkBv (BDisc [1; 2; 4]) 0] [2; 4] /\ in_bounds [(0, 9); (0, 9)] [2; 4] /\
  Forall (row_holds [2; 4]) [(CLt, [1; -1], 1)].
Proof.
  split; [|split; [|split]].
  - constructor; [|constructor]. simpl; split; [auto|split; [auto|]]. constructor; [right; rewrite Rabs_R1; lra|].
    constructor; [right; rewrite Rabs_left; lra|constructor].
  - constructor; [exists 2%Z; reflexivity|]. constructor; [unfold adm1; simpl; auto|constructor].
  - repeat constructor; simpl; lra.
  - repeat constructor. simpl; lra.
Qed.
Example C23_ex : Forall (fun c => fst c = CLt) [(CLt, fun x : list R => nth 0 x 0 - 1)] /\
  ok_within (1/10000) [(CLt, fun x : list R => nth 0 x 0 - 1)] [1].
Proof. split; repeat constructor. simpl. lra. Qed.
