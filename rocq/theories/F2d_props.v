(** C263-C273: the two-dimensional frame program. *)
From Verif Require Import Base EC3_model Bool_tac Sections_proofs F2d_proofs F2d2_proofs F2d3_proofs.
From Verif Require Import F2d_model F2d_spec.
Require Import Reals List Bool Lra Lia Permutation PeanoNat.
Import ListNotations.
Local Open Scope R_scope.

(** A member of length 5 used in the examples. *)
Definition ex_mem : mem := mkMem (0, 0) (3, 4) false.
Lemma ex_len : mlen ex_mem = 5.
Proof. unfold mlen, pdist, ex_mem. cbn [m_a m_b fst snd]. replace ((3 - 0) ^ 2 + (4 - 0) ^ 2) with (5 * 5) by ring. apply sqrt_square. lra. Qed.

(** C263 *)
Theorem C263_member_frame : forall m, 0 < mlen m ->
  to_global m 0 = m_a m /\ to_global m 1 = m_b m /\
  (forall t, pdist (m_a m) (to_global m t) = Rabs t * mlen m) /\
  fst (unitv m) ^ 2 + snd (unitv m) ^ 2 = 1 /\ fst (perp m) ^ 2 + snd (perp m) ^ 2 = 1 /\
  fst (unitv m) * fst (perp m) + snd (unitv m) * snd (perp m) = 0 /\
  fst (unitv m) * snd (perp m) - snd (unitv m) * fst (perp m) = (if m_rev m then 1 else -1).
Proof. exact member_frame_lemma. Qed.
Print Assumptions C263_member_frame.
Theorem C263_shape : forall m t, 0 < mlen m -> fst (m_a m) <> fst (m_b m) -> shape m (fst (to_global m t)) = snd (to_global m t).
Proof. exact shape_lemma. Qed.
Print Assumptions C263_shape.
Theorem C263_angle : forall m, 
  0 <= angle m < PI /\ angle (mkMem (m_b m) (m_a m) (m_rev m)) = angle m /\
  (1/1000000 <= Rabs (fst (m_b m) - fst (m_a m)) -> (fst (m_b m) - fst (m_a m)) * sin (angle m) = (snd (m_b m) - snd (m_a m)) * cos (angle m)) /\
  (fst (m_a m) = fst (m_b m) -> angle m = PI / 2).
Proof. exact angle_lemma. Qed.
Print Assumptions C263_angle.
Example C263_ex : 0 < mlen ex_mem /\ shape ex_mem (fst (to_global ex_mem (1/2))) = snd (to_global ex_mem (1/2)) /\ perp ex_mem = (4/5, - (3/5)).
Proof.
  assert (P : 0 < mlen ex_mem) by (rewrite ex_len; lra). split; [exact P|]. split; [apply C263_shape; auto; cbn [ex_mem m_a m_b fst]; lra|].
  unfold perp, unitv. rewrite ex_len. cbn [ex_mem m_rev m_a m_b fst snd]. f_equal; lra.
Qed.

(** C264 *)
Theorem C264_intersection : forall m p q, m_a m <> m_b m -> p <> q ->
  (line_intersection m p q = None <-> parallel (m_a m) (m_b m) p q) /\
  (forall c, line_intersection m p q = Some c ->
     exists z, on_line (m_a m) (m_b m) z /\ on_line p q z /\ close (5/1000000) c z /\
       forall z', on_line (m_a m) (m_b m) z' -> on_line p q z' -> z' = z).
Proof. exact intersection_lemma. Qed.
Print Assumptions C264_intersection.
Example C264_ex : line_intersection ex_mem (0, 4) (3, 0) = Some (3/2, 2) /\ ~ parallel (0, 0) (3, 4) (0, 4) (3, 0).
Proof.
  split; [|unfold parallel; cbn [fst snd]; lra]. unfold line_intersection. assert (D : det4 ex_mem (0, 4) (3, 0) = -24) by (unfold det4, ex_mem; cbn [m_a m_b fst snd]; lra).
  rewrite D. rewrite eqb_f by lra. unfold raw_intersection. rewrite D. cbn [ex_mem m_a m_b fst snd].
  rewrite (roundn_of 5 _ 150000) by (match goal with |- Rabs ?x < _ => replace x with 0 by field end; rewrite Rabs_R0; lra).
  rewrite (roundn_of 5 _ 200000) by (match goal with |- Rabs ?x < _ => replace x with 0 by field end; rewrite Rabs_R0; lra).
  f_equal. f_equal; lra.
Qed.

(** C265 *)
Theorem C265_point_on_member : forall m c,
  (forall b, point_intersection m c = Some b -> b = true ->
     exists s, on_segment (m_a m) (m_b m) s /\ close (2/100000000) c s) /\
  (on_segment (m_a m) (m_b m) c -> m_a m <> m_b m -> fst (m_a m) = fst (m_b m) \/ 1/100000000 < Rabs (fst (m_b m) - fst (m_a m)) ->
     point_intersection m c = Some true) /\
  (point_intersection m c = None <-> Rabs (fst (m_b m) - fst (m_a m)) <= 1/100000000 /\ snd (m_a m) = snd (m_b m)).
Proof. exact point_on_lemma. Qed.
Print Assumptions C265_point_on_member.
Theorem C265_added_node : forall m added c, on_segment (m_a m) (m_b m) c -> m_a m <> m_b m ->
  fst (m_a m) = fst (m_b m) \/ 1/100000000 < Rabs (fst (m_b m) - fst (m_a m)) ->
  exists l, add_node_coord m added c = Some l /\ In c l /\ incl added l.
Proof. exact add_coord_lemma. Qed.
Print Assumptions C265_added_node.
Theorem C265_crossing_partial : forall new old z an ao,
  let ok m := m_a m <> m_b m /\ (fst (m_a m) = fst (m_b m) \/ 1/100000000 < Rabs (fst (m_b m) - fst (m_a m))) in
  ok new -> ok old -> ~ parallel (m_a new) (m_b new) (m_a old) (m_b old) ->
  on_segment (m_a new) (m_b new) z -> on_segment (m_a old) (m_b old) z -> roundn 5 (fst z) = fst z -> roundn 5 (snd z) = snd z ->
  exists an' ao', connect new old an ao = Some (an', ao') /\ In z an' /\ In z ao' /\ incl an an' /\ incl ao ao'.
Proof. exact connect_lemma. Qed.
Print Assumptions C265_crossing_partial.
(** Finding: the crossing point is rounded to five decimals and then has to lie on the member within
    1e-8, so the member that is not parallel to an axis gets no node at the crossing. *)
Theorem C265_crossing_refuted : exists z, on_segment (m_a slope_mem) (m_b slope_mem) z /\ on_segment (m_a post_mem) (m_b post_mem) z /\
  connect slope_mem post_mem [] [] = Some ([], [(1, 33333/100000)]).
Proof. exact connect_lost_lemma. Qed.
Print Assumptions C265_crossing_refuted.
Example C265_ex : on_segment (m_a ex_mem) (m_b ex_mem) (3/2, 2) /\ point_intersection ex_mem (3/2, 2) = Some true.
Proof.
  assert (O : on_segment (m_a ex_mem) (m_b ex_mem) (3/2, 2)) by (exists (1/2); split; [lra|unfold at_param; cbn [ex_mem m_a m_b fst snd]; lra]).
  split; [exact O|]. apply (C265_point_on_member ex_mem (3/2, 2)); auto; cbn [ex_mem m_a m_b fst].
  - intros H. inversion H. lra.
  - right. rewrite Rabs_pos_eq; lra.
Qed.

(** C266 *)
Theorem C266_nodes : forall m added n l, 0 < mlen m -> nodal_coordinates m added n = Some l ->
  Permutation l (added ++ map (fun k => to_global m (loc n k)) (seq 0 (n + 1))) /\ outward (m_a m) l /\
  (Forall (on_segment (m_a m) (m_b m)) added -> exists r, l = m_a m :: r /\ List.last l (m_a m) = m_b m /\ Forall (on_segment (m_a m) (m_b m)) l /\ path_length l = mlen m).
Proof. exact f2d_nodes_lemma. Qed.
Print Assumptions C266_nodes.
Theorem C266_spacing : (forall n k, Rabs (loc n k - INR k / INR n) <= 1/2000) /\
  (forall n k, (0 < n)%nat -> (exists j : nat, 1000 = j * n)%nat -> loc n k = INR k / INR n).
Proof. exact spacing_lemma. Qed.
Print Assumptions C266_spacing.
(** Finding: the local coordinates are rounded to three decimals, so with six elements (the default of
    the truss examples) the elements of a member differ in length. *)
Theorem C266_equal_spacing_refuted : loc 6 1 - loc 6 0 <> loc 6 2 - loc 6 1.
Proof. exact unequal_lemma. Qed.
Print Assumptions C266_equal_spacing_refuted.
Example C266_ex : exists l, nodal_coordinates ex_mem [(3/2, 2)] 4 = Some l /\ path_length l = 5.
Proof.
  assert (P : 0 < mlen ex_mem) by (rewrite ex_len; lra). eexists. split; [reflexivity|].
  destruct (C266_nodes ex_mem [(3/2, 2)] 4 _ P eq_refl) as (_ & _ & H). destruct H as (r & _ & _ & _ & H); [|rewrite H; apply ex_len].
  constructor; [|constructor]. exists (1/2). split; [lra|unfold at_param; cbn [ex_mem m_a m_b fst snd]; lra].
Qed.

(** C267 *)
Theorem C267_shared_nodes : forall ms fe iss, gen_nodes [] ms = (fe, iss) ->
  NoDup fe /\ (forall q, In q fe <-> exists cs, In cs ms /\ In q cs) /\ Forall2 (fun cs is => List.length cs = List.length is) ms iss /\
  forall a b i j c d u v, nth_error ms a = Some c -> nth_error iss a = Some u -> nth_error ms b = Some d -> nth_error iss b = Some v ->
    (i < List.length c)%nat -> (j < List.length d)%nat -> (nth_error u i = nth_error v j <-> nth_error c i = nth_error d j).
Proof. exact shared_nodes_lemma. Qed.
Print Assumptions C267_shared_nodes.
Theorem C267_end_nodes : forall ids, ids <> [] ->
  fst (end_nodes ids) = Some (List.hd 0%nat ids) /\ (List.last ids 0%nat <> 0%nat -> snd (end_nodes ids) = Some (List.last ids 0%nat)) /\
  (List.last ids 0%nat = 0%nat -> snd (end_nodes ids) = None).
Proof. exact end_nodes_lemma. Qed.
Print Assumptions C267_end_nodes.
(** Finding: a member ending at the node with index 0 gets no second end node. *)
Theorem C267_end_node_refuted : forall p q r, p <> q -> p <> r -> q <> r ->
  exists fe ia ib, gen_nodes [] [[p; q]; [r; p]] = (fe, [ia; ib]) /\ nth_error fe (List.last ib 0%nat) = Some p /\ snd (end_nodes ib) = None.
Proof. exact closed_end_lemma. Qed.
Print Assumptions C267_end_node_refuted.
Example C267_ex : exists fe iss, gen_nodes [] [[(0, 0); (0, 5)]; [(0, 5); (4, 5)]] = (fe, iss) /\ NoDup fe /\ List.length iss = 2%nat.
Proof.
  destruct (gen_nodes [] [[(0, 0); (0, 5)]; [(0, 5); (4, 5)]]) as [fe iss] eqn:E. exists fe, iss. split; auto. destruct (C267_shared_nodes _ _ _ E) as (N & _ & F & _). split; auto. apply Forall2_length in F. auto.
Qed.

(** C268 *)
Theorem C268_elements_partial : forall t nodes s1 s2 es, t <> Bar -> gen_elements t nodes s1 s2 = Some es ->
  List.length es = (List.length nodes - 1)%nat /\
  forall i, (i < List.length es)%nat -> exists k a b, nth_error es i = Some (k, (a, b)) /\ nth_error nodes i = Some a /\ nth_error nodes (S i) = Some b /\
    match t, k with
    | Beam, Semi u v => (u = if Nat.eqb i 0 then s1 else Rigid) /\ (v = if Nat.eqb (S (S i)) (List.length nodes) then s2 else Rigid)
    | Beam, EB => (0 < i)%nat /\ (S (S i) < List.length nodes)%nat
    | _, EB => True
    | _, _ => False
    end.
Proof. exact f2d_elements_lemma. Qed.
Print Assumptions C268_elements_partial.
(** Finding: a bar with inner nodes is a rod between its first two nodes; its far end is not connected. *)
Theorem C268_bar_refuted : forall nodes s1 s2, NoDup nodes -> (2 < List.length nodes)%nat ->
  exists es, gen_elements Bar nodes s1 s2 = Some es /\ forall k a b, In (k, (a, b)) es -> a <> List.last nodes 0%nat /\ b <> List.last nodes 0%nat.
Proof. exact bar_lemma. Qed.
Print Assumptions C268_bar_refuted.
Example C268_ex : gen_elements Beam [3; 5; 8; 9]%nat (Spring 2) Rigid = Some [(Semi (Spring 2) Rigid, (3, 5)); (EB, (5, 8)); (Semi Rigid Rigid, (8, 9))]%nat /\
  (exists es, gen_elements Bar [3; 5; 8]%nat Rigid Rigid = Some es /\ forall k a b, In (k, (a, b)) es -> b <> 8%nat).
Proof.
  split; [reflexivity|]. destruct (C268_bar_refuted [3; 5; 8]%nat Rigid Rigid) as (es & E & H); [repeat constructor; cbn; intuition lia|cbn; lia|]. exists es. split; auto. intros k a b K. apply (H k a b K).
Qed.

(** C269 *)
Theorem C269_max_force : forall es, extreme (max_force es) (all_ends es).
Proof. exact max_force_lemma. Qed.
Print Assumptions C269_max_force.
Theorem C269_max_displacement : forall ds, extreme (max_disp ds) ds.
Proof. exact max_disp_lemma. Qed.
Print Assumptions C269_max_displacement.
Theorem C269_absmax_value_partial : forall es, no_jump es -> es <> [] -> exists v, absmax_force_value es = Some v /\ extreme v (all_ends es).
Proof. exact absmax_value_lemma. Qed.
Print Assumptions C269_absmax_value_partial.
(** Finding: the greatest value reported for a member leaves out the start of every element but the
    first, so a peak before a point load or a joint is missed. *)
Theorem C269_jump_refuted : forall a b, Rabs a < Rabs b -> exists es v,
  In b (all_ends es) /\ absmax_force_value es = Some v /\ Rabs v = Rabs a.
Proof. exact jump_missed_lemma. Qed.
Print Assumptions C269_jump_refuted.
Theorem C269_sections_partial : forall es, es <> [] -> List.length (section_forces es) = S (List.length es) /\
  (forall i e, nth_error es i = Some e -> nth_error (section_forces es) i = Some (fst e)) /\
  nth_error (section_forces es) (List.length es) = Some (snd (List.last es (0, 0))) /\
  (forall x, In x (section_forces es) -> In x (all_ends es)) /\
  (no_jump es -> forall x, In x (all_ends es) -> In x (section_forces es)).
Proof. exact f2d_sections_lemma. Qed.
Print Assumptions C269_sections_partial.
(** Finding: the sections handed to the design leave out the end of every element but the last. *)
Theorem C269_sections_refuted : forall a b, Rabs a < Rabs b -> exists es, In b (all_ends es) /\ forall x, In x (section_forces es) -> Rabs x = Rabs a.
Proof. exact sections_jump_lemma. Qed.
Print Assumptions C269_sections_refuted.
Theorem C269_nodal_values : forall es, es <> [] -> List.length (nodal_forces es) = S (List.length es) /\
  forall i e, nth_error es i = Some e -> nth_error (nodal_forces es) i = Some (absmax e).
Proof. exact nodal_lemma. Qed.
Print Assumptions C269_nodal_values.
Example C269_ex : extreme (-7) [3; -7; 5] /\ max_force [(3, -7); (-7, 5)] = -7 /\ no_jump [(3, -7); (-7, 5)].
Proof.
  assert (L : Rabs 3 = 3 /\ Rabs (-7) = 7 /\ Rabs 5 = 5) by (split; [apply Rabs_pos_eq; lra|split; [rewrite Rabs_left; lra|apply Rabs_pos_eq; lra]]).
  split; [split; [intros x [<-|[<-|[<-|[]]]]; lra|left; cbn; auto]|]. split; [|cbn; auto].
  destruct (C269_max_force [(3, -7); (-7, 5)]) as [H1 H2]. assert (K : 7 <= Rabs (max_force [(3, -7); (-7, 5)])) by (pose proof (H1 (-7) ltac:(cbn; auto)); lra).
  destruct H2 as [H2|H2]; [|rewrite H2, Rabs_R0 in K; lra]. revert K H2. generalize (max_force [(3, -7); (-7, 5)]) as v. intros v K H2. apply in_all_ends in H2. destruct H2 as (e & He & H2). destruct He as [<-|[<-|[]]]; cbn [fst snd] in H2; destruct H2; subst v; lra.
Qed.

(** C270 *)
Theorem C270_line_values : forall f v0 v1 n, (0 < n)%nat -> fst (line_values f v0 v1 n 0) = v0 /\ snd (line_values f v0 v1 n (n - 1)) = v1 /\
  (forall i, snd (line_values f v0 v1 n i) = fst (line_values f v0 v1 n (S i))).
Proof. exact line_values_lemma. Qed.
Print Assumptions C270_line_values.
Theorem C270_line_total_partial : forall f v0 v1 n l, (0 < n)%nat -> line_total f v0 v1 (repeat l n) = (v0 + v1) / 2 * (INR n * l).
Proof. exact f2d_line_total_lemma. Qed.
Print Assumptions C270_line_total_partial.
Theorem C270_line_uniform : forall f v ls, line_total f v v ls = v * Rsum ls.
Proof. exact line_uniform_lemma. Qed.
Print Assumptions C270_line_uniform.
(** Finding: end values are interpolated by element number, not by position. *)
Theorem C270_line_total_refuted : forall f, line_total f 0 2 [1; 3] <> (0 + 2) / 2 * Rsum [1; 3].
Proof. exact line_unequal_lemma. Qed.
Print Assumptions C270_line_total_refuted.
(** Finding: the factor of a line load has no effect. *)
Theorem C270_line_factor_refuted : forall f v ls, f <> 1 -> v <> 0 -> Rsum ls <> 0 -> line_total f v v ls <> f * v * Rsum ls.
Proof. exact line_factor_lemma. Qed.
Print Assumptions C270_line_factor_refuted.
Theorem C270_point_load : forall fe c, NoDup fe -> (forall i, nth_error fe i = Some c -> point_load_node fe c = Some i) /\ (~ In c fe -> point_load_node fe c = None).
Proof. exact point_load_lemma. Qed.
Print Assumptions C270_point_load.
Lemma point_load_dropped : forall raw c, round_pt c <> c -> point_load_node (map round_pt raw) c = None.
Proof. intros raw c H. apply point_load_dropped_lemma; [exact H|exact round_pt_idem]. Qed.
(** Finding: a point load at a coordinate with more than three decimals acts on no node. *)
Theorem C270_point_load_refuted : forall raw c, round_pt c <> c -> point_load_node (map round_pt raw) c = None.
Proof. exact point_load_dropped. Qed.
Print Assumptions C270_point_load_refuted.
Example C270_ex : line_total 1 2 6 [3; 3] = 24 /\ round_pt (1/3, 0) <> (1/3, 0).
Proof.
  split; [change [3; 3] with (repeat 3 2); rewrite (C270_line_total_partial 1 2 6 2 3) by lia; cbn [INR]; lra|]. unfold round_pt. cbn [fst snd]. rewrite (roundn_of 3 (1/3) 333) by (rewrite Rabs_pos_eq; lra). intros H. inversion H. lra.
Qed.

(** C271 *)
Theorem C271_columns : forall storeys bays h L, 0 < h -> columns storeys bays h L = column_grid storeys bays h L.
Proof. exact columns_lemma. Qed.
Print Assumptions C271_columns.
Theorem C271_beams : forall storeys bays h L, 0 < h -> beams storeys bays h L = beam_grid storeys bays h L.
Proof. exact beams_lemma. Qed.
Print Assumptions C271_beams.
Theorem C271_extent : forall storeys bays h L, 0 < h -> 0 <= L -> (0 < storeys)%nat ->
  span (columns storeys bays h L ++ beams storeys bays h L) = Some (INR bays * L) /\
  height (columns storeys bays h L ++ beams storeys bays h L) = Some (INR storeys * h).
Proof. exact extent_lemma. Qed.
Print Assumptions C271_extent.
Example C271_ex : span (columns 2 3 3000 6000 ++ beams 2 3 3000 6000) = Some 18000 /\ List.length (columns 2 3 3000 6000) = 8%nat.
Proof.
  destruct (C271_extent 2 3 3000 6000) as [H _]; [lra|lra|lia|]. split; [rewrite H; f_equal; cbn [INR]; lra|]. rewrite C271_columns by lra. reflexivity.
Qed.

(** C272 *)
Theorem C272_stored_stiffness : forall v, 1/10000 <= set_Sj v <= 10 ^ 20 /\ (1/10000 <= v <= 10 ^ 20 -> set_Sj v = v) /\ (forall w, v <= w -> set_Sj v <= set_Sj w).
Proof. exact set_Sj_lemma. Qed.
Print Assumptions C272_stored_stiffness.
Theorem C272_round_trip_partial : forall alpha E I L, 0 < E -> 0 < I -> 0 < L -> 1/10000 <= alpha * E * I * / 10 ^ 12 / L <= 10 ^ 20 ->
  Sj_to_alpha (alpha_to_Sj alpha E I L) E I L = alpha.
Proof. exact f2d_alpha_lemma. Qed.
Print Assumptions C272_round_trip_partial.
(** Finding: a joint factor of zero is read back as a positive one. *)
Theorem C272_hinge_refuted : forall E I L, 0 < E -> 0 < I -> 0 < L -> 0 < Sj_to_alpha (alpha_to_Sj 0 E I L) E I L.
Proof. exact alpha_hinge_lemma. Qed.
Print Assumptions C272_hinge_refuted.
Example C272_ex : Sj_to_alpha (alpha_to_Sj 25 210000 (10 ^ 12) 5) 210000 (10 ^ 12) 5 = 25.
Proof.
  assert (P : 0 < 10 ^ 12) by (apply pow_lt; lra). apply C272_round_trip_partial; [lra|exact P|lra|]. replace (25 * 210000 * 10 ^ 12 * / 10 ^ 12 / 5) with 1050000 by (revert P; generalize (10 ^ 12) as t; intros t P; field; lra).
  split; [lra|]. apply Rle_trans with (10 ^ 7); [lra|]. apply Rle_pow; [lra|lia].
Qed.

(** C273 *)
Theorem C273_first_sufficient : forall util ps cur, ps <> [] ->
  (forall p, In p ps -> forallb (fun r => Rleb r 1) (util p) = false) /\ try_profiles util cur ps = List.last ps 0%nat \/
  exists l p r, ps = l ++ p :: r /\ (forall q, In q l -> exists x, In x (util q) /\ 1 < x) /\ (forall x, In x (util p) -> x <= 1) /\ try_profiles util cur ps = p.
Proof. exact try_lemma. Qed.
Print Assumptions C273_first_sufficient.
Theorem C273_optimum : forall util ps cur p ch, ps <> [] -> optimum_design util ps cur = (p, ch) ->
  (ch = true <-> p <> cur) /\
  ((exists q, In q ps /\ forall x, In x (util q) -> x <= 1) -> forall x, In x (util p) -> x <= 1).
Proof. exact optimum_lemma. Qed.
Print Assumptions C273_optimum.
Theorem C273_sweeps : forall util ps k s flag, (snd (optimize_members util ps k s flag) <= k)%nat /\ List.length (fst (optimize_members util ps k s flag)) = List.length s.
Proof. exact sweeps_lemma. Qed.
Print Assumptions C273_sweeps.
Theorem C273_fixpoint_partial : forall util ps k s0 p c, ps <> [] -> optimize_members util ps k [s0] true = ([p], c) -> (0 < k)%nat -> (c < k)%nat ->
  optimum_design (util [p] 0%nat) ps p = (p, false).
Proof. exact one_member_lemma. Qed.
Print Assumptions C273_fixpoint_partial.
(** Finding: whether another sweep follows depends on the last member alone. *)
Theorem C273_fixpoint_refuted : exists util ps s r, ps <> [] /\ optimize_members util ps 10 s true = (r, 1%nat) /\ r <> s /\
  fst (sweep util ps r true) <> r /\ exists x, In x (util r 0%nat (nth 0 r 0%nat)) /\ 1 < x.
Proof. exact stops_early_lemma. Qed.
Print Assumptions C273_fixpoint_refuted.
Example C273_ex : optimum_design (fun p => match p with 0%nat => [2] | _ => [1; 1/2] end) [0; 1; 2]%nat 2 = (1%nat, true).
Proof.
  unfold optimum_design. cbn [try_profiles forallb]. rewrite (leb_f 2 1) by lra. cbn [andb]. rewrite (proj2 (Rleb_true 1 1)) by lra. rewrite (proj2 (Rleb_true (1/2) 1)) by lra. reflexivity.
Qed.

(** Coordinates are rounded to the nearest thousandth, each on its own axis. *)
Theorem C267_rounding : forall p, Rabs (fst (round_pt p) - fst p) <= 1 / 2000 /\ Rabs (snd (round_pt p) - snd p) <= 1 / 2000.
Proof.
  intros [x y]. unfold round_pt, roundn. cbn [fst snd].
  assert (K : forall z, Rabs (IZR (roundZ (z * 10 ^ 3)) / 10 ^ 3 - z) <= 1 / 2000).
  { intros z. pose proof (roundZ_err (z * 10 ^ 3)) as E. apply Rabs_le. apply Rabs_le_inv in E || (unfold Rabs in E; destruct (Rcase_abs _) in E); lra. }
  split; apply K.
Qed.
Print Assumptions C267_rounding.
(** A member holds each of its nodes once. *)
Theorem C267_nodes_of_member : forall l, NoDup (keys l) /\ forall i, In i (keys l) <-> In i l.
Proof.
  induction l as [|a l [N I]]; [split; [constructor|tauto]|]. cbn [keys]. split.
  - constructor; [|apply NoDup_filter; exact N]. intros H. apply filter_In in H as [_ H]. rewrite Nat.eqb_refl in H. discriminate.
  - intros i. cbn [In]. rewrite filter_In, I. destruct (Nat.eqb_spec a i) as [E|E]; cbn [negb]; intuition congruence.
Qed.
Print Assumptions C267_nodes_of_member.
