(** C234 to C241: sloped roof trusses. *)
From Verif Require Import Base EC3_model Sections_proofs Rhs_model Bool_tac.
From Verif Require Import Truss_proofs Truss11_proofs Truss12_proofs Truss13_proofs Truss14_proofs Truss15_proofs.
From Verif Require Import Truss_model Truss_spec.
Require Import Reals Lra List Bool Arith Lia.
Import ListNotations.
Open Scope R_scope.

(** C234 *)
Theorem C234_counts : forall s tp n up edge t, (1 <= n)%nat -> 0 <= s_dx1 s ->
  generate_topology s tp n up edge = Some t ->
  (0 < s_dx1 s \/ edge = true -> (member_count t + 3 = 2 * node_count t)%nat) /\
  (s_dx1 s = 0 -> edge = false -> (member_count t + 5 = 2 * node_count t)%nat) /\
  node_count t = (match tp with
                  | TN => if Req_EM_T (s_dx1 s) 0 then 4 * n + 2 else 4 * n
                  | TK => if Req_EM_T (s_dx1 s) 0 then (if up then 4 * n + 5 else 4 * n + 3) else 4 * n + 1
                  | TKT => if Req_EM_T (s_dx1 s) 0 then (if up then 6 * n + 5 else 6 * n + 3) else 6 * n + 1
                  end)%nat.
Proof. exact truss_count_lemma. Qed.
Print Assumptions C234_counts.
Theorem C234_no_duplicates : forall s tp n up edge t, (1 <= n)%nat -> (0 <= s_dx1 s)%R -> generate_topology s tp n up edge = Some t -> NoDup (braces t).
Proof. exact braces_nodup. Qed.
Print Assumptions C234_no_duplicates.
Example C234_ex : exists t, generate_topology (mkSl 12 12 2 2 1 2) TK 4 true true = Some t /\ (member_count t + 3 = 2 * node_count t)%nat /\ node_count t = 17%nat.
Proof.
  destruct (truss_stable_lemma 12 2 1 2 TK 4 true true) as (t & E & _); try lra; try lia; try (left; lra). exists t. split; [exact E|].
  destruct (truss_count_lemma (mkSl 12 12 2 2 1 2) TK 4%nat true true t ltac:(lia) ltac:(cbn; lra) E) as (A & _ & B). cbn [s_dx1] in A, B. split; [apply A; left; lra|].
  destruct (Req_EM_T 2 0); [lra|exact B].
Qed.

(** C235 *)
Theorem C235_stable_partial : forall L dx H0 H1 tp n up edge, 0 <= dx < L -> 0 < H0 <= H1 -> (1 <= n)%nat ->
  (tp = TN -> 0 < dx -> (2 <= n)%nat) -> (tp = TK -> dx = 0 -> up = false -> (2 <= n)%nat) ->
  0 < dx \/ edge = true ->
  exists t, generate_topology (mkSl L L dx dx H0 H1) tp n up edge = Some t /\
    let sup := generate_supports (mkSl L L dx dx H0 H1) t in stable t (fst sup) (snd sup).
Proof. exact truss_stable_lemma. Qed.
Print Assumptions C235_stable_partial.
Theorem C235_open_ends_refuted : forall L H0 H1 tp n up, 0 < L -> (1 <= n)%nat -> (tp = TK -> up = false -> (2 <= n)%nat) ->
  exists t, generate_topology (mkSl L L 0 0 H0 H1) tp n up false = Some t /\
    let sup := generate_supports (mkSl L L 0 0 H0 H1) t in ~ stable t (fst sup) (snd sup).
Proof. exact truss_unstable_lemma. Qed.
Print Assumptions C235_open_ends_refuted.
Example C235_ex : exists t, generate_topology (mkSl 12 12 0 0 1 2) TKT 3 false true = Some t /\ stable t (Bot 0) (Bot (length (bottom_nodes t) - 1)).
Proof.
  destruct (truss_stable_lemma 12 0 1 2 TKT 3 false true) as (t & E & S1); try lra; try lia; try discriminate; try (now right). exists t. split; [exact E|].
  unfold generate_supports in S1. cbn [s_dx1 s_dx2] in S1. rewrite ltb_f in S1 by lra. exact S1.
Qed.

(** C236 *)
Theorem C236_geometry : forall L dx H0 H1 tp n up edge, 0 <= dx < L -> usable tp up dx n ->
  exists t, generate_topology (mkSl L L dx dx H0 H1) tp n up edge = Some t /\
    (forall p, In p (top_nodes t) -> snd p = roof L (H1 - H0) (fst p) /\ 0 <= fst p <= 2 * L) /\
    (forall p, In p (bottom_nodes t) -> snd p = - H0) /\
    x_increasing (top_nodes t) /\ x_increasing (bottom_nodes t) /\
    mirrored L (top_nodes t) /\ mirrored L (bottom_nodes t) /\
    hd (0, 1) (top_nodes t) = (0, 0) /\ last (top_nodes t) (0, 1) = (2 * L, 0) /\ In (L, H1 - H0) (top_nodes t).
Proof. exact truss_geometry_lemma. Qed.
Print Assumptions C236_geometry.
Theorem C236_ridge_place_refuted : forall L1 L2 H0 H1 n up edge t, 0 < L1 -> 0 < L2 -> (1 <= n)%nat ->
  generate_topology (mkSl L1 L2 0 0 H0 H1) TN n up edge = Some t ->
  nth n (top_nodes t) (0, 0) = ((L1 + L2) / 2, H1 - H0) /\
  nth 0 (top_nodes t) (1, 0) = (0, 0) /\ nth (2 * n) (top_nodes t) (0, 0) = (L1 + L2, 0).
Proof. exact ridge_place_lemma. Qed.
Print Assumptions C236_ridge_place_refuted.
Theorem C236_one_panel_refuted : forall L H0 H1 edge t, 0 < L ->
  generate_topology (mkSl L L 0 0 H0 H1) TK 1 false edge = Some t ->
  bottom_nodes t = [(0, - H0); (L, - H0); (2 * L, - H0); (2 * L, - H0)].
Proof. exact K_down_one_lemma. Qed.
Print Assumptions C236_one_panel_refuted.
Example C236_ex : exists t, generate_topology (mkSl 12 12 2 2 1 2) TN 4 true true = Some t /\ mirrored 12 (top_nodes t) /\ In (12, 2 - 1) (top_nodes t).
Proof.
  destruct (truss_geometry_lemma 12 2 1 2 TN 4 true true ltac:(lra)) as (t & E & _ & _ & _ & _ & M & _ & _ & _ & R).
  - split; [lia|split; intros; lia].
  - exists t. auto.
Qed.

(** C237 *)
Theorem C237_offset_start : forall L dx H0 H1 tp n up edge t, 0 < dx < L -> usable tp up dx n ->
  generate_topology (mkSl L L dx dx H0 H1) tp n up edge = Some t ->
  even_gaps 0 (length (bottom_nodes t) - 1) (match tp with TN => (L - dx) / (INR n - 1) | _ => (L - dx) / (INR n - / 2) end) (bottom_nodes t).
Proof. exact spacing_dx_lemma. Qed.
Print Assumptions C237_offset_start.
Theorem C237_N : forall L H0 H1 n up edge t, 0 < L -> (1 <= n)%nat ->
  generate_topology (mkSl L L 0 0 H0 H1) TN n up edge = Some t ->
  even_gaps 0 (2 * n) (L / INR n) (bottom_nodes t) /\ even_gaps 0 (2 * n) (L / INR n) (top_nodes t).
Proof. exact spacing_N_lemma. Qed.
Print Assumptions C237_N.
Theorem C237_KT : forall L H0 H1 n up edge t, 0 < L -> (1 <= n)%nat ->
  generate_topology (mkSl L L 0 0 H0 H1) TKT n up edge = Some t ->
  if up then even_gaps 0 (2 * n + 1) (2 * L / (2 * INR n + 1)) (bottom_nodes t) /\ even_gaps 0 (4 * n + 2) (L / (2 * INR n + 1)) (top_nodes t)
  else even_gaps 1 (2 * n) (L / INR n) (bottom_nodes t) /\ even_gaps 0 (4 * n) (L / (2 * INR n)) (top_nodes t).
Proof. exact spacing_KT_lemma. Qed.
Print Assumptions C237_KT.
Theorem C237_K_refuted : forall L H0 H1 n up edge t, 0 < L -> (2 <= n)%nat ->
  generate_topology (mkSl L L 0 0 H0 H1) TK n up edge = Some t ->
  if up then
    even_gaps 0 n (L / INR n * (1 - / (2 * INR n))) (bottom_nodes t) /\ even_gaps n (n + 1) (L / INR n) (bottom_nodes t)
  else
    even_gaps 1 n (L / (INR n - / 2) * (1 - / (2 * (INR n - 1)))) (bottom_nodes t) /\ even_gaps n (n + 1) (L / (INR n - / 2)) (bottom_nodes t).
Proof. exact spacing_K_lemma. Qed.
Print Assumptions C237_K_refuted.
Example C237_ex : exists t, generate_topology (mkSl 12 12 0 0 1 2) TK 4 true true = Some t /\
  even_gaps 0 4 (21/8) (bottom_nodes t) /\ even_gaps 4 5 3 (bottom_nodes t).
Proof.
  destruct (truss_stable_lemma 12 0 1 2 TK 4 true true) as (t & E & _); try lra; try lia; try (now right). exists t. split; [exact E|].
  destruct (spacing_K_lemma 12 1 2 4 true true t ltac:(lra) ltac:(lia) E) as [A B].
  replace (12 / INR 4 * (1 - / (2 * INR 4))) with (21/8) in A by (simpl; field). replace (12 / INR 4) with 3 in B by (simpl; field). split; [exact A|exact B].
Qed.

(** C238 *)
Theorem C238_joints : forall s tp n up edge t, (1 <= n)%nat -> (0 <= s_dx1 s)%R -> generate_topology s tp n up edge = Some t ->
  exists js, generate_joints t = Some js /\
    (forall v j, In (v, j) js -> is_node t v /\ exists k, meeting t v k /\ (k <= 3)%nat /\
      j = match class_of k with Some c => Some (c, v) | None => None end) /\
    (forall v, is_node t v -> exists j, In (v, j) js) /\ NoDup (map fst js).
Proof. exact truss_joints_lemma. Qed.
Print Assumptions C238_joints.
Example C238_ex : exists t js, generate_topology (mkSl 12 12 2 2 1 2) TKT 3 true true = Some t /\ generate_joints t = Some js /\ length js = node_count t.
Proof.
  destruct (truss_stable_lemma 12 2 1 2 TKT 3 true true) as (t & E & _); try lra; try lia; try (left; lra).
  destruct (truss_joints_lemma (mkSl 12 12 2 2 1 2) TKT 3%nat true true t ltac:(lia) ltac:(cbn; lra) E) as (js & J & _). exists t, js. split; [exact E|]. split; [exact J|].
  unfold generate_joints in J. rewrite joint_loop_own in J.
  - inversion J. rewrite map_length. unfold all_nodes, node_count. now rewrite app_length, !map_length, !seq_length.
  - intros v _. apply (at_most_three (mkSl 12 12 2 2 1 2) TKT 3%nat true true t ltac:(lia) ltac:(cbn; lra) E).
Qed.

(** C239 *)
Theorem C239_ridge_joint : forall L dx H0 H1 tp n up edge, (0 <= dx < L)%R -> usable tp up dx n ->
  exists t, generate_topology (mkSl L L dx dx H0 H1) tp n up edge = Some t /\
    match ridge_node (mkSl L L dx dx H0 H1) t with
    | Some i => place t (Top i) = (L, H1 - H0)%R /\ (i < length (top_nodes t))%nat /\ (tp = TN -> dx = 0%R /\ up = true)
    | None => tp = TN /\ (dx <> 0%R \/ up = false)
    end.
Proof. exact ridge_lemma. Qed.
Print Assumptions C239_ridge_joint.
Example C239_ex : exists t, generate_topology (mkSl 12 12 0 0 1 2) TN 3 false true = Some t /\ ridge_node (mkSl 12 12 0 0 1 2) t = None.
Proof.
  destruct (ridge_lemma 12 0 1 2 TN 3 false true ltac:(lra)) as (t & E & R); [split; [lia|split; intros; lia]|]. exists t. split; [exact E|].
  destruct (ridge_node _ t) as [i|]; [|reflexivity]. destruct R as (_ & _ & R). destruct (R eq_refl). discriminate.
Qed.

(** C240 *)
Theorem C240_two_boundaries_partial : forall a b c z1 z2 xa xb, z1 < z2 -> xa < xb -> ~ (xa < z1 /\ z2 < xb) ->
  exists m, member_zone_loads [a; b; c] [z1; z2] xa xb = Some [m] /\
  forall x, xa < x < xb -> total_intensity xa xb x [m] = zone_value [a; b; c] [z1; z2] x.
Proof. exact zone_loads_two_lemma. Qed.
Print Assumptions C240_two_boundaries_partial.
Theorem C240_spanning_refuted : forall a b c z1 z2 xa xb, z1 < z2 -> xa < z1 -> z2 < xb ->
  exists m, member_zone_loads [a; b; c] [z1; z2] xa xb = Some [m] /\
  (forall x, xa < x < z2 -> total_intensity xa xb x [m] = zone_value [a; b; c] [z1; z2] x) /\
  (forall x, z2 <= x < xb -> total_intensity xa xb x [m] = b).
Proof. exact zone_loads_span_lemma. Qed.
Print Assumptions C240_spanning_refuted.
Theorem C240_one_boundary_refuted : forall a b z xa xb, xa < xb ->
  exists ms, member_zone_loads [a; b] [z] xa xb = Some ms /\
  (xb <= z \/ z < xa -> forall x, xa < x < xb -> total_intensity xa xb x ms = zone_value [a; b] [z] x) /\
  (xa <= z < xb -> ms = []).
Proof. exact zone_loads_one_lemma. Qed.
Print Assumptions C240_one_boundary_refuted.
Theorem C240_three_boundaries_refuted : forall a b c d z1 z2 z3 xa xb, z1 < z2 -> z2 <= xa -> xa < xb -> xb <= z3 ->
  exists ms, member_zone_loads [a; b; c; d] [z1; z2; z3] xa xb = Some ms /\
  forall x, xa < x < xb -> total_intensity xa xb x ms = 2 * c /\ zone_value [a; b; c; d] [z1; z2; z3] x = c.
Proof. exact zone_loads_three_lemma. Qed.
Print Assumptions C240_three_boundaries_refuted.
Theorem C240_uniform : forall q m k, (k < m)%nat -> forall xa xb x,
  length (generate_uniform_load q m) = m /\ total_intensity xa xb x (nth k (generate_uniform_load q m) []) = q.
Proof. exact uniform_load_lemma. Qed.
Print Assumptions C240_uniform.
Example C240_ex : exists m, member_zone_loads [1; 2; 3] [10; 20] 8 12 = Some [m] /\ total_intensity 8 12 9 [m] = 1 /\ total_intensity 8 12 11 [m] = 2.
Proof.
  destruct (zone_loads_two_lemma 1 2 3 10 20 8 12) as (m & E & V); try lra. exists m. split; [exact E|]. rewrite !V by lra. cbn [zone_value].
  destruct (Rlt_dec 9 10); [|lra]. destruct (Rlt_dec 11 10); [lra|]. destruct (Rlt_dec 11 20); lra.
Qed.

(** C241 *)
Theorem C241_constructor : forall L1 L2 dx1 dx2 h1 h2 slope, 0 < L1 -> sloped_slope L1 h1 h2 slope <> None /\
  (forall s a, sloped_truss L1 L2 dx1 dx2 h1 h2 slope = Some s -> sloped_slope L1 h1 h2 slope = Some a ->
    s_L1 s = L1 /\ s_L2 s = L2 /\ s_dx1 s = dx1 /\ s_dx2 s = dx2 /\ s_H0 s <= s_H1 s /\
    s_H1 s - s_H0 s = L1 * tan (rad a) /\ (h1 <> 0 -> s_H0 s = h1) /\ (h2 <> 0 -> s_H1 s = h2)) /\
  (sloped_truss L1 L2 dx1 dx2 h1 h2 slope = None <->
    (h1 <> 0 /\ h2 <> 0 /\ h2 < h1) \/ ((h1 = 0 \/ h2 = 0) /\ tan (rad slope) < 0)).
Proof. exact constructor_lemma. Qed.
Print Assumptions C241_constructor.
Theorem C241_negative_height_refuted : forall L1 L2 dx1 dx2 h2 slope, 0 < L1 -> 0 < h2 -> h2 < L1 * tan (rad slope) ->
  exists s, sloped_truss L1 L2 dx1 dx2 0 h2 slope = Some s /\ s_H0 s < 0.
Proof. exact negative_end_lemma. Qed.
Print Assumptions C241_negative_height_refuted.
Example C241_ex : exists s, sloped_truss 12 12 0 0 1 2 5 = Some s /\ s_H0 s = 1 /\ s_H1 s = 2.
Proof. eexists. unfold sloped_truss. cbv zeta. rewrite !eqb_f, ltb_f by lra. split; [reflexivity|]. cbn [s_H0 s_H1]. auto. Qed.
