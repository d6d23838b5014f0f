(** C274-C282: tube joints of the truss program and the structural optimisation problem. *)
From Verif Require Import Base EC3_model Bool_tac Sections_proofs F2d_proofs Tube_proofs Tube2_proofs.
From Verif Require Import F2d_model Tube_model Tube_spec.
Require Import Reals List Bool Lra Lia PeanoNat.
Import ListNotations.
Local Open Scope R_scope.

(** C274 *)
Theorem C274_location_partial : forall j v, 0 <= v <= 1 ->
  get_loc (set_loc j v) = (if l_rev j then 1 - roundn 3 v else roundn 3 v) /\ 0 <= get_loc (set_loc j v) <= 1 /\ l_rev (set_loc j v) = l_rev j /\
  (l_rev j = false -> Rabs (get_loc (set_loc j v) - v) <= 1/2000).
Proof. exact loc_lemma. Qed.
Print Assumptions C274_location_partial.
Theorem C274_clamp : forall j v, (v <= 0 -> set_loc j v = set_loc j 0) /\ (1 <= v -> set_loc j v = set_loc j 1).
Proof. exact loc_clamp_lemma. Qed.
Print Assumptions C274_clamp.
Theorem C274_self_assignment_refuted : forall j, l_rev j = true -> 0 <= get_loc j <= 1 -> get_loc (set_loc j (get_loc j)) = 1 - get_loc j.
Proof. exact loc_flip_lemma. Qed.
Print Assumptions C274_self_assignment_refuted.
Theorem C274_y_adjust : forall j g L, l_rev j = false -> 0 < L -> 1/1000 <= g / L <= 1/2 ->
  0 <= get_loc j <= 1 -> 0 < get_loc (y_adjust j g L) < 1 /\
  (0 < get_loc j < 1 -> y_adjust j g L = j) /\ (get_loc j = 0 -> get_loc (y_adjust j g L) = roundn 3 (g / L)) /\
  (get_loc j = 1 -> get_loc (y_adjust j g L) = roundn 3 (1 - g / L)).
Proof. exact y_adjust_lemma. Qed.
Print Assumptions C274_y_adjust.
Theorem C274_y_adjust_refuted : forall j g L, l_rev j = true -> 0 < L -> 1/1000 <= g / L <= 1/2 -> get_loc j = 0 -> get_loc (y_adjust j g L) = 1 - roundn 3 (g / L).
Proof. exact y_jump_lemma. Qed.
Print Assumptions C274_y_adjust_refuted.
Example C274_ex : get_loc (set_loc (mkLoc (1/2) false) (1/4)) = 1/4 /\ get_loc (set_loc (mkLoc (1/4) true) (get_loc (mkLoc (1/4) true))) = 3/4 /\
  get_loc (y_adjust (mkLoc 0 true) 100 1000) = 9/10.
Proof.
  assert (Q : roundn 3 (1/4) = 1/4) by (rewrite (roundn_of 3 _ 250); [lra|]; replace (1/4 * 10 ^ 3 - IZR 250) with 0 by lra; rewrite Rabs_R0; lra).
  assert (T : roundn 3 (100/1000) = 1/10) by (rewrite (roundn_of 3 _ 100); [lra|]; replace (100/1000 * 10 ^ 3 - IZR 100) with 0 by lra; rewrite Rabs_R0; lra).
  split; [|split].
  - destruct (C274_location_partial (mkLoc (1/2) false) (1/4)) as [E _]; [lra|]. rewrite E. cbn [l_rev]. exact Q.
  - rewrite C274_self_assignment_refuted; [unfold get_loc; cbn [l_val]; rewrite Q; lra|reflexivity|unfold get_loc; cbn [l_val]; rewrite Q; lra].
  - rewrite C274_y_adjust_refuted; [rewrite T; lra|reflexivity|lra|lra|unfold get_loc; cbn [l_val]; apply (round3_int 0)].
Qed.

(** C275 *)
Theorem C275_angle_partial : forall w c, 0 <= w < PI -> 0 <= c < PI ->
  0 <= theta w c <= PI / 2 /\ (c = 0 -> theta w c = acute w c) /\ (w <= PI / 2 -> c <= PI / 2 -> theta w c = acute w c) /\ theta w c = theta c w.
Proof. exact theta_lemma. Qed.
Print Assumptions C275_angle_partial.
Theorem C275_angle_refuted : forall w c, 0 < c -> PI / 2 + c <= w -> w <= PI - c -> acute w c = theta w c + 2 * c.
Proof. exact theta_wrong_lemma. Qed.
Print Assumptions C275_angle_refuted.
Example C275_ex : acute (2 * PI / 3) (PI / 6) = PI / 2 /\ theta (2 * PI / 3) (PI / 6) = PI / 6 /\ theta (2 * PI / 3) 0 = PI / 3.
Proof.
  pose proof PI_RGT_0 as P. assert (E : acute (2 * PI / 3) (PI / 6) = PI / 2) by (unfold acute, Rmin, Rabs; repeat destruct (Rcase_abs _); repeat destruct (Rle_dec _ _); lra).
  split; [exact E|]. pose proof (C275_angle_refuted (2 * PI / 3) (PI / 6)) as H. split; [lra|]. destruct (C275_angle_partial (2 * PI / 3) 0) as (_ & Z & _); [lra|lra|]. rewrite (Z eq_refl).
  unfold acute, Rmin, Rabs; repeat destruct (Rcase_abs _); repeat destruct (Rle_dec _ _); lra.
Qed.

(** C276 *)
Theorem C276_relation : forall q s, good_angles q ->
  (get_e q s + g_h0 q / 2) * sin (g_t1 q + g_t2 q) =
  (get_g q s + g_h1 q / (2 * sin (g_t1 q)) + g_h2 q / (2 * sin (g_t2 q))) * (sin (g_t1 q) * sin (g_t2 q)).
Proof. exact k_relation_lemma. Qed.
Print Assumptions C276_relation.
Theorem C276_last_written : forall ops q g, let r := fold_left kstep ops (q, new_k g) in good_angles (fst r) ->
  match last_set ops None with
  | Some (true, v) => get_g (fst r) (snd r) = v
  | Some (false, v) => get_e (fst r) (snd r) = v
  | None => True
  end.
Proof. exact k_last_lemma. Qed.
Print Assumptions C276_last_written.
Theorem C276_constructor_gap_refuted : forall q g, good_angles q -> get_e q (new_k g) = 0 /\
  get_g q (new_k g) = g_h0 q / 2 * (cos (g_t1 q) / sin (g_t1 q) + cos (g_t2 q) / sin (g_t2 q)) - g_h1 q / (2 * sin (g_t1 q)) - g_h2 q / (2 * sin (g_t2 q)).
Proof. exact k_init_lemma. Qed.
Print Assumptions C276_constructor_gap_refuted.
Example C276_ex : let q := mkGeo 100 50 50 (PI / 4) (PI / 4) in good_angles q /\
  get_g q (snd (fold_left kstep [SetE 1 2 5; Geo q; SetG 30; Geo q] (q, new_k 20))) = 30.
Proof.
  pose proof PI_RGT_0 as P. intros q. assert (G : good_angles q) by (unfold good_angles, q; cbn [g_t1 g_t2]; lra). split; [exact G|].
  apply (C276_last_written [SetE 1 2 5; Geo q; SetG 30; Geo q] q 20). exact G.
Qed.

(** C277 *)
Theorem C277_nodes : forall c h e c0 p1 p2 t1 t2 s0 s1 s2 n1 n2, 0 < mlen c -> 0 < h -> - h / 2 < e ->
  at_local c s0 0 c0 -> at_local c s1 n1 p1 -> at_local c s2 n2 p2 -> 0 < n1 + e -> 0 < n2 + e -> s1 < s0 < s2 -> 
  tan t1 = (n1 + e) / (s0 - s1) -> tan t2 = (n2 + e) / (s2 - s0) ->
  let x1 := (e + h / 2) / tan t1 in let x2 := (e + h / 2) / tan t2 in
  s0 - x1 <= mlen c -> 0 <= s0 + x2 ->
  let d := if Rlt_dec (s0 - x1) 0 then x1 - s0 else if Rlt_dec (mlen c) (s0 + x2) then mlen c - (s0 + x2) else 0 in
  let k := k_nodes c h e c0 p1 p2 t1 t2 in
  at_local c (s0 + d) 0 (n_0 k) /\ at_local c (s0 + d - x1) 0 (n_01 k) /\ at_local c (s0 + d + x2) 0 (n_02 k) /\
  at_local c (s0 + d - x1) (h / 2) (n_1 k) /\ at_local c (s0 + d + x2) (h / 2) (n_2 k) /\
  pdist (n_1 k) (n_2 k) = (e + h / 2) * (1 / tan t1 + 1 / tan t2).
Proof. exact k_nodes_lemma. Qed.
Print Assumptions C277_nodes.
Theorem C277_gap : forall q s, good_angles q -> cos (g_t1 q) <> 0 -> cos (g_t2 q) <> 0 ->
  (get_e q s + g_h0 q / 2) * (1 / tan (g_t1 q) + 1 / tan (g_t2 q)) = get_g q s + g_h1 q / (2 * sin (g_t1 q)) + g_h2 q / (2 * sin (g_t2 q)).
Proof. exact k_gap_lemma. Qed.
Print Assumptions C277_gap.
Theorem C277_shift : forall c s0 s1 s2 c0 c1 c2, 0 < mlen c -> at_local c s0 0 c0 -> at_local c s1 0 c1 -> at_local c s2 0 c2 ->
  s1 <= mlen c -> 0 <= s2 ->
  let d := if Rlt_dec s1 0 then - s1 else if Rlt_dec (mlen c) s2 then mlen c - s2 else 0 in
  exists a b e, shift_ends c (c0, c1, c2) = (a, b, e) /\ at_local c (s0 + d) 0 a /\ at_local c (s1 + d) 0 b /\ at_local c (s2 + d) 0 e.
Proof. exact shift_lemma. Qed.
Print Assumptions C277_shift.
Example C277_ex : let c := mkMem (0, 0) (10, 0) true in 0 < mlen c /\ at_local c 5 0 (5, 0) /\ at_local c 1 4 (1, 4) /\ at_local c 9 4 (9, 4) /\
  pdist (n_1 (k_nodes c 2 0 (5, 0) (1, 4) (9, 4) (PI / 4) (PI / 4))) (n_2 (k_nodes c 2 0 (5, 0) (1, 4) (9, 4) (PI / 4) (PI / 4))) = 2.
Proof.
  intros c. assert (L : mlen c = 10). { unfold mlen, pdist, c. cbn [m_a m_b fst snd]. replace ((10 - 0) ^ 2 + (0 - 0) ^ 2) with (10 * 10) by ring. apply sqrt_square. lra. }
  assert (A : forall s n, at_local c s n (s, n)). { intros s n. unfold at_local, perp, unitv. rewrite L. cbn [c m_a m_b m_rev fst snd]. split; lra. }
  split; [lra|]. repeat (split; [apply A|]).
  destruct (C277_nodes c 2 0 (5, 0) (1, 4) (9, 4) (PI / 4) (PI / 4) 5 1 9 4 4) as (_ & _ & _ & _ & _ & D); try lra; try apply A; rewrite ?tan_PI4; try lra.
  rewrite D. rewrite tan_PI4. lra.
Qed.

(** C278 *)
Theorem C278_y_joint : forall c w th, 0 < b_B c -> 0 < b_B w -> 0 < th ->
  (forallb met (y_geometry c w th) = true <-> 35/100 * b_B c <= b_B w <= b_B c /\ 30 <= degrees th).
Proof. exact y_geometry_lemma. Qed.
Print Assumptions C278_y_joint.
Theorem C278_k_joint : forall c w1 w2 g e th1 th2, 0 < b_B c -> 0 < b_T c -> 0 < b_H c -> 0 < b_B w1 -> 0 < b_B w2 -> 0 < b_T w1 -> 0 < b_T w2 ->
  0 < th1 -> 0 < th2 -> g <> 0 -> b_B w1 + b_B w2 + b_H w1 + b_H w2 < 4 * b_B c ->
  (forallb met (k_geometry c w1 w2 g e th1 th2) = true <-> k_valid c w1 w2 g e (degrees th1) (degrees th2)).
Proof. exact k_geometry_lemma. Qed.
Print Assumptions C278_k_joint.
Example C278_ex : let c := mkTube 100 100 5 in let w := mkTube 50 50 4 in 
  k_valid c w w 40 0 (degrees (PI / 4)) (degrees (PI / 4)) /\ forallb met (k_geometry c w w 40 0 (PI / 4) (PI / 4)) = true.
Proof.
  intros c w. pose proof PI_RGT_0 as P. assert (D : degrees (PI / 4) = 45) by (unfold degrees; field; lra).
  assert (V : k_valid c w w 40 0 (degrees (PI / 4)) (degrees (PI / 4))) by (unfold k_valid, c, w; cbn [b_B b_H b_T]; rewrite D; lra).
  split; [exact V|]. apply C278_k_joint; auto; cbn [c w b_B b_H b_T]; lra.
Qed.

(** C279 *)
Theorem C279_y_joint : forall N f w b, 0 < f -> 0 < w -> 0 < b -> (forallb met (y_strength N f w b) = true <-> N <= f /\ - N <= w /\ Rabs N <= b).
Proof. exact y_strength_lemma. Qed.
Print Assumptions C279_y_joint.
Theorem C279_y_joint_refuted : exists N f w b, 0 < f /\ 0 < w /\ 0 < b /\ forallb met (y_strength N f w b) = true /\ f < Rabs N.
Proof. exact y_face_lemma. Qed.
Print Assumptions C279_y_joint_refuted.
Theorem C279_k_joint_partial : forall res w1 w2, 0 < res w1 -> 0 < res w2 -> w_loc w1 <= w_loc w2 ->
  (forallb met (k_strength res w1 w2) = true <-> Rabs (w_N w1) <= res w1 /\ Rabs (w_N w2) <= res w2).
Proof. exact k_strength_lemma. Qed.
Print Assumptions C279_k_joint_partial.
Theorem C279_k_joint_swapped : forall res w1 w2, 0 < res w1 -> 0 < res w2 -> w_loc w2 < w_loc w1 ->
  (forallb met (k_strength res w1 w2) = true <-> Rabs (w_N w1) <= res w2 /\ Rabs (w_N w2) <= res w1).
Proof. exact k_swap_lemma. Qed.
Print Assumptions C279_k_joint_swapped.
(** Webs added from right to left: an overloaded web passes. *)
Theorem C279_k_joint_refuted : exists res w1 w2, 0 < res w1 /\ 0 < res w2 /\ forallb met (k_strength res w1 w2) = true /\ res w1 < Rabs (w_N w1).
Proof.
  exists (fun w => if Rltb (w_loc w) 1 then 10 else 5), (mkWeb 2 8), (mkWeb 0 3). cbn [w_loc w_N]. rewrite (ltb_f 2 1), (ltb_t 0 1) by lra. rewrite (Rabs_pos_eq 8) by lra.
  split; [lra|]. split; [lra|]. split; [|lra]. apply k_swap_lemma; cbn [w_loc w_N]; rewrite ?(ltb_f 2 1), ?(ltb_t 0 1) by lra; rewrite ?(Rabs_pos_eq 8), ?(Rabs_pos_eq 3) by lra; lra.
Qed.
Print Assumptions C279_k_joint_refuted.
Example C279_ex : forallb met (y_strength 3 4 5 6) = true /\ forallb met (k_strength (fun _ => 5) (mkWeb 0 3) (mkWeb 1 (-4))) = true.
Proof.
  split; [apply C279_y_joint; try lra; rewrite Rabs_pos_eq; lra|]. apply C279_k_joint_partial; cbn [w_loc w_N]; try lra. rewrite (Rabs_pos_eq 3), (Rabs_left (-4)) by lra. lra.
Qed.

(** C280 *)
Theorem C280_sections : forall N V M f, 0 < N -> 0 < V -> 0 < M ->
  (forallb met (section_cons N V M f) = true <-> Rabs (fst (f_N f)) <= N /\ Rabs (fst (f_V f)) <= V /\ Rabs (fst (f_M f)) <= M).
Proof. exact section_lemma. Qed.
Print Assumptions C280_sections.
Theorem C280_nodes_partial : forall N V M fs d, 0 < N -> 0 < V -> 0 < M ->
  (forall i, (S i < List.length fs)%nat -> f_N (nth i fs d) = (fst (f_N (nth i fs d)), fst (f_N (nth (S i) fs d))) /\
     f_V (nth i fs d) = (fst (f_V (nth i fs d)), fst (f_V (nth (S i) fs d))) /\ f_M (nth i fs d) = (fst (f_M (nth i fs d)), fst (f_M (nth (S i) fs d)))) ->
  forallb (fun f => forallb met (section_cons N V M f)) fs = true ->
  forall i, (i < List.length fs)%nat -> (Rabs (fst (f_N (nth i fs d))) <= N /\ Rabs (fst (f_V (nth i fs d))) <= V /\ Rabs (fst (f_M (nth i fs d))) <= M) /\
    ((S i < List.length fs)%nat -> Rabs (snd (f_N (nth i fs d))) <= N /\ Rabs (snd (f_V (nth i fs d))) <= V /\ Rabs (snd (f_M (nth i fs d))) <= M).
Proof. exact member_nodes_lemma. Qed.
Print Assumptions C280_nodes_partial.
Theorem C280_last_node_refuted : forall N V M n v m, 0 < N -> 0 < V -> 0 < M -> N < Rabs n ->
  let f := mkEF (0, n) (0, v) (0, m) in forallb met (section_cons N V M f) = true /\ N < Rabs (snd (f_N f)).
Proof. exact last_node_lemma. Qed.
Print Assumptions C280_last_node_refuted.
Theorem C280_buckling : forall neds Nb, neds <> [] -> 0 < Nb -> (met (buckling_con neds Nb) = true <-> forall n, In n neds -> - n <= Nb).
Proof. exact tube_buckling_lemma. Qed.
Print Assumptions C280_buckling.
Theorem C280_lateral_partial : forall meds Mb, meds <> [] -> 0 < Mb -> (forall m, In m meds -> 0 <= m) -> (met (lt_con meds Mb) = true <-> forall m, In m meds -> Rabs m <= Mb).
Proof. exact lt_con_lemma. Qed.
Print Assumptions C280_lateral_partial.
Theorem C280_hogging_refuted : forall M Mb, 0 < M -> 0 < Mb -> met (lt_con [0; - M; 0] Mb) = true.
Proof. exact lt_hogging_lemma. Qed.
Print Assumptions C280_hogging_refuted.
Theorem C280_deflection : forall ds l, ds <> [] -> 0 < l -> exists v, deflection_con ds (Some l) = Some v /\ (met v = true <-> forall d, In d ds -> Rabs d <= l).
Proof. exact deflection_con_lemma. Qed.
Print Assumptions C280_deflection.
Theorem C280_deflection_off : forall ds l, deflection_con ds l = None <-> l = None \/ l = Some 0.
Proof. exact deflection_off_lemma. Qed.
Print Assumptions C280_deflection_off.
Theorem C280_classes : forall k web c t eps, 0 < t ->
  (met (class_con k web c t eps) = true <-> c / t <= (match k, web with Ikind, true => 42 | Ikind, false => 14 | Tubekind, _ => 38 end) * eps).
Proof. exact class_con_lemma. Qed.
Print Assumptions C280_classes.
Example C280_ex : met (buckling_con [3; -4; 1] 4) = true /\ met (buckling_con [3; -4; 1] 3) = false /\ met (lt_con [0; -1000; 0] 1) = true.
Proof.
  split; [|split].
  - apply C280_buckling; [discriminate|lra|]. intros n [<-|[<-|[<-|[]]]]; lra.
  - destruct (met (buckling_con [3; -4; 1] 3)) eqn:E; [|reflexivity]. pose proof (proj1 (C280_buckling [3; -4; 1] 3 ltac:(discriminate) ltac:(lra)) E (-4) ltac:(right; left; reflexivity)). lra.
  - replace (-1000) with (- (1000)) by lra. apply C280_hogging_refuted; lra.
Qed.

(** C281 *)
Theorem C281_single_removal_partial : forall A (f : A -> bool) pre x post, (forall y, In y pre -> f y = false) -> (forall y, In y post -> f y = false) -> f x = true ->
  remove_iter f (pre ++ x :: post) = pre ++ post.
Proof. exact remove_single_lemma. Qed.
Print Assumptions C281_single_removal_partial.
Theorem C281_half_stays_refuted : forall keys joints pre m post, ~ In m pre -> ~ In m post -> forall old,
  List.length (filter (of_member m) (group_con keys joints [m] (created (fun x => if Nat.eqb x m then old else keys x) joints (pre ++ m :: post)))) = (List.length old / 2 + List.length (keys m))%nat.
Proof. exact group_half_lemma. Qed.
Print Assumptions C281_half_stays_refuted.
Theorem C281_joint_copies_refuted : forall keys joints objs cons j,
  joint_count j (group_con keys joints objs cons) = (joint_count j cons + List.length objs * count_occ Nat.eq_dec joints j)%nat.
Proof. exact group_joints_lemma. Qed.
Print Assumptions C281_joint_copies_refuted.
Example C281_ex : List.length (filter (of_member 1) (group_con (fun _ => [7%nat; 8%nat]) [4%nat] [1%nat] (created (fun _ => [0; 1; 2; 3; 5]%nat) [4%nat] [0; 1; 2]%nat))) = 4%nat /\
  joint_count 4 (group_con (fun _ => [7%nat]) [4%nat] [0; 1; 2]%nat (created (fun _ => [0]%nat) [4%nat] [0; 1; 2]%nat)) = 4%nat.
Proof. split; reflexivity. Qed.

(** C282 *)
Theorem C282_default_refuted : forall n, create_variables None n <> None <-> n = 0%nat.
Proof. exact variables_default_lemma. Qed.
Print Assumptions C282_default_refuted.
Theorem C282_count : forall gs n N, create_variables (Some gs) n = Some N ->
  Forall (fun g => group_vars g <> None) gs /\ N = fold_right (fun g a => ((match group_vars g with Some k => k | None => 0 end) + a)%nat) 0%nat gs.
Proof. exact variables_count_lemma. Qed.
Print Assumptions C282_count.
Theorem C282_multi : forall bs n vs k, group_vars (Gmulti bs n vs) = Some k -> List.length bs = n /\ k = Nat.min n (List.length vs).
Proof. exact multi_lemma. Qed.
Print Assumptions C282_multi.
Theorem C282_split_complete : forall t params prof web col chord own k i p x, 
  nth_error params k = Some p ->
  nth_error (match t with Tweb => web | Tcolumn => col | Tchord => chord | _ => [] end) i = Some x ->
  exists vs, nth_error (split_var t params prof web col chord own) k = Some vs /\ nth_error vs i = Some (prof x p).
Proof. exact split_complete_lemma. Qed.
Print Assumptions C282_split_complete.
Theorem C282_split_mixed_refuted : exists prof web, forall col chord own, exists vs1 vs2 a b,
  split_var Tweb [0%nat; 1%nat] prof web col chord own = [vs1; vs2] /\ In a vs1 /\ In b vs2 /\ ~ (exists x, In x web /\ prof x 0%nat = a /\ prof x 1%nat = b).
Proof. exact split_mixed_lemma. Qed.
Print Assumptions C282_split_mixed_refuted.
Example C282_ex : create_variables (Some [Gdisc [1; 2]; Gmulti [(0, 1); (0, 2)] 2 [1; 1]; Gcont 0 1]) 5 = Some 4%nat /\ create_variables None 3 = None.
Proof. split; reflexivity. Qed.
