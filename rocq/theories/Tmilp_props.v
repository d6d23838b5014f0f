From Verif Require Import Bool_tac Mat Sizing_proofs Sizing2_proofs Sizing3_proofs.
From Verif Require Import Tmilp_proofs Tmilp2_proofs Tmilp3_proofs Tmilp4_proofs.
From Verif Require Import Tmilp_model Tmilp_spec.
Require Import List Bool Lia Lra Psatz.
Import ListNotations.
Open Scope R_scope.

(** C322 *)
Theorem C322_position : forall q top t, tvalid q top t ->
  nth_error (tm_vars q top) (tpos q t) = Some t /\ (tpos q t < tm_nvars q top)%nat.
Proof. intros q top t H. split; [exact (tlayout_lemma q top t H)|exact (tpos_lt_lemma q top t H)]. Qed.
Print Assumptions C322_position.
Theorem C322_no_other_variables : forall q top v t, nth_error (tm_vars q top) v = Some t -> tvalid q top t /\ v = tpos q t.
Proof. intros q top v t H. split; [exact (tvars_valid_lemma q top v t H)|exact (tvars_pos_lemma q top v t H)]. Qed.
Print Assumptions C322_no_other_variables.
Theorem C322_number : forall q top, tm_nvars q top
  = (nsel q + tm_nlc q * (nsel q + tm_ndof q)
     + (if top then tm_nmem q + tm_nnodes q + offs (glen q) (length (tm_groups q)) else 0))%nat.
Proof. exact nvars_eq. Qed.
Print Assumptions C322_number.
Theorem C322_starts : forall q,
  Ystart q = tpos q (VY 0) /\ Zstart q = tpos q (Vz 0) /\ Wstart q = tpos q (Vw 0 0).
Proof.
  intros q. rewrite Ystart_eq, Zstart_eq, Wstart_eq. cbn [tpos]. change (offs (glen q) 0) with 0%nat. rewrite !Nat.add_0_r. auto.
Qed.
Print Assumptions C322_starts.
Theorem C322_profiles : forall q,
  (forall a i v b, tm_only q = a ++ (i, v) :: b -> (forall z, In z b -> fst z <> i) -> tm_prof q i = v)
  /\ (forall a g b i, tm_groups q = a ++ g :: b -> In i (fst g) -> (forall h, In h b -> ~ In i (fst h)) ->
        (forall z, In z (tm_only q) -> fst z <> i) -> tm_prof q i = snd g)
  /\ (forall i, (forall g, In g (tm_groups q) -> ~ In i (fst g)) -> (forall z, In z (tm_only q) -> fst z <> i) ->
        tm_prof q i = seq 0 (tm_nprof q)).
Proof.
  intros q. split; [exact (prof_only_lemma q)|]. split; [exact (prof_group_lemma q)|exact (prof_all_lemma q)].
Qed.
Print Assumptions C322_profiles.
Example C322_ex : tm_nvars (two_bars 3 [([0; 1], [0; 1])]%nat) true = 22%nat
  /\ tvalid (two_bars 3 [([0; 1], [0; 1])]%nat) true (Vw 0 1) /\ tpos (two_bars 3 [([0; 1], [0; 1])]%nat) (Vw 0 1) = 21%nat.
Proof. split; [vm_compute; reflexivity|]. split; [vm_compute; repeat split; lia|vm_compute; reflexivity]. Qed.

(** C323 *)
Theorem C323_sound : forall q top x, tgood q -> (0 < tm_nlc q)%nat -> tm_feasible q top x ->
  exists s, tselects q x s
   /\ (top = false -> forall i, (i < tm_nmem q)%nat -> s i <> None)
   /\ (top = true -> forall i, (i < tm_nmem q)%nat -> tval q x (VY i) = if present s i then 1 else 0)
   /\ tdesign q (tm_ulb q / tm_su q) (tm_uub q / tm_su q) (tm_su q ^ 2 / tm_sN q) (tm_p q 0%nat) s (fun d => tval q x (Vu d 0) / tm_su q)
   /\ (forall i j, (i < tm_nmem q)%nat -> (j < tm_np q i)%nat -> tval q x (VN i j 0) = if is_some (s i) j
        then tm_sN q * elastic_force (tm_ndof q) (tm_E q i) (tm_L q i) (tm_A q (tm_pr q i j)) (tm_B q) i (fun d => tval q x (Vu d 0) / tm_su q)
        else 0)
   /\ tm_obj q top x = t_weight q s.
Proof. exact tsound_all_lemma. Qed.
Print Assumptions C323_sound.
Theorem C323_complete : forall q (top : bool) s u z, tgood q -> groups_wf q -> tm_ulb q <= 0 -> 0 <= tm_uub q -> tm_nlc q = 1%nat ->
  tdesign q (tm_ulb q / tm_su q) (tm_uub q / tm_su q) (tm_su q ^ 2 / tm_sN q) (tm_p q 0%nat) s u ->
  (if top then topo_ok q s z else forall i, (i < tm_nmem q)%nat -> s i <> None) ->
  exists x, tm_feasible q top x /\ tselects q x s /\ (top = true -> node_values q x z)
   /\ (forall d, (d < tm_ndof q)%nat -> tval q x (Vu d 0) / tm_su q = u d) /\ tm_obj q top x = t_weight q s.
Proof. exact tcomplete_all_lemma. Qed.
Print Assumptions C323_complete.
Theorem C323_optimum_is_lightest : forall q (top : bool) x, tgood q -> groups_wf q -> tm_ulb q <= 0 -> 0 <= tm_uub q -> tm_nlc q = 1%nat ->
  tm_feasible q top x -> (forall x', tm_feasible q top x' -> tm_obj q top x <= tm_obj q top x') ->
  exists s, tselects q x s /\ tm_obj q top x = t_weight q s
  /\ forall s' u z, tdesign q (tm_ulb q / tm_su q) (tm_uub q / tm_su q) (tm_su q ^ 2 / tm_sN q) (tm_p q 0%nat) s' u ->
     (if top then topo_ok q s' z else forall i, (i < tm_nmem q)%nat -> s' i <> None) -> t_weight q s <= t_weight q s'.
Proof.
  intros q top x G WF Hl Hu Hc F O. destruct (toptimal_lemma q G WF Hl Hu top x Hc F O) as [A B].
  exists (ts q x). split; [apply (ts_ok q top x F)|]. split; [exact A|exact B].
Qed.
Print Assumptions C323_optimum_is_lightest.
Lemma wf_none nm : groups_wf (two_bars nm []).
Proof. intros g []. Qed.
Lemma wf_01 : groups_wf (two_bars 2 [([0; 1], [0; 1])]%nat).
Proof.
  intros g [<-|[]]. simpl. split.
  - repeat constructor; simpl; lia.
  - intros i [<-|[<-|[]]]; (split; [lia|reflexivity]).
Qed.
Lemma two_bars_p nm gs a b : (nm = 2 \/ nm = 3)%nat -> (a < 2)%nat -> (b < 2)%nat ->
  (forall i, (i < nm)%nat -> tm_prof (two_bars nm gs) i = [0; 1]%nat) ->
  tdesign (two_bars nm gs) (tm_ulb (two_bars nm gs) / tm_su (two_bars nm gs)) (tm_uub (two_bars nm gs) / tm_su (two_bars nm gs))
    (tm_su (two_bars nm gs) ^ 2 / tm_sN (two_bars nm gs)) (tm_p (two_bars nm gs) 0) (ab a b)
    (fun d => 2 / (INR (match d with 0%nat => a | _ => b end) + 1)).
Proof.
  intros Hn Ha Hb HP. assert (D := two_bars_design nm gs a b Hn Ha Hb HP). simpl.
  replace (-10 / 1) with (-10) by field. replace (10 / 1) with 10 by field. replace (1 * (1 * 1) / 1) with 1 by field. exact D.
Qed.
Lemma two_prof_none nm i : tm_prof (two_bars nm []) i = [0; 1]%nat.
Proof. reflexivity. Qed.
Example C323_ex : exists x, tm_feasible (two_bars 2 []) false x /\ tm_obj (two_bars 2 []) false x = 3.
Proof.
  destruct (C323_complete (two_bars 2 []) false (ab 0 1) (fun d => 2 / (INR (match d with 0%nat => 0 | _ => 1 end)%nat + 1)) (fun _ => true))
    as [x [F [_ [_ [_ O]]]]].
  - apply two_bars_good.
  - apply wf_none.
  - simpl; lra.
  - simpl; lra.
  - reflexivity.
  - apply two_bars_p; auto.
  - intros i Hi E. simpl in Hi. destruct i as [|[|i]]; try discriminate. lia.
  - exists x. split; [exact F|]. rewrite O. unfold t_weight. simpl. lra.
Qed.

(** C324 *)
Theorem C324_unscaled_partial : forall q top x, tgood q -> tm_sN q = 1 -> tm_su q = 1 -> (0 < tm_nlc q)%nat -> tm_feasible q top x ->
  exists s, tselects q x s /\ tdesign q (tm_ulb q) (tm_uub q) 1 (tm_p q 0%nat) s (fun d => tval q x (Vu d 0)).
Proof.
  intros q top x G E1 E2 Hc F. destruct (C323_sound q top x G Hc F) as [s [S1 [_ [_ [D _]]]]]. exists s. split; [exact S1|].
  rewrite E1, E2 in D. replace (tm_ulb q / 1) with (tm_ulb q) in D by field. replace (tm_uub q / 1) with (tm_uub q) in D by field.
  replace (1 ^ 2 / 1) with 1 in D by field.
  destruct D as [D1 [D2 [D3 D4]]].
  assert (U : forall d, tval q x (Vu d 0) / 1 = tval q x (Vu d 0)) by (intros; field).
  assert (EF : forall E L a B i, elastic_force (tm_ndof q) E L a B i (fun d => tval q x (Vu d 0) / 1)
     = elastic_force (tm_ndof q) E L a B i (fun d => tval q x (Vu d 0))).
  { intros. unfold elastic_force. f_equal. apply sumn_ext. intros d _. rewrite U. reflexivity. }
  split; [exact D1|]. split; [|split].
  - intros d Hd. rewrite <- (D2 d Hd). apply sumn_ext. intros e _. rewrite U. reflexivity.
  - intros d Hd. rewrite <- (U d). apply D3; auto.
  - intros i j Hi Hs. assert (A := D4 i j Hi Hs). cbv zeta in A. rewrite EF in A. exact A.
Qed.
Print Assumptions C324_unscaled_partial.
(** Finding: with the factors 1/1000 and 1/10 of the example in the file the displacements
    may be ten times the given bound and the tension forces ten times the resistance. *)
Theorem C324_scaling_refuted : exists q x, tgood q /\ tm_nlc q = 1%nat /\ tm_sN q = 1 / 1000 /\ tm_su q = 1 / 10
  /\ tm_feasible q false x /\ tval q x (Vu 0 0) / tm_su q = 10 * tm_uub q
  /\ tval q x (VN 0 0 0) / tm_sN q = 10 * IZR (floorZ (tm_NRd q 0%nat)).
Proof.
  set (q := one_bar (1 / 1000) (1 / 10) (-5) 5 1 50).
  assert (G : tgood q) by (apply one_bar_good; lra).
  destruct (C323_complete q false (fun _ => Some 0%nat) (fun _ => 50) (fun _ => true)) as [x [F [_ [_ [U _]]]]]; auto.
  - apply one_bar_wf.
  - simpl; lra.
  - simpl; lra.
  - replace (tm_ulb q / tm_su q) with (-50) by (simpl; field). replace (tm_uub q / tm_su q) with 50 by (simpl; field).
    replace (tm_su q ^ 2 / tm_sN q) with 10 by (simpl; field). apply (one_bar_design (1 / 1000) (1 / 10) (-5) 5 1 50); lra.
  - intros; discriminate.
  - exists q, x. split; [exact G|]. split; [reflexivity|]. split; [reflexivity|]. split; [reflexivity|]. split; [exact F|].
    assert (U0 := U 0%nat ltac:(simpl; lia)). split; [rewrite U0; simpl; lra|].
    destruct (C323_sound q false x G ltac:(simpl; lia) F) as [s [S1 [S2 [_ [D [N _]]]]]].
    rewrite N by (simpl; auto; change (tm_np q 0) with 1%nat; lia).
    specialize (S2 eq_refl 0%nat ltac:(simpl; lia)). destruct (s 0%nat) as [j|] eqn:E; [|congruence].
    assert (J := proj1 D 0%nat j ltac:(simpl; lia) E). change (tm_np q 0) with 1%nat in J. assert (j = 0)%nat by lia. subst j.
    cbn [is_some Nat.eqb]. unfold elastic_force. change (tm_ndof q) with 1%nat. cbn [sumn]. rewrite U0. simpl. rewrite floor5. field.
Qed.
Print Assumptions C324_scaling_refuted.
(** Finding: the default lower bound 1e-3 of the displacements is positive, so no truss in
    which a degree of freedom moves backwards or not at all is feasible. *)
Theorem C324_positive_lower_bound : forall q top x d, tgood q -> 0 < tm_ulb q -> tm_feasible q top x -> (0 < tm_nlc q)%nat ->
  (d < tm_ndof q)%nat -> 0 < tval q x (Vu d 0) / tm_su q.
Proof.
  intros q top x d G Hl F Hc Hd. destruct (feas_var_lemma q top x (Vu d 0) F ltac:(simpl; auto)) as [[A _] _]. simpl in A.
  apply Rdiv_lt_0_compat; [lra|apply G].
Qed.
Print Assumptions C324_positive_lower_bound.
Theorem C324_default_bounds_refuted : exists q, tgood q /\ tm_ulb q = 1 / 1000 /\ tm_uub q = 1000 /\ tm_nlc q = 1%nat
  /\ tdesign q (-1000) 1000 1 (tm_p q 0%nat) (fun _ => Some 0%nat) (fun _ => -2) /\ forall x, ~ tm_feasible q false x.
Proof.
  exists (one_bar 1 1 (1 / 1000) 1000 1 (-2)). split; [apply one_bar_good; lra|]. repeat (split; [reflexivity|]). split.
  - apply (one_bar_design 1 1 (1 / 1000) 1000 1 (-2)); lra.
  - intros x F. assert (G := one_bar_good 1 1 (1 / 1000) 1000 1 (-2) ltac:(lra) ltac:(lra)).
    destruct (C323_sound _ false x G ltac:(simpl; lia) F) as [s [S1 [S2 [_ [D _]]]]].
    assert (P := C324_positive_lower_bound _ false x 0 G ltac:(simpl; lra) F ltac:(simpl; lia) ltac:(simpl; lia)).
    assert (E := proj1 (proj2 D) 0%nat ltac:(simpl; lia)). unfold truss_K in E. simpl in E. simpl in P.
    specialize (S2 eq_refl 0%nat ltac:(simpl; lia)). unfold t_area in E. destruct (s 0%nat) as [j|]; [|congruence]. simpl in E. lra.
Qed.
Print Assumptions C324_default_bounds_refuted.
Example C324_ex : exists q x, tgood q /\ tm_sN q = 1 /\ tm_su q = 1 /\ tm_feasible q false x.
Proof.
  destruct C323_ex as [x [F _]]. exists (two_bars 2 []), x. split; [apply two_bars_good|]. split; [reflexivity|split; [reflexivity|exact F]].
Qed.

(** C325 *)
Theorem C325_load_cases_must_agree : forall q top x, tgood q -> tm_feasible q top x ->
  forall k d, (k < tm_nlc q)%nat -> (d < tm_ndof q)%nat -> tm_p q k d = tm_p q 0%nat d.
Proof. intros q top x G F. exact (tloads_lemma q G top x F). Qed.
Print Assumptions C325_load_cases_must_agree.
Theorem C325_strength_of_every_load_case_partial : forall q top x, tm_feasible q top x ->
  forall k i j, (k < tm_nlc q)%nat -> (i < tm_nmem q)%nat -> (j < tm_np q i)%nat ->
  tval q x (VN i j k) <= t_NRd q i j * tval q x (Vy i j)
  /\ - tval q x (VN i j k) <= Rmin (t_NRd q i j) (t_NbRd q i j) * tval q x (Vy i j).
Proof. intros q top x F. destruct (feas_rows q top x F) as [_ [_ [_ [_ H]]]]. exact (proj1 (str_rows_iff q top x) H). Qed.
Print Assumptions C325_strength_of_every_load_case_partial.
(** Finding: two equal load cases, and the force of the second one is not the elastic force
    of its displacements: its compatibility row reads a displacement of the first case. *)
Theorem C325_second_load_case_refuted : exists q x, tgood q /\ tm_nlc q = 2%nat /\ tm_p q 1%nat 0%nat = tm_p q 0%nat 0%nat
  /\ tm_feasible q false x /\ tval q x (Vy 0 0) = 1 /\ tval q x (VN 0 0 1) = 0
  /\ elastic_force (tm_ndof q) (tm_E q 0%nat) (tm_L q 0%nat) (tm_A q (tm_pr q 0 0)) (tm_B q) 0 (fun d => tval q x (Vu d 1)) = 2.
Proof.
  set (q := one_bar 1 1 (-10) 10 2 2).
  set (x := (fun v => match v with 0 => 1 | 1 => 2 | 2 => 2 | 3 => 0 | _ => 2 end)%nat : nat -> nat).
  exists q, (fun v => INR (x v)).
  assert (NB : t_Nlb q 0 0 = -10 /\ t_Nub q 0 0 = 10).
  { unfold t_Nlb, t_Nub, t_k0, t_L, t_nlb, t_nub, tm_sE, tm_sA, tm_pr; simpl.
    unfold Rmax, Rmin; repeat destruct (Rle_dec _ _); try lra; split; field. }
  assert (RD : t_NRd q 0 0 = 5 /\ t_NbRd q 0 0 = 5).
  { unfold t_NRd, t_NbRd, tm_sA. simpl. rewrite floor5. split; ring. }
  assert (KS : t_stiff q 0 0 = 1) by (unfold t_stiff, t_k0, t_L, tm_sE, tm_sA; simpl; field).
  destruct NB as [N1 N2]. destruct RD as [R1 R2].
  assert (V1 : tval q (fun v => INR (x v)) (Vy 0 0) = 1) by (unfold tval; change (tpos q (Vy 0 0)) with 0%nat; simpl; lra).
  assert (V2 : tval q (fun v => INR (x v)) (VN 0 0 0) = 2) by (unfold tval; change (tpos q (VN 0 0 0)) with 1%nat; simpl; lra).
  assert (V3 : tval q (fun v => INR (x v)) (Vu 0 0) = 2) by (unfold tval; change (tpos q (Vu 0 0)) with 2%nat; simpl; lra).
  assert (V4 : tval q (fun v => INR (x v)) (VN 0 0 1) = 0) by (unfold tval; change (tpos q (VN 0 0 1)) with 3%nat; simpl; lra).
  assert (V5 : tval q (fun v => INR (x v)) (Vu 0 1) = 2) by (unfold tval; change (tpos q (Vu 0 1)) with 4%nat; simpl; lra).
  split; [apply one_bar_good; lra|]. split; [reflexivity|]. split; [reflexivity|]. split; [|split; [|split]].
  - split.
    + intros v t H. assert (T := tvars_valid_lemma q false v t H). assert (P := tvars_pos_lemma q false v t H). subst v.
      destruct t; simpl in T; try (destruct T; discriminate).
      * destruct T as [T1 T2]. change (tm_np q i) with 1%nat in T2. assert (i = 0)%nat by lia. assert (j = 0)%nat by lia. subst. simpl. split; [lra|intros; right; lra].
      * destruct T as [T1 [T2 T3]]. change (tm_np q i) with 1%nat in T2. assert (i = 0)%nat by lia. assert (j = 0)%nat by lia. subst.
        unfold tv_lb, tv_ub. rewrite N1, N2. split; [|intros; discriminate]. destruct k as [|[|k]]; [simpl; lra|simpl; lra|lia].
      * destruct T as [T1 T2]. assert (d = 0)%nat by lia. subst. split; [|intros; discriminate]. destruct k as [|[|k]]; [simpl; lra|simpl; lra|lia].
    + unfold tm_rows. rewrite !Forall_app. split; [|split; [constructor|split; [|split]]].
      * apply sel_rows_iff. intros i Hi. simpl in Hi. assert (i = 0)%nat by lia. subst. change (tm_np q 0) with 1%nat. cbn [sumn]. rewrite V1. lra.
      * apply eq_rows_iff; [simpl; lia|]. intros k d Hk Hd. simpl in Hd. assert (d = 0)%nat by lia. subst. cbn [tm_nmem q one_bar sumn]. change (tm_np q 0) with 1%nat. cbn [sumn]. rewrite V2. simpl. lra.
      * apply comp_rows_iff. intros k i j Hk Hi Hj. simpl in Hi, Hk. change (tm_np q i) with 1%nat in Hj.
        assert (i = 0)%nat by lia. assert (j = 0)%nat by lia. subst. rewrite KS, N1, N2. unfold t_el.
        destruct k as [|[|k]]; [simpl; lra|simpl; lra|lia].
      * apply str_rows_iff. intros k i j Hk Hi Hj. simpl in Hi, Hk. change (tm_np q i) with 1%nat in Hj.
        assert (i = 0)%nat by lia. assert (j = 0)%nat by lia. subst. rewrite R1, R2. unfold Rmin. destruct (Rle_dec 5 5); [|lra].
        destruct k as [|[|k]]; [simpl; lra|simpl; lra|lia].
  - simpl. lra.
  - simpl. lra.
  - unfold elastic_force. change (tm_ndof q) with 1%nat. cbn [sumn]. rewrite V5. simpl. field.
Qed.
Print Assumptions C325_second_load_case_refuted.
Example C325_ex : exists q x, tgood q /\ tm_nlc q = 2%nat /\ tm_feasible q false x.
Proof. destruct C325_second_load_case_refuted as [q [x [A [B [_ [C _]]]]]]. exists q, x. auto. Qed.

(** C326 *)
Theorem C326_topology_exactly_partial : forall q s z, tgood q -> groups_wf q -> tm_ulb q <= 0 -> 0 <= tm_uub q -> tm_nlc q = 1%nat ->
  (forall i j, (i < tm_nmem q)%nat -> s i = Some j -> (j < tm_np q i)%nat) ->
  (exists x, tm_feasible q true x /\ tselects q x s /\ node_values q x z)
  <-> topo_ok q s z /\ exists u, tdesign q (tm_ulb q / tm_su q) (tm_uub q / tm_su q) (tm_su q ^ 2 / tm_sN q) (tm_p q 0%nat) s u.
Proof. exact topo_iff_lemma. Qed.
Print Assumptions C326_topology_exactly_partial.
Theorem C326_topology_rules : forall q x, groups_wf q -> tm_feasible q true x ->
  exists s z, tselects q x s /\ node_values q x z /\ topo_ok q s z.
Proof.
  intros q x WF F. exists (ts q x), (tz q x). destruct (topo_sound_lemma q WF x F) as [A B].
  split; [apply (ts_ok q true x F)|]. auto.
Qed.
Print Assumptions C326_topology_rules.
(** Finding: the row named Y <= Z reads Z <= Y: a member may exist although one of its nodes
    does not. *)
Theorem C326_member_without_node_refuted : exists q x s z j i, tgood q /\ tm_feasible q true x /\ tselects q x s /\ node_values q x z
  /\ (j < tm_nnodes q)%nat /\ at_node q j i /\ present s i = true /\ z j = false.
Proof.
  destruct (C323_complete (two_bars 2 []) true (ab 0 0) (fun d => 2 / (INR (match d with 0%nat => 0 | _ => 0 end)%nat + 1)) (fun j => (j <? 2)%nat))
    as [x [F [S1 [Z _]]]].
  - apply two_bars_good.
  - apply wf_none.
  - simpl; lra.
  - simpl; lra.
  - reflexivity.
  - apply two_bars_p; auto.
  - split; [|split; [|split; [|split]]].
    + intros j i Hj [Hi _] _. simpl in Hi. destruct i as [|[|i]]; try reflexivity. lia.
    + intros j Hj Hz. simpl in Hj. destruct j as [|[|[|j]]]; try lia; try discriminate; vm_compute; lia.
    + vm_compute. lia.
    + vm_compute. lia.
    + intros g a b j k [].
  - exists (two_bars 2 []), x, (ab 0 0), (fun j => (j <? 2)%nat), 2%nat, 0%nat.
    split; [apply two_bars_good|]. split; [exact F|]. split; [exact S1|]. split; [exact (Z eq_refl)|].
    split; [simpl; lia|]. split; [split; simpl; auto; lia|]. split; reflexivity.
Qed.
Print Assumptions C326_member_without_node_refuted.
(** Finding: and a truss that leaves out a member between two nodes it keeps is not
    feasible, however sound it is. *)
Theorem C326_member_left_out_refuted : exists q s z u, tgood q /\ sensible_topology q s z
  /\ tdesign q (tm_ulb q) (tm_uub q) 1 (tm_p q 0%nat) s u
  /\ forall x, tm_feasible q true x -> tselects q x s -> ~ node_values q x z.
Proof.
  exists (two_bars 3 []), (ab 0 0), (fun _ => true), (fun d => 2 / (INR (match d with 0%nat => 0 | _ => 0 end)%nat + 1)).
  split; [apply two_bars_good|]. split; [|split].
  - split; [|split; [|split]].
    + auto.
    + intros j Hj _. simpl in Hj. destruct j as [|[|[|j]]]; try lia; vm_compute; lia.
    + vm_compute. lia.
    + vm_compute. lia.
  - apply two_bars_design; auto. 
  - intros x F S1 Z. assert (E : topo_ok (two_bars 3 []) (ab 0 0) (fun _ => true)).
    { apply (C326_topology_exactly_partial (two_bars 3 []) (ab 0 0) (fun _ => true)).
      - apply two_bars_good.
      - apply wf_none.
      - simpl; lra.
      - simpl; lra.
      - reflexivity.
      - intros i j Hi H. change (tm_np (two_bars 3 []) i) with 2%nat. destruct i as [|[|i]]; try discriminate; injection H as <-; lia.
      - exists x. auto. }
    destruct E as [E _]. assert (H := E 0%nat 2%nat). simpl in H.
    specialize (H ltac:(lia) ltac:(split; simpl; auto) eq_refl). discriminate.
Qed.
Print Assumptions C326_member_left_out_refuted.
Example C326_ex : exists q x, tgood q /\ groups_wf q /\ tm_feasible q true x.
Proof.
  destruct (C323_complete (two_bars 2 []) true (ab 1 0) (fun d => 2 / (INR (match d with 0%nat => 1 | _ => 0 end)%nat + 1)) (fun j => true))
    as [x [F _]].
  - apply two_bars_good.
  - apply wf_none.
  - simpl; lra.
  - simpl; lra.
  - reflexivity.
  - apply two_bars_p; auto.
  - split; [|split; [|split; [|split]]].
    + intros j i Hj [Hi _] _. simpl in Hi. destruct i as [|[|i]]; try reflexivity. lia.
    + intros j Hj _. simpl in Hj. destruct j as [|[|[|j]]]; try lia; vm_compute; lia.
    + vm_compute. lia.
    + vm_compute. lia.
    + intros g a b j k [].
  - exists (two_bars 2 []), x. split; [apply two_bars_good|]. split; [apply wf_none|exact F].
Qed.

(** C327 *)
Theorem C327_groups_in_topology : forall q x s g a b j k, groups_wf q -> tm_feasible q true x -> tselects q x s ->
  (forall i j, (i < tm_nmem q)%nat -> s i = Some j -> (j < tm_np q i)%nat) ->
  In g (tm_groups q) -> In a (fst g) -> In b (fst g) -> s a = Some j -> s b = Some k ->
  j = k /\ tm_pr q a j = tm_pr q b k.
Proof.
  intros q x s g a b j k WF F S1 Hs Hg Ha Hb Ea Eb. assert (E := groups_sound q WF x s F S1 Hs g a b j k Hg Ha Hb Ea Eb).
  split; [exact E|]. subst k. unfold tm_pr. destruct (WF g Hg) as [_ W]. destruct (W a Ha) as [_ ->]. destruct (W b Hb) as [_ ->]. reflexivity.
Qed.
Print Assumptions C327_groups_in_topology.
(** Finding: in the sizing problem the groups only limit the profiles: two members of one
    group may get different profiles. *)
Theorem C327_groups_in_sizing_refuted : exists q x s g a b j k, tgood q /\ groups_wf q /\ tm_feasible q false x /\ tselects q x s
  /\ In g (tm_groups q) /\ In a (fst g) /\ In b (fst g) /\ s a = Some j /\ s b = Some k /\ tm_pr q a j <> tm_pr q b k.
Proof.
  destruct (C323_complete (two_bars 2 [([0; 1], [0; 1])]%nat) false (ab 0 1) (fun d => 2 / (INR (match d with 0%nat => 0 | _ => 1 end)%nat + 1)) (fun _ => true))
    as [x [F [S1 _]]].
  - apply two_bars_good.
  - apply wf_01.
  - simpl; lra.
  - simpl; lra.
  - reflexivity.
  - apply two_bars_p; auto. intros i Hi. destruct i as [|[|i]]; try reflexivity.
  - intros i Hi E. simpl in Hi. destruct i as [|[|i]]; try discriminate. lia.
  - exists (two_bars 2 [([0; 1], [0; 1])]%nat), x, (ab 0 1), ([0; 1], [0; 1])%nat, 0%nat, 1%nat, 0%nat, 1%nat.
    split; [apply two_bars_good|]. split; [apply wf_01|]. split; [exact F|]. split; [exact S1|].
    split; [left; reflexivity|]. split; [left; reflexivity|]. split; [right; left; reflexivity|].
    split; [reflexivity|]. split; [reflexivity|]. vm_compute. lia.
Qed.
Print Assumptions C327_groups_in_sizing_refuted.
Example C327_ex : exists x, tm_feasible (two_bars 2 [([0; 1], [0; 1])]%nat) true x /\ tselects (two_bars 2 [([0; 1], [0; 1])]%nat) x (ab 1 1).
Proof.
  destruct (C323_complete (two_bars 2 [([0; 1], [0; 1])]%nat) true (ab 1 1) (fun d => 2 / (INR (match d with 0%nat => 1 | _ => 1 end)%nat + 1)) (fun j => true))
    as [x [F [S1 _]]].
  - apply two_bars_good.
  - apply wf_01.
  - simpl; lra.
  - simpl; lra.
  - reflexivity.
  - apply two_bars_p; auto. intros i Hi. destruct i as [|[|i]]; try reflexivity.
  - split; [|split; [|split; [|split]]].
    + intros j i Hj [Hi _] _. simpl in Hi. destruct i as [|[|i]]; try reflexivity. lia.
    + intros j Hj _. simpl in Hj. destruct j as [|[|[|j]]]; try lia; vm_compute; lia.
    + vm_compute. lia.
    + vm_compute. lia.
    + intros g a b j k [<-|[]] Ha Hb Ea Eb. simpl in Ha, Hb. destruct Ha as [<-|[<-|[]]]; destruct Hb as [<-|[<-|[]]]; simpl in Ea, Eb; congruence.
  - exists x. auto.
Qed.

(** The bounds of the elongations are those of the box of displacements and both are reached. *)
Theorem C322_elongation_range : forall q i, tm_ulb q <= tm_uub q ->
  (forall u, (forall d, tm_ulb q <= u d <= tm_uub q) -> t_nlb q i <= sumn (tm_ndof q) (fun d => tm_B q d i * u d) <= t_nub q i)
  /\ (exists u, (forall d, tm_ulb q <= u d <= tm_uub q) /\ sumn (tm_ndof q) (fun d => tm_B q d i * u d) = t_nlb q i)
  /\ (exists u, (forall d, tm_ulb q <= u d <= tm_uub q) /\ sumn (tm_ndof q) (fun d => tm_B q d i * u d) = t_nub q i).
Proof.
  intros q i U. unfold t_nlb, t_nub.
  assert (P : forall n (f g : nat -> R), sumn n f + sumn n g = sumn n (fun d => f d + g d)).
  { induction n as [|n IH]; intros f g; cbn [sumn]; [ring|]. rewrite <- IH. ring. }
  assert (E : forall n (f g : nat -> R), (forall d, f d = g d) -> sumn n f = sumn n g).
  { induction n as [|n IH]; intros f g K; cbn [sumn]; [reflexivity|]. rewrite (IH f g K), K. reflexivity. }
  assert (L : forall n (f g : nat -> R), (forall d, f d <= g d) -> sumn n f <= sumn n g).
  { induction n as [|n IH]; intros f g K; cbn [sumn]; [lra|]. pose proof (IH f g K). pose proof (K n). lra. }
  rewrite !P. split; [|split].
  - intros u Hu. split; apply L; intros d; specialize (Hu d); unfold Rmin, Rmax; destruct (Rle_dec _ 0); nra.
  - exists (fun d => if Rle_dec (tm_B q d i) 0 then tm_uub q else tm_ulb q). split; [intros d; destruct (Rle_dec _ 0); lra|].
    apply E. intros d. unfold Rmin, Rmax. destruct (Rle_dec _ 0); ring.
  - exists (fun d => if Rle_dec (tm_B q d i) 0 then tm_ulb q else tm_uub q). split; [intros d; destruct (Rle_dec _ 0); lra|].
    apply E. intros d. unfold Rmin, Rmax. destruct (Rle_dec _ 0); ring.
Qed.
Print Assumptions C322_elongation_range.
(** An integer within the bounds of a binary variable is 0 or 1. *)
Theorem C322_binary : forall q t z, tv_bin t = true -> (tv_lb q t <= IZR z <= tv_ub q t <-> z = 0%Z \/ z = 1%Z).
Proof.
  intros q t z H. assert (tv_lb q t = 0 /\ tv_ub q t = 1) as [-> ->] by (destruct t; try discriminate H; split; reflexivity). split.
  - intros [A B]. apply le_IZR in A. apply le_IZR in B. lia.
  - intros [->| ->]; lra.
Qed.
Print Assumptions C322_binary.
