From Coq Require Import Rpower.
From Verif Require Import EC3_proofs Sections_proofs Sections3_proofs Plate_proofs Loads2_proofs Rhs_proofs.
From Verif Require Import Rhs_model Rhs_spec.

(* ------------------------------------------------------------- brace forces *)
Lemma NcEd_uniform : forall b N, uniform b N -> NcEd b = Some (Rmin N 0) /\ NEd b = Some (Rabs N).
Proof.
  intros b N [NE U]. unfold NcEd, NEd. split.
  - apply list_min_spec. split.
    + destruct (br_ned b) as [|x l]; [congruence|]. cbn. left. rewrite (U x); [auto|left; auto].
    + intros x X. apply in_map_iff in X. destruct X as [y [<- Y]]. rewrite (U y Y). lra.
  - apply list_max_spec. split.
    + destruct (br_ned b) as [|x l]; [congruence|]. cbn. left. rewrite (U x); [auto|left; auto].
    + intros x X. apply in_map_iff in X. destruct X as [y [<- Y]]. rewrite (U y Y). lra.
Qed.
Lemma forces_lemma : forall j F1 F2, uniform (k_b1 j) F1 -> uniform (k_b2 j) F2 -> F1 * F2 < 0 ->
  (F1 < 0 -> k_N1 j = Some (- F1) /\ k_angle1 j = Some (k_a1 j)) /\
  (F2 < 0 -> k_N1 j = Some (- F2) /\ k_angle1 j = Some (k_a2 j)) /\
  exists V, k_V0gap j = Some V /\ 0 <= V /\
   (F1 * sin (rad (k_a1 j)) + F2 * sin (rad (k_a2 j)) = 0 -> V = Rabs (F1 * sin (rad (k_a1 j))) /\ V = Rabs (F2 * sin (rad (k_a2 j)))).
Proof.
  intros j F1 F2 U1 U2 P. destruct (NcEd_uniform _ _ U1) as [C1 M1]. destruct (NcEd_uniform _ _ U2) as [C2 M2].
  assert (A : F1 < 0 -> k_N1 j = Some (- F1) /\ k_angle1 j = Some (k_a1 j)).
  { intros L. unfold k_N1, k_angle1. rewrite C1. cbn [bind]. rewrite Rmin_left by lra.
    destruct (Rltb F1 0) eqn:E; [|apply Rltb_false in E; lra]. rewrite Rabs_left by lra. auto. }
  assert (B : F2 < 0 -> k_N1 j = Some (- F2) /\ k_angle1 j = Some (k_a2 j)).
  { intros L. assert (0 < F1) by nra. unfold k_N1, k_angle1. rewrite C1. cbn [bind]. rewrite Rmin_right by lra.
    destruct (Rltb 0 0) eqn:E; [apply Rltb_true in E; lra|]. rewrite M2, Rabs_left by lra. auto. }
  split; auto. split; auto. unfold k_V0gap.
  destruct (Rlt_dec F1 0) as [L|L].
  - destruct (A L) as [-> ->]. cbn [bind]. eexists; split; [reflexivity|]. split; [apply Rabs_pos|].
    intros Q. replace (F2 * sin (rad (k_a2 j))) with (- (F1 * sin (rad (k_a1 j)))) by lra. rewrite Rabs_Ropp.
    replace (- F1 * sin (rad (k_a1 j))) with (- (F1 * sin (rad (k_a1 j)))) by ring. rewrite Rabs_Ropp. auto.
  - assert (L2 : F2 < 0) by nra. destruct (B L2) as [-> ->]. cbn [bind]. eexists; split; [reflexivity|]. split; [apply Rabs_pos|].
    intros Q. replace (F1 * sin (rad (k_a1 j))) with (- (F2 * sin (rad (k_a2 j)))) by lra. rewrite Rabs_Ropp.
    replace (- F2 * sin (rad (k_a2 j))) with (- (F2 * sin (rad (k_a2 j)))) by ring. rewrite Rabs_Ropp. auto.
Qed.
Lemma tension_force_lemma : forall j F1 F2, uniform (k_b1 j) F1 -> uniform (k_b2 j) F2 ->
  (F1 < 0 -> 0 < F2 -> k_N2 j = Some 0) /\ (0 < F1 -> F2 < 0 -> k_N2 j = Some (- F2)).
Proof.
  intros j F1 F2 U1 U2. destruct (NcEd_uniform _ _ U1) as [C1 M1]. destruct (NcEd_uniform _ _ U2) as [C2 M2].
  unfold k_N2. rewrite C1, C2. cbn [bind]. pose proof (Rmin_r F1 0). destruct (Rleb (Rmin F1 0) 0) eqn:E; [|apply Rleb_false in E; lra].
  split; intros; f_equal; [rewrite Rmin_right by lra; apply Rabs_R0|rewrite Rmin_left by lra; apply Rabs_left; auto].
Qed.
Lemma gap_force_lemma : forall j, k_N0 j < 0 -> k_N0gap j = None.
Proof. intros j H. unfold k_N0gap. destruct (Rltb (k_N0 j) 0) eqn:E; [|apply Rltb_false in E; lra]. unfold k_angle2. destruct (k_N2 j); reflexivity. Qed.

(* ------------------------------------------------------------- K gap joints *)
Lemma beta_pos : forall j, k_ok j -> 0 < k_beta j.
Proof.
  intros j [[H0 [B0 _]] [[T1 [H1 [B1 _]]] [[T2 [H2 [B2 _]]] _]]]. unfold k_beta. apply Rdiv_lt_0_compat; lra.
Qed.
Lemma face_t_pos : forall j, k_ok j -> 0 < face_t j.
Proof.
  intros j [[H0 [B0 [T0 _]]] [_ [_ [_ [_ [_ [_ TP]]]]]]]. unfold face_t. destruct (Reqb (k_tp j) 0) eqn:E; auto. apply Reqb_false in E. lra.
Qed.
Lemma red_pos : forall j, k_ok j -> 0 < k_red j.
Proof.
  intros j [[_ [_ [_ [F _]]]] [_ [_ [_ [_ [_ [R0 _]]]]]]]. unfold k_red. apply (rhs_reduction_lemma (k_r j) (c_fy (k_c j)) (c_fy (k_c j))); lra.
Qed.
Lemma gamma_pos : forall c, chord_ok c -> 0 < gamma c.
Proof. intros c [_ [B [T _]]]. unfold gamma. apply Rdiv_lt_0_compat; lra. Qed.
Lemma a_eta_bounds : forall c g, chord_ok c -> 0 <= g -> 2 * c_h c * c_t c < a_eta c g <= (2 * c_h c + c_b c) * c_t c.
Proof.
  intros c g [H [B [T _]]] G. unfold a_eta. cbv zeta.
  assert (Q : 0 <= 4 * g ^ 2 / 3 / c_t c ^ 2). { apply div_nn; [|simpl; nra]. apply div_nn; [|lra]. pose proof (pow2_ge_0 g). lra. }
  assert (P : 0 < 1 / (1 + 4 * g ^ 2 / 3 / c_t c ^ 2) <= 1).
  { split. apply Rdiv_lt_0_compat; lra. apply div_le_iff; lra. }
  assert (S0 : 0 < sqrt (1 / (1 + 4 * g ^ 2 / 3 / c_t c ^ 2)) <= 1).
  { split. apply sqrt_lt_R0; lra. rewrite <- sqrt_1 at 3. apply sqrt_le_1; lra. }
  set (a := sqrt _) in *. assert (0 < a * c_b c <= c_b c) by nra. split; nra.
Qed.
Lemma a_eta_anti : forall c g g', chord_ok c -> 0 <= g <= g' -> a_eta c g' <= a_eta c g.
Proof.
  intros c g g' [H [B [T _]]] [G GG]. unfold a_eta. cbv zeta. apply Rmult_le_compat_r; [lra|]. apply Rplus_le_compat_l. apply Rmult_le_compat_r; [lra|].
  assert (T2 : 0 < c_t c ^ 2) by (simpl; nra).
  assert (0 <= g ^ 2 <= g' ^ 2) by (simpl; nra).
  assert (0 <= 4 * g ^ 2 / 3 / c_t c ^ 2 <= 4 * g' ^ 2 / 3 / c_t c ^ 2) by (split; [apply div_nn; lra|apply div_le; lra]).
  apply sqrt_le_1. apply Rlt_le, Rdiv_lt_0_compat; lra. apply Rlt_le, Rdiv_lt_0_compat; lra. apply div_anti; lra.
Qed.
Lemma sqrt3_pos : 0 < sqrt 3. Proof. apply sqrt_lt_R0. lra. Qed.
Lemma kn_pos : forall j, k_ok j -> 35/100 <= k_beta j -> elastic (k_c j) (k_N0 j) (k_M0 j) -> 0 < k_kn j <= 1.
Proof.
  intros j J BE EL. pose proof (beta_pos j J) as BP. destruct J as [CO _].
  destruct (rhs_stress_lemma (k_c j) (k_N0 j) (k_M0 j) (k_N0 j) (k_M0 j) CO ltac:(lra) ltac:(lra)) as [_ [S1 _]]. apply S1 in EL.
  destruct (kn_lemma (eval_N (k_c j) (k_N0 j) (k_M0 j)) (eval_N (k_c j) (k_N0 j) (k_M0 j)) (k_beta j) BP ltac:(lra)) as [_ [K1 [_ [K2 _]]]].
  unfold k_kn. specialize (K2 BE EL). lra.
Qed.
Lemma face_form : forall j a, k_face j a = k_kn j * ((89/10) * k_red j * c_fy (k_c j) * face_t j ^ 2 * sqrt (gamma (k_c j)) * k_beta j) / sin (rad a).
Proof. intros. unfold k_face, Rdiv. rewrite Rinv_1. ring. Qed.
Lemma face_coeff : forall j, k_ok j -> 0 < (89/10) * k_red j * c_fy (k_c j) * face_t j ^ 2 * sqrt (gamma (k_c j)) * k_beta j.
Proof.
  intros j J. pose proof (beta_pos j J). pose proof (face_t_pos j J). pose proof (red_pos j J). pose proof J as [CO _].
  pose proof (gamma_pos _ CO) as G. assert (0 < sqrt (gamma (k_c j))) by (apply sqrt_lt_R0; auto). destruct CO as [_ [_ [_ [F _]]]].
  assert (0 < face_t j ^ 2) by (apply pow_lt; auto). repeat (apply Rmult_lt_0_compat; [|assumption]). lra.
Qed.
Lemma k_positive_lemma : forall j b a, k_ok j -> brace_ok b -> angle_ok a -> 35/100 <= k_beta j -> elastic (k_c j) (k_N0 j) (k_M0 j) ->
  0 < k_face j a /\ 0 < k_shear j a /\ 0 < k_brace j b /\ 0 < k_punch j b a /\ 0 < k_NjRd j b a /\
  k_NjRd j b a <= k_face j a /\ k_NjRd j b a <= k_shear j a /\ k_NjRd j b a <= k_brace j b /\
  (k_beta j <= 1 - 1 / gamma (k_c j) -> k_NjRd j b a <= k_punch j b a) /\
  k_brace j b <= k_red j * br_fy b * (2 * br_t b * (br_h b + br_b b - 2 * br_t b)).
Proof.
  intros j b a J BO AO BE EL. pose proof (kn_pos j J BE EL) as KN. pose proof (face_coeff j J) as FC. pose proof (red_pos j J) as RP.
  pose proof (face_t_pos j J) as FT. pose proof J as [CO [_ [_ [_ [_ [GP _]]]]]]. pose proof (a_eta_bounds _ _ CO GP) as AE.
  destruct (sin_mono_angle a a ltac:(unfold angle_ok in AO; lra) ltac:(unfold angle_ok in AO; lra)) as [[SA _] _].
  pose proof sqrt3_pos as S3. destruct CO as [H [B [T [F [A [W V]]]]]]. destruct BO as [BT [BH [BB BF]]].
  assert (P1 : 0 < k_face j a). { rewrite face_form. apply Rdiv_lt_0_compat; auto. nra. }
  assert (P2 : 0 < k_shear j a).
  { unfold k_shear. apply Rmult_lt_0_compat; auto. assert (0 < 2 * c_h (k_c j) * c_t (k_c j)) by nra.
    repeat apply Rdiv_lt_0_compat; try lra. apply Rmult_lt_0_compat; lra. }
  assert (Q : 0 < 10 / (c_b (k_c j) / face_t j)). { apply Rdiv_lt_0_compat; [lra|]. apply Rdiv_lt_0_compat; lra. }
  assert (P3 : 0 < k_brace j b /\ k_brace j b <= k_red j * br_fy b * (2 * br_t b * (br_h b + br_b b - 2 * br_t b))).
  { unfold k_brace. cbv zeta. set (m := Rmin _ 1).
    assert (M : 0 < m <= 1).
    { unfold m. split; [|apply Rmin_r]. apply Rmin_glb_lt; [|lra]. apply Rdiv_lt_0_compat; [|nra]. apply Rmult_lt_0_compat; [|lra]. nra. }
    assert (0 < m * br_b b <= br_b b) by nra. set (x := m * br_b b) in *.
    replace (k_red j * br_fy b * br_t b * (2 * br_h b - 4 * br_t b + br_b b + x) / 1) with ((k_red j * br_fy b * br_t b) * (2 * br_h b - 4 * br_t b + br_b b + x)) by field.
    assert (K0 : 0 < k_red j * br_fy b * br_t b) by (repeat apply Rmult_lt_0_compat; auto).
    split. { apply Rmult_lt_0_compat; lra. }
    replace (k_red j * br_fy b * (2 * br_t b * (br_h b + br_b b - 2 * br_t b))) with ((k_red j * br_fy b * br_t b) * (2 * br_h b + 2 * br_b b - 4 * br_t b)) by ring.
    apply Rmult_le_compat_l; lra. }
  assert (P4 : 0 < k_punch j b a).
  { unfold k_punch. cbv zeta. assert (0 < Rmin (10 / (c_b (k_c j) / face_t j)) 1) by (apply Rmin_glb_lt; lra).
    assert (0 < 2 * br_h b / sin (rad a)) by (apply Rdiv_lt_0_compat; lra).
    apply Rdiv_lt_0_compat; [|lra]. apply Rmult_lt_0_compat; [|nra].
    apply Rdiv_lt_0_compat; auto. apply Rdiv_lt_0_compat; auto. repeat apply Rmult_lt_0_compat; auto. }
  destruct P3 as [P3 P3']. unfold k_NjRd. cbv zeta.
  destruct (Rleb (k_beta j) (1 - 1 / gamma (k_c j))) eqn:E; [apply Rleb_true in E|apply Rleb_false in E];
    repeat match goal with |- _ /\ _ => split end; auto; try (intros; lra); unfold Rmin; repeat destruct Rle_dec; lra.
Qed.
Lemma k_monotone_lemma : forall j b a a', k_ok j -> brace_ok b -> 0 < a <= a' -> a' <= 90 -> 35/100 <= k_beta j -> elastic (k_c j) (k_N0 j) (k_M0 j) ->
  k_face j a' <= k_face j a /\ k_shear j a' <= k_shear j a /\ k_punch j b a' <= k_punch j b a /\ k_NjRd j b a' <= k_NjRd j b a.
Proof.
  intros j b a a' J BO A AA BE EL. pose proof (kn_pos j J BE EL) as KN. pose proof (face_coeff j J) as FC. pose proof (red_pos j J) as RP.
  pose proof (face_t_pos j J) as FT. pose proof J as [CO [_ [_ [_ [_ [GP _]]]]]]. pose proof (a_eta_bounds _ _ CO GP) as AE.
  destruct (sin_mono_angle a a' A AA) as [[SA SL] _]. pose proof sqrt3_pos as S3. destruct CO as [H [B [T [F [A0 [W V]]]]]]. destruct BO as [BT [BH [BB BF]]].
  assert (P1 : k_face j a' <= k_face j a). { rewrite !face_form. apply div_anti; [nra|lra]. }
  assert (P2 : k_shear j a' <= k_shear j a).
  { unfold k_shear. apply Rmult_le_compat_l; [lra|]. apply div_le; [lra|]. assert (0 < 2 * c_h (k_c j) * c_t (k_c j)) by nra.
    apply div_anti; [|lra]. apply div_nn; auto. apply Rmult_le_pos; lra. }
  assert (Q : 0 < Rmin (10 / (c_b (k_c j) / face_t j)) 1). { apply Rmin_glb_lt; [|lra]. apply Rdiv_lt_0_compat; [lra|]. apply Rdiv_lt_0_compat; lra. }
  assert (P3 : k_punch j b a' <= k_punch j b a).
  { unfold k_punch. cbv zeta. apply div_le; [lra|]. assert (0 <= k_red j * c_fy (k_c j) * face_t j / sqrt 3).
    { apply div_nn; auto. repeat apply Rmult_le_pos; lra. }
    assert (2 * br_h b / sin (rad a') <= 2 * br_h b / sin (rad a)) by (apply div_anti; lra).
    assert (0 <= 2 * br_h b / sin (rad a')) by (apply div_nn; lra).
    apply Rmult_le_compat; [apply div_nn; lra|nra|apply div_anti; lra|lra]. }
  repeat split; auto. unfold k_NjRd. cbv zeta. destruct (Rleb (k_beta j) (1 - 1 / gamma (k_c j)));
   unfold Rmin; repeat destruct Rle_dec; lra.
Qed.
Lemma k_compression_lemma : forall j b a N0' M0', k_ok j -> angle_ok a -> N0' <= k_N0 j -> k_M0 j <= M0' ->
  let j' := k_forces j N0' M0' in
  k_face j' a <= k_face j a /\ k_shear j' a = k_shear j a /\ k_brace j' b = k_brace j b /\ k_punch j' b a = k_punch j b a /\ k_NjRd j' b a <= k_NjRd j b a.
Proof.
  intros j b a N0' M0' J AO LN LM j'. pose proof (beta_pos j J) as BP. pose proof (face_coeff j J) as FC.
  destruct (sin_mono_angle a a ltac:(unfold angle_ok in AO; lra) ltac:(unfold angle_ok in AO; lra)) as [[SA _] _].
  assert (P1 : k_face j' a <= k_face j a).
  { rewrite !face_form. apply div_le; [auto|]. change (k_red j') with (k_red j). change (face_t j') with (face_t j). change (k_beta j') with (k_beta j). change (k_c j') with (k_c j).
    apply Rmult_le_compat_r; [lra|]. unfold k_kn, j'; cbn [k_forces k_c k_N0 k_M0]. change (k_beta _) with (k_beta j) at 1.
    apply kn_lemma; auto. destruct J as [CO _]. apply rhs_stress_lemma; auto. }
  repeat split; auto. unfold k_NjRd. cbv zeta. change (k_beta j') with (k_beta j). change (k_c j') with (k_c j).
  change (k_shear j' a) with (k_shear j a). change (k_brace j' b) with (k_brace j b). change (k_punch j' b a) with (k_punch j b a).
  destruct (Rleb (k_beta j) (1 - 1 / gamma (k_c j))); unfold Rmin; repeat destruct Rle_dec; lra.
Qed.
Lemma chord_shear_lemma : forall j v, k_ok j -> 0 <= v -> a_eta (k_c j) (k_gap j) <= c_A (k_c j) ->
  0 <= k_N0Rd j v <= k_red j * (c_fy (k_c j) * c_A (k_c j)) /\ k_N0Rd j 0 = k_red j * (c_fy (k_c j) * c_A (k_c j)) /\
  (c_V (k_c j) < v -> k_N0Rd j v = 0) /\ (forall v', v <= v' -> k_N0Rd j v' <= k_N0Rd j v) /\
  (forall a g', angle_ok a -> k_gap j <= g' ->
     k_shear (mkK (k_c j) (k_b1 j) (k_b2 j) (k_a1 j) (k_a2 j) g' (k_N0 j) (k_M0 j) (k_r j) (k_tp j)) a <= k_shear j a).
Proof.
  intros j v J V0 AE. pose proof (red_pos j J) as RP. pose proof J as [CO [_ [_ [_ [_ [GP _]]]]]]. pose proof (a_eta_bounds _ _ CO GP) as AB.
  pose proof CO as [H [B [T [F [A [W V]]]]]]. set (Ae := a_eta (k_c j) (k_gap j)) in *.
  assert (AP : 0 < Ae) by (assert (0 < 2 * c_h (k_c j) * c_t (k_c j)) by nra; lra).
  assert (FM : forall x, 0 <= x -> k_N0Rd j x = k_red j * (if Rltb (c_V (k_c j)) x then 0 else c_fy (k_c j) * ((c_A (k_c j) - Ae) + Ae * sqrt (1 - (x / c_V (k_c j)) ^ 2)))).
  { intros x X. unfold k_N0Rd. cbv zeta. fold Ae. f_equal.
    destruct (Rltb 1 (x / c_V (k_c j))) eqn:E1; [apply Rltb_true in E1|apply Rltb_false in E1];
    destruct (Rltb (c_V (k_c j)) x) eqn:E2; [apply Rltb_true in E2|apply Rltb_false in E2|apply Rltb_true in E2|apply Rltb_false in E2]; auto.
    - exfalso. assert (x / c_V (k_c j) <= 1) by (apply div_le_iff; lra). lra.
    - exfalso. apply (proj1 (div_le_iff _ _ _ V)) in E1. lra.
    - field. }
  assert (SB : forall x, 0 <= x <= c_V (k_c j) -> 0 <= sqrt (1 - (x / c_V (k_c j)) ^ 2) <= 1).
  { intros x [X1 X2]. split; [apply sqrt_pos|]. rewrite <- sqrt_1 at 2. 
    assert (0 <= x / c_V (k_c j) <= 1) by (split; [apply div_nn; lra|apply div_le_iff; lra]). apply sqrt_le_1; simpl; nra. }
  assert (NN : forall x, 0 <= x -> 0 <= (if Rltb (c_V (k_c j)) x then 0 else c_fy (k_c j) * ((c_A (k_c j) - Ae) + Ae * sqrt (1 - (x / c_V (k_c j)) ^ 2))) <= c_fy (k_c j) * c_A (k_c j)).
  { intros x X. destruct (Rltb (c_V (k_c j)) x) eqn:E; [split; [lra|nra]|apply Rltb_false in E]. pose proof (SB x ltac:(lra)) as Q. set (s := sqrt _) in *.
    assert (0 <= Ae * s <= Ae) by nra. split; [apply Rmult_le_pos; lra|apply Rmult_le_compat_l; lra]. }
  split. { rewrite FM by auto. pose proof (NN v V0). split; [apply Rmult_le_pos; lra|apply Rmult_le_compat_l; lra]. }
  split. { rewrite FM by lra. destruct (Rltb (c_V (k_c j)) 0) eqn:E; [apply Rltb_true in E; lra|].
    replace (1 - (0 / c_V (k_c j)) ^ 2) with 1 by (field; lra). rewrite sqrt_1. f_equal. ring. }
  split. { intros. rewrite FM by auto. destruct (Rltb (c_V (k_c j)) v) eqn:E; [ring|apply Rltb_false in E; lra]. }
  split.
  - intros v' L. rewrite !FM by lra. apply Rmult_le_compat_l; [lra|].
    destruct (Rltb (c_V (k_c j)) v') eqn:E'; [apply NN; auto|apply Rltb_false in E'].
    destruct (Rltb (c_V (k_c j)) v) eqn:E; [apply Rltb_true in E; lra|].
    apply Rmult_le_compat_l; [lra|]. apply Rplus_le_compat_l. apply Rmult_le_compat_l; [lra|].
    assert (0 <= v / c_V (k_c j)) by (apply div_nn; lra). assert (v / c_V (k_c j) <= v' / c_V (k_c j)) by (apply div_le; lra).
    assert (v' / c_V (k_c j) <= 1) by (apply div_le_iff; lra). apply sqrt_le_1; simpl; nra.
  - intros a g' AO G. unfold k_shear; cbn [k_c k_gap]. change (k_red (mkK _ _ _ _ _ _ _ _ _ _)) with (k_red j). apply Rmult_le_compat_l; [lra|].
    destruct (sin_mono_angle a a ltac:(unfold angle_ok in AO; lra) ltac:(unfold angle_ok in AO; lra)) as [[SA _] _].
    apply div_le; [lra|]. apply div_le; [lra|]. apply div_le; [apply sqrt3_pos|]. apply Rmult_le_compat_l; [lra|]. apply a_eta_anti; auto.
Qed.
