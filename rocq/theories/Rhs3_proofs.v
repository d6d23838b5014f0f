From Coq Require Import Rpower.
From Verif Require Import EC3_proofs Sections_proofs Sections3_proofs Plate_proofs Loads2_proofs Joint4_proofs Rhs_proofs Rhs2_proofs.
From Verif Require Import Rhs_model Rhs_spec.

Lemma yred_pos : forall j, y_ok j -> 0 < y_red j.
Proof. intros j [[_ [_ [_ [F _]]]] [_ [_ [R0 _]]]]. unfold y_red. apply (rhs_reduction_lemma (y_r j) (c_fy (y_c j)) (c_fy (y_c j))); lra. Qed.
Lemma ybeta_pos : forall j, y_ok j -> 0 < y_beta j.
Proof. intros j [[_ [B _]] [[_ [_ [BB _]]] _]]. unfold y_beta. apply Rdiv_lt_0_compat; lra. Qed.
Lemma yeta_pos : forall j, y_ok j -> 0 < y_eta j.
Proof. intros j [[_ [B _]] [[BT [BH _]] _]]. unfold y_eta. apply Rdiv_lt_0_compat; lra. Qed.
Lemma Rpower_1l : forall x, Rpower 1 x = 1.
Proof. intros. unfold Rpower. rewrite ln_1, Rmult_0_r. apply exp_0. Qed.
Lemma capped_bounds : forall b, 0 < b -> 0 < capped b < 1 /\ (b < 1 -> capped b = b).
Proof. intros b B. unfold capped. destruct (Rleb 1 b) eqn:E; [apply Rleb_true in E|apply Rleb_false in E]; split; intros; lra. Qed.
Lemma Rpower_anti : forall r x y, 0 < r < 1 -> x < y -> Rpower r y < Rpower r x.
Proof.
  intros r x y R L. unfold Rpower. apply exp_increasing. assert (ln r < 0) by (rewrite <- ln_1; apply ln_increasing; lra). nra.
Qed.
(* y_face as power times a positive factor *)
Definition yf (j : yjoint) : R := let b := capped (y_beta j) in let s := sin (rad (y_a j)) in
  c_fy (y_c j) * c_t (y_c j) ^ 2 / ((1 - b) * s) * (2 * y_eta j / s + 4 * sqrt (1 - b)).
Lemma yface_form : forall j, y_ok j -> y_face j = Rpower (y_red j) (y_kn j) * yf j /\ 0 < yf j.
Proof.
  intros j J. pose proof (yeta_pos j J) as E. destruct (capped_bounds _ (ybeta_pos j J)) as [B _].
  destruct J as [[H [W [T [F [A _]]]]] [_ [AO _]]]. destruct (sin_mono_angle (y_a j) (y_a j) ltac:(unfold angle_ok in AO; lra) ltac:(unfold angle_ok in AO; lra)) as [[SA _] _].
  split. { unfold y_face, yf. cbv zeta. unfold Rdiv. rewrite Rinv_1. ring. }
  unfold yf. cbv zeta. apply Rmult_lt_0_compat.
  - apply Rdiv_lt_0_compat; [|nra]. apply Rmult_lt_0_compat; auto. apply pow_lt; auto.
  - assert (0 < 2 * y_eta j / sin (rad (y_a j))) by (apply Rdiv_lt_0_compat; lra). pose proof (sqrt_pos (1 - capped (y_beta j))). lra.
Qed.
Lemma Rpower_pos : forall r x, 0 < Rpower r x. Proof. intros. apply exp_pos. Qed.
Lemma y_positive_lemma : forall j, y_ok j -> 0 < y_face j /\ 0 < y_brace j /\ 0 < y_punch j /\
  y_brace j <= y_red j * br_fy (y_b j) * (2 * br_t (y_b j) * (br_h (y_b j) + br_b (y_b j) - 2 * br_t (y_b j))) /\
  (0 <= y_N1 j -> exists w, y_web j = Some w /\ 0 < w).
Proof.
  intros j J. pose proof (yred_pos j J) as RP. destruct (yface_form j J) as [FE FP].
  destruct J as [[H [W [T [F [A _]]]]] [[BT [BH [BB BF]]] [AO _]]]. destruct (sin_mono_angle (y_a j) (y_a j) ltac:(unfold angle_ok in AO; lra) ltac:(unfold angle_ok in AO; lra)) as [[SA _] _].
  pose proof sqrt3_pos as S3. pose proof (Rpower_pos (y_red j) (y_kn j)) as PP.
  assert (Q : 0 < 10 / (c_b (y_c j) / c_t (y_c j))). { apply Rdiv_lt_0_compat; [lra|]. apply Rdiv_lt_0_compat; lra. }
  assert (Q2 : 0 < 2 * br_h (y_b j) / sin (rad (y_a j))) by (apply Rdiv_lt_0_compat; lra).
  split. { rewrite FE. nra. }
  assert (P3 : 0 < y_brace j /\ y_brace j <= y_red j * br_fy (y_b j) * (2 * br_t (y_b j) * (br_h (y_b j) + br_b (y_b j) - 2 * br_t (y_b j)))).
  { unfold y_brace. cbv zeta. set (m := Rmin _ 1).
    assert (M : 0 < m <= 1).
    { unfold m. split; [|apply Rmin_r]. apply Rmin_glb_lt; [|lra]. apply Rdiv_lt_0_compat; [|nra]. apply Rmult_lt_0_compat; [|lra]. nra. }
    assert (0 < m * br_b (y_b j) <= br_b (y_b j)) by nra. set (x := m * br_b (y_b j)) in *.
    replace (y_red j * br_fy (y_b j) * br_t (y_b j) * (2 * br_h (y_b j) - 4 * br_t (y_b j) + 2 * x) / 1) with ((y_red j * br_fy (y_b j) * br_t (y_b j)) * (2 * br_h (y_b j) - 4 * br_t (y_b j) + 2 * x)) by field.
    assert (K0 : 0 < y_red j * br_fy (y_b j) * br_t (y_b j)) by (repeat apply Rmult_lt_0_compat; auto).
    split. { apply Rmult_lt_0_compat; lra. }
    replace (y_red j * br_fy (y_b j) * (2 * br_t (y_b j) * (br_h (y_b j) + br_b (y_b j) - 2 * br_t (y_b j)))) with ((y_red j * br_fy (y_b j) * br_t (y_b j)) * (2 * br_h (y_b j) + 2 * br_b (y_b j) - 4 * br_t (y_b j))) by ring.
    apply Rmult_le_compat_l; lra. }
  destruct P3 as [P3 P3']. split; auto. split.
  { unfold y_punch. cbv zeta. assert (0 < Rmin (10 / (c_b (y_c j) / c_t (y_c j))) 1) by (apply Rmin_glb_lt; lra).
    apply Rdiv_lt_0_compat; [|lra]. apply Rmult_lt_0_compat; [|nra].
    apply Rdiv_lt_0_compat; auto. apply Rdiv_lt_0_compat; auto. repeat apply Rmult_lt_0_compat; auto. }
  split; auto. intros N. unfold y_web, y_fb. destruct (Rltb (y_N1 j) 0) eqn:E; [apply Rltb_true in E; lra|]. cbn [bind]. cbv zeta.
  eexists; split; [reflexivity|]. apply Rdiv_lt_0_compat; [|lra]. apply Rmult_lt_0_compat; [|lra]. apply Rdiv_lt_0_compat; auto. repeat apply Rmult_lt_0_compat; auto.
Qed.
Lemma y_stress_lemma : forall j N0' M0', y_ok j -> N0' <= y_N0 j -> y_M0 j <= M0' -> let j' := y_forces j N0' M0' in
  (y_red j = 1 -> y_face j' = y_face j /\ y_web j' = y_web j /\ y_design j' = y_design j) /\
  (y_red j < 1 -> y_face j <= y_face j' /\ (y_kn j' < y_kn j -> y_face j < y_face j')).
Proof.
  intros j N0' M0' J LN LM j'. pose proof (yred_pos j J) as RP. assert (J' : y_ok j') by exact J.
  destruct (yface_form j J) as [FE FP]. destruct (yface_form j' J') as [FE' _]. change (yf j') with (yf j) in FE'. change (y_red j') with (y_red j) in FE'.
  assert (KL : y_kn j' <= y_kn j).
  { unfold y_kn, j'; cbn [y_forces y_c y_N0 y_M0]. change (y_beta _) with (y_beta j) at 1. apply kn_lemma; [apply ybeta_pos; auto|].
    destruct J as [CO _]. apply rhs_stress_lemma; auto. }
  split.
  - intros R1. assert (A : y_face j' = y_face j) by (rewrite FE, FE', R1, !Rpower_1l; auto).
    assert (B : y_web j' = y_web j).
    { unfold y_web. change (y_fb j') with (y_fb j). change (y_red j') with (y_red j). rewrite R1, !Rpower_1l. reflexivity. }
    split; auto. split; auto. unfold y_design, y_NjRd_with. rewrite A, B. reflexivity.
  - intros R1. assert (ST : y_kn j' < y_kn j -> y_face j < y_face j').
    { intros K. rewrite FE, FE'. apply Rmult_lt_compat_r; auto. apply Rpower_anti; auto. }
    split; auto. destruct KL as [K|K]; [left; auto|right]. rewrite FE, FE', K. auto.
Qed.
Lemma y_angle_lemma : forall j a, y_ok j -> y_a j <= a -> a <= 90 -> y_beta j < 1 ->
  y_face (y_angle j a) <= y_face j /\ y_punch (y_angle j a) <= y_punch j /\ y_brace (y_angle j a) = y_brace j.
Proof.
  intros j a J L L9 BE. assert (J' : y_ok (y_angle j a)). { destruct J as [A [B [C [D E]]]]. unfold angle_ok in C. repeat split; cbn; try apply A; try apply B; unfold angle_ok; try lra; auto. }
  pose proof (yred_pos j J) as RP. pose proof (yeta_pos j J) as EP. destruct (capped_bounds _ (ybeta_pos j J)) as [CB _].
  destruct (yface_form j J) as [FE FP]. destruct (yface_form _ J') as [FE' FP'].
  pose proof J as [[H [W [T [F [A _]]]]] [[BT [BH [BB BF]]] [AO _]]]. unfold angle_ok in AO. destruct (sin_mono_angle (y_a j) a ltac:(lra) ltac:(lra)) as [[SA SL] _].
  pose proof sqrt3_pos as S3.
  split; [|split; [|reflexivity]].
  - rewrite FE, FE'. change (y_red (y_angle j a)) with (y_red j). change (y_kn (y_angle j a)) with (y_kn j). apply Rmult_le_compat_l; [apply Rlt_le, Rpower_pos|].
    unfold yf. cbv zeta. cbn [y_angle y_c y_a]. change (y_beta (y_angle j a)) with (y_beta j). change (y_eta (y_angle j a)) with (y_eta j).
    pose proof (sqrt_pos (1 - capped (y_beta j))). assert (0 <= 2 * y_eta j / sin (rad a)) by (apply div_nn; lra).
    assert (0 < c_fy (y_c j) * c_t (y_c j) ^ 2) by (apply Rmult_lt_0_compat; [auto|apply pow_lt; auto]).
    apply Rmult_le_compat; [apply div_nn; [lra|nra]|lra|apply div_anti; [lra|split; nra]|]. apply Rplus_le_compat_r. apply div_anti; lra.
  - unfold y_punch. cbv zeta. change (y_red (y_angle j a)) with (y_red j). cbn [y_angle y_c y_b y_a].
    assert (Q : 0 < Rmin (10 / (c_b (y_c j) / c_t (y_c j))) 1). { apply Rmin_glb_lt; [|lra]. apply Rdiv_lt_0_compat; [lra|]. apply Rdiv_lt_0_compat; lra. }
    assert (0 <= y_red j * c_fy (y_c j) * c_t (y_c j) / sqrt 3). { apply div_nn; auto. repeat apply Rmult_le_pos; lra. }
    assert (2 * br_h (y_b j) / sin (rad a) <= 2 * br_h (y_b j) / sin (rad (y_a j))) by (apply div_anti; lra).
    assert (0 <= 2 * br_h (y_b j) / sin (rad a)) by (apply div_nn; lra).
    apply div_le; [lra|]. apply Rmult_le_compat; [apply div_nn; lra|nra|apply div_anti; lra|lra].
Qed.
Lemma yface_width : forall j w, y_ok j -> y_red j = 1 -> br_b (y_b j) < w -> w < c_b (y_c j) -> y_face j < y_face (y_width j w).
Proof.
  intros j w J R1 LW WB. pose proof J as [[H [W [T [F [A [WW V]]]]]] [[BT [BH [BB BF]]] [AO R0]]].
  assert (J' : y_ok (y_width j w)). { split; [repeat split; auto|]. split; [repeat split; cbn; auto; lra|]. cbn. auto. }
  destruct (yface_form j J) as [FE FP]. destruct (yface_form _ J') as [FE' FP'].
  rewrite FE, FE'. change (y_red (y_width j w)) with (y_red j). rewrite R1, !Rpower_1l, !Rmult_1_l.
  pose proof (ybeta_pos j J) as BP. pose proof (ybeta_pos _ J') as BP'. pose proof (yeta_pos j J) as EP.
  assert (B2 : y_beta (y_width j w) < 1). { change (y_beta (y_width j w)) with (w / c_b (y_c j)). apply Rmult_lt_reg_r with (c_b (y_c j)); auto. replace (w / c_b (y_c j) * c_b (y_c j)) with w by (field; lra). lra. }
  assert (B1 : y_beta j < y_beta (y_width j w)). { change (y_beta (y_width j w)) with (w / c_b (y_c j)). unfold y_beta, Rdiv. apply Rmult_lt_compat_r; auto. apply Rinv_0_lt_compat; auto. }
  unfold yf. cbv zeta. rewrite (proj2 (capped_bounds _ BP)) by lra. rewrite (proj2 (capped_bounds _ BP')) by lra. change (y_eta (y_width j w)) with (y_eta j). cbn [y_width y_c y_a].
  set (b := y_beta j) in *. set (b' := y_beta (y_width j w)) in *. unfold angle_ok in AO.
  destruct (sin_mono_angle (y_a j) (y_a j) ltac:(lra) ltac:(lra)) as [[SA _] _]. set (s := sin _) in *.
  assert (K : 0 < c_fy (y_c j) * c_t (y_c j) ^ 2 / s) by (apply Rdiv_lt_0_compat; auto; apply Rmult_lt_0_compat; [auto|apply pow_lt; auto]).
  assert (F1 : forall x, x < 1 -> c_fy (y_c j) * c_t (y_c j) ^ 2 / ((1 - x) * s) * (2 * y_eta j / s + 4 * sqrt (1 - x)) = (c_fy (y_c j) * c_t (y_c j) ^ 2 / s) * (2 * y_eta j / s * / (1 - x) + 4 * / sqrt (1 - x))).
  { intros x X. assert (SQ : 0 < sqrt (1 - x)) by (apply sqrt_lt_R0; lra). pose proof (sqrt_sqrt (1 - x) ltac:(lra)) as SS. set (q := sqrt (1 - x)) in *. rewrite <- SS. field. lra. }
  rewrite (F1 b) by lra. rewrite (F1 b') by lra. apply Rmult_lt_compat_l; auto.
  assert (0 < 2 * y_eta j / s) by (apply Rdiv_lt_0_compat; lra).
  assert (/ (1 - b) < / (1 - b')) by (apply Rinv_lt_contravar; nra).
  assert (0 < sqrt (1 - b')) by (apply sqrt_lt_R0; lra). assert (sqrt (1 - b') < sqrt (1 - b)) by (apply sqrt_lt_1; lra).
  assert (/ sqrt (1 - b) < / sqrt (1 - b')) by (apply Rinv_lt_contravar; nra). nra.
Qed.
Lemma y_interp_lemma : forall j w, y_ok j -> y_web j = Some w -> y_red j = 1 -> 
  (y_beta j < 85/100 -> y_NjRd_with j (y_web j) = Some (y_face j)) /\
  (y_beta j = 1 -> exists n, y_NjRd_with j (y_web j) = Some n /\ n <= w /\ n <= y_brace j /\ (n = w \/ n = y_brace j \/ n = y_punch j)) /\
  (85/100 <= y_beta j <= 1 -> exists n, y_NjRd_with j (y_web j) = Some n /\ n <= Rmax (y_face j) w /\ n <= y_brace j /\
     (y_beta j <= 1 - 1 / gamma (y_c j) -> n <= y_punch j)) /\
  (85/100 < y_beta j < 1 -> w < y_brace j -> w < y_face j -> 1 - 1 / gamma (y_c j) < y_beta j ->
     exists n, y_NjRd_with j (y_web j) = Some n /\ w < n /\
       (n < y_brace j -> interp (y_beta j) (y_face (y_width j (85/100 * c_b (y_c j)))) w < n)).
Proof.
  intros j w J WE R1. rewrite WE. unfold y_NjRd_with. cbn [bind]. cbv zeta.
  pose proof (ybeta_pos j J) as BP. set (b := y_beta j) in *. set (f := y_face j).
  split; [|split; [|split]].
  - intros L. destruct (Rltb b (85/100)) eqn:E; [auto|apply Rltb_false in E; lra].
  - intros E1. destruct (Rltb b (85/100)) eqn:E; [apply Rltb_true in E; lra|]. rewrite E1.
    replace (f + (1 - 85/100) / (15/100) * (w - f)) with w by field.
    eexists; split; [reflexivity|]. destruct (Rleb 1 (1 - 1 / gamma (y_c j))); unfold Rmin; repeat destruct Rle_dec; repeat split; try lra; auto.
  - intros [L1 L2]. destruct (Rltb b (85/100)) eqn:E; [apply Rltb_true in E; lra|].
    assert (Q : f + (b - 85/100) / (15/100) * (w - f) <= Rmax f w).
    { assert (T : 0 <= (b - 85/100) / (15/100) <= 1) by (split; [apply div_nn; lra|apply div_le_iff; lra]). set (t := _ / _) in *.
      unfold Rmax; destruct Rle_dec; nra. }
    set (ni := f + _) in *. eexists; split; [reflexivity|].
    destruct (Rleb b (1 - 1 / gamma (y_c j))) eqn:EG; [apply Rleb_true in EG|apply Rleb_false in EG]; pose proof (Rmin_l ni (y_brace j)); pose proof (Rmin_r ni (y_brace j)).
    + pose proof (Rmin_l (Rmin ni (y_brace j)) (y_punch j)). pose proof (Rmin_r (Rmin ni (y_brace j)) (y_punch j)). repeat split; intros; lra.
    + repeat split; intros; lra.
  - intros [L1 L2] WB WF G. destruct (Rltb b (85/100)) eqn:E; [apply Rltb_true in E; lra|].
    destruct (Rleb b (1 - 1 / gamma (y_c j))) eqn:EG; [apply Rleb_true in EG; lra|].
    assert (T : 0 < (b - 85/100) / (15/100) < 1). { unfold Rdiv at 1 3. replace (/ (15/100)) with (100/15) by field. lra. }
    eexists; split; [reflexivity|]. assert (NI : w < f + (b - 85/100) / (15/100) * (w - f)) by (set (t := _ / _) in *; nra).
    split; [apply Rmin_glb_lt; auto|]. intros NB.
    assert (NE : Rmin (f + (b - 85/100) / (15/100) * (w - f)) (y_brace j) = f + (b - 85/100) / (15/100) * (w - f)).
    { unfold Rmin in *; destruct Rle_dec; lra. }
    rewrite NE. clear NE NB. unfold interp.
    assert (FL : y_face (y_width j (85/100 * c_b (y_c j))) < f).
    { pose proof J as [CO [[BT [BH [BB BF]]] [AO R0]]]. pose proof CO as [_ [W _]]. set (j' := y_width j (85/100 * c_b (y_c j))).
      assert (J' : y_ok j'). { split; [exact CO|]. split; [repeat split; cbn; auto; lra|]. cbn. auto. }
      assert (BX : b * c_b (y_c j) = br_b (y_b j)) by (unfold b, y_beta; field; lra).
      pose proof (yface_width j' (br_b (y_b j)) J' R1) as Q. cbn in Q.
      replace (y_face (y_width j' (br_b (y_b j)))) with f in Q. { apply Q; nra. }
      unfold f, j', y_width. destruct j as [c [h bb t fy nd] a N0 M0 N1 r imp]. reflexivity. }
    set (g := y_face (y_width _ _)) in *.
    replace (g * (1 - b) / (15/100) + w * (b - 85/100) / (15/100)) with (g * (1 - (b - 85/100) / (15/100)) + (b - 85/100) / (15/100) * w) by field.
    set (t := _ / _) in *. nra.
Qed.
Lemma rad90 : sin (rad 90) = 1.
Proof. unfold rad. replace (90 * PI / 180) with (PI / 2) by field. apply sin_PI2. Qed.
(* a brace 10 % wider than the chord *)
Definition wide_y : yjoint := mkY (mkChord 100 100 5 355 1900 60000 100000) (mkBrace 110 110 5 355 [1000]) 90 0 0 1000 0 (49/100).
Lemma kn_zero_wide : y_kn wide_y = 1.
Proof. unfold y_kn. apply (kn_lemma _ (eval_N (y_c wide_y) (y_N0 wide_y) (y_M0 wide_y)) (y_beta wide_y)); [unfold y_beta; cbn; lra|lra|]. unfold eval_N, chord_stress; cbn. unfold Rdiv. lra. Qed.
Lemma y_wide_refuted_lemma : y_ok wide_y /\ 1 < y_beta wide_y /\ exists u, y_design wide_y = Some u /\ u < 0.
Proof.
  split. { repeat split; cbn; try lra; unfold angle_ok; lra. } split. { unfold y_beta; cbn; lra. }
  assert (RD : y_red wide_y = 1). { unfold y_red, strength_reduction; cbn. unfold Reqb. destruct (Req_EM_T 0 0); [|lra]. unfold Rleb. destruct (Rle_dec 355 355); lra. }
  assert (FA : y_face wide_y = 355 * 25 * 260).
  { unfold y_face. cbv zeta. rewrite RD, Rpower_1l. unfold y_beta, y_eta, capped; cbn [wide_y y_b y_c y_a br_b c_b br_h c_fy c_t]. rewrite rad90.
    destruct (Rleb 1 (110 / 100)) eqn:E; [|apply Rleb_false in E; lra].
    replace (1 - 99/100) with ((1/10) * (1/10)) by field. rewrite sqrt_square by lra. field. }
  assert (WE : y_web wide_y = Some (355 * 5 * 270)).
  { unfold y_web, y_fb. cbn [wide_y y_N1]. destruct (Rltb 1000 0) eqn:E; [apply Rltb_true in E; lra|]. cbn [bind]. cbv zeta. f_equal.
    change (mkY _ _ _ _ _ _ _ _) with wide_y. rewrite RD, Rpower_1l. cbn [wide_y y_b y_c y_a br_b c_b br_h c_fy c_t]. rewrite rad90. field. }
  assert (BW : y_beta wide_y = 110/100) by (unfold y_beta; cbn; field).
  unfold y_design. rewrite WE. unfold y_NjRd_with. cbn [bind]. cbv zeta. rewrite FA, BW.
  destruct (Rltb (110/100) (85/100)) eqn:E; [apply Rltb_true in E; lra|]. cbn [bind].
  assert (N0 : 355 * 25 * 260 + (110/100 - 85/100) / (15/100) * (355 * 5 * 270 - 355 * 25 * 260) = -739583 - 1/3) by field.
  rewrite N0. set (m := if Rleb _ _ then _ else _).
  assert (M : m < 0).
  { pose proof (Rmin_l (-739583 - 1/3) (y_brace wide_y)). pose proof (Rmin_l (Rmin (-739583 - 1/3) (y_brace wide_y)) (y_punch wide_y)).
    unfold m. destruct (Rleb _ _); lra. }
  unfold pdiv. destruct (Reqb m 0) eqn:E2; [apply Reqb_true in E2; lra|]. eexists; split; [reflexivity|]. cbn [wide_y y_N1]. rewrite Rabs_right by lra.
  unfold Rdiv. assert (/ m < 0) by (apply Rinv_lt_0_compat; auto). lra.
Qed.
Lemma slend_nonneg : forall j, y_ok j -> 2 * c_t (y_c j) <= c_h (y_c j) -> 0 <= y_slend j.
Proof.
  intros j [[H [W [T [F _]]]] [_ [AO _]]] HT. unfold y_slend. pose proof PI3.
  assert (2 <= c_h (y_c j) / c_t (y_c j)) by (apply le_div_iff; lra).
  apply div_nn. { repeat apply Rmult_le_pos; try lra. apply sqrt_pos. }
  apply Rmult_lt_0_compat; [lra|]. apply sqrt_lt_R0. apply Rdiv_lt_0_compat; lra.
Qed.
Lemma y_fb_lemma : forall j, y_ok j -> 2 * c_t (y_c j) <= c_h (y_c j) ->
  (0 <= y_N1 j -> y_fb j = Some (c_fy (y_c j))) /\
  (y_N1 j < 0 -> exists f, y_fb j = Some f /\ 0 < f /\ (2/10 <= y_slend j -> f <= c_fy (y_c j)) /\
     (y_slend j < 2/10 -> 0 < y_imp j -> c_fy (y_c j) < f)).
Proof.
  intros j J HT. pose proof (slend_nonneg j J HT) as SN. destruct J as [[H [W [T [F _]]]] [_ [AO [_ IM]]]].
  unfold y_fb. split; intros N.
  - destruct (Rltb (y_N1 j) 0) eqn:E; [apply Rltb_true in E; lra|auto].
  - destruct (Rltb (y_N1 j) 0) eqn:E; [|apply Rltb_false in E; lra]. unfold y_chi. cbv zeta. set (sl := y_slend j) in *. set (al := y_imp j) in *.
    set (phi := 1/2 * (1 + al * (sl - 2/10) + sl ^ 2)).
    assert (PQ : 2 * phi = 1 + al * (sl - 2/10) + sl ^ 2) by (unfold phi; lra).
    assert (PL : sl < phi \/ sl <= phi /\ 2/10 <= sl).
    { replace (sl ^ 2) with (sl * sl) in PQ by ring. pose proof (Rle_0_sqr (sl - 1)) as SQ. unfold Rsqr in SQ.
      destruct (Rle_dec (2/10) sl) as [SL|SL].
      - right. assert (0 <= al * (sl - 2/10)) by (apply Rmult_le_pos; lra). split; lra.
      - left. assert (al * (2/10 - sl) <= 1 * (2/10)) by (apply Rmult_le_compat; lra). assert (0 <= (1 - sl) * (1 - sl) - 64/100) by nra. lra. }
    assert (PL2 : sl <= phi) by lra. assert (0 < phi) by lra.
    assert (D : 0 <= phi ^ 2 - sl ^ 2) by (simpl; nra).
    unfold psqrt. destruct (Rltb (phi ^ 2 - sl ^ 2) 0) eqn:E1; [apply Rltb_true in E1; lra|]. cbn [bind].
    pose proof (sqrt_pos (phi ^ 2 - sl ^ 2)) as SP. pose proof (sqrt_sqrt _ D) as SS. set (s := sqrt _) in *.
    unfold pdiv. destruct (Reqb (phi + s) 0) eqn:E2; [apply Reqb_true in E2; lra|]. cbn [bind].
    eexists; split; [reflexivity|]. assert (CP : 0 < 1 / (phi + s)) by (apply Rdiv_lt_0_compat; lra).
    split; [nra|]. split.
    + intros L. assert (1 / (phi + s) <= 1).
      { apply div_le_iff; [lra|]. destruct (Rle_dec 1 phi); [lra|]. assert (1 - phi <= s); [|lra]. assert (0 <= al * (sl - 2/10)) by nra. simpl in *. nra. }
      nra.
    + intros L AL. assert (1 < 1 / (phi + s)).
      { apply Rmult_lt_reg_r with (phi + s); [lra|]. replace (1 / (phi + s) * (phi + s)) with 1 by (field; lra). assert (al * (2/10 - sl) > 0) by nra.
        assert (phi < 1) by (simpl in PQ; nra). assert (s < 1 - phi); [|lra]. simpl in *. nra. }
      nra.
Qed.
Lemma new_y_lemma : forall c b a N0 M0 imp j, new_y c b a N0 M0 imp = Some j ->
  0 <= y_N1 j /\ (forall x, In x (br_ned b) -> Rabs x <= y_N1 j) /\ y_fb j = Some (c_fy c) /\
  forall v, v < 0 -> y_fb (set_N1 j v) = bind (y_chi j) (fun chi => Some (chi * c_fy c)).
Proof.
  intros c b a N0 M0 imp j E. unfold new_y in E. apply bind_inv in E. destruct E as [n [EN E]]. apply some_inj in E. subst j. cbn.
  apply list_max_spec in EN. destruct EN as [I1 I2]. assert (0 <= n). { apply in_map_iff in I1. destruct I1 as [y [<- _]]. apply Rabs_pos. }
  split; auto. split. { intros x X. apply I2. apply in_map. auto. }
  unfold y_fb; cbn. split. { destruct (Rltb n 0) eqn:E; [apply Rltb_true in E; lra|auto]. }
  intros v V. destruct (Rltb v 0) eqn:E; [|apply Rltb_false in E; lra]. reflexivity.
Qed.
Lemma x_lemma : forall j, y_ok j ->
  (y_beta j < 85/100 -> x_design j = y_design j) /\
  (85/100 <= y_beta j -> y_N1 j < 0 -> x_design j = None) /\
  (85/100 <= y_beta j -> br_h (y_b j) / c_h (y_c j) < cos (rad (y_a j)) -> x_design j = None) /\
  (0 <= y_N1 j -> cos (rad (y_a j)) <= br_h (y_b j) / c_h (y_c j) -> x_design j = y_design j).
Proof.
  intros j J. unfold x_design, y_design, y_NjRd_with. cbv zeta.
  split; [|split; [|split]].
  - intros L. destruct (Rltb (y_beta j) (85/100)) eqn:E; [reflexivity|apply Rltb_false in E; lra].
  - intros L N. destruct (Rltb (y_beta j) (85/100)) eqn:E; [apply Rltb_true in E; lra|]. unfold x_web, x_fb.
    destruct (Rltb (y_N1 j) 0) eqn:E1; [reflexivity|apply Rltb_false in E1; lra].
  - intros L N. destruct (Rltb (y_beta j) (85/100)) eqn:E; [apply Rltb_true in E; lra|]. unfold x_web, x_fb.
    destruct (Rltb (y_N1 j) 0) eqn:E1; [reflexivity|]. cbn [bind]. cbv zeta. destruct (Rltb (br_h (y_b j) / c_h (y_c j)) (cos (rad (y_a j)))) eqn:E2; [reflexivity|apply Rltb_false in E2; lra].
  - intros N C. assert (Q : x_web j = y_web j); [|rewrite Q; reflexivity].
    unfold x_web, x_fb, y_web, y_fb. destruct (Rltb (y_N1 j) 0) eqn:E1; [apply Rltb_true in E1; lra|]. cbn [bind]. cbv zeta.
    destruct (Rltb (br_h (y_b j) / c_h (y_c j)) (cos (rad (y_a j)))) eqn:E2; [apply Rltb_true in E2; lra|]. f_equal. unfold Rdiv. rewrite Rinv_1. ring.
Qed.
Lemma y_util_lemma : forall j, y_ok j -> y_beta j < 85/100 ->
  exists u, y_design j = Some u /\ 0 <= u /\ (u <= 1 <-> Rabs (y_N1 j) <= y_face j) /\
  (forall k, 0 <= k -> y_design (set_N1 j (k * y_N1 j)) = Some (k * u)).
Proof.
  intros j J L. destruct (y_positive_lemma j J) as [P _]. unfold y_design, y_NjRd_with. cbv zeta. 
  destruct (Rltb (y_beta j) (85/100)) eqn:E; [|apply Rltb_false in E; lra]. cbn [bind]. 
  assert (PD : forall x, pdiv x (y_face j) = Some (x / y_face j)). { intros x. unfold pdiv. destruct (Reqb (y_face j) 0) eqn:E2; [apply Reqb_true in E2; lra|auto]. }
  rewrite PD. eexists; split; [reflexivity|]. split. { apply div_nn; [apply Rabs_pos|auto]. }
  split. { rewrite (div_le_iff _ _ 1 P). lra. }
  intros k K. change (y_beta (set_N1 j (k * y_N1 j))) with (y_beta j). rewrite E. cbn [bind].
  change (y_face (set_N1 j (k * y_N1 j))) with (y_face j). rewrite PD. cbn [set_N1 y_N1]. f_equal. rewrite Rabs_mult, (Rabs_right k) by lra. unfold Rdiv. ring.
Qed.
