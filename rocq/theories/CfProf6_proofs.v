From Coq Require Import Rtrigo.
From Verif Require Import Base EC3_model Bool_tac EC3_proofs Plate_proofs Sections_proofs Cold_proofs Cold2_proofs Prof_proofs.
From Verif Require Import CfProf_model CfProf_spec CfProf_proofs CfProf2_proofs CfProf3_proofs CfProf4_proofs CfProf5_proofs.
Require Import Reals List Bool Lra Lia Psatz PeanoNat.
Import ListNotations. Local Open Scope R_scope.

(** Axial resistance. *)
Lemma NRd_bounds_lemma m s Ae Ag e N : 0 < m_fy m <= m_fu m -> 0 < Agross s -> 0 <= Ae -> 0 < Ag -> NRd_compression m s Ae Ag e = Some N ->
  exists fa, cf_fya m s = Some fa /\ N <= fa * Ag /\
    (Ae < Ag -> N = m_fy m * Ae) /\
    (Ag <= Ae -> ratio s e <= 3/4 -> N = fa * Ag) /\
    (Ag <= Ae -> ratio s e <= 1 -> m_fy m * Ag <= N) /\
    (Ag <= Ae -> 3/4 <= ratio s e -> N = (m_fy m + (fa - m_fy m) * 4 * (1 - ratio s e)) * Ag).
Proof.
  intros Y G A0 A1 H. 
  assert (FA : exists fa, cf_fya m s = Some fa).
  { unfold cf_fya, Cold_model.fya. rewrite pdiv_ok by lra. eexists. reflexivity. }
  destruct FA as [fa FA]. exists fa. split; [exact FA|]. pose proof (fya_range_lemma m s fa ltac:(lra) G FA) as FR.
  unfold NRd_compression, gammaM0 in H. rewrite FA in H. cbn [bind] in H. fold (ratio s e) in H. set (r := ratio s e) in *.
  destruct (Rltb Ae Ag) eqn:L; [apply Rltb_true in L|apply Rltb_false in L]; injection H as H; subst N; unfold Rdiv; rewrite Rinv_1, Rmult_1_r.
  - split; [nra|]. repeat split; intros; lra.
  - assert (P : 0 <= Ag * (fa - m_fy m)) by nra.
    split; [apply Rmin_r|]. split; [intros; lra|]. split; [|split]; intros _ R1.
    + rewrite Rmin_right; [reflexivity|]. replace (Ag * (m_fy m + 4 * (fa - m_fy m) * (1 - r))) with (fa * Ag + Ag * (fa - m_fy m) * (3 - 4 * r)) by ring. nra.
    + apply Rmin_glb; [|nra]. replace (Ag * (m_fy m + 4 * (fa - m_fy m) * (1 - r))) with (m_fy m * Ag + Ag * (fa - m_fy m) * (4 * (1 - r))) by ring. nra.
    + rewrite Rmin_left; [ring|]. replace (Ag * (m_fy m + 4 * (fa - m_fy m) * (1 - r))) with (fa * Ag + Ag * (fa - m_fy m) * (3 - 4 * r)) by ring. nra.
Qed.
Lemma NRd_mono_lemma m s Ag e e' N N' : 0 < m_fy m <= m_fu m -> 0 < Agross s -> 0 < Ag -> 
  e_lt e <= e_lt e' -> e_lw e <= e_lw e' -> e_lb e <= e_lb e' ->
  NRd_compression m s Ag Ag e = Some N -> NRd_compression m s Ag Ag e' = Some N' -> N' <= N.
Proof.
  intros Y G A1 L1 L2 L3. unfold NRd_compression, gammaM0. rewrite (ltb_f Ag Ag) by lra. destruct (cf_fya m s) as [fa|] eqn:FA; cbn [bind]; [|discriminate].
  pose proof (fya_range_lemma m s fa ltac:(lra) G FA) as FR. fold (ratio s e) (ratio s e'). intros E E'. injection E as E. injection E' as E'. subst N N'.
  assert (RM : ratio s e <= ratio s e').
  { unfold ratio.
    set (k1 := if Rltb 0 (c_ca s) then 65/100 else 673/1000). set (k2 := if Rltb 0 (c_cb s) then 65/100 else 673/1000).
    assert (K1 : 0 < k1) by (unfold k1; destruct (Rltb 0 (c_ca s)); lra). assert (K2 : 0 < k2) by (unfold k2; destruct (Rltb 0 (c_cb s)); lra). clearbody k1 k2.
    apply Rmax_lub; [apply Rmax_lub|].
    - eapply Rle_trans; [|apply Rmax_l]. eapply Rle_trans; [|apply Rmax_l]. apply div_le; lra.
    - eapply Rle_trans; [|apply Rmax_l]. eapply Rle_trans; [|apply Rmax_r]. apply div_le; lra.
    - eapply Rle_trans; [|apply Rmax_r]. apply div_le; lra. }
  apply div_le; [lra|]. apply Rmin_glb; [|apply Rmin_r]. eapply Rle_trans; [apply Rmin_l|]. apply Rmult_le_compat_l; [lra|]. nra.
Qed.

(** Tension. *)
Lemma NRd_tension_lemma m s Ned N : 0 <= Ned -> 0 < m_fy m <= m_fu m -> 0 < cf_t s -> fits s -> ordered s -> NRd_C m s Ned = Some N ->
  exists A, cf_area false s = Some A /\ N = average_yield (m_fy m) (m_fu m) (cf_t s) (Agross s) 4 * A /\
    (1 - 1/96) * m_fy m * Agross s <= N /\ N < (m_fu m + m_fy m) / 2 * Agross s.
Proof.
  intros HN Y T F O H. unfold NRd_C in H. rewrite leb_t in H by exact HN. apply bind_inv in H. destruct H as (fa & FA & H). apply bind_inv in H. destruct H as (A & AA & H).
  injection H as H. subst N. exists A. split; [exact AA|]. pose proof (area_bounds_lemma s A F O T AA) as B. 
  assert (G : 0 < Agross s).
  { unfold Agross. apply Rmult_lt_0_compat; [exact T|]. rewrite length_corners. pose proof (corners_range s). pose proof PI_RGT_0. destruct F as (_ & Rm & HW & CT & CB & SA & SB).
    assert (0 < corners s * (PI / 2) * cf_rm s) by (apply Rmult_lt_0_compat; [apply Rmult_lt_0_compat|]; lra). lra. }
  pose proof (fya_range_lemma m s fa ltac:(lra) G FA) as FR. unfold gammaM0, Rdiv. rewrite Rinv_1, Rmult_1_r.
  rewrite <- (fya_val_lemma m s fa FA). split; [reflexivity|]. fold ((m_fu m + m_fy m) / 2). fold (1 / 96). split.
  - apply Rle_trans with (m_fy m * A); [|apply Rmult_le_compat_r; lra]. replace ((1 - 1/96) * m_fy m * Agross s) with (m_fy m * ((1 - 1/96) * Agross s)) by ring. apply Rmult_le_compat_l; lra.
  - apply Rle_lt_trans with ((m_fu m + m_fy m) / 2 * A); [apply Rmult_le_compat_r; lra|]. apply Rmult_lt_compat_l; lra.
Qed.

(** A C section without lips in compression. *)
Lemma outstand_lemma m s w bp : 0 < m_fy m -> 0 < cf_t s -> bp_flange s w 0 = Some bp ->
  exists l, flange_rho m s 1 w 0 = Some (outstand_factor m s bp, l).
Proof.
  intros Y T B. pose proof (eps_pos m Y) as EP. unfold flange_rho. rewrite B. cbn [bind]. rewrite Rabs_R0, ltb_f by lra.
  unfold buckling_factor_outstand. rewrite (eqb_t 1 1) by lra. rewrite lambda_p_eq by lra. cbn [bind].
  assert (S0 : 0 < sqrt (43/100)) by (apply sqrt_lt_R0; lra).
  eexists. f_equal. f_equal. unfold outstand_factor, reduction_factor_outstand.
  replace (bp / (284/10 * m_eps m * cf_t s * sqrt (43/100))) with (bp / cf_t s / (284/10) / m_eps m / sqrt (43/100)) by (field; lra).
  set (l := bp / cf_t s / (284/10) / m_eps m / sqrt (43/100)). cbv zeta. destruct (Rle_dec l (748/1000)) as [Q|Q]; [rewrite leb_t by exact Q|rewrite leb_f by lra]; reflexivity.
Qed.
Lemma plain_NRd_lemma m s A bw bt bb Ned : c_kind s = KC -> c_round s = true -> fits s -> ordered s -> c_ca s = 0 -> c_cb s = 0 -> 0 < m_fy m -> 0 < cf_t s ->
  bp_w s = Some bw -> bp_flange s (c_a s) 0 = Some bt -> bp_flange s (c_b s) 0 = Some bb -> Ned < 0 -> cf_area false s = Some A ->
  exists rw lw, web_rho m s 1 = Some (rw, lw) /\
    let rt := outstand_factor m s bt in let rb := outstand_factor m s bb in
    (2 * half_corner s <= rw * bw -> half_corner s <= rt * bt -> half_corner s <= rb * bb -> rw < 1 \/ rt < 1 ->
     NRd_C m s Ned = Some (m_fy m * (A - cf_t s * ((1 - rw) * bw + (1 - rt) * bt)))).
Proof.
  intros K RD F O ZA ZB Y T BW BT BB HN AR.
  destruct (web_rho_lemma m s bw Y T BW) as (rw & lw & EW & _ & RW & _ & _). exists rw, lw. split; [exact EW|]. intros rt rb H1 H2 H3 H4.
  destruct (outstand_lemma m s (c_a s) bt Y T BT) as [lt ET]. destruct (outstand_lemma m s (c_b s) bb Y T BB) as [lb EB]. fold rt in ET. fold rb in EB.
  assert (O01 : forall b, 0 <= outstand_factor m s b <= 1).
  { intros b. unfold outstand_factor. cbv zeta. set (l := b / _). destruct (Rle_dec l (748/1000)); [lra|]. split; [|apply Rmin_r]. apply Rmin_glb; [|lra]. left. apply winter_pos; lra. }
  pose proof (O01 bt) as RT. pose proof (O01 bb) as RB. fold rt in RT. fold rb in RB.
  unfold NRd_C. rewrite leb_f by lra. unfold compress_C. rewrite ZA, ZB, (ltb_f 0 0) by lra. rewrite BT, BB. cbn [bind].
  assert (BL : bp_lip s 0 = Some 0) by (unfold bp_lip; rewrite RD, (ltb_f 0 0) by lra; reflexivity). rewrite BL. cbn [bind].
  rewrite ET, EB. cbn [bind fst snd]. rewrite EW. cbn [bind fst snd].
  set (e := mkEff rt 1 rw rb 1 1 1 lt lw lb).
  destruct (plain_eff_lemma s e A bw bt bb K RD F O ZA ZB) as (p & EP & AP); try assumption; try (rewrite ?ZA, ?ZB; assumption).
  - unfold factors, e. cbn. lra.
  - rewrite EP. cbn [bind]. destruct (points_nonempty s) as [n LP]. unfold new_prof. rewrite LP. cbn [bind].
    assert (AG : area (mkProf (cf_points s) (repeat (cf_t s) n) (repeat (cf_t s) n)) = A).
    { unfold cf_area in AR. rewrite cf_prof_ok in AR. cbn [bind] in AR. rewrite LP in AR. cbn [Nat.sub] in AR. rewrite Nat.sub_0_r in AR. injection AR as AR. lra. }
    match goal with |- context[area (mkProf ?a ?b ?c)] => change (mkProf a b c) with (mkProf (cf_points s) (repeat (cf_t s) n) (repeat (cf_t s) n)) end. rewrite AG.
    unfold NRd_compression, gammaM0. cbn [e_rw e_rt] in AP. 
    assert (LW : 0 < bw). { rewrite (bpw_val s RD) in BW. injection BW as BW. destruct F as (_ & Rm & HW & _). pose proof (half_range s Rm). lra. }
    assert (LT : 0 < bt). { rewrite (bpf_0 s _ RD) in BT. injection BT as BT. unfold fits, c_top in F. rewrite ZA in F. destruct F as (_ & Rm & _ & CT & _). pose proof (half_range s Rm). lra. }
    rewrite ltb_t; [f_equal; rewrite AP; cbn [e_rw e_rt]; unfold e; cbn [e_rw e_rt]; field|].
    rewrite AP. unfold e. cbn [e_rw e_rt].
    assert (P : 0 < (1 - rw) * bw + (1 - rt) * bt) by (destruct H4; nra). assert (0 < cf_t s * ((1 - rw) * bw + (1 - rt) * bt)) by (apply Rmult_lt_0_compat; lra). lra.
Qed.

(** Stiffness of an edge stiffener. *)
Lemma edge_lemma m s Ned A1 y1 A2 y2 : 0 < m_E m -> -1 < m_nu m < 1 -> 0 < cf_t s -> 0 < hw_center s -> y1 <> 0 -> 0 < A1 -> 0 < A2 ->
  edge_stiffness m s Ned A1 y1 (Some (A2, y2)) =
    Some (spring_of m s (Rabs y1) (Rabs y2) (if Rlt_dec Ned 0 then if issymmetric s then 1 else A2 / A1 else 0)) /\
  (0 <= Ned -> edge_stiffness m s Ned A1 y1 None = edge_stiffness m s Ned A1 y1 (Some (A2, y2))) /\
  (Ned < 0 -> edge_stiffness m s Ned A1 y1 None = None).
Proof.
  intros E0 NU T H Y1 P1 P2. assert (NV : 0 < 1 - m_nu m ^ 2) by nra. pose proof (Rabs_pos_lt y1 Y1) as B1. pose proof (Rabs_pos y2) as B2.
  set (b1 := Rabs y1) in *. set (b2 := Rabs y2) in *.
  assert (D : forall kf, 0 <= kf -> 0 < b1 ^ 2 * hw_center s + b1 ^ 3 + 1 / 2 * b1 * b2 * hw_center s * kf).
  { intros kf K. assert (0 < b1 ^ 2 * hw_center s) by (apply Rmult_lt_0_compat; [nra|lra]). assert (0 < b1 ^ 3) by (apply pow_lt; lra).
    assert (0 <= 1/2 * b1 * b2 * hw_center s * kf) by (repeat apply Rmult_le_pos; lra). lra. }
  assert (V : forall kf, 0 <= kf -> pdiv (1/4 * m_E m * cf_t s ^ 3 / (1 - m_nu m ^ 2)) (b1 ^ 2 * hw_center s + b1 ^ 3 + 1/2 * b1 * b2 * hw_center s * kf) = Some (spring_of m s b1 b2 kf)).
  { intros kf K. pose proof (D kf K). rewrite pdiv_ok by lra. f_equal. unfold spring_of. field; repeat split; nra. }
  unfold edge_stiffness. rewrite pdiv_ok by lra. cbn [bind]. fold b1.
  assert (Q : 0 < A2 / A1) by (apply Rdiv_lt_0_compat; lra).
  split; [|split].
  - destruct (Rlt_dec Ned 0) as [L|L]; [rewrite ltb_t by exact L|rewrite ltb_f by lra].
    + destruct (issymmetric s); cbn [bind fst snd option_map].
      * rewrite eqb_f by lra. cbn [bind]. fold b2. apply V. lra.
      * rewrite pdiv_ok by lra. cbn [bind]. rewrite eqb_f by lra. cbn [bind]. fold b2. apply V. lra.
    + cbn [bind]. rewrite eqb_t by lra. cbn [bind]. pose proof (D 0 ltac:(lra)). rewrite pdiv_ok by lra. f_equal. unfold spring_of. field. repeat split; try lra; nra.
  - intros L. rewrite ltb_f by lra. cbn [bind]. rewrite eqb_t by lra. reflexivity.
  - intros L. rewrite ltb_t by exact L. cbn [bind]. destruct (issymmetric s); [|reflexivity]. cbn [bind option_map]. rewrite eqb_f by lra. reflexivity.
Qed.
Lemma spring_mono_lemma m s b1 b1' b2 b2' kf kf' : 0 < m_E m -> -1 < m_nu m < 1 -> 0 < cf_t s -> 0 < hw_center s -> 0 < b1 <= b1' -> 0 <= b2 <= b2' -> 0 <= kf <= kf' ->
  0 < spring_of m s b1' b2' kf' <= spring_of m s b1 b2 kf.
Proof.
  intros E0 NU T H B1 B2 KF. assert (NV : 0 < 1 - m_nu m ^ 2) by nra. unfold spring_of.
  assert (N0 : 0 < m_E m * cf_t s ^ 3 / (4 * (1 - m_nu m ^ 2))).
  { apply Rdiv_lt_0_compat; [|lra]. apply Rmult_lt_0_compat; [lra|]. apply pow_lt. lra. }
  set (h := hw_center s) in *.
  assert (D0 : 0 < b1 ^ 2 * h + b1 ^ 3 + 1/2 * b1 * b2 * h * kf).
  { assert (0 < b1 ^ 2 * h) by (apply Rmult_lt_0_compat; [nra|lra]). assert (0 < b1 ^ 3) by (apply pow_lt; lra).
    assert (0 <= 1/2 * b1 * b2 * h * kf) by (repeat apply Rmult_le_pos; lra). lra. }
  assert (D1 : b1 ^ 2 * h + b1 ^ 3 + 1/2 * b1 * b2 * h * kf <= b1' ^ 2 * h + b1' ^ 3 + 1/2 * b1' * b2' * h * kf').
  { apply Rplus_le_compat; [apply Rplus_le_compat|].
    - apply Rmult_le_compat_r; [lra|]. apply pow_incr. lra.
    - apply pow_incr. lra.
    - apply Rmult_le_compat; [|lra| |lra].
      + apply Rmult_le_pos; [|lra]. apply Rmult_le_pos; [|lra]. lra.
      + apply Rmult_le_compat_r; [lra|]. apply Rmult_le_compat; lra. }
  split; [apply Rdiv_lt_0_compat; lra|]. apply div_anti; lra.
Qed.
Lemma distortional_lemma m K Is As : 0 < m_fy m -> 0 < m_E m -> 0 < K -> 0 < Is -> 0 < As ->
  exists chi l, distortional m K Is As = Some (chi, l) /\ 0 < l /\ l ^ 2 * (2 * sqrt (K * m_E m * Is)) = m_fy m * As /\ Cold_model.chi_dist l = Some chi.
Proof.
  intros Y E0 K0 I0 A0. destruct (sigma_dist_lemma Is As (m_E m) K I0 A0 E0 K0) as (sg & SE & SP & _).
  assert (SV : sg = 2 * sqrt (K * m_E m * Is) / As).
  { unfold Cold_model.sigma_dist in SE. rewrite psqrt_ok in SE by (repeat apply Rmult_le_pos; lra). cbn [bind] in SE. apply pdiv_inv in SE. tauto. }
  unfold distortional. rewrite SE. cbn [bind]. rewrite pdiv_ok by lra. cbn [bind].
  assert (Q : 0 < m_fy m / sg) by (apply Rdiv_lt_0_compat; lra). rewrite psqrt_ok by lra. cbn [bind].
  destruct (chi_dist_lemma (sqrt (m_fy m / sg))) as (_ & _ & _ & c & C & _). rewrite C. cbn [bind]. exists c, (sqrt (m_fy m / sg)).
  split; [reflexivity|]. split; [apply sqrt_lt_R0; exact Q|]. split; [|exact C].
  rewrite pow2_sqrt by lra. rewrite SV. assert (0 < sqrt (K * m_E m * Is)) by (apply sqrt_lt_R0; repeat apply Rmult_lt_0_compat; lra). field. split; lra.
Qed.

(** Restraint by sheeting. *)
Lemma KB_lemma m s kh afp : 0 < m_E m -> -1 < m_nu m < 1 -> 0 < cf_t s -> 0 < hw_center s -> 0 <= afp -> 0 < c_a s -> 0 <= c_b s ->
  exists k, KB m s kh afp = Some k /\ 0 < k /\
    let a := if Req_EM_T afp 0 then c_a s / 2 else afp in
    let bmod := if Rlt_dec 0 kh then a else 2 * a + c_b s in
    1 / k = 4 * (1 - m_nu m ^ 2) * hw_center s ^ 2 * (hw_center s + bmod) / (m_E m * cf_t s ^ 3).
Proof.
  intros E0 NU T H A0 CA CB0. assert (NV : 0 < 1 - m_nu m ^ 2) by nra. unfold KB.
  assert (EA : (if Reqb afp 0 then 1/2 * c_a s else afp) = (if Req_EM_T afp 0 then c_a s / 2 else afp)).
  { destruct (Req_EM_T afp 0) as [Z|Z]; [rewrite eqb_t by exact Z; field|rewrite eqb_f by exact Z; reflexivity]. }
  rewrite EA. set (a := if Req_EM_T afp 0 then c_a s / 2 else afp). assert (AP : 0 < a) by (unfold a; destruct (Req_EM_T afp 0); lra).
  assert (EB : (if Rltb 0 kh then a else 2 * a + c_b s) = (if Rlt_dec 0 kh then a else 2 * a + c_b s)).
  { destruct (Rlt_dec 0 kh) as [Z|Z]; [rewrite ltb_t by exact Z|rewrite ltb_f by lra]; reflexivity. }
  cbv zeta. rewrite EB. set (bm := if Rlt_dec 0 kh then a else 2 * a + c_b s). assert (BP : 0 < bm) by (unfold bm; destruct (Rlt_dec 0 kh); lra).
  assert (T3 : 0 < cf_t s ^ 3) by (apply pow_lt; lra). assert (H2 : 0 < hw_center s ^ 2) by (apply pow_lt; lra).
  assert (D : 0 < hw_center s ^ 2 * (1 - m_nu m ^ 2) * (hw_center s + bm)) by (apply Rmult_lt_0_compat; [apply Rmult_lt_0_compat|]; lra).
  rewrite pdiv_ok by lra. eexists. split; [reflexivity|]. split.
  - apply Rdiv_lt_0_compat; [|exact D]. apply Rmult_lt_0_compat; [|exact T3]. lra.
  - field. repeat split; try lra; nra.
Qed.
Lemma K_series_lemma m s kh afp CD g k : 0 < CD -> 0 < hw_center s -> KB m s kh afp = Some k -> 0 < k ->
  exists K, Kspring m s kh afp CD g = Some K /\ 1 / K = 1 / k + hw_center s ^ 2 / CD /\ 0 < K < k /\ K < CD / hw_center s ^ 2.
Proof.
  intros C0 H EK K0. unfold Kspring. rewrite EK. cbn [bind]. rewrite eqb_f by lra. cbn [bind]. rewrite pdiv_ok by lra. cbn [bind].
  assert (H2 : 0 < hw_center s ^ 2) by (apply pow_lt; lra). assert (Q : 0 < hw_center s ^ 2 / CD) by (apply Rdiv_lt_0_compat; lra).
  rewrite (pdiv_ok 1 (hw_center s ^ 2 / CD)) by lra. cbn [bind]. rewrite (pdiv_ok 1 k) by lra. cbn [bind].
  assert (P : 0 < 1 / k) by (apply Rdiv_lt_0_compat; lra). rewrite pdiv_ok by lra. eexists. split; [reflexivity|].
  replace (CD / hw_center s ^ 2) with (1 / (hw_center s ^ 2 / CD)) by (field; lra).
  set (q := hw_center s ^ 2 / CD) in *. assert (KQ : k = 1 / (1 / k)) by (field; lra). set (p := 1 / k) in *. clearbody p q. rewrite KQ at 1. 
  split; [field; lra|]. repeat split.
  - apply Rdiv_lt_0_compat; lra.
  - unfold Rdiv. rewrite !Rmult_1_l. apply Rinv_lt_contravar; [nra|lra].
  - unfold Rdiv. rewrite !Rmult_1_l. apply Rinv_lt_contravar; [nra|lra].
Qed.
Lemma kh_C_lemma s Iyz Iy sc kd kg : kh_C s Iyz Iy sc Ldown = Some kd -> kh_C s Iyz Iy sc Lgravity = Some kg ->
  kh_C s Iyz Iy sc Luplift = Some kg /\ kg = kd - bt_center s / (2 * c_h s).
Proof.
  unfold kh_C. intros D G. apply bind_inv in D. destruct D as (q & Q & D). rewrite Q in *. cbn [bind] in *. apply bind_inv in D. destruct D as (u & U & D). rewrite U in *. cbn [bind] in *.
  injection D as D. injection G as G. split; [f_equal; exact G|]. subst kd kg. apply pdiv_inv in U. destruct U as [U _]. field. exact U.
Qed.

(** Standard sections. *)
Lemma find_pick (l : list (R * (R * R))) t x : find (fun y => Reqb t (fst y)) l = Some x -> In x l /\ fst x = t.
Proof. intros H. apply find_some in H. destruct H as [H1 H2]. apply Reqb_true in H2. auto. Qed.
Lemma ruukki_z_lemma h t s : ruukki_z h t = Some s ->
  (h <= 250 \/ h = 300 \/ h = 350) /\ In t [1; 12/10; 15/10; 2; 25/10; 3] /\
  c_kind s = KZ /\ c_h s = h /\ c_tn s = t /\ c_ca s = c_cb s /\ c_round s = true /\ cf_t s = t - 4/100 /\
  (exists w, c_a s = w + 2 * t /\ (h <= 150 -> w = 43 /\ c_b s = 37 + 2 * t /\ c_ca s = 18) /\
     (150 < h <= 250 -> w = 67 /\ c_b s = 59 + 2 * t /\ c_ca s = 26) /\
     (250 < h -> w = 86 /\ c_b s = 78 + 2 * t /\ c_ca s = (if Req_EM_T h 300 then 26 else 30))) /\
  c_r s = (if Req_EM_T h 300 then 1 else 2).
Proof.
  unfold ruukki_z. intros H. apply bind_inv in H. destruct H as ([[c r] [a b]] & U & H). unfold new_cf in H.
  unfold ruukki in U. cbv zeta in U. unfold option_map in U.
  repeat match type of U with
  | context[Rleb h ?k] => let E := fresh in destruct (Rleb h k) eqn:E; [apply Rleb_true in E|apply Rleb_false in E]
  | context[Reqb h ?k] => let E := fresh in destruct (Reqb h k) eqn:E; [apply Reqb_true in E|apply Reqb_false in E]
  end; [| | | |discriminate];
  (match type of U with context[find ?f ?l] => destruct (find f l) as [x|] eqn:FX; [|discriminate] end; apply find_pick in FX; destruct FX as [IN FT]; injection U as Uc Ur Ux; subst c r;
   cbn [In] in IN; repeat destruct IN as [IN|IN]; try contradiction; subst x; cbn [fst snd] in *; subst t; injection Ux as Ua Ub; subst a b;
   rewrite eqb_f in H by lra; injection H as H; subst s; unfold cf_t; cbn [c_kind c_h c_tn c_ca c_cb c_round c_coat c_a c_b c_r In];
   destruct (Req_EM_T h 300) as [Q|Q]; try lra;
   (split; [first [left; lra | right; left; lra | right; right; lra]|]); (split; [tauto|]); repeat (split; [reflexivity|]); (split; [|reflexivity]);
   (match goal with |- exists w, ?a = w + ?b /\ _ => exists (a - b) end); (split; [lra|]); repeat split; lra).
Qed.
Lemma ruukki_gap_lemma h t : 250 < h -> h <> 300 -> h <> 350 -> ruukki_z h t = None.
Proof. intros A B C. unfold ruukki_z, ruukki. rewrite !leb_f by lra. rewrite !eqb_f by assumption. reflexivity. Qed.
