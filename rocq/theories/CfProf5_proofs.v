From Coq Require Import Rtrigo.
From Verif Require Import Base EC3_model Bool_tac EC3_proofs Plate_proofs Sections_proofs Cold_proofs Cold2_proofs Prof_proofs.
From Verif Require Import CfProf_model CfProf_spec CfProf_proofs CfProf2_proofs CfProf3_proofs CfProf4_proofs.
Require Import Reals List Bool Lra Lia Psatz PeanoNat.
Import ListNotations. Local Open Scope R_scope.

Lemma centroid_Z_lemma s : c_kind s = KZ -> fits s -> ordered s -> issymmetric s = true -> 0 < cf_t s -> cf_centroid s = Some (0, 0).
Proof.
  intros K F O Y T. destruct (centroid_G s F T) as [A E]. destruct (moments_sym s (cf_t s) _ F O Y eq_refl) as [M1 M2].
  rewrite E, (M1 K), M2. unfold Rdiv. rewrite !Rmult_0_l. reflexivity.
Qed.
Lemma centroid_C_lemma s : fits s -> ordered s -> issymmetric s = true -> 0 < cf_t s -> exists y, cf_centroid s = Some (y, 0).
Proof.
  intros F O Y T. destruct (centroid_G s F T) as [A E]. destruct (moments_sym s (cf_t s) _ F O Y eq_refl) as [M1 M2].
  rewrite E, M2. unfold Rdiv at 2. rewrite Rmult_0_l. eexists. reflexivity.
Qed.

(** The web. *)
Lemma eps_pos m : 0 < m_fy m -> 0 < m_eps m.
Proof. intros H. unfold m_eps. apply sqrt_lt_R0. apply Rdiv_lt_0_compat; lra. Qed.
Lemma sqrt4 : sqrt 4 = 2. Proof. replace 4 with (2 * 2) by ring. apply sqrt_square. lra. Qed.
Lemma web_rho_lemma m s bw : 0 < m_fy m -> 0 < cf_t s -> bp_w s = Some bw ->
  exists rw lw, web_rho m s 1 = Some (rw, lw) /\ lw = bw / (568/10 * m_eps m * cf_t s) /\ 0 < rw <= 1 /\ (rw < 1 <-> slender_web m s bw) /\ (slender_web m s bw -> rw = (lw - 22/100) / lw ^ 2).
Proof.
  intros Y T B. pose proof (eps_pos m Y) as EP. unfold web_rho. rewrite B. cbn [bind]. unfold buckling_factor_internal. rewrite (eqb_t 1 1) by lra. cbn [bind].
  rewrite lambda_p_eq by lra. rewrite sqrt4. cbn [bind]. set (l := bw / cf_t s / (284/10) / m_eps m / 2).
  destruct (rho_internal_lemma l 1 ltac:(lra) ltac:(lra)) as (r & E & Rr & A & Bq). rewrite E. cbn [bind]. exists r, l. split; [reflexivity|].
  replace (85/1000 - 55/1000 * 1) with (3/100) in * by field.
  assert (L : l * (568/10 * m_eps m * cf_t s) = bw) by (unfold l; field; lra).
  assert (PP : 0 < m_eps m * cf_t s) by nra.
  split; [unfold l; field; lra|]. split; [exact Rr|]. unfold slender_web. split; [split|].
  - intros R1. destruct (Rle_dec l (1/2 + sqrt (3/100))) as [Q|Q]; [rewrite (A Q) in R1; lra|]. rewrite <- L. nra.
  - intros H. apply Bq. rewrite <- L in H. nra.
  - intros H. replace (22/100) with (55/1000 * (3 + 1)) by field. apply Bq. rewrite <- L in H. nra.
Qed.
Lemma Z_slender_lemma m s bw e l : 0 < m_fy m -> 0 < cf_t s -> bp_w s = Some bw -> slender_web m s bw ->
  option_map fst (web_rho m s 1) = Some (e_rw e) -> eff_Z s e l = None.
Proof.
  intros Y T B H W. destruct (web_rho_lemma m s bw Y T B) as (rw & lw & E & _ & _ & I & _). rewrite E in W. cbn in W. injection W as W. subst rw.
  unfold eff_Z. rewrite ltb_t by (apply I; exact H). reflexivity.
Qed.

(** A Z section whose parts are all fully effective but for distortional buckling. *)
Lemma Z_eff_lemma s e A : c_kind s = KZ -> fits s -> ordered s -> 0 < c_ca s -> 0 < c_cb s ->
  e_rw e = 1 -> e_rt e = 1 -> e_rb e = 1 -> e_rbl e = 1 -> cf_area false s = Some A ->
  exists p, eff_Z s e (cf_points s) = Some p /\
    area p = A - cf_t s * ((1 - e_xt e) * straight_lip s (c_ca s) + (1 - e_xb e) * (3/4 * straight_lip s (c_cb s))).
Proof.
  intros K F O PA PB RW RT RB RBL AR.
  rewrite (area_exact_lemma s F), (ordered_run s F O) in AR. injection AR as AR.
  pose proof (flange_c s (c_a s) (c_ca s) PA) as CTc. pose proof (flange_c s (c_b s) (c_cb s) PB) as CBc.
  fold (bt_center s) (c_top s) in CTc. fold (bb_center s) (c_bottom s) in CBc.
  unfold eff_Z, new_prof. rewrite RW, RT, RB, RBL, (ltb_f 1 1), (ltb_t 0 (c_ca s)), (ltb_t 0 (c_cb s)) by lra.
  rewrite (points_named s F). pose proof (web_c s) as EW.
  destruct F as ((LA & LB) & Rm & HW & CT & CB & SA & SB).
  destruct (lipc s (c_ca s) Rm PA SA) as [LAp ELA]. destruct (lipc s (c_cb s) Rm PB SB) as [LBp ELB].
  assert (ELA' : lip_center s (c_ca s) = straight_lip s (c_ca s) + cf_rm s) by lra. assert (ELB' : lip_center s (c_cb s) = straight_lip s (c_cb s) + cf_rm s) by lra.
  unfold bot_nodes, bot_arc, web_points, top_arc, top_nodes in *. cbv zeta in *. rewrite K in *. rewrite (ltb_t 0 (c_ca s)), (ltb_t 0 (c_cb s)) in * by lra.
  unfold ordered in O. rewrite (ltb_t 0 (c_ca s)) in O by lra. rewrite CTc, CBc, EW, ELA', ELB' in *.
  assert (NZ : corners s = 4) by (unfold corners; rewrite (ltb_t 0 (c_ca s)), (ltb_t 0 (c_cb s)) by lra; ring). rewrite NZ in AR.
  replace chords with (4 * ch) in * by (unfold chords, ch; ring).
  set (rm := cf_rm s) in *. set (hw := cf_hw s) in *. set (ct := c_top s) in *. set (cb := c_bottom s) in *. set (t := cf_t s) in *.
  set (sa := straight_lip s (c_ca s)) in *. set (sb := straight_lip s (c_cb s)) in *. set (xt := e_xt e) in *. set (xb := e_xb e) in *.
  clear CTc CBc EW NZ ELA ELB ELA' ELB' LAp LBp RW RT RB RBL.
  cbn [app length Nat.sub repeat]. cbn [bind pn pst parr length Nat.sub setn]. unfold split_segment, segs. cbn [segs_of nth_error pn pst fst snd]. cbn [firstn skipn app bind].
  cbn [bind pn pst parr setn].
  eexists. split; [reflexivity|]. rewrite area_mk.
  match goal with |- context[(?x + ?s * (?x' - ?x''), ?b)] => replace (x + s * (x' - x'')) with x by ring end.
  match goal with |- context[(- (cb + 2 * rm), ?z - (1 - 1) * ?k)] => replace (z - (1 - 1) * k) with z by ring end.
  steps. unfold one2. abz. rewrite <- AR. field.
Qed.
