From Verif Require Import Base EC3_model Bool_tac EC3_proofs Plate_proofs Sections_proofs Cold_proofs Cold2_proofs Cold6_proofs Loads2_proofs.
From Verif Require Import CfProf_proofs CfProf2_proofs CfProf3_proofs CfProf4_proofs CfProf5_proofs CfProf6_proofs.
From Verif Require Import CfProf_model CfProf_spec.
Require Import Reals List Bool Lra Lia Psatz PeanoNat.
Import ListNotations.
Local Open Scope R_scope.

Lemma area_reduced_lemma s A : fits s -> c_round s = true -> 0 < notional_sum s -> cf_area false s = Some A ->
  cf_area true s = Some (A * (1 - 43/100 * (corners s * c_r s) / notional_sum s)).
Proof.
  intros F HR W EA. destruct F as ((L1 & L2) & _). destruct (notional_lemma s HR) as (N1 & N2 & N3 & N4 & N5).
  unfold cf_area in *. cbn [bind] in EA. apply bind_inv in EA. destruct EA as (p & Ep & EA). rewrite Ep. cbn [bind].
  injection EA as EA. rewrite Rminus_0_r, Rmult_1_r in EA. subst A. rewrite N1.
  assert (D1 : c_ca s = 0 \/ 0 < c_ca s) by lra. assert (D2 : c_cb s = 0 \/ 0 < c_cb s) by lra. unfold notional_sum, corners in *.
  destruct D1 as [D1|D1], D2 as [D2|D2]; (rewrite ?D1, ?D2 in *; rewrite ?N2, ?N5, ?(N3 _ _ D1), ?(N3 _ _ D2), ?(N4 _ D1), ?(N4 _ D2));
    rewrite ?(ltb_f 0 0), ?(ltb_t 0 (c_ca s)), ?(ltb_t 0 (c_cb s)) in * by lra; cbn [bind app];
    unfold Cold_model.rounding_factor, Cold_model.sum_prod; cbn [length Nat.eqb bind];
    (rewrite pdiv_ok by (cbn [Rsum fold_right map]; lra)); cbn [bind]; f_equal; f_equal; f_equal; cbn [Rsum fold_right map combine fst snd]; field; lra.
Qed.
Lemma web_slenderness_lemma m s bw : 0 < m_fy m -> 0 < cf_t s -> bp_w s = Some bw ->
  exists rw lw, web_rho m s 1 = Some (rw, lw) /\ lw = bw / (568/10 * sqrt (235 / m_fy m) * cf_t s).
Proof. intros Hf Ht E. destruct (web_rho_lemma m s bw Hf Ht E) as (rw & lw & H1 & H2 & _). exists rw, lw. split; [exact H1|exact H2]. Qed.
Lemma kh_Z_lemma s Iyz Iy e z g a : Iy <> 0 -> 0 < c_h s ->
  exists k, kh_Z s Iyz Iy (e, z) g a = Some k /\
    (g = true -> Rabs (k * c_h s) = Rabs (Iyz / Iy * (c_h s / 2 - z) + e) /\ (0 <= e -> k * c_h s = Iyz / Iy * (c_h s / 2 - z) + e) /\ (e < 0 -> k * c_h s = - (Iyz / Iy * (c_h s / 2 - z) + e))) /\
    (g = false -> Rabs (k * c_h s) = Rabs (Iyz / Iy * (c_h s / 2 - z) + (a - e)) /\
       (Iyz / Iy * (c_h s / 2 - z) <= a - e -> k * c_h s = - (Iyz / Iy * (c_h s / 2 - z) + (a - e))) /\
       (a - e < Iyz / Iy * (c_h s / 2 - z) -> k * c_h s = Iyz / Iy * (c_h s / 2 - z) + (a - e))).
Proof.
  intros HI Hh. unfold kh_Z. rewrite !pdiv_ok by lra. cbn [bind fst snd]. cbv zeta. set (h := c_h s) in *. set (Q := Iyz / Iy). clearbody Q h.
  assert (X : forall x, (Q * (1 / 2 * h - z) / h + x / h) * h = Q * (h / 2 - z) + x) by (intro; field; lra).
  destruct g.
  - destruct (Rltb e 0) eqn:E; [apply Rltb_true in E|apply Rltb_false in E]; eexists; (split; [reflexivity|]); (split; [intros _|discriminate]).
    + rewrite Ropp_mult_distr_l_reverse, X, Rabs_Ropp. repeat split; intros; try reflexivity; lra.
    + rewrite X. repeat split; intros; try reflexivity; lra.
  - destruct (Rleb (Q * (1 / 2 * h - z) / h) ((a - e) / h)) eqn:E; [apply Rleb_true in E|apply Rleb_false in E]; eexists; (split; [reflexivity|]); (split; [discriminate|intros _]).
    + rewrite Ropp_mult_distr_l_reverse, X, Rabs_Ropp. repeat split; intros C; try reflexivity. exfalso. apply (Rmult_le_compat_r h) in E; [|lra].
      unfold Rdiv in E. rewrite !Rmult_assoc, Rinv_l in E by lra. lra.
    + rewrite X. repeat split; intros C; try reflexivity. exfalso. apply (Rmult_lt_compat_r h) in E; [|lra].
      unfold Rdiv in E. rewrite !Rmult_assoc, Rinv_l in E by lra. lra.
Qed.
Lemma Kspring_default_lemma m s kh afp g : 0 < c_a s ->
  Kspring m s kh afp 0 g = Kspring m s kh afp ((if g then 52/10 * (1855/1000) else 26/10) * Cold_model.cd_kba (c_a s) * Rpower (4/3) (11/10) * sqrt (4/5)) g.
Proof.
  intros Ha. set (v := (if g then 52/10 * (1855/1000) else 26/10) * Cold_model.cd_kba (c_a s) * Rpower (4/3) (11/10) * sqrt (4/5)).
  assert (P : 0 < v).
  { unfold v. repeat apply Rmult_lt_0_compat.
    - destruct g; lra.
    - unfold Cold_model.cd_kba. destruct (Rleb (c_a s) 125); [apply pow_lt|]; lra.
    - apply exp_pos.
    - apply sqrt_lt_R0. lra. }
  assert (E : Cold_model.CD_A (c_a s) 1 true 10 50 150 g = Some v).
  { destruct (CD_A_lemma (c_a s) 1 10 50 150) as (_ & E1 & E2); [lra|].
    assert (T : 1 / (75 / 100) = 4 / 3) by lra. assert (S : 40 / 50 = 4 / 5) by lra. unfold v. destruct g.
    - rewrite E1 by lra. unfold Cold_model.cd_kbR. rewrite leb_t, ltb_t by lra. rewrite T, S. f_equal. field.
    - rewrite E2. unfold Cold_model.cd_kbR. rewrite leb_t, (ltb_t 40 50), (ltb_t (75/100) 1) by lra. cbn [andb]. rewrite T, S. f_equal. field. }
  unfold Kspring. rewrite (eqb_t 0 0), (eqb_f v 0), E by lra. reflexivity.
Qed.
