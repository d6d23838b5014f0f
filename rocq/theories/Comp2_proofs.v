(** Plastic moment of composite beams and concrete filled tubes. *)
From Verif Require Import Base Bool_tac EC3_model EC3_proofs Sections_spec Sections_proofs Cold_proofs Sections9_proofs Comp_model Comp_spec Comp_proofs.
Require Import Reals List Lra Lia Bool Psatz.
Import ListNotations.
Local Open Scope R_scope.

(** ---- plastic moment of a composite beam. *)
Lemma Rc_lemma : forall c, m_Rc c = 85/100 * (85/100 * fck (l_g (m_slab c)) / (3/2) * m_Ac c).
Proof. intros. unfold m_Rc, cfcd. field. Qed.
Lemma beam_pos : forall c, beam_ok c -> 0 < m_Ra c /\ 0 < m_Rc c /\ 0 < m_Rf c /\ 0 < m_Rw c.
Proof.
  intros c (H1 & H2 & H3 & H4 & H5 & H6 & H7 & H8 & H9 & H10 & H11 & H12). pose proof (fck_range (l_g (m_slab c))).
  assert (0 < i_b (m_s c)) by lra. assert (0 < fck (l_g (m_slab c))) by lra.
  rewrite Rc_lemma. unfold m_Ra, m_Rf, m_Rw, m_Ac. repeat split; pm.
Qed.
Lemma slab_axis_lemma : forall c, beam_ok c -> m_Ra c < m_Rc c -> exists x M, plastic_axis c = Some x /\ MplRd c = Some M /\
  0 < x < l_hc (m_slab c) /\ m_Rc c / l_hc (m_slab c) * x = m_Ra c /\
  M = m_Ra c * (l_h (m_slab c) + i_h (m_s c) / 2) - m_Rc c / l_hc (m_slab c) * x * (x / 2).
Proof.
  intros c OK H. destruct (beam_pos c OK) as (PA & PC & _). destruct OK as (H1 & H2 & _).
  unfold plastic_axis, MplRd. rewrite !ltb_t by lra. rewrite !pdiv_ok by lra. cbn [bind]. eexists _, _. split; [reflexivity|]. split; [reflexivity|].
  assert (Q : 0 < m_Ra c / m_Rc c < 1).
  { split; [apply Rdiv_lt_0_compat; lra|]. apply Rmult_lt_reg_r with (m_Rc c); [lra|]. unfold Rdiv. rewrite Rmult_assoc, Rinv_l by lra. lra. }
  split; [split; nra|]. split; [field; lra|]. unfold distance_centroids, m_ya, m_yc. field. lra.
Qed.
(** Balance of forces when the axis is in the steel: its depth below the top of the steel. *)
Lemma block_unique : forall c Rc z, beam_ok c -> Rc <= m_Ra c -> block_force c Rc z = 0 ->
  let D := m_Ra c - Rc in let fy := i_fy (m_s c) in
  (D <= 2 * m_Rf c -> z = D / (2 * fy * i_b (m_s c)) /\ 0 <= z <= i_tf (m_s c)) /\
  (2 * m_Rf c < D -> z = i_tf (m_s c) + (D - 2 * m_Rf c) / (2 * fy * i_tw (m_s c)) /\ i_tf (m_s c) < z).
Proof.
  intros c Rc z (H1 & H2 & H3 & H4 & H5 & H6 & H7 & H8 & H9 & H10 & H11 & H12) HR B D fy. unfold block_force, steel_above in B. fold fy in B, H8.
  assert (Pb : 0 < i_b (m_s c)) by lra.
  assert (P1 : 0 < fy * i_b (m_s c)) by pm. assert (P2 : 0 < fy * i_tw (m_s c)) by pm.
  assert (E : D = 2 * (fy * i_b (m_s c)) * Rmin z (i_tf (m_s c)) + 2 * (fy * i_tw (m_s c)) * (z - Rmin z (i_tf (m_s c)))) by (unfold D; lra).
  assert (EF : m_Rf c = fy * i_b (m_s c) * i_tf (m_s c)) by (unfold m_Rf; fold fy; ring). rewrite EF. clear B.
  destruct (Rle_dec z (i_tf (m_s c))) as [L|L].
  - rewrite Rmin_left in E by auto. rewrite Rminus_diag_eq, Rmult_0_r, Rplus_0_r in E by reflexivity. split; intros G.
    + split; [rewrite E; field; lra|]. split; [|auto]. assert (0 <= D) by (unfold D; lra). nra.
    + exfalso. nra.
  - rewrite Rmin_right in E by lra. split; intros G.
    + exfalso. nra.
    + split; [rewrite E; field; lra|lra].
Qed.
Lemma steel_axis_lemma : forall c z, beam_ok c -> m_Rc c <= m_Ra c -> block_force c (m_Rc c) z = 0 ->
  let gap := (m_Ra c - m_Rc c - 2 * m_Rf c) ^ 2 / (4 * i_fy (m_s c)) * (1 / i_tw (m_s c) - 1 / i_b (m_s c)) in
  exists x M, plastic_axis c = Some x /\ MplRd c = Some M /\
  (i_tf (m_s c) < z -> M = block_moment c (m_Rc c) z + gap /\ l_h (m_slab c) + i_tf (m_s c) < x /\
     x = l_h (m_slab c) + i_tf (m_s c) + (z - i_tf (m_s c)) * (i_tw (m_s c) / i_b (m_s c))) /\
  (z <= i_tf (m_s c) -> M = block_moment c (m_Rc c) z - gap /\ x <= l_h (m_slab c) + i_tf (m_s c) /\
     x = l_h (m_slab c) + i_tf (m_s c) - (i_tf (m_s c) - z) * (i_b (m_s c) / i_tw (m_s c))).
Proof.
  intros c z OK HR B gap. destruct (block_unique c _ z OK HR B) as [U1 U2]. destruct (beam_pos c OK) as (PA & PC & PF & PW).
  destruct OK as (H1 & H2 & H3 & H4 & H5 & H6 & H7 & H8 & H9 & H10 & H11 & H12). assert (Pb : 0 < i_b (m_s c)) by lra.
  set (D := m_Ra c - m_Rc c) in *. set (fy := i_fy (m_s c)) in *.
  assert (BM : block_moment c (m_Rc c) z = m_Ra c * (i_h (m_s c) / 2) + m_Rc c * (l_h (m_slab c) - l_hc (m_slab c) / 2) - 2 * fy * static_above (m_s c) z).
  { unfold block_moment. unfold block_force in B. fold fy in B |- *.
    assert (E : 2 * fy * (steel_above (m_s c) z * l_h (m_slab c) + static_above (m_s c) z) = (2 * fy * steel_above (m_s c) z) * l_h (m_slab c) + 2 * fy * static_above (m_s c) z) by ring.
    rewrite E. replace (2 * fy * steel_above (m_s c) z) with (m_Ra c - m_Rc c) by lra. ring. }
  unfold plastic_axis, MplRd. rewrite (ltb_f (m_Ra c) (m_Rc c)) by lra. unfold plastic_axis. rewrite (ltb_f (m_Ra c) (m_Rc c)) by lra.
  destruct (Rlt_le_dec (2 * m_Rf c) D) as [G|G].
  - destruct (U2 G) as [Z1 Z2]. assert (W1 : 0 < (D - 2 * m_Rf c) / (2 * fy * i_tw (m_s c))) by lra.
    rewrite (ltb_t (m_Rc c)) by (unfold D in G; lra). fold fy. repeat (rewrite !pdiv_ok by lra; cbn [bind]). eexists _, _. split; [reflexivity|]. split; [reflexivity|].
    split; [intros _|intros C; exfalso; lra]. fold D. split; [|split].
    + rewrite BM. unfold static_above. rewrite Rmin_right by lra. unfold gap. fold D fy. unfold distance_centroids, m_ya, m_yc.
      rewrite Z1. unfold m_Rf at 1 2 3. fold fy. unfold m_Rf in PF. fold fy in PF. unfold m_Rf. fold fy. field. repeat split; lra.
    + assert (i_tf (m_s c) < 1/2 * D / i_b (m_s c) / fy); [|lra].
      apply Rmult_lt_reg_r with (i_b (m_s c) * fy); [pm|]. replace (1/2 * D / i_b (m_s c) / fy * (i_b (m_s c) * fy)) with (1/2 * D) by (field; lra).
      unfold m_Rf in G. fold fy in G. lra.
    + rewrite Z1. unfold m_Rf. fold fy. field. lra.
  - destruct (U1 G) as [Z1 Z2].
    rewrite (ltb_f (m_Rc c)) by (unfold D in G; lra). fold fy. repeat (rewrite !pdiv_ok by lra; cbn [bind]). eexists _, _. split; [reflexivity|]. split; [reflexivity|].
    split; [intros C; exfalso; lra|intros _]. fold D.
    assert (XE : 1/2 * (D - 2 * m_Rf c) / m_Rw c * i_hw (m_s c) = - ((i_tf (m_s c) - z) * (i_b (m_s c) / i_tw (m_s c)))).
    { rewrite Z1. unfold m_Rw, m_Rf. fold fy. field. lra. }
    split; [|split].
    + rewrite BM. unfold static_above. rewrite Rmin_left by lra. unfold gap. fold D fy. unfold distance_centroids, m_ya, m_yc.
      rewrite Z1. unfold m_Rw, m_Rf. fold fy. replace (m_Ra c) with (D + m_Rc c) by (unfold D; ring). clearbody D. field. lra.
    + rewrite XE. assert (0 <= (i_tf (m_s c) - z) * (i_b (m_s c) / i_tw (m_s c))); [|lra].
      apply Rmult_le_pos; [lra|]. left. apply Rdiv_lt_0_compat; lra.
    + rewrite XE. ring.
Qed.

(** ---- the concrete core. *)
Lemma core_lemma : forall c, k_n c = 4 ->
  let As := 4 * (PI * k_d c ^ 2 / 4) in
  k_As c = As /\ k_Ac c = rr_area (core_h c) (core_b c) (core_r c) - As /\
  k_Wps c = As * k_z c /\ k_Wpc c = rr_static (core_h c) (core_b c) (core_r c) - As * k_z c /\
  k_Is c = 4 * (PI * (k_d c / 2) ^ 4 / 4 + PI * k_d c ^ 2 / 4 * k_z c ^ 2).
Proof.
  intros c Hn As. unfold k_As, k_Ac, k_Wps, k_Wpc, k_Is, bar_A, bar_I, bar_r, rr_area, rr_static, core_h, core_b, core_r, As. rewrite Hn.
  repeat split; unfold k_As, k_Wps, bar_A; try rewrite Hn; field.
Qed.
Lemma core_I_lemma : forall c,
  let x := core_h c / 2 + 4 * core_r c / (3 * PI) in
  k_Ic c = rr_inertia (core_h c) (core_b c) (core_r c) - k_Is c + PI * core_r c ^ 2 * (x ^ 2 - (x - core_r c) ^ 2) /\
  (0 < core_r c -> 2 * core_r c <= core_h c -> rr_inertia (core_h c) (core_b c) (core_r c) - k_Is c < k_Ic c).
Proof.
  intros c x. pose proof PI_ne as PN. pose proof PI3 as PB.
  assert (E : k_Ic c = rr_inertia (core_h c) (core_b c) (core_r c) - k_Is c + PI * core_r c ^ 2 * (x ^ 2 - (x - core_r c) ^ 2)).
  { unfold k_Ic, x, rr_inertia. fold (core_r c). unfold core_h, core_b. set (r := core_r c). field. auto. }
  split; auto. intros Hr Hh. rewrite E.
  assert (P : 0 < 4 * core_r c / (3 * PI)) by (apply Rdiv_lt_0_compat; lra).
  assert (R2 : 0 < PI * core_r c ^ 2) by (assert (0 < PI) by lra; pm).
  assert (0 < x ^ 2 - (x - core_r c) ^ 2); [|pose proof (Rmult_lt_0_compat _ _ R2 H); lra].
  replace (x ^ 2 - (x - core_r c) ^ 2) with (core_r c * (2 * x - core_r c)) by ring. apply Rmult_lt_0_compat; unfold x; lra.
Qed.
Lemma cover_lemma : forall c u v, get_u (set_u u c) = u /\ get_v (set_v v c) = v + k_d c /\
  get_u (set_v v c) = get_u c /\ get_v (set_u u c) = get_v c.
Proof. intros. unfold get_u, get_v, set_u, set_v, bar_r. cbn. repeat split; lra. Qed.

(** ---- plastic moment of a filled tube. *)
Lemma tube_plastic_lemma : forall c, tube_ok c -> t_T (k_t c) * 2 < t_B (k_t c) ->
  let fy := t_fy (k_t c) in let fs := k_fs c / (115/100) in let fc := fck (k_g c) / (3/2) in
  exists z0 z1 M, h_n c 0 = Some z0 /\ h_n c (k_As c) = Some z1 /\ MplRd_col c = Some M /\ 0 < z0 /\ (fc < 2 * fs -> z1 < z0) /\
  tube_force fy fs fc c false z0 = 0 /\ tube_force fy fs fc c true z1 = 0 /\
  (z0 < k_z c - k_d c / 2 -> M = tube_moment fy fs fc c false z0) /\
  (k_z c - k_d c / 2 <= z0 -> M = tube_moment fy fs fc c true z1).
Proof.
  intros c (H1 & H2 & H3 & H4 & H5 & H6 & H7 & H8 & H9 & H10 & H11 & H12 & H13) HB fy fs fc.
  destruct (core_lemma c H12) as (E1 & E2 & E3 & E4 & _). set (As := 4 * (PI * k_d c ^ 2 / 4)) in *.
  pose proof (fck_range (k_g c)) as FR. pose proof PI3 as PP.
  assert (Ef : k_fcd c = fc) by (unfold k_fcd, cfcd, fc; field). assert (Es : bar_fyd (k_fs c) = fs) by reflexivity.
  assert (Pf : 0 < fc) by (unfold fc; lra). assert (Ps : 0 < fs) by (unfold fs; lra).
  assert (PAs : 0 < As) by (unfold As; assert (0 < PI) by lra; pm).
  set (den := 2 * fc * core_b c + 8 * t_T (k_t c) * fy).
  assert (ED : 2 * t_B (k_t c) * fc + 4 * t_T (k_t c) * (2 * fy - fc) = den) by (unfold den, core_b; ring).
  assert (PD : 0 < den). { unfold den, core_b. assert (0 < t_B (k_t c) - 2 * t_T (k_t c)) by lra. assert (0 < fy) by auto. apply Rplus_lt_0_compat; pm. }
  assert (N0 : forall a, h_n c a = Some ((fc * k_Ac c - a * (2 * fs - fc)) / den)).
  { intros a. unfold h_n, NpmRd. rewrite Ef, Es. fold fy. rewrite ED. apply pdiv_ok. lra. }
  set (z0 := (fc * k_Ac c - 0 * (2 * fs - fc)) / den). set (z1 := (fc * k_Ac c - k_As c * (2 * fs - fc)) / den).
  exists z0, z1. unfold MplRd_col. rewrite !N0. cbn [bind]. fold z0 z1.
  assert (Z0 : z0 * den = fc * k_Ac c) by (unfold z0; field; lra). assert (Z1 : z1 * den = fc * k_Ac c - As * (2 * fs - fc)) by (unfold z1; rewrite E1; field; lra).
  assert (F0 : tube_force fy fs fc c false z0 = 0). { unfold tube_force. fold As. rewrite E2 in Z0. unfold den in Z0. lra. }
  assert (F1 : tube_force fy fs fc c true z1 = 0). { unfold tube_force. fold As. rewrite E2 in Z1. unfold den in Z1. lra. }
  assert (P0 : 0 < z0). { apply Rmult_lt_reg_r with den; [lra|]. rewrite Z0, Rmult_0_l. pm. }
  assert (LT : fc < 2 * fs -> z1 < z0). { intros. apply Rmult_lt_reg_r with den; [lra|]. rewrite Z0, Z1. assert (0 < As * (2 * fs - fc)) by (apply Rmult_lt_0_compat; lra). lra. }
  unfold Mmax. rewrite Ef, Es, E3, E4. fold fy. unfold bar_r.
  destruct (Rlt_le_dec z0 (k_z c - 1/2 * k_d c)) as [L|L].
  - rewrite ltb_t by auto. cbn [bind]. eexists. do 3 (split; [reflexivity|]). split; [auto|]. split; [auto|]. split; [auto|]. split; [auto|]. split; [intros _|intros C; exfalso; lra].
    unfold tube_moment, core_b. fold As. field.
  - rewrite ltb_f by lra. cbn [bind]. eexists. do 3 (split; [reflexivity|]). split; [auto|]. split; [auto|]. split; [auto|]. split; [auto|]. split; [intros C; exfalso; lra|intros _].
    unfold tube_moment, core_b. fold As. field.
Qed.
