(** Strength and flexibility of sheeting diaphragms; the table outside its range. *)
From Verif Require Import Base Bool_tac EC3_model EC3_proofs Sections_proofs Cold_proofs Loads2_proofs Cold5_proofs Cold_model Skin_model Skin_spec Skin_proofs.
Require Import Reals List Lra Lia Bool Psatz ZArith.
Import ListNotations.
Local Open Scope R_scope.

Lemma narrow_flange_lemma : forall k, 0 < sk_p k -> 0 <= s_bt (sk_s k) / sk_p k < 1/10 -> 1/10 <= s_h (sk_s k) / sk_p k < 2/10 -> 85 < s_angle (sk_s k) <= 90 ->
  skin_K k = Some (193/1000) /\ table_at 0 0 0 = Some 13%Z.
Proof.
  intros k P H1 H2 H3. split; [|reflexivity]. unfold skin_K, K1_rows. rewrite !pdiv_ok by lra. cbn [bind].
  rewrite (floorZ_unique _ 0) by lra. rewrite (truncZ_pos (s_bt (sk_s k) / sk_p k / (1/10))) by lra. rewrite (floorZ_unique _ 0) by lra.
  rewrite (truncZ_pos (s_h (sk_s k) / sk_p k / (1/10))) by lra. rewrite (floorZ_unique (s_h (sk_s k) / sk_p k / (1/10)) 1) by lra. reflexivity.
Qed.
Lemma K_key_lemma : forall k, 0 < sk_p k -> s_angle (sk_s k) <= 40 \/ 90 < s_angle (sk_s k) -> skin_K k = None.
Proof.
  intros k P H. destruct (skin_K k) as [v|] eqn:E; [|reflexivity]. exfalso. apply K_range_lemma in E. lra.
Qed.

Lemma Fs_lemma : forall k, skin_ok k -> exists F, Fs k = Some F /\ 0 < F /\
  F = (if sk_en k then Rmin (32/10 * sqrt (sk_t k / sk_d k)) (21/10) * sk_fu k * sk_d k * sk_t k / (125/100)
       else Rmin (29/10 * sqrt (sk_t k / sk_d k) * sk_fu k * sk_d k * sk_t k) 3800).
Proof.
  intros k (H1 & H2 & H3 & H4 & H5 & H6 & H7 & H8 & H9 & _). assert (Q : 0 < sk_t k / sk_d k) by pm. pose proof (sqrt_lt_R0 _ Q) as SQ.
  unfold Fs. destruct (sk_en k).
  - unfold screw_bearing, screw_alfa. rewrite eqb_t by reflexivity. unfold alfa_low. rewrite pdiv_ok by lra. cbn [bind]. rewrite psqrt_ok by lra. cbn [bind fst].
    eexists. split; [reflexivity|]. unfold gammaM2. split; [|reflexivity]. assert (0 < Rmin (32/10 * sqrt (sk_t k / sk_d k)) (21/10)) by (apply Rmin_glb_lt; lra). pm.
  - rewrite pdiv_ok by lra. cbn [bind]. rewrite psqrt_ok by lra. cbn [bind]. eexists. split; [reflexivity|]. split; [|reflexivity].
    apply Rmin_glb_lt; [pm|lra].
Qed.
Lemma seam_lemma : forall k fp, skin_ok k -> Fp k = Some fp ->
  (sk_trough k = false -> seam_strength k = None) /\
  (sk_trough k = true -> exists F V m, Fs k = Some F /\ 0 < F /\ seam_strength k = Some V /\
     IZR m <= sk_b k / sk_sp k < IZR m + 1 /\
     V * sk_b k = sk_a k * ((IZR m - 1) * F + beta1 (sk_nf k) true * fp)).
Proof.
  intros k fp OK E. destruct (Fs_lemma k OK) as (F & EF & PF & _). destruct OK as (H1 & H2 & H3 & H4 & H5 & H6 & H7 & H8 & H9 & H10 & _).
  unfold seam_strength. rewrite EF, E. cbn [bind]. unfold ns. rewrite pdiv_ok by lra. cbn [bind]. unfold beta3. split.
  - intros ->. reflexivity.
  - intros ->. cbn [bind]. rewrite !pdiv_ok by lra. cbn [bind]. assert (Q : 0 < sk_b k / sk_sp k) by pm.
    exists F. eexists. exists (floorZ (sk_b k / sk_sp k)). split; [reflexivity|]. split; [auto|]. split; [reflexivity|]. split; [apply floorZ_spec|].
    rewrite truncZ_pos by lra. rewrite minus_IZR. field. lra.
Qed.
Lemma seam_mono_lemma : forall k sp fp V V', skin_ok k -> Fp k = Some fp -> 0 < sp <= sk_sp k ->
  seam_strength k = Some V -> seam_strength (with_spacing sp k) = Some V' -> V <= V'.
Proof.
  intros k sp fp V V' OK E Hs EV EV'. pose proof OK as (H1 & H2 & H3 & H4 & H5 & H6 & H7 & H8 & H9 & H10 & H11 & H12 & H13).
  destruct (seam_lemma k fp OK E) as [T1 T2]. assert (OK' : skin_ok (with_spacing sp k)) by (unfold skin_ok, sk_t, sk_p, with_spacing in *; cbn in *; intuition lra).
  destruct (seam_lemma (with_spacing sp k) fp OK' E) as [T1' T2']. change (sk_trough (with_spacing sp k)) with (sk_trough k) in *.
  destruct (sk_trough k) eqn:Et; [|rewrite (T1 eq_refl) in EV; discriminate]. destruct (T2 eq_refl) as (F & W & m & EF & PF & EW & Bm & EE).
  destruct (T2' eq_refl) as (F' & W' & m' & EF' & _ & EW' & Bm' & EE'). rewrite EW in EV. apply some_inj in EV. rewrite EW' in EV'. apply some_inj in EV'. subst W W'.
  change (Fs (with_spacing sp k)) with (Fs k) in EF'. rewrite EF in EF'. apply some_inj in EF'. subst F'.
  change (sk_b (with_spacing sp k)) with (sk_b k) in *. change (sk_a (with_spacing sp k)) with (sk_a k) in *. change (sk_nf (with_spacing sp k)) with (sk_nf k) in *.
  change (sk_sp (with_spacing sp k)) with sp in *.
  assert (LE : IZR m <= IZR m'). { apply IZR_le. assert (IZR m < IZR (m' + 1)); [|apply lt_IZR in H; lia]. rewrite plus_IZR.
    assert (sk_b k / sk_sp k <= sk_b k / sp); [|lra]. apply Rmult_le_compat_l; [lra|]. apply Rinv_le_contravar; lra. }
  apply Rmult_le_reg_r with (sk_b k); [lra|]. rewrite EE, EE'. apply Rmult_le_compat_l; [lra|]. nra.
Qed.
(** A panel shorter than the spacing of the seam fasteners has a negative seam strength. *)
Definition short_skin : skin := mkSkin (mkSheet 1 130 111 75 90 1) 1 210000 (3/10) 350 420 6000 400 1 (48/10) 500 true (55/10) 250 6 5 210000 1900 true.
Lemma short_pitch : sk_p short_skin = 186.
Proof. unfold sk_p, sheet_pitch, short_skin. cbn [sk_s s_bb s_bt s_h s_angle]. unfold radians. replace (90 * PI / 180) with (PI / 2) by field. rewrite cos_PI2. lra. Qed.
Lemma short_ok : skin_ok short_skin.
Proof. unfold skin_ok. rewrite short_pitch. unfold sk_t, sheet_t, short_skin. cbn. repeat split; lra. Qed.
Lemma short_Fp : exists f, Fp short_skin = Some f.
Proof.
  unfold Fp, short_skin. cbn [sk_en sk_fu sk_d sk_t sk_rt sk_s]. unfold screw_bearing, screw_alfa. unfold sk_t, sheet_t. cbn [sk_s s_tnom].
  rewrite eqb_f by lra. rewrite leb_t by lra. cbn [andb]. rewrite ltb_t by lra. unfold alfa_low. rewrite pdiv_ok by lra. cbn [bind]. rewrite psqrt_ok by lra. eexists. reflexivity.
Qed.
Lemma short_seam_refuted_lemma : exists k V, skin_ok k /\ sk_b k < sk_sp k /\ seam_strength k = Some V /\ V < 0.
Proof.
  destruct short_Fp as [fp Ef]. destruct (seam_lemma short_skin fp short_ok Ef) as [_ T]. destruct (T eq_refl) as (F & V & m & EF & PF & EV & Bm & EE).
  exists short_skin, V. split; [exact short_ok|]. split; [cbn; lra|]. split; [exact EV|].
  cbn [short_skin sk_b sk_sp sk_a sk_nf] in *. assert (Hm : m = 0%Z). { destruct Bm as [B1 B2]. assert (IZR m < 1) by lra. assert (-1 < IZR m) by lra. apply lt_IZR in H. apply lt_IZR in H0. lia. }
  subst m. replace (beta1 1 true) with 0 in EE by (unfold beta1, cube_sum; cbn; reflexivity). nra.
Qed.
Lemma sheet_rafter_lemma : forall k fp, skin_ok k -> Fp k = Some fp -> exists V, sheet_rafter_strength k = Some V /\ V = 6/10 * fp * (sk_a k / sk_p k).
Proof. intros k fp (H1 & H2 & _) E. unfold sheet_rafter_strength. rewrite E. cbn [bind]. rewrite pdiv_ok by lra. eexists. split; [reflexivity|]. field. lra. Qed.

(** ---- flexibility. *)
Lemma pow25_ok : forall x, 0 < x -> pow25 x = Some (x ^ 2 * sqrt x) /\ 0 < x ^ 2 * sqrt x.
Proof. intros x H. unfold pow25. rewrite psqrt_ok by lra. split; [reflexivity|]. pose proof (sqrt_lt_R0 x H). pm. Qed.
Definition seam_slip (k : skin) (h n c : Z) : R :=
  35/100 * (25/100) * (IZR h - 1) / (35/100 * IZR n + 25/100 * beta1 (sk_nf k) (sk_trough k)) + 7/10 / IZR c.
Lemma flexibility_lemma : forall k K h n c, skin_ok k -> skin_K k = Some K -> nsh k = Some h -> ns k = Some n -> nsc k = Some c ->
  (1 <= h)%Z -> (0 <= n)%Z -> (1 <= c)%Z -> (2 <= sk_nf k)%nat ->
  exists v, shear_flexibility k = Some v /\ 0 < v /\
  v = K * (sk_p k ^ 2 * sqrt (sk_p k)) / (sk_E k / 1000 * (sk_t k ^ 2 * sqrt (sk_t k)) * sk_a k) +
      2 * sk_b k * (1 + sk_nu k) * (1 + 2 * s_h (sk_s k) / sk_p k) / (sk_E k / 1000 * sk_t k * sk_a k) +
      7/10 * sk_p k / sk_a k + (sk_b k / sk_a k) ^ 2 * seam_slip k h n c +
      sk_n k ^ 2 * sk_b k ^ 3 / (sk_eE k / 1000 * sk_eA k * sk_a k ^ 2).
Proof.
  intros k K h n c (H1 & H2 & H3 & H4 & H5 & H6 & H7 & H8 & H9 & H10 & H11 & H12 & H13) EK Eh En Ec Lh Ln Lc Lf.
  pose proof (K_range_lemma k K EK) as [KR _]. destruct (beta1_mono_lemma (sk_nf k) Lf) as [B1 B2].
  assert (PB : 0 < beta1 (sk_nf k) (sk_trough k)) by (destruct (sk_trough k); lra). set (be := beta1 (sk_nf k) (sk_trough k)) in *.
  apply IZR_le in Lh. apply IZR_le in Ln. apply IZR_le in Lc.
  destruct (pow25_ok _ H1) as [E1 P1]. destruct (pow25_ok _ H2) as [E2 P2].
  assert (Pb2 : 0 < sk_b k ^ 2) by pm. assert (Pa2 : 0 < sk_a k ^ 2) by pm.
  unfold shear_flexibility, profile_distortion. rewrite EK, E1, E2. cbn [bind]. do 3 (rewrite pdiv_ok by lra; cbn [bind]).
  unfold shear_strain. do 4 (rewrite pdiv_ok by lra; cbn [bind]). unfold fastener_deformation. rewrite Eh, En, Ec. cbn [bind]. fold be.
  rewrite pdiv_ok by lra. cbn [bind]. assert (PD : 0 < IZR n * (35/100) + be * (25/100)) by lra. rewrite pdiv_ok by lra. cbn [bind]. rewrite pdiv_ok by lra. cbn [bind].
  unfold edge_member_strain. do 3 (rewrite pdiv_ok by lra; cbn [bind]). rewrite pdiv_ok by lra. cbn [bind]. eexists. split; [reflexivity|].
  match goal with |- _ /\ ?x = ?y => assert (EQ : x = y) end.
  { unfold seam_slip. fold be. set (t25 := sk_t k ^ 2 * sqrt (sk_t k)) in *. set (p25 := sk_p k ^ 2 * sqrt (sk_p k)) in *. clearbody t25 p25 be. field. repeat split; lra. }
  split; [|exact EQ]. rewrite EQ.
  assert (0 < K * (sk_p k ^ 2 * sqrt (sk_p k)) / (sk_E k / 1000 * (sk_t k ^ 2 * sqrt (sk_t k)) * sk_a k)).
  { assert (0 < K) by lra. apply Rdiv_lt_0_compat; [apply Rmult_lt_0_compat; auto|]. apply Rmult_lt_0_compat; [apply Rmult_lt_0_compat; [pm|auto]|auto]. }
  assert (0 <= 2 * s_h (sk_s k) / sk_p k) by (apply Rmult_le_pos; [lra|left; apply Rinv_0_lt_compat; lra]).
  assert (0 < 1 + 2 * s_h (sk_s k) / sk_p k) by lra. assert (0 < 1 + sk_nu k) by lra.
  assert (0 < 2 * sk_b k * (1 + sk_nu k) * (1 + 2 * s_h (sk_s k) / sk_p k) / (sk_E k / 1000 * sk_t k * sk_a k)) by pm.
  assert (0 < 7/10 * sk_p k / sk_a k) by pm.
  assert (0 <= seam_slip k h n c). { unfold seam_slip. fold be. assert (0 < 7/10 / IZR c) by (assert (0 < IZR c) by lra; pm).
    assert (0 <= 35/100 * (25/100) * (IZR h - 1) / (35/100 * IZR n + 25/100 * be)); [|lra]. apply Rmult_le_pos; [lra|left; apply Rinv_0_lt_compat; lra]. }
  assert (0 <= (sk_b k / sk_a k) ^ 2 * seam_slip k h n c) by (apply Rmult_le_pos; [apply pow2_ge_0|auto]).
  assert (0 <= sk_n k ^ 2 * sk_b k ^ 3 / (sk_eE k / 1000 * sk_eA k * sk_a k ^ 2)).
  { apply Rmult_le_pos; [apply Rmult_le_pos; [apply pow2_ge_0|left; pm]|left; apply Rinv_0_lt_compat; pm]. }
  lra.
Qed.
Lemma flexibility_mono_lemma : forall k t A n v v', skin_ok k -> (exists h m c, nsh k = Some h /\ ns k = Some m /\ nsc k = Some c /\ (1 <= h)%Z /\ (0 <= m)%Z /\ (1 <= c)%Z) -> (2 <= sk_nf k)%nat ->
  s_tnom (sk_s k) <= t -> sk_eA k <= A -> n ^ 2 <= sk_n k ^ 2 -> shear_flexibility k = Some v -> shear_flexibility (with_sheet t A n k) = Some v' -> v' <= v.
Proof.
  intros k t A n v v' OK (h & m & c & Eh & Em & Ec & Lh & Lm & Lc) Lf Ht HA Hn E E'. set (k' := with_sheet t A n k) in *.
  assert (TT : sk_t k <= sk_t k') by (unfold k', sk_t, sheet_t, with_sheet; cbn; lra).
  assert (OK' : skin_ok k'). { destruct OK as (H1 & H2 & H3 & H4 & H5 & H6 & H7 & H8 & H9 & H10 & H11 & H12 & H13). repeat split; try assumption; try lra; cbn; lra. }
  assert (EK : exists K, skin_K k = Some K). { unfold shear_flexibility, profile_distortion in E. destruct (skin_K k); [eauto|discriminate]. } destruct EK as [K EK].
  destruct (flexibility_lemma k K h m c OK EK Eh Em Ec Lh Lm Lc Lf) as (x & Ex & _ & Vx). rewrite Ex in E. apply some_inj in E. subst x.
  destruct (flexibility_lemma k' K h m c OK' EK Eh Em Ec Lh Lm Lc Lf) as (x & Ex' & _ & Vx'). rewrite Ex' in E'. apply some_inj in E'. subst x.
  rewrite Vx, Vx'. change (sk_p k') with (sk_p k). change (sk_E k') with (sk_E k). change (sk_a k') with (sk_a k). change (sk_b k') with (sk_b k). change (sk_nu k') with (sk_nu k).
  change (s_h (sk_s k')) with (s_h (sk_s k)). change (seam_slip k' h m c) with (seam_slip k h m c). change (sk_n k') with n. change (sk_eE k') with (sk_eE k). change (sk_eA k') with A.
  pose proof (K_range_lemma k K EK) as [KR _]. destruct OK as (H1 & H2 & H3 & H4 & H5 & H6 & H7 & H8 & H9 & H10 & H11 & H12 & H13).
  destruct (pow25_ok _ H1) as [_ P1]. destruct (pow25_ok _ H2) as [_ P2].
  assert (Q1 : sk_t k ^ 2 * sqrt (sk_t k) <= sk_t k' ^ 2 * sqrt (sk_t k')).
  { apply Rmult_le_compat; [left; pm|apply sqrt_pos|apply pow_incr; lra|apply sqrt_le_1_alt; lra]. }
  assert (Pe : 0 < sk_E k / 1000) by pm. assert (Pe2 : 0 < sk_eE k / 1000) by pm. assert (Pa2 : 0 < sk_a k ^ 2) by pm.
  assert (T1 : K * (sk_p k ^ 2 * sqrt (sk_p k)) / (sk_E k / 1000 * (sk_t k' ^ 2 * sqrt (sk_t k')) * sk_a k) <= K * (sk_p k ^ 2 * sqrt (sk_p k)) / (sk_E k / 1000 * (sk_t k ^ 2 * sqrt (sk_t k)) * sk_a k)).
  { apply Rmult_le_compat_l; [left; apply Rmult_lt_0_compat; lra|]. apply Rinv_le_contravar; [apply Rmult_lt_0_compat; [apply Rmult_lt_0_compat; auto|auto]|].
    apply Rmult_le_compat_r; [lra|]. apply Rmult_le_compat_l; lra. }
  assert (Z0 : 0 <= 2 * s_h (sk_s k) / sk_p k) by (apply Rmult_le_pos; [lra|left; apply Rinv_0_lt_compat; lra]).
  assert (T2 : 2 * sk_b k * (1 + sk_nu k) * (1 + 2 * s_h (sk_s k) / sk_p k) / (sk_E k / 1000 * sk_t k' * sk_a k) <= 2 * sk_b k * (1 + sk_nu k) * (1 + 2 * s_h (sk_s k) / sk_p k) / (sk_E k / 1000 * sk_t k * sk_a k)).
  { apply Rmult_le_compat_l; [repeat apply Rmult_le_pos; lra|]. apply Rinv_le_contravar; [pm|]. apply Rmult_le_compat_r; [lra|]. apply Rmult_le_compat_l; lra. }
  assert (T3 : n ^ 2 * sk_b k ^ 3 / (sk_eE k / 1000 * A * sk_a k ^ 2) <= sk_n k ^ 2 * sk_b k ^ 3 / (sk_eE k / 1000 * sk_eA k * sk_a k ^ 2)).
  { assert (0 < sk_b k ^ 3) by pm. apply Rmult_le_compat; [apply Rmult_le_pos; [apply pow2_ge_0|lra]|left; apply Rinv_0_lt_compat; assert (0 < A) by lra; pm|apply Rmult_le_compat_r; lra|].
    apply Rinv_le_contravar; [pm|]. apply Rmult_le_compat_r; [lra|]. apply Rmult_le_compat_l; lra. }
  lra.
Qed.
Lemma no_fastener_lemma : forall k, skin_ok k -> sk_b k < sk_esp k -> shear_flexibility k = None.
Proof.
  intros k (H1 & H2 & H3 & H4 & H5 & H6 & H7 & H8 & H9 & H10 & H11 & H12 & H13) L. assert (E : fastener_deformation k = None).
  { unfold fastener_deformation. destruct (nsh k); [|reflexivity]. cbn [bind]. destruct (ns k); [|reflexivity]. cbn [bind]. unfold nsc. rewrite pdiv_ok by lra. cbn [bind].
    assert (0 < sk_b k / sk_esp k) by pm. assert (sk_b k / sk_esp k < 1). { apply Rmult_lt_reg_r with (sk_esp k); [lra|]. unfold Rdiv. rewrite Rmult_assoc, Rinv_l by lra. lra. }
    rewrite truncZ_pos by lra. rewrite (floorZ_unique _ 0) by lra. destruct (pdiv _ (sk_b k ^ 2)); [|reflexivity]. cbn [bind]. destruct (pdiv _ (IZR z0 * _ + _)); [|reflexivity]. cbn [bind].
    unfold pdiv. rewrite eqb_t by reflexivity. reflexivity. }
  unfold shear_flexibility. rewrite E. destruct (profile_distortion k); [|reflexivity]. cbn [bind]. destruct (shear_strain k); reflexivity.
Qed.
(** A diaphragm shorter than half a sheet has a negative seam flexibility. *)
Lemma narrow_refuted_lemma : forall k n c, skin_ok k -> (2 <= sk_nf k)%nat -> sk_a k < 1/2 * (sk_p k * INR (sk_nf k)) -> ns k = Some n -> (0 <= n)%Z -> nsc k = Some c -> (1 <= c)%Z ->
  exists x y z, fastener_deformation k = Some (x, y, z) /\ y < 0.
Proof.
  intros k n c (H1 & H2 & H3 & H4 & H5 & H6 & H7 & H8 & H9 & H10 & H11 & H12 & H13) Lf HA En Ln Ec Lc.
  assert (2 <= INR (sk_nf k)) by (apply (le_INR 2); auto). assert (PW : 0 < sk_p k * INR (sk_nf k)) by (apply Rmult_lt_0_compat; lra).
  assert (Q : 0 < sk_a k / (sk_p k * INR (sk_nf k)) < 1/2).
  { split; [pm|]. apply Rmult_lt_reg_r with (sk_p k * INR (sk_nf k)); [lra|]. unfold Rdiv at 1. rewrite Rmult_assoc, Rinv_l by lra. lra. }
  assert (R0 : roundZ (sk_a k / (sk_p k * INR (sk_nf k))) = 0%Z).
  { unfold roundZ. rewrite (floorZ_unique _ 0) by lra. destruct Rlt_dec; [reflexivity|lra]. }
  destruct (beta1_mono_lemma (sk_nf k) Lf) as [B1 B2]. assert (PB : 0 < beta1 (sk_nf k) (sk_trough k)) by (destruct (sk_trough k); lra).
  apply IZR_le in Ln. apply IZR_le in Lc. assert (Pb2 : 0 < sk_b k ^ 2) by pm.
  unfold fastener_deformation, nsh. rewrite pdiv_ok by lra. cbn [bind]. rewrite R0, En, Ec. cbn [bind]. do 3 (rewrite pdiv_ok by lra; cbn [bind]).
  eexists _, _, _. split; [reflexivity|]. assert (0 < / (IZR n * (35/100) + beta1 (sk_nf k) (sk_trough k) * (25/100))) by (apply Rinv_0_lt_compat; lra).
  unfold Rdiv. nra.
Qed.
