(** Concrete, creep and composite beams. *)
From Coq Require Import Rpower.
From Verif Require Import Base EC3_model EC3_proofs Bool_tac Sections_proofs Sections9_proofs Joint4_proofs Rhs3_proofs.
From Verif Require Import Comp_model Comp_spec.
Require Import Reals List Lra Lia Psatz.
Import ListNotations.
Local Open Scope R_scope.

Lemma some_injc : forall (x y : R), Some x = Some y -> x = y. Proof. intros x y H. now inversion H. Qed.
Lemma fck_range : forall g, 12 <= fck g <= 50. Proof. intros []; cbn; lra. Qed.
Lemma fcm_pos : forall g, 20 <= fcm g <= 58. Proof. intros g. unfold fcm. pose proof (fck_range g). lra. Qed.
Lemma Ecm_pos : forall g, 0 < Ecm g. Proof. intros g. unfold Ecm. apply Rmult_lt_0_compat; [lra|]. apply exp_pos. Qed.

(** x^0.3 against rational bounds. *)
Lemma pow03 : forall x y, 0 < x -> 0 < y -> (y ^ 10 <= x ^ 3 -> y <= Rpower x (3/10)) /\ (x ^ 3 <= y ^ 10 -> Rpower x (3/10) <= y).
Proof.
  intros x y Hx Hy.
  assert (E : Rpower x (3/10) = Rpower (x ^ 3) (1/10)).
  { rewrite <- (Rpower_pow 3) by auto. rewrite Rpower_mult. f_equal. cbn. lra. }
  assert (F : y = Rpower (y ^ 10) (1/10)).
  { rewrite <- (Rpower_pow 10) by auto. rewrite Rpower_mult. replace (INR 10 * (1 / 10)) with 1 by (cbn; lra). symmetry. apply Rpower_1. auto. }
  rewrite E. split; intros H.
  - rewrite F. apply Rle_Rpower_l; [lra|]. split; [apply pow_lt; auto|auto].
  - rewrite F. apply Rle_Rpower_l; [lra|]. split; [apply pow_lt; auto|auto].
Qed.
(** EN 1992-1-1 Table 3.1. *)
Lemma Ecm_table_lemma : forall g, Rabs (Ecm g - match g with C12 => 27000 | C16 => 29000 | C20 => 30000 | C25 => 31000 | C30 => 33000 | C35 => 34000
  | C40 => 35000 | C45 => 36000 | C50 => 37000 end) <= 500.
Proof.
  assert (K : forall x v lo hi, 0 < x -> 0 < lo -> 0 < hi -> lo ^ 10 <= x ^ 3 -> x ^ 3 <= hi ^ 10 -> v - 500 <= 22000 * lo -> 22000 * hi <= v + 500 ->
    Rabs (22000 * Rpower x (3/10) - v) <= 500).
  { intros x v lo hi Hx H1 H2 H3 H4 H5 H6. pose proof (proj1 (pow03 x lo Hx H1) H3). pose proof (proj2 (pow03 x hi Hx H2) H4). apply Rabs_le. lra. }
  intros []; unfold Ecm, fcm, fck.
  - apply (K _ _ (1227/1000) (125/100)); lra.
  - apply (K _ _ (1298/1000) (134/100)); lra.
  - apply (K _ _ (135/100) (138/100)); lra.
  - apply (K _ _ (142/100) (1431/1000)); lra.
  - apply (K _ _ (148/100) (152/100)); lra.
  - apply (K _ _ (153/100) (156/100)); lra.
  - apply (K _ _ (158/100) (161/100)); lra.
  - apply (K _ _ (162/100) (1655/1000)); lra.
  - apply (K _ _ (167/100) (17/10)); lra.
Qed.
Lemma strengths_lemma : forall g g', fck g < fck g' -> Ecm g < Ecm g' /\ (forall a, 0 < a -> cfcd g a < cfcd g' a) /\ nu_cracked g' < nu_cracked g /\ 0 < nu_cracked g' /\
  cfcd g 1 = 2/3 * fck g /\ cfcd g (85/100) = 17/30 * fck g.
Proof.
  intros g g' H. pose proof (fck_range g). pose proof (fck_range g'). unfold Ecm, cfcd, nu_cracked, fcm. repeat split; try lra.
  - apply Rmult_lt_compat_l; [lra|]. apply Rlt_Rpower_l; lra.
  - intros a Ha. unfold Rdiv. apply Rmult_lt_compat_r; [lra|]. apply Rmult_lt_compat_l; lra.
Qed.

(** ---- creep: EN 1992-1-1 Annex B, with factors 1 up to fcm = 35 MPa. *)
Definition annex_alpha (f y : R) : R := if Rle_dec f 35 then 1 else Rpower (35 / f) y.
Definition annex_B (f RH h0 t t0 : R) : R :=
  let phiRH := (1 + annex_alpha f (7/10) * ((1 - RH / 100) / (1/10 * Rpower h0 (1/3)))) * annex_alpha f (2/10) in
  let betaH := Rmin (3/2 * (1 + (12/1000 * RH) ^ 18) * h0 + 250 * annex_alpha f (1/2)) (1500 * annex_alpha f (1/2)) in
  phiRH * (168/10 / sqrt f) * (1 / (1/10 + Rpower t0 (1/5))) * Rpower ((t - t0) / (betaH + (t - t0))) (3/10).
Lemma annex_alpha_pos : forall f y, 0 < annex_alpha f y. Proof. intros. unfold annex_alpha. destruct Rle_dec; [lra|apply exp_pos]. Qed.
Definition betaH_ (f RH h0 : R) : R := Rmin (3/2 * (1 + (12/1000 * RH) ^ 18) * h0 + 250 * annex_alpha f (1/2)) (1500 * annex_alpha f (1/2)).
Lemma betaH_pos : forall f RH h0, 0 <= RH -> 0 < h0 -> 0 < betaH_ f RH h0.
Proof.
  intros f RH h0 H1 H2. unfold betaH_. pose proof (annex_alpha_pos f (1/2)). assert (0 <= (12/1000 * RH) ^ 18) by (apply pow_le; lra).
  apply Rmin_glb_lt; [|lra]. assert (0 < 3/2 * (1 + (12/1000 * RH) ^ 18) * h0) by (apply Rmult_lt_0_compat; [|lra]; lra). lra.
Qed.
Lemma creep_lemma : forall g RH h0 t t0, 0 <= RH <= 100 -> 0 < h0 -> 0 < t0 < t -> creep g RH h0 t t0 = Some (annex_B (fcm g) RH h0 t t0).
Proof.
  intros g RH h0 t t0 HR Hh Ht. pose proof (fcm_pos g) as F. unfold creep, phi_RH, beta_H, c_alpha, annex_B. fold (betaH_ (fcm g) RH h0).
  pose proof (betaH_pos (fcm g) RH h0 (proj1 HR) Hh) as PB.
  unfold ppow. rewrite !ltb_f by lra. rewrite !eqb_f by lra. cbn [bind].
  pose proof (exp_pos (1/3 * ln h0)) as P3. fold (Rpower h0 (1/3)) in P3.
  pose proof (exp_pos (2/10 * ln t0)) as P5. fold (Rpower t0 (2/10)) in P5.
  rewrite pdiv_ok by lra. cbn [bind]. rewrite pdiv_ok by lra. cbn [bind].
  assert (EB : (if Rleb (fcm g) 35 then Rmin (15 / 10 * (1 + (12 / 1000 * RH) ^ 18) * h0 + 250) 1500
    else Rmin (15 / 10 * (1 + (12 / 1000 * RH) ^ 18) * h0 + 250 * Rpower (35 / fcm g) (1/2)) (1500 * Rpower (35 / fcm g) (1/2))) = betaH_ (fcm g) RH h0).
  { unfold betaH_, annex_alpha. destruct Rle_dec; [rewrite leb_t by lra|rewrite leb_f by lra]; rewrite ?Rmult_1_r; replace (15/10) with (3/2) by lra; reflexivity. }
  rewrite EB. replace (betaH_ (fcm g) RH h0 + t - t0) with (betaH_ (fcm g) RH h0 + (t - t0)) by ring.
  rewrite pdiv_ok by lra. cbn [bind].
  assert (0 < (t - t0) / (betaH_ (fcm g) RH h0 + (t - t0))) by (apply Rdiv_lt_0_compat; lra).
  rewrite ltb_f, eqb_f by lra. cbn [bind]. apply f_equal. replace (2/10) with (1/5) in * by lra.
  f_equal. f_equal. f_equal. unfold annex_alpha. replace (2/10) with (1/5) by lra.
  destruct Rle_dec; [rewrite leb_t by lra|rewrite leb_f by lra]; field; lra.
Qed.
Lemma Rpower_pos : forall x y, 0 < Rpower x y. Proof. intros. apply exp_pos. Qed.
Lemma frac_mono : forall a b c d, 0 < a <= b -> 0 < d <= c -> a / (c + a) <= b / (d + b).
Proof.
  intros a b c d H1 H2. apply Rmult_le_reg_r with ((c + a) * (d + b)); [apply Rmult_lt_0_compat; lra|].
  replace (a / (c + a) * ((c + a) * (d + b))) with (a * (d + b)) by (field; lra).
  replace (b / (d + b) * ((c + a) * (d + b))) with (b * (c + a)) by (field; lra). nra.
Qed.
Lemma annex_mono : forall f RH RH' h0 h0' t t' t0 t0', 0 < f -> 0 <= RH' <= RH -> RH <= 100 -> 0 < h0' <= h0 -> 0 < t0' <= t0 -> t0 < t <= t' ->
  0 < annex_B f RH h0 t t0 <= annex_B f RH' h0' t' t0'.
Proof.
  intros f RH RH' h0 h0' t t' t0 t0' Hf H1 H2 H3 H4 H5.
  assert (MB : betaH_ f RH' h0' <= betaH_ f RH h0).
  { unfold betaH_. apply Rle_min_compat_r. assert ((12/1000 * RH') ^ 18 <= (12/1000 * RH) ^ 18) by (apply pow_incr; lra).
    assert (0 <= (12/1000 * RH') ^ 18) by (apply pow_le; lra).
    assert ((1 + (12/1000 * RH') ^ 18) * h0' <= (1 + (12/1000 * RH) ^ 18) * h0) by (apply Rmult_le_compat; lra). lra. }
  pose proof (betaH_pos f RH' h0' ltac:(lra) ltac:(lra)) as PB. pose proof (betaH_pos f RH h0 ltac:(lra) ltac:(lra)) as PB1.
  unfold annex_B. fold (betaH_ f RH h0) (betaH_ f RH' h0'). pose proof (sqrt_lt_R0 f Hf) as Sf.
  pose proof (annex_alpha_pos f (7/10)) as A1. pose proof (annex_alpha_pos f (2/10)) as A2.
  pose proof (Rpower_pos h0 (1/3)) as P1. pose proof (Rpower_pos h0' (1/3)) as P2. pose proof (Rpower_pos t0 (1/5)) as P3. pose proof (Rpower_pos t0' (1/5)) as P4.
  assert (C1 : Rpower h0' (1/3) <= Rpower h0 (1/3)) by (apply Rle_Rpower_l; lra). assert (C2 : Rpower t0' (1/5) <= Rpower t0 (1/5)) by (apply Rle_Rpower_l; lra).
  assert (X : 0 <= (1 - RH / 100) / (1/10 * Rpower h0 (1/3)) <= (1 - RH' / 100) / (1/10 * Rpower h0' (1/3))).
  { split. apply Rmult_le_pos; [lra|left; apply Rinv_0_lt_compat; lra]. apply Rmult_le_compat; [lra|left; apply Rinv_0_lt_compat; lra|lra|apply Rinv_le_contravar; lra]. }
  assert (Y : 0 < (t - t0) / (betaH_ f RH h0 + (t - t0)) <= (t' - t0') / (betaH_ f RH' h0' + (t' - t0'))).
  { split; [apply Rdiv_lt_0_compat; lra|]. apply frac_mono; lra. }
  assert (Z : 0 < 1 / (1/10 + Rpower t0 (1/5)) <= 1 / (1/10 + Rpower t0' (1/5))).
  { split; [apply Rdiv_lt_0_compat; lra|]. apply Rmult_le_compat_l; [lra|apply Rinv_le_contravar; lra]. }
  assert (0 < 168/10 / sqrt f) by (apply Rdiv_lt_0_compat; lra).
  assert (0 <= annex_alpha f (7/10) * ((1 - RH / 100) / (1/10 * Rpower h0 (1/3))) <= annex_alpha f (7/10) * ((1 - RH' / 100) / (1/10 * Rpower h0' (1/3)))).
  { split; [apply Rmult_le_pos; lra|apply Rmult_le_compat_l; lra]. }
  split.
  - repeat apply Rmult_lt_0_compat; try lra. apply Rpower_pos.
  - apply Rmult_le_compat.
    + repeat apply Rmult_le_pos; try lra.
    + left. apply Rpower_pos.
    + apply Rmult_le_compat; [repeat apply Rmult_le_pos; lra|lra| |lra]. apply Rmult_le_compat_r; [lra|]. apply Rmult_le_compat_r; lra.
    + apply Rle_Rpower_l; lra.
Qed.
Lemma creep_mono_lemma : forall g RH RH' h0 h0' t t' t0 t0', 0 <= RH' <= RH -> RH <= 100 -> 0 < h0' <= h0 -> 0 < t0' <= t0 -> t0 < t <= t' ->
  exists phi phi', creep g RH h0 t t0 = Some phi /\ creep g RH' h0' t' t0' = Some phi' /\ 0 < phi <= phi'.
Proof.
  intros g RH RH' h0 h0' t t' t0 t0' H1 H2 H3 H4 H5. pose proof (fcm_pos g).
  exists (annex_B (fcm g) RH h0 t t0), (annex_B (fcm g) RH' h0' t' t0'). rewrite !creep_lemma by lra. split; [reflexivity|]. split; [reflexivity|]. apply annex_mono; lra.
Qed.
Lemma creep_early_lemma : forall g RH h0 t t0, 0 <= RH <= 100 -> 0 < h0 -> 0 < t0 ->
  (t = t0 -> creep g RH h0 t t0 = Some 0) /\ (t0 - beta_H g RH h0 < t < t0 -> creep g RH h0 t t0 = None).
Proof.
  intros g RH h0 t t0 HR Hh Ht. pose proof (fcm_pos g) as F. unfold creep, phi_RH. unfold ppow. rewrite !ltb_f by lra. rewrite !eqb_f by lra. cbn [bind].
  pose proof (Rpower_pos h0 (1/3)) as P3. pose proof (Rpower_pos t0 (2/10)) as P5.
  rewrite !pdiv_ok by lra. cbn [bind].
  assert (PB : 0 < beta_H g RH h0).
  { pose proof (betaH_pos (fcm g) RH h0 (proj1 HR) Hh) as PB. unfold betaH_, annex_alpha in PB. unfold beta_H, c_alpha. replace (15/10) with (3/2) by lra.
    destruct Rle_dec; [rewrite leb_t by lra|rewrite leb_f by lra]; rewrite ?Rmult_1_r in PB; exact PB. }
  split.
  - intros ->. rewrite pdiv_ok by lra. cbn [bind]. replace ((t0 - t0) / (beta_H g RH h0 + t0 - t0)) with 0 by (field; lra).
    rewrite ltb_f by lra. rewrite eqb_t by lra. cbn [bind]. apply f_equal. ring.
  - intros H. rewrite pdiv_ok by lra. cbn [bind]. rewrite ltb_t; [reflexivity|]. unfold Rdiv.
    assert (0 < / (beta_H g RH h0 + t - t0)) by (apply Rinv_0_lt_compat; lra). nra.
Qed.

(** ---- composite beams, elastic. *)
Ltac pm := first [assumption | lra | apply pow_lt; pm | apply Rdiv_lt_0_compat; pm | apply Rmult_lt_0_compat; pm].
Lemma Ec_lemma : forall c, 0 <= m_RH c <= 100 -> 0 < l_hc (m_slab c) -> 0 < m_t0 c < 10 ^ 8 ->
  exists e, Ec c Creep = Some e /\ 0 < e < Ecm (l_g (m_slab c)).
Proof.
  intros c H1 H2 H3. unfold Ec, m_creep. unfold l_h0. rewrite creep_lemma by lra. cbn [bind].
  pose proof (annex_mono (fcm (l_g (m_slab c))) (m_RH c) (m_RH c) (2 * l_hc (m_slab c)) (2 * l_hc (m_slab c)) (10 ^ 8) (10 ^ 8) (m_t0 c) (m_t0 c)) as P.
  pose proof (fcm_pos (l_g (m_slab c))). destruct P as [P _]; try lra. set (phi := annex_B _ _ _ _ _) in *. clearbody phi.
  pose proof (Ecm_pos (l_g (m_slab c))) as E. rewrite pdiv_ok by lra. eexists. split; [reflexivity|]. split.
  - apply Rdiv_lt_0_compat; lra.
  - apply Rmult_lt_reg_r with (1 + 11/10 * phi); [lra|]. unfold Rdiv. rewrite Rmult_assoc, Rinv_l by lra. nra.
Qed.
Lemma elastic_lemma : forall c lt e, beam_ok c -> Ec c lt = Some e -> 0 < e ->
  let EAc := e * m_Ac c in let EIc := e * m_Ic c in let a := m_ya c - m_yc c in
  exists y EI, centroid c lt = Some y /\ m_yc c < y < m_ya c /\ m_EAa c * (m_ya c - y) = EAc * (y - m_yc c) /\
    EIcom c lt = Some EI /\ EI = m_EIa c + EIc + m_EAa c * EAc / (m_EAa c + EAc) * a ^ 2 /\ m_EIa c + EIc < EI.
Proof.
  intros c lt e (H1 & H2 & H3 & H4 & H5 & H6 & H7 & H8 & H9 & H10 & H11 & H12) Ee Pe EAc EIc a.
  assert (PA : 0 < m_EAa c) by (unfold m_EAa; apply Rmult_lt_0_compat; lra).
  assert (PC : 0 < EAc) by (unfold EAc, m_Ac; repeat apply Rmult_lt_0_compat; lra).
  assert (Pa : 0 < a) by (unfold a, m_ya, m_yc, l_h; lra).
  set (y := (m_EAa c * m_ya c + EAc * m_yc c) / (m_EAa c + EAc)).
  assert (Y1 : m_ya c - y = EAc / (m_EAa c + EAc) * a) by (unfold y, a; field; lra).
  assert (Y2 : y - m_yc c = m_EAa c / (m_EAa c + EAc) * a) by (unfold y, a; field; lra).
  assert (0 < EAc / (m_EAa c + EAc) * a) by (apply Rmult_lt_0_compat; [apply Rdiv_lt_0_compat|]; lra).
  assert (0 < m_EAa c / (m_EAa c + EAc) * a) by (apply Rmult_lt_0_compat; [apply Rdiv_lt_0_compat|]; lra).
  assert (Cy : centroid c lt = Some y). { unfold centroid, EAcom. rewrite Ee. cbn [bind]. fold EAc. rewrite pdiv_ok by lra. reflexivity. }
  exists y, (m_EIa c + EIc + m_EAa c * EAc / (m_EAa c + EAc) * a ^ 2). split; [exact Cy|]. split; [lra|]. split; [rewrite Y1, Y2; field; lra|]. split.
  - unfold EIcom, ya_com, yc_com. rewrite Ee, Cy. cbn [bind]. apply f_equal. rewrite <- !Rsqr_pow2, <- !Rsqr_abs, !Rsqr_pow2. 
    replace ((m_yc c - y) ^ 2) with ((y - m_yc c) ^ 2) by ring. rewrite Y1, Y2.
    unfold m_EAa, EAc, EIc, m_EIa in *. field. lra.
  - split; [reflexivity|]. assert (0 < m_EAa c * EAc / (m_EAa c + EAc) * a ^ 2); [|lra].
    apply Rmult_lt_0_compat; [apply Rdiv_lt_0_compat; [apply Rmult_lt_0_compat|]; lra|apply pow_lt; lra].
Qed.
Lemma composite_coefficient_lemma : forall c, beam_ok c -> exists al EI, composite_coefficient c = Some al /\ 0 < al /\
  EIcom c Short = Some EI /\ EI = (1 + al) * (m_EIa c + Ecm (l_g (m_slab c)) * m_Ic c).
Proof.
  intros c OK. destruct (elastic_lemma c Short (Ecm (l_g (m_slab c))) OK eq_refl (Ecm_pos _)) as (y & EI & _ & _ & _ & E1 & E2 & E3).
  destruct OK as (H1 & H2 & H3 & H4 & H5 & H6 & H7 & H8 & H9 & H10 & H11 & H12). pose proof (Ecm_pos (l_g (m_slab c))) as PE.
  assert (PA : 0 < m_EAa c) by (unfold m_EAa; apply Rmult_lt_0_compat; lra).
  assert (PC : 0 < Ecm (l_g (m_slab c)) * m_Ac c) by (unfold m_Ac; pm).
  assert (PI1 : 0 < m_EIa c) by (unfold m_EIa; apply Rmult_lt_0_compat; lra).
  assert (PI2 : 0 < Ecm (l_g (m_slab c)) * m_Ic c) by (unfold m_Ic; pm).
  unfold composite_coefficient. rewrite pdiv_ok by lra. cbn [bind]. rewrite pdiv_ok by lra. eexists _, EI. split; [reflexivity|].
  split; [|split; [exact E1|]].
  - unfold distance_centroids. assert (0 < m_ya c - m_yc c) by (unfold m_ya, m_yc, l_h; lra).
    apply Rdiv_lt_0_compat; [|lra]. apply Rdiv_lt_0_compat; [|lra]. pm.
  - rewrite E2. unfold distance_centroids. field. lra.
Qed.
Lemma creep_stiffness_lemma : forall c, beam_ok c -> 0 <= m_RH c <= 100 -> 0 < m_t0 c < 10 ^ 8 ->
  exists E1 E2 y1 y2, EIcom c Short = Some E1 /\ EIcom c Creep = Some E2 /\ 0 < E2 < E1 /\
    centroid c Short = Some y1 /\ centroid c Creep = Some y2 /\ y1 < y2.
Proof.
  intros c OK HR Ht. destruct (Ec_lemma c HR (proj1 (proj2 OK)) Ht) as (e & Ee & P1 & P2).
  destruct (elastic_lemma c Short (Ecm (l_g (m_slab c))) OK eq_refl (Ecm_pos _)) as (y & EI & C1 & B1 & Q1 & D1 & D2 & D3).
  destruct (elastic_lemma c Creep e OK Ee P1) as (y' & EI' & C1' & B1' & Q1' & D1' & D2' & D3').
  destruct OK as (H1 & H2 & H3 & H4 & H5 & H6 & H7 & H8 & H9 & H10 & H11 & H12).
  assert (PA : 0 < m_EAa c) by (unfold m_EAa; apply Rmult_lt_0_compat; lra).
  assert (PC : 0 < m_Ac c) by (unfold m_Ac; pm).
  assert (PI1 : 0 < m_EIa c) by (unfold m_EIa; apply Rmult_lt_0_compat; lra).
  assert (PI2 : 0 < m_Ic c) by (unfold m_Ic; pm).
  set (E0 := Ecm (l_g (m_slab c))) in *. exists EI, EI', y, y'. split; [exact D1|]. split; [exact D1'|]. split; [|split; [exact C1|split; [exact C1'|]]].
  - split; [assert (0 < e * m_Ic c) by (apply Rmult_lt_0_compat; lra); lra|]. rewrite D2, D2'.
    assert (e * m_Ic c < E0 * m_Ic c) by (apply Rmult_lt_compat_r; lra).
    assert (K : m_EAa c * (e * m_Ac c) / (m_EAa c + e * m_Ac c) <= m_EAa c * (E0 * m_Ac c) / (m_EAa c + E0 * m_Ac c)).
    { assert (0 < e * m_Ac c) by (apply Rmult_lt_0_compat; lra). assert (e * m_Ac c < E0 * m_Ac c) by (apply Rmult_lt_compat_r; lra).
      pose proof (frac_mono (e * m_Ac c) (E0 * m_Ac c) (m_EAa c) (m_EAa c) ltac:(lra) ltac:(lra)) as FM. pose proof (Rmult_le_compat_l (m_EAa c) _ _ ltac:(lra) FM). unfold Rdiv in *. rewrite !(Rmult_assoc (m_EAa c)). lra. }
    assert (0 <= (m_ya c - m_yc c) ^ 2) by apply pow2_ge_0. pose proof (Rmult_le_compat_r _ _ _ H0 K). lra.
  - destruct (Rlt_le_dec y y') as [|N]; auto. exfalso.
    assert (0 < e * m_Ac c) by (apply Rmult_lt_0_compat; lra). assert (e * m_Ac c < E0 * m_Ac c) by (apply Rmult_lt_compat_r; lra).
    assert (m_EAa c * (m_ya c - y) <= m_EAa c * (m_ya c - y')) by (apply Rmult_le_compat_l; lra).
    assert (e * m_Ac c * (y' - m_yc c) < E0 * m_Ac c * (y - m_yc c)); [|lra]. nra.
Qed.
Lemma modular_lemma : forall c, 0 < i_E (m_s c) -> 0 <= m_RH c <= 100 -> 0 < l_hc (m_slab c) -> 0 < m_t0 c < 10 ^ 8 ->
  exists e es n0 nC nS, Ec c Creep = Some e /\ Ecs c = Some es /\ n_ratio c (Ecm (l_g (m_slab c))) = Some n0 /\ n_ratio c e = Some nC /\ n_ratio c es = Some nS /\
   0 < n0 < nC /\ n0 < nS.
Proof.
  intros c HE HR Hh Ht. destruct (Ec_lemma c HR Hh Ht) as (e & Ee & P1 & P2). pose proof (Ecm_pos (l_g (m_slab c))) as PE. pose proof (fcm_pos (l_g (m_slab c))).
  destruct (creep_mono_lemma (l_g (m_slab c)) (m_RH c) (m_RH c) (l_h0 (m_slab c)) (l_h0 (m_slab c)) (10 ^ 8) (10 ^ 8) 1 1) as (phi & _ & Ep & _ & Pp & _); unfold l_h0; try lra.
  unfold Ecs, m_creep. rewrite Ep. cbn [bind]. rewrite pdiv_ok by lra.
  assert (D : forall x, 0 < x < Ecm (l_g (m_slab c)) -> i_E (m_s c) / Ecm (l_g (m_slab c)) < i_E (m_s c) / x).
  { intros x Hx. apply Rmult_lt_compat_l; [lra|]. apply Rinv_lt_contravar; [apply Rmult_lt_0_compat; lra|lra]. }
  assert (S1 : 0 < Ecm (l_g (m_slab c)) / (1 + 55/100 * phi) < Ecm (l_g (m_slab c))).
  { split; [apply Rdiv_lt_0_compat; lra|]. apply Rmult_lt_reg_r with (1 + 55/100 * phi); [lra|]. unfold Rdiv. rewrite Rmult_assoc, Rinv_l by lra. nra. }
  unfold n_ratio. eexists e, _, _, _, _. split; [exact Ee|]. split; [reflexivity|]. rewrite !pdiv_ok by lra. repeat (split; [reflexivity|]).
  split; [split; [apply Rdiv_lt_0_compat; lra|]|]; apply D; lra.
Qed.
