(** Proofs about end plate joints: compression side, stiffness, shear, geometry. *)
From Coq Require Import Rpower.
From Verif Require Import Base EC3_model Bool_tac EC3_proofs Plate_proofs Sections_proofs Cold_proofs Joint_model Joint_proofs.
From Verif Require Import Epj_model Epj_spec Epj_proofs Epj2_proofs.
Require Import Reals List Bool Lra Lia Psatz PeanoNat.
Import ListNotations.
Local Open Scope R_scope.

Lemma col_shear_en c : col_web_shear c = en_web_shear (s_fy c) (s_Av c).
Proof. unfold col_web_shear, en_web_shear, gammaM0; assert (0 < sqrt 3) by (apply sqrt_lt_R0; lra); field; lra. Qed.
Lemma web_plain_lemma c b top bot : top = None \/ bot = None -> V_wp c b top bot = Some (en_web_shear (s_fy c) (s_Av c)).
Proof.
  intros H; unfold V_wp; rewrite col_shear_en, Rmin_left, Rplus_0_r by lra.
  destruct H as [->| ->]; [reflexivity|destruct top; reflexivity].
Qed.
Lemma web_stiff_lemma c b pt pb ds M Mt Mb : ds = s_h b - s_tf b -> 0 < ds ->
  M = s_b c * s_tf c ^ 2 * s_fy c / 4 -> Mt = s_b c * sp_t pt ^ 2 * sp_fy pt / 4 -> Mb = s_b c * sp_t pb ^ 2 * sp_fy pb / 4 ->
  0 < M -> 0 <= Mt -> 0 <= Mb ->
  exists V, V_wp c b (Some pt) (Some pb) = Some V /\
    V = en_web_shear (s_fy c) (s_Av c) + Rmin (4 * M) ((2 * M + Mt + Mb) / ds) /\
    (1 <= ds -> Mt + Mb <= 2 * M -> V = en_web_shear (s_fy c) (s_Av c) + en_web_add M Mt Mb ds) /\
    (1 < ds -> 2 * M < Mt + Mb -> en_web_shear (s_fy c) (s_Av c) + en_web_add M Mt Mb ds < V).
Proof.
  intros Hds Hp HM HMt HMb HM0 Ht Hb.
  assert (E : V_wp c b (Some pt) (Some pb) = Some (en_web_shear (s_fy c) (s_Av c) + Rmin (4 * M) ((2 * M + Mt + Mb) / ds))).
  { unfold V_wp; rewrite <- Hds, pdiv_ok by lra; cbn [bind]; rewrite col_shear_en.
    assert (E1 : Mpl_fc c = M) by (unfold Mpl_fc, gammaM0; rewrite HM; field).
    assert (E2 : Mpl_st c (sp_t pt) (sp_fy pt) = Mt) by (unfold Mpl_st, gammaM0; rewrite HMt; field).
    assert (E3 : Mpl_st c (sp_t pb) (sp_fy pb) = Mb) by (unfold Mpl_st, gammaM0; rewrite HMb; field).
    rewrite E1, E2, E3; reflexivity. }
  eexists; split; [exact E|split; [reflexivity|]].
  assert (Q : (2 * M + Mt + Mb) / ds * ds = 2 * M + Mt + Mb) by (field; lra).
  assert (Q4 : 4 * M / ds * ds = 4 * M) by (field; lra).
  set (q := (2 * M + Mt + Mb) / ds) in *; set (q4 := 4 * M / ds) in *.
  unfold en_web_add; fold q q4; split; intros H1 H2.
  - rewrite (Rmin_right q4 q) by nra; rewrite Rmin_right; [reflexivity|].
    assert (0 < q) by nra; nra.
  - assert (q4 < q) by nra; assert (0 < q4) by nra; assert (q4 < 4 * M) by nra.
    rewrite (Rmin_left q4 q) by lra; pose proof (Rmin_glb_lt (4 * M) q q4 ltac:(lra) ltac:(lra)); lra.
Qed.
Lemma fcom_lemma c b eps tp lo a beta sigma MRd top V Fw : beta <> 0 -> s_h b <> s_tf b ->
  V_wp c b top None = Some V -> col_web_trv_comp c b tp lo a beta sigma = Some Fw ->
  Fcom_Rd c b eps tp lo a beta sigma MRd top None = Some (Rmin (Rmin (V / beta) Fw) (MRd / (s_h b - s_tf b))).
Proof.
  intros Hb Hh HV HF; unfold Fcom_Rd, Fc_wc; rewrite HV; cbn [bind]; rewrite HF; cbn [bind].
  unfold beam_web_compression; rewrite pdiv_ok by lra; cbn [bind]; rewrite pdiv_ok by auto; reflexivity.
Qed.
Lemma fcom_stiff_lemma c b eps tp lo a beta sigma MRd top t flange :
  Fcom_Rd c b eps tp lo a beta sigma MRd top (Some (stiffener_plate flange c b t)) = None.
Proof. unfold Fcom_Rd; destruct (V_wp c b top (Some (stiffener_plate flange c b t))); reflexivity. Qed.

Lemma stiff_ok eps tw bs t lcr fy : 0 < eps -> 0 < tw -> 0 < bs -> 0 < t ->
  lcr <= 2/10 * (939/10 * eps) * sqrt ((2 * bs + tw) ^ 3 * t / 12 / ((30 * eps * tw + t) * tw + 2 * bs * t)) ->
  col_web_stiffened eps tw bs t lcr fy = Some (((30 * eps * tw + t) * tw + 2 * bs * t) * fy).
Proof.
  intros He Htw Hbs Ht Hl; unfold col_web_stiffened.
  assert (HA : 0 < (30 * eps * tw + t) * tw + 2 * bs * t) by (assert (0 < eps * tw) by nra; nra).
  assert (HI : 0 < (2 * bs + tw) ^ 3 * t / 12).
  { assert (0 < (2 * bs + tw) ^ 3) by (apply pow_lt; lra); nra. }
  set (A := (30 * eps * tw + t) * tw + 2 * bs * t) in *; set (J := (2 * bs + tw) ^ 3 * t / 12) in *.
  assert (HQ : 0 < J / A) by (apply Rdiv_lt_0_compat; auto).
  rewrite pdiv_ok by lra; cbn [bind]; rewrite psqrt_ok by lra; cbn [bind].
  assert (HS : 0 < sqrt (J / A)) by (apply sqrt_lt_R0; auto).
  rewrite pdiv_ok by lra; cbn [bind]; rewrite pdiv_ok by lra; cbn [bind].
  assert (L : lcr / sqrt (J / A) / (939/10 * eps) <= 2/10).
  { apply Rmult_le_reg_r with (939/10 * eps); [lra|]; unfold Rdiv at 1; rewrite Rmult_assoc, Rinv_l, Rmult_1_r by lra.
    apply Rmult_le_reg_r with (sqrt (J / A)); [lra|]; unfold Rdiv at 1; rewrite Rmult_assoc, Rinv_l, Rmult_1_r by lra; lra. }
  destruct (Rltb (2/10) _) eqn:E; [apply Rltb_true in E; lra|]; unfold gammaM0; f_equal; field.
Qed.
Lemma stiff_swap_lemma c b eps tp lo a beta sigma t out clear : 
  out = (s_b c - s_tw c) / 2 -> clear = s_h c - 2 * s_tf c -> 0 < eps -> 0 < s_tw c -> 0 < t -> 0 < out < clear ->
  clear <= 18 * eps * sqrt ((2 * out + s_tw c) ^ 3 * t / 12 / ((30 * eps * s_tw c + t) * s_tw c + 2 * out * t)) ->
  out <= 18 * eps * sqrt ((2 * clear + s_tw c) ^ 3 * t / 12 / ((30 * eps * s_tw c + t) * s_tw c + 2 * clear * t)) ->
  sp_b (stiffener_plate true c b t) = clear /\ sp_h (stiffener_plate true c b t) = out /\
  col_web_stiffened eps (s_tw c) out t clear (s_fy c) = Some (((30 * eps * s_tw c + t) * s_tw c + 2 * out * t) * s_fy c) /\
  Fc_wc c b eps tp lo a beta sigma (Some (with_khp (stiffener_plate true c b t) t)) =
    Some (((30 * eps * s_tw c + t) * s_tw c + 2 * clear * t) * s_fy c).
Proof.
  intros Ho Hc He Htw Ht Hoc H1 H2.
  assert (Eb : sp_b (stiffener_plate true c b t) = clear) by (cbn; lra).
  assert (Eh : sp_h (stiffener_plate true c b t) = out) by (cbn; lra).
  split; [exact Eb|split; [exact Eh|split]].
  - apply stiff_ok; [lra|lra|lra|lra|]; apply (Rle_trans _ _ _ H1), Rmult_le_compat_r; [apply sqrt_pos|lra].
  - unfold Fc_wc, with_khp; cbn [sp_khp sp_b sp_h sp_fy bind]; rewrite Eb, Eh; cbn [stiffener_plate sp_fy].
    apply stiff_ok; [lra|lra|lra|lra|]; apply (Rle_trans _ _ _ H2), Rmult_le_compat_r; [apply sqrt_pos|lra].
Qed.

(** Stiffness. *)
Lemma sumkh_eq l : sum_kh (tension_part l) = ksum1 l. Proof. reflexivity. Qed.
Lemma sumkh2_eq l : sum_kh2 (tension_part l) = ksum2 l.
Proof. unfold sum_kh2, ksum2; f_equal; apply map_ext; intros; ring. Qed.
Lemma sums_pos l : proper_rows l -> tension_part l <> [] -> 0 < ksum0 l /\ 0 < ksum1 l /\ 0 < ksum2 l.
Proof.
  unfold proper_rows, ksum0, ksum1, ksum2, tension_part; intros H Hne.
  assert (Hf : Forall (fun r => 0 < er_k r /\ 0 < er_h r) (filter (fun r => negb (er_shear r)) l)).
  { apply Forall_forall; intros r Hr; apply filter_In in Hr; destruct Hr as [Hr Hs]; rewrite Forall_forall in H; apply H; auto.
    destruct (er_shear r); [discriminate|reflexivity]. }
  destruct (filter _ l) as [|r t]; [congruence|]; clear Hne H.
  inversion Hf; subst; cbn [map]; rewrite !Rsum_cons.
  assert (P : 0 <= Rsum (map er_k t) /\ 0 <= Rsum (map (fun r => er_k r * er_h r) t) /\ 0 <= Rsum (map (fun r => er_k r * er_h r * er_h r) t)).
  { clear -H2; induction H2 as [|r t [Hk Hh] Ht IH]; cbn [map]; rewrite ?Rsum_cons; [cbn; lra|].
    assert (0 < er_k r * er_h r) by nra; assert (0 < er_k r * er_h r * er_h r) by nra; lra. }
  destruct H1; assert (0 < er_k r * er_h r) by nra; assert (0 < er_k r * er_h r * er_h r) by nra; lra.
Qed.
Lemma cauchy_rows l : proper_rows l -> ksum1 l * ksum1 l <= ksum0 l * ksum2 l.
Proof.
  unfold proper_rows, ksum0, ksum1, ksum2, tension_part; intros H.
  induction H as [|r t Hr Ht IH]; cbn [filter map]; [cbn; lra|].
  destruct (er_shear r) eqn:E; cbn [negb map]; [exact IH|]; rewrite !Rsum_cons.
  destruct (Hr eq_refl) as [Hk Hh].
  assert (P : forall x, 0 <= Rsum (map (fun r => er_k r * er_h r * er_h r) (filter (fun r => negb (er_shear r)) t)) - 2 * x * Rsum (map (fun r => er_k r * er_h r) (filter (fun r => negb (er_shear r)) t)) + x * x * Rsum (map er_k (filter (fun r => negb (er_shear r)) t))).
  { intros x; clear -Ht; induction Ht as [|r t Hr Ht IH]; cbn [filter map]; [cbn; lra|].
    destruct (er_shear r); cbn [negb map]; [exact IH|]; rewrite !Rsum_cons; destruct (Hr eq_refl).
    assert (0 <= er_k r * ((er_h r - x) * (er_h r - x))) by (apply Rmult_le_pos; [lra|apply Rle_0_sqr]); lra. }
  specialize (P (er_h r)).
  set (a := Rsum (map er_k _)) in *; set (b := Rsum (map (fun r => er_k r * er_h r) _)) in *; set (d := Rsum (map (fun r => er_k r * er_h r * er_h r) _)) in *.
  set (k := er_k r) in *; set (h := er_h r) in *; nra.
Qed.
Lemma zeq_lemma l : proper_rows l -> tension_part l <> [] ->
  exists z k, zeq l = Some z /\ zeq_keq l = Some (z, k) /\ 0 < z /\ 0 < k /\
    z = ksum2 l / ksum1 l /\ k * z = ksum1 l /\ k * (z * z) = ksum2 l /\ k <= ksum0 l /\
    (forall lo hi, Forall (fun r => er_shear r = false -> lo <= er_h r <= hi) l -> lo <= z <= hi) /\
    keq l = Some (k + Rsum (map (fun r => er_k r * er_h r) (shear_part l)) / z).
Proof.
  intros H Hne; destruct (sums_pos l H Hne) as (P0 & P1 & P2).
  pose proof (cauchy_rows l H) as CS.
  assert (Ez : zeq l = Some (ksum2 l / ksum1 l)).
  { unfold zeq; change (filter (fun r => negb (er_shear r)) l) with (tension_part l); rewrite sumkh_eq, sumkh2_eq, pdiv_ok by lra; reflexivity. }
  set (z := ksum2 l / ksum1 l) in *.
  assert (Hz : 0 < z) by (apply Rdiv_lt_0_compat; auto).
  assert (Z1 : z * ksum1 l = ksum2 l) by (unfold z; field; lra).
  set (k := ksum1 l / z).
  assert (K1 : k * z = ksum1 l) by (unfold k; field; lra).
  assert (Hk : 0 < k) by (apply Rdiv_lt_0_compat; auto).
  exists z, k; split; [exact Ez|split].
  { unfold zeq_keq; change (filter (fun r => negb (er_shear r)) l) with (tension_part l); rewrite sumkh_eq, sumkh2_eq, pdiv_ok by lra; cbn [bind].
    fold z; rewrite pdiv_ok by lra; reflexivity. }
  split; [exact Hz|split; [exact Hk|split; [reflexivity|split; [exact K1|split; [nra|split]]]]].
  { assert (k * ksum2 l <= ksum0 l * ksum2 l) by (replace (k * ksum2 l) with (ksum1 l * ksum1 l) by (rewrite <- Z1, <- K1; ring); exact CS).
    nra. }
  split.
  - intros lo hi Hb.
    assert (B : lo * ksum1 l <= ksum2 l <= hi * ksum1 l).
    { clear -H Hb; unfold ksum1, ksum2, tension_part; unfold proper_rows in H; induction H as [|r t Hr Ht IH]; cbn [filter map]; [cbn; lra|].
      inversion Hb; subst; specialize (IH H2); destruct (er_shear r); cbn [negb map]; [exact IH|]; rewrite !Rsum_cons.
      destruct (Hr eq_refl); destruct (H1 eq_refl); assert (0 < er_k r * er_h r) by nra; nra. }
    split; [apply Rmult_le_reg_r with (ksum1 l); lra|apply Rmult_le_reg_r with (ksum1 l); lra].
  - unfold keq; rewrite Ez; cbn [bind]; rewrite pdiv_ok by lra; f_equal.
    assert (Es : sum_kh l = ksum1 l + Rsum (map (fun r => er_k r * er_h r) (shear_part l))).
    { clear; unfold sum_kh, ksum1, tension_part, shear_part; induction l as [|r t IH]; cbn [filter map]; [cbn; lra|].
      rewrite Rsum_cons, IH; destruct (er_shear r); cbn [negb map]; rewrite Rsum_cons; lra. }
    rewrite Es; unfold k; field; lra.
Qed.
Lemma count_part l : tension_rows l = length (tension_part l). Proof. reflexivity. Qed.
Lemma sj_lemma c b tp lo a beta bot l : proper_rows l -> (2 <= length (tension_part l))%nat ->
  0 < s_Av c -> 0 < beta -> 0 < s_tw c -> 0 < s_hw c -> 0 < beff_c c b tp lo a -> 0 < s_E c ->
  exists z k S0, zeq_keq l = Some (z, k) /\ Sj_ini c b tp lo a beta bot l = Some S0 /\
    S0 = s_E c * z ^ 2 / (beta * z / (38/100 * s_Av c) +
      match bot with None => s_hw c / (7/10 * beff_c c b tp lo a * s_tw c) | Some _ => 0 end + 1 / k) /\
    0 < S0 < s_E c * ksum2 l.
Proof.
  intros H Hlen HA Hb Htw Hhw Hbe HE.
  assert (Hne : tension_part l <> []) by (destruct (tension_part l); [cbn in Hlen; lia|discriminate]).
  destruct (zeq_lemma l H Hne) as (z & k & _ & Ezk & Hz & Hk & _ & _ & K2 & _).
  exists z, k.
  assert (Hk1 : 0 < 38/100 * s_Av c / beta / z) by (apply Rdiv_lt_0_compat; auto; apply Rdiv_lt_0_compat; lra).
  assert (E1 : col_web_shear_k c beta z = Some (38/100 * s_Av c / beta / z)).
  { unfold col_web_shear_k; rewrite pdiv_ok by lra; cbn [bind]; rewrite pdiv_ok by lra; reflexivity. }
  set (i1 := 1 / (38/100 * s_Av c / beta / z)).
  assert (Hi1 : i1 = beta * z / (38/100 * s_Av c)) by (unfold i1; field; lra).
  assert (Hi1p : 0 < i1) by (apply Rdiv_lt_0_compat; lra).
  set (i2 := match bot with None => s_hw c / (7/10 * beff_c c b tp lo a * s_tw c) | Some _ => 0 end).
  assert (Hi2 : 0 <= i2).
  { unfold i2; destruct bot; [lra|]; left; apply Rdiv_lt_0_compat; auto; apply Rmult_lt_0_compat; auto; lra. }
  assert (EC : k_comp c b tp lo a beta z bot = Some (1 / (i1 + i2))).
  { unfold k_comp; rewrite E1; cbn [bind]; rewrite pdiv_ok by lra; cbn [bind]; fold i1; unfold k2_factor, i2; destruct bot.
    - rewrite pdiv_ok by lra; rewrite Rplus_0_r; reflexivity.
    - assert (P2 : 0 < 7/10 * beff_c c b tp lo a * s_tw c) by (apply Rmult_lt_0_compat; auto; lra).
      unfold col_web_k; rewrite pdiv_ok by lra; cbn [bind].
      assert (P3 : 0 < 7/10 * beff_c c b tp lo a * s_tw c / s_hw c) by (apply Rdiv_lt_0_compat; auto).
      rewrite pdiv_ok by lra; cbn [bind].
      replace (1 / (7/10 * beff_c c b tp lo a * s_tw c / s_hw c)) with (s_hw c / (7/10 * beff_c c b tp lo a * s_tw c)) by (field; lra).
      rewrite pdiv_ok; [reflexivity|]; unfold i2 in Hi2; lra. }
  assert (Ik : 0 < 1 / k) by (apply Rdiv_lt_0_compat; lra).
  exists (s_E c * z ^ 2 / (i1 + i2 + 1 / k)); split; [exact Ezk|split; [|split; [rewrite Hi1; reflexivity|]]].
  - unfold Sj_ini; rewrite count_part; destruct (Nat.eqb_spec (length (tension_part l)) 1) as [E|_]; [lia|].
    rewrite Ezk; cbn [option_map bind fst snd]; rewrite EC; cbn [bind].
    assert (0 < 1 / (i1 + i2)) by (apply Rdiv_lt_0_compat; lra).
    rewrite pdiv_ok by lra; cbn [bind]; rewrite pdiv_ok by lra; cbn [bind].
    replace (1 / (1 / (i1 + i2))) with (i1 + i2) by (field; lra).
    rewrite pdiv_ok by lra; reflexivity.
  - assert (Pz : 0 < z ^ 2) by (apply pow_lt; auto); assert (Pn : 0 < s_E c * z ^ 2) by (apply Rmult_lt_0_compat; auto).
    split; [apply Rdiv_lt_0_compat; lra|].
    replace (s_E c * ksum2 l) with (s_E c * z ^ 2 / (1 / k)) by (rewrite <- K2; field; lra).
    unfold Rdiv at 1 3; apply Rmult_lt_compat_l; auto; apply Rinv_lt_contravar; [apply Rmult_lt_0_compat; lra|lra].
Qed.
Lemma sj_one_lemma c b tp lo a beta bot l : length (tension_part l) = 1%nat -> Sj_ini c b tp lo a beta bot l = None.
Proof.
  intros H; unfold Sj_ini; rewrite count_part, H; cbn [Nat.eqb]; destruct (moment_arm l); cbn [option_map bind fst snd]; auto.
  destruct (k_comp c b tp lo a beta r bot); cbn [bind]; auto; destruct (pdiv 1 r0); reflexivity.
Qed.

(** Rotational stiffness. *)
Lemma mu_en r : stiffness_ratio r (27/10) = en_mu r.
Proof.
  unfold stiffness_ratio, en_mu; destruct (Rleb r (2/3)); auto.
  replace (15/10 * r) with (3/2 * r) by lra; reflexivity.
Qed.
Lemma mu_pos r : 0 < en_mu r. Proof. unfold en_mu; destruct (Rleb r (2/3)); [lra|apply exp_pos]. Qed.
Lemma rot_lemma M MRd S0 : 0 < MRd -> rot_stiffness M MRd S0 = Some (S0 / en_mu (M * 1000000 / MRd)).
Proof.
  intros H; unfold rot_stiffness; rewrite pdiv_ok by lra; cbn [bind]; rewrite mu_en.
  replace (M / (MRd * (1 / 1000000))) with (M * 1000000 / MRd) by (field; lra).
  pose proof (mu_pos (M * 1000000 / MRd)); rewrite pdiv_ok by lra; reflexivity.
Qed.
Lemma mu_mono a b : 2/3 < b -> a < b -> en_mu a < en_mu b.
Proof.
  intros Hb Hab; unfold en_mu; destruct (Rleb b (2/3)) eqn:E; [apply Rleb_true in E; lra|].
  destruct (Rleb a (2/3)) eqn:E2.
  - rewrite <- (Rpower_O (3/2 * b)) by lra; apply Rpower_lt; lra.
  - apply Rleb_false in E2; unfold Rpower; apply exp_increasing; apply Rmult_lt_compat_l; [lra|]; apply ln_increasing; lra.
Qed.
Lemma rot_unit_lemma M MRd S0 : 0 < MRd -> 0 < S0 -> MRd < 1500000 * M ->
  exists S, rot_stiffness M MRd S0 = Some S /\ S < S0 / en_mu (M / MRd) /\ S < S0.
Proof.
  intros H HS HM; exists (S0 / en_mu (M * 1000000 / MRd)); split; [apply rot_lemma; auto|].
  assert (P : M / MRd * MRd = M) by (field; lra); set (r := M / MRd) in *.
  replace (M * 1000000 / MRd) with (1000000 * r) by (unfold r; field; lra).
  assert (Hr : 2/3 < 1000000 * r) by nra; assert (r < 1000000 * r) by lra.
  pose proof (mu_mono r (1000000 * r) Hr H0) as Q; pose proof (mu_pos r) as Q1; pose proof (mu_pos (1000000 * r)).
  pose proof (mu_mono 0 (1000000 * r) Hr ltac:(lra)) as Q0.
  assert (Z : en_mu 0 = 1) by (unfold en_mu; destruct (Rleb 0 (2/3)) eqn:E; auto; apply Rleb_false in E; lra).
  rewrite Z in Q0; split.
  - unfold Rdiv; apply Rmult_lt_compat_l; auto; apply Rinv_lt_contravar; auto; apply Rmult_lt_0_compat; auto.
  - apply Rmult_lt_reg_r with (en_mu (1000000 * r)); auto; unfold Rdiv; rewrite Rmult_assoc, Rinv_l by lra; nra.
Qed.

(** Shear. *)
Lemma shear_unused_lemma l : unused l -> shear_res l = Some (2 * Rsum (map er_Fv (shear_part l))).
Proof.
  induction 1 as [|r t Hr Ht IH]; unfold shear_part in *; cbn [shear_res filter map]; [cbn; f_equal; lra|].
  rewrite IH, Hr; destruct (Rltb 0 (-1)) eqn:E; [apply Rltb_true in E; lra|].
  rewrite Rabs_left by lra; destruct (Rltb (- -1) (1/1000)) eqn:E2; [apply Rltb_true in E2; lra|].
  destruct (er_shear r); cbn [orb bind option_map map]; rewrite ?Rsum_cons; f_equal; lra.
Qed.
Lemma shear_after_lemma l : Forall (fun r => er_shear r = false -> 0 <= er_F r) l -> Forall (fun r => er_shear r = true -> er_F r = -1) l ->
  Forall (fun r => er_bear r <> None) l -> Forall (fun r => 0 <= er_Fv r) l ->
  shear_res l = Some (572/1000 * Rsum (map er_Fv (filter (fun r => Rltb 0 (er_F r)) l)) + 2 * Rsum (map er_Fv (filter (fun r => negb (Rltb 0 (er_F r))) l))) /\
  (forall V, shear_res l = Some V -> 572/1000 * Rsum (map er_Fv l) <= V <= 2 * Rsum (map er_Fv l)).
Proof.
  intros H1 H2 H3 H4.
  assert (A : shear_res l = Some (572/1000 * Rsum (map er_Fv (filter (fun r => Rltb 0 (er_F r)) l)) + 2 * Rsum (map er_Fv (filter (fun r => negb (Rltb 0 (er_F r))) l)))).
  { clear H4; induction l as [|r t IH]; cbn [shear_res filter map]; [cbn; f_equal; lra|].
    pose proof (Forall_inv H1) as H5; cbn beta in H5.
    rewrite IH by (eapply Forall_inv_tail; eassumption); clear IH; pose proof (Forall_inv H3) as H6; cbn beta in H6.
    destruct (er_bear r) as [vb|]; [|congruence].
    destruct (Rltb 0 (er_F r)) eqn:E; cbn [negb bind option_map map]; rewrite ?Rsum_cons; [f_equal; lra|].
    apply Rltb_false in E.
    destruct (er_shear r) eqn:Es; [rewrite orb_true_r; cbn [bind option_map]; f_equal; lra|].
    specialize (H5 eq_refl); assert (Z : er_F r = 0) by lra; rewrite Z, Rabs_R0.
    destruct (Rltb 0 (1/1000)) eqn:E3; [|apply Rltb_false in E3; lra]; cbn [orb bind option_map]; f_equal; lra. }
  split; [exact A|]; intros V HV; rewrite A in HV; injection HV as <-; clear -H4.
  induction H4 as [|r t Hr Ht IH]; cbn [filter map]; [cbn; lra|].
  destruct (Rltb 0 (er_F r)); cbn [negb map]; rewrite !Rsum_cons; lra.
Qed.
Lemma shear_bear_lemma r v : 0 < er_F r -> er_bear r = Some v -> 0 <= v < 286/1000 * er_Fv r ->
  exists V, shear_res [r] = Some V /\ 2 * v < V.
Proof.
  intros H Hb Hv; cbn; destruct (Rltb 0 (er_F r)) eqn:E; [|apply Rltb_false in E; lra].
  rewrite Hb; cbn; eexists; split; [reflexivity|lra].
Qed.
Lemma shear_inter_lemma r Ft : 0 < Ft -> 0 < er_Fv r -> er_F r = Ft -> er_bear r <> None ->
  exists V U, shear_res [r] = Some V /\ shear_and_tension (V / 2) (er_Fv r) Ft Ft = Some U /\ 1 < U < 10003/10000.
Proof.
  intros H Hv HF Hb; cbn; rewrite HF; destruct (Rltb 0 Ft) eqn:E; [|apply Rltb_false in E; lra].
  destruct (er_bear r); [|congruence]; cbn; do 2 eexists; split; [reflexivity|].
  unfold shear_and_tension; rewrite !pdiv_ok by lra; cbn [bind]; split; [reflexivity|].
  replace ((2 * (286/1000) * er_Fv r + 0) / 2 / er_Fv r) with (286/1000) by (field; lra); replace (Ft / Ft) with 1 by (field; lra); lra.
Qed.

(** Geometry. *)
Lemma geo_height_lemma os beamh tp bp etop ebot e : Forall not_ebottom os ->
  let g := geo_run os (new_geo beamh tp bp etop ebot e) in eg_h g = eg_etop g + eg_ebot g + eg_beam g /\ eg_ebot g = ebot /\ eg_beam g = beamh.
Proof.
  intros H; cbn zeta; unfold geo_run; set (g0 := new_geo beamh tp bp etop ebot e).
  assert (I : eg_h g0 = eg_etop g0 + eg_ebot g0 + eg_beam g0 /\ eg_ebot g0 = ebot /\ eg_beam g0 = beamh) by (cbn; lra).
  revert I; generalize g0; induction H; intros g I; cbn [fold_left]; auto; apply IHForall; destruct x; cbn in *; lra.
Qed.
Lemma geo_x_lemma os1 os2 x g : Forall keeps_x os2 ->
  let g' := geo_run (os1 ++ GXbolts x :: os2) g in eg_x g' = eg_b g' / 2 - eg_e g' /\ bolt_dist g' = 2 * eg_x g'.
Proof.
  intros H; cbn zeta; unfold geo_run; rewrite fold_left_app; cbn [fold_left].
  generalize (fold_left (fun g o => geo_set o g) os1 g); clear g; intros g.
  assert (I : eg_x (geo_set (GXbolts x) g) = eg_b (geo_set (GXbolts x) g) / 2 - eg_e (geo_set (GXbolts x) g)) by (cbn; lra).
  revert I; generalize (geo_set (GXbolts x) g); clear g; induction H; intros g I; cbn [fold_left].
  - unfold bolt_dist; lra.
  - apply IHForall; destruct x0; cbn in *; lra.
Qed.
Lemma geo_stale_lemma g v : eg_x g = eg_b g / 2 - eg_e g ->
  (v <> eg_b g -> let g' := geo_set (GBp v) g in eg_x g' <> eg_b g' / 2 - eg_e g' /\ bolt_dist g' = v - 2 * eg_e g) /\
  (v <> eg_e g -> let g' := geo_set (GEbolts v) g in eg_x g' <> eg_b g' / 2 - eg_e g' /\ bolt_dist g' = eg_b g - 2 * v) /\
  (eg_h g = eg_etop g + eg_ebot g + eg_beam g -> v <> eg_ebot g ->
     let g' := geo_set (GEbottom v) g in eg_h g' <> eg_etop g' + eg_ebot g' + eg_beam g' /\
     (forall w, let g2 := geo_set (GEtop w) g' in eg_h g2 = w + v + eg_beam g)).
Proof.
  intros I; cbn zeta; unfold bolt_dist; cbn; split; [|split].
  - intros Hv; split; lra.
  - intros Hv; split; lra.
  - intros Hh Hv; split; [lra|intros; lra].
Qed.
Lemma zc_lemma j r : j_zc j = zc_level (j_beam j) ->
  lever j r = r_z r + (s_h (j_beam j) - s_tf (j_beam j)) / 2 /\
  (r_z r = (s_h (j_beam j) - s_tf (j_beam j)) / 2 -> lever j r = s_h (j_beam j) - s_tf (j_beam j)).
Proof. intros H; unfold lever; rewrite H; unfold zc_level; split; intros; lra. Qed.

(** The order of the groups. *)
Ltac rmin1 := match goal with |- context [Rmin ?a ?b] =>
  lazymatch a with context [Rmin _ _] => fail | _ => lazymatch b with context [Rmin _ _] => fail | _ => idtac end end;
  first [rewrite (Rmin_left a b) by lra | rewrite (Rmin_right a b) by lra] end.
Definition r10 (h : R) : erow := fresh false h (Some 10) 1 1 (Some 1).
Lemma order_lemma : exists l a b la lb Ma Mb, reordered a b /\ Forall (fun r => er_res r = Some 10) l /\
  bend 100 a l = Some (la, Ma) /\ bend 100 b l = Some (lb, Mb) /\ Ma = 34 /\ Mb = 42.
Proof.
  exists [r10 3; r10 2; r10 1], [([0;1;2]%nat, Some 20); ([0;1]%nat, Some 12)], [([0;1]%nat, Some 12); ([0;1;2]%nat, Some 20)].
  do 4 eexists; split; [apply perm_swap|split; [repeat constructor|]].
  unfold bend, r10, fresh, row_moment; cbn.
  repeat rmin1.
  split; [reflexivity|split; [reflexivity|split; lra]].
Qed.
