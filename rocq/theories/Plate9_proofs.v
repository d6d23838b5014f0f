From Verif Require Import Base EC3_proofs Plate_proofs.
From Verif Require Import Plate_model Plate_spec.

Lemma pdiv_nn a b : 0 <= a -> 0 < b -> 0 <= a / b.
Proof. intros. apply Rmult_le_pos; auto. apply Rlt_le, Rinv_0_lt_compat; auto. Qed.
Lemma eta_values_lemma : forall fy, (fy <= 460 -> 5 * shear_eta fy = 6) /\ (460 < fy -> shear_eta fy = 1).
Proof. intros fy. unfold shear_eta. split; intros H; [rewrite (proj2 (Rleb_true _ _)) by lra; lra|rewrite (proj2 (Rleb_false _ _)) by lra; lra]. Qed.
Lemma rho_outstand_value_lemma : forall lp, 749/1000 <= lp -> reduction_factor_outstand lp * lp ^ 2 = lp - 188/1000.
Proof.
  intros lp H. unfold reduction_factor_outstand. rewrite (proj2 (Rleb_false _ _)) by lra. assert (0 < lp ^ 2) by nra. rewrite Rmin_left; [field; nra|]. apply (div_le_iff (lp - 188/1000) (lp ^ 2) 1); auto. nra.
Qed.
Lemma flanges_lemma : forall bf tf fyf a hw t fyw rM, 0 < bf -> 0 < tf -> 0 < fyf -> 0 < a -> 0 < hw -> 0 < t -> 0 < fyw ->
  let V := shear_buckling_flanges bf tf fyf a hw t fyw rM in
  V * a * (5 * t * hw ^ 2 * fyw + 32 * bf * tf ^ 2 * fyf) = 20 * bf * tf ^ 2 * fyf * t * hw ^ 2 * fyw * (1 - rM ^ 2) /\
  (-1 <= rM <= 1 -> 0 <= V) /\ (0 <= rM -> (V = 0 <-> rM = 1)).
Proof.
  intros bf tf fyf a hw t fyw rM B T F A H T1 Y V. assert (P1 : 0 < bf * tf ^ 2 * fyf) by (repeat apply Rmult_lt_0_compat; auto; nra). assert (P2 : 0 < t * hw ^ 2 * fyw) by (repeat apply Rmult_lt_0_compat; auto; nra).
  assert (E : V * a * (5 * t * hw ^ 2 * fyw + 32 * bf * tf ^ 2 * fyf) = 20 * bf * tf ^ 2 * fyf * t * hw ^ 2 * fyw * (1 - rM ^ 2)).
  { unfold V, shear_buckling_flanges, gammaM1. cbv zeta. field. repeat split; try lra. }
  assert (Q : 0 < a * (5 * t * hw ^ 2 * fyw + 32 * bf * tf ^ 2 * fyf)) by (apply Rmult_lt_0_compat; lra).
  assert (Q2 : 0 < 20 * bf * tf ^ 2 * fyf * t * hw ^ 2 * fyw) by (replace (20 * bf * tf ^ 2 * fyf * t * hw ^ 2 * fyw) with (20 * (bf * tf ^ 2 * fyf) * (t * hw ^ 2 * fyw)) by ring; apply Rmult_lt_0_compat; lra).
  clearbody V. set (D := 5 * t * hw ^ 2 * fyw + 32 * bf * tf ^ 2 * fyf) in *. set (N := 20 * bf * tf ^ 2 * fyf * t * hw ^ 2 * fyw) in *. clearbody D N. split; [exact E|]. rewrite Rmult_assoc in E. set (AD := a * D) in *. clearbody AD. split.
  - intros R1. destruct (Rle_dec 0 V); auto. assert (0 <= 1 - rM ^ 2) by nra. assert (0 <= N * (1 - rM ^ 2)) by (apply Rmult_le_pos; lra). nra.
  - intros R1. split; intros Z; [rewrite Z in E; assert (1 - rM ^ 2 = 0) by (apply Rmult_eq_reg_l with N; lra); nra|]. rewrite Z in E. apply Rmult_eq_reg_r with AD; lra.
Qed.
Lemma kF_values_lemma : forall hw a ss c, 0 < hw -> 0 < a -> 0 <= ss -> 0 <= c ->
  (kF hw a ss c Ta - 6) * a ^ 2 = 2 * hw ^ 2 /\ (kF hw a ss c Tb - 35/10) * a ^ 2 = 2 * hw ^ 2 /\
  (3 * (ss + c) <= 2 * hw -> (kF hw a ss c Tc - 2) * hw = 6 * (ss + c)) /\ (2 * hw <= 3 * (ss + c) -> kF hw a ss c Tc = 6).
Proof.
  intros hw a ss c H A S1 C. unfold kF. split; [field; lra|]. split; [field; lra|]. split; intros Q.
  - rewrite Rmin_left; [field; lra|]. assert (6 * (ss + c) / hw <= 4) by (apply (div_le_iff _ _ 4); lra). lra.
  - rewrite Rmin_right; auto. assert (4 <= 6 * (ss + c) / hw) by (apply (le_div_iff _ _ 4); lra). lra.
Qed.
(* load near an unstiffened end *)
Definition lyc (fyw hw tw tf ss c m1 m2 : R) : R :=
  let le := Rmin ((1 + 3 * (ss + c) / hw) * 210000 * tw ^ 2 / (fyw * hw)) (Rmin (3 * 210000 * tw ^ 2 / (fyw * hw)) (ss + c)) in
  le + Rmin (sqrt (tf ^ 2 * (m1 / 2 + m2) + le ^ 2)) (tf * sqrt (m1 + m2)).
Lemma Rmin_add a b c : Rmin (a + b) (a + c) = a + Rmin b c.
Proof. unfold Rmin. destruct (Rle_dec (a + b) (a + c)), (Rle_dec b c); lra. Qed.
Lemma eff_len_c fyw hw tw tf ss a c m1 m2 : 0 < fyw -> 0 < hw -> 0 < tw -> 0 < tf -> 0 <= m1 -> 0 <= m2 ->
  eff_len fyw hw tw tf ss a c m1 m2 (kF hw a ss c Tc) Tc = lyc fyw hw tw tf ss c m1 m2.
Proof.
  intros F H T1 T2 M1 M2. unfold eff_len, lyc, kF. cbv zeta. rewrite Rmin_add.
  assert (D : 0 < fyw * hw) by (apply Rmult_lt_0_compat; auto). assert (T : 0 < tw ^ 2) by nra.
  assert (E : Rmin (1/2 * Rmin (2 + 6 * (ss + c) / hw) 6 * E_mod * tw ^ 2 / fyw / hw) (ss + c) = Rmin ((1 + 3 * (ss + c) / hw) * 210000 * tw ^ 2 / (fyw * hw)) (Rmin (3 * 210000 * tw ^ 2 / (fyw * hw)) (ss + c))).
  { rewrite Rmin_assoc. f_equal. unfold E_mod.
    replace (1/2 * Rmin (2 + 6 * (ss + c) / hw) 6 * 210000 * tw ^ 2 / fyw / hw) with (Rmin (2 + 6 * (ss + c) / hw) 6 * (105000 * tw ^ 2 / (fyw * hw))) by (field; lra).
    rewrite Rmin_scale by (apply Rdiv_lt_0_compat; lra). f_equal; field; lra. }
  rewrite E. clear E. f_equal. f_equal. set (le := Rmin _ (Rmin _ _)). rewrite <- (sqrt_pow2 tf) at 1 by lra. rewrite <- sqrt_mult_alt by nra. f_equal. field. lra.
Qed.
Lemma tfc_form fyw hw tw fyf bf tf ss a c : tf_ok fyw hw tw fyf bf tf ss a -> 0 <= c ->
  let m1 := fyf * bf / fyw / tw in let m2 := 2/100 * (hw / tf) ^ 2 in let s := Rmin ss hw in
  let K := tw * fyw / (9/10 * kF hw (spacing hw a) s c Tc * 210000 * tw ^ 3 / hw) in
  0 < K /\ transverse_force_resistance fyw hw tw fyf bf tf ss a Tc c =
  fyw * tw * (if Rltb (1/2) (sqrt (lyc fyw hw tw tf s c m1 0 * K)) then strip K (lyc fyw hw tw tf s c m1 m2) else strip K (lyc fyw hw tw tf s c m1 0)).
Proof.
  intros (F & H & T1 & Ff & B & Tf & S1 & A1) C. cbv zeta. set (s := Rmin ss hw). assert (Sm : 0 <= s) by (apply Rmin_glb; lra).
  assert (PK : 0 < kF hw (spacing hw a) s c Tc). { unfold kF. apply Rmin_glb_lt; [|lra]. assert (0 <= 6 * (s + c) / hw) by (apply pdiv_nn; lra). lra. }
  assert (PF : 0 < 9/10 * kF hw (spacing hw a) s c Tc * 210000 * tw ^ 3 / hw).
  { apply Rdiv_lt_0_compat; auto. assert (0 < tw ^ 3) by (apply pow_lt; auto). nra. }
  split; [apply Rdiv_lt_0_compat; nra|].
  assert (M1 : 0 <= fyf * bf / fyw / tw) by (apply pdiv_nn; [|auto]; apply pdiv_nn; nra). assert (M2 : 0 <= 2/100 * (hw / tf) ^ 2) by (pose proof (pow2_ge_0 (hw / tf)); lra).
  unfold transverse_force_resistance. fold s. replace (if Reqb a 0 then 1000 * hw else a) with (spacing hw a) by (unfold spacing, Reqb; destruct (Req_EM_T a 0); auto). cbv zeta.
  rewrite !eff_len_c by lra. change E_mod with 210000. unfold gammaM1, strip. set (Fcr := 9/10 * kF _ _ _ _ _ * 210000 * tw ^ 3 / hw) in *. clearbody Fcr.
  rewrite !(fun l => ltac:(field; lra) : l * tw * fyw / Fcr = l * (tw * fyw / Fcr)).
  destruct (Rltb _ _); unfold Rdiv; rewrite Rinv_1; ring.
Qed.

Lemma lyc_pos fyw hw tw tf ss c m1 m2 : 0 < fyw -> 0 < hw -> 0 < tw -> 0 < tf -> 0 < m1 -> 0 <= m2 -> 0 <= ss -> 0 <= c ->
  0 < lyc fyw hw tw tf ss c m1 m2 <= ss + c + tf * sqrt (m1 + m2).
Proof.
  intros F H T1 T2 M1 M2 S1 C. unfold lyc. cbv zeta. set (le := Rmin _ (Rmin _ _)).
  assert (T : 0 < tw ^ 2) by nra. assert (D : 0 < fyw * hw) by nra.
  assert (L : 0 <= le <= ss + c).
  { split; [repeat apply Rmin_glb|eapply Rle_trans; [apply Rmin_r|apply Rmin_r]]; try lra.
    - apply pdiv_nn; auto. assert (0 <= 3 * (ss + c) / hw) by (apply pdiv_nn; lra). apply Rmult_le_pos; lra.
    - apply pdiv_nn; lra. }
  clearbody le. assert (0 < sqrt (tf ^ 2 * (m1 / 2 + m2) + le ^ 2)) by (apply sqrt_lt_R0; assert (0 < tf ^ 2 * (m1 / 2 + m2)) by (apply Rmult_lt_0_compat; nra); nra).
  assert (0 < sqrt (m1 + m2)) by (apply sqrt_lt_R0; lra). assert (0 < tf * sqrt (m1 + m2)) by nra.
  split; [assert (0 < Rmin (sqrt (tf ^ 2 * (m1 / 2 + m2) + le ^ 2)) (tf * sqrt (m1 + m2))) by (apply Rmin_glb_lt; auto); lra|].
  pose proof (Rmin_r (sqrt (tf ^ 2 * (m1 / 2 + m2) + le ^ 2)) (tf * sqrt (m1 + m2))). lra.
Qed.
Lemma tfc_range_lemma : forall fyw hw tw fyf bf tf ss a c, tf_ok fyw hw tw fyf bf tf ss a -> 0 <= c ->
  0 < transverse_force_resistance fyw hw tw fyf bf tf ss a Tc c <=
    fyw * tw * (ss + c + tf * sqrt (fyf * bf / (fyw * tw) + 2/100 * (hw / tf) ^ 2)).
Proof.
  intros fyw hw tw fyf bf tf ss a c O C. destruct (tfc_form fyw hw tw fyf bf tf ss a c O C) as (K & ->). destruct O as (F & H & T1 & Ff & B & Tf & S1 & A1).
  set (KK := tw * fyw / _) in *. clearbody KK. assert (M1 : 0 < fyf * bf / fyw / tw) by (repeat apply Rdiv_lt_0_compat; auto; nra).
  assert (M2 : 0 <= 2/100 * (hw / tf) ^ 2) by (pose proof (pow2_ge_0 (hw / tf)); lra).
  replace (fyf * bf / (fyw * tw)) with (fyf * bf / fyw / tw) by (field; lra). set (m1 := fyf * bf / fyw / tw) in *. set (m2 := 2/100 * (hw / tf) ^ 2) in *. clearbody m1 m2.
  assert (Sm : 0 <= Rmin ss hw) by (apply Rmin_glb; lra). pose proof (Rmin_l ss hw) as SL. set (s := Rmin ss hw) in *. clearbody s.
  pose proof (lyc_pos fyw hw tw tf s c m1 0 F H T1 Tf M1 ltac:(lra) Sm C) as (P1 & P2). pose proof (lyc_pos fyw hw tw tf s c m1 m2 F H T1 Tf M1 M2 Sm C) as (P3 & P4).
  assert (SQ : tf * sqrt (m1 + 0) <= tf * sqrt (m1 + m2)) by (apply Rmult_le_compat_l; [lra|]; apply sqrt_le_1_alt; lra).
  assert (FT : 0 < fyw * tw) by nra. destruct (Rltb _ _).
  - destruct (strip_pos KK _ K P3). split; [apply Rmult_lt_0_compat; lra|apply Rmult_le_compat_l; lra].
  - destruct (strip_pos KK _ K P1). split; [apply Rmult_lt_0_compat; lra|apply Rmult_le_compat_l; lra].
Qed.
(* a longer bearing near an unstiffened end lowers the resistance *)
Lemma sqrt25 : sqrt (25 + 0) = 5.
Proof. replace (25 + 0) with (5 ^ 2) by ring. apply sqrt_pow2. lra. Qed.
Lemma lyc_case s m2 : 142 <= s <= 250 -> 0 <= m2 <= 2 -> lyc 380 400 16 40 s 0 25 m2 = s + 40 * sqrt (25 + m2).
Proof.
  intros H M. unfold lyc. cbv zeta. assert (E : Rmin ((1 + 3 * (s + 0) / 400) * 210000 * 16 ^ 2 / (380 * 400)) (Rmin (3 * 210000 * 16 ^ 2 / (380 * 400)) (s + 0)) = s).
  { rewrite (Rmin_right _ (s + 0)) by lra. rewrite Rmin_right by lra. lra. }
  rewrite E. f_equal. rewrite Rmin_right; auto. rewrite <- (sqrt_pow2 40) at 1 by lra. rewrite <- sqrt_mult_alt by lra. apply sqrt_le_1_alt. nra.
Qed.
Lemma tfc_bearing_refuted_lemma : tf_ok 380 400 16 380 400 40 210 0 /\
  transverse_force_resistance 380 400 16 380 400 40 212 0 Tc 0 < transverse_force_resistance 380 400 16 380 400 40 210 0 Tc 0.
Proof.
  assert (O : tf_ok 380 400 16 380 400 40 210 0) by (unfold tf_ok; lra). assert (O2 : tf_ok 380 400 16 380 400 40 212 0) by (unfold tf_ok; lra).
  split; auto. destruct (tfc_form _ _ _ _ _ _ _ _ 0 O ltac:(lra)) as (K1 & E1). destruct (tfc_form _ _ _ _ _ _ _ _ 0 O2 ltac:(lra)) as (K2 & E2).
  rewrite E1, E2. clear E1 E2. rewrite (Rmin_left 210), (Rmin_left 212) in * by lra. replace (380 * 400 / 380 / 16) with 25 by field.
  replace (2/100 * (400 / 40) ^ 2) with 2 by field.
  rewrite !lyc_case by lra. rewrite sqrt25.
  assert (F1 : kF 400 (spacing 400 0) 210 0 Tc = 515/100) by (unfold kF; rewrite Rmin_left by lra; lra).
  assert (F2 : kF 400 (spacing 400 0) 212 0 Tc = 518/100) by (unfold kF; rewrite Rmin_left by lra; lra).
  rewrite F1, F2 in *. set (KA := 16 * 380 / (9/10 * (515/100) * 210000 * 16 ^ 3 / 400)) in *. set (KB := 16 * 380 / (9/10 * (518/100) * 210000 * 16 ^ 3 / 400)) in *.
  assert (VA : KA = 38000 / 62294400) by (unfold KA; field). assert (VB : KB = 38000 / 62657280) by (unfold KB; field).
  rewrite (proj2 (Rltb_true (1/2) (sqrt ((210 + 40 * 5) * KA)))).
  - rewrite (proj2 (Rltb_false (1/2) (sqrt ((212 + 40 * 5) * KB)))).
    + apply Rmult_lt_compat_l; [lra|]. assert (Q : 5 + 19/100 < sqrt (25 + 2)) by (rewrite <- (sqrt_pow2 (5 + 19/100)) by lra; apply sqrt_lt_1_alt; lra).
      set (q := sqrt (25 + 2)) in *. clearbody q.
      assert (QM : strip KB (212 + 40 * 5) <= 412) by (destruct (strip_pos KB (212 + 40 * 5)); lra).
      eapply Rle_lt_trans; [exact QM|]. eapply Rlt_le_trans with (strip KA (417 + 6/10)); [|apply strip_mono; lra].
      rewrite strip_eq by lra. apply Rmin_glb_lt; [|lra].
      assert (824 < sqrt ((417 + 6/10) / KA)); [|lra]. rewrite <- (sqrt_pow2 824) by lra. apply sqrt_lt_1_alt. rewrite VA. lra.
    + rewrite <- (sqrt_pow2 (1/2)) by lra. apply sqrt_le_1_alt. rewrite VB. lra.
  - rewrite <- (sqrt_pow2 (1/2)) by lra. apply sqrt_lt_1_alt. rewrite VA. lra.
Qed.
