From Coq Require Import Rpower.
From Verif Require Import Joint_model.
From Verif Require Import EC3_proofs Sections_proofs Sections3_proofs Plate_proofs Loads2_proofs Joint_proofs Joint2_proofs.
From Verif Require Import Joint_model Joint_spec.

(* ------------------------------------------------------------- omega *)
Lemma omega_form : forall q beff tw Avc, 0 < Avc -> omega_q q beff tw Avc = Some (1 / sqrt (1 + q * (beff * tw / Avc) ^ 2)).
Proof. intros. unfold omega_q. rewrite pdiv_ok by lra. reflexivity. Qed.
Lemma isq_bounds : forall q x, 0 <= q -> 0 < 1 / sqrt (1 + q * x ^ 2) <= 1.
Proof.
  intros q x Q. assert (0 <= q * x ^ 2) by (apply Rmult_le_pos; [lra|apply pow2_ge_0]).
  assert (S1 : 1 <= sqrt (1 + q * x ^ 2)). { rewrite <- sqrt_1 at 1. apply sqrt_le_1; lra. }
  split. apply Rdiv_lt_0_compat; lra. apply div_le_iff; lra.
Qed.
Lemma isq_anti : forall q q' x x', 0 <= q <= q' -> 0 <= x <= x' -> 1 / sqrt (1 + q' * x' ^ 2) <= 1 / sqrt (1 + q * x ^ 2).
Proof.
  intros q q' x x' [Q1 Q2] [X1 X2]. assert (x ^ 2 <= x' ^ 2) by (simpl; nra). assert (0 <= x ^ 2) by apply pow2_ge_0.
  assert (q * x ^ 2 <= q' * x' ^ 2) by nra. assert (0 <= q * x ^ 2) by nra.
  apply div_anti; [lra|split; [apply sqrt_lt_R0; lra|apply sqrt_le_1; lra]].
Qed.
(* the factor as a function of beta and w1, w2 *)
Definition wval (beta w1 w2 : R) : R :=
  if andb (Rleb 0 beta) (Rleb beta (1/2)) then 1
        else if andb (Rltb (1/2) beta) (Rltb beta 1) then w1 + 2 * (1 - beta) * (1 - w1)
        else if Reqb beta 1 then w1
        else if andb (Rltb 1 beta) (Rltb beta 2) then w1 + 2 * (beta - 1) * (1 - w1)
        else if Reqb beta 2 then w2
        else 0.
Lemma w_form : forall beta beff tw Avc, 0 < Avc -> min_coeff_w beta beff tw Avc =
  Some (wval beta (1 / sqrt (1 + 13/10 * (beff * tw / Avc) ^ 2)) (1 / sqrt (1 + 52/10 * (beff * tw / Avc) ^ 2))).
Proof. intros. unfold min_coeff_w. rewrite !omega_form by auto. reflexivity. Qed.
Lemma wval_low : forall beta w1 w2, 0 <= beta <= 1/2 -> wval beta w1 w2 = 1.
Proof.
  intros beta w1 w2 [A B]. unfold wval. destruct (Rleb 0 beta) eqn:E1; [|apply Rleb_false in E1; lra].
  destruct (Rleb beta (1/2)) eqn:E2; [|apply Rleb_false in E2; lra]. reflexivity.
Qed.
Lemma wval_mid : forall beta w1 w2, 1/2 <= beta <= 1 -> wval beta w1 w2 = w1 + 2 * (1 - beta) * (1 - w1).
Proof.
  intros beta w1 w2 [A B]. destruct (Req_dec beta (1/2)) as [->|N]. { rewrite wval_low by lra. field. }
  unfold wval. destruct (Rleb 0 beta) eqn:E1; [|apply Rleb_false in E1; lra].
  destruct (Rleb beta (1/2)) eqn:E2; [apply Rleb_true in E2; lra|]. cbn [andb].
  destruct (Rltb (1/2) beta) eqn:E3; [|apply Rltb_false in E3; lra].
  destruct (Rltb beta 1) eqn:E4; cbn [andb]. reflexivity. apply Rltb_false in E4.
  destruct (Reqb beta 1) eqn:E5. apply Reqb_true in E5. subst. ring. apply Reqb_false in E5. lra.
Qed.
Lemma wval_high : forall beta w1 w2, 1 < beta < 2 -> wval beta w1 w2 = w1 + 2 * (beta - 1) * (1 - w1).
Proof.
  intros beta w1 w2 [A B]. unfold wval.
  destruct (Rleb 0 beta) eqn:E1; [|apply Rleb_false in E1; lra].
  destruct (Rleb beta (1/2)) eqn:E2; [apply Rleb_true in E2; lra|]. cbn [andb].
  destruct (Rltb (1/2) beta) eqn:E3; [|apply Rltb_false in E3; lra].
  destruct (Rltb beta 1) eqn:E4; [apply Rltb_true in E4; lra|]. cbn [andb].
  destruct (Reqb beta 1) eqn:E5; [apply Reqb_true in E5; lra|].
  destruct (Rltb 1 beta) eqn:E6; [|apply Rltb_false in E6; lra].
  destruct (Rltb beta 2) eqn:E7; [|apply Rltb_false in E7; lra]. reflexivity.
Qed.
Lemma wval_two : forall w1 w2, wval 2 w1 w2 = w2.
Proof.
  intros. unfold wval.
  destruct (Rleb 0 2) eqn:E1; [|apply Rleb_false in E1; lra].
  destruct (Rleb 2 (1/2)) eqn:E2; [apply Rleb_true in E2; lra|]. cbn [andb].
  destruct (Rltb (1/2) 2) eqn:E3; [|apply Rltb_false in E3; lra].
  destruct (Rltb 2 1) eqn:E4; [apply Rltb_true in E4; lra|]. cbn [andb].
  destruct (Reqb 2 1) eqn:E5; [apply Reqb_true in E5; lra|].
  destruct (Rltb 1 2) eqn:E6; [|apply Rltb_false in E6; lra].
  destruct (Rltb 2 2) eqn:E7; [apply Rltb_true in E7; lra|]. cbn [andb].
  destruct (Reqb 2 2) eqn:E8; [|apply Reqb_false in E8; lra]. reflexivity.
Qed.
Lemma wval_out : forall beta w1 w2, beta < 0 \/ 2 < beta -> wval beta w1 w2 = 0.
Proof.
  intros beta w1 w2 H. unfold wval.
  destruct (Rleb 0 beta) eqn:E1; [apply Rleb_true in E1|apply Rleb_false in E1]; cbn [andb].
  - destruct (Rleb beta (1/2)) eqn:E2; [apply Rleb_true in E2; lra|apply Rleb_false in E2].
    destruct (Rltb (1/2) beta) eqn:E3; [|apply Rltb_false in E3; lra].
    destruct (Rltb beta 1) eqn:E4; [apply Rltb_true in E4; lra|]. cbn [andb].
    destruct (Reqb beta 1) eqn:E5; [apply Reqb_true in E5; lra|].
    destruct (Rltb 1 beta) eqn:E6; [|apply Rltb_false in E6; lra].
    destruct (Rltb beta 2) eqn:E7; [apply Rltb_true in E7; lra|]. cbn [andb].
    destruct (Reqb beta 2) eqn:E8; [apply Reqb_true in E8; lra|]. reflexivity.
  - destruct (Rltb (1/2) beta) eqn:E3; [apply Rltb_true in E3; lra|]. cbn [andb].
    destruct (Reqb beta 1) eqn:E5; [apply Reqb_true in E5; lra|].
    destruct (Rltb 1 beta) eqn:E6; [apply Rltb_true in E6; lra|]. cbn [andb].
    destruct (Reqb beta 2) eqn:E8; [apply Reqb_true in E8; lra|]. reflexivity.
Qed.
Lemma omega_lemma : forall beff tw Avc, 0 <= beff * tw -> 0 < Avc ->
  (forall beta, 0 <= beta <= 1 -> exists w, min_coeff_w beta beff tw Avc = Some w /\
     1 / sqrt (1 + 13/10 * (beff * tw / Avc) ^ 2) <= w <= 1 /\
     (beta <= 1/2 -> w = 1) /\ (beta = 1 -> w = 1 / sqrt (1 + 13/10 * (beff * tw / Avc) ^ 2)) /\
     (forall beta' w', beta <= beta' <= 1 -> min_coeff_w beta' beff tw Avc = Some w' -> w' <= w /\ w - w' <= 2 * (beta' - beta)) /\
     (forall beff' w', beff * tw <= beff' * tw -> min_coeff_w beta beff' tw Avc = Some w' -> w' <= w)) /\
  (exists w, min_coeff_w 2 beff tw Avc = Some w /\ w = 1 / sqrt (1 + 52/10 * (beff * tw / Avc) ^ 2)) /\
  (forall beta, beta < 0 \/ 2 < beta -> min_coeff_w beta beff tw Avc = Some 0).
Proof.
  intros beff tw Avc HB HA.
  assert (X0 : 0 <= beff * tw / Avc) by (apply div_nn; auto).
  pose proof (isq_bounds (13/10) (beff * tw / Avc) ltac:(lra)) as W1.
  split; [|split].
  - intros beta [B1 B2]. rewrite w_form by auto. eexists; split; [reflexivity|].
    set (w1 := 1 / sqrt (1 + 13/10 * (beff * tw / Avc) ^ 2)) in *. set (w2 := 1 / sqrt (1 + 52/10 * (beff * tw / Avc) ^ 2)).
    assert (F : forall b, 0 <= b <= 1 -> wval b w1 w2 = Rmin 1 (w1 + 2 * (1 - b) * (1 - w1))).
    { intros b [C1 C2]. destruct (Rle_dec b (1/2)). rewrite wval_low by lra. rewrite Rmin_left; nra.
      rewrite wval_mid by lra. rewrite Rmin_right; nra. }
    rewrite F by lra. split.
    { unfold Rmin; destruct Rle_dec; nra. }
    split. { intros. rewrite Rmin_left; nra. }
    split. { intros ->. rewrite Rmin_right; nra. }
    split.
    + intros beta' w' [L1 L2] H. rewrite w_form in H by auto. apply some_inj in H. subst w'. fold w1 w2. rewrite F by lra.
      unfold Rmin; repeat destruct Rle_dec; nra.
    + intros beff' w' L H. rewrite w_form in H by auto. apply some_inj in H. subst w'.
      assert (X1 : beff * tw / Avc <= beff' * tw / Avc) by (apply div_le; lra).
      pose proof (isq_anti (13/10) (13/10) _ _ ltac:(lra) (conj X0 X1)) as W2. fold w1 in W2.
      pose proof (isq_bounds (13/10) (beff' * tw / Avc) ltac:(lra)) as W3.
      set (w1' := 1 / sqrt (1 + 13/10 * (beff' * tw / Avc) ^ 2)) in *. set (w2' := 1 / sqrt (1 + 52/10 * (beff' * tw / Avc) ^ 2)).
      destruct (Rle_dec beta (1/2)). rewrite wval_low by lra. rewrite Rmin_left; nra.
      rewrite wval_mid by lra. rewrite Rmin_right; nra.
  - rewrite w_form by auto. eexists; split; [reflexivity|]. apply wval_two.
  - intros. rewrite w_form by auto. rewrite wval_out; auto.
Qed.
Lemma omega_refuted_lemma : forall beff tw Avc beta, 0 < beff * tw -> 0 < Avc -> 3/2 < beta < 2 ->
  exists w, min_coeff_w beta beff tw Avc = Some w /\ 1 < w.
Proof.
  intros beff tw Avc beta HB HA B. rewrite w_form by auto. eexists; split; [reflexivity|]. rewrite wval_high by lra.
  assert (X : 0 < beff * tw / Avc) by (apply Rdiv_lt_0_compat; lra).
  assert (W : 1 / sqrt (1 + 13/10 * (beff * tw / Avc) ^ 2) < 1).
  { assert (0 < (beff * tw / Avc) ^ 2) by (simpl; nra).
    assert (1 < sqrt (1 + 13/10 * (beff * tw / Avc) ^ 2)). { rewrite <- sqrt_1 at 1. apply sqrt_lt_1; lra. }
    unfold Rdiv at 1. rewrite Rmult_1_l. assert (/ sqrt (1 + 13/10 * (beff * tw / Avc) ^ 2) < / 1) by (apply Rinv_lt_contravar; lra).
    rewrite Rinv_1 in *. lra. }
  nra.
Qed.

(* ------------------------------------------------------------- column web in tension and compression *)
Lemma col_web_tension_lemma : forall c leff beta, prof_ok c -> 0 < leff -> 0 <= beta <= 1 ->
  exists F, column_web_tension c leff beta = Some F /\ 0 < F <= leff * s_tw c * s_fy c /\
  (beta <= 1/2 -> F = leff * s_tw c * s_fy c) /\
  forall leff', leff <= leff' -> beta <= 1/2 -> exists F', column_web_tension c leff' beta = Some F' /\ F <= F'.
Proof.
  intros c leff beta [P1 [P2 [P3 [P4 [P5 _]]]]] L B. unfold column_web_tension.
  destruct (omega_lemma leff (s_tw c) (s_Av c) ltac:(nra) P2) as [W _]. destruct (W beta B) as [w [E [[W1 W2] [W3 _]]]].
  pose proof (isq_bounds (13/10) (leff * s_tw c / s_Av c) ltac:(lra)) as W0.
  rewrite E. cbn [bind]. eexists; split; [reflexivity|]. unfold gammaM0.
  assert (Q : 0 < leff * s_tw c * s_fy c) by (repeat apply Rmult_lt_0_compat; auto).
  replace (w * leff * s_tw c * s_fy c / 1) with (w * (leff * s_tw c * s_fy c)) by field.
  split. { split; nra. } split. { intros Z. rewrite (W3 Z). ring. }
  intros leff' L' Z. destruct (omega_lemma leff' (s_tw c) (s_Av c) ltac:(nra) P2) as [W' _]. destruct (W' beta B) as [w' [E' [_ [W3' _]]]].
  rewrite E'. cbn [bind]. eexists; split; [reflexivity|]. rewrite (W3 Z), (W3' Z).
  assert (leff * s_tw c <= leff' * s_tw c) by nra. nra.
Qed.
Lemma rho_c_bounds : forall l, 0 <= l -> 0 < rho_c l <= 101/100.
Proof.
  intros l L. unfold rho_c. destruct (Rleb l (72/100)) eqn:E; [lra|apply Rleb_false in E].
  assert (0 < l ^ 2) by (simpl; nra). split. apply Rdiv_lt_0_compat; lra.
  apply div_le_iff; [lra|]. simpl. nra.
Qed.
Lemma k_wc_cont : forall sigma fy, 0 < fy -> k_wc sigma fy = Rmin 1 (17/10 - sigma / fy).
Proof.
  intros. unfold k_wc. assert (sigma = sigma / fy * fy) by (field; lra).
  destruct (Rleb sigma (7/10 * fy)) eqn:E; [apply Rleb_true in E|apply Rleb_false in E].
  - rewrite Rmin_left; auto. assert (sigma / fy <= 7/10) by (apply (proj2 (div_le_iff _ _ _ H)); lra). lra.
  - rewrite Rmin_right; auto. assert (7/10 <= sigma / fy) by (apply (proj2 (le_div_iff _ _ _ H)); lra). lra.
Qed.
Lemma web_compression_lemma : forall c b tp lo a beta sigma, prof_ok c -> 0 <= s_tf b -> 0 <= tp -> 0 <= a -> sqrt 2 * a <= tp + lo ->
  0 <= beta <= 1 -> sigma <= s_fy c ->
  exists F, col_web_trv_comp c b tp lo a beta sigma = Some F /\
    0 < F <= beff_c c b tp lo a * s_tw c * s_fy c /\
    (forall sigma', sigma <= sigma' <= s_fy c -> exists F', col_web_trv_comp c b tp lo a beta sigma' = Some F' /\ F' <= F) /\
    (forall beta', beta <= beta' <= 1 -> exists F', col_web_trv_comp c b tp lo a beta' sigma = Some F' /\ F' <= F).
Proof.
  intros c b tp lo a beta sigma [P1 [P2 [P3 [P4 [P5 [P6 P7]]]]]] TB TP A LO B SG.
  assert (S2 : 0 < sqrt 2) by (apply sqrt_lt_R0; lra).
  assert (BE : 0 < beff_c c b tp lo a).
  { unfold beff_c. assert (0 <= sqrt 2 * a) by nra. assert (0 <= Rmin (2 * tp) (tp + lo - sqrt 2 * a)) by (unfold Rmin; destruct Rle_dec; lra).
    lra. }
  unfold col_web_trv_comp. set (be := beff_c c b tp lo a) in *.
  assert (EQ : 0 < s_E c * s_tw c ^ 2) by (assert (0 < s_tw c ^ 2) by (simpl; nra); nra).
  assert (NQ : 0 < be * s_hw c * s_fy c) by (repeat apply Rmult_lt_0_compat; auto).
  assert (LP : exists l, lam_p c be = Some l /\ 0 <= l).
  { unfold lam_p. rewrite pdiv_ok by lra. cbn [bind]. unfold psqrt.
    assert (0 < be * s_hw c * s_fy c / (s_E c * s_tw c ^ 2)) by (apply Rdiv_lt_0_compat; auto).
    destruct (Rltb _ 0) eqn:X; [apply Rltb_true in X; lra|]. cbn [bind]. eexists; split; [reflexivity|].
    pose proof (sqrt_pos (be * s_hw c * s_fy c / (s_E c * s_tw c ^ 2))). lra. }
  destruct LP as [l [EL L0]]. rewrite EL. cbn [bind]. pose proof (rho_c_bounds l L0) as RH.
  destruct (omega_lemma be (s_tw c) (s_Av c) ltac:(nra) P2) as [W _]. destruct (W beta B) as [w [E [[W1 W2] [_ [_ [W4 _]]]]]].
  pose proof (isq_bounds (13/10) (be * s_tw c / s_Av c) ltac:(lra)) as W0.
  rewrite E. cbn [bind]. eexists; split; [reflexivity|]. unfold gammaM0, gammaM1.
  assert (G : 0 < be * s_tw c * s_fy c) by (repeat apply Rmult_lt_0_compat; auto).
  assert (KW : forall s, s <= s_fy c -> 7/10 <= k_wc s (s_fy c) <= 1).
  { intros s L. rewrite k_wc_cont by auto. assert (s / s_fy c <= 1) by (apply (proj2 (div_le_iff _ _ _ P1)); lra).
    unfold Rmin; destruct Rle_dec; lra. }
  assert (FF : forall w k, Rmin (w * k * be * s_tw c * s_fy c / 1) (w * k * rho_c l * be * s_tw c * s_fy c / 1) =
     Rmin (w * k * (be * s_tw c * s_fy c)) (w * k * rho_c l * (be * s_tw c * s_fy c))).
  { intros. f_equal; field. }
  assert (MM : forall w k w' k', 0 < w' <= w -> 0 < k' <= k -> Rmin (w' * k' * (be * s_tw c * s_fy c)) (w' * k' * rho_c l * (be * s_tw c * s_fy c)) <=
     Rmin (w * k * (be * s_tw c * s_fy c)) (w * k * rho_c l * (be * s_tw c * s_fy c))).
  { intros w0 k0 w' k' Hw Hk. assert (0 < w' * k' <= w0 * k0) by nra. set (u := w' * k') in *. set (v := w0 * k0) in *.
    set (g := be * s_tw c * s_fy c) in *. set (r := rho_c l) in *. assert (u * g <= v * g) by nra. assert (0 < r * g) by nra. assert (u * (r * g) <= v * (r * g)) by nra.
    unfold Rmin; repeat destruct Rle_dec; nra. }
  pose proof (KW sigma SG) as K.
  split; [|split].
  - rewrite FF. assert (0 < w * k_wc sigma (s_fy c) <= 1) by nra. set (u := w * k_wc sigma (s_fy c)) in *. set (g := be * s_tw c * s_fy c) in *.
    split. { unfold Rmin; destruct Rle_dec; [nra|]. assert (0 < u * rho_c l) by nra. nra. }
    eapply Rle_trans; [apply Rmin_l|]. nra.
  - intros sigma' [S1 S3]. eexists; split; [reflexivity|]. rewrite !FF. apply MM; [lra|]. pose proof (KW sigma' S3). split; [lra|].
    rewrite !k_wc_cont by auto. assert (sigma / s_fy c <= sigma' / s_fy c) by (apply div_le; lra). unfold Rmin; repeat destruct Rle_dec; lra.
  - intros beta' B'. destruct (W beta' ltac:(lra)) as [w' [E' [[W1' W2'] _]]]. rewrite E'. cbn [bind]. eexists; split; [reflexivity|].
    rewrite !FF. apply MM; [|lra]. destruct (W4 beta' w' B' E'). lra.
Qed.
Lemma stiffened_lemma : forall eps tw bs ts lcr fyp, 0 < eps -> 0 < tw -> 0 < bs -> 0 < ts -> 0 <= lcr -> 0 < fyp ->
  exists F, col_web_stiffened eps tw bs ts lcr fyp = Some F /\ 0 < F <= ((30 * eps * tw + ts) * tw + 2 * bs * ts) * fyp /\
  forall lcr' F', lcr <= lcr' -> col_web_stiffened eps tw bs ts lcr' fyp = Some F' -> F' <= F.
Proof.
  intros eps tw bs ts lcr fyp E T B S0 L Y. unfold col_web_stiffened. cbv zeta.
  assert (AP : 0 < (30 * eps * tw + ts) * tw + 2 * bs * ts).
  { assert (0 < 30 * eps * tw + ts) by nra. assert (0 < 2 * bs * ts) by nra. nra. }
  set (A := (30 * eps * tw + ts) * tw + 2 * bs * ts) in *.
  assert (IP : 0 < (2 * bs + tw) ^ 3 * ts / 12).
  { assert (0 < (2 * bs + tw) ^ 3) by (apply pow_lt; lra). nra. }
  rewrite (pdiv_ok _ A) by lra. cbn [bind]. unfold psqrt.
  assert (Q : 0 < (2 * bs + tw) ^ 3 * ts / 12 / A) by (apply Rdiv_lt_0_compat; auto).
  destruct (Rltb _ 0) eqn:X; [apply Rltb_true in X; lra|]. cbn [bind].
  assert (SI : 0 < sqrt ((2 * bs + tw) ^ 3 * ts / 12 / A)) by (apply sqrt_lt_R0; auto). set (i := sqrt _) in *.
  rewrite (pdiv_ok lcr) by lra. cbn [bind]. rewrite pdiv_ok by lra. cbn [bind]. unfold gammaM0, gammaM1.
  set (ls := fun lcr => lcr / i / (939/10 * eps)). fold (ls lcr).
  assert (LS : forall u v, 0 <= u <= v -> 0 <= ls u <= ls v).
  { intros u v [U V]. unfold ls. split. apply div_nn; [|lra]. apply div_nn; lra. apply div_le; [lra|]. apply div_le; lra. }
  pose proof (LS lcr lcr ltac:(lra)) as L0.
  assert (CH : forall x, 0 <= x -> exists chi, buckling_reduction_factor x (49/100) = Some chi /\ 0 < chi <= 1).
  { intros x HX. destruct (chi_proper_lemma (49/100) x ltac:(lra) HX) as [chi [C1 [C2 _]]]. exists chi; auto. }
  destruct (Rltb (2/10) (ls lcr)) eqn:D; [apply Rltb_true in D|apply Rltb_false in D].
  - destruct (CH (ls lcr) ltac:(lra)) as [chi [C1 C2]]. rewrite C1. cbn [bind]. eexists; split; [reflexivity|].
    replace (chi * A * fyp / 1) with (chi * (A * fyp)) by field. assert (0 < A * fyp) by nra. split. { nra. }
    intros lcr' F' LL H'. rewrite (pdiv_ok lcr') in H' by lra. cbn [bind] in H'. rewrite pdiv_ok in H' by lra. cbn [bind] in H'.
    fold (ls lcr') in H'. pose proof (LS lcr lcr' ltac:(lra)).
    destruct (Rltb (2/10) (ls lcr')) eqn:D'; [apply Rltb_true in D'|apply Rltb_false in D'; lra].
    apply bind_inv in H'. destruct H' as [chi' [C1' H']]. apply some_inj in H'. subst F'.
    assert (chi' <= chi).
    { refine (chi_mono_lemma (49/100) (49/100) _ _ _ _ _ _ _ C1 C1'); lra. }
    replace (chi' * A * fyp / 1) with (chi' * (A * fyp)) by field. nra.
  - eexists; split; [reflexivity|]. assert (0 < A * fyp) by nra. split. { lra. }
    intros lcr' F' LL H'. rewrite (pdiv_ok lcr') in H' by lra. cbn [bind] in H'. rewrite pdiv_ok in H' by lra. cbn [bind] in H'.
    fold (ls lcr') in H'. pose proof (LS lcr lcr' ltac:(lra)).
    destruct (Rltb (2/10) (ls lcr')) eqn:D'; [apply Rltb_true in D'|apply some_inj in H'; lra].
    destruct (CH (ls lcr') ltac:(lra)) as [chi [C1 C2]]. rewrite C1 in H'. cbn [bind] in H'. apply some_inj in H'. subst F'.
    replace (chi * A * fyp / 1) with (chi * (A * fyp)) by field. nra.
Qed.
Lemma col_web_shear_lemma : forall c beta z z' F k, prof_ok c -> 0 < beta -> 0 < z -> z <= z' ->
  col_web_shear c = F -> col_web_shear_k c beta z = Some k ->
  0 < F /\ F = 9/10 * (s_Av c * (s_fy c / sqrt 3)) /\ 0 < k /\ exists k', col_web_shear_k c beta z' = Some k' /\ k' <= k.
Proof.
  intros c beta z z' F k [P1 [P2 _]] B Z ZZ <- H. assert (S3 : 0 < sqrt 3) by (apply sqrt_lt_R0; lra).
  unfold col_web_shear, gammaM0. assert (0 < s_fy c / sqrt 3) by (apply Rdiv_lt_0_compat; auto).
  assert (E : 9/10 * s_fy c * s_Av c / sqrt 3 / 1 = 9/10 * (s_Av c * (s_fy c / sqrt 3))) by (field; lra).
  split. { rewrite E. nra. } split; auto.
  unfold col_web_shear_k in *. rewrite (pdiv_ok _ beta) in * by lra. cbn [bind] in *. rewrite pdiv_ok in * by lra.
  apply some_inj in H. subst k. assert (0 < 38/100 * s_Av c / beta) by (apply Rdiv_lt_0_compat; lra).
  split. apply Rdiv_lt_0_compat; lra. eexists; split; [reflexivity|]. apply div_anti; lra.
Qed.

(* ------------------------------------------------------------- stiffness ratio and alpha *)
Lemma stiffness_ratio_lemma : forall r r' psi, 0 <= psi -> 0 <= r <= r' ->
  1 <= stiffness_ratio r psi <= stiffness_ratio r' psi /\ (r <= 2/3 -> stiffness_ratio r psi = 1) /\
  (2/3 <= r -> stiffness_ratio r psi = Rpower (15/10 * r) psi).
Proof.
  intros r r' psi P [R0 RR].
  assert (G : forall x, 2/3 <= x -> stiffness_ratio x psi = Rpower (15/10 * x) psi).
  { intros x X. unfold stiffness_ratio. destruct (Rleb x (2/3)) eqn:E; auto. apply Rleb_true in E. assert (x = 2/3) by lra. subst.
    replace (15/10 * (2/3)) with 1 by field. unfold Rpower. rewrite ln_1, Rmult_0_r, exp_0. reflexivity. }
  assert (L : forall x, x <= 2/3 -> stiffness_ratio x psi = 1).
  { intros x X. unfold stiffness_ratio. destruct (Rleb x (2/3)) eqn:E; auto. apply Rleb_false in E. lra. }
  assert (ML : forall u v, 0 < u <= v -> Rpower u psi <= Rpower v psi).
  { intros u v [U V]. unfold Rpower. assert (ln u <= ln v) by (destruct V; [left; apply ln_increasing; lra|subst; lra]).
    assert (psi * ln u <= psi * ln v) by nra. destruct H0; [left; apply exp_increasing; auto|rewrite H0; lra]. }
  assert (O : forall x, 2/3 <= x -> 1 <= Rpower (15/10 * x) psi).
  { intros x X. replace 1 with (Rpower 1 psi) by (unfold Rpower; rewrite ln_1, Rmult_0_r, exp_0; reflexivity). apply ML. lra. }
  split; [|split; auto].
  destruct (Rle_dec r (2/3)).
  - rewrite (L r) by auto. split; [lra|]. destruct (Rle_dec r' (2/3)). rewrite (L r') by auto. lra. rewrite G by lra. apply O; lra.
  - rewrite !G by lra. split. apply O; lra. apply ML. lra.
Qed.
Lemma Rpower_mono : forall u v p, 0 <= p -> 0 < u <= v -> Rpower u p <= Rpower v p.
Proof.
  intros u v p P [U V]. unfold Rpower. assert (ln u <= ln v) by (destruct V; [left; apply ln_increasing; lra|subst; lra]).
  assert (p * ln u <= p * ln v) by nra. destruct H0; [left; apply exp_increasing; auto|rewrite H0; lra].
Qed.
Lemma new_alpha_lemma : forall e m m2, 0 <= e -> 0 < m -> 0 < m2 -> exists a, new_alpha e m m2 = Some a /\
  4 <= a <= 8 /\ Rmin 8 (4 + 125/100 * (e / m)) <= a /\
  (m2 >= m -> a <= 4 + 167/100 * (e / m)) /\
  (forall e' m2' a', e <= e' -> m2' <= m2 -> 0 < m2' -> new_alpha e' m m2' = Some a' -> a <= a') /\
  (4 * m <= a * m <= 8 * m).
Proof.
  intros e m m2 E M M2. unfold new_alpha. rewrite !pdiv_ok by lra. cbn [bind].
  assert (0 < m / m2) by (apply Rdiv_lt_0_compat; auto).
  destruct (Rltb (m / m2) 0) eqn:X; [apply Rltb_true in X; lra|].
  eexists; split; [reflexivity|]. assert (Q : 0 <= e / m) by (apply div_nn; auto).
  assert (PP : 0 < Rpower (m / m2) (67/100)) by (unfold Rpower; apply exp_pos).
  set (p := Rpower (m / m2) (67/100)) in *. set (q := e / m) in *.
  assert (0 <= 167/100 * q * p) by nra.
  assert (AB : 4 <= Rmin (Rmax (4 + 167/100 * q * p) (4 + 125/100 * q)) 8 <= 8) by (unfold Rmin, Rmax; repeat destruct Rle_dec; lra).
  split; auto. split. { unfold Rmin, Rmax; repeat destruct Rle_dec; lra. }
  split.
  - intros G. assert (p <= 1).
    { unfold p. replace 1 with (Rpower 1 (67/100)) by (unfold Rpower; rewrite ln_1, Rmult_0_r, exp_0; reflexivity).
      apply Rpower_mono; [lra|]. split; auto. apply (proj2 (div_le_iff _ _ _ M2)). lra. }
    unfold Rmin, Rmax; repeat destruct Rle_dec; nra.
  - split; [|nra]. intros e' m2' a' LE LM M2' H'. rewrite !pdiv_ok in H' by lra. cbn [bind] in H'.
    assert (m / m2 <= m / m2') by (apply div_anti; lra).
    destruct (Rltb (m / m2') 0) eqn:X'; [apply Rltb_true in X'; lra|]. apply some_inj in H'. subst a'.
    assert (q <= e' / m) by (apply div_le; lra).
    assert (p <= Rpower (m / m2') (67/100)) by (apply Rpower_mono; lra).
    assert (167/100 * q * p <= 167/100 * (e' / m) * Rpower (m / m2') (67/100)) by nra.
    unfold Rmin, Rmax; repeat destruct Rle_dec; lra.
Qed.
Lemma par_alfa_lemma : forall lam lambda1 a, par_alfa lam lambda1 = Some a ->
  (exists a0 l, lam a0 = Some l /\ Rabs (l - lambda1) <= 1/1000 /\ (a = a0 \/ a = a0 + (l - lambda1))) \/
  (exists seq : nat -> R, seq 0%nat = 65/10 /\ seq 1000%nat = a /\ forall n, (n < 1000)%nat -> exists l, lam (seq n) = Some l /\ seq (S n) = seq n + (l - lambda1) /\ (1/1000 < Rabs (l - lambda1))).
Proof.
  intros lam lambda1 a H. unfold par_alfa in H. apply bind_inv in H. destruct H as [l0 [L0 H]].
  assert (G : forall fuel alfa diff, (exists a0 l, lam a0 = Some l /\ diff = l - lambda1 /\ (alfa = a0 \/ alfa = a0 + (l - lambda1))) ->
    par_loop lam lambda1 fuel alfa diff = Some a ->
    (exists a0 l, lam a0 = Some l /\ Rabs (l - lambda1) <= 1/1000 /\ (a = a0 \/ a = a0 + (l - lambda1))) \/
    (1/1000 < Rabs diff /\ exists seq : nat -> R, seq 0%nat = alfa /\ seq fuel = a /\ forall n, (n < fuel)%nat -> exists l, lam (seq n) = Some l /\ seq (S n) = seq n + (l - lambda1) /\ (1/1000 < Rabs (l - lambda1)))).
  { clear. induction fuel as [|fuel IH]; intros alfa diff [a0 [l [A [B C]]]] H; cbn [par_loop] in H.
    - destruct (Rltb (1/1000) (Rabs diff)) eqn:E; [apply Rltb_true in E|apply Rltb_false in E]; apply some_inj in H; subst a.
      + right. split; auto. exists (fun _ => alfa). repeat split; auto. intros n N; lia.
      + left. exists a0, l. subst diff. repeat split; auto; lra.
    - destruct (Rltb (1/1000) (Rabs diff)) eqn:E; [apply Rltb_true in E|apply Rltb_false in E].
      + apply bind_inv in H. destruct H as [l1 [L1 H]].
        destruct (IH _ _ ltac:(exists alfa, l1; auto) H) as [G|[G1 [sq [S1 [S2 S3]]]]]; auto.
        right. split; auto. exists (fun n => match n with O => alfa | S n => sq n end). split; auto. split; auto.
        intros n N. destruct n as [|n]. { exists l1. rewrite S1. auto. } apply S3. lia.
      + apply some_inj in H. subst a. left. exists a0, l. subst diff. repeat split; auto; lra. }
  destruct (G 1000%nat (65/10) (l0 - lambda1)) as [A|[_ A]]; auto. exists (65/10), l0. auto.
Qed.

(* ------------------------------------------------------------- bolts and rows: values and definedness *)
Opaque part_thread.
Lemma bolt_values_lemma : forall n c len b, new_bolt n c len = Some b ->
  b_size b = n /\ b_class b = c /\ b_d0 b = INR n + (if Nat.ltb n 16 then 1 else if Nat.ltb n 27 then 2 else 3) /\
  shear_resistance b false = 12/25 * class_fub c * (PI * INR n ^ 2 / 4) /\
  shear_resistance b true = (match c with B46 | B56 | B88 => 12/25 | _ => 10/25 end) * class_fub c * t_As (b_data b) /\
  tension_resistance b (9/10) = 18/25 * class_fub c * t_As (b_data b) /\
  class_fyb c < class_fub c /\ 1/2 * (PI * INR n ^ 2 / 4) <= t_As (b_data b) < PI * INR n ^ 2 / 4.
Proof.
  intros n c len b H. unfold new_bolt in H.
  destruct (find_length part_thread n len); [|discriminate].
  destruct (size_data n) eqn:D; [|discriminate]. apply some_inj in H. subst b.
  unfold shear_resistance, tension_resistance, gammaM2; cbn [b_size b_class b_d0 b_fub b_A b_data].
  repeat match goal with |- _ /\ _ => split end; auto.
  - unfold hole. destruct (Nat.ltb n 16); [|destruct (Nat.ltb n 27)]; rewrite plus_INR; simpl; lra.
  - field.
  - destruct c; unfold alpha_v; field.
  - field.
  - destruct c; cbn; lra.
  - pose proof PI_4 as Q. destruct (size_cases _ _ D) as [->|[->|[->|[->|[-> | ->]]]]]; cbn [size_data] in D; apply some_inj in D; subst; cbn [t_As]; simpl INR; lra.
  - exact (proj2 (area_bounds _ _ D)).
Qed.

Lemma FT_defined : forall t, stub_ok t -> exists F i, FT_Rd t = Some (F, i) /\ 0 < F.
Proof. intros t T. destruct (tstub_lemma t T) as [F [i [_ [_ [E [_ [_ [_ [P _]]]]]]]]]. exists F, i. auto. Qed.
Lemma row_defined_lemma : forall fa j r n c len, new_bolt n c len = Some (r_bolt r) -> (0 < r_n r)%nat ->
  j_stiff j = None -> prof_ok (j_col j) -> 0 < s_tw (j_beam j) -> 0 < s_fy (j_beam j) -> 0 < j_tp j -> 0 < j_fyp j -> 0 < j_bp j ->
  0 < j_ebolts j -> 0 < j_p j -> 0 <= j_beta j <= 1 -> 0 < col_flange_m j -> 0 < col_flange_e j -> 0 < end_plate_m j r ->
  0 < emin_plate j r -> (r_pl r = FirstBelow -> 0 < end_plate_m2 j r) -> (forall x, r_e1 r = Some x -> 0 < x) ->
  flange_loc (r_fl r) -> r_pl r = Outside \/ plate_loc (r_pl r) ->
  exists F, row_resistance fa j r = Some F /\ 0 < F.
Proof.
  intros fa j r n c len B N ST PC BW BF TP FY BP EB JP BETA CM CE EM EP M2 E1 FL PL.
  assert (F3 : 0 < row_F3 r).
  { unfold row_F3. destruct (bolt_values_lemma _ _ _ _ B) as [_ [_ [_ [_ [_ [T [FF AA]]]]]]]. rewrite T.
    assert (0 < INR (r_n r)) by (apply lt_0_INR; lia). pose proof (fub_pos c). assert (0 < t_As (b_data (r_bolt r))).
    { pose proof PI_lo. pose proof (pow2_ge_0 (INR n)). unfold new_bolt in B. destruct (find_length _ _ _); [|discriminate].
      destruct (size_data n) eqn:D; [|discriminate]. apply some_inj in B. rewrite <- B. cbn. apply (area_bounds _ _ D). }
    assert (0 < class_fub c * t_As (b_data (r_bolt r))) by nra. nra. }
  assert (EF : 0 < emin_flange j).
  { unfold emin_flange, col_flange_e in *. destruct (Rltb (j_bp j) (s_b (j_col j))); lra. }
  destruct (flange_lengths_lemma fa (col_flange_e j) (col_flange_m j) (r_e1 r) (stiff_m2 j r) (r_fl r) CM CE FL E1) as [cp [nc [C1 [C2 [C3 [C4 _]]]]]].
  destruct PC as [P1 [P2 [P3 [P4 [P5 [P6 P7]]]]]].
  set (f := mkT (s_tf (j_col j)) (s_fy (j_col j)) (emin_flange j) (col_flange_m j) cp nc (row_F3 r)).
  assert (SF : stub_ok f) by (unfold stub_ok, f; cbn; repeat split; lra).
  assert (PS : exists p, plate_stub j r = Some p /\ stub_ok p).
  { pose proof PI_lo. unfold plate_stub.
    assert (exists cp' nc', plate_cp (end_plate_m j r) (j_ebolts j) (j_p j) (r_pl r) = Some cp' /\ 0 < cp' /\
       plate_nc (end_plate_m j r) (end_plate_m2 j r) (j_ebolts j) (emin_plate j r) (j_p j) (j_bp j) (r_pl r) = Some nc' /\ 0 < nc').
    { assert (0 < PI * end_plate_m j r) by nra. assert (0 < 2 * PI * end_plate_m j r) by nra. unfold plate_loc in PL.
      destruct (r_pl r); try (exfalso; destruct PL as [X|[X|[X|X]]]; discriminate X); cbn [plate_cp plate_nc].
      - eexists _, _; repeat split; lra.
      - eexists _, _; repeat split; lra.
      - eexists _, _; split; [reflexivity|]. split; [|split; [reflexivity|]]; unfold Rmin; repeat destruct Rle_dec; lra.
      - destruct (Reqb _ 0) eqn:X; [apply Reqb_true in X; lra|].
        destruct (new_alpha_lemma (j_ebolts j) (end_plate_m j r) (end_plate_m2 j r) ltac:(lra) EM (M2 eq_refl)) as [a [Ea [A1 _]]].
        rewrite Ea. cbn [bind]. eexists _, _; split; [reflexivity|]. split; [lra|]. split; [reflexivity|]. nra. }
    destruct H0 as [cp' [nc' [X1 [X2 [X3 X4]]]]]. rewrite X1. cbn [bind]. rewrite X3. cbn [bind]. eexists; split; [reflexivity|].
    unfold stub_ok; cbn; repeat split; lra. }
  destruct PS as [p [PE PO]].
  destruct (FT_defined f SF) as [cf [i [Ef F0]]]. destruct (FT_defined p PO) as [ep [k [Ep P0]]].
  unfold row_resistance, row_components. rewrite ST. unfold flange_stub. rewrite C1. cbn [bind]. rewrite C2. cbn [bind]. fold f.
  unfold run_FT. rewrite Ef. cbn [bind]. rewrite PE. cbn [bind]. rewrite Ep. cbn [bind]. unfold get_leff; cbn [mem_mode bind].
  set (lf := match i with O => mem1 _ | S _ => mem2 _ end).
  assert (LF : 0 < lf).
  { unfold lf. cbn [mem1 mem2]. destruct SF as [_ [_ [_ [_ [Q1 [Q2 _]]]]]]. destruct i; [unfold leff_1, Rmin; destruct Rle_dec; lra|exact Q2]. }
  destruct (col_web_tension_lemma (j_col j) lf (j_beta j)) as [wt [Ew [W0 _]]]; auto. { unfold prof_ok; repeat split; auto. }
  rewrite Ew. cbn [bind].
  match goal with |- exists F, bind (bind ?b _) _ = _ /\ _ => assert (BB : exists bw, b = Some bw /\ 0 < bw) end.
  { destruct (loc_eqb (r_pl r) Outside). eexists; split; [reflexivity|lra]. cbn [mem1 mem2]. eexists; split; [reflexivity|].
    unfold beam_web_tension, gammaM0. destruct PO as [_ [_ [_ [_ [Q1 [Q2 _]]]]]].
    assert (L : 0 < match k with O => leff_1 p | S _ => leff_2 p end) by (destruct k; [unfold leff_1, Rmin; destruct Rle_dec; lra|exact Q2]).
    set (l := match k with O => _ | S _ => _ end) in *. assert (0 < l * s_tw (j_beam j)) by nra. assert (0 < l * s_tw (j_beam j) * s_fy (j_beam j)) by nra. lra. }
  destruct BB as [bw [-> B0]]. cbn [bind].
  destruct (list_min [cf; ep; wt; bw]) as [F|] eqn:M.
  - exists F. split; auto. apply list_min_spec in M. destruct M as [M _]. cbn in M. destruct M as [<-|[<-|[<-|[<-|[]]]]]; lra.
  - apply list_min_none in M. discriminate.
Qed.
