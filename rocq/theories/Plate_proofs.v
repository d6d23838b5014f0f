(** Proofs about the plate rules. *)
From Verif Require Export Plate_model Plate_spec EC3_proofs.

Lemma div_le a b c : 0 < c -> a <= b -> a / c <= b / c.
Proof. intros; apply Rmult_le_compat_r; auto; left; apply Rinv_0_lt_compat; auto. Qed.
Lemma div_anti a b c : 0 <= a -> 0 < b <= c -> a / c <= a / b.
Proof. intros; apply Rmult_le_compat_l; auto; apply Rinv_le_contravar; lra. Qed.
Lemma div_le_iff a b c : 0 < b -> (a / b <= c <-> a <= c * b).
Proof.
  intros; split; intros G.
  - replace a with (a / b * b) by (field; lra). apply Rmult_le_compat_r; lra.
  - apply Rmult_le_reg_r with b; auto. replace (a / b * b) with a by (field; lra). auto.
Qed.
Lemma le_div_iff a b c : 0 < b -> (c <= a / b <-> c * b <= a).
Proof.
  intros; split; intros G.
  - replace a with (a / b * b) by (field; lra). apply Rmult_le_compat_r; lra.
  - apply Rmult_le_reg_r with b; auto. replace (a / b * b) with a by (field; lra). auto.
Qed.

(** C55 *)
Lemma winter_pos lp k : 0 < k -> k < lp -> 0 < (lp - k) / lp ^ 2.
Proof. intros; apply Rdiv_lt_0_compat; [lra|nra]. Qed.

Lemma rho_internal_lemma lp ps : ps <= 1 -> -3 < ps -> exists rho, reduction_factor_internal lp ps = Some rho /\ 0 < rho <= 1 /\
  (lp <= 1/2 + sqrt (85/1000 - 55/1000 * ps) -> rho = 1) /\
  (1/2 + sqrt (85/1000 - 55/1000 * ps) < lp -> rho = (lp - 55/1000 * (3 + ps)) / lp ^ 2 /\ rho < 1).
Proof.
  intros H H3. unfold reduction_factor_internal, psqrt. rewrite (proj2 (Rltb_false _ 0)) by lra. unfold bind.
  pose proof (sqrt_pos (85/1000 - 55/1000 * ps)) as P. pose proof (sqrt_sqrt (85/1000 - 55/1000 * ps) ltac:(lra)) as Q.
  set (s := sqrt _) in *. destruct (Rleb lp (1/2 + s)) eqn:E; rbs; eexists; split; try reflexivity.
  - split; [lra|]. split; auto. intros; lra.
  - assert (A : 0 < (lp - 55/1000 * (3 + ps)) / lp ^ 2) by (apply winter_pos; lra).
    assert (B : (lp - 55/1000 * (3 + ps)) / lp ^ 2 < 1).
    { apply Rmult_lt_reg_r with (lp ^ 2); [nra|]. replace ((lp - 55/1000 * (3 + ps)) / lp ^ 2 * lp ^ 2) with (lp - 55/1000 * (3 + ps)) by (field; lra). nra. }
    rewrite Rmin_left by lra. split; [lra|]. split; intros; [lra|split; lra].
Qed.
Lemma winter_anti k x y : 0 <= k -> 2 * k <= x -> 0 < x <= y -> (y - k) / y ^ 2 <= (x - k) / x ^ 2.
Proof.
  intros K X Y. apply div_le_iff; [nra|]. replace ((x - k) / x ^ 2 * y ^ 2) with ((x - k) * y ^ 2 / x ^ 2) by (field; lra).
  apply le_div_iff; [nra|].
  assert (0 <= (y - x) * (x * y - k * (x + y))); [|nra].
  apply Rmult_le_pos; [lra|]. nra.
Qed.
Lemma rho_internal_mono_lemma lp lp' ps r r' : -3 < ps <= 1 -> lp <= lp' ->
  reduction_factor_internal lp ps = Some r -> reduction_factor_internal lp' ps = Some r' -> r' <= r.
Proof.
  intros H L E E'. destruct (rho_internal_lemma lp ps) as (q & E1 & R1 & A1 & B1); try lra.
  destruct (rho_internal_lemma lp' ps) as (q' & E1' & R1' & A1' & B1'); try lra.
  rewrite E in E1; injection E1 as <-. rewrite E' in E1'; injection E1' as <-.
  destruct (Rle_dec lp (1/2 + sqrt (85/1000 - 55/1000 * ps))) as [C|C]; [rewrite (A1 C); lra|].
  destruct (B1 ltac:(lra)) as [-> _]. destruct (B1' ltac:(lra)) as [-> _].
  pose proof (sqrt_pos (85/1000 - 55/1000 * ps)). apply winter_anti; lra.
Qed.
Lemma rho_outstand_lemma lp : 0 < reduction_factor_outstand lp <= 1 /\ (lp <= 748/1000 -> reduction_factor_outstand lp = 1).
Proof.
  unfold reduction_factor_outstand. rbs; split; intros; try lra. split; [|apply Rmin_r].
  apply Rmin_glb_lt; [apply winter_pos|]; lra.
Qed.
Lemma rho_outstand_mono_lemma x y : x <= y -> reduction_factor_outstand y <= reduction_factor_outstand x.
Proof.
  intros L. destruct (Rle_dec x (748/1000)) as [C|C].
  - rewrite (proj2 (rho_outstand_lemma x) C). apply rho_outstand_lemma.
  - unfold reduction_factor_outstand. rewrite (proj2 (Rleb_false x _)), (proj2 (Rleb_false y _)) by lra.
    apply Rle_min_compat_r. apply winter_anti; lra.
Qed.

Lemma eff_internal_lemma b ps rho : 0 < b -> ps <= 1 -> 0 < rho <= 1 -> forall beff b1 b2,
  effective_width_internal b ps rho = (beff, (b1, b2)) ->
  b1 + b2 = beff /\ 0 < b1 /\ 0 < b2 /\ beff = rho * compressed b ps /\ beff <= compressed b ps /\ (rho = 1 -> beff = compressed b ps).
Proof.
  intros B P R1 beff b1 b2. unfold effective_width_internal, compressed.
  assert (M : 0 < rho * b <= b) by (split; nra).
  destruct (Rltb (Rabs (ps - 1)) (1/1000000)) eqn:E1; rbs; intros E; injection E as <- <- <-.
  - destruct (Rabs_facts (ps - 1)); (destruct (Rlt_dec ps 0); [lra|]); repeat split; try lra; intros ->; lra.
  - destruct (Rlt_dec ps 0); [lra|].
    assert (Q : 0 < 2 / (5 - ps) <= 1/2).
    { split; [apply Rdiv_lt_0_compat; lra|]. apply div_le_iff; lra. }
    set (q := 2 / (5 - ps)) in *. clearbody q. repeat split; try nra; try lra; intros ->; lra.
  - destruct (Rlt_dec ps 0).
    + assert (0 < b / (1 - ps)) by (apply Rdiv_lt_0_compat; lra).
      replace (b * rho / (1 - ps)) with (rho * (b / (1 - ps))) by (field; lra).
      set (w := b / (1 - ps)) in *. clearbody w. repeat split; try nra; intros ->; lra.
    + assert (ps = 0) by lra. subst. replace (b * rho / (1 - 0)) with (rho * b) by field.
      repeat split; try nra; intros ->; lra.
Qed.
Lemma eff_outstand_lemma b ps rho : 0 < b -> 0 < rho <= 1 ->
  effective_width_outstand b ps rho = rho * compressed b ps /\ 0 < effective_width_outstand b ps rho <= compressed b ps.
Proof.
  intros B R1. unfold effective_width_outstand, compressed. destruct (Rlt_dec ps 0).
  - rewrite (proj2 (Rltb_true ps 0)) by auto. assert (0 < b / (1 - ps)) by (apply Rdiv_lt_0_compat; lra).
    replace (b * rho / (1 - ps)) with (rho * (b / (1 - ps))) by (field; lra). set (w := b / (1 - ps)) in *. clearbody w. split; [auto|split; nra].
  - rewrite (proj2 (Rltb_false ps 0)) by lra. split; [auto|split; nra].
Qed.

(** C56 *)
Lemma ks_table_lemma ps k : -3 < ps -> buckling_factor_internal ps = Some k -> Rabs (k - table41 ps) <= 2/100.
Proof.
  intros H. unfold buckling_factor_internal, table41.
  destruct (Rle_dec 0 ps); [|destruct (Rle_dec (-1) ps)]; rbs; try lra; intros E; injection E as <-; subst;
  try (replace (ps) with (-1) in * by lra); apply Rabs_le; lra.
Qed.
Lemma ks_defined_lemma ps : (exists k, buckling_factor_internal ps = Some k) <-> -3 < ps.
Proof.
  unfold buckling_factor_internal. rbs; split; intros; try lra; try (eexists; reflexivity). destruct H as [k H]; discriminate.
Qed.
(** The formulas of the table meet within 0.04, so nearby stress ratios give nearby
    coefficients. *)
Lemma ks_positive_lemma ps k : -3 < ps <= 1 -> buckling_factor_internal ps = Some k -> 4 <= k <= 96.
Proof.
  intros H. unfold buckling_factor_internal. rbs; intros E; try discriminate; injection E as <-; try lra.
  - split; [apply le_div_iff; lra|apply div_le_iff; lra].
  - split; nra.
  - split; nra.
Qed.
Lemma ks_lipschitz_lemma p q kp kq : -3 < p <= 1 -> -3 < q <= 1 ->
  buckling_factor_internal p = Some kp -> buckling_factor_internal q = Some kq ->
  Rabs (kp - kq) <= 48 * Rabs (p - q) + 4/100.
Proof.
  (* by monotonicity arguments on each branch *)
  intros Hp Hq.
  assert (KEY : forall p q kp kq, -3 < p -> p <= q -> q <= 1 ->
    buckling_factor_internal p = Some kp -> buckling_factor_internal q = Some kq ->
    - (4/100) <= kp - kq <= 48 * (q - p) + 4/100).
  { clear. intros p q kp kq Hp Hpq Hq Ep Eq.
    assert (D : forall x, 0 <= x <= 1 -> 4 <= 82/10 / (105/100 + x) <= 781/100).
    { intros; split; [apply le_div_iff; lra|apply div_le_iff; lra]. }
    assert (D2 : forall x y, 0 <= x <= y -> y <= 1 -> 0 <= 82/10 / (105/100 + x) - 82/10 / (105/100 + y) <= 8 * (y - x)).
    { intros x y Hx Hy. replace (82/10 / (105/100 + x) - 82/10 / (105/100 + y)) with (82/10 * (y - x) / ((105/100 + x) * (105/100 + y))) by (field; lra).
      assert (11/10 < (105/100 + x) * (105/100 + y)) by nra.
      set (z := (105/100 + x) * (105/100 + y)) in *; clearbody z; split; [apply le_div_iff; [lra|rewrite Rmult_0_l; lra]|apply div_le_iff; [lra|nra]]. }
    unfold buckling_factor_internal in Ep, Eq.
    pose proof (D p) as Dp; pose proof (D q) as Dq; pose proof (D2 p q) as Dpq.
    pose proof (D2 0 q) as D0q. replace (82/10 / (105/100 + 0)) with (820/105) in D0q by field.
    pose proof (D2 p 1) as Dp1. replace (82/10 / (105/100 + 1)) with 4 in Dp1 by field.
    revert Ep Eq. rbs; intros Ep Eq; try discriminate; injection Ep as <-; injection Eq as <-; subst; try lra; split; try nra. }
  intros Ep Eq. destruct (Rle_dec p q).
  - pose proof (KEY p q kp kq ltac:(lra) ltac:(lra) ltac:(lra) Ep Eq). destruct (Rabs_facts (p - q)), (Rabs_facts (kp - kq)); lra.
  - pose proof (KEY q p kq kp ltac:(lra) ltac:(lra) ltac:(lra) Eq Ep). destruct (Rabs_facts (p - q)), (Rabs_facts (kp - kq)); lra.
Qed.

(** Outstand parts. *)
Lemma ko_tip_lemma ps : buckling_factor_outstand ps true = 57/100 - 21/100 * ps + 7/100 * ps ^ 2.
Proof. unfold buckling_factor_outstand. rbs; subst; lra. Qed.
Lemma ko_support_lemma ps : -1 < ps < 1 ->
  let k := buckling_factor_outstand ps false in
  (0 < ps -> k = 578/1000 / (ps + 34/100)) /\ (ps <= 0 -> k = 17/10 - 5 * ps + 171/10 * ps ^ 2) /\ 43/100 < k < 238/10.
Proof.
  intros H. cbv zeta. unfold buckling_factor_outstand.
  destruct (Rlt_dec 0 ps) as [P|P].
  - rewrite (proj2 (Rltb_true ps 1)), (proj2 (Rltb_true 0 ps)) by lra. cbn [andb].
    split; [auto|]. split; [intros; lra|]. split.
    + apply Rmult_lt_reg_r with (ps + 34/100); [lra|]. replace (578/1000 / (ps + 34/100) * (ps + 34/100)) with (578/1000) by (field; lra). lra.
    + apply Rmult_lt_reg_r with (ps + 34/100); [lra|]. replace (578/1000 / (ps + 34/100) * (ps + 34/100)) with (578/1000) by (field; lra). lra.
  - rewrite (proj2 (Rltb_false 0 ps)) by lra. rewrite andb_false_r. destruct (Reqb ps 0) eqn:Z; [apply Reqb_true in Z|apply Reqb_false in Z].
    + subst. split; [intros; lra|]. split; [intros; lra|lra].
    + rewrite (proj2 (Rltb_true ps 0)), (proj2 (Rltb_true (-1) ps)) by lra. cbn [andb]. split; [intros; lra|]. split; auto. split; nra.
Qed.
(** Finding: at stress ratio 1 with the larger stress at the support the coefficient
    is 23.8 instead of 0.43. *)
Lemma ko_support_refuted_lemma : buckling_factor_outstand 1 false = 238/10 /\
  forall d, 0 < d < 1 -> buckling_factor_outstand (1 - d) false <= 44/100 + 2 * d.
Proof.
  split.
  - unfold buckling_factor_outstand. rewrite (proj2 (Rltb_false 1 1)) by lra. cbn [andb].
    rewrite (proj2 (Reqb_false 1 0)) by lra. rewrite (proj2 (Rltb_false 1 0)) by lra. reflexivity.
  - intros d H. unfold buckling_factor_outstand. rewrite (proj2 (Rltb_true (1 - d) 1)), (proj2 (Rltb_true 0 (1 - d))) by lra.
    cbn [andb]. apply div_le_iff; [lra|]. nra.
Qed.

(** C57 *)
Lemma shear_chi_lemma sw eta post c : 77/100 <= eta -> 0 <= sw -> shear_buckling_reduction_factor sw eta post = Some c -> 0 < c <= eta.
Proof.
  intros He Hs. unfold shear_buckling_reduction_factor.
  assert (Q : 0 < 83/100 / eta) by (apply Rdiv_lt_0_compat; lra).
  destruct (Rltb sw (83/100 / eta)) eqn:E1; [intros E; injection E as <-; lra|]. apply Rltb_false in E1.
  assert (P : 0 < 83/100 / sw <= eta).
  { split; [apply Rdiv_lt_0_compat; lra|]. apply div_le_iff; [lra|]. apply div_le_iff in E1; lra. }
  destruct (Rltb sw (108/100)) eqn:E2; [intros E; injection E as <-; auto|]. apply Rltb_false in E2.
  destruct post as [[|]|]; intros E; try discriminate; injection E as <-; auto.
  split; [apply Rdiv_lt_0_compat; lra|]. apply div_le_iff; [lra|]. nra.
Qed.
Lemma shear_chi_mono_lemma sw sw' eta post c c' : 77/100 <= eta -> 0 <= sw <= sw' ->
  shear_buckling_reduction_factor sw eta post = Some c -> shear_buckling_reduction_factor sw' eta post = Some c' ->
  (post = Some false -> c' <= c) /\ c' <= c + 12/10000.
Proof.
  intros He Hs E E'. pose proof (shear_chi_lemma sw' eta post c' He ltac:(lra) E') as B'.
  assert (Q : 0 < 83/100 / eta) by (apply Rdiv_lt_0_compat; lra).
  revert E E'. unfold shear_buckling_reduction_factor.
  destruct (Rltb sw (83/100 / eta)) eqn:E1; [intros E _; injection E as <-; split; intros; lra|]. apply Rltb_false in E1.
  rewrite (proj2 (Rltb_false sw' (83/100 / eta))) by lra.
  assert (D : 83/100 / sw' <= 83/100 / sw) by (apply div_anti; lra).
  destruct (Rltb sw (108/100)) eqn:E2.
  - apply Rltb_true in E2. intros E; injection E as <-.
    destruct (Rltb sw' (108/100)) eqn:E3; [intros E; injection E as <-; split; intros; lra|]. apply Rltb_false in E3.
    destruct post as [[|]|]; intros E; try discriminate; injection E as <-; (split; intros; try discriminate; try lra).
    assert (137/100 / (7/10 + sw') <= 137/178) by (apply div_le_iff; lra).
    assert (83/108 <= 83/100 / sw) by (apply le_div_iff; lra). lra.
  - apply Rltb_false in E2. rewrite (proj2 (Rltb_false sw' (108/100))) by lra.
    destruct post as [[|]|]; intros E F; try discriminate; injection E as <-; injection F as <-; (split; intros; try discriminate; try lra).
    assert (137/100 / (7/10 + sw') <= 137/100 / (7/10 + sw)) by (apply div_anti; lra). lra.
Qed.
(** Finding: with rigid end posts the factor steps up at slenderness 1.08. *)
Lemma shear_chi_refuted_lemma : exists sw sw' c c', 0 <= sw < sw' /\
  shear_buckling_reduction_factor sw (12/10) (Some true) = Some c /\
  shear_buckling_reduction_factor sw' (12/10) (Some true) = Some c' /\ c < c'.
Proof.
  exists (1079/1000), (108/100), (83/100 / (1079/1000)), (137/100 / (7/10 + 108/100)).
  split; [lra|]. unfold shear_buckling_reduction_factor. split; [|split].
  - rewrite (proj2 (Rltb_false _ _)) by lra. rewrite (proj2 (Rltb_true _ _)) by lra. auto.
  - rewrite (proj2 (Rltb_false _ _)) by lra. rewrite (proj2 (Rltb_false _ _)) by lra. auto.
  - lra.
Qed.
(** A mistyped end post is only noticed above slenderness 1.08. *)
Lemma shear_bad_post_lemma sw eta : 77/100 <= eta ->
  (shear_buckling_reduction_factor sw eta None = None <-> 108/100 <= sw).
Proof.
  intros He. unfold shear_buckling_reduction_factor.
  assert (83/100 / eta <= 108/100) by (apply div_le_iff; lra).
  rbs; split; intros; try discriminate; try lra; auto.
Qed.
Lemma eta_lemma fy : 77/100 <= shear_eta fy <= 12/10 /\ 1 <= shear_eta fy.
Proof. unfold shear_eta; rbs; lra. Qed.

Lemma lambda_p_eq b t eps ks : 0 < t -> 0 < eps -> 0 < ks -> lambda_p b t eps ks = Some (b / t / (284/10) / eps / sqrt ks).
Proof.
  intros. unfold lambda_p, pdiv, psqrt, bind. pose proof (sqrt_lt_R0 ks H1).
  rewrite (proj2 (Reqb_false t 0)), (proj2 (Reqb_false eps 0)) by lra. rewrite (proj2 (Rltb_false ks 0)) by lra.
  rewrite (proj2 (Reqb_false (sqrt ks) 0)) by lra. auto.
Qed.
Lemma lambda_factor b t eps ks : 0 < t -> 0 < eps -> 0 < ks ->
  b / t / (284/10) / eps / sqrt ks = b / t * (1 / (284/10 * eps * sqrt ks)) /\ 0 < 1 / (284/10 * eps * sqrt ks).
Proof.
  intros T1 E1 K. pose proof (sqrt_lt_R0 ks K) as S1. split; [field; lra|].
  apply Rdiv_lt_0_compat; [lra|]. apply Rmult_lt_0_compat; [nra|auto].
Qed.
Lemma eff_fst b ps rho : ps <= 1 -> fst (effective_width_internal b ps rho) = rho * compressed b ps.
Proof.
  intros H. unfold effective_width_internal, compressed. destruct (Rlt_dec ps 0).
  - rewrite (proj2 (Rltb_false _ _)); [|destruct (Rabs_facts (ps - 1)); lra]. rewrite (proj2 (Rltb_false 0 ps)) by lra. simpl. field. lra.
  - rbs; simpl; auto. assert (ps = 0) by lra. subst. field.
Qed.
Lemma compressed_pos b ps : 0 < b -> 0 < compressed b ps.
Proof. intros; unfold compressed; destruct (Rlt_dec ps 0); auto. apply Rdiv_lt_0_compat; lra. Qed.
Lemma compressed_mono b b' ps : b <= b' -> compressed b ps <= compressed b' ps.
Proof. intros; unfold compressed; destruct (Rlt_dec ps 0); auto. apply div_le; lra. Qed.

Lemma plate_defined_lemma b t eps ps : 0 < b -> 0 < t -> 0 < eps -> -3 < ps <= 1 ->
  exists w, plate_beff b t eps ps = Some w /\ 0 < w <= compressed b ps.
Proof.
  intros B T1 E1 P. unfold plate_beff. destruct (proj2 (ks_defined_lemma ps) (proj1 P)) as [ks K]. rewrite K. cbn [bind].
  pose proof (ks_positive_lemma ps ks P K). rewrite lambda_p_eq by lra. cbn [bind].
  match goal with |- context [reduction_factor_internal ?l ps] => destruct (rho_internal_lemma l ps) as (rho & R1 & R2 & _); try lra end.
  rewrite R1. cbn [bind]. eexists; split; [reflexivity|]. rewrite eff_fst by lra. pose proof (compressed_pos b ps B). split; nra.
Qed.
Lemma plate_thickness_lemma b t t' eps ps w w' : 0 < b -> 0 < t <= t' -> 0 < eps -> -3 < ps <= 1 ->
  plate_beff b t eps ps = Some w -> plate_beff b t' eps ps = Some w' -> w <= w'.
Proof.
  intros B T1 E1 P. unfold plate_beff. destruct (proj2 (ks_defined_lemma ps) (proj1 P)) as [ks K]. rewrite K. cbn [bind].
  pose proof (ks_positive_lemma ps ks P K). rewrite !lambda_p_eq by lra. cbn [bind].
  match goal with |- context [reduction_factor_internal ?l ps] => set (l1 := l) end.
  match goal with |- context [reduction_factor_internal ?l ps] => match l with l1 => fail 1 | _ => set (l2 := l) end end.
  destruct (reduction_factor_internal l1 ps) as [r1|] eqn:R1; cbn [bind]; [|discriminate].
  destruct (reduction_factor_internal l2 ps) as [r2|] eqn:R2; cbn [bind]; [|discriminate].
  intros Ea Eb; injection Ea as <-; injection Eb as <-. rewrite !eff_fst by lra.
  apply Rmult_le_compat_r; [left; apply compressed_pos; auto|].
  refine (rho_internal_mono_lemma l2 l1 ps r2 r1 P _ R2 R1).
  unfold l1, l2. destruct (lambda_factor b t eps ks) as [-> F]; try lra. destruct (lambda_factor b t' eps ks) as [-> _]; try lra.
  apply Rmult_le_compat_r; [lra|]. apply div_anti; lra.
Qed.
(** rho * lp = min(lp, 1 - k/lp) does not decrease, so a wider plate does not have a
    smaller effective width. *)
Lemma rho_lp_mono lp lp' ps r r' : -3 < ps <= 1 -> 0 < lp <= lp' ->
  reduction_factor_internal lp ps = Some r -> reduction_factor_internal lp' ps = Some r' -> r * lp <= r' * lp'.
Proof.
  intros H L E E'. destruct (rho_internal_lemma lp ps) as (q & E1 & R1 & A1 & B1); try lra.
  destruct (rho_internal_lemma lp' ps) as (q' & E1' & R1' & A1' & B1'); try lra.
  rewrite E in E1; injection E1 as <-. rewrite E' in E1'; injection E1' as <-.
  pose proof (sqrt_pos (85/1000 - 55/1000 * ps)) as SP. pose proof (sqrt_sqrt (85/1000 - 55/1000 * ps) ltac:(lra)) as SS1.
  set (s := sqrt _) in *.
  assert (W : forall x, 0 < x -> (x - 55/1000 * (3 + ps)) / x ^ 2 * x = 1 - 55/1000 * (3 + ps) / x) by (intros; field; lra).
  destruct (Rle_dec lp' (1/2 + s)) as [C'|C'].
  - rewrite (A1' C'), (A1 ltac:(lra)). lra.
  - destruct (B1' ltac:(lra)) as [F' _]. rewrite F', W by lra. destruct (Rle_dec lp (1/2 + s)) as [C|C].
    + rewrite (A1 C). set (k := 55/1000 * (3 + ps)) in *.
      assert (Kk : k = (1/2 + s) * (1/2 - s)) by (unfold k; nra).
      assert (k / lp' <= 1/2 - s). { apply div_le_iff; [lra|]. rewrite Kk. assert (0 <= 1/2 - s); [|nra]. unfold k in Kk. nra. }
      lra.
    + destruct (B1 ltac:(lra)) as [F _]. rewrite F, W by lra.
      assert (55/1000 * (3 + ps) / lp' <= 55/1000 * (3 + ps) / lp) by (apply div_anti; lra). lra.
Qed.
Lemma plate_width_lemma b b' t eps ps w w' : 0 < b <= b' -> 0 < t -> 0 < eps -> -3 < ps <= 1 ->
  plate_beff b t eps ps = Some w -> plate_beff b' t eps ps = Some w' -> w <= w'.
Proof.
  intros B T1 E1 P. unfold plate_beff. destruct (proj2 (ks_defined_lemma ps) (proj1 P)) as [ks K]. rewrite K. cbn [bind].
  pose proof (ks_positive_lemma ps ks P K). rewrite !lambda_p_eq by lra. cbn [bind].
  destruct (lambda_factor b t eps ks) as [-> F]; try lra. destruct (lambda_factor b' t eps ks) as [-> _]; try lra.
  set (m := 1 / (284/10 * eps * sqrt ks)) in *. clearbody m.
  assert (G : forall z, compressed z ps = z / t * m * (compressed 1 ps * t / m)).
  { intros z. unfold compressed. destruct (Rlt_dec ps 0); field; lra. }
  destruct (reduction_factor_internal (b / t * m) ps) as [r1|] eqn:R1; cbn [bind]; [|discriminate].
  destruct (reduction_factor_internal (b' / t * m) ps) as [r2|] eqn:R2; cbn [bind]; [|discriminate].
  intros Ea Eb; injection Ea as <-; injection Eb as <-. rewrite !eff_fst by lra. 
  assert (C : 0 < compressed 1 ps * t / m).
  { apply Rdiv_lt_0_compat; auto. apply Rmult_lt_0_compat; auto. apply compressed_pos; lra. }
  rewrite (G b), (G b'). set (c := compressed 1 ps * t / m) in *. clearbody c.
  assert (0 < b / t) by (apply Rdiv_lt_0_compat; lra). assert (b / t <= b' / t) by (apply div_le; lra).
  assert (X : r1 * (b / t * m) <= r2 * (b' / t * m)).
  { eapply rho_lp_mono; eauto. split; [apply Rmult_lt_0_compat; auto|apply Rmult_le_compat_r; lra]. }
  rewrite <- !(Rmult_assoc _ _ c). apply Rmult_le_compat_r; lra.
Qed.

(** Shear resistance of the web against thickness. *)
Lemma ktau_lemma hw a : 0 < hw -> 0 < a -> 534/100 <= shear_buckling_coefficient hw a.
Proof.
  intros H A. unfold shear_buckling_coefficient. assert (P : 0 < a / hw) by (apply Rdiv_lt_0_compat; auto).
  set (r := a / hw) in *. clearbody r. cbv zeta. rbs.
  - assert (0 < 4 / r ^ 2) by (apply Rdiv_lt_0_compat; nra). lra.
  - assert (534/100 <= 534/100 / r ^ 2) by (apply le_div_iff; nra). lra.
Qed.
Lemma ktau_continuous_lemma hw : 0 < hw -> shear_buckling_coefficient hw hw = 534/100 + 4 /\
  forall a, 0 < a -> (a < hw -> shear_buckling_coefficient hw a = 4 + 534/100 * (hw / a) ^ 2) /\
                     (hw <= a -> shear_buckling_coefficient hw a = 534/100 + 4 * (hw / a) ^ 2).
Proof.
  intros H. unfold shear_buckling_coefficient. split.
  - replace (hw / hw) with 1 by (field; lra). cbv zeta. rewrite (proj2 (Rleb_true 1 1)) by lra. field.
  - intros a A. split; intros C.
    + rewrite (proj2 (Rleb_false 1 _)). 2:{ apply Rmult_lt_reg_r with hw; auto. replace (a / hw * hw) with a by (field; lra). lra. }
      field; lra.
    + rewrite (proj2 (Rleb_true 1 _)). 2:{ apply le_div_iff; lra. } field; lra.
Qed.
Lemma ktau_mono_lemma hw a a' : 0 < hw -> 0 < a <= a' -> shear_buckling_coefficient hw a' <= shear_buckling_coefficient hw a.
Proof.
  intros H A. destruct (ktau_continuous_lemma hw H) as [_ K]. destruct (K a ltac:(lra)) as [K1 K2]. destruct (K a' ltac:(lra)) as [K3 K4].
  assert (Q : 0 < hw / a' <= hw / a) by (split; [apply Rdiv_lt_0_compat; lra|apply div_anti; lra]).
  destruct (Rlt_dec a hw), (Rlt_dec a' hw).
  - rewrite K1, K3 by auto. nra.
  - rewrite K1, K4 by lra. assert (1 <= hw / a) by (apply le_div_iff; lra). assert (hw / a' <= 1) by (apply div_le_iff; lra). nra.
  - lra.
  - rewrite K2, K4 by lra. nra.
Qed.

Lemma web_slend hw a t fyw : 0 < hw -> 0 < a -> 0 < t -> 0 < fyw ->
  shear_buckling_slenderness fyw (tau_crit hw a t hw) = 76/100 * sqrt (fyw / (shear_buckling_coefficient hw a * 190000)) * (hw / t).
Proof.
  intros H A T1 F. pose proof (ktau_lemma hw a H A) as K. unfold shear_buckling_slenderness, tau_crit, sigma_E.
  set (k := shear_buckling_coefficient hw a) in *. clearbody k.
  assert (0 < hw / t) by (apply Rdiv_lt_0_compat; lra).
  replace (fyw / (k * (190000 * (t / hw) ^ 2))) with (fyw / (k * 190000) * (hw / t) ^ 2) by (field; lra).
  assert (0 < fyw / (k * 190000)) by (apply Rdiv_lt_0_compat; nra).
  rewrite sqrt_mult by nra. rewrite sqrt_pow2 by lra. ring.
Qed.
Lemma web_shear_lemma fyw hw a t post v : 0 < hw -> 0 < a -> 0 < t -> 0 < fyw ->
  web_shear fyw hw a t post = Some v -> 0 < v <= shear_eta fyw * (hw * t) * fyw / sqrt 3.
Proof.
  intros H A T1 F. unfold web_shear. destruct (shear_buckling_reduction_factor _ _ _) as [c|] eqn:E; cbn [bind]; [|discriminate].
  intros X; injection X as <-. apply shear_chi_lemma in E; [|apply eta_lemma|].
  - unfold shear_buckling_web, gammaM1. pose proof (sqrt_lt_R0 3 ltac:(lra)). rewrite Rmult_1_r.
    assert (0 < fyw * hw * t) by (apply Rmult_lt_0_compat; nra). split.
    + apply Rdiv_lt_0_compat; auto. replace (c * fyw * hw * t) with (c * (fyw * hw * t)) by ring. nra.
    + apply div_le; auto. replace (c * fyw * hw * t) with (c * (fyw * hw * t)) by ring.
      replace (shear_eta fyw * (hw * t) * fyw) with (shear_eta fyw * (fyw * hw * t)) by ring. nra.
  - unfold shear_buckling_slenderness. apply Rmult_le_pos; [lra|apply sqrt_pos].
Qed.
Lemma web_shear_thickness_lemma fyw hw a t t' v v' : 0 < hw -> 0 < a -> 0 < t <= t' -> 0 < fyw ->
  web_shear fyw hw a t (Some false) = Some v -> web_shear fyw hw a t' (Some false) = Some v' -> v <= v'.
Proof.
  intros H A T1 F. unfold web_shear. rewrite !web_slend by lra.
  set (m := 76/100 * sqrt (fyw / (shear_buckling_coefficient hw a * 190000))).
  assert (M : 0 <= m) by (apply Rmult_le_pos; [lra|apply sqrt_pos]). clearbody m.
  destruct (shear_buckling_reduction_factor (m * (hw / t)) _ _) as [c|] eqn:E; cbn [bind]; [|discriminate].
  destruct (shear_buckling_reduction_factor (m * (hw / t')) _ _) as [c'|] eqn:E'; cbn [bind]; [|discriminate].
  intros X Y; injection X as <-; injection Y as <-.
  assert (Q : 0 < hw / t' <= hw / t) by (split; [apply Rdiv_lt_0_compat; lra|apply div_anti; lra]).
  assert (c <= c').
  { refine (proj1 (shear_chi_mono_lemma (m * (hw / t')) (m * (hw / t)) (shear_eta fyw) (Some false) c' c _ _ E' E) eq_refl); [apply eta_lemma|split; nra]. }
  assert (0 < c) by (eapply shear_chi_lemma; [|..|exact E]; [apply eta_lemma|nra]).
  unfold shear_buckling_web, gammaM1. pose proof (sqrt_lt_R0 3 ltac:(lra)). rewrite Rmult_1_r. apply div_le; auto.
  assert (c * t <= c' * t') by (apply Rmult_le_compat; lra). assert (0 < fyw * hw) by nra.
  replace (c * fyw * hw * t) with (fyw * hw * (c * t)) by ring. replace (c' * fyw * hw * t') with (fyw * hw * (c' * t')) by ring.
  apply Rmult_le_compat_l; lra.
Qed.

(** Transverse force: load types a and b. *)
Lemma Rmin_scale c a b : 0 < c -> Rmin a b * c = Rmin (a * c) (b * c).
Proof.
  intros H. unfold Rmin. destruct (Rle_dec a b), (Rle_dec (a * c) (b * c)); auto; exfalso; nra.
Qed.
Definition strip (K ly : R) : R := Rmin (1/2 / sqrt (ly * K)) 1 * ly.
Lemma strip_eq K ly : 0 < K -> 0 < ly -> strip K ly = Rmin (1/2 * sqrt (ly / K)) ly.
Proof.
  intros HK L. unfold strip. assert (H : 0 < ly * K) by nra. pose proof (sqrt_lt_R0 _ H) as S1.
  rewrite Rmin_scale by auto. rewrite Rmult_1_l. f_equal.
  replace (ly / K) with (ly ^ 2 / (ly * K)) by (field; lra). rewrite sqrt_div; [|nra|nra]. rewrite sqrt_pow2 by lra. field. lra.
Qed.
Lemma strip_mono K l l' : 0 < K -> 0 < l <= l' -> strip K l <= strip K l'.
Proof.
  intros HK L. rewrite !strip_eq by lra.
  assert (sqrt (l / K) <= sqrt (l' / K)) by (apply sqrt_le_1_alt, div_le; lra).
  apply Rmin_glb; [eapply Rle_trans; [apply Rmin_l|lra]|eapply Rle_trans; [apply Rmin_r|lra]].
Qed.
Lemma strip_pos K l : 0 < K -> 0 < l -> 0 < strip K l <= l.
Proof.
  intros HK L. rewrite strip_eq by lra. split; [|apply Rmin_r]. apply Rmin_glb_lt; auto.
  assert (0 < sqrt (l / K)) by (apply sqrt_lt_R0, Rdiv_lt_0_compat; lra). lra.
Qed.

Definition ly_of (tf a m1 m2 ss : R) : R := Rmin (ss + 2 * tf * (1 + sqrt (m1 + m2))) a.

Lemma tf_form fyw hw tw fyf bf tf ss a ty c : tf_ok fyw hw tw fyf bf tf ss a -> ty <> Tc ->
  let A := spacing hw a in let m1 := fyf * bf / fyw / tw in
  let Fcr := 9/10 * kF hw A (Rmin ss hw) c ty * E_mod * tw ^ 3 / hw in
  let K := tw * fyw / Fcr in
  0 < K /\ (forall x, 0 < ly_of tf A m1 0 x \/ x < 0) /\
  transverse_force_resistance fyw hw tw fyf bf tf ss a ty c =
  fyw * tw * (let l0 := ly_of tf A m1 0 (Rmin ss hw) in
    if Rltb (1/2) (sqrt (l0 * K)) then strip K (ly_of tf A m1 (2/100 * (hw / tf) ^ 2) (Rmin ss hw)) else strip K l0).
Proof.
  intros (F & H & T1 & Ff & B & Tf & S1 & A1) Nc. cbv zeta.
  assert (PA : 0 < spacing hw a) by (unfold spacing; destruct (Req_EM_T a 0); lra).
  assert (PK : 0 < kF hw (spacing hw a) (Rmin ss hw) c ty).
  { assert (0 <= (hw / spacing hw a) ^ 2) by apply pow2_ge_0. destruct ty; simpl in *; try congruence; lra. }
  assert (PF : 0 < 9/10 * kF hw (spacing hw a) (Rmin ss hw) c ty * E_mod * tw ^ 3 / hw).
  { apply Rdiv_lt_0_compat; auto. unfold E_mod. assert (0 < tw ^ 3) by (apply pow_lt; auto). nra. }
  split; [apply Rdiv_lt_0_compat; nra|]. split.
  - intros x. destruct (Rlt_dec x 0); [right; auto|left]. unfold ly_of. apply Rmin_glb_lt; auto.
    pose proof (sqrt_pos (fyf * bf / fyw / tw + 0)). nra.
  - unfold transverse_force_resistance. unfold spacing in *. unfold Reqb.
    destruct (Req_EM_T a 0) as [Z|Z]; cbv zeta iota beta in *; unfold gammaM1, strip, ly_of, eff_len;
    set (Fcr := 9/10 * kF _ _ _ _ _ * E_mod * tw ^ 3 / hw) in *; clearbody Fcr;
    (destruct ty; [| |congruence]);
    match goal with |- context [sqrt (?l * tw * fyw / Fcr)] => replace (l * tw * fyw / Fcr) with (l * (tw * fyw / Fcr)) by (field; lra) end;
    (destruct (Rltb _ _); [match goal with |- context [sqrt (?l * tw * fyw / Fcr)] => replace (l * tw * fyw / Fcr) with (l * (tw * fyw / Fcr)) by (field; lra) end|]);
    unfold Rdiv; rewrite Rinv_1; ring.
Qed.

Lemma ly_mono tf A m1 m2 m2' x x' : 0 < tf -> m2 <= m2' -> x <= x' -> ly_of tf A m1 m2 x <= ly_of tf A m1 m2' x'.
Proof.
  intros T1 M X. unfold ly_of. apply Rle_min_compat_r.
  assert (sqrt (m1 + m2) <= sqrt (m1 + m2')) by (apply sqrt_le_1_alt; lra). nra.
Qed.

Lemma tf_range_lemma fyw hw tw fyf bf tf ss a ty c : tf_ok fyw hw tw fyf bf tf ss a -> ty <> Tc ->
  0 < transverse_force_resistance fyw hw tw fyf bf tf ss a ty c <= fyw * tw * spacing hw a.
Proof.
  intros O N. pose proof (tf_form fyw hw tw fyf bf tf ss a ty c O N) as G. cbv zeta in G.
  destruct G as (K & L & ->). destruct O as (F & H & T1 & Ff & B & Tf & S1 & A1).
  assert (Sm : 0 <= Rmin ss hw) by (apply Rmin_glb; lra).
  assert (0 <= 2/100 * (hw / tf) ^ 2) by (pose proof (pow2_ge_0 (hw / tf)); lra).
  set (m1 := fyf * bf / fyw / tw) in *. set (KK := tw * fyw / _) in *.
  assert (P0 : 0 < ly_of tf (spacing hw a) m1 0 (Rmin ss hw)) by (destruct (L (Rmin ss hw)); lra).
  assert (P1 : ly_of tf (spacing hw a) m1 0 (Rmin ss hw) <= ly_of tf (spacing hw a) m1 (2/100 * (hw / tf) ^ 2) (Rmin ss hw)) by (apply ly_mono; lra).
  assert (Q0 : forall m2, ly_of tf (spacing hw a) m1 m2 (Rmin ss hw) <= spacing hw a) by (intros; apply Rmin_r).
  assert (0 < fyw * tw) by nra. cbv zeta. destruct (Rltb _ _).
  - destruct (strip_pos KK (ly_of tf (spacing hw a) m1 (2/100 * (hw / tf) ^ 2) (Rmin ss hw)) K ltac:(lra)). pose proof (Q0 (2/100 * (hw / tf) ^ 2)). split; nra.
  - destruct (strip_pos KK (ly_of tf (spacing hw a) m1 0 (Rmin ss hw)) K ltac:(lra)). pose proof (Q0 0). split; nra.
Qed.

Lemma tf_bearing_lemma fyw hw tw fyf bf tf ss ss' a ty c : tf_ok fyw hw tw fyf bf tf ss a -> ty <> Tc -> ss <= ss' ->
  transverse_force_resistance fyw hw tw fyf bf tf ss a ty c <= transverse_force_resistance fyw hw tw fyf bf tf ss' a ty c.
Proof.
  intros O N LE. assert (O' : tf_ok fyw hw tw fyf bf tf ss' a) by (unfold tf_ok in *; intuition lra).
  pose proof (tf_form fyw hw tw fyf bf tf ss a ty c O N) as G. pose proof (tf_form fyw hw tw fyf bf tf ss' a ty c O' N) as G'. cbv zeta in G, G'.
  replace (kF hw (spacing hw a) (Rmin ss' hw) c ty) with (kF hw (spacing hw a) (Rmin ss hw) c ty) in G' by (destruct ty; simpl; congruence).
  destruct G as (K & L & ->). destruct G' as (_ & _ & ->). destruct O as (F & H & T1 & Ff & B & Tf & S1 & A1).
  assert (Sm : 0 <= Rmin ss hw) by (apply Rmin_glb; lra).
  assert (SM : Rmin ss hw <= Rmin ss' hw) by (apply Rle_min_compat_r; lra).
  assert (M2 : 0 <= 2/100 * (hw / tf) ^ 2) by (pose proof (pow2_ge_0 (hw / tf)); lra).
  set (m1 := fyf * bf / fyw / tw) in *. set (KK := tw * fyw / _) in *. set (A := spacing hw a) in *. set (m2 := 2/100 * (hw / tf) ^ 2) in *.
  set (x := Rmin ss hw) in *. set (x' := Rmin ss' hw) in *.
  assert (P0 : 0 < ly_of tf A m1 0 x) by (destruct (L x); lra).
  assert (P1 : ly_of tf A m1 0 x <= ly_of tf A m1 0 x') by (apply ly_mono; lra).
  assert (P2 : ly_of tf A m1 0 x <= ly_of tf A m1 m2 x) by (apply ly_mono; lra).
  assert (P3 : ly_of tf A m1 m2 x <= ly_of tf A m1 m2 x') by (apply ly_mono; lra).
  assert (0 < fyw * tw) by nra. cbv zeta. apply Rmult_le_compat_l; [lra|].
  destruct (Rltb (1/2) (sqrt (ly_of tf A m1 0 x * KK))) eqn:E.
  - apply Rltb_true in E. rewrite (proj2 (Rltb_true (1/2) (sqrt (ly_of tf A m1 0 x' * KK)))).
    + apply strip_mono; auto. split; lra.
    + eapply Rlt_le_trans; [exact E|]. apply sqrt_le_1_alt. apply Rmult_le_compat_r; lra.
  - rewrite ?E. destruct (Rltb (1/2) (sqrt (ly_of tf A m1 0 x' * KK))); apply strip_mono; auto; lra.
Qed.
