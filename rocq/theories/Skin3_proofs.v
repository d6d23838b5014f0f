(** Sandwich panels and CLT slabs. *)
From Verif Require Import Base Bool_tac EC3_model EC3_proofs Sections_proofs Cold_proofs Loads2_proofs Cold_model Skin_model Skin_spec Skin_proofs.
Require Import Reals List Lra Lia Bool Psatz ZArith.
Import ListNotations.
Local Open Scope R_scope.

(** ---- stiffness of the panel. *)
Lemma panel_lemma : forall w, panel_ok w -> exists Is S,
  EIs w = Some Is /\ w_S w = Some S /\ S * w_tc w = w_G w * w_b w * w_d w ^ 2 /\ 0 < S /\
  w_d w + f_t (w_top w) / 2 + f_t (w_bot w) / 2 = w_D w /\
  exists e1 e2, 0 < e1 /\ 0 < e2 /\ e1 + e2 = w_d w /\ f_E (w_top w) * f_t (w_top w) * e1 = f_E (w_bot w) * f_t (w_bot w) * e2 /\
  EIo w + Is = f_E (w_top w) * w_b w * (f_t (w_top w) ^ 3 / 12 + f_t (w_top w) * e1 ^ 2) + f_E (w_bot w) * w_b w * (f_t (w_bot w) ^ 3 / 12 + f_t (w_bot w) * e2 ^ 2).
Proof.
  intros w (H1 & H2 & H3 & H4 & H5 & H6 & H7 & H8 & H9 & H10 & H11). set (k1 := f_E (w_top w) * f_t (w_top w)). set (k2 := f_E (w_bot w) * f_t (w_bot w)).
  assert (P1 : 0 < k1) by (unfold k1; pm). assert (P2 : 0 < k2) by (unfold k2; pm). assert (PD : 0 < w_d w) by (unfold w_d; lra).
  assert (A1 : f_EA (w_b w) (w_top w) = k1 * w_b w) by (unfold f_EA, f_A, k1; ring). assert (A2 : f_EA (w_b w) (w_bot w) = k2 * w_b w) by (unfold f_EA, f_A, k2; ring).
  unfold EIs, w_S. rewrite A1, A2. assert (0 < k1 * w_b w) by pm. assert (0 < k2 * w_b w) by pm. rewrite !pdiv_ok by lra. cbn [bind].
  eexists _, _. split; [reflexivity|]. split; [reflexivity|]. split; [field; lra|]. split; [pm|]. split; [unfold w_d, w_D; field|].
  exists (k2 / (k1 + k2) * w_d w), (k1 / (k1 + k2) * w_d w). assert (0 < k1 + k2) by lra. split; [pm|]. split; [pm|]. split; [field; lra|]. split; [field; lra|].
  unfold EIo, f_EI, f_I. replace (f_E (w_top w) * w_b w * (f_t (w_top w) ^ 3 / 12 + f_t (w_top w) * (k2 / (k1 + k2) * w_d w) ^ 2)) with
    (f_E (w_top w) * w_b w * f_t (w_top w) ^ 3 / 12 + k1 * w_b w * (k2 / (k1 + k2) * w_d w) ^ 2) by (unfold k1; field; fold k1 k2; lra).
  replace (f_E (w_bot w) * w_b w * (f_t (w_bot w) ^ 3 / 12 + f_t (w_bot w) * (k1 / (k1 + k2) * w_d w) ^ 2)) with
    (f_E (w_bot w) * w_b w * f_t (w_bot w) ^ 3 / 12 + k2 * w_b w * (k1 / (k1 + k2) * w_d w) ^ 2) by (unfold k2; field; fold k1 k2; lra).
  clearbody k1 k2. field. lra.
Qed.

(** ---- transverse stiffness of a screw: the load sharing minimises the energy. *)
Section Schur.
Variables D t f u v : R.
Hypothesis PD : 0 < D. Hypothesis Pt : 0 < t. Hypothesis Pf : 0 < f. Hypothesis Pu : 0 < u. Hypothesis Pv : 0 < v.
Let b := f - D * t / 2 * u - D * t ^ 2 / 8 * v.
Let c := f + D ^ 2 * u + D ^ 2 * (2 * D + 3 * t) / 6 * v.
Lemma c_pos : 0 < c.
Proof. unfold c. assert (0 < D ^ 2 * u) by pm. assert (0 < 2 * D + 3 * t) by lra. assert (0 < D ^ 2 * (2 * D + 3 * t) / 6 * v) by pm. lra. Qed.
Lemma energy_square : forall y, screw_energy D t f u v y = screw_energy D t f u v (b / c) + c * (y - b / c) ^ 2.
Proof. intros y. pose proof c_pos. unfold screw_energy. unfold b, c in *. field. intros Z. unfold c in *. lra. Qed.
Lemma energy_pos : forall y, 0 < screw_energy D t f u v y.
Proof.
  intros y. unfold screw_energy. assert (0 <= f * (1 - y) ^ 2) by (apply Rmult_le_pos; [lra|apply pow2_ge_0]). assert (0 <= u * (t / 2 + D * y) ^ 2) by (apply Rmult_le_pos; [lra|apply pow2_ge_0]).
  assert (Q : 0 < t ^ 3 / 24 + D * t ^ 2 / 4 * y + D ^ 2 * (2 * D + 3 * t) / 6 * y ^ 2).
  { assert (E : t ^ 3 / 24 + D * t ^ 2 / 4 * y + D ^ 2 * (2 * D + 3 * t) / 6 * y ^ 2 = t * (t / 4 + D * y) ^ 2 / 2 + t ^ 3 / 96 + D ^ 3 / 3 * y ^ 2) by field.
    rewrite E. assert (0 <= t * (t / 4 + D * y) ^ 2 / 2) by (apply Rmult_le_pos; [apply Rmult_le_pos; [lra|apply pow2_ge_0]|lra]).
    assert (0 < t ^ 3) by pm. assert (0 <= D ^ 3 / 3 * y ^ 2) by (apply Rmult_le_pos; [left; pm|apply pow2_ge_0]). lra. }
  assert (0 < v * (t ^ 3 / 24 + D * t ^ 2 / 4 * y + D ^ 2 * (2 * D + 3 * t) / 6 * y ^ 2)) by (apply Rmult_lt_0_compat; auto). lra.
Qed.
Lemma kv_exact : exists kv, screw_kv D t (/ f) (/ u) (/ v) = Some kv /\ kv = / screw_energy D t f u v (b / c).
Proof.
  pose proof c_pos as C. pose proof (energy_pos (b / c)) as E0.
  assert (0 < / f) by (apply Rinv_0_lt_compat; auto). assert (0 < / u) by (apply Rinv_0_lt_compat; auto). assert (0 < / v) by (apply Rinv_0_lt_compat; auto).
  assert (X : screw_xF D t (/ f) (/ u) (/ v) = Some (1 - b / c)).
  { unfold screw_xF. do 5 (rewrite pdiv_ok by lra; cbn [bind]). unfold Rdiv. rewrite !Rinv_inv.
    replace (1 * f + D ^ 2 * u + D ^ 2 * (2 * D + 3 * t) * / 6 * v) with c by (unfold c; field). rewrite pdiv_ok by lra. cbn [bind].
    replace (1 * f - 1 * / 2 * D * t * u - D * t ^ 2 * / 8 * v) with b by (unfold b; field). reflexivity. }
  unfold screw_kv. rewrite X. cbn [bind]. do 3 (rewrite pdiv_ok by lra; cbn [bind]).
  match goal with |- context [pdiv 1 ?x] => assert (Q : x = screw_energy D t f u v (b / c)) end.
  { set (y := b / c). assert (EB : b = c * y) by (unfold y; field; lra). unfold Rdiv. rewrite !Rinv_inv.
    assert (B0 : y * b = c * y ^ 2) by (rewrite EB; ring). unfold b, c in B0. clearbody y. unfold screw_energy. lra. }
  rewrite Q. rewrite pdiv_ok by lra. eexists. split; [reflexivity|]. field. lra.
Qed.
End Schur.
Lemma kv_lemma : forall D t k C EI, 0 < D -> 0 < t -> 0 < k -> 0 < C -> 0 < EI -> exists kv, screw_kv D t k C EI = Some kv /\ 0 < kv /\
  (forall y, / kv <= screw_energy D t (/ k) (/ C) (/ EI) y) /\ (exists y, / kv = screw_energy D t (/ k) (/ C) (/ EI) y).
Proof.
  intros D t k C EI H1 H2 H3 H4 H5. assert (P1 : 0 < / k) by (apply Rinv_0_lt_compat; auto). assert (P2 : 0 < / C) by (apply Rinv_0_lt_compat; auto). assert (P3 : 0 < / EI) by (apply Rinv_0_lt_compat; auto).
  destruct (kv_exact D t (/ k) (/ C) (/ EI)) as (kv & E & V); auto. rewrite !Rinv_inv in E. exists kv. split; [exact E|].
  set (y0 := _ / _) in V. pose proof (energy_pos D t (/ k) (/ C) (/ EI) H1 H2 P1 P2 P3 y0) as Q. rewrite V. split; [apply Rinv_0_lt_compat; auto|]. rewrite Rinv_inv. split; [|exists y0; reflexivity].
  intros y. rewrite (energy_square D t (/ k) (/ C) (/ EI) H1 H2 P1 P2 P3 y). fold y0. pose proof (c_pos D t (/ k) (/ C) (/ EI) H1 H2 P1 P2 P3) as C0.
  assert (0 <= (/ k + D ^ 2 * / C + D ^ 2 * (2 * D + 3 * t) / 6 * / EI) * (y - y0) ^ 2) by (apply Rmult_le_pos; [lra|apply pow2_ge_0]). lra.
Qed.
Lemma kv_mono_lemma : forall D t k C EI k' C' EI' v v', 0 < D -> 0 < t -> 0 < k <= k' -> 0 < C <= C' -> 0 < EI <= EI' ->
  screw_kv D t k C EI = Some v -> screw_kv D t k' C' EI' = Some v' -> v <= v'.
Proof.
  intros D t k C EI k' C' EI' v v' HD Ht Hk HC HE E E'. destruct (kv_lemma D t k C EI) as (w & Ew & Pw & _ & (y & My)); try lra. destruct (kv_lemma D t k' C' EI') as (w' & Ew' & Pw' & M' & _); try lra.
  rewrite E in Ew. apply some_inj in Ew. subst w. rewrite E' in Ew'. apply some_inj in Ew'. subst w'.
  assert (I : / v' <= / v). { rewrite My. eapply Rle_trans; [apply (M' y)|]. unfold screw_energy.
    assert (/ k' <= / k) by (apply Rinv_le_contravar; lra). assert (/ C' <= / C) by (apply Rinv_le_contravar; lra). assert (/ EI' <= / EI) by (apply Rinv_le_contravar; lra).
    assert (0 <= t ^ 3 / 24 + D * t ^ 2 / 4 * y + D ^ 2 * (2 * D + 3 * t) / 6 * y ^ 2).
    { assert (EQ : t ^ 3 / 24 + D * t ^ 2 / 4 * y + D ^ 2 * (2 * D + 3 * t) / 6 * y ^ 2 = t * (t / 4 + D * y) ^ 2 / 2 + t ^ 3 / 96 + D ^ 3 / 3 * y ^ 2) by field.
      rewrite EQ. assert (0 <= t * (t / 4 + D * y) ^ 2 / 2) by (apply Rmult_le_pos; [apply Rmult_le_pos; [lra|apply pow2_ge_0]|lra]).
      assert (0 < t ^ 3) by pm. assert (0 <= D ^ 3 / 3 * y ^ 2) by (apply Rmult_le_pos; [left; pm|apply pow2_ge_0]). lra. }
    apply Rplus_le_compat; [apply Rplus_le_compat|]; apply Rmult_le_compat_r; auto; apply pow2_ge_0. }
  rewrite <- (Rinv_inv v), <- (Rinv_inv v'). apply Rinv_le_contravar; auto. apply Rinv_0_lt_compat; auto.
Qed.
Lemma kF2_lemma : forall w, panel_ok w -> exists k, screw_kF2 w = Some k /\ 0 < k /\
  k = f_fu (w_bot w) * sqrt (f_cor (w_bot w) ^ 3 * w_d1 w) * (if Rlt_dec (f_cor (w_bot w)) (7/10) then (693/100) / (26/100 + 8/10 * f_t (w_bot w)) else (42/10) / (373/1000)).
Proof.
  intros w (H1 & H2 & H3 & H4 & H5 & H6 & H7 & H8 & H9 & H10 & H11). assert (P : 0 < f_cor (w_bot w) ^ 3 * w_d1 w) by pm. pose proof (sqrt_lt_R0 _ P) as SP.
  unfold screw_kF2. rewrite psqrt_ok by lra. cbn [bind]. destruct Rlt_dec as [L|L].
  - rewrite ltb_t by auto. rewrite pdiv_ok by lra. eexists. split; [reflexivity|]. split; [pm|]. field. lra.
  - rewrite ltb_f by lra. eexists. split; [reflexivity|]. split; [pm|]. field.
Qed.
Definition thicker_face (dt : R) (w : panel) : panel :=
  mkPanel (w_top w) (mkFace (f_t (w_bot w) + dt) (f_coat (w_bot w)) (f_E (w_bot w)) (f_fu (w_bot w))) (w_tc w) (w_G w) (w_b w) (w_c w) (w_dS w) (w_d1 w).
Lemma kF2_mono_lemma : forall w dt k k', panel_ok w -> 0 <= f_coat (w_bot w) -> 0 <= dt -> screw_kF2 w = Some k -> screw_kF2 (thicker_face dt w) = Some k' -> k <= k'.
Proof.
  intros w dt k k' OK HC Hd E E'. assert (OK' : panel_ok (thicker_face dt w)) by (unfold panel_ok, thicker_face, f_cor in *; cbn in *; intuition lra).
  destruct (kF2_lemma w OK) as (x & Ex & _ & Vx). rewrite E in Ex. apply some_inj in Ex. subst x. destruct (kF2_lemma _ OK') as (x & Ex & _ & Vx'). rewrite E' in Ex. apply some_inj in Ex. subst x.
  destruct OK as (H1 & H2 & H3 & H4 & H5 & H6 & H7 & H8 & H9 & H10 & H11).
  set (t := f_t (w_bot w)) in *. set (c := f_coat (w_bot w)) in *. set (s := f_cor (w_bot w)) in *. assert (Es : s = t - c) by reflexivity.
  assert (Es' : f_cor (w_bot (thicker_face dt w)) = s + dt) by (unfold thicker_face, f_cor; cbn; fold t c; lra). rewrite Es' in Vx'.
  change (f_fu (w_bot (thicker_face dt w))) with (f_fu (w_bot w)) in Vx'. change (w_d1 (thicker_face dt w)) with (w_d1 w) in Vx'. change (f_t (w_bot (thicker_face dt w))) with (t + dt) in Vx'.
  assert (SD : forall x, 0 < x -> sqrt (x ^ 3 * w_d1 w) = x * sqrt (x * w_d1 w)).
  { intros x Hx. replace (x ^ 3 * w_d1 w) with (x ^ 2 * (x * w_d1 w)) by ring. rewrite sqrt_mult; [|left; pm|left; pm]. rewrite sqrt_pow2 by lra. reflexivity. }
  rewrite SD in Vx by auto. rewrite SD in Vx' by lra. rewrite Vx, Vx'. rewrite !Rmult_assoc. apply Rmult_le_compat_l; [lra|].
  assert (R1 : 0 <= sqrt (s * w_d1 w) <= sqrt ((s + dt) * w_d1 w)) by (split; [apply sqrt_pos|apply sqrt_le_1_alt; apply Rmult_le_compat_r; lra]).
  assert (KEY : s * (if Rlt_dec s (7/10) then (693/100) / (26/100 + 8/10 * t) else (42/10) / (373/1000)) <= (s + dt) * (if Rlt_dec (s + dt) (7/10) then (693/100) / (26/100 + 8/10 * (t + dt)) else (42/10) / (373/1000))).
  { assert (MID : forall a b, 0 < a <= b -> a / (26/100 + 8/10 * (a + c)) <= b / (26/100 + 8/10 * (b + c))).
    { intros a b' Hab. apply Rmult_le_reg_r with ((26/100 + 8/10 * (a + c)) * (26/100 + 8/10 * (b' + c))); [apply Rmult_lt_0_compat; lra|].
      replace (a / (26/100 + 8/10 * (a + c)) * ((26/100 + 8/10 * (a + c)) * (26/100 + 8/10 * (b' + c)))) with (a * (26/100 + 8/10 * (b' + c))) by (field; lra).
      replace (b' / (26/100 + 8/10 * (b' + c)) * ((26/100 + 8/10 * (a + c)) * (26/100 + 8/10 * (b' + c)))) with (b' * (26/100 + 8/10 * (a + c))) by (field; lra). nra. }
    replace t with (s + c) by lra. replace (s + c + dt) with (s + dt + c) by ring.
    destruct (Rlt_dec s (7/10)) as [L|L]; destruct (Rlt_dec (s + dt) (7/10)) as [L'|L']; try lra.
    - pose proof (MID s (s + dt) ltac:(lra)). unfold Rdiv in *. lra.
    - pose proof (MID s (7/10) ltac:(lra)) as M. assert (7/10 / (26/100 + 8/10 * (7/10 + c)) <= 7/10 / (82/100)). { apply Rmult_le_compat_l; [lra|]. apply Rinv_le_contravar; lra. }
      replace (s * (693/100 / (26/100 + 8/10 * (s + c)))) with (693/100 * (s / (26/100 + 8/10 * (s + c)))) by (field; lra). lra. }
  assert (P0 : 0 <= s * (if Rlt_dec s (7/10) then (693/100) / (26/100 + 8/10 * t) else (42/10) / (373/1000))).
  { apply Rmult_le_pos; [lra|]. destruct Rlt_dec; [left; pm|lra]. }
  set (A := if Rlt_dec s (7/10) then _ else _) in *. set (A' := if Rlt_dec (s + dt) (7/10) then _ else _) in *.
  replace (s * (sqrt (s * w_d1 w) * A)) with (s * A * sqrt (s * w_d1 w)) by ring. replace ((s + dt) * (sqrt ((s + dt) * w_d1 w) * A')) with ((s + dt) * A' * sqrt ((s + dt) * w_d1 w)) by ring.
  apply Rmult_le_compat; lra.
Qed.
Lemma transverse_lemma : forall w tsup, panel_ok w -> 0 < tsup -> exists C k kv, screw_kF2 w = Some k /\ C = 2400 * sqrt (tsup * w_d1 w ^ 5) /\
  transverse_stiffness w tsup = Some kv /\ 0 < kv /\ screw_kv (w_D w) tsup k C (200000 * (PI * w_dS w ^ 4 / 64)) = Some kv /\
  (forall L n, 0 < L -> support_stiffness w tsup L n = Some (kv * n / (2 * L) * fold_right Rplus 0 (map (fun c => c ^ 2) (w_c w)))).
Proof.
  intros w tsup OK Ht. destruct (kF2_lemma w OK) as (k & Ek & Pk & _). destruct OK as (H1 & H2 & H3 & H4 & H5 & H6 & H7 & H8 & H9 & H10 & H11).
  assert (P : 0 < tsup * w_d1 w ^ 5) by pm. pose proof (sqrt_lt_R0 _ P). pose proof PI_RGT_0.
  assert (PE : 0 < 200000 * PI * w_dS w ^ 4 / 64) by pm. assert (PD : 0 < w_D w) by (unfold w_D; lra).
  destruct (kv_lemma (w_D w) tsup k (2400 * sqrt (tsup * w_d1 w ^ 5)) (200000 * PI * w_dS w ^ 4 / 64)) as (kv & Ev & Pv & _); auto; [lra|].
  assert (T : transverse_stiffness w tsup = Some kv). { unfold transverse_stiffness, screw_C. rewrite psqrt_ok by lra. cbn [bind]. rewrite Ek. cbn [bind]. exact Ev. }
  exists (2400 * sqrt (tsup * w_d1 w ^ 5)), k, kv. split; [exact Ek|]. split; [reflexivity|]. split; [exact T|]. split; [auto|].
  split; [replace (200000 * (PI * w_dS w ^ 4 / 64)) with (200000 * PI * w_dS w ^ 4 / 64) by field; exact Ev|].
  intros L n HL. unfold support_stiffness. rewrite T. cbn [bind]. rewrite pdiv_ok by lra. cbn [bind]. apply f_equal. field. lra.
Qed.
Lemma screw_shear_lemma : forall w, panel_ok w -> exists V, screw_shear w = Some V /\ 0 < V /\ V ^ 2 = (336/100) ^ 2 * f_cor (w_bot w) ^ 3 * w_d1 w * f_fu (w_bot w) ^ 2.
Proof.
  intros w (H1 & H2 & H3 & H4 & H5 & H6 & H7 & H8 & H9 & H10 & H11). assert (P : 0 < f_cor (w_bot w) ^ 3 * w_d1 w) by pm. pose proof (sqrt_lt_R0 _ P).
  unfold screw_shear. rewrite psqrt_ok by lra. cbn [bind]. eexists. split; [reflexivity|]. unfold gammaM2. split; [pm|].
  replace ((42/10 * sqrt (f_cor (w_bot w) ^ 3 * w_d1 w) * f_fu (w_bot w) / (125/100)) ^ 2) with ((336/100) ^ 2 * (sqrt (f_cor (w_bot w) ^ 3 * w_d1 w) * sqrt (f_cor (w_bot w) ^ 3 * w_d1 w)) * f_fu (w_bot w) ^ 2) by field.
  rewrite sqrt_sqrt by lra. ring.
Qed.
Lemma spa_lemma : forall th, 11/10 < th -> panel_ok (spa_panel th) /\ w_D (spa_panel th) = th /\ w_d (spa_panel th) = th - 55/100.
Proof. intros th H. unfold panel_ok, spa_panel, w_D, w_d, f_cor. cbn. repeat split; lra. Qed.

(** ---- CLT slabs. *)
Lemma stack_app : forall l m, stack (l ++ m) = stack l + stack m.
Proof. induction l as [|[E t] l IH]; intros m; cbn; [lra|rewrite IH; lra]. Qed.
Lemma moment_app : forall l m z, stack_moment z (l ++ m) = stack_moment z l + stack_moment (z + stack l) m.
Proof. induction l as [|[E t] l IH]; intros m z; cbn; [rewrite Rplus_0_r; lra|]. rewrite IH. replace (z + t + stack l) with (z + (t + stack l)) by ring. lra. Qed.
Lemma moment_rev : forall l z, stack_moment z (rev l) = - stack_moment (- z - stack l) l.
Proof.
  induction l as [|[E t] l IH]; intros z; cbn [rev stack_moment stack]; [lra|]. rewrite moment_app, IH. cbn [stack_moment].
  assert (SR : stack (rev l) = stack l). { clear IH. induction l as [|[E' t'] l IHl]; cbn; [reflexivity|]. rewrite stack_app, IHl. cbn. lra. }
  rewrite SR. replace (- z - (t + stack l) + t) with (- z - stack l) by ring. lra.
Qed.
Lemma symmetric_lemma : forall s h, rev (stack_of s h) = stack_of s h -> hclt s h = stack (stack_of s h) /\ stack_moment (- zgc s h) (stack_of s h) = 0.
Proof.
  intros s h H. assert (E : hclt s h = stack (stack_of s h)).
  { unfold hclt, stack_of. induction (z_ids s) as [|i l IH] in |- *; cbn; [reflexivity|]. rewrite IH. destruct (nth_error h i); cbn; lra. }
  split; [exact E|]. pose proof (moment_rev (stack_of s h) (- zgc s h)) as M. rewrite H in M. unfold zgc in *. rewrite E in *.
  replace (- - (1/2 * stack (stack_of s h)) - stack (stack_of s h)) with (- (1/2 * stack (stack_of s h))) in M by field. lra.
Qed.
Lemma unsymmetric_lemma : exists s h, hclt s h = 60 /\ stack_moment (- zgc s h) (stack_of s h) <> 0.
Proof.
  exists (mkCslab [0%nat; 1%nat] 1000 5000), [new_layer 40 11000 370 true; new_layer 20 11000 370 false].
  unfold hclt, zgc, hclt, stack_of, new_layer. cbn. split; lra.
Qed.
Lemma zip_lemma : forall ts ms os, length (zip_layers ts ms os) = Nat.min (length ts) (Nat.min (length ms) (length os)) /\
  (forall i t m o, nth_error ts i = Some t -> nth_error ms i = Some m -> nth_error os i = Some o -> nth_error (zip_layers ts ms os) i = Some (new_layer t (fst m) (snd m) o)).
Proof.
  intros ts ms os. unfold zip_layers. split; [rewrite map_length, !combine_length; reflexivity|].
  revert ms os. induction ts as [|x ts IH]; intros ms os i t m o H1 H2 H3; [destruct i; discriminate|].
  destruct ms as [|y ms]; [destruct i; discriminate|]. destruct os as [|z os]; [destruct i; discriminate|].
  destruct i as [|i]; cbn in *.
  - apply some_inj in H1. apply some_inj in H2. apply some_inj in H3. subst. reflexivity.
  - apply IH; auto.
Qed.
Lemma set_widths_nth : forall b L ids h i, nth_error (set_widths b L ids h) i =
  match nth_error h i with Some y => Some (if in_dec Nat.eq_dec i ids then mkLayer (y_t y) (y_E0 y) (y_E90 y) (y_par y) b L else y) | None => None end.
Proof.
  intros b L ids h i. unfold set_widths. rewrite nth_error_map.
  assert (C : forall (l : list clayer) a j, nth_error (combine (seq a (length l)) l) j = match nth_error l j with Some y => Some ((a + j)%nat, y) | None => None end).
  { induction l as [|y l IH]; intros a j; [destruct j; reflexivity|]. destruct j as [|j]; cbn; [rewrite Nat.add_0_r; reflexivity|]. rewrite IH. destruct (nth_error l j); [|reflexivity]. replace (a + S j)%nat with (S a + j)%nat by lia. reflexivity. }
  rewrite C. destruct (nth_error h i) as [y|]; [|reflexivity]. cbn [option_map plus]. f_equal.
  destruct (in_dec Nat.eq_dec i ids) as [I1|I1]; destruct (existsb (Nat.eqb i) ids) eqn:X; auto.
  - exfalso. assert (existsb (Nat.eqb i) ids = true) by (apply existsb_exists; exists i; split; [auto|apply Nat.eqb_refl]). congruence.
  - exfalso. apply existsb_exists in X. destruct X as (j & J1 & J2). apply Nat.eqb_eq in J2. subst j. auto.
Qed.
Lemma last_user_lemma : forall l h i y, nth_error h i = Some y -> exists y', nth_error (make_slabs l h) i = Some y' /\ y_t y' = y_t y /\ y_E0 y' = y_E0 y /\ y_E90 y' = y_E90 y /\ y_par y' = y_par y /\
  match last_user i l None with Some s => y_bx y' = z_b s /\ y_by y' = z_L s | None => y' = y end.
Proof.
  assert (G : forall l i acc, last_user i l acc = match last_user i l None with Some s => Some s | None => acc end).
  { induction l as [|s l IH]; intros i acc; cbn; [reflexivity|]. rewrite (IH i (if in_dec _ _ _ then _ else acc)), (IH i (if in_dec _ _ _ then _ else None)).
    destruct (last_user i l None); [reflexivity|]. destruct in_dec; reflexivity. }
  induction l as [|s l IH]; intros h i y H; cbn [make_slabs last_user]; [exists y; repeat split; auto|].
  assert (H' : nth_error (snd (make_slab (z_ids s) (z_b s) (z_L s) h)) i = Some (if in_dec Nat.eq_dec i (z_ids s) then mkLayer (y_t y) (y_E0 y) (y_E90 y) (y_par y) (z_b s) (z_L s) else y)).
  { unfold make_slab. cbn [snd]. rewrite set_widths_nth, H. reflexivity. }
  destruct (IH _ _ _ H') as (y' & E & A1 & A2 & A3 & A4 & A5). exists y'. split; [exact E|]. rewrite G.
  destruct (in_dec Nat.eq_dec i (z_ids s)) as [I1|I1]; cbn in *; (split; [exact A1|split; [exact A2|split; [exact A3|split; [exact A4|]]]]); destruct (last_user i l None); auto.
  subst y'. split; reflexivity.
Qed.
Lemma layer_stiffness_lemma : forall y, y_EIy y = (if y_par y then y_E0 y else y_E90 y) * y_bx y * y_t y ^ 3 / 12 /\ y_EIz y = (if y_par y then y_E90 y else y_E0 y) * y_by y * y_t y ^ 3 / 12.
Proof. intros y. unfold y_EIy, y_EIz, y_Iy, y_Iz. destruct (y_par y); split; field. Qed.
