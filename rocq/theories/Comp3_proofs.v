(** Axial resistance and design of concrete filled tubes. *)
From Verif Require Import Base Bool_tac EC3_model EC3_proofs Sections_spec Sections_proofs Cold_proofs Sections9_proofs Comp_model Comp_spec Comp_proofs Comp2_proofs.
Require Import Reals List Lra Lia Bool Psatz.
Import ListNotations.
Local Open Scope R_scope.

(** The case of bars cut by the axis. *)
Definition cut_tube : tube := mkTube 200 200 4 4 3136 20000000 230000 210000 235.
Definition cut_col : col := mkCol 4000 cut_tube C50 50 20 500 60 60 4 1000000 0 0 0 1 1.
Lemma cut_As : 1256 < 4 * (PI * 20 ^ 2 / 4) < 1257.
Proof. pose proof PI_bounds. lra. Qed.
Lemma cut_Ac : k_Ac cut_col = 36864 - 4 * (PI * 20 ^ 2 / 4).
Proof. unfold k_Ac, cut_col, k_As, bar_A. cbn [k_t k_d cut_tube t_H t_B t_R t_T]. field. Qed.
Lemma cut_ok : tube_ok cut_col.
Proof. pose proof cut_As. unfold tube_ok. rewrite cut_Ac. cbn. repeat split; lra. Qed.
Lemma bars_cut_refuted_lemma : exists c z0 z1 M, tube_ok c /\ h_n c 0 = Some z0 /\ h_n c (k_As c) = Some z1 /\
  k_z c - k_d c / 2 <= z0 < k_z c + k_d c / 2 /\ z1 < k_z c - k_d c / 2 /\ MplRd_col c = Some M /\
  M = tube_moment (t_fy (k_t c)) (k_fs c / (115/100)) (fck (k_g c) / (3/2)) c true z1 /\
  0 < tube_force (t_fy (k_t c)) (k_fs c / (115/100)) (fck (k_g c) / (3/2)) c false z1.
Proof.
  exists cut_col. destruct (tube_plastic_lemma cut_col cut_ok ltac:(cbn; lra)) as (z0 & z1 & M & A1 & A2 & A3 & A4 & A5 & A6 & A7 & A8 & A9).
  exists z0, z1, M. split; [exact cut_ok|]. split; [exact A1|]. split; [exact A2|].
  pose proof cut_As as B.
  assert (Z0 : 50 <= z0 < 70).
  { unfold tube_force, rr_area, core_h, core_b, core_r in A6. cbn [cut_col cut_tube k_t k_d k_g k_fs t_T t_R t_B t_H t_fy fck] in A6.
    set (As := 4 * (PI * 20 ^ 2 / 4)) in *. clearbody As. lra. }
  assert (Z1 : z1 < 50 /\ 0 < z1).
  { unfold tube_force, rr_area, core_h, core_b, core_r in A7. cbn [cut_col cut_tube k_t k_d k_g k_fs t_T t_R t_B t_H t_fy fck] in A7.
    set (As := 4 * (PI * 20 ^ 2 / 4)) in *. clearbody As. lra. }
  cbn [cut_col k_z k_d] in *. split; [lra|]. split; [lra|]. split; [exact A3|]. split; [apply A9; lra|].
  unfold tube_force, rr_area, core_h, core_b, core_r in A7 |- *. cbn [cut_col cut_tube k_t k_d k_g k_fs t_T t_R t_B t_H t_fy fck] in *.
  set (As := 4 * (PI * 20 ^ 2 / 4)) in *. clearbody As. lra.
Qed.

(** ---- axial resistance. *)
Lemma col_pos : forall c, tube_ok c -> 0 < k_As c /\ 0 < k_Is c /\ 0 < NaRd c /\ NaRd c < NplRd c /\ NplRd c <= NplRk c.
Proof.
  intros c (H1 & H2 & H3 & H4 & H5 & H6 & H7 & H8 & H9 & H10 & H11 & H12 & H13). pose proof PI3 as PP. assert (0 < PI) by lra.
  pose proof (fck_range (k_g c)). assert (0 < fck (k_g c)) by lra.
  assert (PA : 0 < k_As c) by (unfold k_As, bar_A; pm).
  assert (PI0 : 0 < k_Is c).
  { unfold k_Is. rewrite H12. assert (0 < bar_I (k_d c)) by (unfold bar_I, bar_r; pm). assert (0 <= bar_A (k_d c) * k_z c ^ 2); [|lra].
    apply Rmult_le_pos; [unfold bar_A; left; pm|apply pow2_ge_0]. }
  assert (PN : 0 < NaRd c) by (unfold NaRd; pm). split; [auto|]. split; [auto|]. split; [auto|].
  assert (0 < k_fs c * k_As c) by pm. assert (0 < fck (k_g c) * k_Ac c) by pm.
  unfold NplRd, NplRk, NaRd, bar_fyd, k_fcd, cfcd in *.
  replace (k_fs c / (115/100) * k_As c) with (100/115 * (k_fs c * k_As c)) by (field). replace (1 * fck (k_g c) / (15/10) * k_Ac c) with (2/3 * (fck (k_g c) * k_Ac c)) by field. lra.
Qed.
Lemma contribution_lemma : forall c, tube_ok c -> exists d, delta_a c = Some d /\ 0 < d < 1 /\ d * NplRd c = t_fy (k_t c) * t_A (k_t c) /\
  NplRd c = t_fy (k_t c) * t_A (k_t c) + k_fs c / (115/100) * k_As c + fck (k_g c) / (3/2) * k_Ac c /\
  NplRd c <= NplRk c /\ NplRk c = t_fy (k_t c) * t_A (k_t c) + k_fs c * k_As c + fck (k_g c) * k_Ac c.
Proof.
  intros c OK. destruct (col_pos c OK) as (P1 & P2 & P3 & P4 & P5). unfold delta_a. rewrite pdiv_ok by lra. eexists. split; [reflexivity|]. split.
  - split; [apply Rdiv_lt_0_compat; lra|]. apply Rmult_lt_reg_r with (NplRd c); [lra|]. unfold Rdiv. rewrite Rmult_assoc, Rinv_l by lra. lra.
  - split; [unfold NaRd; field; lra|]. split; [unfold NplRd, k_fcd, cfcd, bar_fyd; field|]. split; [auto|reflexivity].
Qed.
Lemma Eceff_lemma : forall c, 0 <= k_RH c <= 100 -> k_ned c <> 0 -> 0 <= k_nged c / k_ned c ->
  exists e phi, Eceff c = Some e /\ creep (k_g c) (k_RH c) (10 ^ 11) (10 ^ 11) 28 = Some phi /\ 0 < phi /\ e = Ecm (k_g c) / (1 + k_nged c / k_ned c * phi) /\ 0 < e <= Ecm (k_g c).
Proof.
  intros c HR H0 Hq. destruct (creep_mono_lemma (k_g c) (k_RH c) (k_RH c) (10 ^ 11) (10 ^ 11) (10 ^ 11) (10 ^ 11) 28 28) as (phi & _ & Ep & _ & Pp & _); try lra.
  unfold Eceff. rewrite Ep. cbn [bind]. rewrite pdiv_ok by auto. cbn [bind]. pose proof (Ecm_pos (k_g c)) as PE.
  assert (0 <= k_nged c / k_ned c * phi) by (apply Rmult_le_pos; lra). rewrite pdiv_ok by lra. rewrite Rmult_1_r. eexists _, phi. split; [reflexivity|]. split; [reflexivity|].
  split; [auto|]. split; [reflexivity|]. split; [apply Rdiv_lt_0_compat; lra|].
  apply Rmult_le_reg_r with (1 + k_nged c / k_ned c * phi); [lra|]. unfold Rdiv at 1. rewrite Rmult_assoc, Rinv_l by lra. nra.
Qed.
Definition stiff (c : col) (e : R) : R := t_E (k_t c) * t_I (k_t c) + 210000 * k_Is c + 6/10 * e * k_Ic c.
Lemma stiff_pos : forall c e, tube_ok c -> 0 < k_Ic c -> 0 < e -> 0 < stiff c e.
Proof.
  intros c e OK H1 H2. destruct (col_pos c OK) as (P1 & P2 & _). destruct OK as (_ & _ & _ & _ & _ & G6 & _ & G8 & _). unfold stiff.
  assert (0 < t_E (k_t c) * t_I (k_t c)) by pm. assert (0 < 6/10 * e * k_Ic c) by pm. lra.
Qed.
Definition grade_curve (c : col) : R := if Rle_dec (k_As c) (3/100 * k_Ac c) then buckling_curve ca else buckling_curve cb.
Lemma rho_lemma : forall c, tube_ok c -> bind (rho_s c) (fun r => Some (buckling_curve (if Rleb r (3/100) then ca else cb))) = Some (grade_curve c).
Proof.
  intros c (H1 & H2 & H3 & H4 & H5 & H6 & H7 & H8 & H9 & H10 & H11 & H12 & H13). unfold rho_s. rewrite pdiv_ok by lra. cbn [bind]. unfold grade_curve.
  assert (E : k_As c / k_Ac c * k_Ac c = k_As c) by (field; lra).
  destruct Rle_dec as [L|L]; [rewrite leb_t|rewrite leb_f]; auto; nra.
Qed.
Lemma NbRd_eq : forall c e, tube_ok c -> 0 < k_Ic c -> 0 < k_L c * k_ly c -> Eceff c = Some e -> 0 < e ->
  Ncr c true = Some (PI ^ 2 * stiff c e / (k_L c * k_ly c) ^ 2) /\
  slenderness c true = Some (sqrt (NplRk c / (PI ^ 2 * stiff c e / (k_L c * k_ly c) ^ 2))) /\
  NbRd c true = bind (buckling_reduction_factor (sqrt (NplRk c / (PI ^ 2 * stiff c e / (k_L c * k_ly c) ^ 2))) (grade_curve c)) (fun chi => Some (chi * NplRd c)).
Proof.
  intros c e OK HI HL Ee Pe. pose proof (stiff_pos c e OK HI Pe) as PS. destruct (col_pos c OK) as (P1 & P2 & P3 & P4 & P5). pose proof PI3.
  assert (PL : 0 < (k_L c * k_ly c) ^ 2) by (apply pow_lt; auto). assert (0 < PI) by lra.
  assert (PN : 0 < PI ^ 2 * stiff c e / (k_L c * k_ly c) ^ 2) by (apply Rdiv_lt_0_compat; [apply Rmult_lt_0_compat; [pm|auto]|auto]).
  assert (N1 : Ncr c true = Some (PI ^ 2 * stiff c e / (k_L c * k_ly c) ^ 2)).
  { unfold Ncr, EIeff. rewrite Ee. cbn [bind]. fold (stiff c e). apply pdiv_ok. lra. }
  assert (N2 : slenderness c true = Some (sqrt (NplRk c / (PI ^ 2 * stiff c e / (k_L c * k_ly c) ^ 2)))).
  { unfold slenderness. rewrite N1. cbn [bind]. rewrite pdiv_ok by lra. cbn [bind]. apply psqrt_ok. left. apply Rdiv_lt_0_compat; lra. }
  split; [auto|]. split; [auto|]. unfold NbRd. rewrite N2. cbn [bind]. pose proof (rho_lemma c OK) as Q. destruct (rho_s c) as [r|]; [|discriminate Q]. cbn [bind] in *.
  apply some_injc in Q. rewrite Q. reflexivity.
Qed.
Lemma grade_curve_range : forall c, 0 < grade_curve c <= 1. Proof. intros. unfold grade_curve. destruct Rle_dec; cbn; lra. Qed.
Lemma NbRd_lemma : forall c, tube_ok c -> 0 < k_Ic c -> 0 < k_L c * k_ly c -> 0 <= k_RH c <= 100 -> k_ned c <> 0 -> 0 <= k_nged c / k_ned c ->
  exists N n, NbRd c true = Some N /\ Ncr c true = Some n /\ 0 < N /\ N <= NplRd c /\ N <= n /\
    (NplRk c <= 4/100 * n -> N = NplRd c).
Proof.
  intros c OK HI HL HR H0 Hq. destruct (Eceff_lemma c HR H0 Hq) as (e & phi & Ee & _ & _ & _ & Pe & _).
  destruct (NbRd_eq c e OK HI HL Ee Pe) as (E1 & E2 & E3). destruct (col_pos c OK) as (P1 & P2 & P3 & P4 & P5). pose proof (grade_curve_range c) as GR.
  pose proof (stiff_pos c e OK HI Pe) as PS. pose proof PI3. assert (PL : 0 < (k_L c * k_ly c) ^ 2) by (apply pow_lt; auto). assert (0 < PI) by lra.
  set (n := PI ^ 2 * stiff c e / (k_L c * k_ly c) ^ 2) in *.
  assert (PN : 0 < n) by (unfold n; apply Rdiv_lt_0_compat; [apply Rmult_lt_0_compat; [pm|auto]|auto]). clearbody n.
  assert (PQ : 0 < NplRk c / n) by (apply Rdiv_lt_0_compat; lra).
  destruct (chi_proper_lemma (grade_curve c) (sqrt (NplRk c / n)) ltac:(lra) (sqrt_pos _)) as (chi & Ec & C1 & C2 & C3 & _).
  rewrite E3, Ec. cbn [bind]. exists (chi * NplRd c), n. split; [reflexivity|]. split; [auto|]. split; [apply Rmult_lt_0_compat; lra|]. split; [nra|]. split.
  - rewrite <- Rsqr_pow2, Rsqr_sqrt in C3 by lra.
    assert (chi * NplRk c <= n). { replace (chi * NplRk c) with (chi * (NplRk c / n) * n) by (field; lra). nra. }
    assert (chi * NplRd c <= chi * NplRk c) by (apply Rmult_le_compat_l; lra). lra.
  - intros L. rewrite C2; [ring|]. apply Rsqr_incr_0_var; [|lra]. rewrite Rsqr_sqrt by lra. unfold Rsqr.
    apply Rmult_le_reg_r with n; [lra|]. unfold Rdiv at 1. rewrite Rmult_assoc, Rinv_l by lra. lra.
Qed.
Definition longer_lasting (c c' : col) : Prop :=
  exists L ng, k_L c <= L /\ k_nged c / k_ned c <= ng / k_ned c /\
  c' = mkCol L (k_t c) (k_g c) (k_RH c) (k_d c) (k_fs c) (k_y c) (k_z c) (k_n c) (k_ned c) ng (k_m0 c) (k_m1 c) (k_ly c) (k_lz c).
Lemma NbRd_mono_lemma : forall c c' N N', tube_ok c -> 0 < k_Ic c -> 0 < k_L c -> 0 < k_ly c -> 0 <= k_RH c <= 100 -> k_ned c <> 0 -> 0 <= k_nged c / k_ned c ->
  longer_lasting c c' -> NbRd c true = Some N -> NbRd c' true = Some N' -> N' <= N.
Proof.
  intros c c' N N' OK HI HL HY HR H0 Hq (L & ng & G1 & G2 & ->) E E'.
  set (c' := mkCol _ _ _ _ _ _ _ _ _ _ _ _ _ _ _) in *.
  destruct (Eceff_lemma c HR H0 Hq) as (e & phi & Ee & Ep & Pp & Ev & Pe & _).
  destruct (Eceff_lemma c' HR H0 ltac:(cbn; lra)) as (e' & phi' & Ee' & Ep' & _ & Ev' & Pe' & _).
  change (k_g c') with (k_g c) in *. change (k_RH c') with (k_RH c) in *. rewrite Ep in Ep'. apply some_injc in Ep'. subst phi'.
  change (k_nged c') with ng in *. change (k_ned c') with (k_ned c) in *.
  assert (LE : e' <= e).
  { rewrite Ev, Ev'. apply Rmult_le_compat_l; [left; apply Ecm_pos|]. assert (0 <= k_nged c / k_ned c * phi) by (apply Rmult_le_pos; lra).
    apply Rinv_le_contravar; [lra|]. assert (k_nged c / k_ned c * phi <= ng / k_ned c * phi) by (apply Rmult_le_compat_r; lra). lra. }
  assert (HLY : 0 < k_L c * k_ly c) by pm. assert (HLY' : k_L c * k_ly c <= k_L c' * k_ly c') by (cbn; apply Rmult_le_compat_r; lra).
  destruct (NbRd_eq c e OK HI HLY Ee Pe) as (_ & _ & E3).
  destruct (NbRd_eq c' e' OK HI ltac:(lra) Ee' Pe') as (_ & _ & E3').
  rewrite E3 in E. rewrite E3' in E'. change (grade_curve c') with (grade_curve c) in *. change (NplRd c') with (NplRd c) in *. change (NplRk c') with (NplRk c) in *.
  destruct (col_pos c OK) as (P1 & P2 & P3 & P4 & P5). pose proof (grade_curve_range c) as GR. pose proof PI3. assert (0 < PI) by lra.
  pose proof (stiff_pos c e OK HI Pe) as PS. pose proof (stiff_pos c' e' OK HI Pe') as PS'.
  assert (SL : stiff c' e' <= stiff c e). { unfold stiff. change (k_t c') with (k_t c). change (k_Is c') with (k_Is c). change (k_Ic c') with (k_Ic c).
    assert (6/10 * e' * k_Ic c <= 6/10 * e * k_Ic c) by (apply Rmult_le_compat_r; lra). lra. }
  assert (PL : 0 < (k_L c * k_ly c) ^ 2) by (apply pow_lt; auto). assert (PL' : (k_L c * k_ly c) ^ 2 <= (k_L c' * k_ly c') ^ 2) by (apply pow_incr; lra).
  assert (NL : PI ^ 2 * stiff c' e' / (k_L c' * k_ly c') ^ 2 <= PI ^ 2 * stiff c e / (k_L c * k_ly c) ^ 2).
  { apply Rmult_le_compat; [left; apply Rmult_lt_0_compat; [pm|auto]|left; apply Rinv_0_lt_compat; lra|apply Rmult_le_compat_l; [left; pm|auto]|apply Rinv_le_contravar; lra]. }
  assert (PN : 0 < PI ^ 2 * stiff c' e' / (k_L c' * k_ly c') ^ 2) by (apply Rdiv_lt_0_compat; [apply Rmult_lt_0_compat; [pm|auto]|lra]).
  set (n := PI ^ 2 * stiff c e / (k_L c * k_ly c) ^ 2) in *. set (n' := PI ^ 2 * stiff c' e' / (k_L c' * k_ly c') ^ 2) in *. clearbody n n'.
  destruct (buckling_reduction_factor (sqrt (NplRk c / n)) (grade_curve c)) as [chi|] eqn:X; [|discriminate E].
  destruct (buckling_reduction_factor (sqrt (NplRk c / n')) (grade_curve c)) as [chi'|] eqn:X'; [|discriminate E'].
  cbn [bind] in *. apply some_injc in E. apply some_injc in E'. subst N N'. apply Rmult_le_compat_r; [lra|].
  apply (chi_mono_lemma (grade_curve c) (grade_curve c) (sqrt (NplRk c / n)) (sqrt (NplRk c / n'))); auto; try lra.
  split; [apply sqrt_pos|]. apply sqrt_le_1_alt. apply Rmult_le_compat_l; [lra|]. apply Rinv_le_contravar; lra.
Qed.
Lemma no_force_lemma : forall c y, 0 <= k_RH c <= 100 -> (k_ned c = 0 -> NbRd c y = None /\ design_moment c = None \/ rho_s c = None) /\ (y = false -> NbRd c y = None).
Proof.
  intros c y HR. split.
  - intros H0. assert (E : Eceff c = None).
    { unfold Eceff. destruct (creep _ _ _ _ _); [|reflexivity]. cbn [bind]. rewrite H0. unfold pdiv. rewrite eqb_t by reflexivity. reflexivity. }
    destruct (rho_s c) as [r|] eqn:Er; [left|right; reflexivity]. split.
    + unfold NbRd, slenderness, Ncr, EIeff. rewrite E. reflexivity.
    + unfold design_moment, e0. rewrite Er. cbn [bind]. unfold Ncreff, EIeffII. rewrite E. reflexivity.
  - intros ->. unfold NbRd, slenderness, Ncr, EIeff. destruct (Eceff c); reflexivity.
Qed.

(** ---- design(). *)
Lemma end_moments_lemma : forall c, (M1 c = k_m0 c /\ M2 c = k_m1 c \/ M1 c = k_m1 c /\ M2 c = k_m0 c) /\ Rabs (M1 c) <= Rabs (M2 c) /\
  (Rabs (k_m0 c) <= Rabs (k_m1 c) -> M2 c = k_m1 c).
Proof.
  intros c. unfold M1, M2. destruct (Rle_dec (Rabs (k_m0 c)) (Rabs (k_m1 c))) as [L|L].
  - rewrite leb_t by auto. repeat split; auto.
  - rewrite leb_f by lra. repeat split; auto; try lra.
Qed.
(** Equivalent moment factor of EN 1994-1-1 Table 6.4 for end moments r*M and M. *)
Definition beta_end (r : R) : R := Rmax (66/100 + 44/100 * r) (44/100).
Lemma design_moment_lemma : forall c n e, Ncreff c true = Some n -> 0 < n -> e0 c = Some e ->
  let N := Rabs (k_ned c) in
  (10 * N <= n -> design_moment c = Some (N * e + M2 c)) /\
  (n < 10 * N -> N < n -> 0 < M2 c -> design_moment c = Some (Rmax (1 / (1 - N / n) * (beta_end (M1 c / M2 c) * M2 c + N * e)) (M2 c))) /\
  (n < N -> 0 < M2 c -> design_moment c = Some (Rmax (beta_end (M1 c / M2 c) * M2 c + N * e) (M2 c))) /\
  (n < 10 * N -> N < n -> M2 c <= 0 -> 0 <= e -> design_moment c = Some (1 / (1 - N / n) * (N * e))).
Proof.
  intros c n e En Pn Ee N. unfold design_moment. rewrite Ee, En. cbn [bind]. change (NEd c) with N.
  assert (PN : 0 <= N) by apply Rabs_pos.
  assert (B : 0 < M2 c -> bind (pdiv (44/100 * M1 c) (M2 c)) (fun q => Some (Rmax (66/100 + q) (44/100))) = Some (beta_end (M1 c / M2 c))).
  { intros P. rewrite pdiv_ok by lra. cbn [bind]. unfold beta_end. apply f_equal. f_equal. f_equal. field. lra. }
  assert (Q : N / n * n = N) by (field; lra).
  split; [|split; [|split]].
  - intros H. rewrite ltb_f by lra. reflexivity.
  - intros H1 H2 H3. rewrite ltb_t by lra. rewrite (ltb_t 0) by lra. rewrite B by auto. cbn [bind]. rewrite pdiv_ok by lra. cbn [bind].
    assert (0 <= N / n < 1) by (split; nra). rewrite pdiv_ok by lra. cbn [bind]. rewrite (Rmax_left (1 / (1 - N / n)) 1); [reflexivity|].
    apply Rmult_le_reg_r with (1 - N / n); [lra|]. unfold Rdiv at 2. rewrite Rmult_assoc, Rinv_l by lra. lra.
  - intros H1 H3. rewrite ltb_t by lra. rewrite (ltb_t 0) by lra. rewrite B by auto. cbn [bind]. rewrite pdiv_ok by lra. cbn [bind].
    assert (1 < N / n) by nra. rewrite pdiv_ok by lra. cbn [bind]. rewrite (Rmax_right (1 / (1 - N / n)) 1); [rewrite Rmult_1_l; reflexivity|].
    assert (/ (1 - N / n) < 0) by (apply Rinv_lt_0_compat; lra). lra.
  - intros H1 H2 H3 H4. rewrite ltb_t by lra. rewrite (ltb_f 0) by lra. cbn [bind]. rewrite pdiv_ok by lra. cbn [bind].
    assert (0 <= N / n < 1) by (split; nra). rewrite pdiv_ok by lra. cbn [bind].
    assert (1 <= 1 / (1 - N / n)). { apply Rmult_le_reg_r with (1 - N / n); [lra|]. unfold Rdiv at 2. rewrite Rmult_assoc, Rinv_l by lra. lra. }
    rewrite (Rmax_left (1 / (1 - N / n)) 1) by auto. rewrite Rmult_0_l, Rplus_0_l. rewrite Rmax_left; [reflexivity|].
    assert (0 <= 1 / (1 - N / n) * (N * e)) by (apply Rmult_le_pos; [lra|apply Rmult_le_pos; lra]). lra.
Qed.
Lemma utilisation_lemma : forall c MEd Mp, tube_ok c -> t_T (k_t c) * 2 < t_B (k_t c) -> design_moment c = Some MEd -> MplRd_col c = Some Mp -> 0 < Mp ->
  let N := Rabs (k_ned c) in let al := if Rle_dec (t_fy (k_t c)) 355 then 9/10 else 8/10 in
  (N <= NpmRd c -> utilisation c = Some (MEd / (al * Mp))) /\
  (NpmRd c <= N -> N <> NplRd c -> exists u, utilisation c = Some u /\ u * ((NplRd c - N) / (NplRd c - NpmRd c) * Mp) * al = MEd /\
     (0 < MEd -> NplRd c < N -> u < 0) /\ (0 < MEd -> N < NplRd c -> 0 < u)).
Proof.
  intros c MEd Mp OK HB E1 E2 PM N al. destruct (col_pos c OK) as (P1 & P2 & P3 & P4 & P5).
  assert (PC : 0 < NpmRd c < NplRd c).
  { destruct OK as (H1 & H2 & H3 & H4 & H5 & H6 & H7 & H8 & H9 & H10 & H11 & H12 & H13). pose proof (fck_range (k_g c)).
    assert (0 < k_fcd c) by (unfold k_fcd, cfcd; lra). unfold NpmRd, NplRd. split; [pm|]. assert (0 < t_fy (k_t c) * t_A (k_t c)) by pm.
    assert (0 < bar_fyd (k_fs c)) by (unfold bar_fyd; pm). assert (0 < bar_fyd (k_fs c) * k_As c) by pm. lra. }
  assert (EA : alpha_m c = al). { unfold alpha_m, al. destruct Rle_dec; [rewrite leb_t|rewrite leb_f]; auto; lra. }
  assert (PAL : 0 < al) by (unfold al; destruct Rle_dec; lra).
  set (A := NplRd c) in *. set (B := NpmRd c) in *.
  assert (Q : B / A < 1). { apply Rmult_lt_reg_r with A; [lra|]. unfold Rdiv. rewrite Rmult_assoc, Rinv_l by lra. lra. }
  assert (QQ : (N / A - 1) / (B / A - 1) = (A - N) / (A - B)) by (field; lra).
  assert (S0 : utilisation c = bind (pdiv MEd (Rmin ((A - N) / (A - B)) 1 * Mp)) (fun u => pdiv u al)).
  { unfold utilisation. rewrite E1, E2. cbn [bind]. fold A B. change (NEd c) with N. rewrite !pdiv_ok by lra. cbn [bind]. rewrite (pdiv_ok (N / A - 1)) by lra. cbn [bind].
    rewrite QQ, EA. reflexivity. }
  split.
  - intros H. rewrite S0. rewrite Rmin_right.
    + rewrite pdiv_ok by lra. cbn [bind]. rewrite pdiv_ok by lra. apply f_equal. field. lra.
    + apply Rmult_le_reg_r with (A - B); [lra|]. replace ((A - N) / (A - B) * (A - B)) with (A - N) by (field; lra). lra.
  - intros H HN. rewrite S0.
    assert (ER : (A - N) / (A - B) * (A - B) = A - N) by (field; lra).
    rewrite Rmin_left by (apply Rmult_le_reg_r with (A - B); lra).
    assert (NZ : (A - N) / (A - B) * Mp <> 0). { apply Rmult_integral_contrapositive_currified; [|lra]. intros Z. rewrite Z in ER. lra. }
    rewrite pdiv_ok by auto. cbn [bind]. rewrite pdiv_ok by lra. eexists. split; [reflexivity|]. split; [|split].
    + field. split; [lra|]. split; [lra|]. split; [lra|]. intros Z. lra.
    + intros PE HL. assert ((A - N) / (A - B) < 0). { apply Rmult_lt_reg_r with (A - B); [lra|]. lra. }
      assert (/ ((A - N) / (A - B) * Mp) < 0) by (apply Rinv_lt_0_compat; nra). assert (0 < / al) by (apply Rinv_0_lt_compat; lra).
      assert (MEd / ((A - N) / (A - B) * Mp) < 0) by (unfold Rdiv at 1; nra). unfold Rdiv at 1. nra.
    + intros PE HL. assert (0 < (A - N) / (A - B)) by (apply Rdiv_lt_0_compat; lra). apply Rdiv_lt_0_compat; [|lra]. apply Rdiv_lt_0_compat; [lra|]. apply Rmult_lt_0_compat; lra.
Qed.
Lemma weights_lemma : forall h hs g d, l_weight (concrete_slab h g) = 25 * (h / 1000) /\ l_weight (composite_slab h g hs) = 25 * (h / 1000) /\
  l_h0 (concrete_slab h g) = 2 * h /\ l_h0 (composite_slab h g hs) = 2 * (h - hs) /\ l_h (composite_slab h g hs) = h /\
  bar_weight d = 7850 * (PI * (d / 1000 / 2) ^ 2).
Proof. intros. unfold l_weight, concrete_slab, composite_slab, l_h, l_h0, bar_weight, bar_A. cbn [l_hc l_ha l_g]. repeat split; field. Qed.
Lemma col_weight_lemma : forall c, k_n c = 4 ->
  weight_per_length c = 7850 * (981/100000) * (t_A (k_t c) / 10 ^ 6 + 4 * (PI * (k_d c / 1000 / 2) ^ 2)) +
    24 * (rr_area (core_h c) (core_b c) (core_r c) - 4 * (PI * k_d c ^ 2 / 4)) / 10 ^ 6.
Proof. intros c H. destruct (core_lemma c H) as (_ & E & _). unfold weight_per_length. rewrite E, H. unfold bar_weight, bar_A. field. Qed.
Lemma EIeffII_lemma : forall c e, Eceff c = Some e ->
  EIeffII c true = Some (9/10 * (t_E (k_t c) * t_I (k_t c) + 210000 * k_Is c + 1/2 * e * k_Ic c)) /\
  (0 < k_L c -> 0 < k_ly c -> Ncreff c true = Some (9/10 * (t_E (k_t c) * t_I (k_t c) + 210000 * k_Is c + 1/2 * e * k_Ic c) * (PI / (k_L c * k_ly c)) ^ 2)) /\
  (tube_ok c -> e0 c = Some (k_L c / (if Rle_dec (k_As c) (3/100 * k_Ac c) then 300 else 200))).
Proof.
  intros c e Ee. assert (E : EIeffII c true = Some (9/10 * (t_E (k_t c) * t_I (k_t c) + 210000 * k_Is c + 1/2 * e * k_Ic c))).
  { unfold EIeffII. rewrite Ee. cbn [bind]. replace (5/10) with (1/2) by lra. reflexivity. }
  split; [exact E|]. split.
  - intros H1 H2. unfold Ncreff. rewrite E. cbn [bind]. assert (0 < k_L c * k_ly c) by pm. assert (0 < (k_L c * k_ly c) ^ 2) by pm.
    rewrite pdiv_ok by lra. apply f_equal. field. lra.
  - intros (H1 & H2 & H3 & H4 & H5 & H6 & H7 & H8 & H9 & H10 & H11 & H12 & H13). unfold e0, rho_s. rewrite pdiv_ok by lra. cbn [bind].
    assert (E1 : k_As c / k_Ac c * k_Ac c = k_As c) by (field; lra). destruct Rle_dec; [rewrite leb_t|rewrite leb_f]; auto; nra.
Qed.
(** Examples. *)
Definition ipe200 : steel_i := mkSteel 200 100 (85/10) (56/10) 12 2848 19430000 210000 355.
Definition floor_beam : cbeam := new_beam 6000 ipe200 (composite_slab 120 C30 50) 50.
Lemma floor_beam_ok : beam_ok floor_beam.
Proof. unfold beam_ok, floor_beam, new_beam, beff, composite_slab, ipe200, i_hw. cbn. repeat split; lra. Qed.
Definition narrow_beam : cbeam := new_beam 600 ipe200 (concrete_slab 100 C12) 50.
Lemma narrow_beam_ok : beam_ok narrow_beam /\ m_Rc narrow_beam <= m_Ra narrow_beam.
Proof. split; [unfold beam_ok, narrow_beam, new_beam, beff, concrete_slab, ipe200, i_hw; cbn; repeat split; lra|]. unfold m_Rc, m_Ra, cfcd, m_Ac, beff, narrow_beam, new_beam, ipe200. cbn. lra. Qed.
Lemma cut_more : 0 < k_Ic cut_col /\ 0 < k_L cut_col * k_ly cut_col /\ 0 <= k_RH cut_col <= 100 /\ k_ned cut_col <> 0 /\ 0 <= k_nged cut_col / k_ned cut_col.
Proof.
  pose proof PI_bounds as PB. split; [|cbn; repeat split; lra]. unfold k_Ic, k_Is, bar_I, bar_A, bar_r. cbn [k_t k_n k_d k_z cut_col cut_tube t_B t_H t_T t_R].
  rewrite (Rminus_diag_eq 4 4) by reflexivity. replace (0 ^ 4) with 0 by ring. replace (0 ^ 2) with 0 by ring. unfold Rdiv. rewrite !Rmult_0_l, !Rmult_0_r, !Rmult_0_l. lra.
Qed.
