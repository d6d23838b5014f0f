From Verif Require Import Raami_model.
From Verif Require Import Base EC3_model Bool_tac EC3_proofs Plate_proofs Sections_proofs Rhs_model Truss_model Truss_proofs Portal_model Portal_spec.
Require Import Reals List Bool Arith Lra Lia Psatz.
Import ListNotations.
Local Open Scope R_scope.

Lemma tan_rad_atan k : tan (rad (atan k * 180 / PI)) = k.
Proof. unfold rad. replace (atan k * 180 / PI * PI / 180) with (atan k) by (field; apply PI_neq0). apply tan_atan. Qed.
(** C320 *)
Lemma ridge_lemma L height dx h1 h2 slope s sl : sloped_truss (5/10 * L) (5/10 * L) dx dx h1 h2 slope = Some s ->
  sloped_slope (5/10 * L) h1 h2 slope = Some sl ->
  ridge_height L height sl = snd (moved height (xmid s)) /\ fst (moved height (xmid s)) = L / 2 /\ height <= ridge_height L height sl.
Proof.
  unfold sloped_truss, sloped_slope. cbv zeta. intros E1 E2.
  assert (K : ridge_height L height sl = snd (moved height (xmid s)) /\ fst (moved height (xmid s)) = L / 2 /\ s_H0 s <= s_H1 s).
  { destruct (Rltb _ _) eqn:EL in E1; [discriminate|]. injection E1 as <-. apply Rltb_false in EL. unfold ridge_height, moved, xmid, span. cbn [s_L1 s_L2 s_H0 s_H1 fst snd].
    split; [|split; [lra|lra]].
    destruct (Reqb h1 0) eqn:A.
    - injection E2 as <-. lra.
    - destruct (Reqb h2 0) eqn:B.
      + injection E2 as <-. lra.
      + unfold pdiv in E2. destruct (Reqb (5/10 * L) 0) eqn:C; [discriminate|]. cbn [bind] in E2. injection E2 as <-. rewrite tan_rad_atan.
        apply Reqb_false in C. field. lra. }
  destruct K as (K1 & K2 & K3). split; [exact K1|]. split; [exact K2|]. rewrite K1. unfold moved, xmid. cbn [snd]. lra.
Qed.

(** C321 *)
Lemma tan_chord a b : 1 / 1000000 <= Rabs (fst b - fst a) -> tan (chord_angle a b) = (snd b - snd a) / (fst b - fst a).
Proof.
  intros H. unfold chord_angle, mangle. rewrite ltb_f by lra. cbv zeta. set (t := atan _).
  assert (T : tan t = (snd b - snd a) / (fst b - fst a)) by apply tan_atan.
  destruct (Rltb t 0) eqn:E; [|exact T]. rewrite <- T. unfold tan. rewrite Rplus_comm, neg_sin, neg_cos.
  assert (C : cos t <> 0). { apply Rgt_not_eq. pose proof (atan_bound ((snd b - snd a) / (fst b - fst a))). apply cos_gt_0; unfold t; lra. }
  field. exact C.
Qed.
Lemma cos_chord a b : 1 / 1000000 <= Rabs (fst b - fst a) -> Rabs (cos (chord_angle a b)) = Rabs (fst b - fst a) / mlen a b.
Proof.
  intros H. set (k := (snd b - snd a) / (fst b - fst a)).
  assert (NZ : fst b - fst a <> 0) by (intros Z; rewrite Z, Rabs_R0 in H; lra).
  assert (C : Rabs (cos (chord_angle a b)) = cos (atan k)).
  { unfold chord_angle, mangle. rewrite ltb_f by lra. cbv zeta. fold k.
    assert (P : 0 < cos (atan k)) by (pose proof (atan_bound k); apply cos_gt_0; lra).
    destruct (Rltb (atan k) 0); [rewrite Rplus_comm, neg_cos, Rabs_Ropp|]; apply Rabs_right; lra. }
  rewrite C, cos_atan. unfold mlen, vlen, vdot, vminus. cbn [fst snd].
  set (x := fst b - fst a) in *. set (y := snd b - snd a) in *.
  assert (P0 : 0 < Rabs x) by lra. assert (SQ : Rabs x * Rabs x = x * x) by (rewrite <- Rabs_mult; apply Rabs_right; nra).
  assert (EQ : sqrt (x * x + y * y) = Rabs x * sqrt (1 + k²)).
  { replace (x * x + y * y) with ((Rabs x * Rabs x) * (1 + k²)) by (rewrite SQ; unfold k, Rsqr; field; auto).
    rewrite sqrt_mult; [|nra|unfold Rsqr; nra]. rewrite sqrt_square by lra. reflexivity. }
  rewrite EQ. assert (0 < sqrt (1 + k²)) by (apply sqrt_lt_R0; unfold Rsqr; nra). field. split; lra.
Qed.
Lemma face_on_chord_lemma hc a b : 0 <= hc -> fst a + 1 / 1000000 <= fst b ->
  (snd a <= snd b -> on_line a b (face_node true hc a b a) /\ on_line a b (brace_node true hc a b a)) /\
  (snd b <= snd a -> on_line a b (face_node false hc a b b) /\ on_line a b (brace_node false hc a b b)).
Proof.
  intros H0 H. assert (A : 1 / 1000000 <= Rabs (fst b - fst a)) by (rewrite Rabs_right; lra).
  assert (P : 0 < fst b - fst a) by lra. assert (NZ : fst b - fst a <> 0) by lra.
  assert (AT : Rabs (tan (chord_angle a b)) = Rabs (snd b - snd a) / (fst b - fst a)).
  { rewrite (tan_chord a b A). unfold Rdiv. rewrite Rabs_mult, (Rabs_right (/ _)); [reflexivity|]. apply Rle_ge. left. apply Rinv_0_lt_compat. lra. }
  unfold face_node, brace_node, on_line, col_gap. rewrite AT. cbn [fst snd].
  split; intros S1; [rewrite (Rabs_right (snd b - snd a)) by lra|rewrite (Rabs_left1 (snd b - snd a)) by lra]; split; field; lra.
Qed.
Lemma face_off_chord_lemma hc a b : 0 < hc -> fst a + 1 / 1000000 <= fst b -> snd b < snd a -> ~ on_line a b (face_node true hc a b a).
Proof.
  intros H0 H S1. assert (A : 1 / 1000000 <= Rabs (fst b - fst a)) by (rewrite Rabs_right; lra).
  assert (P : 0 < fst b - fst a) by lra.
  assert (AT : Rabs (tan (chord_angle a b)) * (fst b - fst a) = snd a - snd b).
  { rewrite (tan_chord a b A). unfold Rdiv. rewrite Rabs_mult, (Rabs_right (/ _)); [|apply Rle_ge; left; apply Rinv_0_lt_compat; lra].
    rewrite (Rabs_left1 (snd b - snd a)) by lra. field. lra. }
  unfold face_node, on_line. cbn [fst snd]. intros E.
  replace ((snd a + 5/10 * hc * Rabs (tan (chord_angle a b)) - snd a) * (fst b - fst a)) with (5/10 * hc * (Rabs (tan (chord_angle a b)) * (fst b - fst a))) in E by ring.
  rewrite AT in E. nra.
Qed.
Lemma mlen_pos a b : fst a < fst b -> 0 < mlen a b /\ fst b - fst a <= mlen a b /\ mlen a b * mlen a b = (fst b - fst a) * (fst b - fst a) + (snd b - snd a) * (snd b - snd a).
Proof.
  intros H. unfold mlen, vlen, vdot, vminus. cbn [fst snd]. set (x := fst b - fst a). set (y := snd b - snd a). assert (0 < x) by (unfold x; lra).
  assert (S1 : 0 < x * x + y * y) by nra. assert (S2 := sqrt_lt_R0 _ S1). assert (S3 := sqrt_sqrt _ (Rlt_le _ _ S1)). split; [auto|]. split; [|exact S3]. nra.
Qed.
Lemma new_node_lemma (left : bool) hc a b n : 0 <= hc -> fst a + 1 / 1000000 <= fst b ->
  let c := (fst b - fst a) / mlen a b in
  exists p, new_brace_node left hc a b n = Some p /\
    fst p = fst n + (if left then 1 else -1) * (hc / 2 * c ^ 2 + 30 * c) /\
    (fst p - fst n) * (snd b - snd a) = (snd p - snd n) * (fst b - fst a) /\
    (snd a <> snd b -> Rabs (fst p - fst n) < hc / 2 + 30) /\
    (30 * c < hc / 2 * (1 - c ^ 2) -> Rabs (fst p - fst n) < hc / 2).
Proof.
  intros H0 H c. assert (A : 1 / 1000000 <= Rabs (fst b - fst a)) by (rewrite Rabs_right; lra).
  destruct (mlen_pos a b ltac:(lra)) as (M1 & M2 & M3). unfold new_brace_node. cbv zeta. rewrite !pdiv_ok by lra. cbn [bind].
  rewrite (cos_chord a b A), (Rabs_right (fst b - fst a)) by lra. fold c. set (d := (snd b - snd a) / mlen a b).
  assert (C0 : 0 < c) by (unfold c; apply Rdiv_lt_0_compat; lra).
  assert (C1 : c <= 1) by (unfold c; apply (Rmult_le_reg_r (mlen a b)); [auto|]; unfold Rdiv; rewrite Rmult_assoc, Rinv_l by lra; lra).
  assert (XX : fst b - fst a = c * mlen a b) by (unfold c; field; lra). assert (YY : snd b - snd a = d * mlen a b) by (unfold d; field; lra).
  assert (PY : c * c + d * d = 1).
  { rewrite XX, YY in M3. apply (Rmult_eq_reg_r (mlen a b * mlen a b)); [|nra]. lra. }
  eexists. split; [reflexivity|]. unfold col_gap. rewrite XX, YY.
  assert (LT : snd a <> snd b -> c < 1).
  { intros NE. assert (d <> 0) by (intros Z; apply NE; rewrite Z in YY; lra). assert (0 < d * d) by (apply Rsqr_pos_lt in H1; exact H1). nra. }
  assert (PP : 0 <= hc / 2 * c ^ 2 + 30 * c) by nra.
  assert (CC : c ^ 2 <= c) by nra.
  destruct left; cbn [fst snd].
  - split; [field|]. split; [ring|].
    replace (fst n + (5/10 * hc * c + 30) * c - fst n) with (hc / 2 * c ^ 2 + 30 * c) by field. rewrite Rabs_right by lra.
    split; [intros NE; specialize (LT NE); nra|intros; lra].
  - split; [field|]. split; [ring|].
    replace (fst n - (5/10 * hc * c + 30) * c - fst n) with (- (hc / 2 * c ^ 2 + 30 * c)) by field. rewrite Rabs_Ropp, Rabs_right by lra.
    split; [intros NE; specialize (LT NE); nra|intros; lra].
Qed.
Lemma update_node_lemma (left : bool) hc a b n : 0 <= hc -> fst (brace_node left hc a b n) = fst n + (if left then 1 else -1) * (hc / 2 + 30).
Proof. intros _. unfold brace_node, col_gap. cbn [fst]. destruct left; field. Qed.
