(** Proofs on shear connectors. *)
Require Import Reals Lra Lia Psatz PeanoNat.
From Verif Require Import Base EC3_model Bool_tac EC3_proofs Plate_proofs.
From Verif Require Import Stud_model Stud_spec.
Local Open Scope R_scope.

Lemma stud_alpha_lemma : forall len d, stud_alpha len d = std_alpha len d.
Proof.
  intros. unfold stud_alpha, std_alpha. destruct (Rltb 4 (len / d)) eqn:E; [apply Rltb_true in E|apply Rltb_false in E]. rewrite Rmin_right; lra. rewrite Rmin_left; lra.
Qed.
Lemma stud_steel_lemma : forall fu d, stud_steel fu d = 125/100 * PI * std_shank fu d.
Proof. intros. unfold stud_steel, std_shank. field. Qed.
Lemma stud_concrete_lemma : forall len d fck Ecm, 0 <= fck * Ecm -> stud_concrete len d fck Ecm = Some (std_concrete len d fck Ecm).
Proof.
  intros. unfold stud_concrete, psqrt. rewrite (proj2 (Rltb_false _ _)) by lra. cbn [bind]. rewrite stud_alpha_lemma. reflexivity.
Qed.
Lemma stud_value_lemma : forall len d fu fck Ecm, 0 <= fck * Ecm -> stud_PRd len d fu fck Ecm = Some (Rmin (125/100 * PI * std_shank fu d) (std_concrete len d fck Ecm)).
Proof. intros. unfold stud_PRd. rewrite stud_concrete_lemma by auto. cbn [bind]. rewrite stud_steel_lemma. reflexivity. Qed.
Lemma stud_raises_lemma : forall len d fu fck Ecm, fck * Ecm < 0 <-> stud_PRd len d fu fck Ecm = None.
Proof.
  intros. split; intro H.
  - unfold stud_PRd, stud_concrete, psqrt. rewrite (proj2 (Rltb_true _ _)) by lra. reflexivity.
  - destruct (Rlt_dec (fck * Ecm) 0); auto. rewrite stud_value_lemma in H by lra. discriminate.
Qed.
Lemma stud_unsafe_lemma : forall len d fu fck Ecm P, 0 < fu -> 0 <= fck * Ecm -> stud_PRd len d fu fck Ecm = Some P ->
  std_stud len d fu fck Ecm <= P /\ (std_concrete len d fck Ecm <= std_shank fu d -> P = std_stud len d fu fck Ecm) /\
  (0 < d -> std_shank fu d < std_concrete len d fck Ecm -> std_stud len d fu fck Ecm < P).
Proof.
  intros len d fu fck Ecm P F H E. rewrite stud_value_lemma in E by auto. injection E as <-. unfold std_stud.
  assert (Q : 3 < PI) by (pose proof PI_ineq 3; pose proof PI2_3_2; lra).
  assert (S : 0 <= std_shank fu d). { unfold std_shank. pose proof (pow2_ge_0 d). unfold Rdiv. apply Rmult_le_pos; [|lra]. apply Rmult_le_pos; [lra|]. nra. }
  set (s := std_shank fu d) in *. set (c := std_concrete len d fck Ecm). assert (s <= 125/100 * PI * s) by nra. repeat split.
  - unfold Rmin; repeat destruct Rle_dec; lra.
  - intro. unfold Rmin; repeat destruct Rle_dec; lra.
  - intros D L. assert (0 < s). { unfold s, std_shank. apply Rdiv_lt_0_compat; [|lra]. apply Rmult_lt_0_compat; [lra|]. pose proof (pow_lt d 2 D). nra. }
    assert (s < 125/100 * PI * s) by nra. rewrite (Rmin_left s c) by lra. apply Rmin_glb_lt; auto.
Qed.
Lemma stud_mono_lemma : forall len len' d fu fu' fck fck' Ecm Ecm' P P', 0 < d -> 0 <= len <= len' -> 0 <= fu <= fu' -> 0 <= fck <= fck' -> 0 <= Ecm <= Ecm' ->
  stud_PRd len d fu fck Ecm = Some P -> stud_PRd len' d fu' fck' Ecm' = Some P' -> 0 <= P <= P'.
Proof.
  intros len len' d fu fu' fck fck' Ecm Ecm' P P' D L F C M E E'.
  assert (X : 0 <= fck * Ecm) by nra. assert (X' : fck * Ecm <= fck' * Ecm') by nra.
  rewrite stud_value_lemma in E, E' by lra. injection E as <-. injection E' as <-.
  assert (Q : 0 < PI) by apply PI_RGT_0. pose proof (pow_lt d 2 D) as D2.
  assert (S : 0 <= std_shank fu d <= std_shank fu' d). { unfold std_shank, Rdiv. assert (0 < PI * d ^ 2 * / 4) by nra. split. apply Rmult_le_pos; [|lra]; apply Rmult_le_pos; lra. apply Rmult_le_compat_r; [lra|]. apply Rmult_le_compat_r; lra. }
  assert (A : 0 <= std_alpha len d <= std_alpha len' d).
  { unfold std_alpha. assert (0 <= len / d) by (apply Rmult_le_pos; [lra|left; apply Rinv_0_lt_compat; auto]). assert (len / d <= len' / d) by (apply Rmult_le_compat_r; [left; apply Rinv_0_lt_compat; auto|lra]).
    split. apply Rmin_glb; lra. apply Rle_min_compat_r. lra. }
  assert (T : 0 <= std_concrete len d fck Ecm <= std_concrete len' d fck' Ecm').
  { unfold std_concrete. pose proof (sqrt_pos (fck * Ecm)). pose proof (sqrt_le_1_alt _ _ X'). unfold Rdiv.
    assert (0 <= 29/100 * std_alpha len d * d ^ 2) by (apply Rmult_le_pos; lra). split. apply Rmult_le_pos; [|lra]. apply Rmult_le_pos; auto.
    apply Rmult_le_compat_r; [lra|]. apply Rmult_le_compat; auto. apply Rmult_le_compat_r; lra. }
  assert (0 <= 125/100 * PI) by lra. assert (125/100 * PI * std_shank fu d <= 125/100 * PI * std_shank fu' d) by (apply Rmult_le_compat_l; lra). assert (0 <= 125/100 * PI * std_shank fu d) by (apply Rmult_le_pos; lra).
  split. apply Rmin_glb; lra. apply Rmin_glb. eapply Rle_trans; [apply Rmin_l|lra]. eapply Rle_trans; [apply Rmin_r|lra].
Qed.
