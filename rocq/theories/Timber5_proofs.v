(** Timber members: section checks, shear reduction, buckling and the verdict. *)
From Verif Require Import Base EC3_model Sections_proofs Sections3_proofs Plate_proofs Timber_proofs Timber2_proofs Timber4_proofs.
From Verif Require Import Loads_model Timber_model Timber_spec.
Require Import Psatz.

Lemma Rmax_le_compat_both a b c d : a <= c -> b <= d -> Rmax a b <= Rmax c d.
Proof. intros. apply Rmax_lub; [apply Rle_trans with (2 := Rmax_l _ _)|apply Rle_trans with (2 := Rmax_r _ _)]; auto. Qed.
Lemma ok_A m x : tmem_ok m -> 0 < A_at m x.
Proof. intros (B & H & _). unfold A_at. apply Rmult_lt_0_compat; auto. Qed.
Lemma ok_Wy m x : tmem_ok m -> 0 < Wy_at m x.
Proof. intros (B & H & _). unfold Wy_at. apply Rdiv_lt_0_compat; [|lra]. apply Rmult_lt_0_compat; [auto|apply pow_lt; auto]. Qed.
Lemma ok_Wz m x : tmem_ok m -> 0 < Wz_at m x.
Proof. intros (B & H & _). unfold Wz_at. apply Rdiv_lt_0_compat; [|lra]. apply Rmult_lt_0_compat; [auto|apply pow_lt; auto]. Qed.
Lemma abs_div a b : 0 < b -> Rabs (a / b) = Rabs a / b.
Proof. intros B. unfold Rdiv. rewrite Rabs_mult, Rabs_inv, (Rabs_pos_eq b) by lra. reflexivity. Qed.
Lemma sig_ax m f : tmem_ok m -> Rabs (sigma_0d m f) = ax (t_B m) (t_H m (f_loc f)) (f_N f).
Proof. intros OK. unfold sigma_0d. rewrite abs_div by (apply ok_A; auto). reflexivity. Qed.
Lemma sig_y m f : tmem_ok m -> Rabs (sigma_my m f) = by_ (t_B m) (t_H m (f_loc f)) (f_My f).
Proof.
  intros OK. unfold sigma_my. rewrite abs_div by (apply ok_Wy; auto). unfold Wy_at, by_. destruct OK as (B & H & _). specialize (H (f_loc f)).
  field. split; [|lra]; apply Rgt_not_eq; lra.
Qed.
Lemma sig_z m f : tmem_ok m -> Rabs (sigma_mz m f) = bz_ (t_B m) (t_H m (f_loc f)) (f_Mz f).
Proof.
  intros OK. unfold sigma_mz. rewrite abs_div by (apply ok_Wz; auto). unfold Wz_at, bz_. destruct OK as (B & H & _). specialize (H (f_loc f)).
  field. split; apply Rgt_not_eq; lra.
Qed.
Lemma sig_z_pos m f : tmem_ok m -> 0 <= f_Mz f -> 0 <= sigma_mz m f.
Proof. intros OK P. unfold sigma_mz. apply div_nn; [auto|apply ok_Wz; auto]. Qed.
Lemma div1_iff a b : 0 < b -> (a / b <= 1 <-> a <= b).
Proof. intros. rewrite div_le_iff by auto. rewrite Rmult_1_l. tauto. Qed.
Lemma check_normal_lemma m f : tmem_ok m ->
  check_normal m f = ax (t_B m) (t_H m (f_loc f)) (f_N f) / (if Rle_dec (f_N f) 0 then t_fc m else t_ft m) /\
  0 <= check_normal m f /\
  (check_normal m f <= 1 <-> - (t_fc m * (t_B m * t_H m (f_loc f))) <= f_N f <= t_ft m * (t_B m * t_H m (f_loc f))).
Proof.
  intros OK. pose proof (ok_A m (f_loc f) OK) as PA. pose proof OK as (B & H & _ & Ft & Fc & _). specialize (H (f_loc f)).
  unfold check_normal. rewrite sig_ax by auto. unfold ax. fold (A_at m (f_loc f)). set (A := A_at m (f_loc f)) in *.
  pose proof (Rabs_pos (f_N f)) as N0. assert (Q : 0 <= Rabs (f_N f) / A) by (apply div_nn; auto).
  destruct (Rltb 0 (f_N f)) eqn:T; [apply Rltb_true in T|apply Rltb_false in T]; destruct (Rle_dec (f_N f) 0); try lra.
  - split; [reflexivity|]. split; [apply div_nn; auto|]. rewrite div1_iff, div_le_iff by auto. rewrite Rabs_pos_eq by lra.
    assert (0 < t_fc m * A) by (apply Rmult_lt_0_compat; auto). split; lra.
  - split; [reflexivity|]. split; [apply div_nn; auto|]. rewrite div1_iff, div_le_iff by auto. rewrite Rabs_left1 by lra.
    assert (0 < t_ft m * A) by (apply Rmult_lt_0_compat; auto). split; lra.
Qed.
Lemma k_cr_lemma m : k_cr m = if t_varnished m then 1 else match t_type m with lvl => if Nat.eqb (t_sc m) 1 then 67/100 else 1 | _ => 67/100 end.
Proof. unfold k_cr. destruct (t_varnished m), (t_type m), (Nat.eqb (t_sc m) 1); reflexivity. Qed.
Lemma k_cr_pos m : 67/100 <= k_cr m <= 1.
Proof. rewrite k_cr_lemma. destruct (t_varnished m), (t_type m), (Nat.eqb (t_sc m) 1); lra. Qed.
Lemma shear_at_lemma m f : tmem_ok m ->
  check_shear_at m f = 3/2 * Rmax (Rabs (f_Vy f)) (Rabs (f_Vz f)) / (k_cr m * (t_B m * t_H m (f_loc f)) * t_fv m) /\
  0 <= check_shear_at m f.
Proof.
  intros OK. pose proof OK as (B & H & _ & _ & _ & Fv). specialize (H (f_loc f)). pose proof (k_cr_pos m) as K.
  unfold check_shear_at, tau_d. cbn [fst snd]. set (h := t_H m (f_loc f)) in *. set (k := k_cr m) in *. clearbody k h.
  assert (D : 0 < h * t_B m * k) by (apply Rmult_lt_0_compat; [apply Rmult_lt_0_compat|]; lra).
  assert (X : forall v, Rabs (3 / 2 * v / (h * t_B m * k)) / t_fv m = 3/2 * Rabs v / (k * (t_B m * h) * t_fv m)).
  { intros v. rewrite abs_div, Rabs_mult, (Rabs_pos_eq (3/2)) by lra. field. repeat split; lra. }
  rewrite !X. assert (D2 : 0 < k * (t_B m * h) * t_fv m) by (apply Rmult_lt_0_compat; [apply Rmult_lt_0_compat; [lra|apply Rmult_lt_0_compat; lra]|lra]).
  set (d := k * (t_B m * h) * t_fv m) in *. clearbody d.
  assert (P : forall v, 0 <= 3/2 * Rabs v / d). { intros v. apply div_nn; [|auto]. pose proof (Rabs_pos v). lra. }
  split; [|apply Rle_trans with (2 := Rmax_l _ _); apply P].
  assert (ID : 0 < / d) by (apply Rinv_0_lt_compat; auto).
  unfold Rmax. destruct (Rle_dec (3 / 2 * Rabs (f_Vy f) / d) (3 / 2 * Rabs (f_Vz f) / d)) as [L|L], (Rle_dec (Rabs (f_Vy f)) (Rabs (f_Vz f))) as [M|M]; auto.
  - exfalso. apply Rmult_le_compat_r with (r := d) in L; [|lra]. unfold Rdiv in L. rewrite !Rmult_assoc, Rinv_l, !Rmult_1_r in L by lra. lra.
  - exfalso. apply L. unfold Rdiv. apply Rmult_le_compat_r; lra.
Qed.
(** Bending: with stresses of the same sign the interaction of EN 1995; with opposite signs less. *)
Lemma bend_core a b f : 0 < f ->
  Rmax (Rabs (a / f + 7/10 * b / f)) (Rabs (b / f + 7/10 * a / f)) <= en_biaxial a b f /\
  (0 <= a * b -> Rmax (Rabs (a / f + 7/10 * b / f)) (Rabs (b / f + 7/10 * a / f)) = en_biaxial a b f) /\
  (a * b < 0 -> Rmax (Rabs (a / f + 7/10 * b / f)) (Rabs (b / f + 7/10 * a / f)) < en_biaxial a b f).
Proof.
  intros F. unfold en_biaxial. rewrite <- !abs_div by auto. replace (7/10 * b / f) with (7/10 * (b / f)) by (field; lra). replace (7/10 * a / f) with (7/10 * (a / f)) by (field; lra).
  assert (AB : a * b = f ^ 2 * ((a / f) * (b / f))) by (field; lra). assert (F2 : 0 < f ^ 2) by (apply pow_lt; auto).
  assert (S1 : 0 <= a * b -> 0 <= (a / f) * (b / f)). { intros H. rewrite AB in H. nra. }
  assert (S2 : a * b < 0 -> (a / f) * (b / f) < 0). { intros H. rewrite AB in H. nra. }
  set (x := a / f) in *. set (y := b / f) in *. clearbody x y. clear AB.
  repeat split; [| |]; intros; unfold Rmax, Rabs; try specialize (S1 ltac:(lra)); try specialize (S2 ltac:(lra));
  repeat match goal with |- context [Rcase_abs ?z] => destruct (Rcase_abs z) | |- context [Rle_dec ?u ?v] => destruct (Rle_dec u v) end; try lra; nra.
Qed.
Lemma check_bending_lemma m f : tmem_ok m ->
  0 <= check_bending m f <= en_biaxial (sigma_my m f) (sigma_mz m f) (t_fm m) /\
  (0 <= f_My f * f_Mz f -> check_bending m f =
     Rmax (by_ (t_B m) (t_H m (f_loc f)) (f_My f) / t_fm m + 7/10 * (bz_ (t_B m) (t_H m (f_loc f)) (f_Mz f) / t_fm m))
          (7/10 * (by_ (t_B m) (t_H m (f_loc f)) (f_My f) / t_fm m) + bz_ (t_B m) (t_H m (f_loc f)) (f_Mz f) / t_fm m)) /\
  (f_My f * f_Mz f < 0 -> check_bending m f <
     Rmax (by_ (t_B m) (t_H m (f_loc f)) (f_My f) / t_fm m + 7/10 * (bz_ (t_B m) (t_H m (f_loc f)) (f_Mz f) / t_fm m))
          (7/10 * (by_ (t_B m) (t_H m (f_loc f)) (f_My f) / t_fm m) + bz_ (t_B m) (t_H m (f_loc f)) (f_Mz f) / t_fm m)).
Proof.
  intros OK. pose proof OK as (_ & _ & F & _). destruct (bend_core (sigma_my m f) (sigma_mz m f) (t_fm m) F) as (C1 & C2 & C3).
  rewrite <- sig_y, <- sig_z by auto. pose proof (ok_Wy m (f_loc f) OK) as WY. pose proof (ok_Wz m (f_loc f) OK) as WZ.
  assert (E : f_My f * f_Mz f = (Wy_at m (f_loc f) * Wz_at m (f_loc f)) * (sigma_my m f * sigma_mz m f)) by (unfold sigma_my, sigma_mz; field; lra).
  assert (WW : 0 < Wy_at m (f_loc f) * Wz_at m (f_loc f)) by (apply Rmult_lt_0_compat; auto).
  split; [split; [|exact C1]|split].
  - apply Rle_trans with (2 := Rmax_l _ _). apply Rabs_pos.
  - intros S. apply C2. rewrite E in S. nra.
  - intros S. apply C3. rewrite E in S. nra.
Qed.
(** Interaction with an axial force: exact for a weak-axis moment that is not negative (and tension). *)
Lemma max_shift c a b : Rmax (c + a) (c + b) = c + Rmax a b.
Proof. unfold Rmax. destruct (Rle_dec (c + a) (c + b)), (Rle_dec a b); lra. Qed.
Lemma check_bt_lemma m f : tmem_ok m ->
  (0 <= f_N f -> 0 <= f_Mz f -> check_bt m f = en_bt (t_B m) (t_H m (f_loc f)) (t_ft m) (t_fm m) (f_N f) (f_My f) (f_Mz f)) /\
  check_bt m f <= en_bt (t_B m) (t_H m (f_loc f)) (t_ft m) (t_fm m) (f_N f) (f_My f) (f_Mz f) /\
  (f_N f < 0 \/ f_Mz f < 0 -> check_bt m f < en_bt (t_B m) (t_H m (f_loc f)) (t_ft m) (t_fm m) (f_N f) (f_My f) (f_Mz f)).
Proof.
  intros OK. pose proof OK as (B & H & Fm & Ft & _). unfold en_bt, check_bt. rewrite <- sig_ax, <- sig_y, <- sig_z by auto.
  assert (NS : forall n, n < 0 \/ 0 <= n) by (intros; lra).
  pose proof (ok_A m (f_loc f) OK) as PA. pose proof (ok_Wz m (f_loc f) OK) as PZ.
  assert (N1 : 0 <= f_N f -> 0 <= sigma_0d m f) by (intros; apply div_nn; auto). assert (Z1 : 0 <= f_Mz f -> 0 <= sigma_mz m f) by (intros; apply div_nn; auto).
  assert (N2 : f_N f < 0 -> sigma_0d m f < 0). { intros Q. unfold sigma_0d, Rdiv. assert (0 < / A_at m (f_loc f)) by (apply Rinv_0_lt_compat; auto). nra. }
  assert (Z2 : f_Mz f < 0 -> sigma_mz m f < 0). { intros Q. unfold sigma_mz, Rdiv. assert (0 < / Wz_at m (f_loc f)) by (apply Rinv_0_lt_compat; auto). nra. }
  replace (7/10 * sigma_mz m f / t_fm m) with (7/10 * (sigma_mz m f / t_fm m)) by (field; lra). replace (7/10 * Rabs (sigma_my m f) / t_fm m) with (7/10 * (Rabs (sigma_my m f) / t_fm m)) by (field; lra).
  set (n := sigma_0d m f) in *. set (y := Rabs (sigma_my m f) / t_fm m). set (z := sigma_mz m f) in *. clearbody n y z.
  assert (NN : n / t_ft m <= Rabs n / t_ft m) by (apply div_le; [auto|apply RRle_abs]). assert (ZZ : z / t_fm m <= Rabs z / t_fm m) by (apply div_le; [auto|apply RRle_abs]).
  assert (N3 : n < 0 -> n / t_ft m < Rabs n / t_ft m). { intros Q. unfold Rdiv. apply Rmult_lt_compat_r; [apply Rinv_0_lt_compat; auto|]. rewrite Rabs_left; lra. }
  assert (Z3 : z < 0 -> z / t_fm m < Rabs z / t_fm m). { intros Q. unfold Rdiv. apply Rmult_lt_compat_r; [apply Rinv_0_lt_compat; auto|]. rewrite Rabs_left; lra. }
  split; [|split].
  - intros P Q. rewrite !Rabs_pos_eq by auto. rewrite !Rplus_assoc, max_shift. reflexivity.
  - rewrite !Rplus_assoc, max_shift. apply Rplus_le_compat; [auto|]. apply Rmax_le_compat_both; lra.
  - intros [P|P].
    + specialize (N3 (N2 P)). rewrite !Rplus_assoc, max_shift. apply Rplus_lt_le_compat; [auto|]. apply Rmax_le_compat_both; lra.
    + specialize (Z3 (Z2 P)). rewrite !Rplus_assoc, max_shift. apply Rplus_le_lt_compat; [auto|].
      apply Rmax_lub_lt; [apply Rlt_le_trans with (2 := Rmax_l _ _)|apply Rlt_le_trans with (2 := Rmax_r _ _)]; lra.
Qed.
Lemma check_bc_lemma m f : tmem_ok m ->
  (0 <= f_Mz f -> check_bc m f = en_bc (t_B m) (t_H m (f_loc f)) (t_fc m) (t_fm m) (f_N f) (f_My f) (f_Mz f)) /\
  check_bc m f <= en_bc (t_B m) (t_H m (f_loc f)) (t_fc m) (t_fm m) (f_N f) (f_My f) (f_Mz f) /\
  (f_Mz f < 0 -> check_bc m f < en_bc (t_B m) (t_H m (f_loc f)) (t_fc m) (t_fm m) (f_N f) (f_My f) (f_Mz f)).
Proof.
  intros OK. pose proof OK as (B & H & Fm & Ft & Fc & _). unfold en_bc, check_bc. rewrite <- sig_ax, <- sig_y, <- sig_z by auto.
  pose proof (ok_Wz m (f_loc f) OK) as PZ. assert (Z1 : 0 <= f_Mz f -> 0 <= sigma_mz m f) by (intros; apply div_nn; auto).
  assert (Z2 : f_Mz f < 0 -> sigma_mz m f < 0). { intros Q. unfold sigma_mz, Rdiv. assert (0 < / Wz_at m (f_loc f)) by (apply Rinv_0_lt_compat; auto). nra. }
  replace (7/10 * sigma_mz m f / t_fm m) with (7/10 * (sigma_mz m f / t_fm m)) by (field; lra). replace (7/10 * Rabs (sigma_my m f) / t_fm m) with (7/10 * (Rabs (sigma_my m f) / t_fm m)) by (field; lra).
  assert (SQ : (Rabs (sigma_0d m f) / t_fc m) ^ 2 = (sigma_0d m f / t_fc m) ^ 2). { rewrite <- abs_div by auto. apply pow2_abs. }
  rewrite SQ. set (n := (sigma_0d m f / t_fc m) ^ 2) in *. set (y := Rabs (sigma_my m f) / t_fm m). set (z := sigma_mz m f) in *. clearbody n y z.
  assert (ZZ : z / t_fm m <= Rabs z / t_fm m) by (apply div_le; [auto|apply RRle_abs]).
  assert (Z3 : z < 0 -> z / t_fm m < Rabs z / t_fm m). { intros Q. unfold Rdiv. apply Rmult_lt_compat_r; [apply Rinv_0_lt_compat; auto|]. rewrite Rabs_left; lra. }
  split; [|split].
  - intros Q. rewrite (Rabs_pos_eq z) by auto. rewrite !Rplus_assoc, max_shift. reflexivity.
  - rewrite !Rplus_assoc, max_shift. apply Rplus_le_compat; [lra|]. apply Rmax_le_compat_both; lra.
  - intros P. specialize (Z3 (Z2 P)). rewrite !Rplus_assoc, max_shift. apply Rplus_le_lt_compat; [lra|].
    apply Rmax_lub_lt; [apply Rlt_le_trans with (2 := Rmax_l _ _)|apply Rlt_le_trans with (2 := Rmax_r _ _)]; lra.
Qed.
(** Torsion: the sign of the moment is the sign of the utilisation. *)
Lemma check_torsion_lemma m f : tmem_ok m ->
  (0 <= f_T f -> 0 <= check_torsion m f) /\ check_torsion m (with_T f (- f_T f)) = - check_torsion m f /\
  (f_T f < 0 -> check_torsion m f < 0) /\
  (t_B m <= t_H m (f_loc f) -> Rabs (check_torsion m f) <= 5 * Rabs (f_T f) / (t_H m (f_loc f) * t_B m ^ 2 * t_fv m)).
Proof.
  intros (B & H & _ & _ & _ & Fv). specialize (H (f_loc f)). unfold check_torsion, with_T; cbn [f_T f_loc].
  set (h := t_H m (f_loc f)) in *. clearbody h. destruct (side_ratio_ge1 h (t_B m) H B) as [SR _]. pose proof (tor_beta_range _ SR) as TB.
  destruct (k_shape_lemma h (t_B m) H B) as [KS _]. assert (D : 0 < k_shape h (t_B m) * t_fv m) by (apply Rmult_lt_0_compat; lra).
  assert (D2 : 0 < tor_beta (side_ratio h (t_B m)) * h * t_B m ^ 2) by (apply Rmult_lt_0_compat; [apply Rmult_lt_0_compat; lra|apply pow_lt; auto]).
  assert (NEG : forall t, tau_tor (- t) h (t_B m) = - tau_tor t h (t_B m)) by (intros; unfold tau_tor, Rdiv; ring).
  assert (POS : forall t, 0 < t -> 0 < tau_tor t h (t_B m)) by (intros; unfold tau_tor; apply Rdiv_lt_0_compat; auto).
  split; [|split; [|split]].
  - intros T. destruct (Req_dec (f_T f) 0) as [->|N]; [unfold tau_tor, Rdiv; rewrite !Rmult_0_l; lra|]. left. apply Rdiv_lt_0_compat; [apply POS; lra|auto].
  - rewrite NEG. unfold Rdiv. ring.
  - intros T. replace (f_T f) with (- (- f_T f)) by ring. rewrite NEG. assert (0 < tau_tor (- f_T f) h (t_B m) / (k_shape h (t_B m) * t_fv m)) by (apply Rdiv_lt_0_compat; [apply POS; lra|auto]). unfold Rdiv in *. lra.
  - intros HB. rewrite abs_div by auto. destruct (tau_tor_lemma (f_T f) h (t_B m) B HB) as [_ U].
    assert (P2 : 0 < h * t_B m ^ 2) by (apply Rmult_lt_0_compat; [auto|apply pow_lt; auto]).
    replace (5 * Rabs (f_T f) / (h * t_B m ^ 2 * t_fv m)) with (5 * Rabs (f_T f) / (h * t_B m ^ 2) / t_fv m) by (field; repeat split; lra).
    apply Rle_trans with (5 * Rabs (f_T f) / (h * t_B m ^ 2) / (k_shape h (t_B m) * t_fv m)); [apply div_le; auto|].
    unfold Rdiv. apply Rmult_le_compat_l. { apply Rmult_le_pos; [pose proof (Rabs_pos (f_T f)); lra|left; apply Rinv_0_lt_compat; auto]. }
    apply Rinv_le_contravar; [auto|]. nra.
Qed.
(* ---------------------------------------------------------------- shear reduction *)
Lemma pyget_nat {A} (l : list A) k : pyget l (Z.of_nat k) = nth_error l k.
Proof. unfold pyget. destruct (Z.ltb_spec (Z.of_nat k) (- Z.of_nat (length l))); [lia|]. destruct (Z.ltb_spec (Z.of_nat k) 0); [lia|]. rewrite Nat2Z.id. reflexivity. Qed.
Lemma asc_nth l i j : ascending l -> (i <= j)%nat -> (j < length l)%nat -> nth i l 0 <= nth j l 0.
Proof.
  revert i j. induction l as [|x l IH]; intros i j A I J; [cbn in J; lia|]. destruct l as [|y l]; [cbn in J; replace j with 0%nat by lia; replace i with 0%nat by lia; lra|].
  destruct A as [A1 A2]. destruct i as [|i], j as [|j]; cbn [nth]; try lia; try lra.
  - specialize (IH 0%nat j A2 ltac:(lia) ltac:(cbn in *; lia)). cbn [nth] in IH. lra.
  - apply (IH i j A2); [lia|cbn in *; lia].
Qed.
Lemma nth_err l k : (k < length l)%nat -> nth_error l k = Some (nth k l 0).
Proof. intros H. apply nth_error_nth'. exact H. Qed.
Lemma shift_start_spec loc n s fuel : ascending loc -> (n < length loc)%nat -> nth n loc 0 <= s ->
  forall i, (forall j, (n <= j <= n + i)%nat -> (j < length loc)%nat -> nth j loc 0 <= s) -> (length loc <= n + i + fuel)%nat ->
  exists k, shift_start loc (Z.of_nat n) s fuel (Z.of_nat i) = Z.of_nat k /\ (n <= k < length loc)%nat /\ nth k loc 0 <= s /\
    ((S k < length loc)%nat /\ s < nth (S k) loc 0 \/ k = n /\ forall j, (n <= j < length loc)%nat -> nth j loc 0 <= s).
Proof.
  intros A N X. induction fuel as [|fuel IH]; intros i LE LEN; cbn [shift_start].
  - exists n. split; [auto|]. split; [lia|]. split; [auto|]. right. split; [auto|]. intros j J. apply LE; lia.
  - replace (Z.of_nat n + Z.of_nat i + 1)%Z with (Z.of_nat (S (n + i))) by lia. rewrite pyget_nat.
    replace (Z.of_nat i + 1)%Z with (Z.of_nat (S i)) by lia.
    destruct (Nat.lt_ge_cases (S (n + i)) (length loc)) as [C|C].
    + rewrite nth_err by auto. destruct (Rltb s (nth (S (n + i)) loc 0)) eqn:E; [apply Rltb_true in E|apply Rltb_false in E].
      * exists (n + i)%nat. split; [lia|]. split; [lia|]. split; [apply LE; lia|]. left. auto.
      * apply IH; [|lia]. intros j J JL. destruct (Nat.eq_dec j (S (n + i))) as [->|]; [auto|]. apply LE; lia.
    + rewrite (proj2 (nth_error_None loc (S (n + i)))) by lia. apply IH; [|lia]. intros j J JL. apply LE; lia.
Qed.
Lemma shift_end_spec loc n s fuel : ascending loc -> (n < length loc)%nat -> s <= nth n loc 0 ->
  forall i, (forall j, (n <= j + i)%nat -> (j <= n)%nat -> s <= nth j loc 0) -> (i + fuel <= length loc)%nat -> (n < i + fuel)%nat ->
  exists k, shift_end loc (Z.of_nat n) s fuel (Z.of_nat i) = Z.of_nat k /\ (k <= n)%nat /\ s <= nth k loc 0 /\
    ((0 < k)%nat /\ nth (k - 1) loc 0 < s \/ k = n /\ forall j, (j <= n)%nat -> s <= nth j loc 0).
Proof.
  intros A N X. induction fuel as [|fuel IH]; intros i LE LEN LEN2; cbn [shift_end].
  - exists n. split; [auto|]. split; [lia|]. split; [auto|]. right. split; [auto|]. intros j J. apply LE; lia.
  - replace (Z.of_nat i + 1)%Z with (Z.of_nat (S i)) by lia.
    destruct (Nat.lt_ge_cases i n) as [C|C].
    + replace (Z.of_nat n - Z.of_nat i - 1)%Z with (Z.of_nat (n - i - 1)) by lia. rewrite pyget_nat, nth_err by lia.
      destruct (Rltb (nth (n - i - 1) loc 0) s) eqn:E; [apply Rltb_true in E|apply Rltb_false in E].
      * exists (n - i)%nat. split; [lia|]. split; [lia|]. split; [apply LE; lia|]. left. split; [lia|auto].
      * apply IH; [|lia|lia]. intros j J JL. destruct (Nat.eq_dec j (n - i - 1)) as [->|]; [auto|]. apply LE; lia.
    + (* wrapped around: elements behind section n *)
      assert (G : exists k, pyget loc (Z.of_nat n - Z.of_nat i - 1) = Some (nth k loc 0) /\ (n <= k < length loc)%nat).
      { unfold pyget. destruct (Z.ltb_spec (Z.of_nat n - Z.of_nat i - 1) (- Z.of_nat (length loc))); [lia|].
        destruct (Z.ltb_spec (Z.of_nat n - Z.of_nat i - 1) 0); [|lia].
        exists (Z.to_nat (Z.of_nat n - Z.of_nat i - 1 + Z.of_nat (length loc))). split; [apply nth_err; lia|lia]. }
      destruct G as (k & -> & K). assert (s <= nth k loc 0) by (pose proof (asc_nth loc n k A ltac:(lia) ltac:(lia)); lra).
      destruct (Rltb (nth k loc 0) s) eqn:E; [apply Rltb_true in E; lra|].
      destruct fuel as [|fuel']; [|apply IH; [|lia|lia]].
      * cbn [shift_end]. exists n. split; [auto|]. split; [lia|]. split; [auto|]. right. split; [auto|]. intros j J. apply LE; lia.
      * intros j J JL. apply LE; lia.
Qed.
Lemma shear_section_lemma loc n s e : ascending loc -> (n < length loc)%nat -> s <= 1 - e ->
  exists k, shear_section loc n s e = Some (Z.of_nat k) /\ (k < length loc)%nat /\
  (s <= nth n loc 0 <= 1 - e -> k = n) /\
  (nth n loc 0 < s -> (n <= k)%nat /\ nth k loc 0 <= s /\
     ((S k < length loc)%nat /\ s < nth (S k) loc 0 \/ k = n /\ forall j, (n <= j < length loc)%nat -> nth j loc 0 <= s)) /\
  (1 - e < nth n loc 0 -> (k <= n)%nat /\ 1 - e <= nth k loc 0 /\
     ((0 < k)%nat /\ nth (k - 1) loc 0 < 1 - e \/ k = n /\ forall j, (j <= n)%nat -> 1 - e <= nth j loc 0)).
Proof.
  intros A N SE. unfold shear_section. rewrite nth_err by auto. cbn [bind].
  destruct (Rltb (nth n loc 0) s) eqn:E1; [apply Rltb_true in E1|apply Rltb_false in E1]; (destruct (Rltb (1 - e) (nth n loc 0)) eqn:E2; [apply Rltb_true in E2|apply Rltb_false in E2]); try lra.
  - destruct (shift_start_spec loc n s (length loc) A N ltac:(lra) 0%nat) as (k & EQ & K1 & K2 & K3); [intros j J JL; replace j with n by lia; lra|lia|].
    change (Z.of_nat 0) with 0%Z in EQ. rewrite EQ. exists k. split; [auto|]. split; [lia|]. split; [lra|]. split; [intros _; split; [lia|]; split; auto|lra].
  - destruct (shift_end_spec loc n (1 - e) (length loc) A N ltac:(lra) 0%nat) as (k & EQ & K1 & K2 & K3); [intros j J JL; replace j with n by lia; lra|lia|lia|].
    change (Z.of_nat 0) with 0%Z in EQ. rewrite EQ. exists k. split; [auto|]. split; [lia|]. split; [lra|]. split; [lra|]. intros _. split; [lia|]. split; auto.
  - exists n. split; [auto|]. split; [auto|]. split; [auto|]. split; lra.
Qed.
Lemma check_shear_lemma m secs n s e : ascending (map f_loc secs) -> (n < length secs)%nat -> s <= 1 - e ->
  exists k f, nth_error secs k = Some f /\ shear_section (map f_loc secs) n s e = Some (Z.of_nat k) /\ check_shear m secs n s e = Some (check_shear_at m f).
Proof.
  intros A N SE. destruct (shear_section_lemma (map f_loc secs) n s e A ltac:(rewrite map_length; auto) SE) as (k & EQ & K & _). rewrite map_length in K.
  destruct (nth_error secs k) as [f|] eqn:F; [|apply nth_error_None in F; lia]. exists k, f. split; [auto|]. split; [auto|].
  unfold check_shear. rewrite EQ. cbn [bind]. rewrite pyget_nat, F. reflexivity.
Qed.
