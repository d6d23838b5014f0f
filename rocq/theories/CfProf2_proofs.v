(** Area and centroid of cold-formed sections. *)
From Verif Require Import Base EC3_model Bool_tac EC3_proofs Plate_proofs Sections_proofs Cold_proofs Joint_model Joint_proofs CfProf_proofs.
From Verif Require Import CfProf_model CfProf_spec.
Require Import Reals List Bool Lra Lia Psatz PeanoNat.
Import ListNotations.
Local Open Scope R_scope.

Lemma points_nonempty s : exists m, length (cf_points s) = S m.
Proof. unfold cf_points, web_points. rewrite !app_length. cbn [length]. exists (length (bottom_points s) + (length (bottom_corner s) + (3 + (length (top_corner s) + length (top_points s)))))%nat. lia. Qed.
Lemma cf_prof_ok s : cf_prof s = Some (mkProf (cf_points s) (repeat (cf_t s) (length (cf_points s) - 1)) (repeat (cf_t s) (length (cf_points s) - 1))).
Proof. unfold cf_prof, new_prof. destruct (points_nonempty s) as [m E]. rewrite E. cbn [Nat.sub]. rewrite Nat.sub_0_r. reflexivity. Qed.
Lemma area_exact_lemma s : fits s ->
  cf_area false s = Some (cf_t s * (straight_lip s (c_cb s) + c_bottom s + cf_hw s + run_top s + corners s * chords * cf_rm s)).
Proof.
  intros F. unfold cf_area. rewrite cf_prof_ok. cbn [bind]. f_equal. unfold area, segs. cbn [pn pst]. rewrite G_area.
  change (fun _ _ : pt2 => 1) with one2. rewrite (G_length_lemma s (cf_t s) _ F eq_refl). ring.
Qed.
Lemma sin_low x : 0 <= x <= 4 -> x - x ^ 3 / 6 <= sin x.
Proof.
  intros X. destruct (pre_sin_bound x 0) as [P _]; try lra. unfold sin_approx, sin_term in P. cbn in P. 
  replace (1 * (x * 1 / 1) + -1 * 1 * (x * (x * (x * 1)) / (1 + 1 + 1 + 1 + 1 + 1))) with (x - x ^ 3 / 6) in P by field. exact P.
Qed.
Lemma chords_bounds : (1 - 1/96) * (PI / 2) <= chords < PI / 2.
Proof.
  unfold chords. pose proof PI_RGT_0 as P. pose proof PI_4 as P4. split.
  - pose proof (sin_low (PI / 16)) as L. assert (0 <= PI / 16 <= 4) by lra. specialize (L H).
    assert (PI ^ 2 <= 16) by nra. assert ((PI / 16) ^ 3 <= (PI / 16) * (1 / 16)) by (replace ((PI / 16) ^ 3) with (PI / 16 * (PI ^ 2 / 256)) by field; apply Rmult_le_compat_l; lra). lra.
  - pose proof (sin_lt_x (PI / 16)). lra.
Qed.
Lemma ordered_run s : fits s -> ordered s -> run_top s = c_top s + straight_lip s (c_ca s).
Proof.
  intros ((LA & LB) & Rm & HW & CT & CB & SA & SB) O. unfold ordered, run_top in *. destruct (Rlt_dec 0 (c_ca s)) as [A|A].
  - rewrite (ltb_t 0 (c_ca s)) in * by lra. pose proof (flange_c s (c_a s) (c_ca s) A) as E. fold (bt_center s) in E. fold (c_top s) in E.
    destruct (lipc s (c_ca s) Rm A SA) as [_ EL]. rewrite !Rmax_left by lra. reflexivity.
  - rewrite (ltb_f 0 (c_ca s)) in * by lra. pose proof (lip0 _ LA A) as Z. pose proof (flange_0 s (c_a s)) as E. unfold bt_center, c_top, straight_lip in *. rewrite Z in *.
    rewrite (ltb_f 0 0) by lra. rewrite !Rmax_left by lra. ring.
Qed.
Lemma corners_range s : 2 <= corners s <= 4.
Proof. unfold corners. destruct (Rltb 0 (c_ca s)), (Rltb 0 (c_cb s)); lra. Qed.
Lemma length_corners s : center_line_length s = straight_lip s (c_cb s) + c_bottom s + cf_hw s + c_top s + straight_lip s (c_ca s) + corners s * (PI / 2) * cf_rm s.
Proof. unfold center_line_length, corners. cbv zeta. field. Qed.
Lemma area_bounds_lemma s A : fits s -> ordered s -> 0 < cf_t s -> cf_area false s = Some A -> (1 - 1/96) * Agross s <= A < Agross s.
Proof.
  intros F O T E. rewrite (area_exact_lemma s F), (ordered_run s F O) in E. injection E as E; subst A. unfold Agross. rewrite length_corners.
  destruct F as ((LA & LB) & Rm & HW & CT & CB & SA & SB). pose proof (corners_range s) as C. pose proof chords_bounds as [K1 K2].
  set (P := PI / 2) in *. set (n := corners s) in *. set (k := chords) in *. set (r := cf_rm s) in *.
  assert (0 < n * r) by nra. split.
  - assert ((1 - 1/96) * P * (n * r) <= k * (n * r)) by (apply Rmult_le_compat_r; lra).
    replace ((1 - 1/96) * (cf_t s * (straight_lip s (c_cb s) + c_bottom s + cf_hw s + c_top s + straight_lip s (c_ca s) + n * P * r)))
      with (cf_t s * ((1 - 1/96) * (straight_lip s (c_cb s) + c_bottom s + cf_hw s + c_top s + straight_lip s (c_ca s)) + (1 - 1/96) * P * (n * r))) by ring.
    apply Rmult_le_compat_l; [lra|]. lra.
  - apply Rmult_lt_compat_l; [lra|]. assert (k * (n * r) < P * (n * r)) by (apply Rmult_lt_compat_r; lra). lra.
Qed.
(** A short lip: its middle node lies inside the corner and the nodes run back and forth. *)
Lemma short_lip_lemma s A : fits s -> 0 < c_ca s -> cf_rm s <= bt_center s / 4 -> lip_center s (c_ca s) / 2 < cf_rm s -> cf_area false s = Some A ->
  A = Agross s + cf_t s * (2 * cf_rm s - lip_center s (c_ca s) - corners s * (PI / 2 - chords) * cf_rm s).
Proof.
  intros F A0 O1 O2 E. rewrite (area_exact_lemma s F) in E. injection E as E; subst A. unfold Agross. rewrite length_corners.
  destruct F as ((LA & LB) & Rm & HW & CT & CB & SA & SB). unfold run_top. rewrite (ltb_t 0 (c_ca s)) by lra.
  pose proof (flange_c s (c_a s) (c_ca s) A0) as E. fold (bt_center s) in E. fold (c_top s) in E. destruct (lipc s (c_ca s) Rm A0 SA) as [_ EL].
  rewrite (Rmax_left (c_top s)) by lra. rewrite (Rmax_right (straight_lip s (c_ca s))) by lra. rewrite EL. field.
Qed.

(** Points of the corners. *)
Definition C (k : R) : R := cos (k * (PI / 8)).
Definition Sn (k : R) : R := sin (k * (PI / 8)).
Lemma cpt_val X r f0 f1 sg k : f1 - f0 = sg * (PI / 2) -> sg = 1 \/ sg = -1 ->
  cpt X r f0 f1 k = (fst X + r * (cos f0 * C k - sg * sin f0 * Sn k), snd X + r * (sin f0 * C k + sg * cos f0 * Sn k)).
Proof.
  intros D [-> | ->]; unfold cpt, C, Sn; rewrite D.
  - replace (k * (1 * (PI / 2) / 4)) with (k * (PI / 8)) by field. rewrite cos_plus, sin_plus. f_equal; ring.
  - replace (f0 + k * (-1 * (PI / 2) / 4)) with (f0 - k * (PI / 8)) by field. rewrite cos_minus, sin_minus. f_equal; ring.
Qed.
Lemma S1 : Sn 1 = C 3. Proof. unfold Sn, C. replace (1 * (PI / 8)) with (PI / 2 - 3 * (PI / 8)) by field. apply sin_shift. Qed.
Lemma S2 : Sn 2 = C 2. Proof. unfold Sn, C. replace (2 * (PI / 8)) with (PI / 2 - 2 * (PI / 8)) at 1 by field. apply sin_shift. Qed.
Lemma S3 : Sn 3 = C 1. Proof. unfold Sn, C. replace (3 * (PI / 8)) with (PI / 2 - 1 * (PI / 8)) by field. apply sin_shift. Qed.
Ltac vals := repeat match goal with |- context[cpt ?X ?r ?f0 ?f1 ?k] =>
  (rewrite (cpt_val X r f0 f1 1 k) by lra) || (rewrite (cpt_val X r f0 f1 (-1) k) by lra) end.
Definition wy (a b : pt2) : R := (fst a + fst b) / 2.
Definition wz (a b : pt2) : R := (snd a + snd b) / 2.
(** The centroid from the first moments along the nodes. *)
Lemma centroid_G s : fits s -> 0 < cf_t s ->
  let n := (length (cf_points s) - 1)%nat in let A := G one2 (cf_points s) (repeat (cf_t s) n) in
  0 < A /\ cf_centroid s = Some (G wy (cf_points s) (repeat (cf_t s) n) / A, G wz (cf_points s) (repeat (cf_t s) n) / A).
Proof.
  intros F T n A.
  assert (P : 0 < A).
  { unfold A. rewrite (G_length_lemma s (cf_t s) n F eq_refl). apply Rmult_lt_0_compat; [lra|].
    destruct F as ((LA & LB) & Rm & HW & CT & CB & SA & SB). pose proof (corners_range s). pose proof ch_pos as Q.
    replace chords with (4 * ch) by (unfold chords, ch; ring). assert (0 < corners s * (4 * ch) * cf_rm s) by (apply Rmult_lt_0_compat; [apply Rmult_lt_0_compat|]; lra).
    assert (0 <= run_top s) by (unfold run_top; destruct (Rltb 0 (c_ca s)); [pose proof (Rmax_l (c_top s) (2 * cf_rm s)); pose proof (Rmax_l (straight_lip s (c_ca s)) (cf_rm s)); lra | pose proof (Rmax_l (c_top s) (cf_rm s)); lra]). lra. }
  split; [exact P|]. unfold cf_centroid. rewrite cf_prof_ok. cbn [bind]. unfold centroid, first_moments, area, segs. cbn [pn pst].
  rewrite G_area, G_Sy, G_Sz. fold n. change (fun _ _ : pt2 => 1) with one2. fold A. rewrite !pdiv_ok by lra. cbn [bind fst]. reflexivity.
Qed.
Ltac widths F :=
  destruct F as ((LA & LB) & Rm & HW & CT & CB & SA & SB).
Lemma sym_eq s : issymmetric s = true -> c_a s = c_b s /\ c_ca s = c_cb s.
Proof. unfold issymmetric. intros H. apply andb_true_iff in H. destruct H as [H1 H2]. apply Reqb_true in H1. apply Reqb_true in H2. auto. Qed.
(** First moments of a section with equal flanges. *)
Lemma moments_sym s t n : fits s -> ordered s -> issymmetric s = true -> n = (length (cf_points s) - 1)%nat ->
  (c_kind s = KZ -> G wy (cf_points s) (repeat t n) = 0) /\ G wz (cf_points s) (repeat t n) = 0.
Proof.
  intros F O Y N. destruct (sym_eq s Y) as [Y1 Y2]. rewrite (points_named s F) in *. destruct F as ((LA & LB) & Rm & HW & CT & CB & SA & SB).
  unfold bot_nodes, bot_arc, web_points, top_arc, top_nodes, ordered in *. cbv zeta in *.
  pose proof (web_c s) as EW. rewrite EW in *.
  assert (ECB : c_bottom s = c_top s) by (unfold c_bottom, c_top; rewrite Y1, Y2; reflexivity). rewrite ECB in *.
  assert (EBB : bb_center s = bt_center s) by (unfold bb_center, bt_center; rewrite Y1, Y2; reflexivity). rewrite EBB in *.
  rewrite <- Y2 in *.
  assert (EA : bt_center s = c_top s + (if Rltb 0 (c_ca s) then 2 else 1) * cf_rm s).
  { unfold bt_center, c_top. destruct (Rlt_dec 0 (c_ca s)) as [A|A].
    - rewrite (ltb_t 0 (c_ca s)) by lra. apply flange_c. exact A.
    - rewrite (lip0 _ LA A). rewrite (ltb_f 0 0) by lra. rewrite flange_0. ring. }
  rewrite EA in *.
  assert (LCA : Rltb 0 (c_ca s) = true -> lip_center s (c_ca s) = straight_lip s (c_ca s) + cf_rm s).
  { intros B. apply Rltb_true in B. destruct (lipc s (c_ca s) Rm B SA). lra. }
  clear Y Y1 Y2 ECB EBB EA EW.
  destruct (Rltb 0 (c_ca s)); [rewrite (LCA eq_refl) in *|];
  (destruct (c_kind s); cbn [app length Nat.sub] in N; subst n; rewrite !repeat_S; cbn [app];
   (split; [intros K; try discriminate K|]); steps; unfold wy, wz; abz; vals; trig; cbn [fst snd]; rewrite ?S1, ?S2, ?S3; field).
Qed.
