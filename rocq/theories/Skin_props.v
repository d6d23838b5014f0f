(** C251 to C256: sheeting diaphragms, sandwich panels and CLT slabs. *)
From Verif Require Import Tac Bool_tac EC3_proofs Sections_proofs Cold_proofs Skin_proofs Skin2_proofs Skin3_proofs.
From Verif Require Import Skin_model Skin_spec.
Open Scope R_scope.

(** A roof diaphragm used in the examples. *)
Definition roof_skin : skin := mkSkin (mkSheet 1 130 111 75 90 4) 4 210000 (3/10) 350 420 6000 6000 4 (48/10) 500 true (55/10) 250 6 5 210000 1900 true.
Lemma roof_pitch : sk_p roof_skin = 186.
Proof. exact short_pitch. Qed.
Lemma roof_ok : skin_ok roof_skin.
Proof. unfold skin_ok. rewrite roof_pitch. unfold sk_t, sheet_t, roof_skin. cbn. repeat split; lra. Qed.

(** C251 *)
Theorem C251_closed_form : forall m, (1 <= m)%nat ->
  beta1 (2 * m) true = INR m ^ 2 * (2 * INR m ^ 2 - 1) / (2 * INR m - 1) ^ 3 /\
  beta1 (2 * m + 1) true = (INR m + 1) ^ 2 / (4 * INR m) /\
  beta1 (2 * m) false = (2 * INR m ^ 2 - 1) / (8 * INR m) /\
  beta1 (2 * m + 1) false = 2 * INR m ^ 2 * (INR m + 1) ^ 2 / (2 * INR m + 1) ^ 3.
Proof. exact beta1_lemma. Qed.
Print Assumptions C251_closed_form.
Theorem C251_monotone : forall n, (2 <= n)%nat -> 1 <= beta1 n true <= beta1 (n + 1) true /\ 0 < beta1 n false < beta1 n true.
Proof. exact beta1_mono_lemma. Qed.
Print Assumptions C251_monotone.
Example C251_ex : (2 <= 4)%nat /\ beta1 4 true = 28/27 /\ beta1 4 false = 7/16.
Proof. split; [lia|]. destruct (beta1_lemma 2 ltac:(lia)) as (A & _ & B & _). change (2 * 2)%nat with 4%nat in *. rewrite A, B. change (INR 2) with 2. split; field. Qed.

(** C252 *)
Theorem C252_table_entry : forall k a j i, 0 < sk_p k ->
  5 * IZR a <= 90 - s_angle (sk_s k) < 5 * IZR a + 5 ->
  INR (j + 1) / 10 <= s_h (sk_s k) / sk_p k < INR (j + 2) / 10 -> INR (i + 1) / 10 <= s_bt (sk_s k) / sk_p k < INR (i + 2) / 10 ->
  skin_K k = match table_at (5 * a) j i with Some v => Some (IZR v / 1000) | None => None end.
Proof. exact K_lemma. Qed.
Print Assumptions C252_table_entry.
Theorem C252_range : forall k v, skin_K k = Some v -> 13/1000 <= v <= 6453/1000 /\ 40 < s_angle (sk_s k) <= 90.
Proof. exact K_range_lemma. Qed.
Print Assumptions C252_range.
Theorem C252_table_shape : forall a j i v j' i', table_at a j i = Some v -> (j' <= j)%nat -> (i' <= i)%nat -> exists v', table_at a j' i' = Some v'.
Proof. exact table_closed_lemma. Qed.
Print Assumptions C252_table_shape.
Theorem C252_deeper_is_softer : forall j i v v', table_at 0 j i = Some v -> table_at 0 (S j) i = Some v' -> (v < v')%Z.
Proof. exact table_depth_lemma. Qed.
Print Assumptions C252_deeper_is_softer.
Theorem C252_outside : forall k, 0 < sk_p k -> s_angle (sk_s k) <= 40 \/ 90 < s_angle (sk_s k) -> skin_K k = None.
Proof. exact K_key_lemma. Qed.
Print Assumptions C252_outside.
Theorem C252_narrow_flange_refuted : forall k, 0 < sk_p k -> 0 <= s_bt (sk_s k) / sk_p k < 1/10 -> 1/10 <= s_h (sk_s k) / sk_p k < 2/10 -> 85 < s_angle (sk_s k) <= 90 ->
  skin_K k = Some (193/1000) /\ table_at 0 0 0 = Some 13%Z.
Proof. exact narrow_flange_lemma. Qed.
Print Assumptions C252_narrow_flange_refuted.
Example C252_ex : 0 < sk_p roof_skin /\ 5 * IZR 0 <= 90 - s_angle (sk_s roof_skin) < 5 * IZR 0 + 5 /\
  INR (5 + 1) / 10 <= s_h (sk_s roof_skin) / sk_p roof_skin < INR (5 + 2) / 10 /\ INR (4 + 1) / 10 <= s_bt (sk_s roof_skin) / sk_p roof_skin < INR (4 + 2) / 10 /\
  table_at 0 5 4 = Some 965%Z.
Proof. rewrite roof_pitch. cbn [sk_s roof_skin s_h s_bt s_angle INR plus]. repeat split; try lra. Qed.

(** C253 *)
Theorem C253_fastener : forall k, skin_ok k -> exists F, Fs k = Some F /\ 0 < F /\
  F = (if sk_en k then Rmin (32/10 * sqrt (sk_t k / sk_d k)) (21/10) * sk_fu k * sk_d k * sk_t k / (125/100)
       else Rmin (29/10 * sqrt (sk_t k / sk_d k) * sk_fu k * sk_d k * sk_t k) 3800).
Proof. exact Fs_lemma. Qed.
Print Assumptions C253_fastener.
Theorem C253_seam : forall k fp, skin_ok k -> Fp k = Some fp ->
  (sk_trough k = false -> seam_strength k = None) /\
  (sk_trough k = true -> exists F V m, Fs k = Some F /\ 0 < F /\ seam_strength k = Some V /\
     IZR m <= sk_b k / sk_sp k < IZR m + 1 /\
     V * sk_b k = sk_a k * ((IZR m - 1) * F + beta1 (sk_nf k) true * fp)).
Proof. exact seam_lemma. Qed.
Print Assumptions C253_seam.
Theorem C253_seam_spacing : forall k sp fp V V', skin_ok k -> Fp k = Some fp -> 0 < sp <= sk_sp k ->
  seam_strength k = Some V -> seam_strength (with_spacing sp k) = Some V' -> V <= V'.
Proof. exact seam_mono_lemma. Qed.
Print Assumptions C253_seam_spacing.
Theorem C253_sheet_to_rafter : forall k fp, skin_ok k -> Fp k = Some fp -> exists V, sheet_rafter_strength k = Some V /\ V = 6/10 * fp * (sk_a k / sk_p k).
Proof. exact sheet_rafter_lemma. Qed.
Print Assumptions C253_sheet_to_rafter.
Theorem C253_wide_spacing_refuted : exists k V, skin_ok k /\ sk_b k < sk_sp k /\ seam_strength k = Some V /\ V < 0.
Proof. exact short_seam_refuted_lemma. Qed.
Print Assumptions C253_wide_spacing_refuted.
Example C253_ex : skin_ok roof_skin /\ sk_trough roof_skin = true /\ 0 < 250 <= sk_sp roof_skin.
Proof. split; [exact roof_ok|]. cbn. split; [reflexivity|lra]. Qed.

(** C254 *)
Theorem C254_flexibility : forall k K h n c, skin_ok k -> skin_K k = Some K -> nsh k = Some h -> ns k = Some n -> nsc k = Some c ->
  (1 <= h)%Z -> (0 <= n)%Z -> (1 <= c)%Z -> (2 <= sk_nf k)%nat ->
  exists v, shear_flexibility k = Some v /\ 0 < v /\
  v = K * (sk_p k ^ 2 * sqrt (sk_p k)) / (sk_E k / 1000 * (sk_t k ^ 2 * sqrt (sk_t k)) * sk_a k) +
      2 * sk_b k * (1 + sk_nu k) * (1 + 2 * s_h (sk_s k) / sk_p k) / (sk_E k / 1000 * sk_t k * sk_a k) +
      7/10 * sk_p k / sk_a k + (sk_b k / sk_a k) ^ 2 * seam_slip k h n c +
      sk_n k ^ 2 * sk_b k ^ 3 / (sk_eE k / 1000 * sk_eA k * sk_a k ^ 2).
Proof. exact flexibility_lemma. Qed.
Print Assumptions C254_flexibility.
Theorem C254_stiffer : forall k t A n v v', skin_ok k -> (exists h m c, nsh k = Some h /\ ns k = Some m /\ nsc k = Some c /\ (1 <= h)%Z /\ (0 <= m)%Z /\ (1 <= c)%Z) -> (2 <= sk_nf k)%nat ->
  s_tnom (sk_s k) <= t -> sk_eA k <= A -> n ^ 2 <= sk_n k ^ 2 -> shear_flexibility k = Some v -> shear_flexibility (with_sheet t A n k) = Some v' -> v' <= v.
Proof. exact flexibility_mono_lemma. Qed.
Print Assumptions C254_stiffer.
Theorem C254_few_edge_fasteners : forall k, skin_ok k -> sk_b k < sk_esp k -> shear_flexibility k = None.
Proof. exact no_fastener_lemma. Qed.
Print Assumptions C254_few_edge_fasteners.
Theorem C254_narrow_roof_refuted : forall k n c, skin_ok k -> (2 <= sk_nf k)%nat -> sk_a k < 1/2 * (sk_p k * INR (sk_nf k)) -> ns k = Some n -> (0 <= n)%Z -> nsc k = Some c -> (1 <= c)%Z ->
  exists x y z, fastener_deformation k = Some (x, y, z) /\ y < 0.
Proof. exact narrow_refuted_lemma. Qed.
Print Assumptions C254_narrow_roof_refuted.
Example C254_ex : skin_ok roof_skin /\ (2 <= sk_nf roof_skin)%nat /\ skin_K roof_skin = Some (965/1000).
Proof.
  split; [exact roof_ok|]. split; [cbn; lia|]. destruct C252_ex as (H1 & H2 & H3 & H4 & H5). rewrite (K_lemma roof_skin 0 5 4 H1 H2 H3 H4).
  change (5 * 0)%Z with 0%Z. rewrite H5. reflexivity.
Qed.

(** C255 *)
Theorem C255_bending_and_shear : forall w, panel_ok w -> exists Is S,
  EIs w = Some Is /\ w_S w = Some S /\ S * w_tc w = w_G w * w_b w * w_d w ^ 2 /\ 0 < S /\
  w_d w + f_t (w_top w) / 2 + f_t (w_bot w) / 2 = w_D w /\
  exists e1 e2, 0 < e1 /\ 0 < e2 /\ e1 + e2 = w_d w /\ f_E (w_top w) * f_t (w_top w) * e1 = f_E (w_bot w) * f_t (w_bot w) * e2 /\
  EIo w + Is = f_E (w_top w) * w_b w * (f_t (w_top w) ^ 3 / 12 + f_t (w_top w) * e1 ^ 2) + f_E (w_bot w) * w_b w * (f_t (w_bot w) ^ 3 / 12 + f_t (w_bot w) * e2 ^ 2).
Proof. exact panel_lemma. Qed.
Print Assumptions C255_bending_and_shear.
Theorem C255_spa_panel : forall th, 11/10 < th -> panel_ok (spa_panel th) /\ w_D (spa_panel th) = th /\ w_d (spa_panel th) = th - 55/100.
Proof. exact spa_lemma. Qed.
Print Assumptions C255_spa_panel.
Theorem C255_face_hole : forall w, panel_ok w -> exists k, screw_kF2 w = Some k /\ 0 < k /\
  k = f_fu (w_bot w) * sqrt (f_cor (w_bot w) ^ 3 * w_d1 w) * (if Rlt_dec (f_cor (w_bot w)) (7/10) then (693/100) / (26/100 + 8/10 * f_t (w_bot w)) else (42/10) / (373/1000)).
Proof. exact kF2_lemma. Qed.
Print Assumptions C255_face_hole.
Theorem C255_face_hole_thicker : forall w dt k k', panel_ok w -> 0 <= f_coat (w_bot w) -> 0 <= dt -> screw_kF2 w = Some k -> screw_kF2 (thicker_face dt w) = Some k' -> k <= k'.
Proof. exact kF2_mono_lemma. Qed.
Print Assumptions C255_face_hole_thicker.
Theorem C255_screw_minimises : forall D t k C EI, 0 < D -> 0 < t -> 0 < k -> 0 < C -> 0 < EI -> exists kv, screw_kv D t k C EI = Some kv /\ 0 < kv /\
  (forall y, / kv <= screw_energy D t (/ k) (/ C) (/ EI) y) /\ (exists y, / kv = screw_energy D t (/ k) (/ C) (/ EI) y).
Proof. exact kv_lemma. Qed.
Print Assumptions C255_screw_minimises.
Theorem C255_screw_stiffer : forall D t k C EI k' C' EI' v v', 0 < D -> 0 < t -> 0 < k <= k' -> 0 < C <= C' -> 0 < EI <= EI' ->
  screw_kv D t k C EI = Some v -> screw_kv D t k' C' EI' = Some v' -> v <= v'.
Proof. exact kv_mono_lemma. Qed.
Print Assumptions C255_screw_stiffer.
Theorem C255_support : forall w tsup, panel_ok w -> 0 < tsup -> exists C k kv, screw_kF2 w = Some k /\ C = 2400 * sqrt (tsup * w_d1 w ^ 5) /\
  transverse_stiffness w tsup = Some kv /\ 0 < kv /\ screw_kv (w_D w) tsup k C (200000 * (PI * w_dS w ^ 4 / 64)) = Some kv /\
  (forall L n, 0 < L -> support_stiffness w tsup L n = Some (kv * n / (2 * L) * fold_right Rplus 0 (map (fun c => c ^ 2) (w_c w)))).
Proof. exact transverse_lemma. Qed.
Print Assumptions C255_support.
Theorem C255_screw_shear : forall w, panel_ok w -> exists V, screw_shear w = Some V /\ 0 < V /\ V ^ 2 = (336/100) ^ 2 * f_cor (w_bot w) ^ 3 * w_d1 w * f_fu (w_bot w) ^ 2.
Proof. exact screw_shear_lemma. Qed.
Print Assumptions C255_screw_shear.
Example C255_ex : panel_ok (spa_panel 150) /\ w_tc (spa_panel 150) = 1489/10.
Proof. split; [apply spa_lemma; lra|]. unfold spa_panel. cbn. lra. Qed.

(** C256 *)
Theorem C256_layer_stiffness : forall y, y_EIy y = (if y_par y then y_E0 y else y_E90 y) * y_bx y * y_t y ^ 3 / 12 /\ y_EIz y = (if y_par y then y_E90 y else y_E0 y) * y_by y * y_t y ^ 3 / 12.
Proof. exact layer_stiffness_lemma. Qed.
Print Assumptions C256_layer_stiffness.
Theorem C256_layers_from_lists : forall ts ms os, length (zip_layers ts ms os) = Nat.min (length ts) (Nat.min (length ms) (length os)) /\
  (forall i t m o, nth_error ts i = Some t -> nth_error ms i = Some m -> nth_error os i = Some o -> nth_error (zip_layers ts ms os) i = Some (new_layer t (fst m) (snd m) o)).
Proof. exact zip_lemma. Qed.
Print Assumptions C256_layers_from_lists.
Theorem C256_shared_layers : forall l h i y, nth_error h i = Some y -> exists y', nth_error (make_slabs l h) i = Some y' /\ y_t y' = y_t y /\ y_E0 y' = y_E0 y /\ y_E90 y' = y_E90 y /\ y_par y' = y_par y /\
  match last_user i l None with Some s => y_bx y' = z_b s /\ y_by y' = z_L s | None => y' = y end.
Proof. exact last_user_lemma. Qed.
Print Assumptions C256_shared_layers.
Theorem C256_symmetric_centroid : forall s h, rev (stack_of s h) = stack_of s h -> hclt s h = stack (stack_of s h) /\ stack_moment (- zgc s h) (stack_of s h) = 0.
Proof. exact symmetric_lemma. Qed.
Print Assumptions C256_symmetric_centroid.
Theorem C256_unsymmetric_refuted : exists s h, hclt s h = 60 /\ stack_moment (- zgc s h) (stack_of s h) <> 0.
Proof. exact unsymmetric_lemma. Qed.
Print Assumptions C256_unsymmetric_refuted.
Example C256_ex : let h := [new_layer 40 11000 370 true; new_layer 20 11000 370 false] in let s := mkCslab [0%nat; 1%nat; 0%nat] 1200 5000 in
  rev (stack_of s h) = stack_of s h /\ hclt s h = 100 /\ last_user 0 [s; mkCslab [0%nat] 600 3000] None = Some (mkCslab [0%nat] 600 3000).
Proof. cbn. repeat split; lra. Qed.

(** Strength of one fastener in the profile by the ECCS guide, for every diameter; and by EN 1993-1-3 8.4. *)
Theorem C253_eccs_fastener : forall k m, sk_en k = false -> (sk_d k = 55/10 /\ m = 6500) \/ (sk_d k = 63/10 /\ m = 8000) ->
  Fp k = Some (if Rle_dec (19 * sk_fu k * sk_d k * sk_t k / 10) m then 19 * sk_fu k * sk_d k * sk_t k / 10 else m).
Proof.
  intros k m E H. unfold Fp, eccs_max. rewrite E.
  assert (X : 19/10 * sk_fu k * sk_d k * sk_t k = 19 * sk_fu k * sk_d k * sk_t k / 10) by field. rewrite X. unfold Rmin.
  destruct H as [[A ->]|[A ->]].
  - rewrite (proj2 (Reqb_true (sk_d k) (55/10)) A). reflexivity.
  - rewrite (proj2 (Reqb_false (sk_d k) (55/10))) by lra. rewrite (proj2 (Reqb_true (sk_d k) (63/10)) A). reflexivity.
Qed.
Print Assumptions C253_eccs_fastener.
Theorem C253_eccs_end_fastener : forall k m, sk_en k = false -> (sk_ed k = 55/10 /\ m = 6500) \/ (sk_ed k = 63/10 /\ m = 8000) ->
  Fsc k = Some (if Rle_dec (19 * sk_fu k * sk_ed k * sk_t k / 10) m then 19 * sk_fu k * sk_ed k * sk_t k / 10 else m).
Proof.
  intros k m E H. unfold Fsc, eccs_max. rewrite E.
  assert (X : 19/10 * sk_fu k * sk_ed k * sk_t k = 19 * sk_fu k * sk_ed k * sk_t k / 10) by field. rewrite X. unfold Rmin.
  destruct H as [[A ->]|[A ->]].
  - rewrite (proj2 (Reqb_true (sk_ed k) (55/10)) A). reflexivity.
  - rewrite (proj2 (Reqb_false (sk_ed k) (55/10))) by lra. rewrite (proj2 (Reqb_true (sk_ed k) (63/10)) A). reflexivity.
Qed.
Print Assumptions C253_eccs_end_fastener.
Theorem C253_eccs_other_diameter : forall k, sk_en k = false -> (Fp k = None <-> sk_d k <> 55/10 /\ sk_d k <> 63/10) /\ (Fsc k = None <-> sk_ed k <> 55/10 /\ sk_ed k <> 63/10).
Proof.
  intros k E. unfold Fp, Fsc, eccs_max. rewrite E.
  split; (destruct (Reqb _ (55/10)) eqn:A; [apply Reqb_true in A|apply Reqb_false in A]; cbn [bind]; [split; [discriminate|tauto]|]);
  (destruct (Reqb _ (63/10)) eqn:B; [apply Reqb_true in B|apply Reqb_false in B]; cbn [bind]; [split; [discriminate|tauto]|split; [auto|reflexivity]]).
Qed.
Print Assumptions C253_eccs_other_diameter.
Theorem C253_en_fastener : forall k a, sk_en k = true -> (screw_alfa (sk_d k) (sk_t k) (sk_rt k) = Some a -> Fp k = Some (a * sk_fu k * sk_d k * sk_t k * (8/10)))
  /\ (screw_alfa (sk_ed k) (sk_t k) (sk_et k) = Some a -> Fsc k = Some (a * sk_fu k * sk_ed k * sk_t k * (8/10))).
Proof. intros k a E. unfold Fp, Fsc, screw_bearing, gammaM2. rewrite E. split; intros H; rewrite H; cbn [bind fst]; f_equal; lra. Qed.
Print Assumptions C253_en_fastener.
(** Reading a row of the table from its end. *)
Theorem C252_index_from_end : forall (l : list R) (n : nat), (1 <= n)%nat ->
  py_nth l (- Z.of_nat n) = if Nat.leb n (length l) then nth_error l (length l - n) else None.
Proof.
  intros l n H. unfold py_nth. replace (Z.ltb (- Z.of_nat n) 0) with true by (symmetry; apply Z.ltb_lt; lia).
  destruct (Nat.leb n (length l)) eqn:L; [apply Nat.leb_le in L|apply Nat.leb_gt in L].
  - replace (Z.ltb (Z.of_nat (length l) + - Z.of_nat n) 0) with false by (symmetry; apply Z.ltb_ge; lia). f_equal. lia.
  - replace (Z.ltb (Z.of_nat (length l) + - Z.of_nat n) 0) with true by (symmetry; apply Z.ltb_lt; lia). reflexivity.
Qed.
Print Assumptions C252_index_from_end.
(** A layer of a slab is a strip of one metre. *)
Theorem C256_metre_strip : forall t E0 E90 p, 12 * y_Iy (new_layer t E0 E90 p) = 1000 * t ^ 3 /\ 12 * y_Iz (new_layer t E0 E90 p) = 1000 * t ^ 3.
Proof. intros. unfold y_Iy, y_Iz. cbn [y_bx y_by y_t new_layer]. lra. Qed.
Print Assumptions C256_metre_strip.
(** The panel of the catalogue is 1.2 m wide with steel faces of 0.56 and 0.46 mm of steel. *)
Theorem C255_catalogue_stiffness : forall t S, 11/10 < t -> w_S (spa_panel t) = Some S -> S * (t - 11/10) = 37/10 * 1200 * (t - 11/20) ^ 2.
Proof.
  intros t S H. unfold w_S. cbn [w_tc w_G w_b spa_panel]. unfold pdiv. rewrite (proj2 (Reqb_false (t - 6/10 - 5/10) 0)) by lra. intros X. injection X as <-.
  unfold w_d. simpl. field. lra.
Qed.
Print Assumptions C255_catalogue_stiffness.
