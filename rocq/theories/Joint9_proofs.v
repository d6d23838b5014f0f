(** Exact values of the bolt, weld and T-stub rules. *)
From Verif Require Import Base EC3_model EC3_proofs Bool_tac Plate_proofs Sections_proofs Sections9_proofs Joint_proofs Joint2_proofs Joint3_proofs Joint4_proofs.
From Verif Require Import Joint_model Joint_spec Joint9_spec.
Require Import Reals List Lra Lia Psatz.
Import ListNotations.
Local Open Scope R_scope.

Lemma some_inj9 : forall (x y : R), Some x = Some y -> x = y. Proof. intros x y H. now inversion H. Qed.
Lemma class_name_lemma : forall c, let '(a, b) := class_name c in
  class_fub c = 100 * INR a /\ class_fyb c = class_fub c * INR b / 10.
Proof. intros []; cbn; split; lra. Qed.

Lemma thread_area_lemma : forall n d, size_data n = Some d -> exists p, In (n, p) pitch /\
  Rabs (t_As d - PI / 4 * (INR n - 9382/10000 * p) ^ 2) <= 1/2.
Proof.
  intros n d E. unfold size_data in E. pose proof PI_bounds as P.
  do 37 (try (destruct n as [|n]; try discriminate)); inversion E; subst; cbn [t_As pitch];
  [exists (7/4)|exists 2|exists (5/2)|exists 3|exists (7/2)|exists 4]; (split; [cbn; tauto|]); cbn [INR]; apply Rabs_le; split; nra.
Qed.
Lemma hexagon_lemma : forall n d, size_data n = Some d -> In (n, [t_k d; t_s d; t_m d; t_e d; t_h d; t_d2 d]) hexagons.
Proof. intros n d E. unfold size_data in E. do 37 (try (destruct n as [|n]; try discriminate)); inversion E; subst; cbn; tauto. Qed.
Lemma sizes_lemma : forall n, (exists d, size_data n = Some d) <-> In n [12; 16; 20; 24; 30; 36]%nat.
Proof.
  intros n. split.
  - intros [d E]. apply hexagon_lemma in E. cbn in E |- *. repeat (destruct E as [E|E]; [inversion E; subst; tauto|]). destruct E.
  - intros H. cbn in H. repeat (destruct H as [<-|H]; [eexists; reflexivity|]). destruct H.
Qed.
Lemma dw_lemma : forall b, greatest (dw b) [t_d2 (b_data b); t_s (b_data b); t_e (b_data b)].
Proof.
  intros b. unfold dw, greatest. set (x := t_d2 _); set (y := t_s _); set (z := t_e _). split.
  - cbn. unfold Rmax. repeat (destruct Rle_dec; try tauto).
  - intros v H. cbn in H. pose proof (Rmax_l (Rmax x y) z). pose proof (Rmax_r (Rmax x y) z). pose proof (Rmax_l x y). pose proof (Rmax_r x y).
    repeat (destruct H as [<-|H]; [lra|]). destruct H.
Qed.
Definition stockedb (size k : nat) : bool :=
  existsb (fun x : nat * list nat => andb (Nat.eqb (fst x) k) (existsb (Nat.eqb size) (snd x))) part_thread.
Lemma stockedb_true : forall size k, stockedb size k = true -> stocked size k.
Proof.
  intros size k H. apply existsb_exists in H. destruct H as ([k' s] & I1 & H). apply andb_prop in H. destruct H as [A B].
  apply Nat.eqb_eq in A. apply existsb_exists in B. destruct B as (x & J & B). apply Nat.eqb_eq in B. cbn in A, J. subst. exists s. auto.
Qed.
Lemma table_listed : forallb (fun x : nat * list nat => forallb (fun sz => existsb (Nat.eqb (fst x)) (lengths sz)) (snd x)) part_thread = true.
Proof. vm_compute. reflexivity. Qed.
Lemma listed_table : forall size, forallb (stockedb size) (lengths size) = true.
Proof. intros size. do 37 (try (destruct size as [|size]; try reflexivity)). Qed.
Lemma stock_lemma : forall size k, stocked size k <-> In k (lengths size).
Proof.
  intros size k. split.
  - intros (s & I1 & J). pose proof (proj1 (forallb_forall _ _) table_listed _ I1) as H. cbn [fst snd] in H.
    pose proof (proj1 (forallb_forall _ _) H _ J) as H2. apply existsb_exists in H2. destruct H2 as (x & A & B). apply Nat.eqb_eq in B. now subst.
  - intros H. apply stockedb_true. exact (proj1 (forallb_forall _ _) (listed_table size) _ H).
Qed.

Lemma least_min2 : forall a b, least (Rmin a b) [a; b].
Proof.
  intros a b. split. unfold Rmin. destruct Rle_dec; cbn; tauto.
  intros y [<-|[<-|[]]]. apply Rmin_l. apply Rmin_r.
Qed.
Lemma least_cons : forall x y l, least x l -> least (Rmin x y) (l ++ [y]).
Proof.
  intros x y l [A B]. split.
  - apply in_or_app. unfold Rmin. destruct Rle_dec; cbn; tauto.
  - intros z H. apply in_app_or in H. destruct H as [H|[<-|[]]]; [|apply Rmin_r]. eapply Rle_trans; [apply Rmin_l|auto].
Qed.
Lemma least_1 : forall a, least a [a]. Proof. intros a. split; [cbn; tauto|]. intros y [<-|[]]. lra. Qed.

(** EN 1993-1-8 Table 3.4, bearing. *)
Lemma bearing_exact_lemma : forall b fu t e1 e2 p1 p2 pe le F, 0 < fu -> 0 < b_d0 b -> bearing_resistance b fu t e1 e2 p1 p2 pe le = Some F ->
  let d0 := b_d0 b in
  exists k a, least k (if pe then [28/10 * e2 / d0 - 17/10; 14/10 * p2 / d0 - 17/10; 25/10] else [14/10 * p2 / d0 - 17/10; 25/10]) /\
    least a [if le then e1 / (3 * d0) else p1 / (3 * d0) - 1/4; b_fub b / fu; 1] /\ F = k * a * fu * INR (b_size b) * t / (125/100).
Proof.
  intros b fu t e1 e2 p1 p2 pe le F H D E d0. unfold bearing_resistance in E. rewrite pdiv_ok in E by lra. cbn [bind] in E. apply some_inj9 in E.
  exists (k1 e2 p2 d0 pe), (Rmin (Rmin (alpha_d e1 p1 d0 le) (b_fub b / fu)) 1). split; [|split].
  - unfold k1. destruct pe; [|apply least_min2]. apply (least_cons _ _ [_; _]), least_min2.
  - apply (least_cons _ _ [_; _]). unfold alpha_d. destruct le.
    + replace (e1 / (3 * d0)) with (e1 / 3 / d0) by (field; unfold d0; lra). apply least_min2.
    + replace (p1 / (3 * d0)) with (p1 / 3 / d0) by (field; unfold d0; lra). apply least_min2.
  - rewrite <- E. unfold d0, gammaM2. field.
Qed.
Lemma bolt_values_lemma : forall fub As k2 dm tp fu fy Ant Anv,
  bolt_tension_resistance fub As k2 = 4/5 * (k2 * fub * As) /\
  punching_resistance dm tp fu = 12/25 * (PI * dm * tp * fu) /\
  block_tearing fy fu Ant Anv true = 4/5 * (fu * Ant) + fy * Anv / sqrt 3 /\
  block_tearing fy fu Ant Anv false = 2/5 * (fu * Ant) + fy * Anv / sqrt 3.
Proof.
  intros. unfold bolt_tension_resistance, punching_resistance, block_tearing, gammaM2, gammaM0.
  assert (sqrt 3 <> 0) by (pose proof (sqrt_lt_R0 3 ltac:(lra)); lra). repeat split; field; auto.
Qed.
Lemma weld_values_lemma : forall g fy fu, 0 < fu ->
  weld_throat g fy fu = Some (weld_factor g * fy / (fu * sqrt 2)) /\ weld_tube g fy fu = Some (2 * weld_factor g * fy / (fu * sqrt 2)).
Proof.
  intros g fy fu H. assert (0 < sqrt 2) by (apply sqrt_lt_R0; lra). unfold weld_throat, weld_tube, gammaM2, gammaM0. rewrite !pdiv_ok by lra.
  split; apply f_equal; destruct g; cbn; field; lra.
Qed.

(** Effective lengths. *)
Lemma flange_alone_lemma : forall fa e m e1 m2 l, flange_loc l ->
  let inner := orb (loc_eqb l Inner) (loc_eqb l OtherInner) in
  exists cp nc, flange_cp m e1 l = Some cp /\ flange_nc fa e m e1 m2 l = Some nc /\
    least cp (fst (flange_row m e e1 inner)) /\ least nc (snd (flange_row m e e1 inner)).
Proof.
  intros fa e m e1 m2 l H inner. unfold inner. destruct H as [->|[->|[->| ->]]]; cbn [loc_eqb orb flange_row fst snd flange_cp flange_nc].
  all: try (destruct e1 as [x|]; cbn [option_map min_inf fst snd]).
  all: eexists _, _; split; [reflexivity|]; split; [reflexivity|]; split;
    first [apply least_1|apply least_min2].
Qed.
Lemma flange_group_lemma : forall fa e m p e1 m2 l, flange_loc l ->
  let inner := orb (loc_eqb l Inner) (loc_eqb l OtherInner) in
  exists cp nc, flange_cp_group m p e1 l = Some cp /\ flange_nc_group fa e m p e1 m2 l = Some nc /\
    least cp (fst (flange_row_group m e p e1 inner)) /\ least nc (snd (flange_row_group m e p e1 inner)).
Proof.
  intros fa e m p e1 m2 l H inner. unfold inner. assert (P : 5/10 * p = p / 2) by lra.
  destruct H as [->|[->|[->| ->]]]; cbn [loc_eqb orb flange_row_group fst snd flange_cp_group flange_nc_group]; rewrite ?P.
  all: try (destruct e1 as [x|]; cbn [option_map min_inf fst snd]); rewrite ?P.
  all: eexists _, _; split; [reflexivity|]; split; [reflexivity|]; split; first [apply least_1|apply least_min2].
Qed.
Lemma plate_outside_lemma : forall m m2 e emin w bp, exists cp nc,
  plate_cp m e w Outside = Some cp /\ plate_nc m m2 e emin w bp Outside = Some nc /\
  least cp (fst (plate_outside m emin e w bp)) /\ least nc (snd (plate_outside m emin e w bp)).
Proof.
  intros. cbn [plate_cp plate_nc plate_outside fst snd]. eexists _, _. split; [reflexivity|]. split; [reflexivity|]. split.
  - apply (least_cons _ _ [_; _]), least_min2.
  - replace (bp / 2) with (5/10 * bp) by lra. replace (w / 2) with (5/10 * w) by lra.
    apply (least_cons _ _ [_; _; _]), (least_cons _ _ [_; _]), least_min2.
Qed.
Lemma plate_inner_lemma : forall m m2 e emin w bp p, 0 < m -> 0 <= e -> 0 < m2 ->
  (forall l, plate_loc l -> plate_cp m e w l = Some (2 * PI * m)) /\
  (forall l, l = OtherInner \/ l = OtherEnd -> plate_nc m m2 e emin w bp l = Some (4 * m + 125/100 * e)) /\
  (exists a, new_alpha e m m2 = Some a /\ plate_nc m m2 e emin w bp FirstBelow = Some (a * m) /\
     plate_nc_group m m2 e p FirstBelow = Some (p / 2 + a * m - (2 * m + 625/1000 * e))) /\
  plate_cp_group m p FirstBelow = Some (PI * m + p) /\ plate_cp_group m p OtherEnd = Some (PI * m + p) /\ plate_cp_group m p OtherInner = Some (2 * p) /\
  plate_nc_group m m2 e p OtherInner = Some p /\ plate_nc_group m m2 e p OtherEnd = Some (2 * m + 625/1000 * e + p / 2).
Proof.
  intros m m2 e emin w bp p Hm He H2. destruct (new_alpha_lemma e m m2 He Hm H2) as (a & Ea & _).
  assert (P : 5/10 * p = p / 2) by lra.
  split; [intros l [->|[->| ->]]; reflexivity|]. split; [intros l [->| ->]; reflexivity|]. split.
  { exists a. split; [exact Ea|]. cbn [plate_nc plate_nc_group]. rewrite !eqb_f by lra. rewrite Ea. cbn [bind]. rewrite P. auto. }
  repeat split; cbn [plate_nc_group]; rewrite ?P; reflexivity.
Qed.
Lemma alpha_exact_lemma : forall e m m2, 0 <= e -> 0 < m -> 0 < m2 ->
  new_alpha e m m2 = Some (Rmin 8 (Rmax (4 + 5/4 * (e / m)) (4 + 167/100 * (e / m) * Rpower (m / m2) (67/100)))).
Proof.
  intros e m m2 He Hm H2. unfold new_alpha. rewrite !pdiv_ok by lra. cbn [bind]. assert (0 < m / m2) by (apply Rdiv_lt_0_compat; lra).
  rewrite ltb_f by lra. apply f_equal. rewrite Rmin_comm. f_equal. rewrite Rmax_comm. f_equal. lra.
Qed.

(** Geometry of a row: bolts at distance j_p / 2 on both sides of the web. *)
Lemma row_measures_lemma : forall j r,
  let bolt_y := j_p j / 2 in let edge_plate := j_bp j / 2 in let edge_col := s_b (j_col j) / 2 in
  let top := s_h (j_beam j) / 2 in
  col_flange_m j = bolt_y - (s_tw (j_col j) / 2 + 4/5 * s_r (j_col j)) /\
  col_flange_e j = j_ebolts j + (edge_col - edge_plate) /\
  (r_pl r <> Outside -> end_plate_m j r = bolt_y - (s_tw (j_beam j) / 2 + 4/5 * (sqrt 2 * j_ww j)) /\ emin_plate j r = j_ebolts j) /\
  (r_pl r = Outside -> end_plate_m j r = r_z r - (top + 4/5 * (sqrt 2 * j_wf j)) /\ emin_plate j r = top + j_etop j - r_z r) /\
  end_plate_m2 j r = (top - s_tf (j_beam j) - 4/5 * (sqrt 2 * j_wf j)) - r_z r /\
  Lb j (r_bolt r) = j_tp j + s_tf (j_col j) + 2 * t_h (b_data (r_bolt r)) + (t_k (b_data (r_bolt r)) + t_m (b_data (r_bolt r))) / 2 /\
  lever j r = r_z r - j_zc j.
Proof.
  intros j r by_ ep ec top. unfold col_flange_m, col_flange_e, end_plate_m, emin_plate, end_plate_m2, Lb, lever, mx, ex, by_, ep, ec, top.
  split; [lra|]. split; [destruct Rltb; lra|]. split.
  { intros H. assert (loc_eqb (r_pl r) Outside = false) as -> by (destruct (r_pl r); cbn; auto; congruence). split; lra. }
  split. { intros ->. cbn [loc_eqb]. split; lra. } repeat split; lra.
Qed.
Lemma stiffener_distance_lemma : forall j r t a d, j_stiff j = Some (t, a) -> stiff_m2 j r = Some d ->
  let zc := s_h (j_beam j) / 2 - s_tf (j_beam j) / 2 in
  (s_h (j_beam j) / 2 < r_z r -> d = (r_z r - zc) - (t / 2 + 4/5 * (sqrt 2 * a))) /\
  (r_z r <= s_h (j_beam j) / 2 -> d = (zc - r_z r) - (t / 2 + 4/5 * (sqrt 2 * a))).
Proof.
  intros j r t a d E H zc. unfold stiff_m2 in H. rewrite E in H. cbv zeta in H. apply some_inj9 in H. subst d. unfold zc. split; intros.
  - rewrite ltb_t by lra. lra.
  - rewrite ltb_f by lra. lra.
Qed.

(** Components. *)
Lemma web_compression_exact_lemma : forall c b tp lo a beta sigma, prof_ok c -> 0 <= s_tf b -> 0 <= tp -> 0 <= a -> sqrt 2 * a <= tp + lo ->
  exists w, min_coeff_w beta (beff_c c b tp lo a) (s_tw c) (s_Av c) = Some w /\
  let beff := s_tf b + 2 * (sqrt 2 * a) + 5 * (s_tf c + s_r c) + Rmin tp (lo - sqrt 2 * a) + tp in
  let lam := 932/1000 * sqrt (beff * s_hw c * s_fy c / (s_E c * s_tw c ^ 2)) in
  let rho := if Rle_dec lam (72/100) then 1 else (lam - 2/10) / lam ^ 2 in
  beff_c c b tp lo a = beff /\
  col_web_trv_comp c b tp lo a beta sigma = Some (Rmin (w * k_wc sigma (s_fy c) * beff * s_tw c * s_fy c) (w * k_wc sigma (s_fy c) * rho * beff * s_tw c * s_fy c)).
Proof.
  intros c b tp lo a beta sigma (H1 & H2 & H3 & H4 & H5 & H6 & H7) Hb Ht Ha Hl.
  assert (EB : beff_c c b tp lo a = s_tf b + 2 * (sqrt 2 * a) + 5 * (s_tf c + s_r c) + Rmin tp (lo - sqrt 2 * a) + tp).
  { unfold beff_c. replace (Rmin (2 * tp) (tp + lo - sqrt 2 * a)) with (Rmin tp (lo - sqrt 2 * a) + tp); [lra|].
    unfold Rmin. repeat destruct Rle_dec; lra. }
  assert (S2 : 0 <= sqrt 2 * a) by (apply Rmult_le_pos; [apply sqrt_pos|auto]).
  assert (PB : 0 < beff_c c b tp lo a). { rewrite EB. unfold Rmin. destruct Rle_dec; lra. }
  assert (W : exists w, min_coeff_w beta (beff_c c b tp lo a) (s_tw c) (s_Av c) = Some w).
  { unfold min_coeff_w, omega_q. rewrite !pdiv_ok by lra. cbn [bind]. eexists. reflexivity. }
  destruct W as [w W]. exists w. split; [exact W|]. intros beff lam rho. split; [exact EB|].
  unfold col_web_trv_comp. cbv zeta. rewrite W. unfold lam_p. fold beff in EB. rewrite EB in *.
  assert (0 < s_E c * s_tw c ^ 2) by (apply Rmult_lt_0_compat; [|apply pow_lt]; lra).
  rewrite pdiv_ok by lra. cbn [bind].
  assert (0 <= beff * s_hw c * s_fy c / (s_E c * s_tw c ^ 2)).
  { apply Rmult_le_pos; [repeat apply Rmult_le_pos; lra|left; apply Rinv_0_lt_compat; auto]. }
  unfold psqrt. rewrite ?ltb_f, ?leb_t by lra. cbn [bind]. fold lam. unfold rho_c, gammaM0, gammaM1.
  assert (ER : (if Rleb lam (72 / 100) then 1 else (lam - 2 / 10) / lam ^ 2) = rho).
  { unfold rho. destruct Rle_dec; [rewrite leb_t by lra|rewrite leb_f by lra]; reflexivity. }
  rewrite ER. apply f_equal. f_equal; field.
Qed.
Lemma stiffness_factors_lemma : forall c b t leff m As L h beta z MRd, 0 < s_hw c -> 0 < m -> 0 < L -> 0 < beta -> 0 < z -> 0 < h - t ->
  col_web_k c leff = Some (7/10 * (leff * s_tw c / s_hw c)) /\ flange_bending_k t leff m = Some (9/10 * leff * (t / m) ^ 3) /\
  bolt_row_k As L = Some (8/5 * (As / L)) /\ col_web_shear_k c beta z = Some (19/50 * (s_Av c / (beta * z))) /\
  beam_web_compression MRd h t = Some (MRd / (h - t)) /\ beam_web_tension b leff = leff * s_tw b * s_fy b /\
  (forall fjd beff, Tstub_compression fjd beff leff = fjd * (beff * leff)).
Proof.
  intros c b t leff m As L h beta z MRd H1 H2 H3 H4 H5 H6. unfold col_web_k, flange_bending_k, bolt_row_k, col_web_shear_k, beam_web_compression, beam_web_tension, Tstub_compression, gammaM0.
  assert (0 < m ^ 3) by (apply pow_lt; auto). rewrite !pdiv_ok by lra. cbn [bind]. rewrite pdiv_ok by lra.
  repeat split; try (apply f_equal); try (intros; ring); field; repeat split; lra.
Qed.
Lemma stiffened_exact_lemma : forall eps tw bs ts lcr fyp, 0 < eps -> 0 < tw -> 0 < bs -> 0 < ts -> 0 <= lcr -> 0 < fyp ->
  let A := (30 * eps * tw + ts) * tw + 2 * bs * ts in
  let i := sqrt (ts * (2 * bs + tw) ^ 3 / 12 / A) in
  let lam := lcr / i / (939/10 * eps) in
  (lam <= 2/10 -> col_web_stiffened eps tw bs ts lcr fyp = Some (A * fyp)) /\
  (2/10 < lam -> exists chi, buckling_reduction_factor lam (49/100) = Some chi /\ col_web_stiffened eps tw bs ts lcr fyp = Some (chi * A * fyp)).
Proof.
  intros eps tw bs ts lcr fyp H1 H2 H3 H4 H5 H6 A i lam. destruct (stiffened_lemma eps tw bs ts lcr fyp H1 H2 H3 H4 H5 H6) as (F & E & _).
  assert (PA : 0 < A) by (unfold A; nra).
  assert (PI_ : 0 < ts * (2 * bs + tw) ^ 3 / 12 / A) by (repeat apply Rdiv_lt_0_compat; try lra; apply Rmult_lt_0_compat; [lra|apply pow_lt; lra]).
  assert (Pi : 0 < i) by (apply sqrt_lt_R0; auto).
  unfold col_web_stiffened in *. cbv zeta in *. fold A in E |- *.
  assert (ES : (2 * bs + tw) ^ 3 * ts / 12 / A = ts * (2 * bs + tw) ^ 3 / 12 / A) by (field; lra).
  rewrite pdiv_ok in E |- * by lra. cbn [bind] in E |- *. rewrite ES in E |- *. unfold psqrt in E |- *. rewrite ?ltb_f, ?leb_t in E |- * by lra. cbn [bind] in E |- *. fold i in E |- *.
  rewrite pdiv_ok in E |- * by lra. cbn [bind] in E |- *. rewrite pdiv_ok in E |- * by lra. cbn [bind] in E |- *. fold lam in E |- *.
  split; intros Hl.
  - rewrite ltb_f by lra. apply f_equal. unfold gammaM0. field.
  - rewrite ltb_t in E |- * by lra. destruct (buckling_reduction_factor lam (49/100)) as [chi|]; [|discriminate]. exists chi. split; [reflexivity|]. cbn [bind]. apply f_equal. unfold gammaM1. field.
Qed.
Lemma bearing_function_lemma : forall fub fu d t e1 e2 p1 p2 d0 (pe le : bool), 0 < fu -> 0 < d0 ->
  exists k a, least k (if pe then [28/10 * e2 / d0 - 17/10; 25/10] else [14/10 * p2 / d0 - 17/10; 25/10]) /\
    least a [if le then e1 / (3 * d0) else p1 / (3 * d0) - 1/4; fub / fu; 1] /\
    bolt_bearing_resistance fub fu d t e1 e2 p1 p2 d0 pe le = Some (k * a * fu * d * t).
Proof.
  intros fub fu d t e1 e2 p1 p2 d0 pe le Hf Hd. unfold bolt_bearing_resistance. rewrite pdiv_ok by lra. cbn [bind].
  eexists. eexists. split; [|split; [|reflexivity]].
  - destruct pe; (split; [cbn [In]; unfold Rmin; destruct (Rle_dec _ _); auto|intros y [<- | [<- | []]]; [apply Rmin_l|apply Rmin_r]]).
  - unfold alpha_d. replace (if le then e1 / 3 / d0 else p1 / 3 / d0 - 1/4) with (if le then e1 / (3 * d0) else p1 / (3 * d0) - 1/4) by (destruct le; field; lra).
    set (A := if le then _ else _). split.
    + cbn [In]. unfold Rmin. repeat destruct (Rle_dec _ _); auto.
    + intros y [<- | [<- | [<- | []]]].
      * eapply Rle_trans; [apply Rmin_l|apply Rmin_l].
      * eapply Rle_trans; [apply Rmin_l|apply Rmin_r].
      * apply Rmin_r.
Qed.
Lemma lambda11_lemma : forall l2 alfa, 4 <= alfa -> 0 <= l2 ->
  let s1 := 125/100 / (alfa - 275/100) in let s2 := alfa * s1 / 2 in
  (s2 <= l2 -> lambda11 (fun x => x) l2 alfa = Some s1) /\
  (l2 < s2 -> lambda11 (fun x => x) l2 alfa = Some (s1 + (1 - s1) * Rpower (1 - l2 / s2) (alfa / sqrt 2))) /\
  (l2 = 0 -> lambda11 (fun x => x) l2 alfa = Some 1) /\
  (exists v, lambda11 (fun x => x) l2 alfa = Some v /\ s1 <= v <= 1 /\
     forall l2' v', l2 <= l2' -> lambda11 (fun x => x) l2' alfa = Some v' -> v' <= v).
Proof.
  intros l2 alfa Ha Hl s1 s2.
  assert (S1 : 0 < s1 <= 1).
  { unfold s1. split; [apply Rdiv_lt_0_compat; lra|]. apply (Rmult_le_reg_r (alfa - 275/100)); [lra|]. unfold Rdiv at 1. rewrite Rmult_assoc, Rinv_l; lra. }
  assert (S2 : 0 < s2) by (unfold s2; nra).
  assert (P : forall l, s2 <= l -> lambda11 (fun x => x) l alfa = Some s1).
  { intros l H. unfold lambda11. rewrite pdiv_ok by lra. cbn [bind]. cbv zeta. fold s1. fold s2. rewrite leb_t; auto. }
  assert (Q : forall l, l < s2 -> lambda11 (fun x => x) l alfa = Some (s1 + (1 - s1) * Rpower (1 - l / s2) (alfa / sqrt 2))).
  { intros l H. unfold lambda11. rewrite pdiv_ok by lra. cbn [bind]. cbv zeta. fold s1. fold s2. rewrite leb_f by auto. rewrite pdiv_ok by lra. cbn [bind].
    replace ((s2 - l) / s2) with (1 - l / s2) by (field; lra). reflexivity. }
  assert (E2 : 0 < sqrt 2) by (apply sqrt_lt_R0; lra).
  assert (EA : 0 < alfa / sqrt 2) by (apply Rdiv_lt_0_compat; lra).
  assert (W : forall l, 0 <= l < s2 -> 0 < 1 - l / s2 <= 1).
  { intros l [A B]. assert (0 <= l / s2) by (apply Rmult_le_pos; [lra|left; apply Rinv_0_lt_compat; lra]).
    assert (l / s2 < 1). { apply (Rmult_lt_reg_r s2); auto. unfold Rdiv. rewrite Rmult_assoc, Rinv_l; lra. } lra. }
  assert (M : forall x y, 0 < x <= y -> Rpower x (alfa / sqrt 2) <= Rpower y (alfa / sqrt 2)) by (intros; apply Rle_Rpower_l; lra).
  assert (O : Rpower 1 (alfa / sqrt 2) = 1) by (unfold Rpower; rewrite ln_1, Rmult_0_r; apply exp_0).
  assert (BD : forall l, 0 <= l < s2 -> 0 < Rpower (1 - l / s2) (alfa / sqrt 2) <= 1).
  { intros l H. specialize (W l H). split; [apply exp_pos|]. rewrite <- O at 2. apply M; lra. }
  split; [apply P|split; [apply Q|split]].
  - intros ->. rewrite Q by auto. apply f_equal. replace (1 - 0 / s2) with 1 by (field; lra). rewrite O. ring.
  - destruct (Rle_lt_dec s2 l2) as [G|G].
    + exists s1. rewrite P by auto. split; [reflexivity|split; [lra|]]. intros l v' H E. rewrite P in E by lra. inversion E. lra.
    + specialize (BD l2 (conj Hl G)) as B1. eexists. rewrite Q by auto. split; [reflexivity|]. split; [nra|].
      intros l v' H E. destruct (Rle_lt_dec s2 l) as [G2|G2].
      * rewrite P in E by auto. inversion E. nra.
      * rewrite Q in E by auto. apply some_inj9 in E. subst v'. apply Rplus_le_compat_l. apply Rmult_le_compat_l; [lra|]. apply M.
        split; [apply W; lra|]. assert (l2 / s2 <= l / s2) by (apply Rmult_le_compat_r; [left; apply Rinv_0_lt_compat; lra|lra]). lra.
Qed.
