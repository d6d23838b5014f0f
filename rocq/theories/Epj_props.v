(** C287-C295: end plate joints. *)
From Coq Require Import Rpower.
From Verif Require Import Base EC3_model Bool_tac EC3_proofs Plate_proofs Sections_proofs Joint_model Epj_proofs Epj2_proofs Epj3_proofs.
From Verif Require Import Epj_model Epj_spec.
Require Import Reals List Bool Lra Lia PeanoNat.
Import ListNotations.
Local Open Scope R_scope.

(** A joint with two tension rows, 200 kN each, one group of 300 kN, and one shear row. *)
Definition ex_rows : list erow :=
  [fresh false 380 (Some 200000) 3 94000 (Some 150000); fresh false 300 (Some 200000) 2 94000 (Some 150000); fresh true 40 (Some 0) 1 94000 (Some 150000)].
Definition ex_groups : list (list nat * option R) := [([0; 1]%nat, Some 300000)].
Lemma ex_bend : exists l' M, bend 280000 ex_groups ex_rows = Some (l', M) /\ map er_F l' = [200000; 80000; -1] /\ M = 380 * 200000 + 300 * 80000 - 40.
Proof.
  do 2 eexists. split; [reflexivity|]. unfold row_moment. cbn.
  repeat rmin1. split; [repeat (f_equal; try lra)|lra].
Qed.
Lemma ex_hyps : Forall (fun g => Forall (fun i => (i < length ex_rows)%nat) (fst g)) ex_groups /\ groups_tension ex_groups ex_rows /\
  Forall (fun g => NoDup (fst g) /\ forall c, snd g = Some c -> 0 <= c) ex_groups /\
  Forall (fun r => er_shear r = false -> exists F, er_res r = Some F /\ 0 <= F) ex_rows /\ unused ex_rows.
Proof.
  split; [repeat constructor|]. split.
  { unfold groups_tension. repeat constructor; intros r H; injection H as <-; reflexivity. }
  split; [constructor; [|constructor]; split; [cbn; repeat constructor; cbn; intuition discriminate|cbn; intros c H; injection H as <-; lra]|].
  split; [|repeat constructor].
  repeat constructor; cbn; intros; try discriminate; eexists; split; try reflexivity; lra.
Qed.

(** C287 *)
Theorem C287_row_group_limits : forall Fcom gs l l' M, bend Fcom gs l = Some (l', M) -> Forall (fun g => Forall (fun i => (i < length l)%nat) (fst g)) gs ->
  map er_h l' = map er_h l /\ map er_shear l' = map er_shear l /\
  (forall i r, nth_error l i = Some r -> er_shear r = false -> exists F, er_res r = Some F /\ F_at l' i <= F) /\
  (forall idx Fg, In (idx, Fg) gs -> NoDup idx -> idx <> [] -> exists c, Fg = Some c /\ group_sum l' idx <= c) /\
  ((exists r, In r l /\ er_shear r = false) -> Rsum (map er_F (tension_part l')) <= Fcom).
Proof. exact bend_adm_lemma. Qed.
Print Assumptions C287_row_group_limits.
Theorem C287_forces : forall Fcom gs l l' M, bend Fcom gs l = Some (l', M) -> Forall (fun g => Forall (fun i => (i < length l)%nat) (fst g)) gs ->
  groups_tension gs l -> Forall (fun g => NoDup (fst g) /\ forall c, snd g = Some c -> 0 <= c) gs ->
  Forall (fun r => er_shear r = false -> exists F, er_res r = Some F /\ 0 <= F) l -> 0 <= Fcom ->
  Forall (fun r => er_shear r = false -> 0 <= er_F r) l' /\ 0 <= Rsum (map er_F (tension_part l')) <= Fcom /\
  shear_part l' = shear_part l /\
  M = Rsum (map (fun r => er_F r * er_h r) (tension_part l')) + Rsum (map (fun r => er_F r * er_h r) (shear_part l)) /\
  (forall H, Forall (fun r => er_shear r = false -> er_h r <= H) l -> 0 <= H ->
     Rsum (map (fun r => er_F r * er_h r) (tension_part l')) <= Fcom * H) /\
  bend Fcom gs l' = Some (l', M).
Proof. exact bend_full_lemma. Qed.
Print Assumptions C287_forces.
Example C287_ex : exists l' M, bend 280000 ex_groups ex_rows = Some (l', M) /\ 0 <= Rsum (map er_F (tension_part l')) <= 280000 /\ bend 280000 ex_groups l' = Some (l', M).
Proof.
  destruct ex_bend as (l' & M & E & _). destruct ex_hyps as (A & B & C & D & _). exists l', M. split; [exact E|].
  destruct (C287_forces 280000 ex_groups ex_rows l' M E A B C D) as (_ & F & _ & _ & _ & G); [lra|]. split; assumption.
Qed.

(** C288 *)
Theorem C288_greedy_optimal : forall l res h caps Fcom, tension_joint l res h -> falling h -> Forall (fun r => 0 <= r) res -> chain 0 caps (length l) -> 0 <= Fcom ->
  exists l' M f, bend Fcom (map (fun kc => (seq 0 (fst kc), Some (snd kc))) caps) l = Some (l', M) /\
    map er_F l' = f /\ admissible res caps Fcom f /\ M = moment_of f h /\
    (forall g, admissible res caps Fcom g -> moment_of g h <= M) /\
    (forall g, admissible res caps Fcom g -> Rsum g <= Rsum f).
Proof. exact greedy_opt_lemma. Qed.
Print Assumptions C288_greedy_optimal.
Theorem C288_group_order_refuted : exists l a b la lb Ma Mb, reordered a b /\ Forall (fun r => er_res r = Some 10) l /\
  bend 100 a l = Some (la, Ma) /\ bend 100 b l = Some (lb, Mb) /\ Ma = 34 /\ Mb = 42.
Proof. exact order_lemma. Qed.
Print Assumptions C288_group_order_refuted.
Example C288_ex : exists l' M, bend 280 [(seq 0 2, Some 300)] [fresh false 3 (Some 200) 1 1 (Some 1); fresh false 2 (Some 150) 1 1 (Some 1); fresh false 1 (Some 90) 1 1 (Some 1)] = Some (l', M) /\
  forall g, admissible [200; 150; 90] [(2%nat, 300)] 280 g -> moment_of g [3; 2; 1] <= M.
Proof.
  destruct (C288_greedy_optimal [fresh false 3 (Some 200) 1 1 (Some 1); fresh false 2 (Some 150) 1 1 (Some 1); fresh false 1 (Some 90) 1 1 (Some 1)] [200; 150; 90] [3; 2; 1] [(2%nat, 300)] 280)
    as (l' & M & f & E & _ & _ & _ & Q & _).
  - split; [repeat constructor|split; reflexivity].
  - cbn. lra.
  - repeat constructor; lra.
  - cbn. repeat split; try lia; lra.
  - lra.
  - exists l', M. split; [exact E|exact Q].
Qed.

(** C289 *)
Theorem C289_shear_rows_refuted : forall Fcom gs l l' M, bend Fcom gs l = Some (l', M) -> Forall (fun g => Forall (fun i => (i < length l)%nat) (fst g)) gs ->
  groups_tension gs l -> Forall (fun g => NoDup (fst g) /\ forall c, snd g = Some c -> 0 <= c) gs ->
  Forall (fun r => er_shear r = false -> exists F, er_res r = Some F /\ 0 <= F) l -> 0 <= Fcom -> unused l ->
  M = Rsum (map (fun r => er_F r * er_h r) (tension_part l')) - Rsum (map er_h (shear_part l)).
Proof. exact unused_lemma. Qed.
Print Assumptions C289_shear_rows_refuted.
Example C289_ex : unused ex_rows /\ Rsum (map er_h (shear_part ex_rows)) = 40 /\ exists l' M, bend 280000 ex_groups ex_rows = Some (l', M) /\ M = 99999960.
Proof.
  destruct ex_hyps as (_ & _ & _ & _ & U). split; [exact U|]. split; [cbn; lra|].
  destruct ex_bend as (l' & M & E & _ & EM). exists l', M. split; [exact E|lra].
Qed.

(** C290 *)
Theorem C290_web_panel : forall c b top bot, top = None \/ bot = None -> V_wp c b top bot = Some (en_web_shear (s_fy c) (s_Av c)).
Proof. exact web_plain_lemma. Qed.
Print Assumptions C290_web_panel.
Theorem C290_stiffened_web_panel_refuted : forall c b pt pb ds M Mt Mb, ds = s_h b - s_tf b -> 0 < ds ->
  M = s_b c * s_tf c ^ 2 * s_fy c / 4 -> Mt = s_b c * sp_t pt ^ 2 * sp_fy pt / 4 -> Mb = s_b c * sp_t pb ^ 2 * sp_fy pb / 4 ->
  0 < M -> 0 <= Mt -> 0 <= Mb ->
  exists V, V_wp c b (Some pt) (Some pb) = Some V /\
    V = en_web_shear (s_fy c) (s_Av c) + Rmin (4 * M) ((2 * M + Mt + Mb) / ds) /\
    (1 <= ds -> Mt + Mb <= 2 * M -> V = en_web_shear (s_fy c) (s_Av c) + en_web_add M Mt Mb ds) /\
    (1 < ds -> 2 * M < Mt + Mb -> en_web_shear (s_fy c) (s_Av c) + en_web_add M Mt Mb ds < V).
Proof. exact web_stiff_lemma. Qed.
Print Assumptions C290_stiffened_web_panel_refuted.
Definition ex_hea200 : prof := mkProf 355 1808 18 10 (65/10) 134 210000 200 190.
Definition ex_ipe : prof := mkProf 355 2568 15 (107/10) (71/10) (2486/10) 210000 150 300.
Example C290_ex : exists V, V_wp ex_hea200 ex_ipe (Some (mkSP 170 96 20 355 None)) (Some (mkSP 170 96 20 355 None)) = Some V /\
  en_web_shear 355 1808 + en_web_add 1775000 7100000 7100000 (2893/10) < V.
Proof.
  destruct (C290_stiffened_web_panel_refuted ex_hea200 ex_ipe (mkSP 170 96 20 355 None) (mkSP 170 96 20 355 None) (2893/10) 1775000 7100000 7100000) as (V & E & _ & _ & Q);
    try (cbn [ex_hea200 ex_ipe s_h s_tf s_b s_fy sp_t sp_fy]; lra).
  exists V. split; [exact E|]. cbn [ex_hea200 s_fy s_Av] in Q. apply Q; lra.
Qed.

(** C291 *)
Theorem C291_compression_partial : forall c b eps tp lo a beta sigma MRd top V Fw, beta <> 0 -> s_h b <> s_tf b ->
  V_wp c b top None = Some V -> col_web_trv_comp c b tp lo a beta sigma = Some Fw ->
  Fcom_Rd c b eps tp lo a beta sigma MRd top None = Some (Rmin (Rmin (V / beta) Fw) (MRd / (s_h b - s_tf b))).
Proof. exact fcom_lemma. Qed.
Print Assumptions C291_compression_partial.
Theorem C291_stiffened_raises_refuted : forall c b eps tp lo a beta sigma MRd top t flange, Fcom_Rd c b eps tp lo a beta sigma MRd top (Some (stiffener_plate flange c b t)) = None.
Proof. exact fcom_stiff_lemma. Qed.
Print Assumptions C291_stiffened_raises_refuted.
Theorem C291_stiffener_dimensions_refuted : forall c b eps tp lo a beta sigma t out clear, out = (s_b c - s_tw c) / 2 -> clear = s_h c - 2 * s_tf c -> 0 < eps -> 0 < s_tw c -> 0 < t -> 0 < out < clear ->
  clear <= 18 * eps * sqrt ((2 * out + s_tw c) ^ 3 * t / 12 / ((30 * eps * s_tw c + t) * s_tw c + 2 * out * t)) ->
  out <= 18 * eps * sqrt ((2 * clear + s_tw c) ^ 3 * t / 12 / ((30 * eps * s_tw c + t) * s_tw c + 2 * clear * t)) ->
  sp_b (stiffener_plate true c b t) = clear /\ sp_h (stiffener_plate true c b t) = out /\
  col_web_stiffened eps (s_tw c) out t clear (s_fy c) = Some (((30 * eps * s_tw c + t) * s_tw c + 2 * out * t) * s_fy c) /\
  Fc_wc c b eps tp lo a beta sigma (Some (with_khp (stiffener_plate true c b t) t)) =
    Some (((30 * eps * s_tw c + t) * s_tw c + 2 * clear * t) * s_fy c).
Proof. exact stiff_swap_lemma. Qed.
Print Assumptions C291_stiffener_dimensions_refuted.
Example C291_ex : Fcom_Rd ex_hea200 ex_ipe 1 10 10 5 1 0 100000 None (Some (stiffener_plate true ex_hea200 ex_ipe 10)) = None /\
  Fc_wc ex_hea200 ex_ipe 1 10 10 5 1 0 (Some (with_khp (stiffener_plate true ex_hea200 ex_ipe 10) 10)) = Some (((30 * 1 * (65/10) + 10) * (65/10) + 2 * 170 * 10) * 355).
Proof.
  split; [apply C291_stiffened_raises_refuted|].
  apply (C291_stiffener_dimensions_refuted ex_hea200 ex_ipe 1 10 10 5 1 0 10 (96 + 3/4) 170); cbn [ex_hea200 s_b s_tw s_h s_tf]; try lra.
  - assert (10 <= sqrt ((2 * (96 + 3/4) + 65/10) ^ 3 * 10 / 12 / ((30 * 1 * (65/10) + 10) * (65/10) + 2 * (96 + 3/4) * 10))); [|lra].
    apply Rle_trans with (sqrt 100); [replace 100 with (10 * 10) by lra; rewrite sqrt_square; lra|]. apply sqrt_le_1_alt. apply le_div_iff; lra.
  - assert (10 <= sqrt ((2 * 170 + 65/10) ^ 3 * 10 / 12 / ((30 * 1 * (65/10) + 10) * (65/10) + 2 * 170 * 10))); [|lra].
    apply Rle_trans with (sqrt 100); [replace 100 with (10 * 10) by lra; rewrite sqrt_square; lra|]. apply sqrt_le_1_alt. apply le_div_iff; lra.
Qed.

(** C292 *)
Theorem C292_equivalent_row : forall l, proper_rows l -> tension_part l <> [] ->
  exists z k, zeq l = Some z /\ zeq_keq l = Some (z, k) /\ 0 < z /\ 0 < k /\
    z = ksum2 l / ksum1 l /\ k * z = ksum1 l /\ k * (z * z) = ksum2 l /\ k <= ksum0 l /\
    (forall lo hi, Forall (fun r => er_shear r = false -> lo <= er_h r <= hi) l -> lo <= z <= hi) /\
    keq l = Some (k + Rsum (map (fun r => er_k r * er_h r) (shear_part l)) / z).
Proof. exact zeq_lemma. Qed.
Print Assumptions C292_equivalent_row.
Theorem C292_initial_stiffness : forall c b tp lo a beta bot l, proper_rows l -> (2 <= length (tension_part l))%nat ->
  0 < s_Av c -> 0 < beta -> 0 < s_tw c -> 0 < s_hw c -> 0 < beff_c c b tp lo a -> 0 < s_E c ->
  exists z k S0, zeq_keq l = Some (z, k) /\ Sj_ini c b tp lo a beta bot l = Some S0 /\
    S0 = s_E c * z ^ 2 / (beta * z / (38/100 * s_Av c) +
      match bot with None => s_hw c / (7/10 * beff_c c b tp lo a * s_tw c) | Some _ => 0 end + 1 / k) /\
    0 < S0 < s_E c * ksum2 l.
Proof. exact sj_lemma. Qed.
Print Assumptions C292_initial_stiffness.
Theorem C292_one_row_refuted : forall c b tp lo a beta bot l, length (tension_part l) = 1%nat -> Sj_ini c b tp lo a beta bot l = None.
Proof. exact sj_one_lemma. Qed.
Print Assumptions C292_one_row_refuted.
Example C292_ex : proper_rows ex_rows /\ length (tension_part ex_rows) = 2%nat /\ exists S0, Sj_ini ex_hea200 ex_ipe 10 10 5 1 None ex_rows = Some S0 /\ 0 < S0.
Proof.
  assert (P : proper_rows ex_rows) by (repeat constructor; cbn; lra). split; [exact P|]. split; [reflexivity|].
  destruct (C292_initial_stiffness ex_hea200 ex_ipe 10 10 5 1 None ex_rows P) as (z & k & S0 & _ & E & _ & Q);
    try (cbn [ex_hea200 s_Av s_tw s_hw s_E]; lra).
  - cbn. lia.
  - unfold beff_c. cbn [ex_hea200 ex_ipe s_tf s_r]. pose proof (sqrt_pos 2). assert (sqrt 2 < 2) by (apply Rlt_le_trans with (sqrt (2 * 2)); [apply sqrt_lt_1_alt; lra|rewrite sqrt_square; lra]).
    unfold Rmin. destruct (Rle_dec _ _); lra.
  - exists S0. split; [exact E|lra].
Qed.

(** C293 *)
Theorem C293_stiffness : forall M MRd S0, 0 < MRd -> rot_stiffness M MRd S0 = Some (S0 / en_mu (M * 1000000 / MRd)).
Proof. exact rot_lemma. Qed.
Print Assumptions C293_stiffness.
Theorem C293_moment_unit_refuted : forall M MRd S0, 0 < MRd -> 0 < S0 -> MRd < 1500000 * M ->
  exists S, rot_stiffness M MRd S0 = Some S /\ S < S0 / en_mu (M / MRd) /\ S < S0.
Proof. exact rot_unit_lemma. Qed.
Print Assumptions C293_moment_unit_refuted.
Example C293_ex : rot_stiffness 40 100000000 (5 * 1000) = Some (5 * 1000 / en_mu (40 * 1000000 / 100000000)) /\ 100000000 < 1500000 * 40000000.
Proof. split; [apply C293_stiffness; lra|lra]. Qed.

(** C294 *)
Theorem C294_before_refuted : forall l, unused l -> shear_res l = Some (2 * Rsum (map er_Fv (shear_part l))).
Proof. exact shear_unused_lemma. Qed.
Print Assumptions C294_before_refuted.
Theorem C294_after : forall l, Forall (fun r => er_shear r = false -> 0 <= er_F r) l -> Forall (fun r => er_shear r = true -> er_F r = -1) l ->
  Forall (fun r => er_bear r <> None) l -> Forall (fun r => 0 <= er_Fv r) l ->
  shear_res l = Some (572/1000 * Rsum (map er_Fv (filter (fun r => Rltb 0 (er_F r)) l)) + 2 * Rsum (map er_Fv (filter (fun r => negb (Rltb 0 (er_F r))) l))) /\
  (forall V, shear_res l = Some V -> 572/1000 * Rsum (map er_Fv l) <= V <= 2 * Rsum (map er_Fv l)).
Proof. exact shear_after_lemma. Qed.
Print Assumptions C294_after.
Theorem C294_bearing_refuted : forall r v, 0 < er_F r -> er_bear r = Some v -> 0 <= v < 286/1000 * er_Fv r ->
  exists V, shear_res [r] = Some V /\ 2 * v < V.
Proof. exact shear_bear_lemma. Qed.
Print Assumptions C294_bearing_refuted.
Theorem C294_interaction_refuted : forall r Ft, 0 < Ft -> 0 < er_Fv r -> er_F r = Ft -> er_bear r <> None ->
  exists V U, shear_res [r] = Some V /\ shear_and_tension (V / 2) (er_Fv r) Ft Ft = Some U /\ 1 < U < 10003/10000.
Proof. exact shear_inter_lemma. Qed.
Print Assumptions C294_interaction_refuted.
Example C294_ex : shear_res ex_rows = Some (2 * 94000) /\ exists l' M, bend 280000 ex_groups ex_rows = Some (l', M) /\ shear_res l' = Some (572/1000 * (94000 + 94000) + 2 * 94000).
Proof.
  destruct ex_hyps as (A & B & C & D & U). split.
  - rewrite (C294_before_refuted ex_rows U). cbn. f_equal. lra.
  - do 2 eexists. split; [reflexivity|]. cbn. 
    repeat rmin1.
    rewrite (ltb_t 0 200000), (ltb_t 0 (280000 - (0 + 200000))), (ltb_f 0 (-1)) by lra. cbn. rewrite orb_true_r. cbn. f_equal. lra.
Qed.

(** C295 *)
Theorem C295_plate_height : forall os beamh tp bp etop ebot e, Forall not_ebottom os ->
  let g := geo_run os (new_geo beamh tp bp etop ebot e) in eg_h g = eg_etop g + eg_ebot g + eg_beam g /\ eg_ebot g = ebot /\ eg_beam g = beamh.
Proof. exact geo_height_lemma. Qed.
Print Assumptions C295_plate_height.
Theorem C295_bolt_distance : forall os1 os2 x g, Forall keeps_x os2 ->
  let g' := geo_run (os1 ++ GXbolts x :: os2) g in eg_x g' = eg_b g' / 2 - eg_e g' /\ bolt_dist g' = 2 * eg_x g'.
Proof. exact geo_x_lemma. Qed.
Print Assumptions C295_bolt_distance.
Theorem C295_stale_refuted : forall g v, eg_x g = eg_b g / 2 - eg_e g ->
  (v <> eg_b g -> let g' := geo_set (GBp v) g in eg_x g' <> eg_b g' / 2 - eg_e g' /\ bolt_dist g' = v - 2 * eg_e g) /\
  (v <> eg_e g -> let g' := geo_set (GEbolts v) g in eg_x g' <> eg_b g' / 2 - eg_e g' /\ bolt_dist g' = eg_b g - 2 * v) /\
  (eg_h g = eg_etop g + eg_ebot g + eg_beam g -> v <> eg_ebot g ->
     let g' := geo_set (GEbottom v) g in eg_h g' <> eg_etop g' + eg_ebot g' + eg_beam g' /\
     (forall w, let g2 := geo_set (GEtop w) g' in eg_h g2 = w + v + eg_beam g)).
Proof. exact geo_stale_lemma. Qed.
Print Assumptions C295_stale_refuted.
Theorem C295_lever : forall j r, j_zc j = zc_level (j_beam j) ->
  lever j r = r_z r + (s_h (j_beam j) - s_tf (j_beam j)) / 2 /\
  (r_z r = (s_h (j_beam j) - s_tf (j_beam j)) / 2 -> lever j r = s_h (j_beam j) - s_tf (j_beam j)).
Proof. exact zc_lemma. Qed.
Print Assumptions C295_lever.
Example C295_ex : let g := geo_run [GEtop 90; GXbolts 50; GTp 12] (new_geo 300 10 180 80 10 30) in eg_h g = 400 /\ eg_e g = 40 /\ bolt_dist g = 100.
Proof. unfold bolt_dist. cbn. lra. Qed.
