(** C63 to C70 and C103 to C111: steel cross-sections. *)
From Verif Require Import Sections_spec Sections_proofs Sections2_proofs Sections3_proofs.

(** C63 *)
Theorem C63_rhs_history : forall H B T s0 es d v s', rhs_new H B T = Some s0 -> rhs_set d v (rhs_edits es s0) = (s', true) ->
  rhs_new (last_value dH H (es ++ [(d, v)])) (last_value dB B (es ++ [(d, v)])) (last_value dT T (es ++ [(d, v)])) = Some s'.
Proof. exact rhs_history_lemma. Qed.
Print Assumptions C63_rhs_history.
Theorem C63_valid_dimensions_never_raise : forall H B T s0 es d v, rhs_new H B T = Some s0 ->
  let es' := es ++ [(d, v)] in
  rhs_valid (last_value dH H es') (last_value dB B es') (last_value dT T es') ->
  exists s', rhs_set d v (rhs_edits es s0) = (s', true).
Proof. exact rhs_valid_edit_lemma. Qed.
Print Assumptions C63_valid_dimensions_never_raise.
Theorem C63_constructor_succeeds : forall H B T, rhs_valid H B T -> exists s, rhs_new H B T = Some s.
Proof. exact rhs_new_valid_lemma. Qed.
Print Assumptions C63_constructor_succeeds.
Theorem C63_raised_update_leaves_stale : exists s0 s1, rhs_new 100 60 4 = Some s0 /\ rhs_set dH 0 s0 = (s1, false) /\
    r_A s1 <> r_A s0 /\ r_Wel s1 = r_Wel s0 /\ r_H s1 = Some 0.
Proof. exact rhs_stale_lemma. Qed.
Print Assumptions C63_raised_update_leaves_stale.
Lemma r4 : RHS_outer_radius 4 = 8. Proof. unfold RHS_outer_radius, Rleb. destruct (Rle_dec 4 6); lra. Qed.
Lemma ex_valid : rhs_valid 100 60 4. Proof. unfold rhs_valid. rewrite r4. lra. Qed.
Lemma ex_valid2 : rhs_valid 120 60 4. Proof. unfold rhs_valid. rewrite r4. lra. Qed.
Example C63_ex : exists s0 s', rhs_new 100 60 4 = Some s0 /\ rhs_set dH 120 (rhs_edits [(dB, 50); (dH, 0); (dB, 60)] s0) = (s', true) /\
  rhs_new 120 60 4 = Some s'.
Proof.
  destruct (rhs_new_valid_lemma _ _ _ ex_valid) as (s0 & N).
  destruct (rhs_valid_edit_lemma _ _ _ s0 [(dB, 50); (dH, 0); (dB, 60)] dH 120 N ex_valid2) as (s' & E).
  exists s0, s'. split; [exact N|]. split; [exact E|]. apply (rhs_history_lemma _ _ _ _ _ _ _ _ N E).
Qed.

(** C64 *)
Theorem C64_area_of_ring : forall H B T, let R0 := RHS_outer_radius T in
  RHS_area H B T R0 = rr_area H B R0 - rr_area (H - 2 * T) (B - 2 * T) (R0 - T).
Proof. exact rhs_area_lemma. Qed.
Print Assumptions C64_area_of_ring.
Theorem C64_area_positive : forall H B T, rhs_valid H B T -> 0 < RHS_area H B T (RHS_outer_radius T).
Proof. exact rhs_area_pos_lemma. Qed.
Print Assumptions C64_area_positive.
Theorem C64_second_moment_of_ring : forall H B T, let R0 := RHS_outer_radius T in
  RHS_second_moment H B T R0 = rr_inertia H B R0 - rr_inertia (H - 2 * T) (B - 2 * T) (R0 - T).
Proof. exact rhs_inertia_lemma. Qed.
Print Assumptions C64_second_moment_of_ring.
Theorem C64_second_moment_positive : forall H B T, rhs_valid H B T -> 0 < RHS_second_moment H B T (RHS_outer_radius T).
Proof. exact rhs_inertia_pos. Qed.
Print Assumptions C64_second_moment_positive.
Theorem C64_plastic_modulus_of_ring : forall H B T, let R0 := RHS_outer_radius T in
  RHS_plastic_modulus H B R0 T = rr_static H B R0 - rr_static (H - 2 * T) (B - 2 * T) (R0 - T).
Proof. exact rhs_plastic_lemma. Qed.
Print Assumptions C64_plastic_modulus_of_ring.
Example C64_ex : 0 < RHS_area 100 60 4 (RHS_outer_radius 4). Proof. apply rhs_area_pos_lemma, ex_valid. Qed.

(** C65: the section after construction (the constructor ends with an update) or any completed
    edit (C63) is a fresh one; its shear areas add up to the area only when it is square. *)
Theorem C65_shear_areas_refuted : forall H B T s, rhs_valid H B T -> rhs_new H B T = Some s ->
  exists A Ay Az, r_A s = Some A /\ r_Ash s = Some (Ay, Az) /\ Ay = A / 2 /\ Az = A * H / (H + B) /\
    (Ay + Az = A <-> H = B).
Proof. exact rhs_shear_new_lemma. Qed.
Print Assumptions C65_shear_areas_refuted.
Theorem C65_formula_partial : forall A H B, 0 < H -> 0 < B ->
  exists x y, RHS_shear_area A B H = Some x /\ RHS_shear_area A H B = Some y /\ x + y = A.
Proof. exact rhs_shear_formula_lemma. Qed.
Print Assumptions C65_formula_partial.
Example C65_ex : exists s A Ay Az, rhs_new 100 60 4 = Some s /\ r_A s = Some A /\ r_Ash s = Some (Ay, Az) /\ Ay + Az <> A.
Proof.
  destruct (rhs_new_valid_lemma _ _ _ ex_valid) as (s & N).
  destruct (rhs_shear_new_lemma _ _ _ _ ex_valid N) as (A & Ay & Az & a1 & a2 & _ & _ & a3).
  exists s, A, Ay, Az. repeat split; auto. intros E. apply a3 in E. lra.
Qed.

(** C66 *)
Theorem C66_rhs : forall H B T UN MRd, rhs_valid H B T -> 0 <= UN -> 0 <= MRd ->
  let M := RHS_interact (RHS_area H B T (RHS_outer_radius T)) B T in
  0 <= M UN MRd <= MRd /\ (1 <= UN -> M UN MRd = 0) /\ (forall v, UN <= v -> M v MRd <= M UN MRd) /\ M 0 MRd = MRd.
Proof. exact rhs_interact_lemma. Qed.
Print Assumptions C66_rhs.
Theorem C66_rolled_i : forall b h tf tw r UN MRd, 0 < b -> 0 < tf -> 0 < tw -> 0 <= r -> 2 * tf < h -> 0 <= UN -> 0 <= MRd ->
  let M := I_interact b h tf tw r in
  0 <= M UN MRd <= MRd /\ (1 <= UN -> M UN MRd = 0) /\ (forall v, UN <= v -> M v MRd <= M UN MRd) /\ M 0 MRd = MRd.
Proof. exact i_interact_lemma. Qed.
Print Assumptions C66_rolled_i.
Theorem C66_welded_i : forall d UN MRd, wi_valid d -> 0 <= UN -> 0 <= MRd ->
  0 <= wi_interact d UN MRd <= MRd /\ (1 <= UN -> wi_interact d UN MRd = 0) /\
  (forall v, UN <= v -> wi_interact d v MRd <= wi_interact d UN MRd) /\ wi_interact d 0 MRd = MRd.
Proof. exact wi_interact_lemma. Qed.
Print Assumptions C66_welded_i.
Example C66_ex : RHS_interact (RHS_area 100 60 4 (RHS_outer_radius 4)) 60 4 1 50 = 0.
Proof. destruct (rhs_interact_lemma 100 60 4 1 50 ex_valid) as (_ & H & _); try lra; apply H; lra. Qed.

(** C67 *)
Theorem C67_chs : forall D T, 0 < T -> 2 * T < D ->
  CHS_torsion_modulus D T = 2 * CHS_second_moment D T /\ CHS_elastic_modulus D T = CHS_second_moment D T / (D / 2) /\
  CHS_elastic_modulus D T < CHS_plastic_modulus D T /\
  0 < CHS_area D T < PI * (D / 2) ^ 2 /\ CHS_area D T = PI * (D / 2) ^ 2 - PI * ((D - 2 * T) / 2) ^ 2 /\
  CHS_area D T = PI * (D - T) * T /\ 0 < CHS_shear_area D T < CHS_area D T.
Proof. exact chs_lemma. Qed.
Print Assumptions C67_chs.
Theorem C67_axis_reads_raise : forall D T, read_Iy (single (CHS_second_moment D T)) = None.
Proof. reflexivity. Qed.
Print Assumptions C67_axis_reads_raise.
Example C67_ex : CHS_elastic_modulus 100 5 < CHS_plastic_modulus 100 5.
Proof. apply chs_lemma; lra. Qed.

(** C68 *)
Definition ex_wi := mkWi 500 10 200 300 20 15 5.
Lemma ex_wi_valid : wi_valid ex_wi. Proof. unfold wi_valid, ex_wi. cbn. lra. Qed.
Theorem C68_halves_area : forall d, wi_valid d ->
  over (slab_below (zpl d)) (wi_plates d) = over (fun s => s_w s * (s_hi s - s_lo s)) (wi_plates d) / 2 /\ 0 < zpl d < w_h d.
Proof. exact pna_halves_lemma. Qed.
Print Assumptions C68_halves_area.
Theorem C68_plastic_modulus : forall d, wi_valid d -> wi_Wply d = over (slab_abs (zpl d)) (wi_plates d).
Proof. exact wpl_lemma. Qed.
Print Assumptions C68_plastic_modulus.
Example C68_ex : 0 < zpl ex_wi < 500. Proof. apply (pna_halves_lemma ex_wi ex_wi_valid). Qed.

(** C69 *)
Theorem C69_centroid : forall d, wi_valid d -> over (slab_first (zel d)) (wi_plates d) = 0 /\ 0 < zel d < w_h d.
Proof. exact centroid_lemma. Qed.
Print Assumptions C69_centroid.
Theorem C69_second_moment : forall d, wi_valid d -> wi_Iy d = over (slab_second (zel d)) (wi_plates d) /\ 0 < wi_Iy d /\
  forall z, wi_Iy d <= over (slab_second z) (wi_plates d).
Proof. exact inertia_lemma. Qed.
Print Assumptions C69_second_moment.
Example C69_ex : 0 < zel ex_wi < 500. Proof. apply (centroid_lemma ex_wi ex_wi_valid). Qed.

(** C70 *)
Theorem C70_history : forall fy d1 d2 es1 es2 p, o_dims (wi_edits es1 (wi_new d1)) = o_dims (wi_edits es2 (wi_new d2)) ->
  wi_get fy p (wi_edits es1 (wi_new d1)) = wi_get fy p (wi_edits es2 (wi_new d2)).
Proof. exact wi_edit_props_lemma. Qed.
Print Assumptions C70_history.
Theorem C70_fresh : forall fy d es p, wi_get fy p (wi_edits es (wi_new d)) = wi_get fy p (wi_new (o_dims (wi_edits es (wi_new d)))).
Proof. exact wi_edit_fresh_lemma. Qed.
Print Assumptions C70_fresh.
Theorem C70_read_back : forall d es v, let o := wi_edits es (wi_new d) in let g k := o_dims (wi_edits (es ++ [(k, v)]) (wi_new d)) in
  (w_h (g ah) = v) /\ (w_tw (g atw) = v) /\ (w_bt (g abt) = v /\ w_bb (g abt) = w_bb (o_dims o)) /\
  (w_bb (g abb) = v /\ w_bt (g abb) = w_bt (o_dims o)) /\ (w_tt (g att) = v /\ w_tb (g att) = w_tb (o_dims o)) /\
  (w_tb (g atb) = v /\ w_tt (g atb) = w_tt (o_dims o)) /\
  (w_bt (g ab) = v /\ w_bb (g ab) = v) /\ (w_tt (g atf) = v /\ w_tb (g atf) = v) /\
  (w_h (g ahw) - w_tt (g ahw) - w_tb (g ahw) = v /\ w_tt (g ahw) = w_tt (o_dims o) /\ w_tb (g ahw) = w_tb (o_dims o)).
Proof. exact wi_readback_lemma. Qed.
Print Assumptions C70_read_back.
Theorem C70_imperfection_frozen : forall d es, o_imp (wi_edits es (wi_new d)) = wi_imp d.
Proof. exact wi_imp_stale_lemma. Qed.
Print Assumptions C70_imperfection_frozen.
Theorem C70_imperfection_refuted : exists d es, wi_valid d /\ wi_valid (o_dims (wi_edits es (wi_new d))) /\
  o_imp (wi_edits es (wi_new d)) <> o_imp (wi_new (o_dims (wi_edits es (wi_new d)))).
Proof. exact wi_imp_refuted_lemma. Qed.
Print Assumptions C70_imperfection_refuted.
Example C70_ex : w_h (o_dims (wi_edits [(ahw, 400); (atf, 30)] (wi_new ex_wi))) = 435 /\ hw (o_dims (wi_edits [(ahw, 400); (atf, 30)] (wi_new ex_wi))) = 375.
Proof. unfold hw. cbn. lra. Qed.

(** C103 *)
Theorem C103_welded_interaction_refuted : forall d UN MRd, wi_valid d -> doubly_symmetric d -> 0 < MRd ->
  wi_area d < 2 * (At d + Ab d) -> (1 - (code_aw (wi_area d) (At d + Ab d)) / 2) > 1 - UN -> UN < 1 -> 1/4 < UN ->
  interact (code_aw (wi_area d) (At d + Ab d)) UN MRd < wi_interact d UN MRd.
Proof. exact wi_interact_refuted_lemma. Qed.
Print Assumptions C103_welded_interaction_refuted.
Definition ex_sym := mkWi 300 10 300 300 20 20 5.
Lemma ex_sym_valid : wi_valid ex_sym. Proof. unfold wi_valid, ex_sym. cbn. lra. Qed.
Lemma ex_sym_sym : doubly_symmetric ex_sym. Proof. split; reflexivity. Qed.
Example C103_ex : interact (code_aw (wi_area ex_sym) (At ex_sym + Ab ex_sym)) (1/2) 1 < wi_interact ex_sym (1/2) 1.
Proof.
  apply wi_interact_refuted_lemma; try lra; [apply ex_sym_valid|apply ex_sym_sym|..]; unfold code_aw, wi_area, Aw, At, Ab, hw, ex_sym; cbn; [lra|].
  pose proof (Rmin_r (((300 - 20 - 20) * 10 + 300 * 20 + 300 * 20 - (300 * 20 + 300 * 20)) / ((300 - 20 - 20) * 10 + 300 * 20 + 300 * 20)) (1/2)). lra.
Qed.

(** C104 *)
Theorem C104_class3_effective_area_refuted : forall eps d, wi_valid d -> doubly_symmetric d -> 0 < eps -> 0 <= cw d ->
  cf_top d / w_tt d <= 10 * eps -> cw d / w_tw d <= 38 * eps ->
  exists e, wi_Aeff eps d eff0 = Some (wi_area d + cw d * w_tw d / 2, e).
Proof. exact aeff_lemma. Qed.
Print Assumptions C104_class3_effective_area_refuted.
Example C104_ex : exists A e, wi_Aeff 1 ex_sym eff0 = Some (A, e) /\ wi_area ex_sym < A.
Proof.
  assert (S2 : 1 < sqrt 2 < 2) by (split; [rewrite <- sqrt_1 at 1|replace 2 with (sqrt (2 ^ 2)) at 2 by (apply sqrt_pow2; lra)]; apply sqrt_lt_1_alt; lra).
  destruct (aeff_lemma 1 ex_sym ex_sym_valid ex_sym_sym) as (e & E); try lra.
  - unfold cw, hw, ex_sym. cbn. lra.
  - unfold cf_top, ex_sym. cbn. lra.
  - unfold cw, hw, ex_sym. cbn. lra.
  - eexists _, e. split; [exact E|]. unfold cw, hw, ex_sym. cbn [w_h w_tt w_tb w_a w_tw]. lra.
Qed.

(** C105 *)
Theorem C105_rhs : forall H B T, rhs_valid H B T -> let R0 := RHS_outer_radius T in
  RHS_second_moment H B T R0 / (1/2 * H) <= RHS_plastic_modulus H B R0 T.
Proof. exact rhs_wpl_wel_lemma. Qed.
Print Assumptions C105_rhs.
Theorem C105_welded_major : forall d, wi_valid d -> wi_Wely d <= wi_Wply d.
Proof. exact wi_wpl_wel_lemma. Qed.
Print Assumptions C105_welded_major.
Theorem C105_welded_minor : forall d, wi_valid d -> w_tw d <= 3/2 * Rmax (w_bt d) (w_bb d) -> wi_Welz d <= wi_Wplz d.
Proof. exact wi_wplz_lemma. Qed.
Print Assumptions C105_welded_minor.
Example C105_ex : wi_Wely ex_wi <= wi_Wply ex_wi. Proof. apply wi_wpl_wel_lemma, ex_wi_valid. Qed.

(** C106 *)
Theorem C106_rhs_partial : forall H B T, RHS_paint_area H B (RHS_outer_radius T) = rr_perimeter H B (RHS_outer_radius T).
Proof. exact rhs_paint_lemma. Qed.
Print Assumptions C106_rhs_partial.
Theorem C106_welded_i_refuted : forall d, wi_paint d = i_outline (w_h d) (w_bt d) (w_bb d) (w_tt d) (w_tb d) (w_tw d) - w_bt d.
Proof. exact wi_paint_lemma. Qed.
Print Assumptions C106_welded_i_refuted.
Theorem C106_rolled_i_refuted : forall b h tf tw r, I_paint b h tf tw r = i_outline h b b tf tf tw - 4 * (2 * r - PI * r / 2) - 2 * tw.
Proof. exact i_paint_lemma. Qed.
Print Assumptions C106_rolled_i_refuted.
Example C106_ex : wi_paint ex_wi = i_outline 500 200 300 20 15 10 - 200. Proof. apply (wi_paint_lemma ex_wi). Qed.

(** C107 *)
Theorem C107_shear_centre_partial : forall d, wi_valid d -> doubly_symmetric d -> wi_zs d = 0.
Proof. exact shear_centre_lemma. Qed.
Print Assumptions C107_shear_centre_partial.
Theorem C107_wagner_refuted : forall d, wi_valid d -> doubly_symmetric d -> wi_zj d < 0.
Proof. exact wagner_lemma. Qed.
Print Assumptions C107_wagner_refuted.
Example C107_ex : wi_zs ex_sym = 0 /\ wi_zj ex_sym < 0.
Proof. split; [apply shear_centre_lemma|apply wagner_lemma]; (apply ex_sym_valid || apply ex_sym_sym). Qed.

(** C108 *)
Theorem C108_upside_down_partial : forall d, wi_valid d ->
  wi_area (flip d) = wi_area d /\ zel (flip d) = w_h d - zel d /\ zpl (flip d) = w_h d - zpl d /\
  wi_Iy (flip d) = wi_Iy d /\ wi_Iz (flip d) = wi_Iz d /\ wi_Wely (flip d) = wi_Wely d /\ wi_Welz (flip d) = wi_Welz d /\
  wi_Wply (flip d) = wi_Wply d /\ wi_Wplz (flip d) = wi_Wplz d /\ wi_It (flip d) = wi_It d /\ wi_zs (flip d) = - wi_zs d.
Proof. exact flip_lemma. Qed.
Print Assumptions C108_upside_down_partial.
Theorem C108_paint_refuted : forall d, wi_paint (flip d) - wi_paint d = w_bt d - w_bb d.
Proof. exact flip_paint_refuted_lemma. Qed.
Print Assumptions C108_paint_refuted.
Example C108_ex : zel (flip ex_wi) = 500 - zel ex_wi. Proof. apply (flip_lemma ex_wi ex_wi_valid). Qed.

(** C109 *)
Theorem C109_plastic_axis_partial : forall d, wq_valid d -> 0 <= wq_zpl d <= q_h d - q_tt d ->
  over (slab_below (q_tb d + q_h d - q_tt d - wq_zpl d)) (wq_plates d) = over (fun s => s_w s * (s_hi s - s_lo s)) (wq_plates d) / 2.
Proof. exact wq_pna_lemma. Qed.
Print Assumptions C109_plastic_axis_partial.
Theorem C109_centroid_refuted : forall d, wq_valid d -> over (slab_first (wq_zel d)) (wq_plates d) = q_zw d * q_Aw d /\ 0 < q_zw d * q_Aw d.
Proof. exact wq_centroid_lemma. Qed.
Print Assumptions C109_centroid_refuted.
Theorem C109_modulus_refuted : forall d, wq_valid d -> q_tb d < q_bb d -> 0 < wq_zel d -> wq_zel d < q_h d + q_bb d - wq_zel d -> 0 < wq_Iy d ->
  wq_Wely d < wq_Iy d / Rmax (wq_zel d) (q_h d + q_tb d - wq_zel d).
Proof. exact wq_modulus_lemma. Qed.
Print Assumptions C109_modulus_refuted.
Definition ex_wq := mkWq 250 10 200 300 20 15.
Lemma ex_wq_valid : wq_valid ex_wq. Proof. unfold wq_valid, ex_wq. cbn. lra. Qed.
Example C109_ex : 0 <= wq_zpl ex_wq <= q_h ex_wq - q_tt ex_wq /\ over (slab_first (wq_zel ex_wq)) (wq_plates ex_wq) <> 0.
Proof.
  split; [unfold wq_zpl, q_hw, q_At, q_Ab, ex_wq; cbn; lra|].
  destruct (wq_centroid_lemma ex_wq ex_wq_valid) as [-> H]. lra.
Qed.

(** C110 *)
Theorem C110_class_partial : forall Ned Med c, (Ned < 0 -> Rabs Med < 1/10000 -> section_class Ned Med c = Nat.max (c_comp c) (c_flange c)) /\
  (Ned <= -1/10000 -> 1/10000 <= Rabs Med -> section_class Ned Med c = Nat.max (c_comp_bend c) (c_flange c)) /\
  (Rabs Ned < 1/10000 -> 1/10000 < Rabs Med -> section_class Ned Med c = Nat.max (c_bend c) (c_flange c)) /\
  (0 <= Ned -> Rabs Med < 1/10000 -> section_class Ned Med c = 1%nat).
Proof. exact class_lemma. Qed.
Print Assumptions C110_class_partial.
Theorem C110_tension_refuted : forall Ned Med c, 1/10000 <= Ned -> 1/10000 < Rabs Med -> section_class Ned Med c = 1%nat.
Proof. exact class_refuted_lemma. Qed.
Print Assumptions C110_tension_refuted.
Theorem C110_tension_raises_resistance : forall c Med Wpl Wel fy, (3 <= c_bend c)%nat -> 1/10000 < Rabs Med -> Wel < Wpl -> 0 < fy ->
  section_MRd (section_class 0 Med c) Wpl Wel fy < section_MRd (section_class (1/10000) Med c) Wpl Wel fy.
Proof. exact class_jump_lemma. Qed.
Print Assumptions C110_tension_raises_resistance.
Example C110_ex : section_class (-1) 5 (mkCls 2 4 1 3) = 3%nat.
Proof. destruct (class_lemma (-1) 5 (mkCls 2 4 1 3)) as (_ & H & _). rewrite H; [reflexivity|lra|rewrite Rabs_right; lra]. Qed.

(** C111 *)
Theorem C111_utilisation : forall C aw Ned Ved Med NRd VRd MRd, 0 < NRd -> 0 < VRd -> 0 < MRd -> aw <= 1/2 ->
  (Forall (fun u => u <= 1) (section_resistance C (interact aw) Ned Ved Med NRd VRd MRd) <->
   Rabs Ned <= NRd /\ Rabs Ved <= VRd /\ Rabs Med <= MRd /\
   if Nat.ltb C 3 then Rabs Med <= interact aw (Rabs Ned / NRd) MRd
   else Rabs Ned / NRd + Rabs Med / MRd <= 1).
Proof. exact resistance_lemma. Qed.
Print Assumptions C111_utilisation.
Example C111_ex : ~ Forall (fun u => u <= 1) (section_resistance 4 (interact (1/2)) 3 0 3 5 1 5).
Proof.
  intros F. apply resistance_lemma in F; try lra. cbn [Nat.ltb Nat.leb] in F. rewrite !(Rabs_right 3) in F by lra. lra.
Qed.

(** C112 *)
Theorem C112_square_partial : forall H T s, shs_new H T = Some s ->
  r_H s = r_B s /\ (exists i, r_I s = Some (i, i)) /\ exists w, r_Wpl s = Some (w, w).
Proof. exact shs_square_lemma. Qed.
Print Assumptions C112_square_partial.
Theorem C112_edit_refuted : forall H T s v s', shs_new H T = Some s -> rhs_set dH v s = (s', true) -> v <> H ->
  r_H s' = Some v /\ r_B s' = Some H /\ r_H s' <> r_B s'.
Proof. exact shs_edit_lemma. Qed.
Print Assumptions C112_edit_refuted.
Example C112_ex : exists s, shs_new 100 4 = Some s.
Proof. apply rhs_new_valid_lemma. unfold rhs_valid. rewrite r4. lra. Qed.
