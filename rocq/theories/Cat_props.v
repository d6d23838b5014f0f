(** C305-C312: names, tables and formulas of steel sections and materials. *)
From Coq Require Import String Ascii NArith ZArith List Bool DecimalString Sorted.
Require Import Reals Lra Lia Psatz.
From Verif Require Import Base EC3_model Sections_model Sections9_proofs.
From Verif Require Import Cat_proofs Cat2_proofs Cat3_proofs.
From Verif Require Import Cat_model Cat_spec.
Import ListNotations.
Local Open Scope string_scope.
Local Open Scope R_scope.

(** Hypotheses met by the names below. *)
Lemma ex_x : between_text "x".
Proof. split; [discriminate|]. intros c [<-|[]]. split; [|split; [discriminate|]]; intro K; vm_compute in K; repeat (destruct K as [K|K]; [discriminate K|]); exact K. Qed.
Lemma ex_sp : blank_text " ".
Proof. exact blank1. Qed.

(** C305 *)
Theorem C305_name_read : forall bl a s1 b s2 c va vb vc, blank_text bl -> spells a va -> spells b vb -> spells c vc -> between_text s1 -> between_text s2 ->
  make_section (rhs_name bl a s1 b s2 c) = Some (MR va vb vc).
Proof. exact rhs_name_lemma. Qed.
Print Assumptions C305_name_read.
Theorem C305_single_figure_thickness_refuted : forall bl a s1 b s2 n va vb, blank_text bl -> spells a va -> spells b vb -> between_text s1 -> between_text s2 -> (n < 10)%N ->
  make_section (rhs_name bl a s1 b s2 (dec n)) = None.
Proof. exact rhs_single_digit_lemma. Qed.
Print Assumptions C305_single_figure_thickness_refuted.
Theorem C305_second_decimal_lost_refuted : forall bl a s1 b s2 n d e va vb, blank_text bl -> spells a va -> spells b vb -> between_text s1 -> between_text s2 ->
  (d < 10)%N -> (e < 10)%N ->
  make_section (rhs_name bl a s1 b s2 ((dec n ++ "." ++ dec d) ++ dec e)) = Some (MR va vb (10 * Z.of_N n + Z.of_N d)).
Proof. exact rhs_two_decimals_lemma. Qed.
Print Assumptions C305_second_decimal_lost_refuted.
Theorem C305_third_decimal_refuted : forall bl a s1 b s2 n d e va vb, blank_text bl -> spells a va -> spells b vb -> between_text s1 -> between_text s2 ->
  (d < 10)%N -> (10 <= e)%N ->
  make_section (rhs_name bl a s1 b s2 ((dec n ++ "." ++ dec d) ++ dec e)) = Some (MR va vb (10 * Z.of_N e)).
Proof. exact rhs_three_decimals_lemma. Qed.
Print Assumptions C305_third_decimal_refuted.
Example C305_ex : make_section "RHS 120x88.9x12.5" = Some (MR 1200 889 125) /\ make_section "RHS 100x100x5" = None /\
  make_section "RHS 100x100x6.34" = Some (MR 1000 1000 63) /\ make_section "RHS 100x100x6.345" = Some (MR 1000 1000 450).
Proof.
  split; [|split; [|split]].
  - exact (C305_name_read " " "120" "x" "88.9" "x" "12.5" 1200 889 125 ex_sp (spells_whole 120 ltac:(lia)) (spells_decimal 88 9 ltac:(lia)) (spells_decimal 12 5 ltac:(lia)) ex_x ex_x).
  - exact (C305_single_figure_thickness_refuted " " "100" "x" "100" "x" 5 1000 1000 ex_sp (spells_whole 100 ltac:(lia)) (spells_whole 100 ltac:(lia)) ex_x ex_x ltac:(lia)).
  - exact (C305_second_decimal_lost_refuted " " "100" "x" "100" "x" 6 3 4 1000 1000 ex_sp (spells_whole 100 ltac:(lia)) (spells_whole 100 ltac:(lia)) ex_x ex_x ltac:(lia) ltac:(lia)).
  - exact (C305_third_decimal_refuted " " "100" "x" "100" "x" 6 3 45 1000 1000 ex_sp (spells_whole 100 ltac:(lia)) (spells_whole 100 ltac:(lia)) ex_x ex_x ltac:(lia) ltac:(lia)).
Qed.

(** C306 *)
Theorem C306_ipe_name : forall bl n, blank_text bl -> make_section ("IPE" ++ bl ++ dec n) = option_map (MI FIPE) (look profile_t (long_name FIPE n)).
Proof. exact ipe_name_lemma. Qed.
Print Assumptions C306_ipe_name.
Theorem C306_hea_name : forall bl bm n, blank_text bl -> blank_text bm ->
  make_section ("HE" ++ bl ++ dec n ++ bm ++ "A") = option_map (MI FHEA) (look profile_t (long_name FHEA n)).
Proof. exact hea_name_lemma. Qed.
Print Assumptions C306_hea_name.
Theorem C306_heb_name : forall bl bm n, blank_text bl -> blank_text bm ->
  make_section ("HE" ++ bl ++ dec n ++ bm ++ "B") =
  Some (match look profile_t (long_name FHEB n) with Some e => MI FHEB e | None => MOwn FHEB n end).
Proof. exact heb_name_lemma. Qed.
Print Assumptions C306_heb_name.
Theorem C306_other_h_raises : forall bl bm n l, blank_text bl -> blank_text bm -> word n -> word l -> l <> "A" -> l <> "B" ->
  make_section ("HE" ++ bl ++ n ++ bm ++ l) = None.
Proof. exact h_other_lemma. Qed.
Print Assumptions C306_other_h_raises.
Theorem C306_other_family_raises : forall w bl rest, word w -> blank_text bl -> w <> "IPE" -> w <> "RHS" -> w <> "HE" -> make_section (w ++ bl ++ rest) = None.
Proof. exact family_other_lemma. Qed.
Print Assumptions C306_other_family_raises.
Example C306_ex : make_section "IPE 200" = Some (MI FIPE (2000, 1000, 56, 85, 120)%Z) /\ make_section "IPE 210" = None /\
  make_section "HE 200 A" = Some (MI FHEA (1900, 2000, 65, 100, 180)%Z) /\ make_section "HE 105 A" = None /\ make_section "HE 105 B" = Some (MOwn FHEB 105) /\
  make_section "HE 200 M" = None /\ make_section "CHS 100x5" = None.
Proof.
  split; [exact (C306_ipe_name " " 200 ex_sp)|]. split; [exact (C306_ipe_name " " 210 ex_sp)|]. split; [exact (C306_hea_name " " " " 200 ex_sp ex_sp)|].
  split; [exact (C306_hea_name " " " " 105 ex_sp ex_sp)|]. split; [exact (C306_heb_name " " " " 105 ex_sp ex_sp)|]. split.
  - apply (C306_other_h_raises " " " " "200" "M" ex_sp ex_sp); try discriminate; apply lit_word; reflexivity || discriminate.
  - apply (C306_other_family_raises "CHS" " " "100x5"); try exact ex_sp; try discriminate; apply lit_word; reflexivity || discriminate.
Qed.

(** C307 *)
Theorem C307_ipe_list_made : forall k e, In (k, e) ipe_t -> make_section k = Some (MI FIPE e).
Proof. exact ipe_made. Qed.
Print Assumptions C307_ipe_list_made.
Theorem C307_hea_list_made : forall k e, In (k, e) hea_t -> make_section k = Some (MI FHEA e).
Proof. exact hea_made. Qed.
Print Assumptions C307_hea_list_made.
Theorem C307_heb_list_made : forall k e, In (k, e) heb_t -> make_section k = Some (MI FHEB e).
Proof. exact heb_made. Qed.
Print Assumptions C307_heb_list_made.
Theorem C307_rhs_list_made : forall k h b t r, In (k, (h, b, t, r)) rhs_t -> make_section k = Some (MR h b t).
Proof. exact rhs_made. Qed.
Print Assumptions C307_rhs_list_made.
Theorem C307_lists_made : forall t keys k, profile_list t = Some keys -> In k keys ->
  (make_section k <> None <-> t = "IPE" \/ t = "HEA" \/ t = "HEB" \/ t = "RHS" \/ (t = "H" /\ (In k (map fst hea_t) \/ In k (map fst heb_t)))).
Proof. exact made_lists_lemma. Qed.
Print Assumptions C307_lists_made.
Theorem C307_square_list_refuted : forall k e, In (k, e) shs_t -> make_section k = None.
Proof. exact shs_made. Qed.
Print Assumptions C307_square_list_refuted.
Theorem C307_circular_list_refuted : forall k e, In (k, e) chs_t -> make_section k = None.
Proof. exact chs_made. Qed.
Print Assumptions C307_circular_list_refuted.
Example C307_ex : make_section "RHS 50x30x3.0" = Some (MR 500 300 30) /\ (exists keys, profile_list "H" = Some keys /\ In "HE 200 M" keys) /\ make_section "HE 200 M" = None.
Proof.
  split; [|split].
  - apply (C307_rhs_list_made "RHS 50x30x3.0" 500 300 30 600). apply look_in. vm_compute. reflexivity.
  - eexists. split; [reflexivity|]. apply in_map_iff. exists ("HE 200 M", (2200, 2060, 150, 250, 180)%Z). split; [reflexivity|]. apply look_in. vm_compute. reflexivity.
  - vm_compute. reflexivity.
Qed.

(** C308 *)
Theorem C308_formula_valid : forall f H tf tw b r, 40 <= H <= 10000 -> formula f H = (tf, tw, b, r) -> valid_I H b tf tw r.
Proof. exact formula_valid_lemma. Qed.
Print Assumptions C308_formula_valid.
Theorem C308_formula_monotone : forall f H1 H2 tf1 tw1 b1 r1 tf2 tw2 b2 r2, H1 <= H2 -> formula f H1 = (tf1, tw1, b1, r1) -> formula f H2 = (tf2, tw2, b2, r2) ->
  tf1 <= tf2 /\ tw1 <= tw2 /\ r1 <= r2 /\ (f <> FHEM -> b1 <= b2).
Proof. exact formula_mono_lemma. Qed.
Print Assumptions C308_formula_monotone.
Theorem C308_area_monotone : forall f H1 H2 tf1 tw1 b1 r1 tf2 tw2 b2 r2, 40 <= H1 -> H1 < H2 -> H2 <= 10000 -> formula f H1 = (tf1, tw1, b1, r1) -> formula f H2 = (tf2, tw2, b2, r2) ->
  area_parts H1 b1 tf1 tw1 r1 < area_parts H2 b2 tf2 tw2 r2.
Proof. exact area_formula_lemma. Qed.
Print Assumptions C308_area_monotone.
Theorem C308_width_drop_refuted : forall H tf tw b r tf' tw' b' r', 340 < H -> formula FHEM 340 = (tf, tw, b, r) -> formula FHEM H = (tf', tw', b', r') -> b' < b - 6 /\ tf < tf' /\ tw < tw'.
Proof. exact hem_width_lemma. Qed.
Print Assumptions C308_width_drop_refuted.
Theorem C308_accuracy : forall f n h b tw tf r tf' tw' b' r' p1 p2 p3 p4, In (long_name f n, (h, b, tw, tf, r)) profile_t -> formula f (mm h) = (tf', tw', b', r') ->
  tolerance f = (p1, p2, p3, p4) ->
  close (IZR p1 / 100) tf' (mm tf) /\ close (IZR p2 / 100) tw' (mm tw) /\ close (IZR p3 / 100) b' (mm b) /\ close (IZR p4 / 100) r' (mm r).
Proof. exact accuracy_lemma. Qed.
Print Assumptions C308_accuracy.
Theorem C308_ipe_radius_refuted : forall n h b tw tf r tf' tw' b' r', In (long_name FIPE n, (h, b, tw, tf, r)) profile_t -> formula FIPE (mm h) = (tf', tw', b', r') ->
  r' = tw' /\ r' < mm r * (84/100).
Proof. exact ipe_radius_lemma. Qed.
Print Assumptions C308_ipe_radius_refuted.
Example C308_ex : valid_I 200 (3486/10000 * 200 + 30178/1000) (256/10000 * 200 + 32831/10000) (155/10000 * 200 + 24921/10000) (155/10000 * 200 + 24921/10000) /\
  In (long_name FIPE 200, (2000, 1000, 56, 85, 120)%Z) profile_t.
Proof. split; [apply (C308_formula_valid FIPE 200); [lra|reflexivity]|]. apply look_in. vm_compute. reflexivity. Qed.

(** C309 *)
Theorem C309_catalogue_true : forall f n x, f <> FHEB -> new_I f n true = Some x ->
  exists h b tw tf r, In (long_name f n, (h, b, tw, tf, r)) profile_t /\ x = (mm h, (mm tf, mm tw, mm b, mm r)).
Proof. exact catalogue_true_lemma. Qed.
Print Assumptions C309_catalogue_true.
Theorem C309_catalogue_false : forall f n x, new_I f n false = Some x ->
  (f = FIPE \/ f = FHEB) /\ (exists e, In (long_name f n, e) profile_t) /\ new_I f n true = Some x \/
  ((f = FIPE \/ f = FHEB) -> ~ exists e, In (long_name f n, e) profile_t) /\ x = (IZR (Z.of_N n), formula f (IZR (Z.of_N n))).
Proof. exact catalogue_false_lemma. Qed.
Print Assumptions C309_catalogue_false.
Theorem C309_height : forall f n H x, (exists e, In (long_name f n, e) profile_t) -> new_I f n true = Some (H, x) ->
  match f with FIPE | FHEB => H = IZR (Z.of_N n) | FHEA | FHEAA => H < IZR (Z.of_N n) | FHEC | FHEM => IZR (Z.of_N n) < H end.
Proof. exact height_lemma. Qed.
Print Assumptions C309_height.
Example C309_ex : new_I FHEA 200 true = Some (190, (10, 65/10, 200, 18)) /\ (exists x, new_I FHEA 200 false = Some (200, x)) /\ new_I FHEB 200 false = new_I FHEB 200 true.
Proof.
  split; [|split].
  - assert (H : In (long_name FHEA 200, (1900, 2000, 65, 100, 180)%Z) profile_t) by (apply look_in; vm_compute; reflexivity).
    rewrite (entry_new FHEA 200 _ _ _ _ _ H). unfold mm. repeat f_equal; lra.
  - eexists. reflexivity.
  - assert (H : In (long_name FHEB 200, (2000, 2000, 90, 150, 180)%Z) profile_t) by (apply look_in; vm_compute; reflexivity).
    destruct (C309_catalogue_false FHEB 200 (mm 2000, (mm 150, mm 90, mm 2000, mm 180))) as [(_ & _ & E)|[K _]].
    + unfold new_I. rewrite iname_long, (in_look _ _ _ (proj1 once_lemma) H). reflexivity.
    + rewrite E. unfold new_I. rewrite iname_long, (in_look _ _ _ (proj1 once_lemma) H). reflexivity.
    + elim K; [now right|]. eauto.
Qed.

(** C310 *)
Theorem C310_names_once : once profile_t /\ once ipe_t /\ once hea_t /\ once heb_t /\ once h_t /\ once rhs_t /\ once shs_t /\ once chs_t /\ once isections_t /\ once data_t /\
  once mat_t /\ once steels_t /\ once f2d_t /\ once msteel_t.
Proof. exact once_lemma. Qed.
Print Assumptions C310_names_once.
Theorem C310_tables : within ipe_t profile_t /\ within hea_t profile_t /\ within heb_t profile_t /\ within h_t profile_t /\
  (forall k e, In (k, e) profile_t -> In (k, e) ipe_t \/ In (k, e) h_t) /\ within hea_t h_t /\ within heb_t h_t.
Proof. exact tables_lemma. Qed.
Print Assumptions C310_tables.
Theorem C310_family_lists : forall n e, (In (long_name FIPE n, e) profile_t <-> In (long_name FIPE n, e) ipe_t) /\
  (In (long_name FHEA n, e) profile_t <-> In (long_name FHEA n, e) hea_t) /\ (In (long_name FHEB n, e) profile_t <-> In (long_name FHEB n, e) heb_t).
Proof. exact family_lists_lemma. Qed.
Print Assumptions C310_family_lists.
Theorem C310_valid : forall k e, In (k, e) profile_t -> valid_Z e.
Proof. exact valid_table_lemma. Qed.
Print Assumptions C310_valid.
Theorem C310_tubes : forall k h b t r, In (k, (h, b, t, r)) rhs_t \/ In (k, (h, b, t, r)) shs_t ->
  r = tube_radius t /\ (0 < t /\ 2 * r < 10 * h /\ 2 * r < 10 * b)%Z.
Proof. exact tube_table_lemma. Qed.
Print Assumptions C310_tubes.
Theorem C310_square_round : (forall k h b t r, In (k, (h, b, t, r)) shs_t -> h = b) /\ (forall k d t, In (k, (d, t)) chs_t -> (0 < t /\ 2 * t < d)%Z).
Proof. exact square_table_lemma. Qed.
Print Assumptions C310_square_round.
Theorem C310_sorted : StronglySorted Rlt (map (fun e => entry_area (snd e)) ipe_t) /\ StronglySorted Rlt (map (fun e => entry_area (snd e)) hea_t) /\
  StronglySorted Rlt (map (fun e => entry_area (snd e)) heb_t).
Proof. exact sorted_lists_lemma. Qed.
Print Assumptions C310_sorted.
Theorem C310_isections : forall f n e, In (short_name f n, e) isections_t -> In (long_name f n, e) profile_t.
Proof. exact isections_lemma. Qed.
Print Assumptions C310_isections.
Theorem C310_isections_names : forall k e, In (k, e) isections_t -> exists f n, k = short_name f n /\ f <> FHEAA /\ f <> FHEC.
Proof. exact isections_names_lemma. Qed.
Print Assumptions C310_isections_names.
Theorem C310_profile_data_refuted : (forall k e, k <> "IPE 750" -> In (k, e) data_t <-> In (k, e) profile_t) /\
  (forall h b tw tf r, In ("IPE 750", (h, b, tw, tf, r)) profile_t -> forall e, In ("IPE 750", e) data_t <-> e = (1340%Z, h, b, tw, tf)).
Proof. exact data_lemma. Qed.
Print Assumptions C310_profile_data_refuted.
Example C310_ex : In (short_name FHEM 200, (2200, 2060, 150, 250, 180)%Z) isections_t /\ In ("IPE 750", (1340, 7500, 2640, 120, 155)%Z) data_t.
Proof. split; apply look_in; vm_compute; reflexivity. Qed.

(** C311 *)
Theorem C311_same_formulas : forall h b tf tw r,
  f_area h b tf tw r = I_area b h tf tw r /\ f_Avz h b tf tw r = I_shear b h tf tw r /\ f_Iy h b tf tw r = I_Iy b h tf tw r /\ f_Iz h b tf tw r = I_Iz b h tf tw r /\
  f_Iw h b tf tw r = I_Iw b h tf /\ f_Wply h b tf tw r = I_Wply b h tf tw r /\ f_Wplz h b tf tw r = I_Wplz b h tf tw r /\
  f_Wely h b tf tw r = I_Wely b h tf tw r /\ f_Welz h b tf tw r = I_Welz b h tf tw r.
Proof. exact same_lemma. Qed.
Print Assumptions C311_same_formulas.
Theorem C311_same_torsion : forall h b tf tw r, 0 < tf -> 0 <= r -> f_It h b tf tw r = I_It b h tf tw r.
Proof. exact same_It_lemma. Qed.
Print Assumptions C311_same_torsion.
Theorem C311_area_perimeter : forall h b tf tw r, f_area h b tf tw r = area_parts h b tf tw r /\ f_perimeter h b tf tw r = boundary h b tf tw r /\
  I_paint b h tf tw r = boundary h b tf tw r - 2 * tw.
Proof. exact area_perimeter_lemma. Qed.
Print Assumptions C311_area_perimeter.
Theorem C311_units : forall s h b tf tw r, 0 < s -> 0 < h -> 0 < b -> 0 < tf -> 0 <= r ->
  f_area (s*h) (s*b) (s*tf) (s*tw) (s*r) = s^2 * f_area h b tf tw r /\ f_Avz (s*h) (s*b) (s*tf) (s*tw) (s*r) = s^2 * f_Avz h b tf tw r /\
  f_Avy (s*h) (s*b) (s*tf) (s*tw) (s*r) = s^2 * f_Avy h b tf tw r /\
  f_perimeter (s*h) (s*b) (s*tf) (s*tw) (s*r) = s * f_perimeter h b tf tw r /\ f_Iy (s*h) (s*b) (s*tf) (s*tw) (s*r) = s^4 * f_Iy h b tf tw r /\
  f_Iz (s*h) (s*b) (s*tf) (s*tw) (s*r) = s^4 * f_Iz h b tf tw r /\ f_It (s*h) (s*b) (s*tf) (s*tw) (s*r) = s^4 * f_It h b tf tw r /\
  f_Iw (s*h) (s*b) (s*tf) (s*tw) (s*r) = s^6 * f_Iw h b tf tw r /\ f_Wply (s*h) (s*b) (s*tf) (s*tw) (s*r) = s^3 * f_Wply h b tf tw r /\
  f_Wplz (s*h) (s*b) (s*tf) (s*tw) (s*r) = s^3 * f_Wplz h b tf tw r /\ f_Wely (s*h) (s*b) (s*tf) (s*tw) (s*r) = s^3 * f_Wely h b tf tw r /\
  f_Welz (s*h) (s*b) (s*tf) (s*tw) (s*r) = s^3 * f_Welz h b tf tw r.
Proof. exact units_lemma. Qed.
Print Assumptions C311_units.
Theorem C311_moduli_y : forall h b tf tw r, valid_I h b tf tw r -> 0 < f_Wely h b tf tw r < f_Wply h b tf tw r.
Proof. exact wy_lemma. Qed.
Print Assumptions C311_moduli_y.
Theorem C311_moduli_z : forall h b tf tw r, valid_I h b tf tw r -> 0 < f_Welz h b tf tw r < f_Wplz h b tf tw r.
Proof. exact wz_lemma. Qed.
Print Assumptions C311_moduli_z.
Theorem C311_shear : forall h b tf tw r, valid_I h b tf tw r -> (h - 2 * tf) * tw < f_Avz h b tf tw r < f_area h b tf tw r /\ f_Avy h b tf tw r < f_area h b tf tw r.
Proof. exact shear_bounds_lemma. Qed.
Print Assumptions C311_shear.
Theorem C311_gyration : forall h b tf tw r, valid_I h b tf tw r -> 0 < f_iy h b tf tw r < h / 2 /\ 0 < f_iz h b tf tw r < b / 2.
Proof. exact gyration_lemma. Qed.
Print Assumptions C311_gyration.
Example C311_ex : valid_I 200 100 (85/10) (56/10) 12 /\ 0 < f_Wely 200 100 (85/10) (56/10) 12 < f_Wply 200 100 (85/10) (56/10) 12.
Proof. assert (V : valid_I 200 100 (85/10) (56/10) 12) by (unfold valid_I; lra). split; [exact V|]. now apply C311_moduli_y. Qed.

(** C312 *)
Theorem C312_agree : agree mat_t steels_t /\ agree mat_t f2d_t /\ agree mat_t msteel_t /\ agree steels_t f2d_t /\ agree steels_t msteel_t /\ agree f2d_t msteel_t.
Proof. exact materials_lemma. Qed.
Print Assumptions C312_agree.
Theorem C312_values : forall k fy fu E, In (k, (fy, fu, E)) mat_t \/ In (k, (fy, fu, E)) steels_t \/ In (k, (fy, fu, E)) f2d_t \/ In (k, (fy, fu, E)) msteel_t ->
  (0 < fy < fu /\ E = 210000 /\ (k <> "S700" -> k <> "S700MC" -> 11 * fy <= 10 * fu))%Z.
Proof. exact material_values_lemma. Qed.
Print Assumptions C312_values.
Theorem C312_ductility_refuted : exists fy fu E, In ("S700MC", (fy, fu, E)) mat_t /\ In ("S700MC", (fy, fu, E)) f2d_t /\ (10 * fu < 11 * fy)%Z.
Proof. exact ductility_refuted_lemma. Qed.
Print Assumptions C312_ductility_refuted.
Theorem C312_stainless_modulus_refuted : forall k fy fu E, In (k, (fy, fu, E)) stainless_t <-> E = 200000%Z /\ In (k, (fy, fu, 200%Z)) mstainless_t.
Proof. exact stainless_lemma. Qed.
Print Assumptions C312_stainless_modulus_refuted.
Example C312_ex : In ("S355", (355, 510, 210000)%Z) mat_t /\ In ("S355", (355, 510, 210000)%Z) steels_t /\ In ("cold_strip", (230, 540, 200)%Z) mstainless_t.
Proof. repeat split; apply look_in; vm_compute; reflexivity. Qed.
