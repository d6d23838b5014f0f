(** C48 to C54, C100: EN 1993-1-1 rules. *)
From Verif Require Import EC3_spec EC3_proofs.

(** C48 *)
Theorem C48_unique : forall l1 l2 l3 r c c', l1 <= l2 ->
  table_class l1 l2 l3 r c -> table_class l1 l2 l3 r c' -> c = c'.
Proof. exact table_class_unique. Qed.
Print Assumptions C48_unique.
Theorem C48_internal_bending : forall r e, table_class (72 * e) (83 * e) (124 * e) r (internal_part_in_bending r e).
Proof. exact bending_table_lemma. Qed.
Print Assumptions C48_internal_bending.
Theorem C48_internal_compression : forall r e, 0 < e <= 1 ->
  table_class (33 * e) (38 * e) (42 * e) r (internal_part_in_compression r e).
Proof. exact compression_table_lemma. Qed.
Print Assumptions C48_internal_compression.
Theorem C48_outstand_compression : forall r e, 0 < e <= 1 ->
  table_class (9 * e) (10 * e) (14 * e) r (outstand_part_in_compression r e).
Proof. exact outstand_table_lemma. Qed.
Print Assumptions C48_outstand_compression.
Theorem C48_circular : forall r e, table_class (50 * e ^ 2) (70 * e ^ 2) (90 * e ^ 2) r (CHS_class r e).
Proof. exact chs_table_lemma. Qed.
Print Assumptions C48_circular.
Theorem C48_internal_combined : forall r e a p, 0 < e <= 1 -> 0 < a ->
  table_class (lim1 e a) (lim2 e a) (lim3 e p) r (internal_part_comp_bend r e a p).
Proof. exact comp_bend_table_lemma. Qed.
Print Assumptions C48_internal_combined.
Theorem C48_internal_tension : forall r e p, internal_part_comp_bend r e 0 p = 1%nat.
Proof. exact comp_bend_tension_lemma. Qed.
Print Assumptions C48_internal_tension.
Theorem C48_monotone : forall e a p, 0 < e <= 1 -> 0 <= a ->
  (class_mono (fun r => internal_part_in_bending r e) /\ class_range (fun r => internal_part_in_bending r e)) /\
  (class_mono (fun r => internal_part_in_compression r e) /\ class_range (fun r => internal_part_in_compression r e)) /\
  (class_mono (fun r => outstand_part_in_compression r e) /\ class_range (fun r => outstand_part_in_compression r e)) /\
  (class_mono (fun r => CHS_class r e) /\ class_range (fun r => CHS_class r e)) /\
  (class_mono (fun r => internal_part_comp_bend r e a p) /\ class_range (fun r => internal_part_comp_bend r e a p)).
Proof. exact class_mono_lemma. Qed.
Print Assumptions C48_monotone.
Example C48_ex : internal_part_in_bending 80 1 = 2%nat /\ CHS_class 95 1 = 4%nat /\ internal_part_in_compression 40 1 = 3%nat.
Proof. unfold internal_part_in_bending, CHS_class, internal_part_in_compression, conv, Rltb, Rleb. repeat split; repeat (destruct (Rlt_dec _ _); try lra); repeat (destruct (Rle_dec _ _); try lra); auto; try lra. Qed.

(** C49 *)
Theorem C49_from_S235_partial : forall fy r a p, 235 <= fy -> 0 < a -> exists e, epsilon fy = Some e /\
  table_class (33 * eps_of fy) (38 * eps_of fy) (42 * eps_of fy) r (internal_part_in_compression r e) /\
  table_class (9 * eps_of fy) (10 * eps_of fy) (14 * eps_of fy) r (outstand_part_in_compression r e) /\
  table_class (72 * eps_of fy) (83 * eps_of fy) (124 * eps_of fy) r (internal_part_in_bending r e) /\
  table_class (lim1 (eps_of fy) a) (lim2 (eps_of fy) a) (lim3 (eps_of fy) p) r (internal_part_comp_bend r e a p).
Proof. exact grades_235_lemma. Qed.
Print Assumptions C49_from_S235_partial.
Theorem C49_yield_strength_argument_partial : forall fy r, 235 <= fy ->
  internal_part_in_compression r fy = internal_part_in_compression r (eps_of fy) /\
  outstand_part_in_compression r fy = outstand_part_in_compression r (eps_of fy) /\
  forall a p, internal_part_comp_bend r fy a p = internal_part_comp_bend r (eps_of fy) a p.
Proof. exact yield_argument_lemma. Qed.
Print Assumptions C49_yield_strength_argument_partial.
Theorem C49_bending_and_tubes_all_grades_partial : forall fy r, 0 < fy -> exists e, epsilon fy = Some e /\
  table_class (72 * eps_of fy) (83 * eps_of fy) (124 * eps_of fy) r (internal_part_in_bending r e) /\
  table_class (50 * 235 / fy) (70 * 235 / fy) (90 * 235 / fy) r (CHS_class r e).
Proof. exact all_grades_lemma. Qed.
Print Assumptions C49_bending_and_tubes_all_grades_partial.
(** Finding: steels weaker than S235. *)
Theorem C49_below_S235_refuted : forall fy, 20 < fy < 235 -> exists e r r', epsilon fy = Some e /\
  table_class (33 * eps_of fy) (38 * eps_of fy) (42 * eps_of fy) r 4 /\ internal_part_in_compression r e = 1%nat /\
  table_class (9 * eps_of fy) (10 * eps_of fy) (14 * eps_of fy) r' 4 /\ outstand_part_in_compression r' e = 1%nat.
Proof. exact soft_grades_refuted_lemma. Qed.
Print Assumptions C49_below_S235_refuted.
Example C49_ex : 235 <= 355 /\ 20 < 200 < 235.
Proof. lra. Qed.

(** C50 *)
Theorem C50_curves : forall c, 0 <= buckling_curve c <= 1.
Proof. exact curve_range. Qed.
Print Assumptions C50_curves.
Theorem C50_proper : forall al l, 0 <= al <= 1 -> 0 <= l -> exists chi, buckling_reduction_factor l al = Some chi /\
  0 < chi <= 1 /\ (l <= 2/10 -> chi = 1) /\ chi * l ^ 2 <= 1 /\ (2/10 <= l -> perry al l (1 / chi)).
Proof. exact chi_proper_lemma. Qed.
Print Assumptions C50_proper.
Theorem C50_strength : forall A fy Ncr al, 0 < A -> 0 < fy -> 0 < Ncr -> 0 <= al <= 1 -> exists l chi,
  slenderness A fy Ncr = Some l /\ buckling_reduction_factor l al = Some chi /\
  0 < buckling_strength A fy chi <= compression_resistance A fy /\ buckling_strength A fy chi <= Ncr.
Proof. exact strength_lemma. Qed.
Print Assumptions C50_strength.
Example C50_ex : buckling_reduction_factor 0 (49/100) = Some 1.
Proof. destruct (chi_proper_lemma (49/100) 0) as (c & -> & _ & H & _); [lra|lra|]. rewrite H; auto; lra. Qed.

(** C51 *)
Theorem C51_monotone : forall al al' l l' chi chi', 0 <= al <= al' -> al' <= 1 -> 0 <= l <= l' ->
  buckling_reduction_factor l al = Some chi -> buckling_reduction_factor l' al' = Some chi' -> chi' <= chi.
Proof. exact chi_mono_lemma. Qed.
Print Assumptions C51_monotone.
Theorem C51_strict : forall al l l' chi chi', 0 < al <= 1 -> 2/10 <= l < l' ->
  buckling_reduction_factor l al = Some chi -> buckling_reduction_factor l' al = Some chi' -> chi' < chi.
Proof. exact chi_strict_lemma. Qed.
Print Assumptions C51_strict.
Example C51_ex : exists c c', buckling_reduction_factor 1 (21/100) = Some c /\ buckling_reduction_factor 2 (21/100) = Some c' /\ c' < c.
Proof.
  destruct (chi_proper_lemma (21/100) 1) as (c & E & _); [lra|lra|]. destruct (chi_proper_lemma (21/100) 2) as (c' & E' & _); [lra|lra|].
  exists c, c'. repeat split; auto. eapply chi_strict_lemma; [| |exact E|exact E']; lra.
Qed.

(** C52 *)
Theorem C52_range : forall M0 M1 Ms u, 4/10 <= equivalent_moment_factor M0 M1 Ms u <= 1.
Proof. exact cm_range_lemma. Qed.
Print Assumptions C52_range.

(** C53 *)
Theorem C53_sign : forall M0 M1 Ms u, equivalent_moment_factor (- M0) (- M1) (option_map Ropp Ms) u = equivalent_moment_factor M0 M1 Ms u.
Proof. exact cm_sign_lemma. Qed.
Print Assumptions C53_sign.
Theorem C53_orientation : forall M0 M1 Ms u, resolved M0 -> resolved M1 ->
  equivalent_moment_factor M1 M0 Ms u = equivalent_moment_factor M0 M1 Ms u.
Proof. exact cm_swap_lemma. Qed.
Print Assumptions C53_orientation.
(** Finding: end moments below the threshold of 1e-6 but not zero. *)
Theorem C53_orientation_refuted : exists M0 M1,
  equivalent_moment_factor M1 M0 None true <> equivalent_moment_factor M0 M1 None true.
Proof. exact cm_swap_refuted_lemma. Qed.
Print Assumptions C53_orientation_refuted.
Example C53_ex : resolved 0 /\ resolved (-5).
Proof. split; [left; auto|right]. rewrite Rabs_left; lra. Qed.

(** C54 *)
Theorem C54_utility : forall UN UN' My My' Mz Mz' ky ky' cLT U U', 0 < cLT -> 0 <= ky <= ky' ->
  UN <= UN' -> 0 <= My <= My' -> Mz <= Mz' ->
  beam_column_utility UN My ky cLT Mz = Some U -> beam_column_utility UN' My' ky' cLT Mz' = Some U' -> U <= U'.
Proof. exact utility_mono_lemma. Qed.
Print Assumptions C54_utility.
Theorem C54_kyy : forall UN UN' sl Cm cls, 0 <= Cm -> 2/10 <= sl -> UN <= UN' -> kyy UN sl Cm cls <= kyy UN' sl Cm cls.
Proof. exact kyy_mono_lemma. Qed.
Print Assumptions C54_kyy.
Theorem C54_kyy_slenderness : forall UN sl sl' Cm cls, 0 <= Cm -> 0 <= UN -> sl <= sl' -> kyy UN sl Cm cls <= kyy UN sl' Cm cls.
Proof. exact kyy_slend_lemma. Qed.
Print Assumptions C54_kyy_slenderness.
Theorem C54_kzz_partial : forall UN UN' sl Cm cls h, 0 <= Cm -> 2/10 <= sl -> (h = false -> 3/10 <= sl) -> UN <= UN' ->
  kzz UN sl Cm cls h <= kzz UN' sl Cm cls h.
Proof. exact kzz_mono_lemma. Qed.
Print Assumptions C54_kzz_partial.
Theorem C54_utility_major_partial : forall UN UN' My My' sl Cm cls cLT U U', 0 < cLT -> 0 <= Cm -> 2/10 <= sl ->
  0 <= UN <= UN' -> 0 <= My <= My' ->
  beam_column_utility UN My (kyy UN sl Cm cls) cLT 0 = Some U ->
  beam_column_utility UN' My' (kyy UN' sl Cm cls) cLT 0 = Some U' -> U <= U'.
Proof. exact utility_661_lemma. Qed.
Print Assumptions C54_utility_major_partial.
Theorem C54_kzy_stocky_torsion_partial : forall ky ky' UN UN' sl CmLT cls k k', ky <= ky' ->
  kzy ky UN sl CmLT cls false = Some k -> kzy ky' UN' sl CmLT cls false = Some k' -> k <= k'.
Proof. exact kzy_nontorsion_lemma. Qed.
Print Assumptions C54_kzy_stocky_torsion_partial.
Theorem C54_kzy_torsion_decreases_refuted : forall ky UN UN' sl CmLT cls k k', 1/4 < CmLT -> 0 <= sl -> 0 <= UN <= UN' ->
  kzy ky UN sl CmLT cls true = Some k -> kzy ky UN' sl CmLT cls true = Some k' -> k' <= k <= 1.
Proof. exact kzy_torsion_lemma. Qed.
Print Assumptions C54_kzy_torsion_decreases_refuted.
(** Finding: open sections with slenderness between 0.2 and 0.3. *)
Theorem C54_kzz_refuted : forall sl, 2/10 <= sl < 3/10 -> forall UN UN' Cm, 0 < Cm -> UN < UN' ->
  kzz UN' sl Cm 1 false < kzz UN sl Cm 1 false.
Proof. exact kzz_refuted_lemma. Qed.
Print Assumptions C54_kzz_refuted.
Example C54_ex : kzz (1/2) (25/100) (9/10) 1 false < kzz (1/4) (25/100) (9/10) 1 false.
Proof. apply kzz_refuted_lemma; lra. Qed.

(** C100 *)
Theorem C100_range : forall h m, 0 < h -> 1 <= m -> exists phi, sway_imperfection h m = Some phi /\
  1/200 * (2/3) * sqrt (1/2) < phi <= 1/200.
Proof. exact sway_lemma. Qed.
Print Assumptions C100_range.
Theorem C100_monotone : forall h h' m m' p p', 0 < h <= h' -> 1 <= m <= m' ->
  sway_imperfection h m = Some p -> sway_imperfection h' m' = Some p' -> p' <= p.
Proof. exact sway_mono_lemma. Qed.
Print Assumptions C100_monotone.
Example C100_ex : exists p, sway_imperfection 4 1 = Some p /\ p <= 1/200.
Proof. destruct (sway_lemma 4 1) as (p & E & H); [lra|lra|]. exists p. split; auto. lra. Qed.
