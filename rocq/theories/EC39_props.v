(** C184, C185: resistances and interaction factors of EN 1993-1-1; also C50. *)
From Verif Require Import Base EC3_proofs EC39_spec EC39_proofs.
From Verif Require Import EC3_model.

(** C50: Table 6.1 *)
Theorem C50_curve_table : forall c, 100 * buckling_curve c = match c with a0 => 13 | ca => 21 | cb => 34 | cc => 49 | cd => 76 end.
Proof. exact curve_table_lemma. Qed.
Print Assumptions C50_curve_table.

(** C184 *)
Theorem C184_resistances : forall A fy, 
  tension_resistance A fy = A * fy /\ compression_resistance A fy = A * fy /\ bending_resistance A fy = A * fy /\
  (forall fu, net_section_resistance A fu = 72/100 * (A * fu)) /\
  3 * shear_resistance A fy ^ 2 = (A * fy) ^ 2 /\ (0 <= A * fy -> 0 <= shear_resistance A fy <= A * fy) /\
  (forall chi, buckling_strength A fy chi = chi * compression_resistance A fy).
Proof. exact resistances_lemma. Qed.
Print Assumptions C184_resistances.
Theorem C184_slenderness : forall A fy Ncr, 0 < Ncr -> 0 <= A * fy -> exists l, slenderness A fy Ncr = Some l /\ 0 <= l /\ l ^ 2 * Ncr = A * fy.
Proof. exact slenderness_lemma. Qed.
Print Assumptions C184_slenderness.
Example C184_ex : 0 <= shear_resistance 10 355 <= 3550.
Proof. replace 3550 with (10 * 355) by ring. apply (resistances_lemma 10 355). lra. Qed.

(** C185 *)
Theorem C185_plastic : forall C n l cls hollow, 0 <= C -> 0 <= n -> (cls < 3)%nat ->
  kyy n l C cls = Rmin (C * (1 + (l - 2/10) * n)) (C * (1 + 8/10 * n)) /\
  kzz n l C cls hollow = (if hollow then Rmin (C * (1 + (l - 2/10) * n)) (C * (1 + 8/10 * n))
                          else Rmin (C * (1 + (2 * l - 6/10) * n)) (C * (1 + 14/10 * n))) /\
  (forall k, kyz k cls = 6/10 * k /\ forall CLT, kzy k n l CLT cls false = Some (6/10 * k)).
Proof. exact table_B1_lemma. Qed.
Print Assumptions C185_plastic.
Theorem C185_elastic : forall C n l cls hollow, 0 <= C -> 0 <= n -> 0 <= l -> (3 <= cls)%nat ->
  let B1 := Rmin (C * (1 + 6/10 * l * n)) (C * (1 + 6/10 * n)) in
  kyy n l C cls = kzz n l C cls hollow /\ B1 <= kyy n l C cls <= C * (1 + 6/10 * n) /\ (1 <= l -> kyy n l C cls = B1) /\ (l <= 6/10 -> kyy n l C cls = C * (1 + l * n)) /\
  (forall k, kyz k cls = k /\ forall CLT, kzy k n l CLT cls false = Some (8/10 * k)).
Proof. exact table_B1_elastic_lemma. Qed.
Print Assumptions C185_elastic.
Theorem C185_torsion : forall k n l CLT cls, 0 <= n -> 0 <= l -> 1/4 < CLT ->
  let f := fun a => 1 - a / (CLT - 1/4) * n in
  kzy k n l CLT cls true = Some (if (cls <? 3)%nat then (if Rlt_dec l (4/10) then Rmin (6/10 + l) (f (1/10 * l)) else Rmax (f (1/10 * l)) (f (1/10)))
                                 else Rmax (f (5/100 * l)) (f (5/100))).
Proof. exact table_B2_lemma. Qed.
Print Assumptions C185_torsion.
Theorem C185_utility : forall UN My k chi Mz, 0 < chi -> exists u, beam_column_utility UN My k chi Mz = Some u /\ chi * (u - UN - Mz) = k * My.
Proof. exact utility_value_lemma. Qed.
Print Assumptions C185_utility.
Example C185_ex : kyy (1/2) 2 1 1 = 1 + 4/10.
Proof. destruct (table_B1_lemma 1 (1/2) 2 1 true) as (-> & _); [lra|lra|lia|]. rewrite Rmin_right; lra. Qed.

(** C203 *)
Theorem C203_table_B3 : forall M0 M1 Ms uni, let Mh := if Rlt_dec (Rabs M1) (Rabs M0) then M0 else M1 in
  let p := psi M0 M1 in 1/1000000 <= Rabs (Ms - (M0 + M1) / 2) -> 1/1000000 <= Rabs Mh ->
  (Ms <> 0 -> Rabs Ms <= Rabs Mh -> equivalent_moment_factor M0 M1 (Some Ms) uni = B3_sag (Ms / Mh) p uni) /\
  (Rabs Mh < Rabs Ms -> equivalent_moment_factor M0 M1 (Some Ms) uni = B3_hog (Mh / Ms) p uni).
Proof. exact table_B3_lemma. Qed.
Print Assumptions C203_table_B3.
Theorem C203_simple_span : forall M0 M1 Ms uni, 1/1000000 <= Rabs (Ms - (M0 + M1) / 2) ->
  (Rabs M0 < 1/1000000 /\ Rabs M1 < 1/1000000) \/ Ms = 0 -> equivalent_moment_factor M0 M1 (Some Ms) uni = if uni then 95/100 else 9/10.
Proof. exact table_B3_simple_lemma. Qed.
Print Assumptions C203_simple_span.
Example C203_ex : equivalent_moment_factor 0 10 (Some 8) true = 84/100.
Proof.
  assert (R8 : Rabs 8 = 8) by (apply Rabs_pos_eq; lra). assert (R10 : Rabs 10 = 10) by (apply Rabs_pos_eq; lra).
  pose proof (table_B3_lemma 0 10 8 true) as H. cbv zeta in H. rewrite Rabs_R0, R10 in H. destruct (Rlt_dec 10 0); [lra|]. rewrite R8, R10 in H.
  destruct H as [E _]; [replace (8 - (0 + 10) / 2) with 3 by lra; rewrite Rabs_pos_eq; lra|lra|].
  rewrite E by lra. unfold B3_sag. destruct (Rle_dec 0 (8 / 10)); [|lra]. rewrite Rmax_right; lra.
Qed.
