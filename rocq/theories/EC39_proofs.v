From Verif Require Import Base EC3_proofs.
From Verif Require Import EC3_model.
From Verif Require Import EC39_spec.

Lemma curve_table_lemma : forall c, 100 * buckling_curve c = match c with a0 => 13 | ca => 21 | cb => 34 | cc => 49 | cd => 76 end.
Proof. intros []; simpl; lra. Qed.
(* EN 1993-1-1, 6.2.3 - 6.2.6, with the partial factors 1.0 and 1.25 *)
Lemma resistances_lemma : forall A fy, 
  tension_resistance A fy = A * fy /\ compression_resistance A fy = A * fy /\ bending_resistance A fy = A * fy /\
  (forall fu, net_section_resistance A fu = 72/100 * (A * fu)) /\
  3 * shear_resistance A fy ^ 2 = (A * fy) ^ 2 /\ (0 <= A * fy -> 0 <= shear_resistance A fy <= A * fy) /\
  (forall chi, buckling_strength A fy chi = chi * compression_resistance A fy).
Proof.
  intros A fy. unfold tension_resistance, compression_resistance, bending_resistance, net_section_resistance, shear_resistance, buckling_strength, gammaM0, gammaM1, gammaM2.
  assert (S3 : 0 < sqrt 3) by (apply sqrt_lt_R0; lra). assert (Q : sqrt 3 * sqrt 3 = 3) by (apply sqrt_sqrt; lra).
  split; [field|]. split; [field|]. split; [field|]. split; [intros; field|]. split; [|split; [|intros; field]].
  - replace ((A * fy / sqrt 3 / 1) ^ 2) with ((A * fy) ^ 2 / (sqrt 3 * sqrt 3)) by (field; lra). rewrite Q. field.
  - intros H. replace (A * fy / sqrt 3 / 1) with (A * fy / sqrt 3) by (field; lra). assert (1 <= sqrt 3) by (rewrite <- sqrt_1; apply sqrt_le_1_alt; lra).
    split; [apply Rmult_le_pos; auto; apply Rlt_le, Rinv_0_lt_compat; auto|]. apply Rmult_le_reg_r with (sqrt 3); auto. unfold Rdiv. rewrite Rmult_assoc, Rinv_l by lra. nra.
Qed.
Lemma slenderness_lemma : forall A fy Ncr, 0 < Ncr -> 0 <= A * fy -> exists l, slenderness A fy Ncr = Some l /\ 0 <= l /\ l ^ 2 * Ncr = A * fy.
Proof.
  intros A fy Ncr N H. unfold slenderness, bind, pdiv, psqrt. rewrite (proj2 (Reqb_false _ _)) by lra.
  assert (0 <= A * fy / Ncr) by (apply Rmult_le_pos; auto; apply Rlt_le, Rinv_0_lt_compat; auto). rewrite (proj2 (Rltb_false _ _)) by lra.
  eexists. split; [reflexivity|]. split; [apply sqrt_pos|]. rewrite <- Rsqr_pow2, Rsqr_sqrt by auto. field. lra.
Qed.
Lemma min_scale1 C n a b : 0 <= C * n -> Rmin (C * (1 + a * n)) (C * (1 + b * n)) = C * (1 + Rmin a b * n).
Proof. intros H. unfold Rmin. destruct (Rle_dec (C * (1 + a * n)) (C * (1 + b * n))), (Rle_dec a b); try reflexivity; nra. Qed.
(* EN 1993-1-1 Table B.1 *)
Lemma table_B1_lemma : forall C n l cls hollow, 0 <= C -> 0 <= n -> (cls < 3)%nat ->
  kyy n l C cls = Rmin (C * (1 + (l - 2/10) * n)) (C * (1 + 8/10 * n)) /\
  kzz n l C cls hollow = (if hollow then Rmin (C * (1 + (l - 2/10) * n)) (C * (1 + 8/10 * n))
                          else Rmin (C * (1 + (2 * l - 6/10) * n)) (C * (1 + 14/10 * n))) /\
  (forall k, kyz k cls = 6/10 * k /\ forall CLT, kzy k n l CLT cls false = Some (6/10 * k)).
Proof.
  intros C n l cls hollow HC HN HL. assert (0 <= C * n) by nra. unfold kyy, kzz, kyz, kzy, gammaM1. rewrite (proj2 (Nat.ltb_lt _ _)) by auto.
  rewrite !min_scale1 by auto. split; [unfold Rdiv; rewrite Rinv_1; ring|]. split; [destruct hollow; unfold Rdiv; rewrite Rinv_1; ring|]. auto.
Qed.
(* classes 3 and 4: never below Table B.1, equal to it for slenderness 1 and more *)
Lemma table_B1_elastic_lemma : forall C n l cls hollow, 0 <= C -> 0 <= n -> 0 <= l -> (3 <= cls)%nat ->
  let B1 := Rmin (C * (1 + 6/10 * l * n)) (C * (1 + 6/10 * n)) in
  kyy n l C cls = kzz n l C cls hollow /\ B1 <= kyy n l C cls <= C * (1 + 6/10 * n) /\ (1 <= l -> kyy n l C cls = B1) /\ (l <= 6/10 -> kyy n l C cls = C * (1 + l * n)) /\
  (forall k, kyz k cls = k /\ forall CLT, kzy k n l CLT cls false = Some (8/10 * k)).
Proof.
  intros C n l cls hollow HC HN HL HCl. assert (P : 0 <= C * n) by nra. unfold kyy, kzz, kyz, kzy, gammaM1. rewrite (proj2 (Nat.ltb_ge _ _)) by auto. cbv zeta.
  rewrite min_scale1 by auto. set (m := Rmin l (6/10)). assert (M : m <= 6/10 /\ Rmin (6/10 * l) (6/10) <= m /\ (1 <= l -> m = 6/10 /\ Rmin (6/10 * l) (6/10) = 6/10) /\ (l <= 6/10 -> m = l)).
  { unfold m. split; [apply Rmin_r|]. split; [apply Rmin_glb; [destruct (Rle_dec l 1); [eapply Rle_trans; [apply Rmin_l|lra]|eapply Rle_trans; [apply Rmin_r|lra]]|apply Rmin_r]|]. split; intros; [rewrite !Rmin_right by lra; lra|rewrite Rmin_left; lra]. }
  clearbody m. set (b := Rmin (6/10 * l) (6/10)) in *. clearbody b. destruct M as (M1 & M2 & M3 & M4).
  split; [reflexivity|]. replace (C * (1 + m * n / 1)) with (C + m * (C * n)) by field.
  split; [split; nra|]. split; [intros Q; destruct (M3 Q); subst; ring|]. split; [intros Q; rewrite (M4 Q); ring|]. auto.
Qed.
(* EN 1993-1-1 Table B.2 *)
Lemma table_B2_lemma : forall k n l CLT cls, 0 <= n -> 0 <= l -> 1/4 < CLT ->
  let f := fun a => 1 - a / (CLT - 1/4) * n in
  kzy k n l CLT cls true = Some (if (cls <? 3)%nat then (if Rlt_dec l (4/10) then Rmin (6/10 + l) (f (1/10 * l)) else Rmax (f (1/10 * l)) (f (1/10)))
                                 else Rmax (f (5/100 * l)) (f (5/100))).
Proof.
  intros k n l CLT cls HN HL HC f. unfold kzy, gammaM1, bind, pdiv. rewrite !(proj2 (Reqb_false _ _)) by lra.
  assert (MX : forall c, 0 <= c -> Rmax (f (c * l)) (f c) = 1 - c * Rmin l 1 / (CLT - 1/4) * n / 1).
  { intros c Hc. unfold f. replace (1 - c * Rmin l 1 / (CLT - 1/4) * n / 1) with (1 - c * Rmin l 1 / (CLT - 1/4) * n) by (field; lra).
    assert (P : 0 <= c / (CLT - 1/4) * n) by (apply Rmult_le_pos; auto; apply Rmult_le_pos; auto; apply Rlt_le, Rinv_0_lt_compat; lra).
    replace (c * l / (CLT - 1/4) * n) with (l * (c / (CLT - 1/4) * n)) by (field; lra). replace (c * Rmin l 1 / (CLT - 1/4) * n) with (Rmin l 1 * (c / (CLT - 1/4) * n)) by (field; lra).
    set (q := c / (CLT - 1/4) * n) in *. clearbody q. unfold Rmin. destruct (Rle_dec l 1); [rewrite Rmax_left by nra; ring|rewrite Rmax_right by nra; ring]. }
  destruct (cls <? 3)%nat.
  - unfold Rltb. destruct (Rlt_dec l (4/10)).
    + f_equal. f_equal. unfold f. field. lra.
    + f_equal. symmetry. apply MX. lra.
  - f_equal. symmetry. apply MX. lra.
Qed.
Lemma utility_value_lemma : forall UN My k chi Mz, 0 < chi -> exists u, beam_column_utility UN My k chi Mz = Some u /\ chi * (u - UN - Mz) = k * My.
Proof. intros UN My k chi Mz H. unfold beam_column_utility, bind, pdiv, gammaM1. rewrite (proj2 (Reqb_false _ _)) by lra. eexists. split; [reflexivity|]. field. lra. Qed.
(* EN 1993-1-1 Table B.3 *)
Lemma table_B3_lemma : forall M0 M1 Ms uni, let Mh := if Rlt_dec (Rabs M1) (Rabs M0) then M0 else M1 in
  let p := psi M0 M1 in 1/1000000 <= Rabs (Ms - (M0 + M1) / 2) -> 1/1000000 <= Rabs Mh ->
  (Ms <> 0 -> Rabs Ms <= Rabs Mh -> equivalent_moment_factor M0 M1 (Some Ms) uni = B3_sag (Ms / Mh) p uni) /\
  (Rabs Mh < Rabs Ms -> equivalent_moment_factor M0 M1 (Some Ms) uni = B3_hog (Mh / Ms) p uni).
Proof.
  intros M0 M1 Ms uni Mh p D H.
  assert (E : equivalent_moment_factor M0 M1 (Some Ms) uni = cm_nonlinear (Ms / Mh) p uni).
  { unfold equivalent_moment_factor. destruct (Rltb (Rabs (Ms - 1/2 * (M0 + M1))) (1/1000000)) eqn:Q; [apply Rltb_true in Q; replace (1/2 * (M0 + M1)) with ((M0 + M1) / 2) in Q by field; lra|].
    unfold alpha_m. assert (EM : (if Rltb (Rabs M1) (Rabs M0) then M0 else M1) = Mh) by (unfold Mh, Rltb; destruct (Rlt_dec (Rabs M1) (Rabs M0)); reflexivity). rewrite EM. destruct (Rltb (Rabs Mh) (1/1000000)) eqn:Q2; [apply Rltb_true in Q2; lra|]. reflexivity. }
  rewrite E. assert (NZ : Mh <> 0) by (intros Z; rewrite Z, Rabs_R0 in H; lra). assert (PM : 0 < Rabs Mh) by lra. clearbody p. clear E D. unfold cm_nonlinear.
  assert (AB : Rabs (Ms / Mh) * Rabs Mh = Rabs Ms) by (rewrite <- Rabs_mult; f_equal; field; auto).
  split.
  - intros N L. assert (A1 : Rabs (Ms / Mh) <= 1) by nra. destruct (Rltb 1 (Rabs (Ms / Mh))) eqn:Q; [apply Rltb_true in Q; lra|].
    assert (AN : Ms / Mh <> 0). { intros Z. apply N. replace Ms with (Ms / Mh * Mh) by (field; auto). rewrite Z. ring. }
    rewrite (proj2 (Reqb_false _ _) AN). cbn [orb]. unfold B3_sag, Rleb. destruct (Rle_dec 0 (Ms / Mh)); [apply Rmax_comm|]. destruct (Rle_dec 0 p), uni; apply Rmax_comm.
  - intros L. assert (A1 : 1 < Rabs (Ms / Mh)) by nra. rewrite (proj2 (Rltb_true _ _) A1). cbn [orb].
    assert (MN : Ms <> 0). { intros Z. rewrite Z, Rabs_R0 in L. lra. }
    replace (1 / (Ms / Mh)) with (Mh / Ms) by (field; auto). unfold B3_hog, Rleb. destruct (Rle_dec 0 (Mh / Ms)); [destruct uni; lra|]. destruct (Rle_dec 0 p), uni; cbv zeta; lra.
Qed.
(* Negligible end moments or span moment: the value of Table B.3 for a simply supported span. *)
Lemma table_B3_simple_lemma : forall M0 M1 Ms uni, 1/1000000 <= Rabs (Ms - (M0 + M1) / 2) ->
  (Rabs M0 < 1/1000000 /\ Rabs M1 < 1/1000000) \/ Ms = 0 -> equivalent_moment_factor M0 M1 (Some Ms) uni = if uni then 95/100 else 9/10.
Proof.
  intros M0 M1 Ms uni D H. unfold equivalent_moment_factor. destruct (Rltb (Rabs (Ms - 1/2 * (M0 + M1))) (1/1000000)) eqn:Q; [apply Rltb_true in Q; replace (1/2 * (M0 + M1)) with ((M0 + M1) / 2) in Q by field; lra|].
  assert (A : alpha_m M0 M1 Ms = 0).
  { unfold alpha_m. destruct H as [[H0 H1]|H].
    - destruct (Rltb (Rabs M1) (Rabs M0)); (match goal with |- context [Rltb ?a ?b] => destruct (Rltb a b) eqn:Q2; [reflexivity|apply Rltb_false in Q2; lra] end).
    - subst. match goal with |- context [if ?c then 0 else _] => destruct c end; [reflexivity|]. unfold Rdiv. ring. }
  rewrite A. unfold cm_nonlinear. rewrite (proj2 (Reqb_true 0 0) eq_refl), Bool.orb_true_r. rewrite Rabs_R0. destruct (Rltb 1 0) eqn:Q2; [apply Rltb_true in Q2; lra|].
  cbv zeta. rewrite (proj2 (Rleb_true 0 0)) by lra. destruct uni; lra.
Qed.
