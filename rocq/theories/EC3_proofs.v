(** Proofs about the EN 1993-1-1 rules. *)
From Verif Require Export EC3_model EC3_spec.

Ltac rbs :=
  repeat match goal with
  | |- context [Rleb ?a ?b] => destruct (Rleb a b) eqn:?
  | |- context [Rltb ?a ?b] => destruct (Rltb a b) eqn:?
  | |- context [Reqb ?a ?b] => destruct (Reqb a b) eqn:?
  end;
  repeat match goal with
  | H : Rleb _ _ = true |- _ => apply Rleb_true in H
  | H : Rleb _ _ = false |- _ => apply Rleb_false in H
  | H : Rltb _ _ = true |- _ => apply Rltb_true in H
  | H : Rltb _ _ = false |- _ => apply Rltb_false in H
  | H : Reqb _ _ = true |- _ => apply Reqb_true in H
  | H : Reqb _ _ = false |- _ => apply Reqb_false in H
  end.

Lemma conv_le1 e : e <= 1 -> conv e = e.
Proof. intros H; unfold conv; rbs; auto; lra. Qed.

(** C48 *)
Lemma table_class_unique l1 l2 l3 r c c' : l1 <= l2 ->
  table_class l1 l2 l3 r c -> table_class l1 l2 l3 r c' -> c = c'.
Proof. unfold table_class; intuition (subst; auto; exfalso; lra). Qed.

Lemma bending_table_lemma r e : table_class (72 * e) (83 * e) (124 * e) r (internal_part_in_bending r e).
Proof. unfold internal_part_in_bending, table_class; rbs; intuition lra. Qed.
Lemma compression_table_lemma r e : 0 < e <= 1 ->
  table_class (33 * e) (38 * e) (42 * e) r (internal_part_in_compression r e).
Proof. intros H; unfold internal_part_in_compression; rewrite (conv_le1 e) by lra; cbv zeta; unfold table_class; rbs; intuition lra. Qed.
Lemma outstand_table_lemma r e : 0 < e <= 1 ->
  table_class (9 * e) (10 * e) (14 * e) r (outstand_part_in_compression r e).
Proof. intros H; unfold outstand_part_in_compression; rewrite (conv_le1 e) by lra; cbv zeta; unfold table_class; rbs; intuition lra. Qed.
Lemma chs_table_lemma r e : table_class (50 * e ^ 2) (70 * e ^ 2) (90 * e ^ 2) r (CHS_class r e).
Proof. unfold CHS_class, table_class; rbs; intuition lra. Qed.

Lemma comp_bend_table_lemma r e a p : 0 < e <= 1 -> 0 < a ->
  table_class (lim1 e a) (lim2 e a) (lim3 e p) r (internal_part_comp_bend r e a p).
Proof.
  intros He Ha. unfold internal_part_comp_bend; rewrite (conv_le1 e) by lra; cbv zeta.
  unfold comp_bend_12, lim1, lim2, lim3, table_class.
  replace (83/2) with (415/10) by lra.
  destruct (Reqb a 0) eqn:E; [apply Reqb_true in E; lra|].
  destruct (Rlt_dec (1/2) a) as [G|G].
  - rewrite (proj2 (Rltb_true (1/2) a) G).
    assert (396 * e / (13 * a - 1) <= 456 * e / (13 * a - 1)).
    { apply Rmult_le_compat_r; [left; apply Rinv_0_lt_compat|]; lra. }
    destruct (Rlt_dec (-1) p) as [P|P]; [rewrite (proj2 (Rltb_true _ _) P)|rewrite (proj2 (Rltb_false (-1) p)) by lra];
    rbs; simpl; intuition lra.
  - rewrite (proj2 (Rltb_false (1/2) a)) by lra.
    assert (36 * e / a <= 415/10 * e / a).
    { apply Rmult_le_compat_r; [left; apply Rinv_0_lt_compat|]; lra. }
    destruct (Rlt_dec (-1) p) as [P|P]; [rewrite (proj2 (Rltb_true _ _) P)|rewrite (proj2 (Rltb_false (-1) p)) by lra];
    rbs; simpl; intuition lra.
Qed.

Lemma comp_bend_tension_lemma r e p : internal_part_comp_bend r e 0 p = 1%nat.
Proof. unfold internal_part_comp_bend, comp_bend_12. rewrite (proj2 (Reqb_true 0 0)) by auto. reflexivity. Qed.

Lemma table_mono l1 l2 l3 (f : R -> nat) : l1 <= l2 -> (forall r, table_class l1 l2 l3 r (f r)) ->
  class_mono f /\ class_range f.
Proof.
  intros L H. split.
  - intros r1 r2 Hr. pose proof (H r1) as A; pose proof (H r2) as B. unfold table_class in *.
    destruct A as [[-> A]|[[-> [A1 A2]]|[[-> [A1 [A2 A3]]]|[-> [A1 [A2 A3]]]]]];
    destruct B as [[-> B]|[[-> [B1 B2]]|[[-> [B1 [B2 B3]]]|[-> [B1 [B2 B3]]]]]]; try lia; exfalso; lra.
  - intros r. pose proof (H r) as A. unfold table_class in A. destruct A as [[-> _]|[[-> _]|[[-> _]|[-> _]]]]; lia.
Qed.

Lemma class_mono_lemma e a p : 0 < e <= 1 -> 0 <= a ->
  (class_mono (fun r => internal_part_in_bending r e) /\ class_range (fun r => internal_part_in_bending r e)) /\
  (class_mono (fun r => internal_part_in_compression r e) /\ class_range (fun r => internal_part_in_compression r e)) /\
  (class_mono (fun r => outstand_part_in_compression r e) /\ class_range (fun r => outstand_part_in_compression r e)) /\
  (class_mono (fun r => CHS_class r e) /\ class_range (fun r => CHS_class r e)) /\
  (class_mono (fun r => internal_part_comp_bend r e a p) /\ class_range (fun r => internal_part_comp_bend r e a p)).
Proof.
  intros He Ha.
  split; [apply (table_mono (72*e) (83*e) (124*e)); [lra|intros; apply bending_table_lemma]|].
  split; [apply (table_mono (33*e) (38*e) (42*e)); [lra|intros; apply compression_table_lemma; auto]|].
  split; [apply (table_mono (9*e) (10*e) (14*e)); [lra|intros; apply outstand_table_lemma; auto]|].
  split; [apply (table_mono (50*e^2) (70*e^2) (90*e^2)); [nra|intros; apply chs_table_lemma]|].
  destruct (Req_dec a 0) as [->|N].
  - split; intros r1; [intros r2 _|]; rewrite !comp_bend_tension_lemma; lia.
  - apply (table_mono (lim1 e a) (lim2 e a) (lim3 e p)).
    + unfold lim1, lim2. destruct (Rlt_dec _ _); (apply Rmult_le_compat_r; [left; apply Rinv_0_lt_compat|]; lra).
    + intros; apply comp_bend_table_lemma; lra.
Qed.

(** C49 *)
Lemma eps_of_model fy : 0 < fy -> epsilon fy = Some (eps_of fy).
Proof.
  intros H. unfold epsilon, pdiv, psqrt, eps_of, bind. rewrite (proj2 (Reqb_false fy 0)) by lra.
  rewrite (proj2 (Rltb_false _ 0)); auto. apply Rlt_le, Rdiv_lt_0_compat; lra.
Qed.
Lemma eps_range fy : 235 <= fy -> 0 < eps_of fy <= 1.
Proof.
  intros H. unfold eps_of. split; [apply sqrt_lt_R0, Rdiv_lt_0_compat; lra|].
  rewrite <- sqrt_1 at 1. apply sqrt_le_1_alt. apply Rmult_le_reg_r with fy; [lra|].
  unfold Rdiv. rewrite Rmult_assoc, Rinv_l by lra. lra.
Qed.
Lemma grades_235_lemma fy r a p : 235 <= fy -> 0 < a -> exists e, epsilon fy = Some e /\
  table_class (33 * eps_of fy) (38 * eps_of fy) (42 * eps_of fy) r (internal_part_in_compression r e) /\
  table_class (9 * eps_of fy) (10 * eps_of fy) (14 * eps_of fy) r (outstand_part_in_compression r e) /\
  table_class (72 * eps_of fy) (83 * eps_of fy) (124 * eps_of fy) r (internal_part_in_bending r e) /\
  table_class (lim1 (eps_of fy) a) (lim2 (eps_of fy) a) (lim3 (eps_of fy) p) r (internal_part_comp_bend r e a p).
Proof.
  intros H Ha. pose proof (eps_range fy H). exists (eps_of fy). split; [apply eps_of_model; lra|].
  split; [apply compression_table_lemma; auto|]. split; [apply outstand_table_lemma; auto|].
  split; [apply bending_table_lemma|apply comp_bend_table_lemma; auto].
Qed.
(** Passing the yield strength itself (above 1 MPa) is the same as passing epsilon. *)
Lemma eps_gt1 fy : 0 < fy < 235 -> 1 < eps_of fy.
Proof.
  intros H. unfold eps_of. rewrite <- sqrt_1 at 1. apply sqrt_lt_1_alt. split; [lra|].
  apply Rmult_lt_reg_r with fy; [lra|]. unfold Rdiv; rewrite Rmult_assoc, Rinv_l by lra. lra.
Qed.
Lemma yield_argument_lemma fy r : 235 <= fy ->
  internal_part_in_compression r fy = internal_part_in_compression r (eps_of fy) /\
  outstand_part_in_compression r fy = outstand_part_in_compression r (eps_of fy) /\
  forall a p, internal_part_comp_bend r fy a p = internal_part_comp_bend r (eps_of fy) a p.
Proof.
  intros H. pose proof (eps_range fy H).
  assert (E : conv fy = conv (eps_of fy)).
  { rewrite (conv_le1 (eps_of fy)) by lra. unfold conv. rewrite (proj2 (Rltb_true 1 fy)) by lra.
    rewrite eps_of_model by lra. auto. }
  unfold internal_part_in_compression, outstand_part_in_compression, internal_part_comp_bend.
  rewrite E. auto.
Qed.
(** Finding: below 235 MPa epsilon exceeds 1, is taken as a yield strength, and
    class 4 parts are put in class 1. *)
Lemma soft_grades_refuted_lemma fy : 20 < fy < 235 -> exists e r r', epsilon fy = Some e /\
  table_class (33 * eps_of fy) (38 * eps_of fy) (42 * eps_of fy) r 4 /\ internal_part_in_compression r e = 1%nat /\
  table_class (9 * eps_of fy) (10 * eps_of fy) (14 * eps_of fy) r' 4 /\ outstand_part_in_compression r' e = 1%nat.
Proof.
  intros H. pose proof (eps_gt1 fy ltac:(lra)) as G.
  assert (Se : eps_of fy * eps_of fy = 235 / fy).
  { unfold eps_of. apply sqrt_sqrt. apply Rlt_le, Rdiv_lt_0_compat; lra. }
  assert (Q : 235 / fy < 235/20).
  { apply Rmult_lt_compat_l; [lra|]. apply Rinv_lt_contravar; lra. }
  set (e := eps_of fy) in *.
  assert (Le : e < 343/100) by nra.
  assert (C : conv e = sqrt (235 / e)).
  { unfold conv. rewrite (proj2 (Rltb_true 1 e)) by lra. rewrite eps_of_model by lra. reflexivity. }
  assert (K2 : sqrt (235/e) * sqrt (235/e) = 235 / e) by (apply sqrt_sqrt; apply Rlt_le, Rdiv_lt_0_compat; lra).
  assert (Q2 : 235 / (343/100) < 235/e).
  { apply Rmult_lt_compat_l; [lra|]. apply Rinv_lt_contravar; nra. }
  set (k := sqrt (235 / e)) in *. assert (Pk : 0 <= k) by apply sqrt_pos.
  assert (Lk : 8 < k) by nra.
  exists e, (33 * k), (9 * k). split; [apply eps_of_model; lra|]. split; [unfold table_class; right; right; right; repeat split; lra|].
  split; [unfold internal_part_in_compression; rewrite C; cbv zeta; rbs; auto; lra|].
  split; [unfold table_class; right; right; right; repeat split; lra|].
  unfold outstand_part_in_compression; rewrite C; cbv zeta; rbs; auto; lra.
Qed.
(** The two functions that do not convert are right for every grade. *)
Lemma all_grades_lemma fy r : 0 < fy -> exists e, epsilon fy = Some e /\
  table_class (72 * eps_of fy) (83 * eps_of fy) (124 * eps_of fy) r (internal_part_in_bending r e) /\
  table_class (50 * 235 / fy) (70 * 235 / fy) (90 * 235 / fy) r (CHS_class r e).
Proof.
  intros H. exists (eps_of fy). split; [apply eps_of_model; lra|]. split; [apply bending_table_lemma|].
  pose proof (chs_table_lemma r (eps_of fy)) as T.
  assert (Se : eps_of fy ^ 2 = 235 / fy).
  { unfold eps_of. rewrite pow2_sqrt; auto. apply Rlt_le, Rdiv_lt_0_compat; lra. }
  rewrite Se in T. unfold Rdiv in *. rewrite <- !Rmult_assoc in T. exact T.
Qed.

(** C50, C51: the Perry root. *)
Definition Phi al l := 1/2 * (1 + al * (l - 2/10) + l ^ 2).
Definition root al l := Phi al l + sqrt (Phi al l ^ 2 - l ^ 2).

Lemma Phi_ge al l : 0 <= al <= 1 -> 0 <= l -> l <= Phi al l /\ 0 < Phi al l.
Proof.
  intros A L; unfold Phi. assert (al * (l - 2/10) >= 0 \/ (al * (l - 2/10) >= l - 2/10 /\ l <= 2/10)).
  { destruct (Rle_dec l (2/10)); [right; split; nra|left; nra]. }
  destruct H as [H|[H H']]; set (z := al * (l - 2/10)) in *; clearbody z; pose proof (pow2_ge_0 (1 - l)); pose proof (pow2_ge_0 l); split; nra.
Qed.
Lemma disc_nonneg al l : 0 <= al <= 1 -> 0 <= l -> 0 <= Phi al l ^ 2 - l ^ 2.
Proof. intros A L; destruct (Phi_ge al l A L); nra. Qed.
Lemma root_pos al l : 0 <= al <= 1 -> 0 <= l -> 0 < root al l.
Proof. intros A L; destruct (Phi_ge al l A L); pose proof (sqrt_pos (Phi al l ^ 2 - l ^ 2)); unfold root; lra. Qed.
Lemma root_eq al l : 0 <= al <= 1 -> 0 <= l -> root al l ^ 2 - 2 * Phi al l * root al l + l ^ 2 = 0.
Proof.
  intros A L. unfold root. pose proof (disc_nonneg al l A L) as D. pose proof (sqrt_sqrt _ D).
  set (s := sqrt _) in *. set (p := Phi al l) in *. nra.
Qed.
Lemma root_perry al l : 0 <= al <= 1 -> 0 <= l -> perry al l (root al l).
Proof.
  intros A L. pose proof (root_eq al l A L) as E. unfold perry.
  replace (1 + al * (l - 2/10) + l ^ 2) with (2 * Phi al l) by (unfold Phi; lra).
  split; [lra|]. intros y Hy. unfold root. pose proof (disc_nonneg al l A L) as D. pose proof (sqrt_sqrt _ D).
  pose proof (sqrt_pos (Phi al l ^ 2 - l ^ 2)). set (s := sqrt _) in *. set (p := Phi al l) in *.
  assert ((y - p) * (y - p) = s * s) by nra. nra.
Qed.
(** A point where the polynomial is not positive is at most the larger root. *)
Lemma root_ge al l y : 0 <= al <= 1 -> 0 <= l -> y ^ 2 - 2 * Phi al l * y + l ^ 2 <= 0 -> y <= root al l.
Proof.
  intros A L H. unfold root. pose proof (disc_nonneg al l A L) as D. pose proof (sqrt_sqrt _ D).
  pose proof (sqrt_pos (Phi al l ^ 2 - l ^ 2)). set (s := sqrt _) in *. set (p := Phi al l) in *.
  assert ((y - p) * (y - p) <= s * s) by nra. nra.
Qed.
Lemma root_ge1 al l : 0 <= al <= 1 -> 2/10 <= l -> 1 <= root al l.
Proof. intros A L. apply root_ge; auto; [lra|]. unfold Phi. nra. Qed.
Lemma root_gel2 al l : 0 <= al <= 1 -> 2/10 <= l -> l ^ 2 <= root al l.
Proof. intros A L. apply root_ge; auto; [lra|]. unfold Phi. assert (0 <= al * (l - 2/10)) by nra. assert (0 <= l ^ 2) by nra. nra. Qed.
Lemma root_le1 al l : 0 <= al <= 1 -> 0 <= l <= 2/10 -> root al l <= 1.
Proof.
  intros A L. unfold root. pose proof (disc_nonneg al l A (proj1 L)) as D. pose proof (sqrt_sqrt _ D).
  pose proof (sqrt_pos (Phi al l ^ 2 - l ^ 2)). set (s := sqrt _) in *.
  assert (Phi al l <= 1 - (1 - l ^ 2) / 2) by (unfold Phi; nra).
  destruct (Phi_ge al l A (proj1 L)). set (p := Phi al l) in *.
  assert (s <= (1 - l ^ 2) / 2); [|lra]. assert (0 <= (1 - l^2)/2) by nra.
  assert (p ^ 2 - l ^ 2 <= ((1 - l ^ 2) / 2) ^ 2) by nra. nra.
Qed.

Lemma chi_eq al l : 0 <= al <= 1 -> 0 <= l -> buckling_reduction_factor l al = Some (Rmin (1 / root al l) 1).
Proof.
  intros A L. unfold buckling_reduction_factor, bind, psqrt, pdiv. fold (Phi al l).
  rewrite (proj2 (Rltb_false _ 0)) by (apply disc_nonneg; auto).
  fold (root al l). pose proof (root_pos al l A L). rewrite (proj2 (Reqb_false _ 0)) by lra. reflexivity.
Qed.

Lemma curve_range c : 0 <= buckling_curve c <= 1.
Proof. destruct c; simpl; lra. Qed.

Lemma inv_le1 x : 1 <= x -> 1 / x <= 1.
Proof. intros. apply Rmult_le_reg_r with x; [lra|]. unfold Rdiv; rewrite Rmult_assoc, Rinv_l by lra; lra. Qed.
Lemma inv_ge1 x : 0 < x <= 1 -> 1 <= 1 / x.
Proof. intros. apply Rmult_le_reg_r with x; [lra|]. unfold Rdiv; rewrite Rmult_assoc, Rinv_l by lra; lra. Qed.

Lemma chi_proper_lemma al l : 0 <= al <= 1 -> 0 <= l -> exists chi, buckling_reduction_factor l al = Some chi /\
  0 < chi <= 1 /\ (l <= 2/10 -> chi = 1) /\ chi * l ^ 2 <= 1 /\ (2/10 <= l -> perry al l (1 / chi)).
Proof.
  intros A L. exists (Rmin (1 / root al l) 1). split; [apply chi_eq; auto|]. pose proof (root_pos al l A L) as P.
  assert (Q : 0 < 1 / root al l) by (apply Rdiv_lt_0_compat; lra).
  split; [split; [apply Rmin_glb_lt; lra|apply Rmin_r]|]. split.
  - intros G. apply Rmin_right. apply inv_ge1. split; auto. apply root_le1; auto.
  - split.
    + destruct (Rle_dec l 1).
      * assert (Rmin (1 / root al l) 1 <= 1) by apply Rmin_r. assert (0 <= Rmin (1 / root al l) 1) by (apply Rmin_glb; lra). nra.
      * apply Rle_trans with (1 / root al l * l ^ 2).
        -- apply Rmult_le_compat_r; [nra|apply Rmin_l].
        -- pose proof (root_gel2 al l A ltac:(lra)). apply Rmult_le_reg_r with (root al l); auto.
           replace (1 / root al l * l ^ 2 * root al l) with (l ^ 2) by (field; lra). lra.
    + intros G. pose proof (root_ge1 al l A G). rewrite Rmin_left by (apply inv_le1; auto).
      replace (1 / (1 / root al l)) with (root al l) by (field; lra). apply root_perry; auto.
Qed.

Lemma root_mono al al' l l' : 0 <= al <= al' -> al' <= 1 -> 2/10 <= l <= l' -> root al l <= root al' l'.
Proof.
  intros A A' L. pose proof (root_ge1 al l ltac:(lra) ltac:(lra)) as G.
  pose proof (root_eq al l ltac:(lra) ltac:(lra)) as E. apply root_ge; try lra.
  assert (P : 2 * Phi al' l' - 2 * Phi al l >= l' ^ 2 - l ^ 2) by (unfold Phi; nra).
  assert (l ^ 2 <= l' ^ 2) by nra. nra.
Qed.
Lemma chi_mono_lemma al al' l l' chi chi' : 0 <= al <= al' -> al' <= 1 -> 0 <= l <= l' ->
  buckling_reduction_factor l al = Some chi -> buckling_reduction_factor l' al' = Some chi' -> chi' <= chi.
Proof.
  intros A A' L H H'. rewrite chi_eq in H by lra. rewrite chi_eq in H' by lra. injection H as <-. injection H' as <-.
  destruct (Rle_dec l (2/10)).
  - rewrite (Rmin_right (1 / root al l)); [apply Rmin_r|]. apply inv_ge1. split; [apply root_pos; lra|apply root_le1; lra].
  - apply Rle_min_compat_r. apply Rmult_le_compat_l; [lra|]. apply Rinv_le_contravar; [apply root_pos; lra|].
    apply root_mono; lra.
Qed.
Lemma chi_strict_lemma al l l' chi chi' : 0 < al <= 1 -> 2/10 <= l < l' ->
  buckling_reduction_factor l al = Some chi -> buckling_reduction_factor l' al = Some chi' -> chi' < chi.
Proof.
  intros A L H H'. rewrite chi_eq in H by lra. rewrite chi_eq in H' by lra. injection H as <-. injection H' as <-.
  pose proof (root_ge1 al l ltac:(lra) ltac:(lra)). pose proof (root_ge1 al l' ltac:(lra) ltac:(lra)).
  rewrite !Rmin_left by (apply inv_le1; auto). apply Rmult_lt_compat_l; [lra|]. apply Rinv_lt_contravar; [nra|].
  pose proof (root_mono al al l l' ltac:(lra) ltac:(lra) ltac:(lra)) as [|E]; auto. exfalso.
  pose proof (root_eq al l ltac:(lra) ltac:(lra)) as E1. pose proof (root_eq al l' ltac:(lra) ltac:(lra)) as E2.
  rewrite <- E in E2. set (x := root al l) in *.
  assert (P : 2 * Phi al l' - 2 * Phi al l = al * (l' - l) + (l' ^ 2 - l ^ 2)) by (unfold Phi; field).
  assert (0 < al * (l' - l)) by nra. assert (l ^ 2 < l' ^ 2) by nra. nra.
Qed.

(** C52 *)
Lemma psi_range M0 M1 : -1 <= psi M0 M1 <= 1.
Proof.
  unfold psi. cbv zeta. set (r := if Rltb (1/1000000) _ then _ else _). clearbody r. destruct (Rltb 1 (Rabs r)) eqn:E; rbs.
  - assert (r <> 0) by (intros ->; rewrite Rabs_R0 in E; lra).
    assert (Rabs (1 / r) <= 1).
    { unfold Rdiv. rewrite Rabs_mult, Rabs_R1, Rabs_inv. apply Rlt_le, inv_le1 in E. unfold Rdiv in E. lra. }
    destruct (Rabs_facts (1 / r)); lra.
  - destruct (Rabs_facts r); lra.
Qed.
Lemma cm_range al p u : -1 <= p <= 1 -> 4/10 <= cm_nonlinear al p u <= 1.
Proof.
  intros P. unfold cm_nonlinear. destruct (Rltb 1 (Rabs al)) eqn:E; cbn [orb].
  - apply Rltb_true in E. assert (N : al <> 0) by (intros ->; rewrite Rabs_R0 in E; lra).
    assert (B : -1 <= 1 / al <= 1).
    { assert (Rabs (1 / al) <= 1). { unfold Rdiv. rewrite Rabs_mult, Rabs_R1, Rabs_inv. apply Rlt_le, inv_le1 in E. unfold Rdiv in E. lra. }
      destruct (Rabs_facts (1 / al)); lra. }
    set (q := 1 / al) in *. clearbody q. rbs; destruct u; try lra; split; nra.
  - assert (B : -1 <= al <= 1) by (rbs; destruct (Rabs_facts al); lra).
    destruct (Reqb al 0) eqn:Z; cbn [orb].
    + apply Reqb_true in Z. subst. rbs; destruct u; lra.
    + rbs; destruct u; (split; [apply Rmax_r|]); apply Rmax_lub; lra.
Qed.
Lemma cm_range_lemma M0 M1 Ms u : 4/10 <= equivalent_moment_factor M0 M1 Ms u <= 1.
Proof.
  unfold equivalent_moment_factor. pose proof (psi_range M0 M1) as P.
  assert (L : 4/10 <= Rmax (6/10 + 4/10 * psi M0 M1) (4/10) <= 1) by (split; [apply Rmax_r|apply Rmax_lub; lra]).
  destruct Ms; auto. destruct (Rltb _ _); auto. apply cm_range; auto.
Qed.

(** C53 *)
Lemma psi_opp M0 M1 : psi (- M0) (- M1) = psi M0 M1.
Proof.
  unfold psi. rewrite Rabs_Ropp. destruct (Rltb (1/1000000) (Rabs M1)) eqn:E; auto.
  assert (M1 <> 0) by (intros ->; rewrite Rabs_R0 in E; rbs; lra).
  replace (- M0 / - M1) with (M0 / M1) by (field; auto). auto.
Qed.
Lemma alpha_opp M0 M1 m : alpha_m (- M0) (- M1) (- m) = alpha_m M0 M1 m.
Proof.
  unfold alpha_m. rewrite !Rabs_Ropp. destruct (Rltb (Rabs M1) (Rabs M0)); rewrite Rabs_Ropp;
  match goal with |- context [Rltb (Rabs ?x) (1/1000000)] => destruct (Rltb (Rabs x) (1/1000000)) eqn:E; auto; apply Rltb_false in E;
    assert (x <> 0) by (intros ->; rewrite Rabs_R0 in E; lra); field; auto end.
Qed.
Lemma cm_sign_lemma M0 M1 Ms u :
  equivalent_moment_factor (- M0) (- M1) (option_map Ropp Ms) u = equivalent_moment_factor M0 M1 Ms u.
Proof.
  unfold equivalent_moment_factor. rewrite psi_opp. destruct Ms as [m|]; simpl; auto.
  replace (- m - 1/2 * (- M0 + - M1)) with (- (m - 1/2 * (M0 + M1))) by ring. rewrite Rabs_Ropp, alpha_opp. auto.
Qed.

Lemma psi_swap M0 M1 : resolved M0 -> resolved M1 -> psi M1 M0 = psi M0 M1.
Proof.
  intros [->|H0] [->|H1]; unfold psi; rewrite ?Rabs_R0, ?(proj2 (Rltb_false (1/1000000) 0)) by lra; auto.
  - rewrite (proj2 (Rltb_true _ _) H1). replace (0 / M1) with 0 by (unfold Rdiv; ring). auto.
  - rewrite (proj2 (Rltb_true _ _) H0). replace (0 / M0) with 0 by (unfold Rdiv; ring). auto.
  - rewrite (proj2 (Rltb_true _ _) H1), (proj2 (Rltb_true _ _) H0).
    assert (N0 : M0 <> 0) by (intros ->; rewrite Rabs_R0 in H0; lra).
    assert (N1 : M1 <> 0) by (intros ->; rewrite Rabs_R0 in H1; lra).
    assert (E : Rabs (M1 / M0) * Rabs (M0 / M1) = 1).
    { rewrite <- Rabs_mult. replace (M1 / M0 * (M0 / M1)) with 1 by (field; auto). apply Rabs_R1. }
    pose proof (Rabs_pos (M1 / M0)); pose proof (Rabs_pos (M0 / M1)).
    rbs; try solve [field; auto]; [exfalso; nra|].
    assert (A : Rabs (M0 / M1) = 1) by nra.
    unfold Rabs in A. destruct (Rcase_abs (M0 / M1)).
    + assert (J2 : M0 = M0 / M1 * M1) by (field; auto). assert (J3 : M0 / M1 = -1) by lra. rewrite J3 in J2.
      assert (M0 = - M1) by lra. subst. field; auto.
    + assert (J2 : M0 = M0 / M1 * M1) by (field; auto). assert (J3 : M0 / M1 = 1) by lra. rewrite J3 in J2.
      assert (M0 = M1) by lra. subst; field; auto.
Qed.

(** With opposite end moments the sign of alpha does not matter. *)
Lemma cm_anti al u : cm_nonlinear (- al) (-1) u = cm_nonlinear al (-1) u.
Proof.
  unfold cm_nonlinear. rewrite Rabs_Ropp. destruct (Rltb 1 (Rabs al)) eqn:E; cbn [orb].
  - rbs; assert (N : al <> 0) by (intros ->; rewrite Rabs_R0 in E; lra);
    (replace (1 / - al) with (- (1 / al)) in * by (field; auto)); set (q := 1 / al) in *; clearbody q; destruct u; lra.
  - destruct (Reqb al 0) eqn:Z.
    + apply Reqb_true in Z; subst. rewrite Ropp_0. rewrite (proj2 (Reqb_true 0 0)) by auto. auto.
    + apply Reqb_false in Z. rewrite (proj2 (Reqb_false (- al) 0)) by lra. cbn [orb].
      rbs; try lra; destruct u; f_equal; lra.
Qed.

Lemma cm_swap_lemma M0 M1 Ms u : resolved M0 -> resolved M1 ->
  equivalent_moment_factor M1 M0 Ms u = equivalent_moment_factor M0 M1 Ms u.
Proof.
  intros R0 R1. unfold equivalent_moment_factor. rewrite (psi_swap M0 M1) by auto. destruct Ms as [m|]; auto.
  rewrite (Rplus_comm M1 M0). destruct (Rltb (Rabs (m - 1 / 2 * (M0 + M1))) (1 / 1000000)); auto.
  destruct (Req_dec (Rabs M0) (Rabs M1)) as [E|N].
  - assert (C : M0 = M1 \/ M0 = - M1) by (destruct (Rabs_facts M0), (Rabs_facts M1); lra).
    destruct C as [->|C]; auto. destruct (Req_dec M1 0) as [Z|Z]; [subst M0; rewrite Z, Ropp_0; auto|].
    destruct R1 as [R1|R1]; [lra|].
    assert (P : psi M0 M1 = -1).
    { unfold psi. rewrite (proj2 (Rltb_true _ _) R1). replace (M0 / M1) with (-1) by (subst; field; auto).
      rewrite (proj2 (Rltb_false 1 (Rabs (-1)))); auto. unfold Rabs; destruct (Rcase_abs _); lra. }
    rewrite P. rewrite <- (cm_anti (alpha_m M0 M1 m)). f_equal. unfold alpha_m. rewrite E.
    rewrite (proj2 (Rltb_false (Rabs M1) (Rabs M1))) by lra. rewrite E, (proj2 (Rltb_false (Rabs M1) (1/1000000))) by lra.
    subst M0. field; auto.
  - f_equal. unfold alpha_m. destruct (Rlt_dec (Rabs M0) (Rabs M1)).
    + rewrite (proj2 (Rltb_true (Rabs M0) (Rabs M1))) by auto. rewrite (proj2 (Rltb_false (Rabs M1) (Rabs M0))) by lra. auto.
    + rewrite (proj2 (Rltb_false (Rabs M0) (Rabs M1))) by lra. rewrite (proj2 (Rltb_true (Rabs M1) (Rabs M0))) by lra. auto.
Qed.
(** Finding: with end moments around the 1e-6 threshold the factor depends on the
    orientation (the threshold is applied to the second moment only). *)
Lemma cm_swap_refuted_lemma : exists M0 M1,
  equivalent_moment_factor M1 M0 None true <> equivalent_moment_factor M0 M1 None true.
Proof.
  exists (9/10000000), (11/10000000). unfold equivalent_moment_factor, psi.
  rewrite (Rabs_pos_eq (9/10000000)) by lra. rewrite (Rabs_pos_eq (11/10000000)) by lra.
  rewrite (proj2 (Rltb_false (1/1000000) (9/10000000))) by lra. rewrite (proj2 (Rltb_true (1/1000000) (11/10000000))) by lra.
  replace (9 / 10000000 / (11 / 10000000)) with (9/11) by field. rewrite Rabs_R0, (Rabs_pos_eq (9/11)) by lra.
  rewrite (proj2 (Rltb_false 1 0)) by lra. rewrite (proj2 (Rltb_false 1 (9/11))) by lra.
  rmx; lra.
Qed.

(** C54 *)
Lemma kyy_mono_lemma UN UN' sl Cm cls : 0 <= Cm -> 2/10 <= sl -> UN <= UN' -> kyy UN sl Cm cls <= kyy UN' sl Cm cls.
Proof.
  intros C S1 H. unfold kyy, gammaM1. destruct (Nat.ltb cls 3); apply Rmult_le_compat_l; auto.
  - assert (0 <= Rmin (sl - 2/10) (8/10)) by (apply Rmin_glb; lra). nra.
  - assert (0 <= Rmin sl (6/10)) by (apply Rmin_glb; lra). nra.
Qed.
Lemma kyy_slend_lemma UN sl sl' Cm cls : 0 <= Cm -> 0 <= UN -> sl <= sl' -> kyy UN sl Cm cls <= kyy UN sl' Cm cls.
Proof.
  intros C U H. unfold kyy, gammaM1. destruct (Nat.ltb cls 3); apply Rmult_le_compat_l; auto.
  - assert (Rmin (sl - 2/10) (8/10) <= Rmin (sl' - 2/10) (8/10)) by (apply Rle_min_compat_r; lra). nra.
  - assert (Rmin sl (6/10) <= Rmin sl' (6/10)) by (apply Rle_min_compat_r; lra). nra.
Qed.
Lemma kzz_mono_lemma UN UN' sl Cm cls h : 0 <= Cm -> 2/10 <= sl -> (h = false -> 3/10 <= sl) -> UN <= UN' ->
  kzz UN sl Cm cls h <= kzz UN' sl Cm cls h.
Proof.
  intros C S1 S2 H. unfold kzz, gammaM1. destruct (Nat.ltb cls 3); [destruct h|]; apply Rmult_le_compat_l; auto.
  - assert (0 <= Rmin (sl - 2/10) (8/10)) by (apply Rmin_glb; lra). nra.
  - specialize (S2 eq_refl). assert (0 <= Rmin (2 * sl - 6/10) (14/10)) by (apply Rmin_glb; lra). nra.
  - assert (0 <= Rmin sl (6/10)) by (apply Rmin_glb; lra). nra.
Qed.
(** Finding: for open sections the factor drops between slenderness 0.2 and 0.3. *)
Lemma kzz_refuted_lemma sl : 2/10 <= sl < 3/10 -> forall UN UN' Cm, 0 < Cm -> UN < UN' ->
  kzz UN' sl Cm 1 false < kzz UN sl Cm 1 false.
Proof.
  intros S1 UN UN' Cm C H. unfold kzz, gammaM1. change (Nat.ltb 1 3) with true. cbv iota.
  rewrite Rmin_left by lra. apply Rmult_lt_compat_l; auto. nra.
Qed.

Lemma utility_mono_lemma UN UN' My My' Mz Mz' ky ky' cLT U U' : 0 < cLT -> 0 <= ky <= ky' ->
  UN <= UN' -> 0 <= My <= My' -> Mz <= Mz' ->
  beam_column_utility UN My ky cLT Mz = Some U -> beam_column_utility UN' My' ky' cLT Mz' = Some U' -> U <= U'.
Proof.
  intros C K HN HY HZ. unfold beam_column_utility, bind, pdiv, gammaM1. rewrite (proj2 (Reqb_false cLT 0)) by lra.
  intros E E'; injection E as <-; injection E' as <-.
  assert (ky * My / cLT <= ky' * My' / cLT).
  { apply Rmult_le_compat_r; [left; apply Rinv_0_lt_compat; auto|]. apply Rmult_le_compat; lra. }
  lra.
Qed.
(** The whole of (6.61) with its interaction factor. *)
Lemma utility_661_lemma UN UN' My My' sl Cm cls cLT U U' : 0 < cLT -> 0 <= Cm -> 2/10 <= sl ->
  0 <= UN <= UN' -> 0 <= My <= My' ->
  beam_column_utility UN My (kyy UN sl Cm cls) cLT 0 = Some U ->
  beam_column_utility UN' My' (kyy UN' sl Cm cls) cLT 0 = Some U' -> U <= U'.
Proof.
  intros C Cp S1 HN HY. apply utility_mono_lemma; try lra. split; [|apply kyy_mono_lemma; lra].
  unfold kyy, gammaM1. destruct (Nat.ltb cls 3); apply Rmult_le_pos; auto.
  - assert (0 <= Rmin (sl - 2/10) (8/10)) by (apply Rmin_glb; lra). nra.
  - assert (0 <= Rmin sl (6/10)) by (apply Rmin_glb; lra). nra.
Qed.
Lemma kzy_nontorsion_lemma ky ky' UN UN' sl CmLT cls k k' : ky <= ky' ->
  kzy ky UN sl CmLT cls false = Some k -> kzy ky' UN' sl CmLT cls false = Some k' -> k <= k'.
Proof. intros H. unfold kzy. destruct (Nat.ltb cls 3); intros E E'; injection E as <-; injection E' as <-; lra. Qed.
(** For members susceptible to torsion Table B.2 makes the factor decrease with the
    axial force; it stays at most 1 for CmLT above 0.25. *)
Lemma kzy_torsion_lemma ky UN UN' sl CmLT cls k k' : 1/4 < CmLT -> 0 <= sl -> 0 <= UN <= UN' ->
  kzy ky UN sl CmLT cls true = Some k -> kzy ky UN' sl CmLT cls true = Some k' -> k' <= k <= 1.
Proof.
  intros C S1 H. unfold kzy, bind, pdiv, gammaM1. rewrite !(proj2 (Reqb_false (CmLT - 1/4) 0)) by lra.
  assert (Q : forall x, 0 <= x -> 0 <= x / (CmLT - 1/4)) by (intros; apply Rmult_le_pos; auto; left; apply Rinv_0_lt_compat; lra).
  assert (0 <= Rmin sl 1) by (apply Rmin_glb; lra).
  pose proof (Q (1/10 * sl) ltac:(lra)). pose proof (Q (1/10 * Rmin sl 1) ltac:(lra)). pose proof (Q (5/100 * Rmin sl 1) ltac:(lra)).
  destruct (Nat.ltb cls 3); [destruct (Rltb sl (4/10)) eqn:E|]; intros A B; injection A as <-; injection B as <-.
  - apply Rltb_true in E. split; [apply Rle_min_compat_l; nra|]. eapply Rle_trans; [apply Rmin_l|lra].
  - split; nra.
  - split; nra.
Qed.

(** Sway imperfection (5.3.2). *)
Lemma sway_lemma h m : 0 < h -> 1 <= m -> exists phi, sway_imperfection h m = Some phi /\
  1/200 * (2/3) * sqrt (1/2) < phi <= 1/200.
Proof.
  intros H M. unfold sway_imperfection, bind, psqrt, pdiv. pose proof (sqrt_lt_R0 h H).
  rewrite (proj2 (Rltb_false h 0)) by lra. rewrite (proj2 (Reqb_false (sqrt h) 0)) by lra.
  rewrite (proj2 (Reqb_false m 0)) by lra.
  assert (Q : 0 < 1 / m <= 1) by (split; [apply Rdiv_lt_0_compat; lra|apply inv_le1; auto]).
  rewrite (proj2 (Rltb_false (1/2 * (1 + 1 / m)) 0)) by lra. eexists; split; [reflexivity|].
  assert (A : 2/3 <= Rmin (Rmax (2/3) (2 / sqrt h)) 1 <= 1).
  { split; [apply Rmin_glb; [apply Rmax_l|lra]|apply Rmin_r]. }
  set (a := Rmin _ _) in *. clearbody a.
  assert (B : sqrt (1/2) < sqrt (1/2 * (1 + 1 / m)) <= 1).
  { split; [apply sqrt_lt_1_alt; lra|]. apply Rle_trans with (sqrt 1); [apply sqrt_le_1_alt; lra|rewrite sqrt_1; lra]. }
  pose proof (sqrt_pos (1/2)). set (s := sqrt (1/2 * _)) in *. clearbody s. set (q := sqrt (1/2)) in *; clearbody q.
  assert (2/3 * q < a * s) by nra. assert (a * s <= 1) by nra. split; lra.
Qed.
Lemma sway_mono_lemma h h' m m' p p' : 0 < h <= h' -> 1 <= m <= m' ->
  sway_imperfection h m = Some p -> sway_imperfection h' m' = Some p' -> p' <= p.
Proof.
  intros H M. unfold sway_imperfection, bind, psqrt, pdiv.
  pose proof (sqrt_lt_R0 h ltac:(lra)). pose proof (sqrt_lt_R0 h' ltac:(lra)).
  rewrite (proj2 (Rltb_false h 0)) by lra. rewrite (proj2 (Reqb_false (sqrt h) 0)) by lra.
  rewrite (proj2 (Rltb_false h' 0)) by lra. rewrite (proj2 (Reqb_false (sqrt h') 0)) by lra.
  rewrite (proj2 (Reqb_false m 0)), (proj2 (Reqb_false m' 0)) by lra.
  assert (Q : 0 < 1 / m) by (apply Rdiv_lt_0_compat; lra). assert (Q' : 0 < 1 / m') by (apply Rdiv_lt_0_compat; lra).
  assert (1 / m' <= 1 / m) by (apply Rmult_le_compat_l; [lra|apply Rinv_le_contravar; lra]).
  rewrite (proj2 (Rltb_false (1/2 * (1 + 1 / m)) 0)), (proj2 (Rltb_false (1/2 * (1 + 1 / m')) 0)) by lra.
  intros E E'; injection E as <-; injection E' as <-.
  assert (S1 : sqrt (1/2 * (1 + 1 / m')) <= sqrt (1/2 * (1 + 1 / m))) by (apply sqrt_le_1_alt; lra).
  assert (2 / sqrt h' <= 2 / sqrt h).
  { apply Rmult_le_compat_l; [lra|]. apply Rinv_le_contravar; auto. apply sqrt_le_1_alt; lra. }
  apply Rmult_le_compat; [|apply sqrt_pos| |exact S1].
  - apply Rmult_le_pos; [lra|]. apply Rmin_glb; [|lra]. eapply Rle_trans; [|apply Rmax_l]; lra.
  - apply Rmult_le_compat_l; [lra|]. apply Rle_min_compat_r, Rle_max_compat_l. auto.
Qed.

(** Resistance: buckling strength never exceeds the squash load or the critical load. *)
Lemma strength_lemma A fy Ncr al : 0 < A -> 0 < fy -> 0 < Ncr -> 0 <= al <= 1 -> exists l chi,
  slenderness A fy Ncr = Some l /\ buckling_reduction_factor l al = Some chi /\
  0 < buckling_strength A fy chi <= compression_resistance A fy /\ buckling_strength A fy chi <= Ncr.
Proof.
  intros HA Hf HN Hal. exists (sqrt (A * fy / Ncr)).
  assert (P : 0 < A * fy / Ncr) by (apply Rdiv_lt_0_compat; nra).
  destruct (chi_proper_lemma al (sqrt (A * fy / Ncr)) Hal (sqrt_pos _)) as (chi & E & R1 & _ & R2 & _).
  exists chi. split; [unfold slenderness, bind, pdiv, psqrt; rewrite (proj2 (Reqb_false Ncr 0)) by lra; rewrite (proj2 (Rltb_false _ 0)) by lra; auto|].
  split; auto. unfold buckling_strength, compression_resistance, gammaM1, gammaM0.
  rewrite pow2_sqrt in R2 by lra. assert (0 < A * fy) by nra. split; [split|].
  - unfold Rdiv. rewrite Rinv_1. assert (0 < chi * (A * fy)) by nra. lra.
  - unfold Rdiv. rewrite Rinv_1. nra.
  - assert (chi * (A * fy / Ncr) * Ncr <= 1 * Ncr) by (apply Rmult_le_compat_r; lra).
    replace (chi * (A * fy / Ncr) * Ncr) with (chi * (A * fy)) in H0 by (field; lra). lra.
Qed.
