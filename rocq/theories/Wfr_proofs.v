Require Import Reals List Bool Lra Lia Psatz. Import ListNotations.
From Verif Require Import Base EC3_model Bool_tac EC3_proofs Plate_proofs Sections_proofs.
From Verif Require Import Wfr_model Wfr_spec.
Local Open Scope R_scope.

Lemma wfr_zones d b h qp hp zs : flat_roof_pressure d b h qp hp = Some zs -> forall k,
  z_len (zs k) = z_len (bare_zone d b (Rmin b (2 * h)) k) /\ z_wid (zs k) = z_wid (bare_zone d b (Rmin b (2 * h)) k).
Proof.
  unfold flat_roof_pressure. destruct (pdiv h d); cbn [bind]; [|discriminate]. intros [= <-] k.
  destruct (Reqb hp 0); cbn; split; reflexivity.
Qed.
Lemma wfr_defined_lemma d b h qp hp : flat_roof_pressure d b h qp hp = None <-> d = 0.
Proof.
  unfold flat_roof_pressure, pdiv. destruct (Reqb d 0) eqn:E; cbn [bind].
  - apply Reqb_true in E. tauto.
  - apply Reqb_false in E. split; [discriminate|contradiction].
Qed.
Lemma wfr_area_lemma d b h qp hp zs : flat_roof_pressure d b h qp hp = Some zs ->
  2 * zarea (zs ZF) + zarea (zs ZG) + zarea (zs ZH) + zarea (zs ZI) = b * d.
Proof.
  intros E. unfold zarea. pose proof (wfr_zones _ _ _ _ _ _ E) as Z.
  destruct (Z ZF) as [-> ->], (Z ZG) as [-> ->], (Z ZH) as [-> ->], (Z ZI) as [-> ->]. cbn. field.
Qed.
Lemma wfr_cover_lemma d b h qp hp zs : 0 < b -> 0 < h -> flat_roof_pressure d b h qp hp = Some zs ->
  Rmin b (2 * h) / 2 <= d -> forall x y, 0 <= x <= d -> 0 <= y <= b -> exists k, covers zs b k x y /\ forall k', covers zs b k' x y -> k' = k.
Proof.
  intros Hb Hh E Hd x y Hx Hy. pose proof (wfr_zones _ _ _ _ _ _ E) as Z.
  set (e := Rmin b (2 * h)) in *. assert (E1 : 0 < e) by (unfold e; apply Rmin_glb_lt; lra). assert (E2 : e <= b) by apply Rmin_l.
  clearbody e. unfold covers.
  destruct (Z ZF) as [-> ->], (Z ZG) as [-> ->], (Z ZH) as [-> ->], (Z ZI) as [-> ->]. cbn.
  destruct (Rlt_dec x (1/10 * e)) as [A|A].
  - destruct (Rlt_dec y (25/100 * e)) as [B|B]; [|destruct (Rlt_dec y (b - 25/100 * e)) as [C|C]].
    + exists ZF. split; [split; [lra|left; lra]|]. intros [| | |] K; [reflexivity| | |]; exfalso; lra.
    + exists ZG. split; [lra|]. intros [| | |] K; [|reflexivity| |]; exfalso; lra.
    + exists ZF. split; [split; [lra|right; lra]|]. intros [| | |] K; [reflexivity| | |]; exfalso; lra.
  - destruct (Rlt_dec x (5/10 * e)) as [B|B].
    + exists ZH. split; [lra|]. intros [| | |] K; [| |reflexivity|]; exfalso; lra.
    + exists ZI. split; [lra|]. intros [| | |] K; [| | |reflexivity]; exfalso; lra.
Qed.
Lemma wfr_pressure_lemma d b h qp zs : flat_roof_pressure d b h qp 0 = Some zs ->
  z_we (zs ZF) = [- (18/10 * qp)] /\ z_we (zs ZG) = [- (12/10 * qp)] /\ z_we (zs ZH) = [- (7/10 * qp)] /\
  z_we (zs ZI) = [qp / 5; - (qp / 5)] /\ forall k, z_we (zs k) = map (fun c => c * qp) (z_cpe (zs k)).
Proof.
  unfold flat_roof_pressure. destruct (pdiv h d); cbn [bind]; [|discriminate]. intros [= <-].
  rewrite (proj2 (Reqb_true 0 0)) by reflexivity. cbn [set_pressure z_we z_cpe cpe10 map].
  repeat match goal with |- _ /\ _ => split end; repeat (apply (f_equal2 cons)); try reflexivity; try field.
  intros k. apply map_ext. intros c. ring.
Qed.
Lemma wfr_parapet_lemma d b h qp hp zs : hp <> 0 -> flat_roof_pressure d b h qp hp = Some zs -> forall k, z_cpe (zs k) = [0] /\ z_we (zs k) = [0].
Proof.
  intros N. unfold flat_roof_pressure. destruct (pdiv h d); cbn [bind]; [|discriminate]. intros [= <-].
  rewrite (proj2 (Reqb_false hp 0)) by exact N. intros [| | |]; split; reflexivity.
Qed.
Lemma wfr_short_lemma d b h qp hp zs : 0 < b -> flat_roof_pressure d b h qp hp = Some zs -> d < Rmin b (2 * h) / 2 ->
  z_wid (zs ZI) < 0 /\ b * d < 2 * zarea (zs ZF) + zarea (zs ZG) + zarea (zs ZH).
Proof.
  intros Hb E Hd. pose proof (wfr_area_lemma _ _ _ _ _ _ E) as A. destruct (wfr_zones _ _ _ _ _ _ E ZI) as [L W].
  assert (X : z_wid (zs ZI) < 0) by (rewrite W; cbn; lra). split; [exact X|].
  assert (zarea (zs ZI) < 0). { unfold zarea. rewrite L. cbn. nra. } lra.
Qed.
Lemma wfr_small_lemma d b h qp zs : 0 < b -> 0 < h -> 0 < qp -> flat_roof_pressure d b h qp 0 = Some zs -> Rmin b (2 * h) < 20 ->
  zarea (zs ZF) < 10 /\ z_we (zs ZF) = [- (18/10 * qp)] /\ en_cpe (-25/10) (-18/10) (zarea (zs ZF)) * qp < - (18/10 * qp).
Proof.
  intros Hb Hh Hq E S. pose proof (wfr_pressure_lemma _ _ _ _ _ E) as (P & _). 
  assert (A : zarea (zs ZF) = Rmin b (2 * h) ^ 2 / 40).
  { unfold zarea. destruct (wfr_zones _ _ _ _ _ _ E ZF) as [-> ->]. cbn. field. }
  set (e := Rmin b (2 * h)) in *. assert (E1 : 0 < e) by (unfold e; apply Rmin_glb_lt; lra). clearbody e.
  assert (A10 : zarea (zs ZF) < 10) by (rewrite A; nra).
  split; [exact A10|]. split; [exact P|].
  assert (C : en_cpe (-25/10) (-18/10) (zarea (zs ZF)) < -18/10); [|nra].
  unfold en_cpe. destruct (Rle_dec (zarea (zs ZF)) 1) as [L|L]; [lra|]. destruct (Rle_dec 10 (zarea (zs ZF))) as [M|M]; [lra|].
  assert (L10 : 0 < ln 10) by (rewrite <- ln_1; apply ln_increasing; lra).
  assert (LA : ln (zarea (zs ZF)) < ln 10) by (apply ln_increasing; lra).
  assert (Q : ln (zarea (zs ZF)) / ln 10 < 1). { apply Rmult_lt_reg_r with (ln 10); [exact L10|]. unfold Rdiv. rewrite Rmult_assoc, Rinv_l by lra. lra. }
  lra.
Qed.
