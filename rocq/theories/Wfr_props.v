(** Property C366: wind pressures on flat roofs. *)
Require Import Reals List Bool Lra Lia.
Import ListNotations.
From Verif Require Import Base EC3_model Bool_tac Sections_proofs Wfr_proofs.
From Verif Require Import Wfr_model Wfr_spec.
Local Open Scope R_scope.

(** C366 *)
Theorem C366_defined : forall d b h qp hp, flat_roof_pressure d b h qp hp = None <-> d = 0.
Proof. exact wfr_defined_lemma. Qed.
Print Assumptions C366_defined.
Theorem C366_total_area : forall d b h qp hp zs, flat_roof_pressure d b h qp hp = Some zs ->
  2 * zarea (zs ZF) + zarea (zs ZG) + zarea (zs ZH) + zarea (zs ZI) = b * d.
Proof. exact wfr_area_lemma. Qed.
Print Assumptions C366_total_area.
Theorem C366_one_zone_per_point : forall d b h qp hp zs, 0 < b -> 0 < h -> flat_roof_pressure d b h qp hp = Some zs ->
  Rmin b (2 * h) / 2 <= d -> forall x y, 0 <= x <= d -> 0 <= y <= b -> exists k, covers zs b k x y /\ forall k', covers zs b k' x y -> k' = k.
Proof. exact wfr_cover_lemma. Qed.
Print Assumptions C366_one_zone_per_point.
Theorem C366_pressure : forall d b h qp zs, flat_roof_pressure d b h qp 0 = Some zs ->
  z_we (zs ZF) = [- (18/10 * qp)] /\ z_we (zs ZG) = [- (12/10 * qp)] /\ z_we (zs ZH) = [- (7/10 * qp)] /\
  z_we (zs ZI) = [qp / 5; - (qp / 5)] /\ forall k, z_we (zs k) = map (fun c => c * qp) (z_cpe (zs k)).
Proof. exact wfr_pressure_lemma. Qed.
Print Assumptions C366_pressure.
Theorem C366_parapet_refuted : forall d b h qp hp zs, hp <> 0 -> flat_roof_pressure d b h qp hp = Some zs -> forall k, z_cpe (zs k) = [0] /\ z_we (zs k) = [0].
Proof. exact wfr_parapet_lemma. Qed.
Print Assumptions C366_parapet_refuted.
Theorem C366_short_roof_refuted : forall d b h qp hp zs, 0 < b -> flat_roof_pressure d b h qp hp = Some zs -> d < Rmin b (2 * h) / 2 ->
  z_wid (zs ZI) < 0 /\ b * d < 2 * zarea (zs ZF) + zarea (zs ZG) + zarea (zs ZH).
Proof. exact wfr_short_lemma. Qed.
Print Assumptions C366_short_roof_refuted.
Theorem C366_small_zone_refuted : forall d b h qp zs, 0 < b -> 0 < h -> 0 < qp -> flat_roof_pressure d b h qp 0 = Some zs -> Rmin b (2 * h) < 20 ->
  zarea (zs ZF) < 10 /\ z_we (zs ZF) = [- (18/10 * qp)] /\ en_cpe (-25/10) (-18/10) (zarea (zs ZF)) * qp < - (18/10 * qp).
Proof. exact wfr_small_lemma. Qed.
Print Assumptions C366_small_zone_refuted.

(** A roof 30 m by 20 m at 8 m: the corner zone has 6.4 square metres. *)
Example C366_ex : exists zs, flat_roof_pressure 30 20 8 (6/10) 0 = Some zs /\ z_len (zs ZF) = 4 /\ z_wid (zs ZI) = 22 /\
  z_we (zs ZG) = [- (72/100)] /\ zarea (zs ZF) < 10 /\ Rmin 20 (2 * 8) / 2 <= 30 /\ covers zs 20 ZG 1 10.
Proof.
  destruct (flat_roof_pressure 30 20 8 (6/10) 0) as [zs|] eqn:E; [|apply wfr_defined_lemma in E; lra].
  exists zs. split; [reflexivity|]. pose proof (wfr_zones _ _ _ _ _ _ E) as Z. assert (M : Rmin 20 (2 * 8) = 16) by (rewrite Rmin_right; lra).
  rewrite M in *. pose proof (wfr_pressure_lemma _ _ _ _ _ E) as (_ & G & _). unfold zarea, covers. rewrite G.
  destruct (Z ZF) as [-> ->], (Z ZG) as [-> ->], (Z ZI) as [_ ->]. cbn. split; [lra|]. split; [lra|]. split; [apply (f_equal2 cons); [lra|reflexivity]|]. split; [lra|]. split; [lra|]. lra.
Qed.
(** A roof 5 m deep and 20 m wide at 8 m is shorter than half of e = 16 m. *)
Example C366_ex_short : exists zs, flat_roof_pressure 5 20 8 (6/10) (1/2) = Some zs /\ 5 < Rmin 20 (2 * 8) / 2 /\ z_wid (zs ZI) = -3 /\ z_we (zs ZF) = [0].
Proof.
  destruct (flat_roof_pressure 5 20 8 (6/10) (1/2)) as [zs|] eqn:E; [|apply wfr_defined_lemma in E; lra].
  exists zs. split; [reflexivity|]. assert (M : Rmin 20 (2 * 8) = 16) by (rewrite Rmin_right; lra).
  split; [lra|]. split; [destruct (wfr_zones _ _ _ _ _ _ E ZI) as [_ ->]; rewrite M; cbn; lra|]. assert (N : 1/2 <> 0) by lra. apply (wfr_parapet_lemma _ _ _ _ _ _ N E ZF).
Qed.
