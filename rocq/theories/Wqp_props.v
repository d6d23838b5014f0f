(** Property C361: plastic moduli of WQ beams. *)
Require Import Reals List Bool Lra Lia Psatz PeanoNat.
Import ListNotations.
From Verif Require Import Base EC3_model Bool_tac EC3_proofs Plate_proofs Sections_proofs Sections2_proofs Wqp_proofs.
From Verif Require Import Wqp_model Wqp_spec.
Local Open Scope R_scope.

(** C361 *)
Theorem C361_horizontal_axis : forall d, wq_valid d -> 0 <= wq_zpl d <= q_h d - q_tt d -> wq_Wply d = over (slab_abs (wq_axis d)) (wq_plates d).
Proof. exact wq_wply_lemma. Qed.
Print Assumptions C361_horizontal_axis.
Theorem C361_least : forall d z, wq_valid d -> 0 <= wq_zpl d <= q_h d - q_tt d -> wq_Wply d <= over (slab_abs z) (wq_plates d).
Proof. exact wq_wply_least_lemma. Qed.
Print Assumptions C361_least.
Theorem C361_vertical_axis : forall d, wq_valid d -> wq_Wplz d = over (slab_abs 0) (wq_across d).
Proof. exact wq_wplz_lemma. Qed.
Print Assumptions C361_vertical_axis.
Theorem C361_vertical_inertia : forall d, wq_Iz d = over (slab_second 0) (wq_across d).
Proof. exact wq_iz_lemma. Qed.
Print Assumptions C361_vertical_inertia.
Theorem C361_elastic_below : forall d, wq_valid d -> 0 <= wq_lip d -> 0 < wq_Welz d < wq_Wplz d.
Proof. exact wq_welz_lemma. Qed.
Print Assumptions C361_elastic_below.
Theorem C361_where : forall d, wq_valid d -> (0 <= wq_zpl d <-> q_bt d * q_tt d - q_bb d * q_tb d <= 2 * q_tw d * (q_h d - 2 * q_tt d)) /\
  (wq_zpl d <= q_h d - q_tt d <-> q_bb d * q_tb d - q_bt d * q_tt d <= 2 * q_tw d * q_h d).
Proof. exact wq_zpl_where_lemma. Qed.
Print Assumptions C361_where.
Theorem C361_outline : forall d, wq_valid d -> 0 <= wq_lip d -> wq_paint d = along (wq_outline d).
Proof. exact wq_paint_lemma. Qed.
Print Assumptions C361_outline.
(** With a heavy flange the plastic axis leaves the webs and the modulus about the horizontal axis is reported as zero. *)
Theorem C361_heavy_flange_refuted : forall d, wq_valid d -> wq_zpl d < 0 \/ q_h d - q_tt d < wq_zpl d -> wq_Wply d = 0.
Proof. exact wq_wply_zero_lemma. Qed.
Print Assumptions C361_heavy_flange_refuted.
Example C361_ex : wq_valid (mkWq 250 10 200 300 20 15) /\ 0 <= wq_zpl (mkWq 250 10 200 300 20 15) <= 230 /\ 0 <= wq_lip (mkWq 250 10 200 300 20 15) /\
  wq_valid (mkWq 200 5 150 400 10 20) /\ 190 < wq_zpl (mkWq 200 5 150 400 10 20).
Proof. unfold wq_valid, wq_zpl, wq_lip, q_hw, q_At, q_Ab; simpl; repeat split; lra. Qed.
