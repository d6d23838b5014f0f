(** Exact tables and helpers belonging to C177, C186, C188, C217, C219 and C232. *)
From Verif Require Import Base EC3_model Bool_tac Tight_proofs.
From Verif Require Import Loads_model Member_model Cold_model Timber_model Heur_model.
Require Import Reals List Bool Lra Lia PeanoNat.
Import ListNotations.
Local Open Scope R_scope.

(** C177 *)
Theorem C177_C2_table : forall K,
  let q a b c := (a + b * K + c * K ^ 2) / 1000 in
  cant_C2 K true true Top = q 409 1444 70 /\ cant_C2 K false true Top = q 984 1420 165 /\
  cant_C2 K true false Top = q 380 2092 (-318) /\ cant_C2 K false false Top = q 1130 1539 (-176) /\
  cant_C2 K true true Bottom = q 529 234 149 /\ cant_C2 K false true Bottom = q 1028 388 150 /\
  cant_C2 K true false Bottom = q 512 370 (-33) /\ cant_C2 K false false Bottom = q 1049 234 (-20) /\
  (forall p f, cant_C2 K p f Middle = 0).
Proof. exact cantilever_C2_lemma. Qed.
Print Assumptions C177_C2_table.
Example C177_C2_ex : cant_C2 1 true true Top = 1923/1000.
Proof. destruct (C177_C2_table 1) as [-> _]. lra. Qed.

(** C232 *)
Theorem C232_net_section_value : forall A A' fu, 0 < fu -> 125/100 * screw_net_section A fu = A * fu /\
  (A < A' -> screw_net_section A fu < screw_net_section A' fu).
Proof. exact tight_screw_net_lemma. Qed.
Print Assumptions C232_net_section_value.
Theorem C232_values : forall d v,
  (screw_shear d hardened = Some v <-> (d = 48/10 /\ v = 5200) \/ (d = 55/10 /\ v = 7200) \/ (d = 63/10 /\ v = 9800) \/ (d = 8 /\ v = 16300)) /\
  (screw_shear d stainless_screw = Some v <-> (d = 48/10 /\ v = 4600) \/ (d = 55/10 /\ v = 6500) \/ (d = 63/10 /\ v = 8500) \/ (d = 8 /\ v = 14300)).
Proof. exact screw_values_lemma. Qed.
Print Assumptions C232_values.
Example C232_values_ex : screw_shear (55/10) stainless_screw = Some 6500 /\ screw_net_section 100 500 = 40000.
Proof. split; [apply C232_values; lra|]. destruct (C232_net_section_value 100 200 500 ltac:(lra)) as [H _]. lra. Qed.

(** C186 *)
Theorem C186_generic : forall (A : Type) (r l b t v : option A) sides,
  (sides = 3%nat -> set_generic (r, l, b, t) v sides = (v, v, v, t)) /\ (sides <> 3%nat -> set_generic (r, l, b, t) v sides = (v, v, v, v)).
Proof. exact tight_generic_lemma. Qed.
Print Assumptions C186_generic.
Theorem C186_charring_rate : forall g B H, 20 <= B -> 20 <= H ->
  sec_beta g B H = Some (match gtype g with solid => 8/10 | glt => 7/10 | lvl => if Rlt_dec (td_rhok (gdata g)) 480 then 75/100 else 7/10 end).
Proof. exact tight_beta_lemma. Qed.
Print Assumptions C186_charring_rate.
Theorem C186_hardwood_refuted : forall B H, 20 <= B -> 20 <= H -> 450 <= td_rhok (gdata D40) /\ sec_beta D40 B H <> Some (55/100).
Proof. exact tight_hardwood_lemma. Qed.
Print Assumptions C186_hardwood_refuted.
Example C186_rate_ex : sec_beta GL30c 115 315 = Some (7/10) /\ sec_beta C24 48 198 = Some (8/10).
Proof. split; rewrite C186_charring_rate by lra; reflexivity. Qed.

(** C188 *)
Theorem C188_lvl_flat : forall g,
  (gtype g <> lvl -> lvl_flat g = None) /\ lvl_flat KertoS = Some (50, 1.8, 0.12) /\ lvl_flat KertoT = Some (32, 1, 0.15) /\
  lvl_flat KertoQ21 = Some (32, 2.2, 0.12) /\ lvl_flat KertoQ27 = Some (36, 2.2, 0.12).
Proof. exact tight_lvl_flat_lemma. Qed.
Print Assumptions C188_lvl_flat.
Example C188_lvl_ex : gtype C24 <> lvl.
Proof. discriminate. Qed.

(** C217 *)
Theorem C217_step_entry : forall a d x i u v, nth_error x i = Some u -> nth_error d i = Some v -> nth_error (vaxpy a d x) i = Some (u + a * v).
Proof. exact tight_step_lemma. Qed.
Print Assumptions C217_step_entry.
Example C217_step_ex : nth_error (vaxpy 2 [3; 4] [1; 5]) 1 = Some (5 + 2 * 4).
Proof. apply C217_step_entry; reflexivity. Qed.

(** C219 *)
Theorem C219_default_values : forall n, length (group_values n None) = n /\ forall x, In x (group_values n None) -> x = 0.
Proof. exact tight_group_values_lemma. Qed.
Print Assumptions C219_default_values.
Example C219_default_ex : length (group_values 3 None) = 3%nat.
Proof. apply C219_default_values. Qed.
