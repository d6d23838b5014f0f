(** Further theorems about C58: the tables of EN 1993-1-2 (3.1, C.1, D.1, E.1). *)
From Verif Require Import Base EC3_proofs Fire_proofs Fire9_proofs.
From Verif Require Import Fire_model Fire_spec.

Theorem C58_printed_tables : forall s p zs vs z v, In (s, p, zs, vs) printed -> In (z, v) (combine zs vs) -> reduce_property (IZR z) p s = Some (IZR v / 10000).
Proof. exact printed_lemma. Qed.
Print Assumptions C58_printed_tables.
(** The factor ky of steel 1.4301 as the code has it; the standard prints 0.40, not
    0.04, from 1000 degrees on. *)
Theorem C58_stainless_ky : forall z v, In (z, v) (combine cs_temps ky_stainless) -> reduce_property (IZR z) ky s14301 = Some (IZR v / 10000).
Proof. exact ky_stainless_lemma. Qed.
Print Assumptions C58_stainless_ky.
Theorem C58_unknown_steel : forall z p, In z SPECIAL_TEMPS -> reduce_property (IZR z) p unknown = Some 1.
Proof. exact unknown_steel_lemma. Qed.
Print Assumptions C58_unknown_steel.
Example C58_printed_ex : reduce_property (IZR 600) kE carbon = Some (IZR 3100 / 10000).
Proof. eapply printed_lemma; [right; right; left; reflexivity|]. cbn. tauto. Qed.

(** C204 *)
Theorem C204_conductivity : (forall t, t < 800 -> therm_conductivity t = 54 - t / 30 + t / 30000) /\ (forall t, 800 <= t -> therm_conductivity t = 273/10) /\
  (forall t t', t <= t' -> therm_conductivity t' <= therm_conductivity t) /\ (forall t, 20 <= t -> 273/10 <= therm_conductivity t <= 53334/1000) /\
  (forall t, therm_conductivity_stainless t = 146/10 + 127/100 * (t / 100)).
Proof. exact conductivity_lemma. Qed.
Print Assumptions C204_conductivity.
Theorem C204_specific_heat : (forall t, t < 600 -> spec_heat t = Some (425 + t * (773/1000 + t * (- (169/100000) + t * (222/100000000))))) /\
  (forall t, 600 <= t < 735 -> exists c, spec_heat t = Some c /\ (c - 666) * (738 - t) = 13002) /\
  (forall t, 735 <= t < 900 -> exists c, spec_heat t = Some c /\ (c - 545) * (t - 731) = 17820) /\ (forall t, 900 <= t -> spec_heat t = Some 650) /\
  (forall t, spec_heat_stainless t = 450 + t * (280/1000 + t * (- (291/1000000) + t * (134/1000000000)))).
Proof. exact heat_values_lemma. Qed.
Print Assumptions C204_specific_heat.
Theorem C204_elongation : (forall t, t < 750 -> therm_elongation t = (t - 20) * (12 + 4/1000 * (t + 20)) / 1000000) /\
  (forall t, 750 <= t <= 860 -> therm_elongation t = 11/1000) /\ therm_elongation_stainless 20 = 0 /\
  (forall t, therm_elongation_stainless t = (t - 20) * (16 + 479/100000 * t - 1243/1000000000 * t ^ 2) / 1000000).
Proof. exact elongation_values_lemma. Qed.
Print Assumptions C204_elongation.
Example C204_ex : therm_conductivity 500 = 3735/100 /\ spec_heat 700 = Some (666 + 13002 / 38).
Proof.
  split; [rewrite (proj1 conductivity_lemma) by lra; lra|]. destruct heat_values_lemma as (_ & H & _). destruct (H 700 ltac:(lra)) as (c & -> & E). f_equal. lra.
Qed.
