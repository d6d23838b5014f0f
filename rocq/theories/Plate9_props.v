(** Further theorems about C55, C57, C98 and C99. *)
From Verif Require Import Base EC3_proofs Plate_proofs Plate9_proofs.
From Verif Require Import Plate_model Plate_spec.

Theorem C55_outstand_value : forall lp, 749/1000 <= lp -> reduction_factor_outstand lp * lp ^ 2 = lp - 188/1000.
Proof. exact rho_outstand_value_lemma. Qed.
Print Assumptions C55_outstand_value.
Theorem C57_eta_values : forall fy, (fy <= 460 -> 5 * shear_eta fy = 6) /\ (460 < fy -> shear_eta fy = 1).
Proof. exact eta_values_lemma. Qed.
Print Assumptions C57_eta_values.
Theorem C98_flanges : forall bf tf fyf a hw t fyw rM, 0 < bf -> 0 < tf -> 0 < fyf -> 0 < a -> 0 < hw -> 0 < t -> 0 < fyw ->
  let V := shear_buckling_flanges bf tf fyf a hw t fyw rM in
  V * a * (5 * t * hw ^ 2 * fyw + 32 * bf * tf ^ 2 * fyf) = 20 * bf * tf ^ 2 * fyf * t * hw ^ 2 * fyw * (1 - rM ^ 2) /\
  (-1 <= rM <= 1 -> 0 <= V) /\ (0 <= rM -> (V = 0 <-> rM = 1)).
Proof. exact flanges_lemma. Qed.
Print Assumptions C98_flanges.
Theorem C99_coefficients : forall hw a ss c, 0 < hw -> 0 < a -> 0 <= ss -> 0 <= c ->
  (kF hw a ss c Ta - 6) * a ^ 2 = 2 * hw ^ 2 /\ (kF hw a ss c Tb - 35/10) * a ^ 2 = 2 * hw ^ 2 /\
  (3 * (ss + c) <= 2 * hw -> (kF hw a ss c Tc - 2) * hw = 6 * (ss + c)) /\ (2 * hw <= 3 * (ss + c) -> kF hw a ss c Tc = 6).
Proof. exact kF_values_lemma. Qed.
Print Assumptions C99_coefficients.
(** C99: load near an unstiffened end (load type c). *)
Theorem C99_end_range : forall fyw hw tw fyf bf tf ss a c, tf_ok fyw hw tw fyf bf tf ss a -> 0 <= c ->
  0 < transverse_force_resistance fyw hw tw fyf bf tf ss a Tc c <=
    fyw * tw * (ss + c + tf * sqrt (fyf * bf / (fyw * tw) + 2/100 * (hw / tf) ^ 2)).
Proof. exact tfc_range_lemma. Qed.
Print Assumptions C99_end_range.
(** Finding: near an unstiffened end a longer bearing can lower the resistance. *)
Theorem C99_end_bearing_refuted : tf_ok 380 400 16 380 400 40 210 0 /\
  transverse_force_resistance 380 400 16 380 400 40 212 0 Tc 0 < transverse_force_resistance 380 400 16 380 400 40 210 0 Tc 0.
Proof. exact tfc_bearing_refuted_lemma. Qed.
Print Assumptions C99_end_bearing_refuted.
