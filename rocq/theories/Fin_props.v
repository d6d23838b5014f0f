(** C283-C286: fin plate joints. *)
From Verif Require Import Base EC3_model Bool_tac EC3_proofs Sections_proofs Joint_model Fin_proofs.
From Verif Require Import Fin_model Fin_spec.
Require Import Reals List Bool Lra Lia PeanoNat.
Import ListNotations.
Local Open Scope R_scope.

(** The joint of the example in the source: IPE 300, plate 110x230x10, three bolts M20 8.8. *)
Definition ex_m20 : bolt := mkBolt 20 80 80 B88 22 (PI * 20 ^ 2 / 4) (mkBdata 245 (125/10) 30 18 (3295/100) 3 37) 640 800.
Definition ex_fin : fin := mkFin 300 (71/10) 235 360 2568 348000 (mkHP 110 230 10 235 360 210000 60 45 0 70 3 1) 0 ex_m20 10 true.
Lemma ex_fin_facts : standard ex_fin /\ fz ex_fin = 60 /\ fe1 ex_fin = 45 /\ fe2 ex_fin = 50 /\ fe2b ex_fin = 50 /\ shear_resistance (j_bolt ex_fin) true = 94080.
Proof.
  assert (Z : fz ex_fin = 60) by (unfold fz, ex_fin, eLeft; cbn [j_p p_x p_n2 p_px INR]; lra).
  split; [split; [left; cbn; auto|rewrite Z; cbn [ex_fin j_p p_py]; lra]|]. split; [exact Z|].
  split; [unfold fe1, centred, eTop, ex_fin; cbn [j_sym j_p p_h p_y p_n1 p_py INR]; lra|].
  split; [unfold fe2, eRight, ex_fin; cbn [j_p p_b p_x p_n2 p_px INR]; lra|].
  split; [unfold fe2b, eLeft, ex_fin; cbn [j_p p_x j_gh]; lra|].
  unfold shear_resistance, ex_fin, ex_m20, alpha_v, gammaM2. cbn [j_bolt b_class b_fub b_data t_As]. lra.
Qed.

(** C283 *)
Theorem C283_equilibrium : forall n1 n2 p1 p2 V z, (1 <= n1)%nat -> (1 <= n2)%nat -> polar (bolts n1 n2 p1 p2) <> 0 ->
  let l := bolts n1 n2 p1 p2 in
  Rsum (map (force_v l V z) l) = V /\ Rsum (map (force_h l V z) l) = 0 /\ Rsum (map (fun b => force_v l V z b * fst b + force_h l V z b * snd b) l) = V * z.
Proof. exact equilibrium_lemma. Qed.
Print Assumptions C283_equilibrium.
Theorem C283_bolt_shear : forall j, standard j -> 0 < shear_resistance (j_bolt j) true ->
  exists R, bolt_shear j = Some R /\ 0 < R /\ forall V, 0 <= V ->
  ((forall b, In b (group j) -> sqrt (force_v (group j) V (fz j) b ^ 2 + force_h (group j) V (fz j) b ^ 2) <= shear_resistance (j_bolt j) true) <-> V <= R).
Proof. exact fin_bolt_shear_lemma. Qed.
Print Assumptions C283_bolt_shear.
Example C283_ex : standard ex_fin /\ exists R, bolt_shear ex_fin = Some R /\ 0 < R.
Proof.
  destruct ex_fin_facts as (S0 & _ & _ & _ & _ & F). split; [exact S0|]. destruct (C283_bolt_shear ex_fin S0) as (R & E & P & _); [rewrite F; lra|]. eauto.
Qed.

(** C284 *)
Theorem C284_plate_bearing : forall j Fv Fh, standard j ->
  let p2 := if Nat.eqb (p_n2 (j_p j)) 1 then 100000 else p_px (j_p j) in
  bearing_resistance (j_bolt j) (p_fu (j_p j)) (p_t (j_p j)) (fe1 j) (fe2 j) (p_py (j_p j)) p2 true true = Some Fv ->
  bearing_resistance (j_bolt j) (p_fu (j_p j)) (p_t (j_p j)) (fe2 j) (fe1 j) p2 (p_py (j_p j)) true true = Some Fh -> 0 < Fv -> 0 < Fh ->
  exists R, fin_plate_bearing j = Some R /\ 0 < R /\ forall V, 0 <= V ->
  ((forall b, In b (group j) -> (force_v (group j) V (fz j) b / Fv) ^ 2 + (force_h (group j) V (fz j) b / Fh) ^ 2 <= 1) <-> V <= R).
Proof. exact plate_bearing_lemma. Qed.
Print Assumptions C284_plate_bearing.
Theorem C284_web_bearing : forall j Fv Fh, standard j ->
  let p2 := if Nat.eqb (p_n2 (j_p j)) 1 then 100000 else p_px (j_p j) in
  bearing_resistance (j_bolt j) (j_fu j) (j_tw j) (fe1 j) (fe2b j) (p_py (j_p j)) p2 true true = Some Fv ->
  bearing_resistance (j_bolt j) (j_fu j) (j_tw j) (fe2b j) (fe1 j) p2 (p_py (j_p j)) true true = Some Fh -> 0 < Fv -> 0 < Fh ->
  exists R, beam_web_bearing j = Some R /\ 0 < R /\ forall V, 0 <= V ->
  ((forall b, In b (group j) -> (force_v (group j) V (fz j) b / Fv) ^ 2 + (force_h (group j) V (fz j) b / Fh) ^ 2 <= 1) <-> V <= R).
Proof. exact fin_web_bearing_lemma. Qed.
Print Assumptions C284_web_bearing.
Example C284_ex : exists Fv Fh R, 0 < Fv /\ 0 < Fh /\ fin_plate_bearing ex_fin = Some R /\ 0 < R /\
  bearing_resistance (j_bolt ex_fin) 360 10 45 50 70 100000 true true = Some Fv /\ bearing_resistance (j_bolt ex_fin) 360 10 50 45 100000 70 true true = Some Fh.
Proof.
  destruct ex_fin_facts as (S0 & Z & E1 & E2 & _). 
  assert (A : exists Fv, bearing_resistance (j_bolt ex_fin) 360 10 45 50 70 100000 true true = Some Fv /\ 0 < Fv).
  { unfold bearing_resistance. rewrite pdiv_ok by lra. cbn [bind]. eexists. split; [reflexivity|]. cbn [ex_fin j_bolt ex_m20 b_d0 b_fub b_size]. unfold k1, alpha_d, gammaM2. change (INR 20) with (INR (2 * 10)). rewrite mult_INR. cbn [INR].
    unfold Rmin. repeat destruct (Rle_dec _ _); lra. }
  assert (B : exists Fh, bearing_resistance (j_bolt ex_fin) 360 10 50 45 100000 70 true true = Some Fh /\ 0 < Fh).
  { unfold bearing_resistance. rewrite pdiv_ok by lra. cbn [bind]. eexists. split; [reflexivity|]. cbn [ex_fin j_bolt ex_m20 b_d0 b_fub b_size]. unfold k1, alpha_d, gammaM2. change (INR 20) with (INR (2 * 10)). rewrite mult_INR. cbn [INR].
    unfold Rmin. repeat destruct (Rle_dec _ _); lra. }
  destruct A as (Fv & A & PA), B as (Fh & B & PB). destruct (C284_plate_bearing ex_fin Fv Fh S0) as (R & ER & PR & _); auto.
  - rewrite E1, E2. exact A.
  - rewrite E1, E2. exact B.
  - exists Fv, Fh, R. repeat (split; [assumption|]). assumption.
Qed.

(** C285 *)
Theorem C285_block_tearing_plate : forall j, (p_n2 (j_p j) = 2%nat \/ p_n2 (j_p j) = 1%nat /\ p_px (j_p j) = 0) ->
  let d0 := b_d0 (j_bolt j) in let n1 := INR (p_n1 (j_p j)) in let n2 := INR (p_n2 (j_p j)) in
  plate_block j = block_tearing (p_fy (j_p j)) (p_fu (j_p j))
    (p_t (j_p j) * (fe2 j + (n2 - 1) * p_px (j_p j) - (n2 - 1/2) * d0)) (p_t (j_p j) * (p_h (j_p j) - fe1 j - (n1 - 1/2) * d0)) false.
Proof. exact plate_block_lemma. Qed.
Print Assumptions C285_block_tearing_plate.
Theorem C285_block_tearing_web : forall j, (p_n2 (j_p j) = 2%nat \/ p_n2 (j_p j) = 1%nat /\ p_px (j_p j) = 0) ->
  let d0 := b_d0 (j_bolt j) in let n1 := INR (p_n1 (j_p j)) in let n2 := INR (p_n2 (j_p j)) in
  web_block j = block_tearing (j_fy j) (j_fu j)
    (j_tw j * (fe2b j + (n2 - 1) * p_px (j_p j) - (n2 - 1/2) * d0)) (j_tw j * (fe1b j + (n1 - 1) * p_py (j_p j) - (n1 - 1/2) * d0)) false.
Proof. exact web_block_lemma. Qed.
Print Assumptions C285_block_tearing_web.
Theorem C285_block_tearing_refuted : forall j, p_n2 (j_p j) = 1%nat -> 
  let d0 := b_d0 (j_bolt j) in let n1 := INR (p_n1 (j_p j)) in
  plate_block j = block_tearing (p_fy (j_p j)) (p_fu (j_p j)) (p_t (j_p j) * (fe2 j - 1/2 * d0)) (p_t (j_p j) * (p_h (j_p j) - fe1 j - (n1 - 1/2) * d0)) false
    + 4/10 * p_fu (j_p j) * p_t (j_p j) * p_px (j_p j).
Proof. exact block_extra_lemma. Qed.
Print Assumptions C285_block_tearing_refuted.
Theorem C285_shear : forall j, 
  shear_gross j = EC3_model.shear_resistance (p_h (j_p j) * p_t (j_p j)) (p_fy (j_p j)) / (127/100) /\
  shear_net j = (p_h (j_p j) * p_t (j_p j) - INR (p_n1 (j_p j)) * (b_d0 (j_bolt j) * p_t (j_p j))) * p_fu (j_p j) / (sqrt 3 * (125/100)) /\
  web_net j = (j_Av j - INR (p_n1 (j_p j)) * (b_d0 (j_bolt j) * j_tw j)) * j_fu j / (sqrt 3 * (125/100)).
Proof. exact shear_formulas_lemma. Qed.
Print Assumptions C285_shear.
Theorem C285_bending : forall j, 0 < fz j -> plate_bending j = Some (p_fy (j_p j) * p_t (j_p j) * p_h (j_p j) ^ 2 / (6 * fz j)) /\
  (0 < p_fy (j_p j) -> 0 < p_t (j_p j) -> 273/100 * fz j <= p_h (j_p j) -> shear_gross j <= p_fy (j_p j) * p_t (j_p j) * p_h (j_p j) ^ 2 / (6 * fz j)).
Proof. exact plate_bending_lemma. Qed.
Print Assumptions C285_bending.
Theorem C285_lateral : forall j, 0 < fz j -> 0 < p_fy (j_p j) -> 0 < p_t (j_p j) -> 0 < p_h (j_p j) -> 0 < p_E (j_p j) ->
  exists V M, plate_ltb j = Some V /\ plate_bending j = Some M /\ 0 < V <= M /\ (fz j < p_t (j_p j) / (15/100) -> V = M).
Proof. exact plate_ltb_lemma. Qed.
Print Assumptions C285_lateral.
Example C285_ex : exists V, plate_ltb ex_fin = Some V /\ V = 3107875/9 /\ shear_gross ex_fin <= V.
Proof.
  destruct ex_fin_facts as (_ & Z & _). destruct (C285_lateral ex_fin) as (V & M & E1 & E2 & _ & EQ); try (cbn [ex_fin j_p p_fy p_t p_h p_E]; lra).
  destruct (C285_bending ex_fin) as [EM LE]; [lra|]. exists V. assert (VM : V = M) by (apply EQ; rewrite Z; cbn [ex_fin j_p p_t]; lra).
  rewrite EM in E2. injection E2 as E2. assert (M1 : M = 3107875/9) by (rewrite <- E2, Z; cbn [ex_fin j_p p_fy p_t p_h]; lra). split; [exact E1|]. split; [lra|].
  rewrite VM, <- E2. apply LE; cbn [ex_fin j_p p_fy p_t p_h]; lra.
Qed.

(** C286 *)
Theorem C286_symmetric : forall j, j_sym j = true -> fe1 j = (p_h (j_p j) - (INR (p_n1 (j_p j)) - 1) * p_py (j_p j)) / 2 /\ fe1 j = p_y (centred j) /\
  p_h (j_p j) = 2 * fe1 j + (INR (p_n1 (j_p j)) - 1) * p_py (j_p j).
Proof. exact fin_symmetric_lemma. Qed.
Print Assumptions C286_symmetric.
Theorem C286_edges : forall j, eLeft (j_p j) + (INR (p_n2 (j_p j)) - 1) * p_px (j_p j) + fe2 j = p_b (j_p j) /\
  fz j = (eLeft (j_p j) + (p_b (j_p j) - fe2 j)) / 2 /\ fe1b j + (j_pos j + p_h (j_p j) / 2 - fe1 j) = j_h j / 2.
Proof. exact edges_lemma. Qed.
Print Assumptions C286_edges.
Theorem C286_positions : forall j, let d0 := b_d0 (j_bolt j) in
  (check_bolts j = true <-> 12/10 * d0 <= fe1 j /\ 12/10 * d0 <= fe2 j /\ 12/10 * d0 <= fe2b j /\ 22/10 * d0 <= p_py (j_p j) /\ (p_px (j_p j) <= 0 \/ 24/10 * d0 <= p_px (j_p j))).
Proof. exact check_bolts_lemma. Qed.
Print Assumptions C286_positions.
Theorem C286_beam_edge_refuted : forall j, j_sym j = true -> check_bolts j = true -> forall h, 
  let j' := mkFin h (j_tw j) (j_fy j) (j_fu j) (j_Av j) (j_VRd j) (j_p j) (j_pos j) (j_bolt j) (j_gh j) (j_sym j) in
  check_bolts j' = true /\ fe1b j' = h / 2 - j_pos j - (INR (p_n1 (j_p j)) - 1) * p_py (j_p j) / 2.
Proof. exact unchecked_edge_lemma. Qed.
Print Assumptions C286_beam_edge_refuted.
Example C286_ex : check_bolts ex_fin = true.
Proof. destruct ex_fin_facts as (_ & _ & E1 & E2 & E3 & _). apply C286_positions. rewrite E1, E2, E3. cbn [ex_fin j_bolt ex_m20 b_d0 j_p p_py p_px]. lra. Qed.
