(** C205 to C208: tables and exact formulas behind load combinations, wind and timber in fire. *)
From Verif Require Import Base Loads_proofs Loads2_proofs Loads9_proofs.
From Verif Require Import Loads_model Loads_spec Loads9_spec.

(** C205 *)
Theorem C205_added_load : forall l c, (c_cls c <= 4)%nat -> let '(var, m, f) := appended (c_cls c) (c_kk c) l in
  exists c', add_load l c = Some c' /\ c_cls c' = c_cls c /\ c_kfi c' = c_kfi c /\ c_kk c' = c_kk c /\
    let l' := mkLoad (l_kind l) (m * l_val l) f (l_dir l) (l_ids l) in
    c_G c' = c_G c ++ (if var then [] else [l']) /\ c_Q c' = c_Q c ++ (if var then [l'] else []).
Proof. exact add_exact_lemma. Qed.
Print Assumptions C205_added_load.
Theorem C205_unknown_class : forall l c, (4 < c_cls c)%nat -> add_load l c = None <-> l_kind l <> kSnow /\ l_kind l <> kWind.
Proof. exact add_class_lemma. Qed.
Print Assumptions C205_unknown_class.
Theorem C205_new_combiner : forall cls CC kk, let c := new_combiner cls CC kk in
  c_cls c = cls /\ c_kk c = kk /\ c_G c = [] /\ c_Q c = [] /\ ((1 <= CC <= 3)%nat -> c_kfi c = Some (8/10 + INR CC / 10)) /\ (~ (1 <= CC <= 3)%nat -> c_kfi c = None).
Proof. exact new_combiner_lemma. Qed.
Print Assumptions C205_new_combiner.
Example C205_ex : exists c, add_load (mkLoad kSnow 2 (0, 0, 0) dy [0%nat]) (new_combiner 2 3 (5/2)) = Some c /\ c_Q c = [mkLoad kSnow (5/2 * 2) (7/10, 4/10, 2/10) dy [0%nat]].
Proof.
  destruct (add_exact_lemma (mkLoad kSnow 2 (0, 0, 0) dy [0%nat]) (new_combiner 2 3 (5/2)) ltac:(cbn; lia)) as (c & E & _ & _ & _ & _ & Q).
  exists c. split; [exact E|]. rewrite Q. cbn. destruct (Rlt_dec 2 (11/4)); [reflexivity|lra].
Qed.

(** C206 *)
Theorem C206_factor : forall p kk L, let a := 5/7 * p + 10 / (kk * L) in
  (a < 7/10 -> reduction_alpha p kk L = 7/10) /\ (7/10 <= a <= 1 -> reduction_alpha p kk L = a) /\ (1 < a -> reduction_alpha p kk L = 1).
Proof. exact alpha_value_lemma. Qed.
Print Assumptions C206_factor.
Theorem C206_loads : forall L c, ((4 <= c_cls c)%nat -> use_reduction L c = c) /\
  ((c_cls c < 4)%nat -> Forall2 (fun q q' => q' = match l_kind q with
      | kImposed => mkLoad kImposed (reduction_alpha (fst (fst (l_psi q))) (c_kk c) L * l_val q) (l_psi q) (l_dir q) (l_ids q) | _ => q end)
    (c_Q c) (c_Q (use_reduction L c))).
Proof. exact reduction_exact_lemma. Qed.
Print Assumptions C206_loads.
Example C206_ex : reduction_alpha (7/10) 1 25 = 9/10.
Proof. rewrite (proj1 (proj2 (alpha_value_lemma (7/10) 1 25))); lra. Qed.

(** C207 *)
Theorem C207_wall_zones : forall b d h, let e := Rmin b (2 * h) in let w := wall_pressure b d h in
  (e < d -> len_A w = 1/5 * e /\ len_B w = 4/5 * e /\ len_C w = d - e) /\
  (d <= e < 5 * d -> len_A w = 1/5 * e /\ len_B w = d - 1/5 * e /\ len_C w = 0) /\
  (d <= e -> 5 * d <= e -> len_A w = d /\ len_B w = 0 /\ len_C w = 0).
Proof. exact walls_exact_lemma. Qed.
Print Assumptions C207_wall_zones.
Theorem C207_flat_roof_zones : forall d b h, let e := Rmin b (2 * h) in
  flat_zones d b h = ((e / 4, e / 10), (b - 2 * (e / 4), e / 10), (b, e / 2 - e / 10), (b, d - e / 2)).
Proof. exact flat_exact_lemma. Qed.
Print Assumptions C207_flat_roof_zones.
Theorem C207_terrain : forall cat, (cat <= 4)%nat -> let '(z0, zm) := nth cat table_41 (0, 0)%Z in
  terrain cat = Some (IZR z0 / 1000, IZR zm / 1000) /\
  (cat = 0%nat -> kr cat (IZR z0 / 1000) = 18/100) /\ (cat <> 0%nat -> kr cat (IZR z0 / 1000) = 19/100 * exp (7/100 * ln (IZR z0 / 50))).
Proof. exact terrain_lemma. Qed.
Print Assumptions C207_terrain.
Theorem C207_velocity : forall z cat vb z0 zm, terrain cat = Some (z0, zm) -> let L := ln (Rmax zm z / z0) in
  turbulence_intensity z cat = Some (1 / L) /\ terrain_roughness z cat = Some (kr cat z0 * L) /\ mean_wind_velocity vb z cat = Some (kr cat z0 * L * vb) /\
  peak_velocity_pressure z cat vb = Some ((1 + 7 / L) * (1/2) * (5/4) * (kr cat z0 * L * vb) ^ 2).
Proof. exact turbulence_lemma. Qed.
Print Assumptions C207_velocity.
Example C207_ex : len_B (wall_pressure 10 6 20) = 4.
Proof.
  destruct (walls_exact_lemma 10 6 20) as (_ & H & _). assert (E : Rmin 10 (2 * 20) = 10) by (apply Rmin_left; lra). rewrite E in H.
  destruct (H ltac:(lra)) as (_ & -> & _). lra.
Qed.

(** C208 *)
Theorem C208_kmod : forall m sc i, (i <= 4)%nat -> kmod m sc (nth i durations perm_) =
  match sc with 1%nat | 2%nat => Some (IZR (nth i kmod_12 0%Z) / 100) | 3%nat => Some (IZR (nth i kmod_3 0%Z) / 100) | _ => None end.
Proof. exact kmod_table_lemma. Qed.
Print Assumptions C208_kmod.
Theorem C208_design_strength : forall fk k, k_to_d fk k (gammaM_timber solid) = k * fk / (13/10) /\ k_to_d fk k (gammaM_timber glt) = k * fk / (5/4) /\ k_to_d fk k (gammaM_timber lvl) = k * fk / (6/5).
Proof. exact design_strength_value_lemma. Qed.
Print Assumptions C208_design_strength.
Theorem C208_charring_rate : forall m sw lo b0 bn rhok hp, In (m, sw, lo, b0, bn) char_rates -> IZR lo <= rhok ->
  (20 <= hp -> charring_speed rhok m sw hp = Some (IZR b0 / 100, IZR bn / 100)) /\
  (0 < hp < 20 -> charring_speed rhok m sw hp = Some (sqrt (450 / rhok) * sqrt (20 / hp) * (IZR b0 / 100), IZR bn / 100)).
Proof. exact char_rate_lemma. Qed.
Print Assumptions C208_charring_rate.
Theorem C208_charring_rate_lvl : forall rhok sw hp, 410 <= rhok < 480 -> 20 <= hp -> charring_speed rhok lvl sw hp = Some (70/100, 75/100).
Proof. exact lvl_mid_lemma. Qed.
Print Assumptions C208_charring_rate_lvl.
Theorem C208_charring_rate_unknown : forall rhok m hp, rhok < 290 -> charring_speed rhok m true hp = None.
Proof. exact low_density_lemma. Qed.
Print Assumptions C208_charring_rate_unknown.
Theorem C208_charring_depth : forall p tf ta beta t, prot_ok p tf ta -> t_ch p <= t -> let d0 := 7 * k0 (Some p) t in let tc := t_ch p in
  (tc < tf -> t < tf -> d_char_n (Some p) t beta = Some (73/100 * beta * (t - tc) + d0)) /\
  (tc < tf -> tf < t < ta -> d_char_n (Some p) t beta = Some (73/100 * beta * (tf - tc) + 2 * beta * (t - tf) + d0)) /\
  (tc < tf -> tf < t -> ta <= t -> d_char_n (Some p) t beta = Some (73/100 * beta * (tf - tc) + 2 * beta * (ta - tf) + beta * (t - ta) + d0)) /\
  (tf <= tc -> t < ta -> d_char_n (Some p) t beta = Some (2 * beta * (t - tf) + d0)) /\
  (tf <= tc -> ta <= t -> d_char_n (Some p) t beta = Some (2 * beta * (ta - tf) + beta * (t - ta) + d0)).
Proof. exact char_depth_lemma. Qed.
Print Assumptions C208_charring_depth.
Theorem C208_zero_strength_layer : forall fp t, 0 <= t ->
  (match fp with None => True | Some p => t_ch p <= 20 end -> (t < 20 -> k0 fp t = t / 20) /\ (20 <= t -> k0 fp t = 1)) /\
  (forall p, fp = Some p -> 20 < t_ch p -> (t <= t_ch p -> k0 fp t = t / t_ch p) /\ (t_ch p < t -> k0 fp t = 1)).
Proof. exact k0_lemma. Qed.
Print Assumptions C208_zero_strength_layer.
Theorem C208_protection_times : forall b tch tf, 0 < b -> set_tf b tch = Some (tch + 125/10 / (73/100 * b)) /\ set_ta b tf = Some (Rmin (2 * tf) (tf + 25 / (2 * b))).
Proof. exact times_value_lemma. Qed.
Print Assumptions C208_protection_times.
Example C208_ex : charring_speed 430 glt true 100 = Some (65/100, 70/100).
Proof. destruct (char_rate_lemma glt true 290%Z 65%Z 70%Z 430 100) as [H _]; [cbn; tauto|lra|]. apply H. lra. Qed.
