From Verif Require Import Base EC3_proofs Sections_proofs Loads_proofs Loads2_proofs.
From Verif Require Import Loads_model Loads_spec Loads9_spec.
Require Import Psatz.

Lemma tri (a b c a' b' c' : R) : a = a' -> b = b' -> c = c' -> (a, b, c) = (a', b', c').
Proof. intros -> -> ->. reflexivity. Qed.
Lemma add_exact_lemma l c : (c_cls c <= 4)%nat -> let '(var, m, f) := appended (c_cls c) (c_kk c) l in
  exists c', add_load l c = Some c' /\ c_cls c' = c_cls c /\ c_kfi c' = c_kfi c /\ c_kk c' = c_kk c /\
    let l' := mkLoad (l_kind l) (m * l_val l) f (l_dir l) (l_ids l) in
    c_G c' = c_G c ++ (if var then [] else [l']) /\ c_Q c' = c_Q c ++ (if var then [l'] else []).
Proof.
  intros B. assert (CF : comb_factors (c_cls c) = Some (tenths (nth (c_cls c) table_A11 []))).
  { destruct (c_cls c) as [|[|[|[|[|n]]]]]; [..|lia]; unfold comb_factors, table_A11, tenths; cbn [nth]; f_equal; apply tri; lra. }
  unfold appended, add_load. destruct l as [k v p d ids]. cbn [l_kind l_val l_psi l_dir l_ids].
  destruct k; cbn [l_kind l_val l_psi l_dir l_ids]; rewrite ?CF; cbn [bind];
  (eexists; split; [reflexivity|]; cbn [c_cls c_kfi c_kk c_G c_Q]; rewrite ?app_nil_r; repeat split; auto).
  - f_equal. f_equal. f_equal. lra.
  - f_equal. f_equal. f_equal. lra.
  - f_equal. f_equal. f_equal. lra.
  - f_equal. f_equal. f_equal; [lra|]. unfold snow_psi, Rltb. 
    destruct (Rlt_dec v (275/100)), (Rlt_dec v (11/4)); try lra; unfold tenths; cbn [nth]; apply tri; lra.
  - f_equal. f_equal. f_equal. lra.
Qed.
Lemma add_class_lemma l c : (4 < c_cls c)%nat -> add_load l c = None <-> l_kind l <> kSnow /\ l_kind l <> kWind.
Proof.
  intros B. assert (CF : comb_factors (c_cls c) = None) by (destruct (c_cls c) as [|[|[|[|[|n]]]]]; try lia; reflexivity).
  unfold add_load. destruct l as [k v p d ids]. destruct k; cbn [l_kind]; rewrite ?CF; cbn [bind]; split; try (intros; discriminate); try tauto; intros; try (split; discriminate).
  all: try (destruct H; congruence).
Qed.
Lemma new_combiner_lemma cls CC kk : let c := new_combiner cls CC kk in
  c_cls c = cls /\ c_kk c = kk /\ c_G c = [] /\ c_Q c = [] /\ ((1 <= CC <= 3)%nat -> c_kfi c = Some (8/10 + INR CC / 10)) /\ (~ (1 <= CC <= 3)%nat -> c_kfi c = None).
Proof.
  cbv zeta. unfold new_combiner. cbn [c_cls c_kk c_G c_Q c_kfi]. repeat split; auto.
  - intros H. destruct CC as [|[|[|[|n]]]]; try lia; f_equal; cbn; lra.
  - intros H. destruct CC as [|[|[|[|n]]]]; try lia; reflexivity.
Qed.

Lemma alpha_value_lemma p kk L : let a := 5/7 * p + 10 / (kk * L) in
  (a < 7/10 -> reduction_alpha p kk L = 7/10) /\ (7/10 <= a <= 1 -> reduction_alpha p kk L = a) /\ (1 < a -> reduction_alpha p kk L = 1).
Proof.
  cbv zeta. unfold reduction_alpha. set (a := 5/7 * p + 10 / (kk * L)). repeat split; intros.
  - rewrite Rmax_right by lra. apply Rmin_left. lra.
  - rewrite Rmax_left by lra. apply Rmin_left. lra.
  - rewrite Rmax_left by lra. apply Rmin_right. lra.
Qed.
Lemma reduction_exact_lemma L c :
  ((4 <= c_cls c)%nat -> use_reduction L c = c) /\
  ((c_cls c < 4)%nat -> Forall2 (fun q q' => q' = match l_kind q with
      | kImposed => mkLoad kImposed (reduction_alpha (fst (fst (l_psi q))) (c_kk c) L * l_val q) (l_psi q) (l_dir q) (l_ids q) | _ => q end)
    (c_Q c) (c_Q (use_reduction L c))).
Proof.
  unfold use_reduction. split; intros H.
  - rewrite (proj2 (Nat.ltb_ge _ _) H). reflexivity.
  - rewrite (proj2 (Nat.ltb_lt _ _) H). cbn [c_Q]. induction (c_Q c) as [|q Q IH]; constructor; auto.
    destruct (l_kind q); auto. unfold psi. destruct (l_psi q) as [[x y] z]. cbn [fst]. f_equal. lra.
Qed.

Lemma walls_exact_lemma b d h : let e := Rmin b (2 * h) in let w := wall_pressure b d h in
  (e < d -> len_A w = 1/5 * e /\ len_B w = 4/5 * e /\ len_C w = d - e) /\
  (d <= e < 5 * d -> len_A w = 1/5 * e /\ len_B w = d - 1/5 * e /\ len_C w = 0) /\
  (d <= e -> 5 * d <= e -> len_A w = d /\ len_B w = 0 /\ len_C w = 0).
Proof.
  cbv zeta. unfold wall_pressure, wall_zones, wind_e. set (e := Rmin b (2 * h)).
  repeat split; intros;
  (destruct (Rltb e d) eqn:E; [apply Rltb_true in E|apply Rltb_false in E]; try (exfalso; lra));
  try (destruct (Rleb (5 * d) e) eqn:F; [apply Rleb_true in F|apply Rleb_false in F]; try (exfalso; lra));
  destruct (Rltb 10 (b * h)); try destruct (cpe_DE (h / d)); cbn; lra.
Qed.
Lemma flat_exact_lemma d b h : let e := Rmin b (2 * h) in
  flat_zones d b h = ((e / 4, e / 10), (b - 2 * (e / 4), e / 10), (b, e / 2 - e / 10), (b, d - e / 2)).
Proof. cbv zeta. unfold flat_zones, wind_e. set (e := Rmin b (2 * h)). repeat (f_equal; try lra). Qed.

Lemma terrain_lemma cat : (cat <= 4)%nat -> let '(z0, zm) := nth cat table_41 (0, 0)%Z in
  terrain cat = Some (IZR z0 / 1000, IZR zm / 1000) /\
  (cat = 0%nat -> kr cat (IZR z0 / 1000) = 18/100) /\ (cat <> 0%nat -> kr cat (IZR z0 / 1000) = 19/100 * exp (7/100 * ln (IZR z0 / 50))).
Proof.
  intros B. destruct cat as [|[|[|[|[|n]]]]]; [..|lia]; cbn [nth table_41 terrain kr]; (split; [f_equal; f_equal; lra|]); (split; [intros; try lra; congruence|]);
  intros; try congruence; unfold Rpower; do 4 f_equal; lra.
Qed.
Lemma turbulence_lemma z cat vb z0 zm : terrain cat = Some (z0, zm) -> let L := ln (Rmax zm z / z0) in
  turbulence_intensity z cat = Some (1 / L) /\ terrain_roughness z cat = Some (kr cat z0 * L) /\ mean_wind_velocity vb z cat = Some (kr cat z0 * L * vb) /\
  peak_velocity_pressure z cat vb = Some ((1 + 7 / L) * (1/2) * (5/4) * (kr cat z0 * L * vb) ^ 2).
Proof.
  intros T. cbv zeta. destruct (peak_lemma z cat vb z0 zm T) as (q & L & _ & L0 & EX & _).
  assert (EL : ln (Rmax zm z / z0) = L) by (rewrite <- EX; apply ln_exp). unfold peak_velocity_pressure, turbulence_intensity, mean_wind_velocity, terrain_roughness.
  rewrite T. cbn [bind]. rewrite !EL. rewrite pdiv_ok by lra. cbn [bind]. repeat split; f_equal; try (field; lra); lra.
Qed.

Lemma kmod_table_lemma m sc i : (i <= 4)%nat -> kmod m sc (nth i durations perm_) =
  match sc with 1%nat | 2%nat => Some (IZR (nth i kmod_12 0%Z) / 100) | 3%nat => Some (IZR (nth i kmod_3 0%Z) / 100) | _ => None end.
Proof.
  intros B. destruct i as [|[|[|[|[|n]]]]]; [..|lia]; destruct sc as [|[|[|[|s]]]]; cbn; try reflexivity; f_equal; lra.
Qed.
Lemma char_rate_lemma m sw lo b0 bn rhok hp : In (m, sw, lo, b0, bn) char_rates -> IZR lo <= rhok ->
  (20 <= hp -> charring_speed rhok m sw hp = Some (IZR b0 / 100, IZR bn / 100)) /\
  (0 < hp < 20 -> charring_speed rhok m sw hp = Some (sqrt (450 / rhok) * sqrt (20 / hp) * (IZR b0 / 100), IZR bn / 100)).
Proof.
  intros IN LO. assert (P : 0 < rhok) by (cbn in IN; repeat destruct IN as [IN|IN]; try contradiction; injection IN as <- <- <- <- <-; lra).
  assert (EB : base_beta rhok m sw = Some (IZR b0 / 100, IZR bn / 100)).
  { unfold base_beta, charring_speed, Rleb, Rltb. cbn in IN. repeat destruct IN as [IN|IN]; try contradiction; injection IN as <- <- <- <- <-;
    repeat match goal with |- context[Rle_dec ?a ?b] => destruct (Rle_dec a b); try (exfalso; lra) | |- context[Rlt_dec ?a ?b] => destruct (Rlt_dec a b); try (exfalso; lra) end;
    cbn [bind]; f_equal; f_equal; lra. }
  split; intros H.
  - destruct (charring_split rhok m sw hp _ EB P ltac:(lra)) as [_ ->]. unfold Rltb. destruct (Rlt_dec hp 20); [lra|reflexivity].
  - destruct (charring_split rhok m sw hp _ EB P ltac:(lra)) as [_ ->]. unfold Rltb. destruct (Rlt_dec hp 20); [reflexivity|lra].
Qed.
Lemma lvl_mid_lemma rhok sw hp : 410 <= rhok < 480 -> 20 <= hp -> charring_speed rhok lvl sw hp = Some (70/100, 75/100).
Proof.
  intros H HP. unfold charring_speed, Rleb, Rltb.
  repeat match goal with |- context[Rle_dec ?a ?b] => destruct (Rle_dec a b); try (exfalso; lra) | |- context[Rlt_dec ?a ?b] => destruct (Rlt_dec a b); try (exfalso; lra) end.
  cbn [bind]. f_equal. f_equal; lra.
Qed.
Lemma low_density_lemma rhok m hp : rhok < 290 -> charring_speed rhok m true hp = None.
Proof.
  intros H. unfold charring_speed, Rleb. destruct m;
  repeat match goal with |- context[Rle_dec ?a ?b] => destruct (Rle_dec a b); try (exfalso; lra) end; reflexivity.
Qed.
Lemma char_depth_lemma p tf ta beta t : prot_ok p tf ta -> t_ch p <= t -> let d0 := 7 * k0 (Some p) t in let tc := t_ch p in
  (tc < tf -> t < tf -> d_char_n (Some p) t beta = Some (73/100 * beta * (t - tc) + d0)) /\
  (tc < tf -> tf < t < ta -> d_char_n (Some p) t beta = Some (73/100 * beta * (tf - tc) + 2 * beta * (t - tf) + d0)) /\
  (tc < tf -> tf < t -> ta <= t -> d_char_n (Some p) t beta = Some (73/100 * beta * (tf - tc) + 2 * beta * (ta - tf) + beta * (t - ta) + d0)) /\
  (tf <= tc -> t < ta -> d_char_n (Some p) t beta = Some (2 * beta * (t - tf) + d0)) /\
  (tf <= tc -> ta <= t -> d_char_n (Some p) t beta = Some (2 * beta * (ta - tf) + beta * (t - ta) + d0)).
Proof.
  intros (F & A & C0 & FA) T. cbv zeta. unfold d_char_n. rewrite F, A.
  repeat split; intros; (destruct (Rltb t (t_ch p)) eqn:X; [apply Rltb_true in X; exfalso; lra|]); cbn [bind];
  (destruct (Rltb (t_ch p) tf) eqn:Y; [apply Rltb_true in Y|apply Rltb_false in Y]; try (exfalso; lra));
  try (destruct (Rltb t tf) eqn:Z; [apply Rltb_true in Z|apply Rltb_false in Z]; try (exfalso; lra));
  try (destruct (Rltb tf t) eqn:W; [apply Rltb_true in W|apply Rltb_false in W]; try (exfalso; lra));
  try (destruct (Rltb t ta) eqn:V; [apply Rltb_true in V|apply Rltb_false in V]; try (exfalso; lra)); cbn [andb]; f_equal; lra.
Qed.
Lemma k0_lemma fp t : 0 <= t ->
  (match fp with None => True | Some p => t_ch p <= 20 end -> (t < 20 -> k0 fp t = t / 20) /\ (20 <= t -> k0 fp t = 1)) /\
  (forall p, fp = Some p -> 20 < t_ch p -> (t <= t_ch p -> k0 fp t = t / t_ch p) /\ (t_ch p < t -> k0 fp t = 1)).
Proof.
  intros T. unfold k0. split.
  - intros H. destruct fp as [p|]; unfold Rleb, Rltb; repeat match goal with |- context[Rle_dec ?a ?b] => destruct (Rle_dec a b); try (exfalso; lra) end;
    (split; intros; destruct (Rlt_dec t 20); try lra; try reflexivity).
  - intros p -> H. unfold Rleb, Rltb. destruct (Rle_dec (t_ch p) 20); [lra|]. split; intros; destruct (Rle_dec t (t_ch p)); try lra; reflexivity.
Qed.
Lemma design_strength_value_lemma fk k : k_to_d fk k (gammaM_timber solid) = k * fk / (13/10) /\ k_to_d fk k (gammaM_timber glt) = k * fk / (5/4) /\ k_to_d fk k (gammaM_timber lvl) = k * fk / (6/5).
Proof. unfold k_to_d, gammaM_timber. repeat split; field. Qed.
Lemma times_value_lemma b tch tf : 0 < b -> set_tf b tch = Some (tch + 125/10 / (73/100 * b)) /\ set_ta b tf = Some (Rmin (2 * tf) (tf + 25 / (2 * b))).
Proof. intros B. unfold set_tf, set_ta. rewrite !pdiv_ok by lra. cbn [bind]. split; f_equal; [lra|]. f_equal. lra. Qed.
