From Verif Require Import Sections_spec Sections_proofs Plate_proofs.
Require Import Psatz.

(* ------------------------------------------------------------ interaction per section *)
Lemma rmin_half x : Rmin x (1/2) <= 1/2. Proof. apply Rmin_r. Qed.

Lemma rhs_interact_lemma H B T UN MRd : rhs_valid H B T -> 0 <= UN -> 0 <= MRd ->
  let M := RHS_interact (RHS_area H B T (RHS_outer_radius T)) B T in
  0 <= M UN MRd <= MRd /\ (1 <= UN -> M UN MRd = 0) /\ (forall v, UN <= v -> M v MRd <= M UN MRd) /\ M 0 MRd = MRd.
Proof.
  intros V u m M. unfold M, RHS_interact. set (A := RHS_area H B T (RHS_outer_radius T)).
  pose proof (rmin_half ((A - 2 * B * T) / A)) as a.
  destruct (interact_lemma _ UN MRd a u m) as [I1 I2]. repeat split; try apply I1; auto.
  - intros v uv. apply interact_mono; auto.
  - apply interact_free. split; auto. pose proof (rhs_area_pos_lemma _ _ _ V) as AP. fold A in AP.
    apply Rmin_glb; [|lra]. unfold Rdiv. apply Rmult_le_pos; [|left; apply Rinv_0_lt_compat; auto].
    destruct V as (t & h & b). pose proof (outer_pos T t) as [r1 r2]. pose proof PI3.
    unfold A, RHS_area. set (R0 := RHS_outer_radius T) in *.
    assert (0 <= 2 * (H - 2 * R0) * T) by nra.
    assert (3 * (R0 ^ 2 - (R0 - T) ^ 2) <= PI * (R0 ^ 2 - (R0 - T) ^ 2)) by (apply Rmult_le_compat_r; nra). nra.
Qed.

Lemma i_interact_lemma b h tf tw r UN MRd : 0 < b -> 0 < tf -> 0 < tw -> 0 <= r -> 2 * tf < h -> 0 <= UN -> 0 <= MRd ->
  let M := I_interact b h tf tw r in
  0 <= M UN MRd <= MRd /\ (1 <= UN -> M UN MRd = 0) /\ (forall v, UN <= v -> M v MRd <= M UN MRd) /\ M 0 MRd = MRd.
Proof.
  intros hb htf htw hr hh u m M. unfold M, I_interact. set (A := I_area b h tf tw r).
  pose proof (rmin_half ((A - 2 * b * tf) / A)) as a.
  destruct (interact_lemma _ UN MRd a u m) as [I1 I2]. repeat split; try apply I1; auto.
  - intros v uv. apply interact_mono; auto.
  - apply interact_free. split; auto. pose proof PI_4.
    assert (0 < (h - 2 * tf) * tw) by nra. assert (0 <= (4 - PI) * r ^ 2) by nra. assert (0 < tf * b) by nra.
    assert (0 < A) by (unfold A, I_area; lra).
    apply Rmin_glb; [|lra]. unfold Rdiv. apply Rmult_le_pos; [|left; apply Rinv_0_lt_compat; auto].
    unfold A, I_area. lra.
Qed.

(* ------------------------------------------------------------ welded I *)
Ltac wid := let h := fresh "h" in let tw := fresh "tw" in let bt := fresh "bt" in let bb := fresh "bb" in
  let tt := fresh "tt" in let tb := fresh "tb" in let wa := fresh "wa" in
  intros [h tw bt bb tt tb wa]; cbn [w_h w_tw w_bt w_bb w_tt w_tb w_a].

Lemma wi_area_pos d : wi_valid d -> 0 < Aw d /\ 0 < At d /\ 0 < Ab d /\ 0 < wi_area d.
Proof.
  destruct d as [h tw bt bb tt tb wa]. unfold wi_valid, Aw, At, Ab, wi_area, hw. cbn.
  intros (a1 & a2 & a3 & a4 & a5 & a6). unfold Aw, At, Ab, hw. cbn.
  assert (0 < (h - tt - tb) * tw) by nra. assert (0 < bt * tt) by nra. assert (0 < bb * tb) by nra. lra.
Qed.

Lemma wi_interact_lemma d UN MRd : wi_valid d -> 0 <= UN -> 0 <= MRd ->
  0 <= wi_interact d UN MRd <= MRd /\ (1 <= UN -> wi_interact d UN MRd = 0) /\
  (forall v, UN <= v -> wi_interact d v MRd <= wi_interact d UN MRd) /\ wi_interact d 0 MRd = MRd.
Proof.
  intros V u m. unfold wi_interact. set (x := (wi_area d - (w_bt d * w_tt d - w_bb d * w_tb d)) / wi_area d).
  pose proof (rmin_half x) as a.
  destruct (interact_lemma _ UN MRd a u m) as [I1 I2]. repeat split; try apply I1; auto.
  - intros v uv. apply interact_mono; auto.
  - apply interact_free. split; auto. destruct (wi_area_pos d V) as (p1 & p2 & p3 & p4).
    apply Rmin_glb; [|lra]. unfold x, Rdiv. apply Rmult_le_pos; [|left; apply Rinv_0_lt_compat; auto].
    unfold wi_area. change (w_bt d * w_tt d) with (At d). change (w_bb d * w_tb d) with (Ab d). lra.
Qed.

(** The share of the web: the flange areas are subtracted from one another. *)
Lemma wi_interact_refuted_lemma d UN MRd : wi_valid d -> doubly_symmetric d -> 0 < MRd ->
  wi_area d < 2 * (At d + Ab d) -> (1 - (code_aw (wi_area d) (At d + Ab d)) / 2) > 1 - UN -> UN < 1 -> 1/4 < UN ->
  interact (code_aw (wi_area d) (At d + Ab d)) UN MRd < wi_interact d UN MRd.
Proof.
  intros V (s1 & s2) m F U u1 u2. destruct (wi_area_pos d V) as (p1 & p2 & p3 & p4).
  unfold wi_interact. change (w_bt d * w_tt d) with (At d). change (w_bb d * w_tb d) with (Ab d).
  assert (E : At d = Ab d) by (unfold At, Ab; rewrite s1, s2; reflexivity). rewrite E in *.
  replace ((wi_area d - (Ab d - Ab d)) / wi_area d) with 1 by (field; lra). rewrite (Rmin_right 1) by lra.
  unfold code_aw in *. set (q := (wi_area d - (Ab d + Ab d)) / wi_area d) in *.
  assert (0 < q < 1/2).
  { unfold q. split.
    - apply Rmult_lt_reg_r with (wi_area d); auto. unfold Rdiv. rewrite Rmult_assoc, Rinv_l by lra. unfold wi_area. lra.
    - apply Rmult_lt_reg_r with (wi_area d); auto. unfold Rdiv. rewrite (Rmult_assoc _ (/ wi_area d)), Rinv_l by lra. lra. }
  rewrite (Rmin_left q) in * by lra.
  unfold interact. assert (Rltb 1 UN = false) as -> by (unfold Rltb; destruct (Rlt_dec 1 UN); [lra|auto]).
  apply Rmult_lt_compat_l; auto.
  assert (L : (1 - UN) / (1 - 1/2 * q) < (1 - UN) / (1 - 1/2 * (1/2))).
  { unfold Rdiv. apply Rmult_lt_compat_l; [lra|]. apply Rinv_lt_contravar; nra. }
  assert (L2 : (1 - UN) / (1 - 1/2 * q) < 1).
  { apply Rmult_lt_reg_r with (1 - 1/2*q); [lra|]. unfold Rdiv. rewrite Rmult_assoc, Rinv_l by lra. lra. }
  rewrite Rmin_left by lra. apply Rmin_glb_lt; auto.
Qed.

(** Neutral axes. *)
Ltac slabs := unfold over; cbn [map fold_right wi_plates wq_plates].

Lemma wi_area_plates d : wi_area d = over (fun s => s_w s * (s_hi s - s_lo s)) (wi_plates d).
Proof. slabs. cbn. unfold wi_area, Aw, At, Ab, hw. ring. Qed.

Lemma slab_below_full z s : s_lo s <= s_hi s -> s_hi s <= z -> slab_below z s = s_w s * (s_hi s - s_lo s).
Proof. intros. unfold slab_below. rewrite Rmin_left by auto. rewrite Rmax_right by auto. reflexivity. Qed.
Lemma slab_below_none z s : s_lo s <= s_hi s -> z <= s_lo s -> slab_below z s = 0.
Proof. intros. unfold slab_below. rewrite Rmin_right by lra. rewrite Rmax_left by lra. ring. Qed.
Lemma slab_below_part z s : s_lo s <= z <= s_hi s -> slab_below z s = s_w s * (z - s_lo s).
Proof. intros. unfold slab_below. rewrite Rmin_right by lra. rewrite Rmax_right by lra. ring. Qed.
Lemma slab_abs_full z s : s_lo s <= s_hi s -> s_hi s <= z -> slab_abs z s = - slab_first z s.
Proof. intros. unfold slab_abs, slab_first. rewrite Rmin_left by auto. rewrite Rmax_right by auto. field. Qed.
Lemma slab_abs_none z s : s_lo s <= s_hi s -> z <= s_lo s -> slab_abs z s = slab_first z s.
Proof. intros. unfold slab_abs, slab_first. rewrite Rmin_right by lra. rewrite Rmax_left by lra. field. Qed.
Lemma slab_abs_part z s : s_lo s <= z <= s_hi s -> slab_abs z s = s_w s * ((s_hi s - z) ^ 2 + (s_lo s - z) ^ 2) / 2.
Proof. intros. unfold slab_abs. rewrite Rmin_right by lra. rewrite Rmax_right by lra. field. Qed.

(** Where the plastic neutral axis lies. *)
Inductive pna_case (d : wi) : Prop :=
| pna_top : wi_area d / 2 <= At d -> zpl d = w_h d - wi_area d / (2 * w_bt d) -> w_h d - w_tt d <= zpl d <= w_h d -> pna_case d
| pna_bot : At d < wi_area d / 2 -> wi_area d / 2 <= Ab d -> zpl d = wi_area d / (2 * w_bb d) -> 0 <= zpl d <= w_tb d -> pna_case d
| pna_web : At d < wi_area d / 2 -> Ab d < wi_area d / 2 -> zpl d = (wi_area d / 2 - Ab d) / w_tw d + w_tb d ->
    w_tb d <= zpl d <= w_h d - w_tt d -> pna_case d.

Lemma pna_cases d : wi_valid d -> pna_case d.
Proof.
  intros V. destruct (wi_area_pos d V) as (p1 & p2 & p3 & p4). destruct V as (v1 & v2 & v3 & v4 & v5 & v6).
  assert (Zd : zpl d = if Rleb (wi_area d / 2) (At d) then w_h d - wi_area d / (2 * w_bt d)
    else if Rleb (wi_area d / 2) (Ab d) then wi_area d / (2 * w_bb d)
    else (wi_area d / 2 - Ab d) / w_tw d + w_tb d) by reflexivity.
  destruct (Rleb (wi_area d / 2) (At d)) eqn:E1; [apply Rleb_true in E1|apply Rleb_false in E1; destruct (Rleb (wi_area d / 2) (Ab d)) eqn:E2;
    [apply Rleb_true in E2|apply Rleb_false in E2]].
  - apply pna_top; auto. rewrite Zd.
    assert (wi_area d / (2 * w_bt d) <= w_tt d).
    { apply Rmult_le_reg_r with (w_bt d); auto. replace (wi_area d / (2 * w_bt d) * w_bt d) with (wi_area d / 2) by (field; lra).
      unfold At in E1. lra. }
    assert (0 < wi_area d / (2 * w_bt d)) by (apply Rdiv_lt_0_compat; lra). lra.
  - apply pna_bot; auto. rewrite Zd.
    assert (wi_area d / (2 * w_bb d) <= w_tb d).
    { apply Rmult_le_reg_r with (w_bb d); auto. replace (wi_area d / (2 * w_bb d) * w_bb d) with (wi_area d / 2) by (field; lra).
      unfold Ab in E2. lra. }
    assert (0 < wi_area d / (2 * w_bb d)) by (apply Rdiv_lt_0_compat; lra). lra.
  - apply pna_web; auto. rewrite Zd.
    assert (0 <= (wi_area d / 2 - Ab d) / w_tw d) by (left; apply Rdiv_lt_0_compat; lra).
    assert ((wi_area d / 2 - Ab d) / w_tw d <= hw d).
    { apply Rmult_le_reg_r with (w_tw d); auto. replace ((wi_area d / 2 - Ab d) / w_tw d * w_tw d) with (wi_area d / 2 - Ab d) by (field; lra).
      change (hw d * w_tw d) with (Aw d). unfold wi_area in *. lra. }
    unfold hw in *. lra.
Qed.

Lemma pna_halves_lemma d : wi_valid d ->
  over (slab_below (zpl d)) (wi_plates d) = over (fun s => s_w s * (s_hi s - s_lo s)) (wi_plates d) / 2 /\ 0 < zpl d < w_h d.
Proof.
  intros V. rewrite <- wi_area_plates. pose proof (pna_cases d V) as C. destruct (wi_area_pos d V) as (p1 & p2 & p3 & p4).
  destruct V as (v1 & v2 & v3 & v4 & v5 & v6). slabs.
  destruct C as [C1 Z [Z1 Z2]|C1 C2 Z [Z1 Z2]|C1 C2 Z [Z1 Z2]].
  - rewrite (slab_below_full _ (mkSlab (w_bb d) 0 (w_tb d))) by (cbn; lra).
    rewrite (slab_below_full _ (mkSlab (w_tw d) _ _)) by (cbn; lra).
    rewrite slab_below_part by (cbn; lra). cbn [s_w s_lo s_hi].
    assert (E : w_bt d * (w_h d - zpl d) = wi_area d / 2) by (rewrite Z; field; lra).
    split; [unfold wi_area, Aw, At, Ab, hw in *; lra|]. split; [lra|]. 
    assert (0 < w_h d - zpl d); [|lra]. apply Rmult_lt_reg_l with (w_bt d); lra.
  - rewrite slab_below_part by (cbn; lra).
    rewrite (slab_below_none _ (mkSlab (w_tw d) _ _)) by (cbn; lra).
    rewrite slab_below_none by (cbn; lra). cbn [s_w s_lo s_hi].
    assert (E : w_bb d * zpl d = wi_area d / 2) by (rewrite Z; field; lra).
    split; [lra|]. split; [|lra]. apply Rmult_lt_reg_l with (w_bb d); lra.
  - rewrite (slab_below_full _ (mkSlab (w_bb d) 0 (w_tb d))) by (cbn; lra).
    rewrite slab_below_part by (cbn; lra).
    rewrite slab_below_none by (cbn; lra). cbn [s_w s_lo s_hi].
    assert (E : w_tw d * (zpl d - w_tb d) = wi_area d / 2 - Ab d) by (rewrite Z; field; lra).
    split; [unfold Ab in *; lra|lra].
Qed.

Lemma wpl_lemma d : wi_valid d -> wi_Wply d = over (slab_abs (zpl d)) (wi_plates d).
Proof.
  intros V. pose proof (pna_cases d V) as C. destruct V as (v1 & v2 & v3 & v4 & v5 & v6). slabs. unfold wi_Wply. cbv zeta.
  destruct C as [C1 Z [Z1 Z2]|C1 C2 Z [Z1 Z2]|C1 C2 Z [Z1 Z2]].
  - assert (Rleb (wi_area d / 2) (At d) = true) as -> by (apply Rleb_true; auto).
    rewrite (slab_abs_full _ (mkSlab (w_bb d) 0 (w_tb d))) by (cbn; lra).
    rewrite (slab_abs_full _ (mkSlab (w_tw d) _ _)) by (cbn; lra).
    rewrite slab_abs_part by (cbn; lra). unfold slab_first. cbn [s_w s_lo s_hi]. unfold Ab, Aw, hw. field.
  - assert (Rleb (wi_area d / 2) (At d) = false) as -> by (apply Rleb_false; auto).
    assert (Rleb (wi_area d / 2) (Ab d) = true) as -> by (apply Rleb_true; auto).
    rewrite slab_abs_part by (cbn; lra).
    rewrite (slab_abs_none _ (mkSlab (w_tw d) _ _)) by (cbn; lra).
    rewrite slab_abs_none by (cbn; lra). unfold slab_first. cbn [s_w s_lo s_hi]. unfold At, Aw, hw. field.
  - assert (Rleb (wi_area d / 2) (At d) = false) as -> by (apply Rleb_false; auto).
    assert (Rleb (wi_area d / 2) (Ab d) = false) as -> by (apply Rleb_false; auto).
    rewrite (slab_abs_full _ (mkSlab (w_bb d) 0 (w_tb d))) by (cbn; lra).
    rewrite slab_abs_part by (cbn; lra).
    rewrite slab_abs_none by (cbn; lra). unfold slab_first. cbn [s_w s_lo s_hi]. unfold At, Ab, hw. field.
Qed.

Lemma centroid_lemma d : wi_valid d -> over (slab_first (zel d)) (wi_plates d) = 0 /\ 0 < zel d < w_h d.
Proof.
  intros V. destruct (wi_area_pos d V) as (p1 & p2 & p3 & p4). 
  assert (E : zel d * wi_area d = zb d * Ab d + zw d * Aw d + zt d * At d) by (unfold zel; field; lra).
  destruct V as (v1 & v2 & v3 & v4 & v5 & v6). split.
  - slabs. unfold slab_first. cbn [s_w s_lo s_hi].
    transitivity (zb d * Ab d + zw d * Aw d + zt d * At d - zel d * wi_area d); [|lra].
    unfold zb, zw, zt, wi_area, Aw, At, Ab, hw. field.
  - assert (0 < zb d) by (unfold zb; lra). assert (0 < zw d) by (unfold zw, hw; lra). assert (0 < zt d) by (unfold zt; lra).
    assert (zb d < w_h d) by (unfold zb; lra). assert (zw d < w_h d) by (unfold zw, hw; lra). assert (zt d < w_h d) by (unfold zt; lra).
    split; apply Rmult_lt_reg_r with (wi_area d); auto; rewrite E.
    + assert (0 < zb d * Ab d) by (apply Rmult_lt_0_compat; auto). assert (0 < zw d * Aw d) by (apply Rmult_lt_0_compat; auto). assert (0 < zt d * At d) by (apply Rmult_lt_0_compat; auto). lra.
    + assert (zb d * Ab d < w_h d * Ab d) by (apply Rmult_lt_compat_r; auto). assert (zw d * Aw d < w_h d * Aw d) by (apply Rmult_lt_compat_r; auto). assert (zt d * At d < w_h d * At d) by (apply Rmult_lt_compat_r; auto). unfold wi_area. lra.
Qed.

Lemma inertia_lemma d : wi_valid d -> wi_Iy d = over (slab_second (zel d)) (wi_plates d) /\ 0 < wi_Iy d /\
  forall z, wi_Iy d <= over (slab_second z) (wi_plates d).
Proof.
  intros V. destruct (wi_area_pos d V) as (p1 & p2 & p3 & p4). destruct (centroid_lemma d V) as [C _].
  assert (E : forall z, over (slab_second z) (wi_plates d) = wi_Iy d - 2 * (z - zel d) * over (slab_first (zel d)) (wi_plates d) + (z - zel d) ^ 2 * wi_area d).
  { intros z. unfold wi_Iy. set (c := zel d). slabs. unfold slab_second, slab_first. cbn [s_w s_lo s_hi]. unfold zb, zw, zt, wi_area, Aw, At, Ab, hw. field. }
  split; [rewrite E, C; ring|]. split.
  - unfold wi_Iy. destruct V as (v1 & v2 & v3 & v4 & v5 & v6).
    assert (0 < w_bb d * w_tb d ^ 3) by (apply Rmult_lt_0_compat; [auto|apply pow_lt; auto]).
    assert (0 < w_tw d * hw d ^ 3) by (apply Rmult_lt_0_compat; [auto|apply pow_lt; auto]).
    assert (0 < w_bt d * w_tt d ^ 3) by (apply Rmult_lt_0_compat; [auto|apply pow_lt; auto]).
    assert (0 <= (zel d - zb d) ^ 2 * Ab d) by (apply Rmult_le_pos; [apply pow2_ge_0|lra]). assert (0 <= (zel d - zw d) ^ 2 * Aw d) by (apply Rmult_le_pos; [apply pow2_ge_0|lra]). assert (0 <= (zel d - zt d) ^ 2 * At d) by (apply Rmult_le_pos; [apply pow2_ge_0|lra]). lra.
  - intros z. rewrite E, C. assert (0 <= (z - zel d) ^ 2 * wi_area d) by (apply Rmult_le_pos; [apply pow2_ge_0|lra]). lra.
Qed.

(** Statical theorem: the elastic moment is an admissible plastic stress field. *)
Definition lin_prod (lo hi f0 f1 g0 g1 : R) : R := (hi - lo) / 6 * (2 * f0 * g0 + f0 * g1 + f1 * g0 + 2 * f1 * g1).
Lemma lin_prod_nonneg lo hi f0 f1 g0 g1 : lo <= hi -> 0 <= f0 -> 0 <= f1 -> 0 <= g0 -> 0 <= g1 -> 0 <= lin_prod lo hi f0 f1 g0 g1.
Proof. intros. unfold lin_prod. apply Rmult_le_pos; [lra|]. nra. Qed.

(** For a slab, with p inside [0,h], c inside [0,h] and m >= max(c, h-c):
    m * (integral of |y-p|) - integral of (y-c)(y-p) >= 0. *)
Definition slab_cross (c p : R) (s : slab) : R :=
  let F y := y ^ 3 / 3 - (c + p) * y ^ 2 / 2 + c * p * y in s_w s * (F (s_hi s) - F (s_lo s)).
Lemma slab_static c p m h s : 0 <= s_w s -> 0 <= s_lo s <= s_hi s -> s_hi s <= h -> c <= m -> h - c <= m ->
  slab_cross c p s <= m * slab_abs p s.
Proof.
  intros w l u mc mh. destruct s as [W a b]; cbn in *.
  destruct (Rle_dec p a) as [q1|q1]; [|destruct (Rle_dec b p) as [q2|q2]].
  - rewrite slab_abs_none by (cbn; lra). unfold slab_cross, slab_first. cbn.
    pose proof (lin_prod_nonneg a b (m - (a - c)) (m - (b - c)) (a - p) (b - p)) as L. 
    assert (0 <= W * lin_prod a b (m - (a - c)) (m - (b - c)) (a - p) (b - p)) by (apply Rmult_le_pos; [auto|apply L; lra]).
    unfold lin_prod in *. lra.
  - rewrite slab_abs_full by (cbn; lra). unfold slab_cross, slab_first. cbn.
    pose proof (lin_prod_nonneg a b (m + (a - c)) (m + (b - c)) (p - a) (p - b)) as L. 
    assert (0 <= W * lin_prod a b (m + (a - c)) (m + (b - c)) (p - a) (p - b)) by (apply Rmult_le_pos; [auto|apply L; lra]).
    unfold lin_prod in *. lra.
  - rewrite slab_abs_part by (cbn; lra). unfold slab_cross. cbn.
    pose proof (lin_prod_nonneg p b (m - (p - c)) (m - (b - c)) (p - p) (b - p)) as L.
    pose proof (lin_prod_nonneg a p (m + (a - c)) (m + (p - c)) (p - a) (p - p)) as L2. 
    assert (0 <= W * lin_prod p b (m - (p - c)) (m - (b - c)) (p - p) (b - p)) by (apply Rmult_le_pos; [auto|apply L; lra]).
    assert (0 <= W * lin_prod a p (m + (a - c)) (m + (p - c)) (p - a) (p - p)) by (apply Rmult_le_pos; [auto|apply L2; lra]).
    unfold lin_prod in *. lra.
Qed.

Lemma wi_wpl_wel_lemma d : wi_valid d -> wi_Wely d <= wi_Wply d.
Proof.
  intros V. rewrite (wpl_lemma d V). destruct (inertia_lemma d V) as (IE & IP & _). destruct (centroid_lemma d V) as (C & c1 & c2).
  destruct (pna_halves_lemma d V) as (_ & q1 & q2). unfold wi_Wely. set (m := Rmax (zel d) (w_h d - zel d)).
  assert (m1 : zel d <= m) by apply Rmax_l. assert (m2 : w_h d - zel d <= m) by apply Rmax_r. 
  apply Rmult_le_reg_r with m; [lra|]. replace (wi_Iy d / m * m) with (wi_Iy d) by (field; lra).
  assert (E : wi_Iy d = over (slab_cross (zel d) (zpl d)) (wi_plates d)).
  { rewrite IE. transitivity (over (slab_second (zel d)) (wi_plates d) + (zel d - zpl d) * over (slab_first (zel d)) (wi_plates d)).
    - rewrite C. ring.
    - slabs. unfold slab_second, slab_first, slab_cross. cbn [s_w s_lo s_hi]. field. }
  rewrite E. destruct V as (v1 & v2 & v3 & v4 & v5 & v6).
  assert (K1 : slab_cross (zel d) (zpl d) (mkSlab (w_bb d) 0 (w_tb d)) <= m * slab_abs (zpl d) (mkSlab (w_bb d) 0 (w_tb d))) by (apply slab_static with (w_h d); cbn; lra).
  assert (K2 : slab_cross (zel d) (zpl d) (mkSlab (w_tw d) (w_tb d) (w_h d - w_tt d)) <= m * slab_abs (zpl d) (mkSlab (w_tw d) (w_tb d) (w_h d - w_tt d))) by (apply slab_static with (w_h d); cbn; lra).
  assert (K3 : slab_cross (zel d) (zpl d) (mkSlab (w_bt d) (w_h d - w_tt d) (w_h d)) <= m * slab_abs (zpl d) (mkSlab (w_bt d) (w_h d - w_tt d) (w_h d))) by (apply slab_static with (w_h d); cbn; lra).
  slabs. lra.
Qed.

Lemma wi_wplz_lemma d : wi_valid d -> w_tw d <= 3/2 * Rmax (w_bt d) (w_bb d) -> wi_Welz d <= wi_Wplz d.
Proof.
  intros V T. destruct (wi_area_pos d V) as (p1 & p2 & p3 & p4). destruct V as (v1 & v2 & v3 & v4 & v5 & v6).
  unfold wi_Welz, wi_Wplz, wi_Iz. set (m := Rmax (w_bt d) (w_bb d)) in *.
  assert (w_bt d <= m) by apply Rmax_l. assert (w_bb d <= m) by apply Rmax_r.
  apply Rmult_le_reg_r with (1/2 * m); [lra|].
  match goal with |- ?x / ?y * _ <= _ => replace (x / y * y) with x by (field; lra) end.
  change (Aw d) with (hw d * w_tw d). change (At d) with (w_bt d * w_tt d). change (Ab d) with (w_bb d * w_tb d).
  assert (H1 : 0 < hw d) by exact v6.
  assert (0 <= w_tb d * (w_bb d) ^ 2 * (m - w_bb d)) by (apply Rmult_le_pos; [|lra]; apply Rmult_le_pos; nra).
  assert (0 <= w_tt d * (w_bt d) ^ 2 * (m - w_bt d)) by (apply Rmult_le_pos; [|lra]; apply Rmult_le_pos; nra).
  assert (0 <= hw d * (w_tw d) ^ 2 * (3/2 * m - w_tw d)) by (apply Rmult_le_pos; [|lra]; apply Rmult_le_pos; nra).
  assert (0 <= w_tb d * w_bb d ^ 3) by (apply Rmult_le_pos; [lra|apply pow_le; lra]).
  assert (0 <= w_tt d * w_bt d ^ 3) by (apply Rmult_le_pos; [lra|apply pow_le; lra]).
  lra.
Qed.
