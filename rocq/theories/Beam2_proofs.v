(** Proofs: geometric and second order stiffness, line loads, shape functions, end forces. *)
From Verif Require Import Tac Beam_spec Fem2_proofs Beam_proofs.

(** ---------- geometric stiffness ---------- *)
Lemma kg_sign_lemma P L u : 0 < L -> (0 <= P -> 0 <= quad 6 (kg_local P L) u) /\ (P <= 0 -> quad 6 (kg_local P L) u <= 0).
Proof.
  intros H. rewrite kg_energy by lra.
  set (q := 1 / 12 * _ + _ + _).
  assert (0 <= q). { unfold q. pose proof (pow2_ge_0 (u 2%nat - u 5%nat)). pose proof (pow2_ge_0 ((u 4%nat - u 1%nat) / L)).
    pose proof (pow2_ge_0 (2 * (u 4%nat - u 1%nat) / L - u 2%nat - u 5%nat)). lra. }
  replace (P * L * q) with (P * (L * q)) by ring. assert (0 <= L * q) by (apply Rmult_le_pos; lra).
  split; intros; nra.
Qed.
Lemma kg_translation_lemma P L a b i : L <> 0 -> (i < 6)%nat -> mvec 6 (kg_local P L) (rigid_local L a b 0) i = 0.
Proof. intros H Hi. unfold mvec, kg_local, place, rigid_local. six i; try lia; mx; field; auto. Qed.
(** Rotation th of a member with axial force P (tension positive): the force couple -P th, P th. *)
Lemma kg_rotation_lemma P L a b th i : L <> 0 -> (i < 6)%nat ->
  mvec 6 (kg_local P L) (rigid_local L a b th) i = vlist [0; - (P * th); 0; 0; P * th; 0] i.
Proof. intros H Hi. unfold mvec, kg_local, place, rigid_local. six i; try lia; mx; field; auto. Qed.

(** ---------- second order stiffness ---------- *)
Lemma sin_gt_xcos x : 0 < x < PI -> 0 < sin x - x * cos x.
Proof.
  intros [H1 H2].
  destruct (MVT_cor2 (fun t => sin t - t * cos t) (fun t => cos t - (1 * cos t + t * - sin t)) 0 x H1) as (c & E & C).
  - intros c _. apply derivable_pt_lim_minus; [apply derivable_pt_lim_sin|].
    apply (derivable_pt_lim_mult (fun t => t) cos); [apply derivable_pt_lim_id|apply derivable_pt_lim_cos].
  - rewrite sin_0 in E. pose proof (sin_gt_0 c ltac:(lra) ltac:(lra)).
    assert (0 < (cos c - (1 * cos c + c * - sin c)) * (x - 0)) by (apply Rmult_lt_0_compat; [|lra]; nra). lra.
Qed.
Lemma second_D_pos lam : 0 < lam < 2 * PI -> 0 < 2 - 2 * cos lam - lam * sin lam.
Proof.
  intros H. set (x := lam / 2). assert (Hx : 0 < x < PI) by (unfold x; lra).
  replace lam with (2 * x) by (unfold x; field). rewrite cos_2a_sin, sin_2a.
  pose proof (sin_gt_xcos x Hx). pose proof (sin_gt_0 x ltac:(lra) ltac:(lra)).
  replace (2 - 2 * (1 - 2 * sin x * sin x) - 2 * x * (2 * sin x * cos x)) with (4 * (sin x * (sin x - x * cos x))) by ring.
  assert (0 < sin x * (sin x - x * cos x)) by (apply Rmult_lt_0_compat; auto). lra.
Qed.
Lemma k_second_sym_lemma E A I L P : sym (k_second E A I L P).
Proof. intros i j. unfold k_second. six i; six j; reflexivity. Qed.
Lemma k_second_rigid_lemma E A I L P a b th i : 0 < E -> 0 < I -> 0 < L -> P < 0 ->
  sqrt (- P / E / I) * L < 2 * PI -> (i < 6)%nat ->
  mvec 6 (k_second E A I L P) (rigid_local L a b th) i = vlist [0; - (P * th); 0; 0; P * th; 0] i.
Proof.
  intros HE HI HL HP HLam Hi.
  assert (EA : Rabs P = - P) by (apply Rabs_left; auto).
  assert (Q0 : 0 < - P / E / I) by (repeat apply Rmult_lt_0_compat; try lra; apply Rinv_0_lt_compat; auto).
  assert (Lp : 0 < sqrt (- P / E / I) * L) by (apply Rmult_lt_0_compat; auto; apply sqrt_lt_R0; auto).
  pose proof (second_D_pos _ (conj Lp HLam)) as DP.
  assert (PE : P = - (E * I * (sqrt (- P / E / I) * L) ^ 2 / L ^ 2)).
  { assert (S2 := sqrt_sqrt (- P / E / I) ltac:(lra)). set (s := sqrt (- P / E / I)) in *.
    replace (E * I * (s * L) ^ 2 / L ^ 2) with (E * I * (s * s)) by (field; lra). rewrite S2. field; lra. }
  unfold mvec, k_second, put, rigid_local. rewrite EA.
  set (lam := sqrt (- P / E / I) * L) in *. clearbody lam.
  six i; try lia; mx; try rewrite PE; field; repeat split; lra.
Qed.

(** ---------- integrals ---------- *)
Lemma integral_unique_lemma f L v w : 0 < L -> integral f L v -> integral f L w -> v = w.
Proof.
  intros HL (F & DF & ->) (G & DG & ->).
  destruct (MVT_cor2 (fun x => F x - G x) (fun x => f x - f x) 0 L HL) as (c & E & _).
  - intros c _. apply derivable_pt_lim_minus; auto.
  - replace (f c - f c) with 0 in E by ring. lra.
Qed.
Lemma d_poly (c0 c1 c2 c3 c4 c5 x : R) :
  derivable_pt_lim (fun x => c0 * x + c1 * (x ^ 2) + c2 * (x ^ 3) + c3 * x ^ 4 + c4 * x ^ 5 + c5 * x ^ 6) x
   (c0 + 2 * c1 * x + 3 * c2 * x ^ 2 + 4 * c3 * x ^ 3 + 5 * c4 * x ^ 4 + 6 * c5 * x ^ 5).
Proof.
  replace (c0 + 2 * c1 * x + 3 * c2 * x ^ 2 + 4 * c3 * x ^ 3 + 5 * c4 * x ^ 4 + 6 * c5 * x ^ 5)
    with (c0 * 1 + c1 * (INR 2 * x ^ 1) + c2 * (INR 3 * x ^ 2) + c3 * (INR 4 * x ^ 3) + c4 * (INR 5 * x ^ 4) + c5 * (INR 6 * x ^ 5)) by (simpl; ring).
  assert (M : forall c n, derivable_pt_lim (fun y => c * y ^ n) x (c * (INR n * x ^ pred n)))
    by (intros c n; apply (derivable_pt_lim_scal (fun y => y ^ n)); apply derivable_pt_lim_pow).
  assert (M1 : derivable_pt_lim (fun y => c0 * y) x (c0 * 1)) by (apply (derivable_pt_lim_scal (fun y => y)); apply derivable_pt_lim_id).
  apply (derivable_pt_lim_plus (fun x => c0 * x + c1 * x ^ 2 + c2 * x ^ 3 + c3 * x ^ 4 + c4 * x ^ 5)); [|apply (M c5 6%nat)].
  apply (derivable_pt_lim_plus (fun x => c0 * x + c1 * x ^ 2 + c2 * x ^ 3 + c3 * x ^ 4)); [|apply (M c4 5%nat)].
  apply (derivable_pt_lim_plus (fun x => c0 * x + c1 * x ^ 2 + c2 * x ^ 3)); [|apply (M c3 4%nat)].
  apply (derivable_pt_lim_plus (fun x => c0 * x + c1 * x ^ 2)); [|apply (M c2 3%nat)].
  apply (derivable_pt_lim_plus (fun x => c0 * x)); [auto|apply (M c1 2%nat)].
Qed.
Lemma integral_poly f L c0 c1 c2 c3 c4 c5 v :
  (forall x, f x = c0 + 2 * c1 * x + 3 * c2 * x ^ 2 + 4 * c3 * x ^ 3 + 5 * c4 * x ^ 4 + 6 * c5 * x ^ 5) ->
  v = c0 * L + c1 * L ^ 2 + c2 * L ^ 3 + c3 * L ^ 4 + c4 * L ^ 5 + c5 * L ^ 6 -> integral f L v.
Proof.
  intros Hf Hv. exists (fun x => c0 * x + c1 * (x ^ 2) + c2 * (x ^ 3) + c3 * x ^ 4 + c4 * x ^ 5 + c5 * x ^ 6).
  split; [intros x; rewrite Hf; apply d_poly|]. rewrite Hv. ring.
Qed.

(** ---------- equivalent nodal loads ---------- *)
Lemma perp_resultant_lemma q1 q2 L : L <> 0 ->
  let f := vlist (floc_perp q1 q2 L) in
  integral (lin_load q1 q2 L) L (f 1%nat + f 4%nat) /\
  integral (fun x => x * lin_load q1 q2 L x) L (f 2%nat + f 5%nat + L * f 4%nat).
Proof.
  intros H f. unfold f, lin_load; cbn [vlist floc_perp nth]. split.
  - apply (integral_poly _ L q1 ((q2 - q1) / L / 2) 0 0 0 0); [intros x; field; auto|field; auto].
  - apply (integral_poly _ L 0 (q1 / 2) ((q2 - q1) / L / 3) 0 0 0); [intros x; field; auto|field; auto].
Qed.
Lemma perp_work_lemma q1 q2 L w1 t1 w2 t2 : L <> 0 ->
  let f := vlist (floc_perp q1 q2 L) in
  integral (fun x => lin_load q1 q2 L x * cubic L w1 t1 w2 t2 x) L
    (f 1%nat * w1 + f 2%nat * t1 + f 4%nat * w2 + f 5%nat * t2).
Proof.
  intros H f. unfold f, lin_load, cubic; cbn [vlist floc_perp nth].
  set (d := (q2 - q1) / L). set (k2 := 3 * (w2 - w1) / L ^ 2 - (2 * t1 + t2) / L). set (k3 := 2 * (w1 - w2) / L ^ 3 + (t1 + t2) / L ^ 2).
  apply (integral_poly _ L (q1 * w1) ((q1 * t1 + d * w1) / 2) ((q1 * k2 + d * t1) / 3) ((q1 * k3 + d * k2) / 4) (d * k3 / 5) 0).
  - intros x. unfold d. field; auto.
  - unfold d, k2, k3. field; auto.
Qed.

(** A load in local direction y: any factor. *)
Lemma local_resultant_lemma T L ld : L <> 0 -> ll_local ld = true -> ll_dirx ld = false ->
  let f := vlist (beam_floc T L ld) in
  let q := fun x => ll_f ld * lin_load (ll_q1 ld) (ll_q2 ld) L x in
  integral q L (f 1%nat + f 4%nat) /\ integral (fun x => x * q x) L (f 2%nat + f 5%nat + L * f 4%nat) /\
  f 0%nat = 0 /\ f 3%nat = 0 /\
  forall w1 t1 w2 t2, integral (fun x => q x * cubic L w1 t1 w2 t2 x) L (f 1%nat * w1 + f 2%nat * t1 + f 4%nat * w2 + f 5%nat * t2).
Proof.
  intros H Hl Hx f q. unfold f, beam_floc. rewrite Hl, Hx.
  assert (EQ : forall x, lin_load (ll_f ld * ll_q1 ld) (ll_f ld * ll_q2 ld) L x = q x) by (intros; unfold q, lin_load; field; auto).
  destruct (perp_resultant_lemma (ll_f ld * ll_q1 ld) (ll_f ld * ll_q2 ld) L H) as [(F & DF & E1) (G & DG & E2)].
  repeat split; auto.
  - exists F. split; auto. intros x. rewrite <- EQ. auto.
  - exists G. split; auto. intros x. rewrite <- EQ. auto.
  - intros w1 t1 w2 t2. destruct (perp_work_lemma (ll_f ld * ll_q1 ld) (ll_f ld * ll_q2 ld) L w1 t1 w2 t2 H) as (K & DK & E3).
    exists K. split; auto. intros x. rewrite <- EQ. auto.
Qed.

(** A load in a global direction: member from (0,0) to (dx,dy); resultants in global axes. *)
Lemma global_resultant_lemma dx dy ld : on_grid (dist2 dx dy) -> ll_local ld = false -> ll_f ld = 1 ->
  let L := dist2 dx dy in
  let f := beam_fglob (beam_T (cosines dx dy)) (elem_length dx dy) ld in
  let q := lin_load (ll_q1 ld) (ll_q2 ld) L in
  (* force in the direction of the load, none across *)
  integral q L (if ll_dirx ld then f 0%nat + f 3%nat else f 1%nat + f 4%nat) /\
  (if ll_dirx ld then f 1%nat + f 4%nat else f 0%nat + f 3%nat) = 0 /\
  (* moment about the first node *)
  integral (fun x => if ll_dirx ld then - (dy / L * x) * q x else dx / L * x * q x) L
    (f 2%nat + f 5%nat + dx * f 4%nat - dy * f 3%nat).
Proof.
  intros G Hl Hf L f q. pose proof (on_grid_pos _ G) as HL. fold L in HL.
  destruct (cos_norm dx dy G) as (N & X & Y). fold L in X, Y.
  unfold f, beam_fglob. rewrite !beam_Tt_mvec by lia. rewrite length_on_grid by auto. fold L. cbn [vlist nth].
  set (c := cosines dx dy) in *.
  assert (NZ : L <> 0) by lra.
  unfold beam_floc. rewrite Hl, Hf. unfold q, lin_load.
  assert (T00 : beam_T c 0%nat 0%nat = fst c) by reflexivity. assert (T01 : beam_T c 0%nat 1%nat = snd c) by reflexivity.
  assert (T10 : beam_T c 1%nat 0%nat = - snd c) by reflexivity. assert (T11 : beam_T c 1%nat 1%nat = fst c) by reflexivity.
  assert (DX : dx / L = fst c) by (rewrite X at 1; field; auto).
  assert (DY : dy / L = snd c) by (rewrite Y at 1; field; auto).
  destruct (ll_dirx ld); rewrite ?T00, ?T01, ?T10, ?T11; unfold vlist; cbn [nth floc_perp]; rewrite ?DX, ?DY.
  - split; [|split].
    + match goal with |- integral _ _ ?v => replace v with ((ll_q1 ld + ll_q2 ld) / 2 * L * (fst c * fst c + snd c * snd c)) by field end.
      rewrite N. apply (integral_poly _ L (ll_q1 ld) ((ll_q2 ld - ll_q1 ld) / L / 2) 0 0 0 0); [intros x; field; auto|field; auto].
    + field.
    + match goal with |- integral _ _ ?v => replace v with (- snd c * ((ll_q1 ld + 2 * ll_q2 ld) / 6 * L ^ 2)) end.
      * apply (integral_poly _ L 0 (- snd c * ll_q1 ld / 2) (- snd c * (ll_q2 ld - ll_q1 ld) / L / 3) 0 0 0); [intros x; field; auto|field; auto].
      * rewrite X. rewrite Y. set (c0 := fst c) in *. set (c1 := snd c) in *. clearbody c0 c1.
        apply Rminus_diag_uniq. transitivity ((c0 * c0 + c1 * c1 - 1) * (c1 * L ^ 2 * (3 / 20 * ll_q1 ld + 7 / 20 * ll_q2 ld))); [field|rewrite N; ring].
  - split; [|split].
    + match goal with |- integral _ _ ?v => replace v with ((ll_q1 ld + ll_q2 ld) / 2 * L * (fst c * fst c + snd c * snd c)) by field end.
      rewrite N. apply (integral_poly _ L (ll_q1 ld) ((ll_q2 ld - ll_q1 ld) / L / 2) 0 0 0 0); [intros x; field; auto|field; auto].
    + field.
    + match goal with |- integral _ _ ?v => replace v with (fst c * ((ll_q1 ld + 2 * ll_q2 ld) / 6 * L ^ 2)) end.
      * apply (integral_poly _ L 0 (fst c * ll_q1 ld / 2) (fst c * (ll_q2 ld - ll_q1 ld) / L / 3) 0 0 0); [intros x; field; auto|field; auto].
      * rewrite X. rewrite Y. set (c0 := fst c) in *. set (c1 := snd c) in *. clearbody c0 c1.
        apply Rminus_diag_uniq. transitivity ((c0 * c0 + c1 * c1 - 1) * (- c0 * L ^ 2 * (3 / 20 * ll_q1 ld + 7 / 20 * ll_q2 ld))); [field|rewrite N; ring].
Qed.
