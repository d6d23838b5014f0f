(** Profiles: scaling, torsion, integrals. *)
From Verif Require Import Tac EC3_proofs Sections_proofs Loads2_proofs Prof_proofs Prof2_proofs Prof3_proofs Prof4_proofs Prof5_proofs.
From Verif Require Import Prof_model Prof_spec.
Require Import Psatz.
Open Scope R_scope.
Notation C2 p f g := (Cc (dAs p) f g (Np p)).

Lemma M_scaled {X} (f g : X -> R) c : forall dA l, M (map (Rmult c) dA) f g l = c * M dA f g l.
Proof. induction dA as [|d dA IH]; intros l; [cbn; ring|]. destruct l as [|x [|y r]]; cbn [map]; try (cbn; ring). rewrite !M_cons, IH. field. Qed.
Lemma seg_area_scaled k a b t : 0 < k -> seg_area ((k * fst a, k * snd a), (k * fst b, k * snd b), k * t) = k ^ 2 * seg_area (a, b, t).
Proof.
  intros K. unfold seg_area, seg_len. cbn [fst snd]. replace ((k * fst b - k * fst a) ^ 2 + (k * snd b - k * snd a) ^ 2) with (k ^ 2 * ((fst b - fst a) ^ 2 + (snd b - snd a) ^ 2)) by ring.
  rewrite sqrt_scale; [ring|lra|]. apply Rplus_le_le_0_compat; apply pow2_ge_0.
Qed.
Lemma dAs_scaled k p : 0 < k -> dAs (enlarged k p) = map (Rmult (k ^ 2)) (dAs p).
Proof.
  intros K. unfold dAs, segs, enlarged. cbn [pn pst]. generalize (pst p). induction (pn p) as [|a r IH]; intros ts; [reflexivity|]. destruct r as [|b r]; [destruct ts; reflexivity|].
  destruct ts as [|t ts]; [reflexivity|]. cbn [map]. rewrite !segs_cons. cbn [map]. f_equal; [apply seg_area_scaled, K|apply (IH ts)].
Qed.
Lemma C2_scaled k p : 0 < k -> wf p -> area p <> 0 -> let q := enlarged k p in
  wf q /\ area q = k ^ 2 * area p /\ C2 q yy yy = k ^ 4 * C2 p yy yy /\ C2 q zz zz = k ^ 4 * C2 p zz zz /\ C2 q yy zz = k ^ 4 * C2 p yy zz /\
  C2 q yy ww = k ^ 5 * C2 p yy ww /\ C2 q zz ww = k ^ 5 * C2 p zz ww /\ C2 q ww ww = k ^ 6 * C2 p ww ww /\
  M (dAs q) one yy (Np q) = k ^ 3 * M (dAs p) one yy (Np p) /\ M (dAs q) one zz (Np q) = k ^ 3 * M (dAs p) one zz (Np p).
Proof.
  intros K W NZ q. assert (NM : M (dAs p) one one (Np p) <> 0) by (rewrite <- area_M; exact NZ).
  assert (D : dAs q = map (Rmult (k ^ 2)) (dAs p)) by (apply dAs_scaled; exact K).
  destruct (N_transform (fun x : pt2 => (k * fst x, k * snd x)) (fun x => k ^ 2 * ww x) (pn p) (wf_ne p W)) as (c & E).
  { intros x y E. unfold cross in *. cbn [fst snd]. rewrite E. ring. }
  assert (NP : Np q = map (fun x => ((k * yy x, k * zz x), k ^ 2 * ww x + c)) (Np p)) by exact E.
  assert (A : area q = k ^ 2 * area p) by (rewrite !area_M, NP, D, M_map, M_scaled; reflexivity).
  assert (CC : forall (f g : pt2 * R -> R) (a b a' b' : R) (f' g' : pt2 * R -> R), (forall x, f ((k * yy x, k * zz x), k ^ 2 * ww x + c) = a * f' x + 0 * f' x + b) -> (forall x, g ((k * yy x, k * zz x), k ^ 2 * ww x + c) = a' * g' x + 0 * g' x + b') -> C2 q f g = k ^ 2 * (a * a') * C2 p f' g').
  { intros f g a b a' b' f' g' F G. rewrite NP, D, Cc_map. rewrite (Cc_ext _ _ (fun x => a * f' x + 0 * f' x + b) _ (fun x => a' * g' x + 0 * g' x + b')) by (intros; auto).
    assert (S1 : forall h u, Cc (map (Rmult (k ^ 2)) (dAs p)) h u (Np p) = k ^ 2 * Cc (dAs p) h u (Np p)).
    { intros h u. unfold Cc. rewrite !M_scaled. field. split; [exact NM|lra]. }
    rewrite S1. rewrite Cc_lin, !Cc_linr by exact NM. ring. }
  assert (Y : forall x, yy ((k * yy x, k * zz x), k ^ 2 * ww x + c) = k * yy x + 0 * yy x + 0) by (intros; unfold yy at 1; cbn; ring).
  assert (Z : forall x, zz ((k * yy x, k * zz x), k ^ 2 * ww x + c) = k * zz x + 0 * zz x + 0) by (intros; unfold zz at 1; cbn; ring).
  assert (Q : forall x, ww ((k * yy x, k * zz x), k ^ 2 * ww x + c) = k ^ 2 * ww x + 0 * ww x + c) by (intros; unfold ww at 1; cbn [snd]; ring).
  assert (Wq : wf q) by (unfold wf, q, enlarged in *; cbn; rewrite !map_length; exact W). clearbody q.
  split; [exact Wq|]. split; [exact A|].
  rewrite (CC _ _ _ _ _ _ _ _ Y Y), (CC _ _ _ _ _ _ _ _ Z Z), (CC _ _ _ _ _ _ _ _ Y Z), (CC _ _ _ _ _ _ _ _ Y Q), (CC _ _ _ _ _ _ _ _ Z Q), (CC _ _ _ _ _ _ _ _ Q Q).
  repeat split; try ring.
  - rewrite NP, D, M_scaled, M_map. rewrite (M_ext _ _ one _ (fun x => k * yy x + 0 * yy x + 0)), M_linr by (intros; auto). ring.
  - rewrite NP, D, M_scaled, M_map. rewrite (M_ext _ _ one _ (fun x => k * zz x + 0 * zz x + 0)), M_linr by (intros; auto). ring.
Qed.
Lemma scaled_lemma k p yc zc A Iy Iz Iyz : 0 < k -> wf p -> centroid p = Some (yc, zc, A) -> second_moments_gc p = Some (Iy, Iz) -> product_moment_gc p = Some Iyz ->
  centroid (enlarged k p) = Some (k * yc, k * zc, k ^ 2 * A) /\ second_moments_gc (enlarged k p) = Some (k ^ 4 * Iy, k ^ 4 * Iz) /\
  product_moment_gc (enlarged k p) = Some (k ^ 4 * Iyz).
Proof.
  intros K W E1 E2 E3. pose proof (second_nz p _ E2) as NZ. destruct (C2_scaled k p K W NZ) as (Wq & A' & F1 & F2 & F3 & _ & _ & _ & F4 & F5). cbv zeta in *.
  assert (NZ' : area (enlarged k p) <> 0) by (rewrite A'; apply Rmult_integral_contrapositive_currified; [apply pow_nonzero; lra|exact NZ]).
  rewrite centroid_eq in E1 |- * by auto. rewrite second_eq in E2 |- * by auto. rewrite product_eq in E3 |- * by auto.
  rewrite F1, F2, F3, F4, F5, A'. injection E1 as <- <- <-. injection E2 as <- <-. injection E3 as <-. repeat split.
  f_equal. apply f_equal2; [apply f_equal2|reflexivity]; field; (split; [exact NZ|lra]).
Qed.
Lemma scaled_shear_lemma k p d ys zs Iw : 0 < k -> wf p -> inertia_det p d -> 1/100000000 < d -> shear_center p = Some (ys, zs) -> warping_constant p = Some Iw ->
  (1/100000000 < k ^ 8 * d -> shear_center (enlarged k p) = Some (k * ys, k * zs) /\ warping_constant (enlarged k p) = Some (k ^ 6 * Iw)) /\
  (k ^ 8 * d <= 1/100000000 -> shear_center (enlarged k p) = Some (0, 0)).
Proof.
  intros K W D G E E'. pose proof (det_nz p d D) as NZ. apply det_eq in D; [|exact NZ]. subst d.
  destruct (C2_scaled k p K W NZ) as (Wq & A' & F1 & F2 & F3 & F4 & F5 & F6 & _ & _). cbv zeta in *.
  assert (NZ' : area (enlarged k p) <> 0) by (rewrite A'; apply Rmult_integral_contrapositive_currified; [apply pow_nonzero; lra|exact NZ]).
  assert (DD : dd (enlarged k p) = k ^ 8 * dd p) by (unfold dd; rewrite F1, F2, F3; ring).
  rewrite (warp_eq p W NZ _ _ E) in E'. injection E' as <-.
  rewrite shear_eq in E by auto. pose proof G as G'. apply Rltb_true in G'. rewrite G' in E. injection E as <- <-.
  assert (KN : k <> 0) by lra. assert (DN : dd p <> 0) by lra.
  split.
  - intros H. pose proof H as H'. rewrite <- DD in H'. apply Rltb_true in H'.
    assert (SC : shear_center (enlarged k p) = Some (k * ((C2 p zz ww * C2 p yy yy - C2 p yy ww * C2 p yy zz) / dd p), k * ((- C2 p yy ww * C2 p zz zz + C2 p zz ww * C2 p yy zz) / dd p))).
    { rewrite shear_eq by auto. rewrite H', F1, F2, F3, F4, F5, DD. f_equal. apply f_equal2; field; auto. }
    split; [exact SC|]. rewrite (warp_eq _ Wq NZ' _ _ SC). rewrite F4, F5, F6. f_equal. field. exact DN.
  - intros H. rewrite shear_eq by auto. rewrite DD. replace (Rltb (1/100000000) (k ^ 8 * dd p)) with false by (symmetry; apply Rltb_false; exact H). reflexivity.
Qed.
Lemma scaled_lost_lemma p d ys zs : wf p -> inertia_det p d -> 1/100000000 < d -> shear_center p = Some (ys, zs) ->
  exists k, 0 < k /\ shear_center (enlarged k p) = Some (0, 0).
Proof.
  intros W D G E. pose proof (det_nz p d D) as NZ.
  destruct (warping_constant p) as [Iw|] eqn:EW; [|rewrite (warp_eq p W NZ _ _ E) in EW; discriminate].
  exists (/ (1 + 100000000 * d)). assert (H : 1 < 1 + 100000000 * d) by lra. split; [apply Rinv_0_lt_compat; lra|].
  apply (scaled_shear_lemma _ p d ys zs Iw); auto; [apply Rinv_0_lt_compat; lra|].
  rewrite pow_inv. set (m := 1 + 100000000 * d) in *. assert (M8 : m <= m ^ 8).
  { replace m with (m ^ 1) at 1 by ring. apply Rle_pow; [lra|lia]. }
  assert (0 < m ^ 8) by lra. apply Rmult_le_reg_l with (m ^ 8); [auto|]. rewrite <- Rmult_assoc, Rinv_r, Rmult_1_l by lra. assert (d = (m - 1) / 100000000) by (unfold m; field). lra.
Qed.
(** Torsion. *)
Lemma torsion_lemma p : wf p -> parr p = pst p -> torsion_constant p = Some (Rsum (map (fun sg => seg_len sg * snd sg ^ 3 / 3) (segs p))).
Proof.
  intros W P. unfold torsion_constant, bcast. rewrite P, !map_length. unfold segs. rewrite segs_len, Nat.eqb_refl by exact W. cbn [option_map]. f_equal. f_equal.
  generalize (pst p). induction (pn p) as [|a r IH]; intros ts; [reflexivity|]. destruct r as [|b r]; [destruct ts; reflexivity|]. destruct ts as [|t ts]; [reflexivity|].
  rewrite segs_cons. cbn [map combine]. f_equal; [|apply (IH ts)]. unfold seg_area. cbn [fst snd]. field.
Qed.
Lemma torsion_modulus_lemma p It : wf p -> parr p = pst p -> Forall (fun t => 0 < t) (pst p) -> torsion_constant p = Some It -> pst p <> [] ->
  exists t, In t (pst p) /\ (forall u, In u (pst p) -> t <= u) /\ torsion_modulus p = Some (It / t).
Proof.
  intros W P F E NE. unfold torsion_modulus. rewrite E. cbn [bind]. rewrite P. destruct (list_min (pst p)) as [t|] eqn:L; [|apply list_min_none in L; congruence].
  apply list_min_spec in L. destruct L as (L1 & L2). exists t. repeat split; auto. cbn [bind]. apply pdiv_ok. rewrite Forall_forall in F. specialize (F t L1). lra.
Qed.
Lemma new_prof_lemma nodes t p : new_prof nodes (Tone t) = Some p -> wf p /\ pn p = nodes /\ parr p = pst p /\ (forall sg, In sg (segs p) -> snd sg = t).
Proof.
  unfold new_prof. destruct nodes as [|a r] eqn:N; [discriminate|]. cbn [length]. intros E. injection E as <-. cbn [pn parr pst]. unfold wf. cbn. rewrite repeat_length. repeat split.
  unfold segs. cbn [pn pst]. clear N. revert a. induction r as [|b r IH]; intros a sg I0; [destruct I0|]. change (In sg ((a, b, t) :: segs_of (b :: r) (repeat t (length r)))) in I0. destruct I0 as [<- | I0]; [reflexivity|]. apply (IH b); auto.
Qed.
Lemma new_prof_many_lemma nodes ts : nodes <> [] ->
  ((length nodes - 1 <= length ts)%nat -> exists p, new_prof nodes (Tmany ts) = Some p /\ wf p /\ pn p = nodes /\ pst p = firstn (length nodes - 1) ts) /\
  ((length ts < length nodes - 1)%nat -> new_prof nodes (Tmany ts) = None).
Proof.
  intros NE. unfold new_prof. split; intros H.
  - replace (Nat.leb (length nodes - 1) (length ts)) with true by (symmetry; apply Nat.leb_le; exact H). eexists. split; [reflexivity|]. unfold wf. cbn. rewrite firstn_length_le by exact H.
    destruct nodes; [congruence|]. cbn in *. repeat split; lia.
  - replace (Nat.leb (length nodes - 1) (length ts)) with false by (symmetry; apply Nat.leb_gt; exact H). reflexivity.
Qed.
(** Integrals. *)
Lemma quad_deriv a b c s : derivable_pt_lim (fun s => a / 3 * s ^ 3 + b / 2 * s ^ 2 + c * s) s (a * s ^ 2 + b * s + c).
Proof.
  replace (a * s ^ 2 + b * s + c) with (a / 3 * (INR 3 * s ^ 2) + b / 2 * (INR 2 * s ^ 1) + c * 1) by (cbn [INR]; field).
  apply (derivable_pt_lim_plus (fun s => a / 3 * s ^ 3 + b / 2 * s ^ 2) (fun s => c * s)).
  - apply (derivable_pt_lim_plus (fun s => a / 3 * s ^ 3) (fun s => b / 2 * s ^ 2)).
    + apply (derivable_pt_lim_scal (fun s => s ^ 3)). apply (derivable_pt_lim_pow s 3).
    + apply (derivable_pt_lim_scal (fun s => s ^ 2)). apply (derivable_pt_lim_pow s 2).
  - apply (derivable_pt_lim_scal (fun s => s)). apply derivable_pt_lim_id.
Qed.
Lemma antiderivative_quad F a b c : (forall s, 0 <= s <= 1 -> derivable_pt_lim F s (a * s ^ 2 + b * s + c)) -> F 1 - F 0 = a / 3 + b / 2 + c.
Proof.
  intros H. set (P := fun s => a / 3 * s ^ 3 + b / 2 * s ^ 2 + c * s).
  destruct (MVT_cor2 (fun s => F s - P s) (fun _ => 0) 0 1 ltac:(lra)) as (u & U & _).
  { intros s S0. replace 0 with ((a * s ^ 2 + b * s + c) - (a * s ^ 2 + b * s + c)) by ring. apply (derivable_pt_lim_minus F P); [apply H; exact S0|apply quad_deriv]. }
  unfold P in U. field_simplify. field_simplify in U. lra.
Qed.
Lemma quad_antiderivative p c0 c1 c2 c3 c4 c5 :
  exists F, antiderivative_of (fun x => c0 + c1 * fst x + c2 * snd x + c3 * fst x ^ 2 + c4 * (fst x * snd x) + c5 * snd x ^ 2) p F.
Proof.
  exists (fun sg s => let '((ya, za), (yb, zb), t) := sg in let k := t * seg_len sg in
    k * (c3 * (yb - ya) ^ 2 + c4 * ((yb - ya) * (zb - za)) + c5 * (zb - za) ^ 2) / 3 * s ^ 3 +
    k * (c1 * (yb - ya) + c2 * (zb - za) + c3 * (2 * ya * (yb - ya)) + c4 * (ya * (zb - za) + za * (yb - ya)) + c5 * (2 * za * (zb - za))) / 2 * s ^ 2 +
    k * (c0 + c1 * ya + c2 * za + c3 * ya ^ 2 + c4 * (ya * za) + c5 * za ^ 2) * s).
  intros [[[ya za] [yb zb]] t] s _ _. cbn [on_seg fst snd]. set (k := t * seg_len _). clearbody k.
  match goal with |- derivable_pt_lim _ _ ?y => match goal with |- derivable_pt_lim (fun s => ?a / 3 * s ^ 3 + ?b / 2 * s ^ 2 + ?c * s) _ _ => replace y with (a * s ^ 2 + b * s + c) by ring; apply (quad_deriv a b c) end end.
Qed.
Lemma quad_integral p c0 c1 c2 c3 c4 c5 :
  area_integral (fun x => c0 + c1 * fst x + c2 * snd x + c3 * fst x ^ 2 + c4 * (fst x * snd x) + c5 * snd x ^ 2) p
    (c0 * area p + c1 * snd (first_moments p) + c2 * fst (first_moments p) + c3 * snd (second_moments p) + c4 * product_moment p + c5 * fst (second_moments p)).
Proof.
  split; [apply quad_antiderivative|]. intros F H. unfold antiderivative_of in H. unfold area, first_moments, second_moments, product_moment. cbn [fst snd]. revert H. induction (segs p) as [|sg l IH]; intros H; [cbn; ring|].
  cbn [map]. rewrite !Rsum_cons. rewrite <- (IH (fun sg' s I0 => H sg' s (or_intror I0))).
  assert (E : F sg 1 - F sg 0 = c0 * seg_area sg + c1 * seg_Sz sg + c2 * seg_Sy sg + c3 * seg_Iz sg + c4 * seg_Iyz sg + c5 * seg_Iy sg); [|rewrite E; ring].
  specialize (fun s => H sg s (or_introl eq_refl)). destruct sg as [[a b] t]. unfold seg_Sz, seg_Sy, seg_Iz, seg_Iyz, seg_Iy, seg_area in *. cbn [fst snd on_seg] in *.
  set (L := seg_len (a, b, t)) in *. clearbody L.
  destruct a as [ya za], b as [yb zb]. cbn [fst snd] in *.
  set (q2 := t * L * (c3 * (yb - ya) ^ 2 + c4 * ((yb - ya) * (zb - za)) + c5 * (zb - za) ^ 2)).
  set (q1 := t * L * (c1 * (yb - ya) + c2 * (zb - za) + c3 * (2 * ya * (yb - ya)) + c4 * (ya * (zb - za) + za * (yb - ya)) + c5 * (2 * za * (zb - za)))).
  set (q0 := t * L * (c0 + c1 * ya + c2 * za + c3 * ya ^ 2 + c4 * (ya * za) + c5 * za ^ 2)).
  etransitivity; [apply (antiderivative_quad _ q2 q1 q0) | unfold q0, q1, q2; field].
  - intros s S0. replace (q2 * s ^ 2 + q1 * s + q0) with (t * L * (c0 + c1 * (ya + s * (yb - ya)) + c2 * (za + s * (zb - za)) + c3 * (ya + s * (yb - ya)) ^ 2 + c4 * ((ya + s * (yb - ya)) * (za + s * (zb - za))) + c5 * (za + s * (zb - za)) ^ 2)).
    + apply H. exact S0.
    + unfold q0, q1, q2. ring.
Qed.
Lemma area_integral_conv f g p v v' : (forall x, f x = g x) -> v = v' -> area_integral f p v -> area_integral g p v'.
Proof.
  intros E <- ((F0 & H0) & H). split.
  - exists F0. intros sg s I0 S0. rewrite <- E. apply H0; auto.
  - intros F D. apply H. intros sg s I0 S0. rewrite E. apply D; auto.
Qed.
Lemma central_lemma p yc zc A Iy Iz Iyz : centroid p = Some (yc, zc, A) -> second_moments_gc p = Some (Iy, Iz) -> product_moment_gc p = Some Iyz ->
  area_integral (fun _ => 1) p A /\ area_integral (fun x => fst x - yc) p 0 /\ area_integral (fun x => snd x - zc) p 0 /\
  area_integral (fun x => (snd x - zc) ^ 2) p Iy /\ area_integral (fun x => (fst x - yc) ^ 2) p Iz /\ area_integral (fun x => (fst x - yc) * (snd x - zc)) p Iyz.
Proof.
  intros E1 E2 E3. pose proof (second_nz p _ E2) as NZ. unfold second_moments_gc in E2. rewrite E1 in E2. cbn [bind] in E2.
  unfold product_moment_gc in E3. unfold centroid in E1.
  pose proof (quad_integral p) as Q. destruct (first_moments p) as [Sy Sz] eqn:FM. destruct (second_moments p) as [Iy0 Iz0]. rewrite (pdiv_ok Sy _ NZ) in E1. cbn [bind] in E1. rewrite (pdiv_ok Sz _ NZ) in E1. cbn [bind] in E1. rewrite pdiv_ok in E3 by exact NZ. cbn [bind fst snd] in *.
  injection E1 as <- <- <-. injection E2 as <- <-. injection E3 as <-. set (A := area p) in *. set (y := Sz / A). set (z := Sy / A).
  assert (Ey : Sz = A * y) by (unfold y; field; exact NZ). assert (Ez : Sy = A * z) by (unfold z; field; exact NZ).
  split; [|split; [|split; [|split; [|split]]]].
  - specialize (Q 1 0 0 0 0 0). eapply area_integral_conv; [| |exact Q]; [intros; cbn; ring | ring].
  - specialize (Q (- y) 1 0 0 0 0). eapply area_integral_conv; [| |exact Q]; [intros; cbn; ring | rewrite Ey; ring].
  - specialize (Q (- z) 0 1 0 0 0). eapply area_integral_conv; [| |exact Q]; [intros; cbn; ring | rewrite Ez; ring].
  - specialize (Q (z ^ 2) 0 (- 2 * z) 0 0 1). eapply area_integral_conv; [| |exact Q]; [intros; cbn; ring | rewrite Ez; ring].
  - specialize (Q (y ^ 2) (- 2 * y) 0 1 0 0). eapply area_integral_conv; [| |exact Q]; [intros; cbn; ring | rewrite Ey; ring].
  - specialize (Q (y * z) (- z) (- y) 0 1 0). eapply area_integral_conv; [| |exact Q]; [intros; cbn; ring | rewrite Ey, Ez; field; exact NZ].
Qed.
