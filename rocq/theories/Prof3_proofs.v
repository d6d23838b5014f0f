(** Properties of open profiles. *)
From Verif Require Import Tac EC3_proofs Sections_proofs Prof_proofs Prof2_proofs.
From Verif Require Import Prof_model Prof_spec.
Require Import Psatz.
Open Scope R_scope.
Notation C2 p f g := (Cc (dAs p) f g (Np p)).

Lemma moved_ext f g p : (forall x, f x = g x) -> moved f p = moved g p.
Proof. intros H. unfold moved. f_equal. apply map_ext, H. Qed.
Lemma shift_rigid a b x : shift a b x = rigid 1 0 a b x.
Proof. unfold rigid, shift, turn. cbn. f_equal; ring. Qed.
Lemma turn_rigid c s x : turn c s x = rigid c s 0 0 x.
Proof. unfold rigid, shift, turn. cbn. f_equal; ring. Qed.

Lemma centroid_rigid c s a b p yc zc A : c ^ 2 + s ^ 2 = 1 -> wf p -> centroid p = Some (yc, zc, A) ->
  centroid (moved (rigid c s a b) p) = Some (c * yc - s * zc + a, s * yc + c * zc + b, A).
Proof.
  intros H W E. assert (NZ : area p <> 0).
  { intros Z. unfold centroid in E. destruct (first_moments p). unfold pdiv in E. rewrite Z in E. replace (Reqb 0 0) with true in E by (symmetry; apply Reqb_true; reflexivity). discriminate. }
  rewrite centroid_eq in E by exact NZ. injection E as <- <- <-.
  pose proof (area_rigid c s a b p H W) as AR. rewrite centroid_eq by (rewrite AR; exact NZ). rewrite AR.
  destruct (Np_rigid c s a b p H W) as (k & K). rewrite K, dAs_iso by (apply rigid_iso; exact H). rewrite !M_map.
  assert (Y : M (dAs p) one (fun x => yy (rigid c s a b (fst x), 1 * ww x + (a * s - b * c) * yy x + (a * c + b * s) * zz x + k)) (Np p)
    = c * M (dAs p) one yy (Np p) - s * M (dAs p) one zz (Np p) + a * area p).
  { transitivity (M (dAs p) one (fun x => c * yy x + - s * zz x + 0 * ww x + a) (Np p)).
    - apply M_ext; intros; [reflexivity|]. unfold yy, zz, rigid, shift, turn. cbn. ring.
    - rewrite M_lin4, area_M. ring. }
  assert (Z : M (dAs p) one (fun x => zz (rigid c s a b (fst x), 1 * ww x + (a * s - b * c) * yy x + (a * c + b * s) * zz x + k)) (Np p)
    = s * M (dAs p) one yy (Np p) + c * M (dAs p) one zz (Np p) + b * area p).
  { transitivity (M (dAs p) one (fun x => s * yy x + c * zz x + 0 * ww x + b) (Np p)).
    - apply M_ext; intros; [reflexivity|]. unfold yy, zz, rigid, shift, turn. cbn. ring.
    - rewrite M_lin4, area_M. ring. }
  change (fun x : pt2 * R => one _) with (@one (pt2 * R)). rewrite Y, Z. f_equal. apply f_equal2; [apply f_equal2|reflexivity]; field; exact NZ.
Qed.
Lemma second_nz p I2 : second_moments_gc p = Some I2 -> area p <> 0.
Proof.
  intros E Z. unfold second_moments_gc, centroid in E. destruct (first_moments p). unfold pdiv in E. rewrite Z in E. replace (Reqb 0 0) with true in E by (symmetry; apply Reqb_true; reflexivity). discriminate.
Qed.
Lemma moments_rigid c s a b p Iy Iz Iyz : c ^ 2 + s ^ 2 = 1 -> wf p -> second_moments_gc p = Some (Iy, Iz) -> product_moment_gc p = Some Iyz ->
  second_moments_gc (moved (rigid c s a b) p) = Some (s ^ 2 * Iz + 2 * c * s * Iyz + c ^ 2 * Iy, c ^ 2 * Iz - 2 * c * s * Iyz + s ^ 2 * Iy) /\
  product_moment_gc (moved (rigid c s a b) p) = Some (c * s * (Iz - Iy) + (c ^ 2 - s ^ 2) * Iyz).
Proof.
  intros H W E F. pose proof (second_nz p _ E) as NZ. rewrite second_eq in E by exact NZ. rewrite product_eq in F by exact NZ. injection E as <- <-. injection F as <-.
  pose proof (area_rigid c s a b p H W) as AR. rewrite second_eq, product_eq by (rewrite AR; exact NZ).
  destruct (C2_rigid c s a b p H W NZ) as (E1 & E2 & E3 & _). cbv zeta in E1, E2, E3. rewrite E1, E2, E3. split; reflexivity.
Qed.
Lemma dd_rigid c s a b p : c ^ 2 + s ^ 2 = 1 -> wf p -> area p <> 0 -> dd (moved (rigid c s a b) p) = dd p.
Proof.
  intros H W A. unfold dd. destruct (C2_rigid c s a b p H W A) as (E1 & E2 & E3 & _). cbv zeta in E1, E2, E3. rewrite E1, E2, E3.
  set (Y := C2 p yy yy). set (Z := C2 p zz zz). set (P := C2 p yy zz). clearbody Y Z P.
  transitivity ((c ^ 2 + s ^ 2) ^ 2 * (Z * Y - P ^ 2)); [ring|rewrite H; ring].
Qed.
Lemma det_nz p d : inertia_det p d -> area p <> 0.
Proof. intros (Iy & Iz & Iyz & E & _). exact (second_nz p _ E). Qed.
Lemma shear_rigid c s a b p d ys zs : c ^ 2 + s ^ 2 = 1 -> wf p -> inertia_det p d -> 1/100000000 < d -> shear_center p = Some (ys, zs) ->
  shear_center (moved (rigid c s a b) p) = Some (c * ys - s * zs + a, s * ys + c * zs + b).
Proof.
  intros H W D G E. pose proof (det_nz p d D) as NZ. apply det_eq in D; [|exact NZ]. subst d.
  pose proof (area_rigid c s a b p H W) as AR. rewrite shear_eq in E by auto. apply Rltb_true in G. rewrite G in E. apply Rltb_true in G. injection E as <- <-.
  rewrite shear_eq by (auto using wf_moved; rewrite AR; exact NZ). rewrite dd_rigid by auto. pose proof G as G'. apply Rltb_true in G'. rewrite G'.
  destruct (C2_rigid c s a b p H W NZ) as (E1 & E2 & E3 & E4 & E5 & _). cbv zeta in E1, E2, E3, E4, E5. rewrite E1, E2, E3, E4, E5.
  unfold dd in *. set (Y := C2 p yy yy) in *. set (Z := C2 p zz zz) in *. set (P := C2 p yy zz) in *. set (U := C2 p yy ww). set (V := C2 p zz ww). clearbody Y Z P U V.
  assert (S2 : s ^ 2 = 1 - c ^ 2) by lra. assert (S3 : s ^ 3 = s * (1 - c ^ 2)) by (rewrite <- S2; ring). assert (S4 : s ^ 4 = (1 - c ^ 2) ^ 2) by (rewrite <- S2; ring).
  assert (D : Z * Y - P ^ 2 <> 0) by lra.
  f_equal. apply f_equal2.
  - apply Rmult_eq_reg_r with (Z * Y - P ^ 2); [|exact D]. unfold Rdiv at 1. rewrite Rmult_assoc, Rinv_l, Rmult_1_r by exact D.
    transitivity (c * (V * Y - U * P) - s * (- U * Z + V * P) + a * (Z * Y - P ^ 2)); [|field; exact D].
    transitivity ((c ^ 2 + s ^ 2) * (c * (V * Y - U * P) - s * (- U * Z + V * P)) + (c ^ 2 + s ^ 2) ^ 2 * (a * (Z * Y - P ^ 2))); [ring|rewrite H; ring].
  - apply Rmult_eq_reg_r with (Z * Y - P ^ 2); [|exact D]. unfold Rdiv at 1. rewrite Rmult_assoc, Rinv_l, Rmult_1_r by exact D.
    transitivity (s * (V * Y - U * P) + c * (- U * Z + V * P) + b * (Z * Y - P ^ 2)); [|field; exact D].
    transitivity ((c ^ 2 + s ^ 2) * (s * (V * Y - U * P) + c * (- U * Z + V * P)) + (c ^ 2 + s ^ 2) ^ 2 * (b * (Z * Y - P ^ 2))); [ring|rewrite H; ring].
Qed.
(** Sectorial constants about the shear centre. *)
Lemma pole_lemma p d ys zs : wf p -> inertia_det p d -> 1/100000000 < d -> shear_center p = Some (ys, zs) ->
  exists Iw, warping_constant p = Some Iw /\ sectorial_constants (moved (shift (- ys) (- zs)) p) = Some (0, 0, Iw).
Proof.
  intros W D G E. pose proof (det_nz p d D) as NZ. apply det_eq in D; [|exact NZ]. subst d. eexists. split; [apply (warp_eq p W NZ ys zs E)|].
  rewrite (moved_ext _ _ p (shift_rigid (- ys) (- zs))). assert (H : 1 ^ 2 + 0 ^ 2 = 1) by ring.
  pose proof (area_rigid 1 0 (- ys) (- zs) p H W) as AR. rewrite sect_eq by (auto using wf_moved; rewrite AR; exact NZ).
  destruct (C2_rigid 1 0 (- ys) (- zs) p H W NZ) as (_ & _ & _ & E4 & E5 & E6). cbv zeta in E4, E5, E6. rewrite E4, E5, E6.
  rewrite shear_eq in E by auto. pose proof G as G'. apply Rltb_true in G'. rewrite G' in E. injection E as <- <-.
  unfold dd in *. set (Y := C2 p yy yy) in *. set (Z := C2 p zz zz) in *. set (P := C2 p yy zz) in *. set (U := C2 p yy ww). set (V := C2 p zz ww). clearbody Y Z P U V.
  assert (D : Z * Y - P ^ 2 <> 0) by lra. f_equal. apply f_equal2; [apply f_equal2|]; field; exact D.
Qed.
Lemma pole_unique_lemma p d a b k : wf p -> inertia_det p d -> 1/100000000 < d -> sectorial_constants (moved (shift (- a) (- b)) p) = Some (0, 0, k) ->
  shear_center p = Some (a, b).
Proof.
  intros W D G E. pose proof (det_nz p d D) as NZ. apply det_eq in D; [|exact NZ]. subst d.
  rewrite (moved_ext _ _ p (shift_rigid (- a) (- b))) in E. assert (H : 1 ^ 2 + 0 ^ 2 = 1) by ring.
  pose proof (area_rigid 1 0 (- a) (- b) p H W) as AR. rewrite sect_eq in E by (auto using wf_moved; rewrite AR; exact NZ).
  destruct (C2_rigid 1 0 (- a) (- b) p H W NZ) as (_ & _ & _ & E4 & E5 & E6). cbv zeta in E4, E5, E6. rewrite E4, E5 in E. injection E as F1 F2 _.
  rewrite shear_eq by auto. pose proof G as G'. apply Rltb_true in G'. rewrite G'.
  unfold dd in *. set (Y := C2 p yy yy) in *. set (Z := C2 p zz zz) in *. set (P := C2 p yy zz) in *. set (U := C2 p yy ww) in *. set (V := C2 p zz ww) in *. clearbody Y Z P U V.
  assert (D : Z * Y - P ^ 2 <> 0) by lra. f_equal. 
  assert (EU : U = a * P - b * Y) by lra. assert (EV : V = a * Z - b * P) by lra. subst U V. apply f_equal2; field; exact D.
Qed.
Lemma seg_areas_nonneg : forall nodes ts, Forall (fun t => 0 <= t) ts -> Forall (fun d => 0 <= d) (map seg_area (segs_of nodes ts)).
Proof.
  induction nodes as [|a r IH]; intros ts F; [constructor|]. destruct r as [|b r]; [destruct ts; constructor|]. destruct ts as [|t ts]; [constructor|].
  rewrite segs_cons. cbn [map]. inversion F; subst. constructor; [|apply IH; auto]. unfold seg_area. cbn [snd]. apply Rmult_le_pos; [auto|]. apply sqrt_pos.
Qed.
Lemma dAs_nonneg p : Forall (fun t => 0 <= t) (pst p) -> Forall (fun d => 0 <= d) (dAs p).
Proof. apply seg_areas_nonneg. Qed.
Lemma det_nonneg_lemma p Iy Iz Iyz : Forall (fun t => 0 <= t) (pst p) -> second_moments_gc p = Some (Iy, Iz) -> product_moment_gc p = Some Iyz ->
  0 <= Iy /\ 0 <= Iz /\ Iyz ^ 2 <= Iy * Iz.
Proof.
  intros F E1 E2. pose proof (second_nz p _ E1) as NZ. rewrite second_eq in E1 by exact NZ. rewrite product_eq in E2 by exact NZ. injection E1 as <- <-. injection E2 as <-.
  pose proof (dAs_nonneg p F). rewrite area_M in NZ. repeat split.
  - apply Cc_nonneg; auto.
  - apply Cc_nonneg; auto.
  - rewrite (Rmult_comm (Cc _ zz zz _)). apply Cc_cs; auto.
Qed.
Lemma warp_min_lemma p d Iw a b : wf p -> Forall (fun t => 0 <= t) (pst p) -> inertia_det p d -> 1/100000000 < d -> warping_constant p = Some Iw ->
  exists u v k, sectorial_constants (moved (shift a b) p) = Some (u, v, k) /\ 0 <= Iw <= k.
Proof.
  intros W F D G E. pose proof (det_nz p d D) as NZ. 
  destruct (shear_center p) as [[ys zs]|] eqn:SC; [|unfold warping_constant in E; rewrite SC in E; discriminate].
  destruct (pole_lemma p d ys zs W D G SC) as (Iw' & E' & P). rewrite E' in E. injection E as ->.
  set (q := moved (shift (- ys) (- zs)) p) in *.
  assert (H : 1 ^ 2 + 0 ^ 2 = 1) by ring.
  assert (Wq : wf q) by (apply wf_moved; auto).
  assert (Aq : area q <> 0) by (unfold q; rewrite (moved_ext _ _ p (shift_rigid (- ys) (- zs))), area_rigid by auto; exact NZ).
  assert (Q : moved (shift a b) p = moved (rigid 1 0 (ys + a) (zs + b)) q).
  { unfold q, moved. cbn [pn pst parr]. f_equal. rewrite map_map. apply map_ext. intros [y z]. unfold rigid, shift, turn. cbn. f_equal; ring. }
  rewrite Q. rewrite sect_eq by (auto using wf_moved; rewrite area_rigid by auto; exact Aq). do 3 eexists. split; [reflexivity|].
  destruct (C2_rigid 1 0 (ys + a) (zs + b) q H Wq Aq) as (_ & _ & _ & _ & _ & E6). cbv zeta in E6. rewrite E6.
  rewrite sect_eq in P by auto. injection P as P1 P2 P3. rewrite P1, P2, P3.
  assert (Fq : Forall (fun d => 0 <= d) (dAs q)) by (apply dAs_nonneg; exact F). pose proof Aq as Mq. rewrite area_M in Mq.
  split.
  - rewrite <- P3. apply Cc_nonneg; auto.
  - set (e := (ys + a) * 0 - (zs + b) * 1). set (f := (ys + a) * 1 + (zs + b) * 0).
    pose proof (Cc_nonneg (dAs q) (fun x => e * yy x + f * zz x + 0) (Np q) Fq Mq) as Z. rewrite Cc_lin, !Cc_linr in Z by exact Mq. rewrite (Cc_sym (dAs q) zz yy) in Z. lra.
Qed.
Lemma warp_rigid c s a b p d Iw : c ^ 2 + s ^ 2 = 1 -> wf p -> inertia_det p d -> 1/100000000 < d -> warping_constant p = Some Iw ->
  warping_constant (moved (rigid c s a b) p) = Some Iw.
Proof.
  intros H W D G E. pose proof (det_nz p d D) as NZ.
  destruct (shear_center p) as [[ys zs]|] eqn:SC; [|unfold warping_constant in E; rewrite SC in E; discriminate].
  pose proof (shear_rigid c s a b p d ys zs H W D G SC) as SR.
  destruct (pole_lemma p d ys zs W D G SC) as (Iw' & E' & P). rewrite E' in E. injection E as ->.
  assert (Dq : inertia_det (moved (rigid c s a b) p) d).
  { apply det_eq; [rewrite area_rigid by auto; exact NZ|]. rewrite dd_rigid by auto. apply det_eq in D; auto. }
  destruct (pole_lemma _ d _ _ (wf_moved _ p W) Dq G SR) as (Iw' & F' & Q). rewrite F'. f_equal.
  set (r := moved (shift (- ys) (- zs)) p) in *.
  assert (Wr : wf r) by (apply wf_moved; auto).
  assert (H1 : 1 ^ 2 + 0 ^ 2 = 1) by ring.
  assert (Ar : area r <> 0) by (unfold r; rewrite (moved_ext _ _ p (shift_rigid (- ys) (- zs))), area_rigid by auto; exact NZ).
  assert (K : moved (shift (- (c * ys - s * zs + a)) (- (s * ys + c * zs + b))) (moved (rigid c s a b) p) = moved (rigid c s 0 0) r).
  { unfold r, moved. cbn [pn pst parr]. f_equal. rewrite !map_map. apply map_ext. intros [y z]. unfold rigid, shift, turn. cbn. f_equal; ring. }
  rewrite K in Q. rewrite sect_eq in Q by (auto using wf_moved; rewrite area_rigid by auto; exact Ar). injection Q as _ _ Q.
  destruct (C2_rigid c s 0 0 r H Wr Ar) as (_ & _ & _ & _ & _ & E6). cbv zeta in E6. rewrite E6 in Q.
  rewrite sect_eq in P by auto. injection P as P1 P2 P3. rewrite P1, P2, P3 in Q. lra.
Qed.
Lemma torsion_moved f p : isometry f -> torsion_constant (moved f p) = torsion_constant p /\ torsion_modulus (moved f p) = torsion_modulus p.
Proof.
  intros I0. assert (E : torsion_constant (moved f p) = torsion_constant p).
  { unfold torsion_constant. change (map seg_area (segs ?q)) with (dAs q). rewrite dAs_iso by exact I0. reflexivity. }
  split; [exact E|]. unfold torsion_modulus. rewrite E. reflexivity.
Qed.
