(** Proofs: findings about line loads, shape functions, end forces, rods, 3D beam. *)
From Verif Require Import Tac Beam_spec Fem2_proofs Beam_proofs Beam2_proofs.

(** A local axial load is dropped; a global load with factor 2 counts 4 times; a load
    on half of the member acts on all of it. *)
Lemma local_x_refuted_lemma T L : let ld := mkLl 1 1 1 (0, 1) true true in
  forall i, vlist (beam_floc T L ld) i = 0.
Proof. intros ld i. unfold ld, beam_floc; cbn [ll_local ll_dirx]. do 7 (destruct i as [|i]; [reflexivity|]). reflexivity. Qed.
Lemma factor_refuted_lemma T L f q1 q2 dirx i : 
  vlist (beam_floc T L (mkLl f q1 q2 (0, 1) dirx false)) i = f ^ 2 * vlist (beam_floc T L (mkLl 1 q1 q2 (0, 1) dirx false)) i.
Proof.
  unfold beam_floc; cbn [ll_local ll_dirx ll_f ll_q1 ll_q2]. unfold vlist.
  do 6 (destruct i as [|i]; [cbn [nth floc_perp]; unfold Rdiv; ring|]). destruct i; cbn [nth]; ring.
Qed.
Lemma extent_refuted_lemma T L f q1 q2 x1 x2 y1 y2 dirx loc :
  beam_floc T L (mkLl f q1 q2 (x1, x2) dirx loc) = beam_floc T L (mkLl f q1 q2 (y1, y2) dirx loc).
Proof. reflexivity. Qed.
(** Local line loads are linear in the factor and additive. *)
Lemma local_linear_lemma T L ld ld' f g i : ll_local ld = true -> ll_local ld' = true -> ll_dirx ld = ll_dirx ld' ->
  vlist (beam_floc T L (mkLl f (ll_q1 ld) (ll_q2 ld) (ll_xloc ld) (ll_dirx ld) true)) i * g +
  vlist (beam_floc T L (mkLl f (ll_q1 ld') (ll_q2 ld') (ll_xloc ld) (ll_dirx ld) true)) i * g =
  vlist (beam_floc T L (mkLl (f * g) (ll_q1 ld + ll_q1 ld') (ll_q2 ld + ll_q2 ld') (ll_xloc ld) (ll_dirx ld) true)) i.
Proof.
  intros _ _ _. unfold beam_floc; cbn [ll_local ll_dirx ll_f ll_q1 ll_q2]. destruct (ll_dirx ld); unfold vlist.
  - do 6 (destruct i as [|i]; [cbn [nth]; ring|]). destruct i; cbn [nth]; ring.
  - do 6 (destruct i as [|i]; [cbn [nth floc_perp]; unfold Rdiv; ring|]). destruct i; cbn [nth floc_perp]; ring.
Qed.

(** ---------- shape functions ---------- *)
Lemma shape_ends_lemma L : L <> 0 ->
  shape_fun L 0 = [1; 0; 0; 0] /\ firstn 3 (shape_fun L L) = [0; 0; 1].
Proof. intros H. unfold shape_fun. split; cbn [firstn]; repeat (apply f_equal2; try (field; auto)); auto. Qed.
Lemma deriv_poly3 c0 c1 c2 c3 x : derivable_pt_lim (fun x => c0 + c1 * x + c2 * x ^ 2 + c3 * x ^ 3) x (c1 + 2 * c2 * x + 3 * c3 * x ^ 2).
Proof.
  pose proof (d_poly c1 c2 c3 0 0 0 x) as D.
  pose proof (derivable_pt_lim_plus _ _ x _ _ (derivable_pt_lim_const c0 x) D) as D2.
  unfold derivable_pt_lim in *. intros e He. destruct (D2 e He) as (d & Hd). exists d. intros h H1 H2.
  specialize (Hd h H1 H2). unfold plus_fct, fct_cte in Hd.
  match goal with H : Rabs ?a < e |- Rabs ?b < e => replace b with a; auto end. field. auto.
Qed.
Lemma deriv_ext f g x l : (forall y, f y = g y) -> derivable_pt_lim f x l -> derivable_pt_lim g x l.
Proof. intros H D e He. destruct (D e He) as (d & Hd). exists d. intros h H1 H2. rewrite <- !H. auto. Qed.
Lemma deriv_cubic f c0 c1 c2 c3 x l : (forall y, f y = c0 + c1 * y + c2 * y ^ 2 + c3 * y ^ 3) ->
  l = c1 + 2 * c2 * x + 3 * c3 * x ^ 2 -> derivable_pt_lim f x l.
Proof. intros H ->. eapply deriv_ext; [|apply (deriv_poly3 c0)]. intros y. rewrite H. reflexivity. Qed.
Lemma shape_slopes_lemma L : L <> 0 -> forall k, (k < 3)%nat ->
  derivable_pt_lim (fun x => nth k (shape_fun L x) 0) 0 (nth k [0; 1; 0] 0) /\
  derivable_pt_lim (fun x => nth k (shape_fun L x) 0) L (nth k [0; 0; 0] 0).
Proof.
  intros H k Hk. destruct k as [|[|[|k]]]; try lia; cbn [nth shape_fun].
  - split; apply (deriv_cubic _ 1 0 (-3 / L ^ 2) (2 / L ^ 3)); intros; field; auto.
  - split; apply (deriv_cubic _ 0 1 (-2 / L) (1 / L ^ 2)); intros; field; auto.
  - split; apply (deriv_cubic _ 0 0 (3 / L ^ 2) (-2 / L ^ 3)); intros; field; auto.
Qed.
Lemma shape_translation_lemma L x w : L <> 0 -> nth 0 (shape_fun L x) 0 * w + nth 2 (shape_fun L x) 0 * w = w.
Proof. intros H. cbn [nth shape_fun]. field; auto. Qed.
(** The field with end values w1, t1, w2, t2 is the interpolating cubic, for every
    position, exactly when the length is 1. *)
Lemma shape_unit_lemma w1 t1 w2 t2 x : let N := fun k => nth k (shape_fun 1 x) 0 in
  N 0%nat * w1 + N 1%nat * t1 + N 2%nat * w2 + N 3%nat * t2 = cubic 1 w1 t1 w2 t2 x.
Proof. cbn [nth shape_fun]. unfold cubic. field. Qed.
Lemma shape_refuted_lemma L : 0 < L -> L <> 1 ->
  (exists l, derivable_pt_lim (fun x => nth 3 (shape_fun L x) 0) L l /\ l <> 1) /\
  (* rigid rotation by 1 is not reproduced *)
  exists x, 0 < x < L /\ nth 1 (shape_fun L x) 0 * 1 + nth 2 (shape_fun L x) 0 * L + nth 3 (shape_fun L x) 0 * 1 <> x.
Proof.
  intros H N. split.
  - exists (0 + 2 * (-1 / L ^ 2) * L + 3 * (1 / L ^ 2) * L ^ 2). split.
    + apply (deriv_cubic _ 0 0 (-1 / L ^ 2) (1 / L ^ 2)); intros; cbn [nth shape_fun]; field; lra.
    + replace (0 + 2 * (-1 / L ^ 2) * L + 3 * (1 / L ^ 2) * L ^ 2) with (3 - 2 * / L) by (field; lra).
      intros E. assert (/ L = 1) by lra. apply N. rewrite <- (Rinv_inv L). rewrite H0. field.
  - exists (L / 2). split; [lra|]. cbn [nth shape_fun]. intros E.
    assert (E2 : (L / 2) ^ 2 / L - (L / 2) ^ 2 / L ^ 2 = 0).
    { match type of E with ?a = _ => replace ((L / 2) ^ 2 / L - (L / 2) ^ 2 / L ^ 2) with (a - L / 2) by (field; lra) end. lra. }
    assert (L / 4 - 1 / 4 = 0) by (rewrite <- E2; field; lra). lra.
Qed.

(** ---------- end forces ---------- *)
Lemma end_forces_lemma E A I L q q1 q2 : L <> 0 ->
  let '((n1, n2), (m1, m2), (v1, v2)) := fint (end_forces (k_local E A I L) q (Some (floc_perp q1 q2 L))) in
  n1 = n2 /\ v1 - v2 = - ((q1 + q2) / 2 * L) /\ m2 - m1 = v2 * L - (q1 + 2 * q2) / 6 * L ^ 2.
Proof.
  intros H. unfold fint, end_forces, mvec, k_local, put, floc_perp. mx. repeat split; field; auto.
Qed.
(** Two loads of one load case on an element: the end forces see only the last. *)
Lemma two_loads_refuted_lemma : exists T L ld1 ld2 k q i, (i < 6)%nat /\ 0 < L /\
  end_forces k q (stored_floc T L [(0%nat, ld1); (0%nat, ld2)] 0%nat None) i <>
  mvec 6 k q i - nth i (beam_floc T L ld1) 0 - nth i (beam_floc T L ld2) 0.
Proof.
  exists mzero, 1, (mkLl 1 1 1 (0, 1) false true), (mkLl 1 1 1 (0, 1) false true), mzero, (fun _ => 0), 1%nat.
  split; [lia|]. split; [lra|]. cbn [stored_floc Nat.eqb end_forces].
  unfold mvec, beam_floc, floc_perp. cbn [ll_local ll_dirx ll_f ll_q1 ll_q2 nth sumn]. unfold mzero. lra.
Qed.
Lemma one_load_lemma T L k q sid ld others i : (forall s l, In (s, l) others -> s <> sid) ->
  end_forces k q (stored_floc T L ((sid, ld) :: others) sid None) i = mvec 6 k q i - nth i (beam_floc T L ld) 0.
Proof.
  intros H. cbn [stored_floc]. rewrite Nat.eqb_refl.
  assert (K : forall o acc, (forall s l, In (s, l) o -> s <> sid) -> stored_floc T L o sid acc = acc).
  { induction o as [|[s l] o IH]; intros acc Ho; simpl; auto.
    destruct (Nat.eqb_spec s sid); [exfalso; eapply Ho; eauto; left; eauto|]. apply IH. intros s' l' Hi. eapply Ho. right; eauto. }
  rewrite K by auto. reflexivity.
Qed.

(** ---------- rods and springs ---------- *)
Lemma rod_q d c u : mvec (2 * d) (rod_T d c) u 0%nat = sumn d (fun j => c j * u j) /\
  mvec (2 * d) (rod_T d c) u 1%nat = sumn d (fun j => c j * u (d + j)%nat).
Proof.
  unfold mvec, rod_T. replace (2 * d)%nat with (d + d)%nat by lia. rewrite !sumn_app. split.
  - rewrite (sumn_ext d _ (fun j => c j * u j)).
    2:{ intros i Hi. destruct (Nat.ltb_spec i d); [auto|lia]. }
    rewrite (sumn_zero d (fun i => (if (d + i <? d)%nat then _ else _) * _)); [lra|].
    intros i Hi. destruct (Nat.ltb_spec (d + i) d); [lia|ring].
  - rewrite (sumn_zero d); [|intros i Hi; destruct (Nat.ltb_spec i d); [ring|lia]].
    rewrite (sumn_ext d _ (fun j => c j * u (d + j)%nat)); [lra|].
    intros i Hi. destruct (Nat.ltb_spec (d + i) d); [lia|]. destruct (Nat.ltb_spec (d + i) (d + d)); [|lia].
    f_equal. f_equal. lia.
Qed.
Lemma axial_sym k : sym (axial_k k).
Proof. intros i j. unfold axial_k, mrows. destruct i as [|[|i]]; destruct j as [|[|j]]; cbn; try reflexivity; try (destruct i; reflexivity); try (destruct j; reflexivity). destruct i, j; reflexivity. Qed.
Lemma rod_sym_lemma d k c : sym (rod_k d k c).
Proof. intros i j. apply congruence_sym. apply axial_sym. Qed.
Lemma rod_energy_lemma d k c u :
  quad (2 * d) (rod_k d k c) u = k * (sumn d (fun j => c j * (u (d + j)%nat - u j))) ^ 2.
Proof.
  unfold rod_k. rewrite quad_congruence. destruct (rod_q d c u) as [Q0 Q1].
  rewrite (sumn_ext d (fun j => c j * (u (d + j)%nat - u j)) (fun j => c j * u (d + j)%nat - c j * u j)) by (intros; ring).
  rewrite sumn_minus. unfold quad. cbn [sumn]. rewrite Q0, Q1. unfold axial_k, mrows. cbn [nth]. ring.
Qed.
Lemma rod_psd_lemma d k c : 0 <= k -> psd (2 * d) (rod_k d k c).
Proof. intros H u. rewrite rod_energy_lemma. apply Rmult_le_pos; auto. apply pow2_ge_0. Qed.
Lemma rod_forces_lemma d k c u j : (j < d)%nat ->
  let N := rod_force d k c u in
  N = k * sumn d (fun j => c j * (u (d + j)%nat - u j)) /\
  mvec (2 * d) (rod_k d k c) u j = - (N * c j) /\ mvec (2 * d) (rod_k d k c) u (d + j)%nat = N * c j.
Proof.
  intros Hj N. destruct (rod_q d c u) as [Q0 Q1].
  assert (EN : N = k * (sumn d (fun j => c j * u (d + j)%nat) - sumn d (fun j => c j * u j))).
  { unfold N, rod_force. rewrite Q0, Q1. reflexivity. }
  split; [|split].
  - rewrite (sumn_ext d (fun j => c j * (u (d + j)%nat - u j)) (fun j => c j * u (d + j)%nat - c j * u j)) by (intros; ring).
    rewrite sumn_minus. auto.
  - unfold rod_k. rewrite mvec_mmul. unfold mvec at 1. cbn [sumn]. rewrite !mvec_mmul. unfold mvec at 1 3. cbn [sumn].
    rewrite Q0, Q1. unfold mtr, rod_T, axial_k, mrows. cbn [nth]. destruct (Nat.ltb_spec j d); [|lia]. rewrite EN. ring.
  - unfold rod_k. rewrite mvec_mmul. unfold mvec at 1. cbn [sumn]. rewrite !mvec_mmul. unfold mvec at 1 3. cbn [sumn].
    rewrite Q0, Q1. unfold mtr, rod_T, axial_k, mrows. cbn [nth]. destruct (Nat.ltb_spec (d + j) d); [lia|].
    destruct (Nat.ltb_spec (d + j) (2 * d)); [|lia]. replace (d + j - d)%nat with j by lia. rewrite EN. ring.
Qed.

