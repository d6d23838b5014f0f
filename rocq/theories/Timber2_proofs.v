From Verif Require Import Sections_proofs Plate_proofs Joint4_proofs Rhs3_proofs Loads2_proofs Timber_proofs.
From Verif Require Import Timber_model Timber_spec.
Require Import Psatz.

(* ------------------------------------------------------------ grades *)
Lemma grade_positive_lemma g : 0 < td_ft90 (gdata g) < td_fv (gdata g) + 2 /\ 0 < td_ft0 (gdata g) <= td_fm (gdata g) /\ 0 < td_fc0 (gdata g) /\
  0 < td_fc90 (gdata g) < td_fc0 (gdata g) /\ 0 < td_fv (gdata g) < td_ft0 (gdata g) /\ 0 < td_E005 (gdata g) < td_E0 (gdata g) /\
  0 < td_G005 (gdata g) < td_G (gdata g) /\ 0 < td_rhok (gdata g) < td_rhomean (gdata g) /\
  14 * td_G (gdata g) < td_E0 (gdata g) < 26 * td_G (gdata g).
Proof. destruct g; cbn; repeat split; lra. Qed.
Lemma grade_design_lemma g sc d k : kmod (gtype g) sc d = Some k ->
  0 < k_to_d (td_fm (gdata g)) k (gammaM_timber (gtype g)) < td_fm (gdata g) /\
  0 < k_to_d (td_fc0 (gdata g)) k (gammaM_timber (gtype g)) < td_fc0 (gdata g) /\
  0 < k_to_d (td_ft0 (gdata g)) k (gammaM_timber (gtype g)) <= k_to_d (td_fm (gdata g)) k (gammaM_timber (gtype g)).
Proof.
  intros E. assert (K : 5/10 <= k <= 11/10).
  { unfold kmod in E. destruct sc as [|[|[|[|]]]]; try discriminate; injection E as <-; destruct d; lra. }
  destruct (grade_positive_lemma g) as (_ & T & C & _). set (q := gammaM_timber (gtype g)).
  assert (G : 12/10 <= q <= 13/10) by (unfold q, gammaM_timber; destruct (gtype g); lra).
  assert (Q : forall f, 0 < f -> 0 < k_to_d f k q < f).
  { intros f F. unfold k_to_d. split; [apply Rdiv_lt_0_compat; nra|]. apply Rmult_lt_reg_r with q; [lra|]. unfold Rdiv. rewrite Rmult_assoc, Rinv_l by lra. nra. }
  split; [apply Q; lra|]. split; [apply Q; lra|]. split; [apply Q; lra|].
  unfold k_to_d, Rdiv. apply Rmult_le_compat_r; [left; apply Rinv_0_lt_compat; lra|]. nra.
Qed.
Lemma classes_ordered_lemma l i j a b : l = c_classes \/ l = d_classes -> nth_error l i = Some a -> nth_error l j = Some b -> (i < j)%nat -> weaker a b.
Proof.
  intros H A B L. assert (LI : (i < length l)%nat) by (apply nth_error_Some; congruence). assert (LJ : (j < length l)%nat) by (apply nth_error_Some; congruence).
  assert (U : (length l <= 10)%nat) by (destruct H; subst; cbn; lia).
  do 10 (destruct i as [|i]; [do 10 (destruct j as [|j]; [destruct H; subst; cbn in *; try lia; try discriminate; apply some_inj in A; apply some_inj in B; subst; unfold weaker; cbn; repeat split; lra|]); lia|]). lia.
Qed.
Lemma glulam_order_refuted_lemma : td_fm (gdata GL30c) = td_fm (gdata GL30h) /\ td_ft0 (gdata GL30h) < td_ft0 (gdata GL30c) /\
  td_fc0 (gdata GL30h) < td_fc0 (gdata GL30c) /\ td_fc90 (gdata GL30h) < td_fc90 (gdata GL30c) /\
  td_fm (gdata GL30c) < td_fm (gdata GL32c) /\ td_ft0 (gdata GL32c) < td_ft0 (gdata GL30c) /\ td_fv (gdata GL32c) < td_fv (gdata GL30c).
Proof. cbn. repeat split; lra. Qed.

(* ------------------------------------------------------------ size factors *)
Lemma Rpower_ge1 x e : 1 <= x -> 0 <= e -> 1 <= Rpower x e.
Proof. intros X E. rewrite <- (Rpower_O x) by lra. apply Rle_Rpower; lra. Qed.
Lemma Rpower_lebase x e : 1 <= x -> 0 <= e <= 1 -> Rpower x e <= x.
Proof. intros X E. rewrite <- (Rpower_1 x) at 2 by lra. apply Rle_Rpower; lra. Qed.
Lemma ratio_ge1 a b : 0 < b <= a -> 1 <= a / b.
Proof. intros H. apply le_div_iff; lra. Qed.
(** The product of a dimension and its size factor grows with the dimension. *)
Lemma dim_power r e x y : 0 < r -> 0 <= e <= 1 -> 0 < x <= y -> x * Rpower (r / x) e <= y * Rpower (r / y) e.
Proof.
  intros R0 E H. replace (r / x) with (r / y * (y / x)) by (field; lra).
  rewrite <- Rpower_mult_distr by (apply Rdiv_lt_0_compat; lra).
  assert (A : Rpower (y / x) e <= y / x) by (apply Rpower_lebase; [apply ratio_ge1|]; lra).
  assert (P : 0 < Rpower (r / y) e) by (unfold Rpower; apply exp_pos).
  apply Rle_trans with (x * (Rpower (r / y) e * (y / x))).
  - apply Rmult_le_compat_l; [lra|]. apply Rmult_le_compat_l; lra.
  - right. field. lra.
Qed.
Lemma min_scale x a b : 0 <= x -> x * Rmin a b = Rmin (x * a) (x * b).
Proof. intros H. unfold Rmin. destruct (Rle_dec a b); destruct (Rle_dec (x * a) (x * b)); nra. Qed.
Lemma Rle_min_compat a b c d : a <= c -> b <= d -> Rmin a b <= Rmin c d.
Proof. intros H K. apply Rmin_glb; [apply Rle_trans with (1 := Rmin_l _ _)|apply Rle_trans with (1 := Rmin_r _ _)]; auto. Qed.
Lemma dim_cap cap r e x y : 1 <= cap -> 0 < r -> 0 <= e <= 1 -> 0 < x <= y ->
  x * Rmin cap (Rpower (r / x) e) <= y * Rmin cap (Rpower (r / y) e).
Proof.
  intros C R0 E H. rewrite !min_scale by lra. apply Rle_min_compat; [nra|]. apply dim_power; auto.
Qed.
Lemma cap_ge1 cap r e x : 1 <= cap -> 0 <= e -> 0 < x <= r -> 1 <= Rmin cap (Rpower (r / x) e).
Proof. intros C E H. apply Rmin_glb; [auto|]. apply Rpower_ge1; [apply ratio_ge1|]; lra. Qed.
Lemma cap_below cap r e x y : 1 <= cap -> 0 < r -> 0 <= e <= 1 -> 0 < x < r -> r <= y -> x * Rmin cap (Rpower (r / x) e) <= y.
Proof.
  intros C R0 E H L. apply Rle_trans with (x * Rpower (r / x) e); [apply Rmult_le_compat_l; [lra|apply Rmin_r]|].
  apply Rle_trans with (r * Rpower (r / r) e); [apply dim_power; lra|]. replace (r / r) with 1 by (field; lra). rewrite Rpower_1l. lra.
Qed.
Definition size_ok (cap ref e : R) : Prop := 1 <= cap /\ 0 < ref /\ 0 <= e <= 1.
Lemma size_two_range cap ref e N M B H : size_ok cap ref e -> 0 < B -> 0 < H -> 1 <= size_two cap ref e N M B H <= cap.
Proof.
  intros (C & R0 & E) PB PH. unfold size_two.
  assert (KB : B < ref -> 1 <= Rmin cap (Rpower (ref / B) e) <= cap) by (intros; split; [apply cap_ge1; lra|apply Rmin_l]).
  assert (KH : H < ref -> 1 <= Rmin cap (Rpower (ref / H) e) <= cap) by (intros; split; [apply cap_ge1; lra|apply Rmin_l]).
  destruct (Rltb 0 N); destruct (Rltb B ref) eqn:EB; cbn [andb]; try apply Rltb_true in EB;
  destruct (negb (Reqb M 0)); destruct (Rltb H ref) eqn:EH; cbn [andb]; try apply Rltb_true in EH; try (split; lra); try auto.
  split; [apply Rmin_glb; [apply KB; auto|apply KH; auto]|]. apply Rle_trans with (1 := Rmin_l _ _). apply KB; auto.
Qed.
Lemma size_two_H cap ref e N M B H H' : size_ok cap ref e -> 0 < B -> 0 < H <= H' ->
  H * size_two cap ref e N M B H <= H' * size_two cap ref e N M B H'.
Proof.
  intros S0 PB L. pose proof S0 as (C & R0 & E). unfold size_two.
  set (kB := Rmin cap (Rpower (ref / B) e)).
  assert (PK : B < ref -> 1 <= kB) by (intros; apply cap_ge1; lra).
  assert (DC := dim_cap cap ref e H H' C R0 E L).
  assert (CB : H < ref -> ref <= H' -> H * Rmin cap (Rpower (ref / H) e) <= H') by (intros; apply cap_below; lra || auto).
  destruct (Rltb 0 N); destruct (Rltb B ref) eqn:EB; cbn [andb]; try apply Rltb_true in EB;
  destruct (negb (Reqb M 0)); destruct (Rltb H ref) eqn:EH; destruct (Rltb H' ref) eqn:EH'; cbn [andb];
  (try apply Rltb_true in EH); (try apply Rltb_false in EH); (try apply Rltb_true in EH'); (try apply Rltb_false in EH'); try (exfalso; lra);
  try (specialize (PK EB)); try specialize (CB ltac:(assumption) ltac:(assumption)); try lra; try nra.
  - rewrite (min_scale H kB), (min_scale H' kB) by lra. apply Rle_min_compat; [|exact DC]. apply Rmult_le_compat_r; lra.
  - apply Rle_trans with (H * kB); [apply Rmult_le_compat_l; [lra|apply Rmin_l]|]. apply Rmult_le_compat_r; lra.
Qed.
Lemma size_two_swap cap ref e N M B H : (0 < N /\ M <> 0) -> size_two cap ref e N M B H = size_two cap ref e N M H B.
Proof.
  intros [PN NM]. unfold size_two. destruct (Rltb 0 N) eqn:E; [|apply Rltb_false in E; lra]. destruct (Reqb M 0) eqn:F; [apply Reqb_true in F; lra|].
  cbn [andb negb]. destruct (Rltb B ref), (Rltb H ref); cbn [andb]; try reflexivity. apply Rmin_comm.
Qed.
Lemma size_two_B cap ref e N M B B' H : size_ok cap ref e -> 0 < H -> 0 < B <= B' ->
  B * size_two cap ref e N M B H <= B' * size_two cap ref e N M B' H.
Proof.
  intros S0 PH L. pose proof S0 as (C & R0 & E). unfold size_two.
  set (kH := Rmin cap (Rpower (ref / H) e)).
  assert (PK : H < ref -> 1 <= kH) by (intros; apply cap_ge1; lra).
  assert (DC := dim_cap cap ref e B B' C R0 E L).
  assert (CB : B < ref -> ref <= B' -> B * Rmin cap (Rpower (ref / B) e) <= B') by (intros; apply cap_below; lra || auto).
  destruct (Rltb 0 N); destruct (negb (Reqb M 0)); destruct (Rltb H ref) eqn:EH; cbn [andb]; try apply Rltb_true in EH;
  destruct (Rltb B ref) eqn:EB; destruct (Rltb B' ref) eqn:EB'; cbn [andb];
  (try apply Rltb_true in EB); (try apply Rltb_false in EB); (try apply Rltb_true in EB'); (try apply Rltb_false in EB'); try (exfalso; lra);
  try (specialize (PK EH)); try specialize (CB ltac:(assumption) ltac:(assumption)); try lra; try nra.
  - rewrite (min_scale B _ kH), (min_scale B' _ kH) by lra. apply Rle_min_compat; [exact DC|]. apply Rmult_le_compat_r; lra.
  - apply Rle_trans with (B * kH); [apply Rmult_le_compat_l; [lra|apply Rmin_r]|]. apply Rmult_le_compat_r; lra.
Qed.
Lemma k_h_range_lemma m rhok s N M B H : 0 < B -> 0 < H -> 0 <= s ->
  (m = solid -> 1 <= k_h m rhok s N M B H <= 13/10) /\ (m = glt -> 1 <= k_h m rhok s N M B H <= 11/10) /\
  (m = lvl -> 0 < k_h m rhok s N M B H <= 12/10 /\ (H <= 300 -> 1 <= k_h m rhok s N M B H) /\ (300 <= H -> k_h m rhok s N M B H <= 1)).
Proof.
  intros PB PH PS. split; [|split]; intros ->; cbn [k_h].
  - destruct (Rleb rhok 700); [|lra]. apply size_two_range; auto. repeat split; lra.
  - apply size_two_range; auto. repeat split; lra.
  - destruct (negb (Reqb M 0)); destruct (Reqb H 300) eqn:E; cbn [andb negb]; try (repeat split; lra).
    assert (P : 0 < Rpower (300 / H) s) by (unfold Rpower; apply exp_pos).
    split; [split; [apply Rmin_glb_lt; lra|apply Rmin_l]|]. split; intros L.
    + apply cap_ge1; lra.
    + apply Rle_trans with (1 := Rmin_r _ _). rewrite <- (Rpower_O (300 / H)) by (apply Rdiv_lt_0_compat; lra).
      rewrite Rpower_O by (apply Rdiv_lt_0_compat; lra). rewrite <- (Rpower_1l s). apply Rle_Rpower_l; [lra|]. split; [apply Rdiv_lt_0_compat; lra|].
      apply div_le_iff; lra.
Qed.
Lemma k_h_resist_lemma m rhok s N M B H B' H' : 0 < B <= B' -> 0 < H <= H' -> 0 <= s <= 1 ->
  H * k_h m rhok s N M B H <= H' * k_h m rhok s N M B H' /\ B * k_h m rhok s N M B H <= B' * k_h m rhok s N M B' H.
Proof.
  intros PB PH PS. destruct m; cbn [k_h].
  - destruct (Rleb rhok 700); [|lra]. split; [apply size_two_H|apply size_two_B]; try lra; repeat split; lra.
  - split; [apply size_two_H|apply size_two_B]; try lra; repeat split; lra.
  - assert (K : forall h, 0 < h -> (if andb (negb (Reqb M 0)) (negb (Reqb h 300)) then Rmin (12/10) (Rpower (300 / h) s) else 1) =
      if negb (Reqb M 0) then Rmin (12/10) (Rpower (300 / h) s) else 1).
    { intros h P. destruct (negb (Reqb M 0)); cbn [andb]; [|reflexivity]. destruct (Reqb h 300) eqn:E; cbn [negb]; [|reflexivity].
      apply Reqb_true in E. subst. replace (300/300) with 1 by field. rewrite Rpower_1l. rewrite Rmin_right; lra. }
    rewrite !K by lra. destruct (negb (Reqb M 0)); [|lra]. split; [apply dim_cap; lra|].
    apply Rmult_le_compat_r; [|lra]. apply Rmin_glb; [lra|]. left. unfold Rpower. apply exp_pos.
Qed.
Lemma bending_resist_lemma m rhok s N M B H B' H' f : 0 < B <= B' -> 0 < H <= H' -> 0 <= s <= 1 -> 0 <= f ->
  k_h m rhok s N M B H * f * (B * H ^ 2 / 6) <= k_h m rhok s N M B' H' * f * (B' * H' ^ 2 / 6) /\
  k_h m rhok s N M B H * f * (B * H) <= k_h m rhok s N M B' H' * f * (B' * H').
Proof.
  intros PB PH PS PF. destruct (k_h_resist_lemma m rhok s N M B H B' H' PB PH PS) as [KH _].
  destruct (k_h_resist_lemma m rhok s N M B H' B' H' PB ltac:(lra) PS) as [_ KB].
  set (k1 := k_h m rhok s N M B H) in *. set (k2 := k_h m rhok s N M B H') in *. set (k3 := k_h m rhok s N M B' H') in *.
  assert (0 <= k1) by (unfold k1; destruct (k_h_range_lemma m rhok s N M B H) as (X & Y & Z); try lra; destruct m; [specialize (X eq_refl)|specialize (Y eq_refl)|specialize (Z eq_refl)]; lra).
  assert (A : k1 * H * B <= k3 * H' * B').
  { apply Rle_trans with (H' * k2 * B); [nra|]. replace (k3 * H' * B') with (H' * (B' * k3)) by ring. replace (H' * k2 * B) with (H' * (B * k2)) by ring. apply Rmult_le_compat_l; lra. }
  assert (0 <= k1 * H * B) by (repeat apply Rmult_le_pos; lra).
  split.
  - replace (k1 * f * (B * H ^ 2 / 6)) with (f / 6 * (k1 * H * B * H)) by field. replace (k3 * f * (B' * H' ^ 2 / 6)) with (f / 6 * (k3 * H' * B' * H')) by field.
    apply Rmult_le_compat_l; [lra|]. apply Rmult_le_compat; lra.
  - replace (k1 * f * (B * H)) with (f * (k1 * H * B)) by ring. replace (k3 * f * (B' * H')) with (f * (k3 * H' * B')) by ring. apply Rmult_le_compat_l; lra.
Qed.
Lemma k_h_grows_lemma : k_h solid 350 0 1 1 100 149 < k_h solid 350 0 1 1 100 150.
Proof.
  unfold k_h, size_two. rleb. destruct (Reqb 1 0) eqn:E; [apply Reqb_true in E; lra|]. cbn [andb negb].
  assert (A : Rpower (150 / 149) (2/10) < Rpower (150 / 100) (2/10)) by (apply Rlt_Rpower_l; lra).
  assert (B : Rpower (150 / 149) (2/10) <= 150/149) by (apply Rpower_lebase; lra).
  apply Rle_lt_trans with (1 := Rmin_r _ _). apply Rle_lt_trans with (1 := Rmin_r _ _). apply Rmin_glb_lt; lra.
Qed.
Lemma k_L_lemma m s N L : 0 < L -> 0 <= s -> 0 < k_L m s N L <= 11/10 /\ (m <> lvl -> k_L m s N L = 1) /\
  (m = lvl -> 0 < N -> L <> 3000 -> k_L m s N L = Rmin (11/10) (exp (s / 2 * ln (3000 / L)))) /\
  (m = lvl -> 3000 <= L -> k_L m s N L <= 1).
Proof.
  intros PL PS. assert (P : 0 < Rpower (3000 / L) (s / 2)) by (unfold Rpower; apply exp_pos).
  destruct m; cbn [k_L]; try (repeat split; try lra; intros; congruence).
  destruct (Rltb 0 N) eqn:E; destruct (Reqb L 3000) eqn:F; cbn [andb negb];
    (split; [split; try lra; try (apply Rmin_glb_lt; lra); try apply Rmin_l|]); (split; [congruence|]); split; intros; try lra; try reflexivity;
    try (apply Reqb_true in F; lra); try (apply Rltb_false in E; lra).
  apply Rle_trans with (1 := Rmin_r _ _). rewrite <- (Rpower_1l (s / 2)). apply Rle_Rpower_l; [lra|]. split; [apply Rdiv_lt_0_compat; lra|]. apply div_le_iff; lra.
Qed.
(** Dimensions left after charring, exactly. *)
Lemma left_dims_lemma s db dt dr dl : d_char_n (ts_bottom s) (ts_R s) (ts_beta s) = Some db -> d_char_n (ts_top s) (ts_R s) (ts_beta s) = Some dt ->
  d_char_n (ts_right s) (ts_R s) (ts_beta s) = Some dr -> d_char_n (ts_left s) (ts_R s) (ts_beta s) = Some dl ->
  let h := left_of (ts_H s) db (if ts_four s then dt else 0) in let b := left_of (ts_B s) dr dl in
  sec_H s = Some h /\ sec_B s = Some b /\ sec_A s = Some (b * h) /\ sec_I s = Some (b * h ^ 3 / 12, h * b ^ 3 / 12) /\ sec_W s = Some (b * h ^ 2 / 6, h * b ^ 2 / 6).
Proof.
  intros B T R0 L h b.
  assert (FD : forall x, floor_dim x = if Rle_dec x 0 then 1/100000 else x).
  { intros x. unfold floor_dim. destruct (Rleb x 0) eqn:E; [apply Rleb_true in E|apply Rleb_false in E]; destruct (Rle_dec x 0); try lra; reflexivity. }
  assert (EH : sec_H s = Some h).
  { unfold sec_H, char_H, h, left_of. rewrite B. cbn [bind]. destruct (ts_four s); [rewrite T; cbn [bind]; rewrite FD; reflexivity|]. rewrite FD. rewrite Rminus_0_r. reflexivity. }
  assert (EB : sec_B s = Some b) by (unfold sec_B; rewrite R0; cbn [bind]; rewrite L; cbn [bind]; rewrite FD; reflexivity).
  unfold sec_A, sec_I, sec_W. rewrite EH, EB. cbn [bind]. repeat split; reflexivity.
Qed.
Lemma unprotected_depth_lemma t beta : 0 <= t -> d_char_n None t beta = Some (beta * t + 7 * Rmin 1 (t / 20)).
Proof.
  intros T. unfold d_char_n, k0. f_equal. destruct (Rltb t 20) eqn:E; [apply Rltb_true in E|apply Rltb_false in E].
  - rewrite Rmin_right by lra. ring.
  - rewrite Rmin_left by lra. ring.
Qed.
