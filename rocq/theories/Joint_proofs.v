From Coq Require Import Rpower.
From Verif Require Import Joint_model.
From Verif Require Import Sections_proofs Sections3_proofs Plate_proofs Loads2_proofs.
From Verif Require Import Joint_model Joint_spec.

(* ------------------------------------------------------------- bolt length *)
Lemma find_length_some : forall tab size len k, find_length tab size len = Some k ->
  len <= INR k /\ exists sizes, In (k, sizes) tab /\ In size sizes.
Proof.
  induction tab as [|[k0 ss] tab IH]; simpl; intros size len k H; [discriminate|].
  destruct (Rleb len (INR k0)) eqn:E.
  - destruct (existsb (Nat.eqb size) ss) eqn:X.
    + injection H as <-. apply Rleb_true in E. apply existsb_exists in X. destruct X as [x [X1 X2]].
      apply Nat.eqb_eq in X2. subst x. split; auto. exists ss. auto.
    + destruct (IH _ _ _ H) as [A [s [B C]]]. split; auto. exists s; auto.
  - destruct (IH _ _ _ H) as [A [s [B C]]]. split; auto. exists s; auto.
Qed.
Lemma find_length_none : forall tab size len, find_length tab size len = None ->
  forall k sizes, In (k, sizes) tab -> In size sizes -> INR k < len.
Proof.
  induction tab as [|[k0 ss] tab IH]; simpl; intros size len H k sizes HI HS; [tauto|].
  destruct (Rleb len (INR k0)) eqn:E.
  - destruct (existsb (Nat.eqb size) ss) eqn:X; [discriminate|].
    destruct HI as [HI|HI]; [|eauto]. injection HI as -> ->.
    assert (existsb (Nat.eqb size) sizes = true). { apply existsb_exists. exists size. rewrite Nat.eqb_refl. auto. }
    congruence.
  - apply Rleb_false in E. destruct HI as [HI|HI]; [|eauto]. injection HI as -> ->. auto.
Qed.
(* keys increase *)
Fixpoint sorted_keys (tab : list (nat * list nat)) : Prop :=
  match tab with [] => True | (k, _) :: t => (forall k' s, In (k', s) t -> (k < k')%nat) /\ sorted_keys t end.
Lemma find_length_least : forall tab size len k, sorted_keys tab -> find_length tab size len = Some k ->
  forall k' s, In (k', s) tab -> In size s -> len <= INR k' -> (k <= k')%nat.
Proof.
  induction tab as [|[k0 ss] tab IH]; simpl; intros size len k SK H k' s HI HS HL; [tauto|]. destruct SK as [S1 S2].
  destruct (Rleb len (INR k0)) eqn:E.
  - destruct (existsb (Nat.eqb size) ss) eqn:X.
    + injection H as <-. destruct HI as [HI|HI]. injection HI as -> ->. lia. apply S1 in HI. lia.
    + destruct HI as [HI|HI]; [|eauto]. injection HI as -> ->.
      assert (existsb (Nat.eqb size) s = true). { apply existsb_exists. exists size. rewrite Nat.eqb_refl. auto. }
      congruence.
  - apply Rleb_false in E. destruct HI as [HI|HI]; [|eauto]. injection HI as -> ->. lra.
Qed.
Lemma part_sorted : sorted_keys part_thread.
Proof.
  unfold part_thread. simpl.
  repeat split; intros k' s H; repeat (destruct H as [H|H]; [injection H as <- <-; lia|]); destruct H.
Qed.
Opaque part_thread.
Lemma bolt_length_lemma : forall size c len,
  (forall b, new_bolt size c len = Some b -> exists k, shortest_stock size len k /\ b_len b = INR k) /\
  ((forall k, stocked size k -> INR k < len) -> new_bolt size c len = None) /\
  (forall k, stocked size k -> len <= INR k -> size_data size <> None -> new_bolt size c len <> None).
Proof.
  intros size c len. split; [|split].
  - intros b H. unfold new_bolt in H. destruct (find_length part_thread size len) as [k|] eqn:E; [|discriminate].
    destruct (size_data size); [|discriminate]. injection H as <-. exists k. split; auto.
    destruct (find_length_some _ _ _ _ E) as [A B]. split; [|split]; auto.
    intros k' [s [P Q]] HL. eapply find_length_least; eauto using part_sorted.
  - intros H. unfold new_bolt. destruct (find_length part_thread size len) as [k|] eqn:E; auto.
    destruct (find_length_some _ _ _ _ E) as [A B]. specialize (H k B). lra.
  - intros k [s [P Q]] HL HD H. unfold new_bolt in H. destruct (find_length part_thread size len) as [k0|] eqn:E.
    destruct (size_data size); congruence.
    pose proof (find_length_none _ _ _ E k s P Q). lra.
Qed.
Transparent part_thread.
Lemma stocked_sizes : forall size k, stocked size k -> size_data size <> None.
Proof.
  intros size k [s [P Q]]. unfold part_thread in P. simpl in P.
  repeat (destruct P as [P|P]; [injection P as <- <-; simpl in Q; repeat (destruct Q as [Q|Q]; [subst; simpl; discriminate|]); destruct Q|]).
  destruct P.
Qed.
Opaque part_thread.
Lemma bolt_exists_lemma : forall size c len k, stocked size k -> len <= INR k -> exists b, new_bolt size c len = Some b.
Proof.
  intros. destruct (new_bolt size c len) eqn:E; eauto.
  exfalso. eapply (proj2 (proj2 (bolt_length_lemma size c len))); eauto using stocked_sizes.
Qed.
Lemma set_size_lemma : forall size c len b size', new_bolt size c len = Some b ->
  set_size b size' = new_bolt size' c len.
Proof.
  intros size c len b size' H. unfold new_bolt in H.
  destruct (find_length part_thread size len); [|discriminate]. destruct (size_data size); [|discriminate].
  injection H as <-. unfold set_size, new_bolt. cbn [b_min b_class b_fyb b_fub].
  destruct (size_data size'), (find_length part_thread size' len); reflexivity.
Qed.

(* ------------------------------------------------------------- bolt resistances *)
Lemma size_cases : forall n dt, size_data n = Some dt -> n = 12%nat \/ n = 16%nat \/ n = 20%nat \/ n = 24%nat \/ n = 30%nat \/ n = 36%nat.
Proof. intros n dt H. do 37 (destruct n as [|n]; [simpl in H; try discriminate; auto 10|]). simpl in H. discriminate. Qed.
Lemma new_bolt_inv : forall n c len b, new_bolt n c len = Some b ->
  b_size b = n /\ b_class b = c /\ b_fub b = class_fub c /\ b_fyb b = class_fyb c /\ b_A b = PI * INR n ^ 2 / 4 /\ b_d0 b = INR (hole n) /\ size_data n = Some (b_data b).
Proof.
  intros n c len b H. unfold new_bolt in H.
  destruct (find_length part_thread n len); [|discriminate]. destruct (size_data n) eqn:E; [|discriminate].
  injection H as <-. cbn. repeat split; auto.
Qed.
Lemma PI_lo : 3 < PI. Proof. exact PI3. Qed.
Lemma fub_pos : forall c, 0 < class_fub c. Proof. destruct c; simpl; lra. Qed.
Lemma alpha_v_bounds : forall c, 5/10 <= alpha_v c <= 6/10. Proof. destruct c; simpl; lra. Qed.
Lemma area_bounds : forall n dt, size_data n = Some dt -> 0 < t_As dt < PI * INR n ^ 2 / 4.
Proof.
  intros n dt H. pose proof PI_lo.
  destruct (size_cases _ _ H) as [E|[E|[E|[E|[E|E]]]]]; subst n; simpl in H; injection H as <-; cbn [t_As];
  rewrite INR_IZR_INZ; cbn [Z.of_nat Pos.of_succ_nat Pos.succ]; simpl; split; nra.
Qed.
Lemma sizes_grow : forall n n' dt dt', size_data n = Some dt -> size_data n' = Some dt' -> (n < n')%nat ->
  t_As dt < t_As dt' /\ INR n < INR n'.
Proof.
  intros n n' dt dt' H H' L. split; [|apply lt_INR; auto].
  destruct (size_cases _ _ H) as [E|[E|[E|[E|[E|E]]]]]; subst n; simpl in H; injection H as <-;
  destruct (size_cases _ _ H') as [E|[E|[E|[E|[E|E]]]]]; subst n'; simpl in H'; injection H' as <-; cbn [t_As]; try lia; lra.
Qed.
Lemma bolt_shear_lemma : forall n c len b, new_bolt n c len = Some b ->
  0 < shear_resistance b true < shear_resistance b false /\
  (forall n' len' b', new_bolt n' c len' = Some b' -> (n < n')%nat ->
     (forall th, shear_resistance b th < shear_resistance b' th) /\
     forall k2, 0 < k2 -> 0 < tension_resistance b k2 < tension_resistance b' k2).
Proof.
  intros n c len b H. destruct (new_bolt_inv _ _ _ _ H) as [Hs [Hc [Hf [_ [HA [_ Hd]]]]]].
  pose proof (fub_pos c). pose proof (alpha_v_bounds c). pose proof (area_bounds _ _ Hd) as AB. split.
  - unfold shear_resistance, gammaM2. rewrite Hc, Hf, HA. cbn iota.
    assert (alpha_v c * class_fub c <= 6/10 * class_fub c) by nra.
    assert (0 < alpha_v c * class_fub c) by nra.
    set (A := PI * INR n ^ 2 / 4) in *. set (u := alpha_v c * class_fub c) in *.
    split.
    + apply Rmult_lt_0_compat; [nra|lra].
    + apply Rmult_lt_compat_r; [lra|]. nra.
  - intros n' len' b' H' L. destruct (new_bolt_inv _ _ _ _ H') as [Hs' [Hc' [Hf' [_ [HA' [_ Hd']]]]]].
    destruct (sizes_grow _ _ _ _ Hd Hd' L) as [G1 G2]. pose proof (area_bounds _ _ Hd') as AB'.
    assert (GA : PI * INR n ^ 2 / 4 < PI * INR n' ^ 2 / 4).
    { pose proof PI_lo. pose proof (pos_INR n). assert (INR n ^ 2 < INR n' ^ 2) by (simpl; nra). nra. }
    split.
    + intros th. unfold shear_resistance, gammaM2. rewrite Hc, Hc', Hf, Hf', HA, HA'.
      assert (0 < alpha_v c * class_fub c) by nra.
      apply Rmult_lt_compat_r; [lra|]. destruct th.
      * apply Rmult_lt_compat_l; auto.
      * set (A := PI * INR n ^ 2 / 4) in *. set (A' := PI * INR n' ^ 2 / 4) in *. nra.
    + intros k2 Hk. unfold tension_resistance, gammaM2. rewrite Hf, Hf'.
      assert (0 < k2 * class_fub c) by nra. split.
      * apply Rmult_lt_0_compat; [nra|lra].
      * apply Rmult_lt_compat_r; [lra|]. apply Rmult_lt_compat_l; auto.
Qed.
Lemma free_shear_lemma : forall n c len b, new_bolt n c len = Some b ->
  (In c [B46; B56; B88] -> shear_resistance b true = bolt_shear_resistance (b_fub b) (t_As (b_data b)) c true /\
                          shear_resistance b false = bolt_shear_resistance (b_fub b) (b_A b) c false) /\
  (In c [B48; B58; B68; B109] -> shear_resistance b true < bolt_shear_resistance (b_fub b) (t_As (b_data b)) c true /\
                          bolt_shear_resistance (b_fub b) (b_A b) c false < shear_resistance b false).
Proof.
  intros n c len b H. destruct (new_bolt_inv _ _ _ _ H) as [Hs [Hc [Hf [_ [HA [_ Hd]]]]]].
  pose proof (fub_pos c). pose proof (area_bounds _ _ Hd) as AB. unfold shear_resistance, bolt_shear_resistance, gammaM2.
  rewrite Hc, Hf, HA. set (A := PI * INR n ^ 2 / 4) in *. split; intros I0; simpl in I0.
  - destruct I0 as [E|[E|[E|[]]]]; subst c; rewrite <- E; cbn; split; field.
  - assert (alpha_v c = 5/10) as ->. { destruct I0 as [E|[E|[E|[E|[]]]]]; rewrite <- E; reflexivity. }
    assert (0 < class_fub c * t_As (b_data b)) by nra. assert (0 < class_fub c * A) by (apply Rmult_lt_0_compat; lra).
    split; apply Rmult_lt_compat_r; lra.
Qed.

(* ------------------------------------------------------------- bearing *)
Lemma hole_pos : forall n, 0 < INR (hole n).
Proof. intros. apply lt_0_INR. unfold hole. destruct (Nat.ltb n 16), (Nat.ltb n 27); lia. Qed.
Lemma k1_pos : forall d0 e2 p2 edge, 0 < d0 -> 12/10 * d0 <= e2 -> 24/10 * d0 <= p2 -> 16/10 <= k1 e2 p2 d0 edge <= 25/10.
Proof.
  intros d0 e2 p2 edge D E P.
  assert (A : 12/10 <= e2 / d0) by (apply le_div_iff; lra).
  assert (B : 24/10 <= p2 / d0) by (apply le_div_iff; lra).
  unfold k1. replace (28/10 * e2 / d0) with (28/10 * (e2/d0)) by (field; lra).
  replace (14/10 * p2 / d0) with (14/10 * (p2/d0)) by (field; lra).
  destruct edge; unfold Rmin; repeat destruct Rle_dec; lra.
Qed.
Lemma k1_mono : forall d0 e2 p2 e2' p2' edge, 0 < d0 -> e2 <= e2' -> p2 <= p2' -> k1 e2 p2 d0 edge <= k1 e2' p2' d0 edge.
Proof.
  intros. assert (e2 / d0 <= e2' / d0) by (apply div_le; lra). assert (p2 / d0 <= p2' / d0) by (apply div_le; lra).
  unfold k1. replace (28/10 * e2 / d0) with (28/10 * (e2/d0)) by (field; lra).
  replace (14/10 * p2 / d0) with (14/10 * (p2/d0)) by (field; lra).
  replace (28/10 * e2' / d0) with (28/10 * (e2'/d0)) by (field; lra).
  replace (14/10 * p2' / d0) with (14/10 * (p2'/d0)) by (field; lra).
  destruct edge; unfold Rmin; repeat destruct Rle_dec; lra.
Qed.
Lemma ad_pos : forall d0 e1 p1 edge, 0 < d0 -> 12/10 * d0 <= e1 -> 22/10 * d0 <= p1 -> 4/10 <= alpha_d e1 p1 d0 edge.
Proof.
  intros. unfold alpha_d. replace (e1 / 3 / d0) with ((e1 / d0) / 3) by (field; lra).
  replace (p1 / 3 / d0) with ((p1 / d0) / 3) by (field; lra).
  assert (12/10 <= e1 / d0) by (apply le_div_iff; lra). assert (22/10 <= p1 / d0) by (apply le_div_iff; lra).
  destruct edge; lra.
Qed.
Lemma ad_mono : forall d0 e1 p1 e1' p1' edge, 0 < d0 -> e1 <= e1' -> p1 <= p1' -> alpha_d e1 p1 d0 edge <= alpha_d e1' p1' d0 edge.
Proof.
  intros. unfold alpha_d. assert (e1 / 3 / d0 <= e1' / 3 / d0) by (apply div_le; lra).
  assert (p1 / 3 / d0 <= p1' / 3 / d0) by (apply div_le; lra). destruct edge; lra.
Qed.
Lemma ab_fu : forall ad fub fu, 0 < fu -> Rmin (Rmin ad (fub / fu)) 1 * fu = Rmin (Rmin (ad * fu) fub) fu.
Proof.
  intros. assert (H0 : fub = fub / fu * fu) by (field; lra). set (q := fub / fu) in *.
  unfold Rmin. repeat destruct Rle_dec; nra.
Qed.
Lemma bearing_form : forall b fu t e1 e2 p1 p2 pe le, 0 < fu ->
  bearing_resistance b fu t e1 e2 p1 p2 pe le = Some (k1 e2 p2 (b_d0 b) pe * Rmin (Rmin (alpha_d e1 p1 (b_d0 b) le * fu) (b_fub b)) fu * INR (b_size b) * t / gammaM2).
Proof.
  intros. unfold bearing_resistance. rewrite pdiv_ok by lra. cbn [bind]. f_equal. rewrite <- ab_fu; auto. unfold gammaM2. field.
Qed.
Lemma size_pos : forall n dt, size_data n = Some dt -> 0 < INR n.
Proof. intros n dt H. apply lt_0_INR. destruct (size_cases _ _ H) as [E|[E|[E|[E|[E|E]]]]]; subst; lia. Qed.
Lemma bearing_lemma : forall n c len b fu t e1 e2 p1 p2 pe le, new_bolt n c len = Some b ->
  0 < fu -> 0 < t -> min_distances (b_d0 b) e1 e2 p1 p2 ->
  exists F, bearing_resistance b fu t e1 e2 p1 p2 pe le = Some F /\ 0 < F <= 25/10 * fu * INR n * t / (125/100) /\
    F <= 25/10 * b_fub b * INR n * t / (125/100) /\
    forall fu' t' e1' e2' p1' p2', fu <= fu' -> t <= t' -> e1 <= e1' -> e2 <= e2' -> p1 <= p1' -> p2 <= p2' ->
    exists F', bearing_resistance b fu' t' e1' e2' p1' p2' pe le = Some F' /\ F <= F'.
Proof.
  intros n c len b fu t e1 e2 p1 p2 pe le H Hfu Ht [M1 [M2 [M3 M4]]].
  destruct (new_bolt_inv _ _ _ _ H) as [Hs [Hc [Hf [_ [HA [Hd0 Hd]]]]]].
  pose proof (size_pos _ _ Hd) as HN. pose proof (fub_pos c) as Hub. pose proof (hole_pos n) as HD. rewrite <- Hd0 in HD.
  rewrite bearing_form by auto. eexists; split; [reflexivity|]. rewrite Hs, Hf. unfold gammaM2.
  pose proof (k1_pos (b_d0 b) e2 p2 pe HD M2 M4) as HK. pose proof (ad_pos (b_d0 b) e1 p1 le HD M1 M3) as HAD.
  set (K := k1 e2 p2 (b_d0 b) pe) in *. set (AD := alpha_d e1 p1 (b_d0 b) le) in *.
  set (X := Rmin (Rmin (AD * fu) (class_fub c)) fu).
  assert (HX : 0 < X <= fu /\ X <= class_fub c). { unfold X, Rmin. repeat destruct Rle_dec; nra. }
  assert (HNT : 0 < INR n * t) by (apply Rmult_lt_0_compat; auto).
  assert (P : K * X <= 25/10 * fu) by nra. assert (P2 : K * X <= 25/10 * class_fub c) by nra. assert (0 < K * X) by nra.
  split; [|split].
  - split. replace (K * X * INR n * t / (125/100)) with (K * X * (INR n * t) * (100/125)) by field. nra.
    replace (K * X * INR n * t / (125/100)) with (K * X * (INR n * t) * (100/125)) by field.
    replace (25/10 * fu * INR n * t / (125/100)) with (25/10 * fu * (INR n * t) * (100/125)) by field. nra.
  - replace (K * X * INR n * t / (125/100)) with (K * X * (INR n * t) * (100/125)) by field.
    replace (25/10 * class_fub c * INR n * t / (125/100)) with (25/10 * class_fub c * (INR n * t) * (100/125)) by field. nra.
  - intros fu' t' e1' e2' p1' p2' L1 L2 L3 L4 L5 L6. rewrite bearing_form by lra. eexists; split; [reflexivity|].
    rewrite Hs, Hf. unfold gammaM2.
    pose proof (k1_mono (b_d0 b) e2 p2 e2' p2' pe HD L4 L6) as HK'. pose proof (ad_mono (b_d0 b) e1 p1 e1' p1' le HD L3 L5) as HAD'.
    fold K in HK'. fold AD in HAD'.
    set (K' := k1 e2' p2' (b_d0 b) pe) in *. set (AD' := alpha_d e1' p1' (b_d0 b) le) in *.
    assert (HX' : X <= Rmin (Rmin (AD' * fu') (class_fub c)) fu').
    { assert (AD * fu <= AD' * fu') by nra. unfold X, Rmin. repeat destruct Rle_dec; lra. }
    set (X' := Rmin (Rmin (AD' * fu') (class_fub c)) fu') in *.
    assert (K * X <= K' * X') by nra. assert (INR n * t <= INR n * t') by nra.
    replace (K * X * INR n * t / (125/100)) with (K * X * (INR n * t) * (100/125)) by field.
    replace (K' * X' * INR n * t' / (125/100)) with (K' * X' * (INR n * t') * (100/125)) by field. nra.
Qed.
Lemma free_bearing_lemma : forall b fu t e1 e2 p1 p2 le F, 0 < fu ->
  bearing_resistance b fu t e1 e2 p1 p2 false le = Some F ->
  bolt_bearing_resistance (b_fub b) fu (INR (b_size b)) t e1 e2 p1 p2 (b_d0 b) false le = Some (125/100 * F).
Proof.
  intros b fu t e1 e2 p1 p2 le F Hfu H. unfold bearing_resistance in H. unfold bolt_bearing_resistance.
  rewrite pdiv_ok in * by lra. cbn [bind] in *. injection H as <-. f_equal. unfold k1, gammaM2. field.
Qed.

Lemma shear_tension_lemma : forall FvEd FvRd FtEd FtRd U, 0 < FvRd -> 0 < FtRd -> 0 <= FvEd -> 0 <= FtEd ->
  shear_and_tension FvEd FvRd FtEd FtRd = Some U -> U <= 1 ->
  FvEd <= FvRd /\ FtEd <= 14/10 * FtRd /\ (FvEd = FvRd -> FtEd = 0) /\ (2/7 * FvRd <= FvEd -> FtEd <= FtRd).
Proof.
  intros FvEd FvRd FtEd FtRd U A B C D H HU. unfold shear_and_tension in H. rewrite !pdiv_ok in H by lra. cbn [bind] in H.
  injection H as <-.
  assert (E1 : 0 <= FvEd / FvRd) by (apply div_nn; lra). assert (E2 : 0 <= FtEd / FtRd) by (apply div_nn; lra).
  assert (X : FvEd = FvEd / FvRd * FvRd) by (field; lra). assert (Y : FtEd = FtEd / FtRd * FtRd) by (field; lra).
  set (u := FvEd / FvRd) in *. set (v := FtEd / FtRd) in *. split; [nra|]. split; [nra|]. split.
  - intros E. assert (u = 1) by nra. assert (v = 0) by lra. rewrite Y, H0. ring.
  - intros L. assert (2/7 <= u) by nra. assert (v <= 1) by lra. nra.
Qed.
Lemma shear_tension_refuted_lemma : exists FvEd FvRd FtEd FtRd U, 0 < FvRd /\ 0 < FtRd /\ 0 <= FvEd /\ 0 <= FtEd /\
  shear_and_tension FvEd FvRd FtEd FtRd = Some U /\ U <= 1 /\ FtRd < FtEd.
Proof.
  exists 10, 100, 120, 100. eexists. unfold shear_and_tension. rewrite !pdiv_ok by lra. cbn [bind].
  repeat split; try lra.
Qed.
Lemma block_tearing_lemma : forall fy fu Ant Anv, 0 <= fy -> 0 <= fu -> 0 <= Ant -> 0 <= Anv ->
  0 <= block_tearing fy fu Ant Anv false <= block_tearing fy fu Ant Anv true /\
  block_tearing fy fu Ant Anv true <= 2 * block_tearing fy fu Ant Anv false /\
  (block_tearing fy fu Ant Anv true - block_tearing fy fu Ant Anv false = 5/10 * fu * Ant / gammaM2) /\
  forall cn Ant' Anv', Ant <= Ant' -> Anv <= Anv' -> block_tearing fy fu Ant Anv cn <= block_tearing fy fu Ant' Anv' cn.
Proof.
  intros fy fu Ant Anv H1 H2 H3 H4. assert (S3 : 0 < sqrt 3) by (apply sqrt_lt_R0; lra).
  assert (Q : 0 <= fy / sqrt 3) by (apply div_nn; lra). unfold block_tearing, gammaM2, gammaM0.
  assert (0 <= fy / sqrt 3 * Anv) by nra. assert (0 <= fu * Ant) by nra.
  split; [|split; [|split]]; try (set (q := fy / sqrt 3 * Anv) in *; lra).
  intros cn Ant' Anv' L1 L2. assert (fy / sqrt 3 * Anv <= fy / sqrt 3 * Anv') by nra. assert (fu * Ant <= fu * Ant') by nra.
  set (q := fy / sqrt 3 * Anv) in *. set (q' := fy / sqrt 3 * Anv') in *. destruct cn; lra.
Qed.

(* ------------------------------------------------------------- welds *)
Lemma weld_iff : forall beta fu F a n, 0 < beta -> 0 < fu -> 0 < F -> 0 < a -> 0 < n ->
  (welds_ok beta fu F a n <-> 2 * beta * (125/100) * F / (n * sqrt 2 * fu) <= a).
Proof.
  intros beta fu F a n B U HF A N. unfold welds_ok. cbv zeta.
  assert (S2 : 0 < sqrt 2) by (apply sqrt_lt_R0; lra).
  set (s := F / (n * a * sqrt 2)).
  assert (Q : 0 < n * a * sqrt 2) by (repeat apply Rmult_lt_0_compat; auto).
  assert (P : 0 < s) by (unfold s; apply Rdiv_lt_0_compat; auto).
  replace (s ^ 2 + 3 * s ^ 2) with ((2 * s) ^ 2) by ring. rewrite sqrt_pow2 by lra.
  rewrite (le_div_iff fu (beta * (125/100)) (2 * s)) by nra.
  rewrite (div_le_iff _ (n * sqrt 2 * fu) a) by (repeat apply Rmult_lt_0_compat; auto).
  assert (E : F = s * (n * a * sqrt 2)) by (unfold s; field; repeat split; lra).
  split; intros L.
  - rewrite E at 1. assert (0 < n * a * sqrt 2) by auto.
    replace (2 * beta * (125/100) * (s * (n * a * sqrt 2))) with ((2 * s * (beta * (125/100))) * (n * a * sqrt 2)) by ring.
    replace (a * (n * sqrt 2 * fu)) with (fu * (n * a * sqrt 2)) by ring. nra.
  - rewrite E in L at 1.
    replace (2 * beta * (125/100) * (s * (n * a * sqrt 2))) with ((2 * s * (beta * (125/100))) * (n * a * sqrt 2)) in L by ring.
    replace (a * (n * sqrt 2 * fu)) with (fu * (n * a * sqrt 2)) in L by ring. nra.
Qed.
Lemma corr_pos : forall g, 0 < correlation g. Proof. destruct g; simpl; lra. Qed.
Lemma weld_lemma : forall g fy fu t, 0 < fy -> 0 < fu -> 0 < t ->
  (exists q, weld_throat g fy fu = Some q /\ forall a, 0 < a -> (welds_ok (correlation g) fu (fy * t / gammaM0) a 2 <-> q * t <= a)) /\
  (exists q, weld_tube g fy fu = Some q /\ forall a, 0 < a -> (welds_ok (correlation g) fu (fy * t / gammaM0) a 1 <-> q * t <= a)).
Proof.
  intros g fy fu t Y U T. pose proof (corr_pos g) as C. assert (S2 : 0 < sqrt 2) by (apply sqrt_lt_R0; lra).
  assert (FP : 0 < fy * t / gammaM0) by (unfold gammaM0; nra).
  unfold weld_throat, weld_tube. rewrite !pdiv_ok by lra.
  split; (eexists; split; [reflexivity|]; intros a A; rewrite weld_iff by (auto; lra); unfold gammaM0, gammaM2).
  - replace (2 * correlation g * (125/100) * (fy * t / 1) / (2 * sqrt 2 * fu)) with (correlation g / sqrt 2 * (125/100) / 1 * fy / fu * t) by (field; lra). tauto.
  - replace (2 * correlation g * (125/100) * (fy * t / 1) / (1 * sqrt 2 * fu)) with (2 * correlation g / sqrt 2 * (125/100) / 1 * fy / fu * t) by (field; lra). tauto.
Qed.
