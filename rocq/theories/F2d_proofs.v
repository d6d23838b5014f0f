(** Proofs about the geometry of frame members. *)
From Verif Require Import Base EC3_model Bool_tac Sections_proofs.
From Verif Require Import F2d_model F2d_spec.
Require Import Reals List Bool Lra Lia Psatz Permutation.
Import ListNotations.
Local Open Scope R_scope.

Lemma pdist_sq : forall p q, pdist p q ^ 2 = (fst q - fst p) ^ 2 + (snd q - snd p) ^ 2.
Proof. intros. unfold pdist. apply pow2_sqrt. pose proof (pow2_ge_0 (fst q - fst p)). pose proof (pow2_ge_0 (snd q - snd p)). lra. Qed.
Lemma pdist_nn : forall p q, 0 <= pdist p q. Proof. intros. apply sqrt_pos. Qed.
Lemma pdist_param : forall a b t p, at_param a b t p -> pdist a p = Rabs t * pdist a b.
Proof.
  intros a b t p [E1 E2]. unfold pdist at 1. rewrite E1, E2.
  replace ((fst a + t * (fst b - fst a) - fst a) ^ 2 + (snd a + t * (snd b - snd a) - snd a) ^ 2) with (t ^ 2 * ((fst b - fst a) ^ 2 + (snd b - snd a) ^ 2)) by ring.
  rewrite sqrt_mult_alt by apply pow2_ge_0. unfold pdist. apply f_equal2; [|reflexivity]. replace (t ^ 2) with (Rsqr t) by (unfold Rsqr; ring). apply sqrt_Rsqr_abs.
Qed.
Lemma pdist_params : forall a b s t p q, at_param a b s p -> at_param a b t q -> pdist p q = Rabs (t - s) * pdist a b.
Proof.
  intros a b s t p q [E1 E2] [E3 E4]. unfold pdist at 1. rewrite E1, E2, E3, E4.
  match goal with |- sqrt ?x = _ => replace x with ((t - s) ^ 2 * ((fst b - fst a) ^ 2 + (snd b - snd a) ^ 2)) by ring end.
  rewrite sqrt_mult_alt by apply pow2_ge_0. unfold pdist. apply f_equal2; [|reflexivity]. replace ((t - s) ^ 2) with (Rsqr (t - s)) by (unfold Rsqr; ring). apply sqrt_Rsqr_abs.
Qed.
Lemma to_global_param : forall m t, 0 < mlen m -> at_param (m_a m) (m_b m) t (to_global m t).
Proof. intros m t H. unfold at_param, to_global, unitv. cbn [fst snd]. split; field; lra. Qed.
Lemma pt_eq : forall p q : pt, fst p = fst q -> snd p = snd q -> p = q.
Proof. intros [a b] [c d] H1 H2. cbn in *. congruence. Qed.

Lemma member_frame_lemma : forall m, 0 < mlen m ->
  to_global m 0 = m_a m /\ to_global m 1 = m_b m /\
  (forall t, pdist (m_a m) (to_global m t) = Rabs t * mlen m) /\
  fst (unitv m) ^ 2 + snd (unitv m) ^ 2 = 1 /\ fst (perp m) ^ 2 + snd (perp m) ^ 2 = 1 /\
  fst (unitv m) * fst (perp m) + snd (unitv m) * snd (perp m) = 0 /\
  fst (unitv m) * snd (perp m) - snd (unitv m) * fst (perp m) = (if m_rev m then 1 else -1).
Proof.
  intros m H. pose proof (pdist_sq (m_a m) (m_b m)) as E. fold (mlen m) in E.
  assert (U : fst (unitv m) ^ 2 + snd (unitv m) ^ 2 = 1).
  { unfold unitv. cbn [fst snd]. apply (Rmult_eq_reg_r (mlen m ^ 2)); [|nra]. rewrite Rmult_1_l, E. 
    replace (((fst (m_b m) - fst (m_a m)) / mlen m) ^ 2 + ((snd (m_b m) - snd (m_a m)) / mlen m) ^ 2) with (((fst (m_b m) - fst (m_a m)) ^ 2 + (snd (m_b m) - snd (m_a m)) ^ 2) / mlen m ^ 2) by (field; lra).
    rewrite <- E. field. lra. }
  repeat split.
  - destruct (to_global_param m 0 H) as [A B]. apply pt_eq; lra.
  - destruct (to_global_param m 1 H) as [A B]. apply pt_eq; lra.
  - intros t. apply pdist_param. apply to_global_param; auto.
  - exact U.
  - unfold perp. destruct (m_rev m); cbn [fst snd]; nra.
  - unfold perp. destruct (m_rev m); cbn [fst snd]; ring.
  - unfold perp. destruct (m_rev m); cbn [fst snd]; nra.
Qed.

Lemma shape_lemma : forall m t, 0 < mlen m -> fst (m_a m) <> fst (m_b m) -> shape m (fst (to_global m t)) = snd (to_global m t).
Proof.
  intros m t H D. destruct (to_global_param m t H) as [A B]. unfold shape. rewrite eqb_f by lra. rewrite A, B. field. lra.
Qed.
Lemma swap_len : forall m, mlen (mkMem (m_b m) (m_a m) (m_rev m)) = mlen m.
Proof. intros m. unfold mlen, pdist. cbn [m_a m_b]. f_equal. ring. Qed.
Lemma angle_lemma : forall m, 
  0 <= angle m < PI /\ angle (mkMem (m_b m) (m_a m) (m_rev m)) = angle m /\
  (1/1000000 <= Rabs (fst (m_b m) - fst (m_a m)) -> (fst (m_b m) - fst (m_a m)) * sin (angle m) = (snd (m_b m) - snd (m_a m)) * cos (angle m)) /\
  (fst (m_a m) = fst (m_b m) -> angle m = PI / 2).
Proof.
  intros m. set (dx := fst (m_b m) - fst (m_a m)). set (dy := snd (m_b m) - snd (m_a m)).
  pose proof PI_RGT_0 as P. pose proof (atan_bound (dy / dx)) as [B1 B2].
  assert (EA : angle m = if Rltb (Rabs dx) (1/1000000) then 1/2 * PI else let a := atan (dy / dx) in if Rltb a 0 then PI + a else a) by reflexivity.
  split; [|split; [|split]].
  - rewrite EA. destruct (Rltb _ _) eqn:C; [lra|]. cbv zeta. destruct (Rltb (atan (dy / dx)) 0) eqn:C2; [apply Rltb_true in C2|apply Rltb_false in C2]; lra.
  - rewrite EA. unfold angle. cbn [m_a m_b]. fold dx. replace (fst (m_a m) - fst (m_b m)) with (- dx) by (unfold dx; ring). replace (snd (m_a m) - snd (m_b m)) with (- dy) by (unfold dy; ring).
    rewrite Rabs_Ropp. destruct (Rltb (Rabs dx) (1/1000000)) eqn:C; [reflexivity|]. apply Rltb_false in C. assert (dx <> 0) by (intros H0; rewrite H0, Rabs_R0 in C; lra).
    replace (- dy / - dx) with (dy / dx) by (field; auto). reflexivity.
  - intros C. assert (N : dx <> 0) by (intros H0; rewrite H0, Rabs_R0 in C; lra). rewrite EA. rewrite ltb_f by lra. cbv zeta.
    assert (T : dx * sin (atan (dy / dx)) = dy * cos (atan (dy / dx))).
    { pose proof (tan_atan (dy / dx)) as Ht. unfold tan in Ht. assert (0 < cos (atan (dy / dx))) by (apply cos_gt_0; lra).
      replace (sin (atan (dy / dx))) with (sin (atan (dy / dx)) / cos (atan (dy / dx)) * cos (atan (dy / dx))) by (field; lra). rewrite Ht. field. auto. }
    destruct (Rltb (atan (dy / dx)) 0); [|exact T]. rewrite sin_plus, cos_plus, sin_PI, cos_PI. lra.
  - intros H. rewrite EA. unfold dx. rewrite H. replace (fst (m_b m) - fst (m_b m)) with 0 by ring. rewrite Rabs_R0, ltb_t by lra. lra.
Qed.

(** ---- intersections. *)
Lemma roundn_err : forall n x, Rabs (roundn n x - x) <= / (2 * 10 ^ n).
Proof.
  intros n x. assert (P : 0 < 10 ^ n) by (apply pow_lt; lra). unfold roundn. pose proof (roundZ_err (x * 10 ^ n)) as H.
  replace (IZR (roundZ (x * 10 ^ n)) / 10 ^ n - x) with (- (x * 10 ^ n - IZR (roundZ (x * 10 ^ n))) * / 10 ^ n) by (field; lra).
  rewrite Rabs_mult, Rabs_Ropp. rewrite (Rabs_pos_eq (/ 10 ^ n)) by (left; apply Rinv_0_lt_compat; auto).
  rewrite Rinv_mult. apply Rmult_le_compat_r; [left; apply Rinv_0_lt_compat; auto|]. lra.
Qed.
Lemma raw_spec : forall m p q, det4 m p q <> 0 ->
  at_param (m_a m) (m_b m) (((fst p - fst (m_a m)) * (snd q - snd p) - (snd p - snd (m_a m)) * (fst q - fst p)) / det4 m p q) (raw_intersection m p q) /\
  at_param p q (((fst p - fst (m_a m)) * (snd (m_b m) - snd (m_a m)) - (snd p - snd (m_a m)) * (fst (m_b m) - fst (m_a m))) / det4 m p q) (raw_intersection m p q).
Proof.
  intros [[x1 y1] [x2 y2] r] [x3 y3] [x4 y4] D. unfold raw_intersection, at_param, det4 in *. cbn [m_a m_b fst snd] in *. repeat split; field; auto.
Qed.
Lemma intersection_lemma : forall m p q, m_a m <> m_b m -> p <> q ->
  (line_intersection m p q = None <-> parallel (m_a m) (m_b m) p q) /\
  (forall c, line_intersection m p q = Some c ->
     exists z, on_line (m_a m) (m_b m) z /\ on_line p q z /\ close (5/1000000) c z /\
       forall z', on_line (m_a m) (m_b m) z' -> on_line p q z' -> z' = z).
Proof.
  intros m p q Ha Hp. unfold line_intersection. split.
  - unfold parallel. destruct (Reqb (det4 m p q) 0) eqn:D.
    + apply Reqb_true in D. split; auto. intros _. unfold det4 in D. lra.
    + apply Reqb_false in D. split; [discriminate|]. intros H. exfalso. apply D. unfold det4. lra.
  - intros c E. destruct (Reqb (det4 m p q) 0) eqn:D; [discriminate|]. apply Reqb_false in D. destruct (raw_spec m p q D) as [A B].
    exists (raw_intersection m p q). split; [eexists; exact A|split; [eexists; exact B|]]. inversion E. subst c. split.
    + unfold close. cbn [fst snd]. split; (eapply Rle_trans; [apply roundn_err|lra]).
    + intros z' [t Ht] [s Hs]. destruct A as [A1 A2]. destruct Ht as [T1 T2]. destruct Hs as [S1 S2].
      set (z := raw_intersection m p q) in *. destruct B as [B1 B2]. revert D A1 A2 B1 B2.
      set (ta := _ / det4 m p q). set (tb := _ / det4 m p q). intros D A1 A2 B1 B2. unfold det4 in D.
      set (ux := fst (m_b m) - fst (m_a m)) in *. set (uy := snd (m_b m) - snd (m_a m)) in *. set (vx := fst q - fst p) in *. set (vy := snd q - snd p) in *.
      assert (D' : ux * vy - uy * vx <> 0) by (unfold ux, uy, vx, vy; lra).
      assert (Q1 : (t - ta) * ux = (s - tb) * vx) by lra. assert (Q2 : (t - ta) * uy = (s - tb) * vy) by lra.
      assert (Z : (t - ta) * (ux * vy - uy * vx) = 0).
      { replace ((t - ta) * (ux * vy - uy * vx)) with ((t - ta) * ux * vy - (t - ta) * uy * vx) by ring. rewrite Q1, Q2. ring. }
      apply Rmult_integral in Z. destruct Z as [Z|Z]; [|lra]. assert (t = ta) by lra. subst t. apply pt_eq; lra.
Qed.

Lemma point_on_lemma : forall m c,
  (forall b, point_intersection m c = Some b -> b = true ->
     exists s, on_segment (m_a m) (m_b m) s /\ close (2/100000000) c s) /\
  (on_segment (m_a m) (m_b m) c -> m_a m <> m_b m -> fst (m_a m) = fst (m_b m) \/ 1/100000000 < Rabs (fst (m_b m) - fst (m_a m)) ->
     point_intersection m c = Some true) /\
  (point_intersection m c = None <-> Rabs (fst (m_b m) - fst (m_a m)) <= 1/100000000 /\ snd (m_a m) = snd (m_b m)).
Proof.
  intros [[x1 y1] [x2 y2] rv] [x y]. cbn [m_a m_b fst snd]. unfold point_intersection. cbn [m_a m_b].
  destruct (Rltb (1/100000000) (Rabs (x2 - x1))) eqn:C.
  - apply Rltb_true in C. assert (N : x2 - x1 <> 0) by (intros H; rewrite H, Rabs_R0 in C; lra). cbv zeta. split; [|split].
    + intros b E Hb. subst b. inversion E as [E']. apply andb_prop in E'. destruct E' as [E1 E3]. apply andb_prop in E1. destruct E1 as [E1 E2].
      apply Rleb_true in E1. apply Rleb_true in E2. apply Rltb_true in E3. set (t := (x - x1) / (x2 - x1)) in *.
      exists (x1 + t * (x2 - x1), y1 + t * (y2 - y1)). split.
      * exists t. split; [lra|]. split; reflexivity.
      * split; cbn [fst snd]; [replace (x - (x1 + t * (x2 - x1))) with 0 by (unfold t; field; auto); rewrite Rabs_R0; lra|]. rewrite Rabs_minus_sym. lra.
    + intros [t [Ht [E1 E2]]] _ _. cbn [fst snd] in *. assert (T : (x - x1) / (x2 - x1) = t) by (rewrite E1; field; auto). rewrite T.
      rewrite leb_t by lra. rewrite leb_t by lra. replace (y1 + t * (y2 - y1) - y) with 0 by lra. rewrite Rabs_R0, ltb_t by lra. reflexivity.
    + split; [discriminate|]. intros [H _]. lra.
  - apply Rltb_false in C. unfold pdiv. split; [|split].
    + intros b E Hb. subst b. destruct (Reqb (y2 - y1) 0) eqn:D; [discriminate|]. apply Reqb_false in D. cbn [bind] in E. inversion E as [E']. apply andb_prop in E'. destruct E' as [E1 E3]. apply andb_prop in E1. destruct E1 as [E1 E2].
      apply Rleb_true in E1. apply Rleb_true in E2. apply Rltb_true in E3. set (t := (y - y1) / (y2 - y1)) in *.
      exists (x1 + t * (x2 - x1), y1 + t * (y2 - y1)). split; [exists t; split; [lra|split; reflexivity]|]. split; cbn [fst snd].
      * assert (Rabs (t * (x2 - x1)) <= 1/100000000) by (rewrite Rabs_mult, (Rabs_pos_eq t) by lra; pose proof (Rabs_pos (x2 - x1)); nra).
        replace (x - (x1 + t * (x2 - x1))) with (- (x1 - x) + - (t * (x2 - x1))) by ring. eapply Rle_trans; [apply Rabs_triang|]. rewrite !Rabs_Ropp. lra.
      * replace (y - (y1 + t * (y2 - y1))) with 0 by (unfold t; field; auto). rewrite Rabs_R0. lra.
    + intros [t [Ht [E1 E2]]] Hne [Hx|Hx]; cbn [fst snd] in *; [|lra]. subst x2. assert (D : y2 - y1 <> 0) by (intros H; apply Hne; f_equal; lra).
      rewrite eqb_f by auto. cbn [bind]. assert (T : (y - y1) / (y2 - y1) = t) by (rewrite E2; field; auto). rewrite T.
      rewrite leb_t by lra. rewrite leb_t by lra. replace (x1 - x) with 0 by lra. rewrite Rabs_R0, ltb_t by lra. reflexivity.
    + destruct (Reqb (y2 - y1) 0) eqn:D; [apply Reqb_true in D|apply Reqb_false in D]; cbn [bind]; split; try discriminate; intros; auto; [split; lra|lra].
Qed.

Lemma peqb_iff : forall p q, peqb p q = true <-> p = q.
Proof.
  intros [a b] [c d]. unfold peqb. cbn [fst snd]. rewrite andb_true_iff, Reqb_true, Reqb_true. split; [intros [-> ->]; auto|intros H; inversion H; auto].
Qed.
Lemma add_coord_lemma : forall m added c, on_segment (m_a m) (m_b m) c -> m_a m <> m_b m ->
  fst (m_a m) = fst (m_b m) \/ 1/100000000 < Rabs (fst (m_b m) - fst (m_a m)) ->
  exists l, add_node_coord m added c = Some l /\ In c l /\ incl added l.
Proof.
  intros m added c H1 H2 H3. unfold add_node_coord. destruct (existsb (peqb c) added) eqn:E.
  - exists added. split; auto. split; [|apply incl_refl]. apply existsb_exists in E. destruct E as (x & Hx & Ex). apply peqb_iff in Ex. subst; auto.
  - destruct (point_on_lemma m c) as (_ & P & _). rewrite P by auto. cbn [bind]. exists (added ++ [c]). split; [reflexivity|]. split; [apply in_or_app; right; left; auto|apply incl_appl, incl_refl].
Qed.
(** Two members crossing at a point with at most five decimals get a common node. *)
Lemma connect_lemma : forall new old z an ao,
  let ok m := m_a m <> m_b m /\ (fst (m_a m) = fst (m_b m) \/ 1/100000000 < Rabs (fst (m_b m) - fst (m_a m))) in
  ok new -> ok old -> ~ parallel (m_a new) (m_b new) (m_a old) (m_b old) ->
  on_segment (m_a new) (m_b new) z -> on_segment (m_a old) (m_b old) z -> roundn 5 (fst z) = fst z -> roundn 5 (snd z) = snd z ->
  exists an' ao', connect new old an ao = Some (an', ao') /\ In z an' /\ In z ao' /\ incl an an' /\ incl ao ao'.
Proof.
  intros new old z an ao ok [N1 N2] [O1 O2] NP S1 S2 R1 R2.
  destruct (intersection_lemma new (m_a old) (m_b old) N1 O1) as [IN _].
  assert (D : det4 new (m_a old) (m_b old) <> 0).
  { intros H. apply NP. unfold parallel, det4 in *. lra. }
  destruct (raw_spec new (m_a old) (m_b old) D) as [A B].
  assert (E : line_intersection new (m_a old) (m_b old) = Some z).
  { destruct (line_intersection new (m_a old) (m_b old)) as [c|] eqn:L; [|exfalso; apply NP; apply IN; auto].
    destruct (intersection_lemma new (m_a old) (m_b old) N1 O1) as [_ U]. destruct (U c L) as (w & W1 & W2 & _ & W4).
    assert (z = w). { apply W4; [destruct S1 as [t [_ H]]|destruct S2 as [t [_ H]]]; exists t; auto. }
    assert (raw_intersection new (m_a old) (m_b old) = w). { apply W4; eexists; [exact A|exact B]. }
    unfold line_intersection in L. rewrite eqb_f in L by auto. inversion L as [L']. f_equal. rewrite H0, <- H, R1, R2. destruct z; reflexivity. }
  unfold connect. rewrite E. destruct (add_coord_lemma new an z S1 N1 N2) as (an' & E1 & I1 & J1). destruct (add_coord_lemma old ao z S2 O1 O2) as (ao' & E2 & I2 & J2).
  rewrite E1. cbn [bind]. rewrite E2. cbn [bind]. exists an', ao'. auto.
Qed.
Lemma roundn_of : forall n x z, Rabs (x * 10 ^ n - IZR z) < 1/2 -> roundn n x = IZR z / 10 ^ n.
Proof.
  intros n x z H. unfold roundn. apply f_equal2; [|reflexivity]. apply f_equal. pose proof (roundZ_err (x * 10 ^ n)) as E.
  assert (Rabs (IZR (roundZ (x * 10 ^ n)) - IZR z) < 1).
  { replace (IZR (roundZ (x * 10 ^ n)) - IZR z) with (- (x * 10 ^ n - IZR (roundZ (x * 10 ^ n))) + (x * 10 ^ n - IZR z)) by ring. eapply Rle_lt_trans; [apply Rabs_triang|]. rewrite Rabs_Ropp. lra. }
  rewrite <- minus_IZR in H0. rewrite <- abs_IZR in H0. apply (lt_IZR _ 1) in H0. lia.
Qed.
Definition slope_mem := mkMem (0, 0) (3, 1) false.
Definition post_mem := mkMem (1, 0) (1, 1) false.
(** A sloping member and a post that cross: only the post gets the node. *)
Lemma connect_lost_lemma : exists z, on_segment (m_a slope_mem) (m_b slope_mem) z /\ on_segment (m_a post_mem) (m_b post_mem) z /\
  connect slope_mem post_mem [] [] = Some ([], [(1, 33333/100000)]).
Proof.
  exists (1, 1/3). split; [exists (1/3); split; [lra|unfold at_param; cbn [slope_mem m_a m_b fst snd]; lra]|]. split; [exists (1/3); split; [lra|unfold at_param; cbn [post_mem m_a m_b fst snd]; lra]|].
  unfold connect, line_intersection. assert (D : det4 slope_mem (m_a post_mem) (m_b post_mem) = 3) by (unfold det4, slope_mem, post_mem; cbn; lra).
  rewrite D. rewrite eqb_f by lra. unfold raw_intersection. rewrite D. cbn [slope_mem post_mem m_a m_b fst snd].
  rewrite (roundn_of 5 _ 100000) by (match goal with |- Rabs ?x < _ => replace x with 0 by field end; rewrite Rabs_R0; lra).
  rewrite (roundn_of 5 _ 33333) by (match goal with |- Rabs ?x < _ => replace x with (1/3) by field end; rewrite Rabs_pos_eq; lra).
  replace (100000 / 10 ^ 5) with 1 by field. replace (33333 / 10 ^ 5) with (33333/100000) by field.
  unfold add_node_coord. cbn [existsb]. unfold point_intersection. cbn [slope_mem post_mem m_a m_b].
  rewrite ltb_t by (rewrite Rabs_pos_eq; lra). cbv zeta.
  match goal with |- context [Rltb (Rabs ?x) ?e] => rewrite (ltb_f (Rabs x) e) by (rewrite Rabs_pos_eq; lra) end.
  rewrite andb_false_r. cbn [bind]. rewrite ltb_f by (replace (1 - 1) with 0 by ring; rewrite Rabs_R0; lra).
  unfold pdiv. rewrite eqb_f by lra. cbn [bind]. rewrite leb_t by lra. rewrite leb_t by lra. rewrite ltb_t by (replace (1 - 1) with 0 by ring; rewrite Rabs_R0; lra). reflexivity.
Qed.
