Require Import Reals List Lra Lia Psatz. Import ListNotations.
From Verif Require Import Base Rab_model Rab_spec.
Local Open Scope R_scope.

Definition rab_mx (p : R * R) := (- fst p, snd p).
Definition rab_my (p : R * R) := (fst p, - snd p).
Definition rab_neg (p : R * R) := (- fst p, - snd p).
Lemma rab_d_mx p q : dist2 (rab_mx p) (rab_mx q) = dist2 p q.
Proof. unfold dist2, rab_mx. cbn [fst snd]. f_equal. ring. Qed.
Lemma rab_d_my p q : dist2 (rab_my p) (rab_my q) = dist2 p q.
Proof. unfold dist2, rab_my. cbn [fst snd]. f_equal. ring. Qed.
Lemma rab_d_neg p q : dist2 (rab_neg p) (rab_neg q) = dist2 p q.
Proof. unfold dist2, rab_neg. cbn [fst snd]. f_equal. ring. Qed.
Lemma rab_d_sym p q : dist2 p q = dist2 q p.
Proof. unfold dist2. f_equal. ring. Qed.
Lemma rab_d_hor a b y : dist2 (a, y) (b, y) = Rabs (a - b).
Proof. unfold dist2. cbn [fst snd]. replace ((a - b) * (a - b) + (y - y) * (y - y)) with (Rsqr (a - b)) by (unfold Rsqr; ring). apply sqrt_Rsqr_abs. Qed.
Lemma rab_d_ver a b x : dist2 (x, a) (x, b) = Rabs (a - b).
Proof. unfold dist2. cbn [fst snd]. replace ((x - x) * (x - x) + (a - b) * (a - b)) with (Rsqr (a - b)) by (unfold Rsqr; ring). apply sqrt_Rsqr_abs. Qed.
(* chord of an arc *)
Lemma rab_chord cx cy r a b : 0 <= r -> 0 <= (b - a)/2 <= PI ->
  dist2 (cx + r * sin a, cy - (r - r * cos a)) (cx + r * sin b, cy - (r - r * cos b)) = 2 * r * sin ((b - a)/2).
Proof.
  intros Hr Hab. unfold dist2. cbn [fst snd].
  assert (S : 0 <= sin ((b - a)/2)) by (apply sin_ge_0; lra).
  transitivity (sqrt (Rsqr (2 * r * sin ((b - a)/2)))); [|apply sqrt_Rsqr; nra]. f_equal. unfold Rsqr.
  assert (C : cos (b - a) = 1 - 2 * sin ((b - a)/2) * sin ((b - a)/2)) by (replace (b - a) with (2 * ((b - a)/2)) at 1 by field; apply cos_2a_sin).
  rewrite cos_minus in C. pose proof (sin2_cos2 a) as A. pose proof (sin2_cos2 b) as B. unfold Rsqr in A, B.
  set (s := sin ((b - a)/2)) in *. set (sa := sin a) in *. set (sb := sin b) in *. set (ca := cos a) in *. set (cb := cos b) in *.
  replace (2 * r * s * (2 * r * s)) with (r * r * 2 * (2 * s * s)) by ring.
  replace (2 * s * s) with (1 - (cb * ca + sb * sa)) by lra.
  replace ((cx + r * sa - (cx + r * sb)) * (cx + r * sa - (cx + r * sb)) + (cy - (r - r * ca) - (cy - (r - r * cb))) * (cy - (r - r * ca) - (cy - (r - r * cb))))
    with (r * r * ((sa * sa + ca * ca) + (sb * sb + cb * cb) - 2 * (cb * ca + sb * sa))) by ring.
  rewrite A, B. ring.
Qed.
(* the quarter as points *)
Definition rab_arc (W H T R0 k : R) : R * R :=
  (W/2 - R0 + (R0 - T/2) * sin (k * (PI/8)), (H - T)/2 - ((R0 - T/2) - (R0 - T/2) * cos (k * (PI/8)))).
Definition rab_q (W H T R0 : R) : list (R * R) :=
  [(0, (H - T)/2); (W/2 - R0 - 2*T, (H - T)/2); rab_arc W H T R0 0; rab_arc W H T R0 1; rab_arc W H T R0 2; rab_arc W H T R0 3;
   rab_arc W H T R0 4; ((W - T)/2, H/2 - R0 - 2*T); ((W - T)/2, 0)].
Lemma rab_arc0 W H T R0 : rab_arc W H T R0 0 = (W/2 - R0, (H - T)/2).
Proof. unfold rab_arc. rewrite Rmult_0_l, sin_0, cos_0. f_equal; ring. Qed.
Lemma rab_arc4 W H T R0 : rab_arc W H T R0 4 = ((W - T)/2, H/2 - R0).
Proof. unfold rab_arc. replace (4 * (PI/8)) with (PI/2) by field. rewrite sin_PI2, cos_PI2. f_equal; field. Qed.
Lemma rab_arc1 W H T R0 : rab_arc W H T R0 1 = (W/2 - R0 + (R0 - T/2) * sin (PI/8), (H - T)/2 - ((R0 - T/2) - (R0 - T/2) * cos (PI/8))).
Proof. unfold rab_arc. rewrite Rmult_1_l. reflexivity. Qed.
(* the outline as four images of the quarter *)
Lemma rab_outline_eq W H T R0 p0 p1 p2 p3 p4 p5 p6 p7 p8 : rab_q W H T R0 = [p0; p1; p2; p3; p4; p5; p6; p7; p8] ->
  combine (outline_X W T R0) (outline_Y H T R0) =
  [p0; p1; p2; p3; p4; p5; p6; p7; p8] ++ map rab_my [p7; p6; p5; p4; p3; p2; p1; p0]
   ++ map rab_neg [p1; p2; p3; p4; p5; p6; p7; p8] ++ map rab_mx [p7; p6; p5; p4; p3; p2; p1] ++ [p0].
Proof.
  unfold rab_q. rewrite rab_arc0, rab_arc4, rab_arc1. intros E.
  injection E as <- <- <- <- <- <- <- <- <-.
  unfold outline_X, outline_Y, quarter_X, quarter_Y, back_from_7, slice_1_9, back_7_to_1, rab_arc, rab_my, rab_neg, rab_mx.
  cbn [app rev firstn skipn map combine nth fst snd]. reflexivity.
Qed.
Lemma rab_len_quarter W H T R0 : 0 < T -> T/2 <= R0 ->
  path_len (rab_q W H T R0) = Rabs (W/2 - R0 - 2*T) + 2*T + (Rabs (H/2 - R0 - 2*T) + 2*T) + 8 * (R0 - T/2) * sin (PI/16).
Proof.
  intros HT HR. unfold rab_q. cbn [path_len].
  assert (P := PI_RGT_0).
  assert (C : forall k, dist2 (rab_arc W H T R0 k) (rab_arc W H T R0 (k + 1)) = 2 * (R0 - T/2) * sin (PI/16)).
  { intros k. unfold rab_arc. rewrite rab_chord; [|lra|]; replace (((k + 1) * (PI/8) - k * (PI/8))/2) with (PI/16) by field; [reflexivity|lra]. }
  replace (rab_arc W H T R0 1) with (rab_arc W H T R0 (0 + 1)) by (f_equal; ring).
  replace (rab_arc W H T R0 2) with (rab_arc W H T R0 (0 + 1 + 1)) by (f_equal; ring).
  replace (rab_arc W H T R0 3) with (rab_arc W H T R0 (0 + 1 + 1 + 1)) by (f_equal; ring).
  assert (E4 : rab_arc W H T R0 4 = rab_arc W H T R0 (0 + 1 + 1 + 1 + 1)) by (f_equal; ring).
  rewrite E4 at 1. rewrite !C, rab_arc0, rab_arc4. rewrite !rab_d_hor, !rab_d_ver.
  replace (0 - (W/2 - R0 - 2*T)) with (- (W/2 - R0 - 2*T)) by ring. rewrite Rabs_Ropp.
  replace (W/2 - R0 - 2*T - (W/2 - R0)) with (- (2*T)) by ring. rewrite Rabs_Ropp, (Rabs_right (2*T)) by lra.
  replace (H/2 - R0 - (H/2 - R0 - 2*T)) with (2*T) by ring. rewrite (Rabs_right (2*T)) by lra.
  replace (H/2 - R0 - 2*T - 0) with (H/2 - R0 - 2*T) by ring. ring.
Qed.
Lemma rab_len_total W H T R0 : path_len (combine (outline_X W T R0) (outline_Y H T R0)) = 4 * path_len (rab_q W H T R0).
Proof.
  destruct (rab_q W H T R0) as [|p0 [|p1 [|p2 [|p3 [|p4 [|p5 [|p6 [|p7 [|p8 [|]]]]]]]]]] eqn:E; try discriminate.
  rewrite (rab_outline_eq _ _ _ _ _ _ _ _ _ _ _ _ _ E).
  assert (E0 : fst p0 = 0) by (unfold rab_q in E; injection E as <- _; reflexivity).
  assert (E8 : snd p8 = 0) by (unfold rab_q in E; injection E as _ _ _ _ _ _ _ _ <-; reflexivity).
  cbn [app map path_len].
  assert (A1 : dist2 p8 (rab_my p7) = dist2 p7 p8).
  { rewrite <- (rab_d_my p7 p8), rab_d_sym. f_equal. unfold rab_my. destruct p8 as [x y]; cbn in *. subst y. f_equal. ring. }
  assert (A2 : dist2 (rab_my p0) (rab_neg p1) = dist2 p0 p1).
  { rewrite <- (rab_d_neg p0 p1). f_equal. unfold rab_my, rab_neg. rewrite E0. f_equal. ring. }
  assert (A3 : dist2 (rab_neg p8) (rab_mx p7) = dist2 p7 p8).
  { rewrite <- (rab_d_mx p7 p8), rab_d_sym. f_equal. unfold rab_mx, rab_neg. rewrite E8. f_equal. ring. }
  assert (A4 : dist2 (rab_mx p1) p0 = dist2 p0 p1).
  { rewrite <- (rab_d_mx p0 p1), rab_d_sym. f_equal. unfold rab_mx. destruct p0 as [x y]; cbn in *. subst x. f_equal. ring. }
  rewrite A1, A2, A3, A4. rewrite !rab_d_my, !rab_d_neg, !rab_d_mx.
  rewrite (rab_d_sym p7 p6), (rab_d_sym p6 p5), (rab_d_sym p5 p4), (rab_d_sym p4 p3), (rab_d_sym p3 p2), (rab_d_sym p2 p1), (rab_d_sym p1 p0).
  ring.
Qed.
Lemma rab_in W H T R0 p : In p (combine (outline_X W T R0) (outline_Y H T R0)) <->
  exists q, In q (rab_q W H T R0) /\ (p = q \/ p = rab_mx q \/ p = rab_my q \/ p = rab_neg q).
Proof.
  destruct (rab_q W H T R0) as [|p0 [|p1 [|p2 [|p3 [|p4 [|p5 [|p6 [|p7 [|p8 [|]]]]]]]]]] eqn:E; try discriminate.
  rewrite (rab_outline_eq _ _ _ _ _ _ _ _ _ _ _ _ _ E).
  assert (E0 : fst p0 = 0) by (unfold rab_q in E; injection E as <- _; reflexivity).
  assert (E8 : snd p8 = 0) by (unfold rab_q in E; injection E as _ _ _ _ _ _ _ _ <-; reflexivity). clear E.
  assert (X0 : rab_mx p0 = p0) by (unfold rab_mx; destruct p0; cbn in *; subst; f_equal; ring).
  assert (X0' : rab_neg p0 = rab_my p0) by (unfold rab_neg, rab_my; rewrite E0; f_equal; ring).
  assert (Y8 : rab_my p8 = p8) by (unfold rab_my; destruct p8; cbn in *; subst; f_equal; ring).
  assert (Y8' : rab_mx p8 = rab_neg p8) by (unfold rab_neg, rab_mx; rewrite E8; f_equal; ring).
  rewrite !in_app_iff, !in_map_iff. cbn [In]. split.
  - intros [H1|[[q [<- H1]]|[[q [<- H1]]|[[q [<- H1]]|[H1|[]]]]]].
    + exists p. tauto.
    + exists q. tauto.
    + exists q. tauto.
    + exists q. tauto.
    + exists p. tauto.
  - intros [q [Hq [->|[->|[->| ->]]]]]; [left; exact Hq| | |].
    + destruct Hq as [<-|[Hq|[Hq|[Hq|[Hq|[Hq|[Hq|[Hq|[<-|[]]]]]]]]]]; [rewrite X0; left; left; reflexivity| | | | | | | |rewrite Y8'; right; right; left; exists p8; tauto];
        (right; right; right; left; exists q; split; [reflexivity|tauto]).
    + destruct Hq as [Hq|[Hq|[Hq|[Hq|[Hq|[Hq|[Hq|[Hq|[<-|[]]]]]]]]]]; [| | | | | | | |rewrite Y8; left; tauto];
        (right; left; exists q; split; [reflexivity|tauto]).
    + destruct Hq as [<-|[Hq|[Hq|[Hq|[Hq|[Hq|[Hq|[Hq|[Hq|[]]]]]]]]]]; [rewrite X0'; right; left; exists p0; split; [reflexivity|tauto]| | | | | | | |];
        (right; right; left; exists q; split; [reflexivity|tauto]).
Qed.
Lemma rab_sin_lt x : 0 < x -> sin x < x.
Proof. exact (sin_lt_x x). Qed.
Lemma rab_sin_lb x : 0 <= x <= PI -> x - x^3/6 <= sin x.
Proof.
  intros [H1 H2]. destruct (sin_bound x 0 H1 H2) as [L _]. unfold sin_approx, sin_term in L. cbn in L. 
  eapply Rle_trans; [|exact L]. right. field.
Qed.
Lemma rab_abs_signs W H T R0 p q : (p = q \/ p = rab_mx q \/ p = rab_my q \/ p = rab_neg q) -> on_midline W H T R0 q -> on_midline W H T R0 p.
Proof.
  intros [->|[->|[->| ->]]]; unfold on_midline, rab_mx, rab_my, rab_neg; cbn [fst snd]; rewrite ?Rabs_Ropp; auto.
Qed.
Lemma rab_arc_mid W H T R0 k : 0 < T -> T/2 <= R0 -> R0 <= W/2 -> R0 <= H/2 -> 0 <= k <= 4 -> on_midline W H T R0 (rab_arc W H T R0 k).
Proof.
  intros HT HR HW HH Hk. right. right. unfold rab_arc. cbn [fst snd]. assert (P := PI_RGT_0).
  assert (S : 0 <= sin (k * (PI/8))) by (apply sin_ge_0; nra).
  assert (C : 0 <= cos (k * (PI/8))) by (apply cos_ge_0; nra).
  assert (RS : 0 <= (R0 - T/2) * sin (k * (PI/8))) by (apply Rmult_le_pos; lra).
  assert (RC : 0 <= (R0 - T/2) * cos (k * (PI/8))) by (apply Rmult_le_pos; lra).
  rewrite !Rabs_right by lra. split; [lra|]. split; [lra|].
  pose proof (sin2_cos2 (k * (PI/8))) as E. unfold Rsqr in E. set (s := sin (k * (PI/8))) in *. set (c := cos (k * (PI/8))) in *.
  transitivity ((R0 - T/2)^2 * (s * s + c * c)); [field|rewrite E; ring].
Qed.
Lemma rab_mid W H T R0 : 0 < T -> T/2 <= R0 -> R0 + T <= W/2 -> R0 + T <= H/2 ->
  forall p, In p (combine (outline_X W T R0) (outline_Y H T R0)) -> on_midline W H T R0 p.
Proof.
  intros HT HR HW HH p Hp. apply rab_in in Hp. destruct Hp as [q [Hq Hs]]. apply (rab_abs_signs _ _ _ _ _ q Hs). clear Hs p.
  assert (A : forall k, 0 <= k <= 4 -> on_midline W H T R0 (rab_arc W H T R0 k)) by (intros; apply rab_arc_mid; lra).
  unfold rab_q in Hq. cbn [In] in Hq. destruct Hq as [<-|[<-|[<-|[<-|[<-|[<-|[<-|[<-|[<-|[]]]]]]]]]];
    [left|left|apply A; lra|apply A; lra|apply A; lra|apply A; lra|apply A; lra|right; left|right; left]; cbn [fst snd].
  - rewrite Rabs_R0, Rabs_right by lra. split; lra.
  - rewrite (Rabs_right ((H - T)/2)) by lra. split; [lra|]. apply Rabs_le. lra.
  - rewrite (Rabs_right ((W - T)/2)) by lra. split; [lra|]. apply Rabs_le. lra.
  - rewrite Rabs_R0, Rabs_right by lra. split; lra.
Qed.
