(** Lengths and moments along the nodes of cold-formed sections. *)
From Verif Require Import Base EC3_model Bool_tac EC3_proofs Plate_proofs Sections_proofs Cold_proofs.
From Verif Require Import CfProf_model CfProf_spec.
Require Import Reals List Bool Lra Lia Psatz PeanoNat.
Import ListNotations.
Local Open Scope R_scope.

Definition dist (a b : pt2) : R := sqrt ((fst b - fst a) ^ 2 + (snd b - snd a) ^ 2).
Fixpoint G (w : pt2 -> pt2 -> R) (l : list pt2) (ts : list R) : R :=
  match l, ts with
  | a :: ((b :: _) as r), t :: ts => t * dist a b * w a b + G w r ts
  | _, _ => 0
  end.
Lemma G_cons w a b r t ts : G w (a :: b :: r) (t :: ts) = t * dist a b * w a b + G w (b :: r) ts.
Proof. reflexivity. Qed.
Lemma G_area l : forall ts, Rsum (map seg_area (segs_of l ts)) = G (fun _ _ => 1) l ts.
Proof.
  induction l as [|a l IH]; intros ts; [reflexivity|]. destruct l as [|b r]; [reflexivity|]. destruct ts as [|t ts]; [reflexivity|].
  rewrite G_cons, <- IH. cbn [segs_of map]. rewrite Rsum_cons. unfold seg_area, seg_len, dist. cbn [snd fst]. ring.
Qed.
Lemma G_Sy l : forall ts, Rsum (map seg_Sy (segs_of l ts)) = G (fun a b => (snd a + snd b) / 2) l ts.
Proof.
  induction l as [|a l IH]; intros ts; [reflexivity|]. destruct l as [|b r]; [reflexivity|]. destruct ts as [|t ts]; [reflexivity|].
  rewrite G_cons, <- IH. cbn [segs_of map]. rewrite Rsum_cons. unfold seg_Sy, seg_area, seg_len, dist. cbn [snd fst]. field.
Qed.
Lemma G_Sz l : forall ts, Rsum (map seg_Sz (segs_of l ts)) = G (fun a b => (fst a + fst b) / 2) l ts.
Proof.
  induction l as [|a l IH]; intros ts; [reflexivity|]. destruct l as [|b r]; [reflexivity|]. destruct ts as [|t ts]; [reflexivity|].
  rewrite G_cons, <- IH. cbn [segs_of map]. rewrite Rsum_cons. unfold seg_Sz, seg_area, seg_len, dist. cbn [snd fst]. field.
Qed.
Lemma dist_h x y z : dist (x, z) (y, z) = Rabs (y - x).
Proof. unfold dist. cbn [fst snd]. replace ((y - x) ^ 2 + (z - z) ^ 2) with ((y - x) * (y - x)) by ring. apply sqrt_Rsqr_abs. Qed.
Lemma dist_v x y z : dist (z, x) (z, y) = Rabs (y - x).
Proof. unfold dist. cbn [fst snd]. replace ((z - z) ^ 2 + (y - x) ^ 2) with ((y - x) * (y - x)) by ring. apply sqrt_Rsqr_abs. Qed.
Definition cpt (xc : pt2) (r f0 f1 : R) (k : R) : pt2 := (fst xc + r * cos (f0 + k * ((f1 - f0) / 4)), snd xc + r * sin (f0 + k * ((f1 - f0) / 4))).
Lemma corner5 xc r f0 f1 : corner_points xc r f0 f1 5 = [cpt xc r f0 f1 0; cpt xc r f0 f1 1; cpt xc r f0 f1 2; cpt xc r f0 f1 3; cpt xc r f0 f1 4].
Proof. unfold corner_points, cpt. cbn [seq map Nat.sub]. replace (INR 4) with 4 by (cbn; ring). replace (INR 3) with 3 by (cbn; ring). replace (INR 2) with 2 by (cbn; ring). reflexivity. Qed.
Lemma cpt0 xc r f0 f1 : cpt xc r f0 f1 0 = (fst xc + r * cos f0, snd xc + r * sin f0).
Proof. unfold cpt. replace (f0 + 0 * ((f1 - f0) / 4)) with f0 by ring. reflexivity. Qed.
Lemma cpt4 xc r f0 f1 : cpt xc r f0 f1 4 = (fst xc + r * cos f1, snd xc + r * sin f1).
Proof. unfold cpt. replace (f0 + 4 * ((f1 - f0) / 4)) with f1 by field. reflexivity. Qed.
Lemma chord x r a b : dist (fst x + r * cos a, snd x + r * sin a) (fst x + r * cos b, snd x + r * sin b) = 2 * Rabs (r * sin ((b - a) / 2)).
Proof.
  unfold dist. cbn [fst snd].
  set (u := (b - a) / 2). set (v := (b + a) / 2). replace b with (v + u) by (unfold u, v; field). replace a with (v - u) by (unfold u, v; field).
  rewrite cos_plus, cos_minus, sin_plus, sin_minus.
  transitivity (sqrt ((2 * (r * sin u)) * (2 * (r * sin u)))).
  - f_equal. pose proof (sin2_cos2 v) as P. unfold Rsqr in P.
    replace ((fst x + r * (cos v * cos u - sin v * sin u) - (fst x + r * (cos v * cos u + sin v * sin u))) ^ 2 + (snd x + r * (sin v * cos u + cos v * sin u) - (snd x + r * (sin v * cos u - cos v * sin u))) ^ 2)
      with (4 * (r * sin u) ^ 2 * (sin v * sin v + cos v * cos v)) by ring. rewrite P. ring.
  - fold (Rsqr (2 * (r * sin u))). rewrite sqrt_Rsqr_abs, Rabs_mult. rewrite (Rabs_right 2) by lra. reflexivity.
Qed.
Definition ch : R := 2 * sin (PI / 16).
Lemma ch_pos : 0 < ch.
Proof. unfold ch. pose proof PI_RGT_0. assert (0 < sin (PI / 16)) by (apply sin_gt_0; lra). lra. Qed.
Lemma cpt_dist xc r f0 f1 k : 0 <= r -> f1 - f0 = PI / 2 \/ f1 - f0 = - (PI / 2) -> dist (cpt xc r f0 f1 k) (cpt xc r f0 f1 (k + 1)) = r * ch.
Proof.
  intros R0 D. unfold cpt. rewrite chord. replace ((f0 + (k + 1) * ((f1 - f0) / 4) - (f0 + k * ((f1 - f0) / 4))) / 2) with ((f1 - f0) / 8) by field.
  pose proof ch_pos as P. unfold ch in *. rewrite Rabs_mult, (Rabs_right r) by lra. destruct D as [-> | ->].
  - replace (PI / 2 / 8) with (PI / 16) by field. rewrite Rabs_right by lra. ring.
  - replace (- (PI / 2) / 8) with (- (PI / 16)) by field. rewrite sin_neg, Rabs_Ropp, Rabs_right by lra. ring.
Qed.
(** A quarter circle between its two end nodes. *)
Lemma G_arc w (xc : pt2) r f0 f1 (A B : pt2) (l : list pt2) t1 t2 t3 t4 ts : 0 <= r -> f1 - f0 = PI / 2 \/ f1 - f0 = - (PI / 2) ->
  (fst xc + r * cos f0, snd xc + r * sin f0) = A -> (fst xc + r * cos f1, snd xc + r * sin f1) = B ->
  G w (A :: cpt xc r f0 f1 1 :: cpt xc r f0 f1 2 :: cpt xc r f0 f1 3 :: B :: l) (t1 :: t2 :: t3 :: t4 :: ts) =
  r * ch * (t1 * w A (cpt xc r f0 f1 1) + t2 * w (cpt xc r f0 f1 1) (cpt xc r f0 f1 2) + t3 * w (cpt xc r f0 f1 2) (cpt xc r f0 f1 3) + t4 * w (cpt xc r f0 f1 3) B) + G w (B :: l) ts.
Proof.
  intros R0 D EA EB. rewrite <- (cpt0 xc r f0 f1) in EA. rewrite <- (cpt4 xc r f0 f1) in EB. rewrite <- EA, <- EB.
  rewrite !G_cons.
  pose proof (cpt_dist xc r f0 f1 0 R0 D) as D0. pose proof (cpt_dist xc r f0 f1 1 R0 D) as D1. pose proof (cpt_dist xc r f0 f1 2 R0 D) as D2. pose proof (cpt_dist xc r f0 f1 3 R0 D) as D3.
  replace (0 + 1) with 1 in D0 by ring. replace (1 + 1) with 2 in D1 by ring. replace (2 + 1) with 3 in D2 by ring. replace (3 + 1) with 4 in D3 by ring.
  rewrite D0, D1, D2, D3. ring.
Qed.
Lemma G_h w x y z (l : list pt2) t ts : G w (((x, z) : pt2) :: ((y, z) : pt2) :: l) (t :: ts) = t * Rabs (y - x) * w (x, z) (y, z) + G w ((y, z) :: l) ts.
Proof. rewrite G_cons, dist_h. reflexivity. Qed.
Lemma G_v w x y z (l : list pt2) t ts : G w (((z, x) : pt2) :: ((z, y) : pt2) :: l) (t :: ts) = t * Rabs (y - x) * w (z, x) (z, y) + G w ((z, y) :: l) ts.
Proof. rewrite G_cons, dist_v. reflexivity. Qed.
Lemma c32 : cos (15/10 * PI) = 0. Proof. replace (15/10 * PI) with (3 * (PI / 2)) by field. apply cos_3PI2. Qed.
Lemma s32 : sin (15/10 * PI) = -1. Proof. replace (15/10 * PI) with (PI / 2 + PI) by field. rewrite neg_sin, sin_PI2. ring. Qed.
Lemma c12 : cos (1/2 * PI) = 0. Proof. replace (1/2 * PI) with (PI / 2) by field. apply cos_PI2. Qed.
Lemma s12 : sin (1/2 * PI) = 1. Proof. replace (1/2 * PI) with (PI / 2) by field. apply sin_PI2. Qed.
Lemma cm12 : cos (- (1/2) * PI) = 0. Proof. replace (- (1/2) * PI) with (- (PI / 2)) by field. rewrite cos_neg. apply cos_PI2. Qed.
Lemma sm12 : sin (- (1/2) * PI) = -1. Proof. replace (- (1/2) * PI) with (- (PI / 2)) by field. rewrite sin_neg, sin_PI2. reflexivity. Qed.
Lemma inner5 xc r f0 f1 : inner (corner_points xc r f0 f1 5) = [cpt xc r f0 f1 1; cpt xc r f0 f1 2; cpt xc r f0 f1 3].
Proof. rewrite corner5. reflexivity. Qed.
Lemma front5 xc r f0 f1 : removelast (corner_points xc r f0 f1 5) = [cpt xc r f0 f1 0; cpt xc r f0 f1 1; cpt xc r f0 f1 2; cpt xc r f0 f1 3].
Proof. rewrite corner5. reflexivity. Qed.

(** Values of the widths. *)
Lemma lipc s c : 0 < cf_rm s -> 0 < c -> 0 <= straight_lip s c -> 0 < lip_center s c /\ straight_lip s c = lip_center s c - cf_rm s.
Proof.
  intros Rm C0. unfold straight_lip, lip_center. rewrite (ltb_t 0 c) by lra. rewrite (eqb_f c 0) by lra. unfold cf_rm in *. lra.
Qed.
Lemma lip0 c : 0 <= c -> ~ 0 < c -> c = 0. Proof. lra. Qed.
Lemma flange_c s w c : 0 < c -> b_center s w c = straight_flange s w c + 2 * cf_rm s.
Proof. intros C0. unfold b_center, straight_flange, cf_rm. rewrite (ltb_t 0 c) by lra. rewrite (eqb_f c 0) by lra. lra. Qed.
Lemma flange_0 s w : b_center s w 0 = straight_flange s w 0 + cf_rm s.
Proof. unfold b_center, straight_flange, cf_rm. rewrite (ltb_f 0 0) by lra. rewrite (eqb_t 0 0) by lra. lra. Qed.
Lemma web_c s : hw_center s = cf_hw s + 2 * cf_rm s.
Proof. unfold hw_center, cf_hw, cf_rm. lra. Qed.

(** The moments of the parts. *)
Ltac abz := repeat match goal with |- context[Rabs ?x] => (rewrite (Rabs_right x) by lra) || (rewrite (Rabs_left1 x) by lra) end.
Lemma repeat_S {X} (x : X) n : repeat x (S n) = x :: repeat x n. Proof. reflexivity. Qed.

Ltac trig := rewrite ?c32, ?s32, ?c12, ?s12, ?cm12, ?sm12, ?cos_PI, ?sin_PI, ?cos_2PI, ?sin_2PI, ?cos_0, ?sin_0.
Ltac pteq := cbn [fst snd]; trig; f_equal; lra.
Ltac step :=
  match goal with
  | |- context[G ?w (?a :: cpt ?xc ?r ?f0 ?f1 1 :: cpt ?xc ?r ?f0 ?f1 2 :: cpt ?xc ?r ?f0 ?f1 3 :: ?b :: ?l) _] =>
    rewrite (G_arc w xc r f0 f1 a b) by (first [lra | pteq])
  | |- context[G ?w ((?x, ?z) :: (?y, ?z) :: ?l) (?t :: ?ts)] => rewrite (G_h w x y z _ t)
  | |- context[G ?w ((?z, ?x) :: (?z, ?y) :: ?l) (?t :: ?ts)] => rewrite (G_v w x y z _ t)
  end.
(** The nodes of the four kinds of sections, corner points named. *)
Definition bot_nodes (s : cf) : list pt2 :=
  let z0 := - (1/2) * hw_center s in let rm := cf_rm s in let bb := bb_center s in
  let L := lip_center s (c_cb s) in let c := c_bottom s in
  match c_kind s with
  | KZ => let X := (- bb + rm, z0 + rm) in if Rltb 0 (c_cb s) then
      [(- bb, z0 + L); (- bb, z0 + L - 1/2 * straight_lip s (c_cb s)); (- bb, z0 + rm);
       cpt X rm PI (15/10 * PI) 1; cpt X rm PI (15/10 * PI) 2; cpt X rm PI (15/10 * PI) 3;
       (- bb + rm, z0); (- bb + rm + 1/3 * c, z0); (- bb + rm + 2/3 * c, z0); (- bb + rm + c, z0)]
    else [(- bb, z0); (- bb + 1/2 * c, z0); (- bb + c, z0)]
  | KC => let X := (bb - rm, z0 + rm) in if Rltb 0 (c_cb s) then
      [(bb, z0 + L); (bb, z0 + L - 1/2 * straight_lip s (c_cb s)); (bb, z0 + rm);
       cpt X rm 0 (- (1/2) * PI) 1; cpt X rm 0 (- (1/2) * PI) 2; cpt X rm 0 (- (1/2) * PI) 3;
       (bb - rm, z0); (bb - rm - 1/3 * c, z0); (bb - rm - 2/3 * c, z0); (bb - rm - c, z0)]
    else [(bb, z0); (bb - 1/2 * c, z0); (bb - c, z0)]
  end.
Definition bot_arc (s : cf) : list pt2 :=
  let z0 := - (1/2) * hw_center s in let rm := cf_rm s in
  match c_kind s with
  | KZ => let X := (- rm, z0 + rm) in [cpt X rm (15/10 * PI) (2 * PI) 1; cpt X rm (15/10 * PI) (2 * PI) 2; cpt X rm (15/10 * PI) (2 * PI) 3]
  | KC => let X := (rm, z0 + rm) in [cpt X rm (15/10 * PI) PI 1; cpt X rm (15/10 * PI) PI 2; cpt X rm (15/10 * PI) PI 3]
  end.
Definition top_arc (s : cf) : list pt2 :=
  let z1 := 1/2 * hw_center s in let rm := cf_rm s in let X := (rm, z1 - rm) in
  [cpt X rm PI (1/2 * PI) 1; cpt X rm PI (1/2 * PI) 2; cpt X rm PI (1/2 * PI) 3].
Definition top_nodes (s : cf) : list pt2 :=
  let z1 := 1/2 * hw_center s in let rm := cf_rm s in let bt := bt_center s in let L := lip_center s (c_ca s) in
  let X := (bt - rm, z1 - rm) in
  if Rltb 0 (c_ca s) then
    [(rm, z1); (1/4 * bt, z1); (3/4 * bt, z1); (bt - rm, z1); cpt X rm (1/2 * PI) 0 1; cpt X rm (1/2 * PI) 0 2; cpt X rm (1/2 * PI) 0 3;
     (bt, z1 - rm); (bt, z1 - 1/2 * L); (bt, z1 - L)]
  else [(rm, z1); (1/2 * bt, z1); (bt, z1)].
Lemma lip_flag s c : 0 < cf_rm s -> 0 <= c -> 0 <= straight_lip s c -> Rltb 0 (lip_center s c) = Rltb 0 c.
Proof.
  intros Rm C SL. destruct (Rlt_dec 0 c) as [P|P].
  - destruct (lipc s c Rm P SL). rewrite !ltb_t by lra. reflexivity.
  - rewrite (lip0 c C P). unfold lip_center. rewrite (eqb_t 0 0) by lra. reflexivity.
Qed.
Lemma points_named s : fits s -> cf_points s = bot_nodes s ++ bot_arc s ++ web_points s ++ top_arc s ++ top_nodes s.
Proof.
  intros ((LA & LB) & Rm & HW & CT & CB & SA & SB). unfold cf_points. f_equal; [|f_equal; [|f_equal; f_equal]].
  - unfold bottom_points, bot_nodes. rewrite lip_flag by assumption. destruct (c_kind s), (Rltb 0 (c_cb s)); try reflexivity; cbv zeta; rewrite front5; cbn [app];
    do 2 f_equal; f_equal; rewrite cpt0; cbn [fst snd]; trig; f_equal; lra.
  - unfold bottom_corner, bot_arc. cbv zeta. rewrite !inner5. destruct (c_kind s); reflexivity.
  - unfold top_corner, top_arc. cbv zeta. rewrite inner5. reflexivity.
  - unfold top_points, top_nodes. cbv zeta. rewrite lip_flag by assumption. rewrite inner5. destruct (Rltb 0 (c_ca s)); reflexivity.
Qed.

Ltac steps := repeat step; try match goal with |- context[G ?w (?a :: []) ?ts] => replace (G w (a :: []) ts) with 0 by (destruct ts; reflexivity) end.
Definition one2 (a b : pt2) : R := 1.
Lemma G_length_lemma s t n : fits s -> n = (length (cf_points s) - 1)%nat ->
  G one2 (cf_points s) (repeat t n) = t * (straight_lip s (c_cb s) + c_bottom s + cf_hw s + run_top s + corners s * chords * cf_rm s).
Proof.
  intros F N. rewrite (points_named s F) in *. destruct F as ((LA & LB) & Rm & HW & CT & CB & SA & SB).
  unfold bot_nodes, bot_arc, web_points, top_arc, top_nodes in *. cbv zeta in *. unfold run_top, corners.
  replace chords with (4 * ch) by (unfold chords, ch; ring).
  pose proof (web_c s) as EW. rewrite EW in *.
  assert (EB : bb_center s = c_bottom s + (if Rltb 0 (c_cb s) then 2 else 1) * cf_rm s).
  { unfold bb_center, c_bottom. destruct (Rlt_dec 0 (c_cb s)) as [B|B].
    - rewrite (ltb_t 0 (c_cb s)) by lra. apply flange_c. exact B.
    - rewrite (lip0 _ LB B). rewrite (ltb_f 0 0) by lra. rewrite flange_0. ring. }
  assert (EA : bt_center s = c_top s + (if Rltb 0 (c_ca s) then 2 else 1) * cf_rm s).
  { unfold bt_center, c_top. destruct (Rlt_dec 0 (c_ca s)) as [A|A].
    - rewrite (ltb_t 0 (c_ca s)) by lra. apply flange_c. exact A.
    - rewrite (lip0 _ LA A). rewrite (ltb_f 0 0) by lra. rewrite flange_0. ring. }
  rewrite EA, EB in *.
  assert (LCB : Rltb 0 (c_cb s) = true -> lip_center s (c_cb s) = straight_lip s (c_cb s) + cf_rm s).
  { intros B. apply Rltb_true in B. destruct (lipc s (c_cb s) Rm B SB). lra. }
  assert (LCA : Rltb 0 (c_ca s) = true -> lip_center s (c_ca s) = straight_lip s (c_ca s) + cf_rm s).
  { intros B. apply Rltb_true in B. destruct (lipc s (c_ca s) Rm B SA). lra. }
  assert (Z : Rltb 0 (c_cb s) = false -> straight_lip s (c_cb s) = 0) by (intros B; unfold straight_lip; rewrite B; reflexivity).
  destruct (c_kind s), (Rltb 0 (c_cb s)), (Rltb 0 (c_ca s));
    rewrite ?(LCA eq_refl), ?(LCB eq_refl), ?(Z eq_refl) in *; cbn [app length Nat.sub] in N; subst n; rewrite !repeat_S; cbn [app]; steps; unfold one2, Rmax;
    repeat match goal with |- context[Rle_dec ?a ?b] => destruct (Rle_dec a b) end; abz; field.
Qed.
