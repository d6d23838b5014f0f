(** Fire rules: monotonicity, gaps, stress-strain law, gas curves, elongation and
    steel temperature. *)
From Verif Require Export Fire_proofs.

Lemma chord_range x0 y0 x1 y1 x : x0 < x1 -> y1 <= y0 -> x0 <= x <= x1 -> y1 <= y0 + (y1 - y0) * (x - x0) / (x1 - x0) <= y0.
Proof.
  intros H Y X. assert (Q : 0 <= (x - x0) / (x1 - x0) <= 1).
  { split; [apply le_div_iff; lra|apply div_le_iff; lra]. }
  replace ((y1 - y0) * (x - x0) / (x1 - x0)) with ((y1 - y0) * ((x - x0) / (x1 - x0))) by (field; lra).
  set (q := (x - x0) / (x1 - x0)) in *. clearbody q. split; nra.
Qed.
Lemma chord_anti x0 y0 x1 y1 x x' : x0 < x1 -> y1 <= y0 -> x <= x' ->
  y0 + (y1 - y0) * (x' - x0) / (x1 - x0) <= y0 + (y1 - y0) * (x - x0) / (x1 - x0).
Proof. intros H Y X. assert ((y1 - y0) * (x' - x0) / (x1 - x0) <= (y1 - y0) * (x - x0) / (x1 - x0)) by (apply div_le; nra). lra. Qed.

Definition last_y (y0 : R) (l : list (R * R)) : R := last (map snd l) y0.
Lemma last_y_cons y0 x1 y1 l : last_y y0 ((x1, y1) :: l) = last_y y1 l.
Proof.
  unfold last_y. simpl map. revert y0 y1. induction (map snd l) as [|a m IH]; intros; auto.
  change (last (y1 :: a :: m) y0) with (last (a :: m) y0). rewrite (IH y0 a), (IH y1 a). auto.
Qed.
Lemma pl_range l : forall x0 y0 x, falling x0 y0 l -> x0 <= x -> last_y y0 l <= pl x0 y0 l x <= y0.
Proof.
  induction l as [|[x1 y1] l IH]; intros x0 y0 x F X; [unfold last_y; simpl; lra|].
  rewrite last_y_cons. destruct F as (A & B & F). simpl. destruct (Rle_dec x x1).
  - pose proof (chord_range x0 y0 x1 y1 x A B ltac:(lra)). pose proof (IH x1 y1 x1 F ltac:(lra)) as G.
    assert (pl x1 y1 l x1 = y1).
    { destruct l as [|[x2 y2] l']; auto. destruct F as (A2 & _). rewrite pl_here by lra. field. lra. }
    lra.
  - pose proof (IH x1 y1 x F ltac:(lra)). lra.
Qed.
Lemma pl_anti l : forall x0 y0 x x', falling x0 y0 l -> x0 <= x <= x' -> pl x0 y0 l x' <= pl x0 y0 l x.
Proof.
  induction l as [|[x1 y1] l IH]; intros x0 y0 x x' F X; [simpl; lra|]. destruct F as (A & B & F). simpl.
  destruct (Rle_dec x x1), (Rle_dec x' x1); try lra.
  - apply chord_anti; lra.
  - pose proof (pl_range l x1 y1 x' F ltac:(lra)). pose proof (chord_range x0 y0 x1 y1 x A B ltac:(lra)). lra.
  - apply IH; auto; lra.
Qed.

(** Every tabulated property except the stainless ky falls with temperature. *)
Lemma tables_fall s p d : table_of s = Some d -> has_prop s p -> (s, p) <> (s14301, ky) ->
  exists y0 l, knots p d = (20, y0) :: l /\ falling 20 y0 l /\ y0 <= 1 /\ 0 <= last_y y0 l.
Proof.
  intros E HP N. destruct s; simpl in HP; try contradiction; injection E as <-;
  repeat (destruct HP as [HP|HP]; [subst p; try congruence; do 2 eexists; (split; [reflexivity|]); unfold last_y; simpl; repeat split; lra|]);
  subst p; do 2 eexists; (split; [reflexivity|]); unfold last_y; simpl; repeat split; lra.
Qed.
Lemma reduce_range_lemma s p t : has_prop s p -> covered s t -> exists v, reduce_property t p s = Some v /\ 0 <= v <= 1.
Proof.
  intros HP C. destruct (table_of s) as [d|] eqn:E; [|destruct s; simpl in *; try discriminate; contradiction].
  rewrite (reduce_interp_lemma s p t d E HP C). pose proof (covered_range s t C).
  assert (D : (s, p) = (s14301, ky) \/ (s, p) <> (s14301, ky)) by (destruct s, p; (left; congruence) || (right; congruence)).
  destruct D as [D|D].
  - injection D as -> ->. injection E as <-. cbn [SS ss knots interp]. eexists; split; [reflexivity|].
    assert (G : forall l x0 y0 x, 0 <= y0 <= 1 -> x0 <= x -> Forall (fun k => 0 <= snd k <= 1) l -> 0 <= pl x0 y0 l x <= 1).
    { induction l as [|[x1 y1] l IH]; intros x0 y0 x Y X FF; [simpl; lra|]. inversion_clear FF. simpl in H0. simpl.
      destruct (Rle_dec x x1); [|apply IH; auto; lra].
      destruct (Rle_dec x1 x0).
      - assert (x = x1 /\ x0 = x1) as [-> ->] by lra. replace ((y1 - y0) * (x1 - x1) / (x1 - x1)) with 0; [lra|]. unfold Rdiv. replace (x1 - x1) with 0 by ring. ring.
      - assert (Q : 0 <= (x - x0) / (x1 - x0) <= 1) by (split; [apply le_div_iff; lra|apply div_le_iff; lra]).
        replace ((y1 - y0) * (x - x0) / (x1 - x0)) with ((y1 - y0) * ((x - x0) / (x1 - x0))) by (field; lra).
        set (q := (x - x0) / (x1 - x0)) in *. clearbody q. split; nra. }
    apply G; [lra|lra|]. repeat constructor; simpl; lra.
  - destruct (tables_fall s p d E HP D) as (y0 & l & -> & F & Y & L). cbn [interp]. eexists; split; [reflexivity|].
    pose proof (pl_range l 20 y0 t F ltac:(lra)). lra.
Qed.
Lemma reduce_mono_lemma s p t t' v v' : has_prop s p -> (s, p) <> (s14301, ky) -> covered s t -> covered s t' -> t <= t' ->
  reduce_property t p s = Some v -> reduce_property t' p s = Some v' -> v' <= v.
Proof.
  intros HP N C C' L. destruct (table_of s) as [d|] eqn:E; [|destruct s; simpl in *; try discriminate; contradiction].
  rewrite (reduce_interp_lemma s p t d E HP C), (reduce_interp_lemma s p t' d E HP C').
  destruct (tables_fall s p d E HP N) as (y0 & l & -> & F & Y & La). cbn [interp].
  intros A B; injection A as <-; injection B as <-. pose proof (covered_range s t C). apply pl_anti; auto; lra.
Qed.
(** Finding: the tabulated ky of stainless steel rises between 500 and 900 degrees. *)
Lemma stainless_ky_refuted : reduce_property 500 ky s14301 = Some (19/100) /\ reduce_property 900 ky s14301 = Some (38/100).
Proof.
  split; [rewrite (reduce_at 500 ky s14301 SS)|rewrite (reduce_at 900 ky s14301 SS)]; auto; try (unfold SPECIAL_TEMPS; simpl; tauto).
Qed.

(** The tabulated factor is returned at the temperatures of the table. *)
Lemma reduce_table_lemma s d z row p : table_of s = Some d -> In (z, row) d -> reduce_property (IZR z) p s = row p.
Proof.
  intros E H. assert (Z1 : In z SPECIAL_TEMPS).
  { destruct s; simpl in E; try discriminate E; injection E as <-; unfold CS, SS, BO, SPECIAL_TEMPS in *; simpl in H |- *;
    repeat (destruct H as [H|H]; [injection H as <- <-; tauto|]); destruct H. }
  rewrite (reduce_at z p s d Z1 E).
  destruct s; simpl in E; try discriminate E; injection E as <-; unfold CS, SS, BO in H; simpl in H;
  repeat (destruct H as [H|H]; [injection H as <- <-; reflexivity|]); destruct H.
Qed.

(** C59: where the factors exist. *)
Lemma gap_lemma t p s : (s = carbon \/ s = s14301) -> 100 < t < 200 -> reduce_property t p s = None.
Proof.
  intros HS H. destruct (Req_dec t 150) as [->|N].
  - destruct HS as [-> | ->]; unfold reduce_property; rewrite (temps_at 150) by (unfold SPECIAL_TEMPS; simpl; tauto); reflexivity.
  - destruct (Rlt_dec t 150).
    + destruct (temps_between t 100 150) as (A & B & C); [unfold SPECIAL_TEMPS; simpl; tauto|lra|].
      unfold reduce_property. rewrite A, B, C. destruct HS as [-> | ->]; cbn [bind table_of].
      * change (lookup 150 p CS) with (@None R). destruct (lookup 100 p CS); auto.
      * change (lookup 150 p SS) with (@None R). destruct (lookup 100 p SS); auto.
    + destruct (temps_between t 150 200) as (A & B & C); [unfold SPECIAL_TEMPS; simpl; tauto|lra|].
      unfold reduce_property. rewrite A, B, C. destruct HS as [-> | ->]; reflexivity.
Qed.
Lemma bolts_gap_lemma t p : 1000 < t <= 1200 -> reduce_property t p bolts = None.
Proof.
  intros H. destruct (Req_dec t 1100) as [->|N1]; [unfold reduce_property; rewrite (temps_at 1100) by (unfold SPECIAL_TEMPS; simpl; tauto); reflexivity|].
  destruct (Req_dec t 1200) as [->|N2]; [unfold reduce_property; rewrite (temps_at 1200) by (unfold SPECIAL_TEMPS; simpl; tauto); reflexivity|].
  destruct (Rlt_dec t 1100).
  - destruct (temps_between t 1000 1100) as (A & B & C); [unfold SPECIAL_TEMPS; simpl; tauto|lra|].
    unfold reduce_property. rewrite A, B, C. cbn [bind table_of]. change (lookup 1100 p BO) with (@None R). destruct (lookup 1000 p BO); auto.
  - destruct (temps_between t 1100 1200) as (A & B & C); [unfold SPECIAL_TEMPS; simpl; tauto|lra|].
    unfold reduce_property. rewrite A, B, C. reflexivity.
Qed.
Lemma outside_lemma t p s : t < 20 \/ 1200 < t -> reduce_property t p s = None.
Proof.
  intros H. assert (A : special t = None).
  { unfold special, SPECIAL_TEMPS. destruct H; ff; reflexivity. }
  unfold reduce_property. rewrite A. destruct H.
  - assert (B : t_smaller t = None) by (unfold t_smaller, SPECIAL_TEMPS; ff; reflexivity). rewrite B. reflexivity.
  - assert (B : t_larger t = None) by (unfold t_larger, SPECIAL_TEMPS; ff; reflexivity). rewrite B. destruct (t_smaller t); reflexivity.
Qed.
Lemma exists_iff_lemma t p s : has_prop s p -> ((exists v, reduce_property t p s = Some v) <-> covered s t).
Proof.
  intros HP. split.
  - intros [v E]. destruct (Rlt_dec t 20); [rewrite outside_lemma in E by auto; discriminate|].
    destruct (Rlt_dec 1200 t); [rewrite outside_lemma in E by auto; discriminate|].
    destruct s; simpl in *; try contradiction.
    + destruct (Rlt_dec 100 t), (Rlt_dec t 200); try lra. rewrite gap_lemma in E by (auto; lra); discriminate.
    + destruct (Rlt_dec 100 t), (Rlt_dec t 200); try lra. rewrite gap_lemma in E by (auto; lra); discriminate.
    + destruct (Rlt_dec 1000 t); [rewrite bolts_gap_lemma in E by lra; discriminate|lra].
  - intros C. destruct (reduce_range_lemma s p t HP C) as (v & E & _). eauto.
Qed.

(** C60: the stress-strain law. *)

Section Law.
Variables (fp E fy fu : R).
Hypothesis OK : law_ok fp E fy fu.
Let ept := fp / E.
Let d := 2/100 - ept.
Let c := (fy - fp) ^ 2 / (d * E - 2 * (fy - fp)).
Let b := sqrt (c * d * E + c ^ 2).
Let a := sqrt (d * (d + c / E)).
Let q := b / a.
Let g eps := fp - c + q * sqrt (a ^ 2 - (2/100 - eps) ^ 2).

Lemma l_dE : d * E = 2/100 * E - fp /\ 0 < d /\ 0 <= ept.
Proof.
  destruct OK as (HE & Hp & Hf & H). assert (d * E = 2/100 * E - fp) by (unfold d, ept; field; lra).
  split; auto. split; [nra|]. unfold ept. apply le_div_iff; lra.
Qed.
Lemma l_c : 0 <= c /\ c * (d * E - 2 * (fy - fp)) = (fy - fp) ^ 2.
Proof.
  destruct OK as (HE & Hp & Hf & H). destruct l_dE as (A & B & _).
  split; [apply le_div_iff; [lra|]; pose proof (pow2_ge_0 (fy - fp)); lra|unfold c; field; lra].
Qed.
Lemma l_ab : 0 < a /\ a ^ 2 = d * (d + c / E) /\ b = fy - fp + c /\ q * a = b.
Proof.
  destruct OK as (HE & Hp & Hf & H). destruct l_dE as (A & B & _). destruct l_c as (C1 & C2).
  assert (0 <= c / E) by (apply le_div_iff; lra). assert (P : 0 < d * (d + c / E)) by nra.
  assert (Pa : 0 < a) by (apply sqrt_lt_R0; auto).
  split; auto. split; [unfold a; rewrite pow2_sqrt; lra|]. split; [|unfold q; field; lra].
  unfold b. replace (c * d * E + c ^ 2) with ((fy - fp + c) ^ 2) by nra. apply sqrt_pow2. lra.
Qed.
Lemma l_q2 : 0 <= q /\ q ^ 2 * d = c * E.
Proof.
  destruct OK as (HE & Hp & Hf & H). destruct l_dE as (A & B & _). destruct l_c as (C1 & C2). destruct l_ab as (Pa & A2 & Bv & Q).
  split; [unfold q; apply le_div_iff; [auto|]; lra|].
  assert (B2 : b ^ 2 = c * d * E + c ^ 2) by (rewrite Bv; nra).
  assert (q ^ 2 * a ^ 2 = b ^ 2) by (rewrite <- Q; ring). rewrite B2, A2 in H0.
  assert (F : (q ^ 2 * d - c * E) * (d + c / E) = 0).
  { replace ((q ^ 2 * d - c * E) * (d + c / E)) with (q ^ 2 * (d * (d + c / E)) - (c * d * E + c ^ 2)) by (field; lra). lra. }
  assert (0 <= c / E) by (apply le_div_iff; lra).
  apply Rmult_integral in F. destruct F; lra.
Qed.
Lemma l_dom eps : ept <= eps <= 2/100 -> 0 <= a ^ 2 - (2/100 - eps) ^ 2.
Proof.
  intros H. destruct l_dE as (A & B & _). destruct l_c as (C1 & _). destruct l_ab as (_ & A2 & _).
  destruct OK as (HE & _). rewrite A2. assert (0 <= c / E) by (apply le_div_iff; lra).
  assert (0 <= 2/100 - eps <= d) by (unfold d; lra). nra.
Qed.
Lemma l_g_left : g ept = fp.
Proof.
  destruct OK as (HE & Hp & Hf & H). destruct l_dE as (A & B & _). destruct l_c as (C1 & C2). destruct l_ab as (Pa & A2 & Bv & Q). destruct l_q2 as (Q0 & Q2).
  unfold g. fold d. rewrite A2. replace (d * (d + c / E) - d ^ 2) with (d * c / E) by (field; lra).
  assert (D : 0 <= d * c / E) by (apply le_div_iff; nra).
  assert (X : q * sqrt (d * c / E) = c).
  { apply Rsqr_inj; [apply Rmult_le_pos; auto; apply sqrt_pos|auto|]. unfold Rsqr.
    replace (q * sqrt (d * c / E) * (q * sqrt (d * c / E))) with (q ^ 2 * (sqrt (d * c / E) * sqrt (d * c / E))) by ring.
    rewrite sqrt_sqrt by auto. replace (q ^ 2 * (d * c / E)) with (q ^ 2 * d * c / E) by (field; lra). rewrite Q2. field. lra. }
  rewrite X. ring.
Qed.
Lemma l_g_right : g (2/100) = fy.
Proof.
  destruct l_ab as (Pa & A2 & Bv & Q). unfold g. replace (a ^ 2 - (2/100 - 2/100) ^ 2) with (a ^ 2) by ring.
  rewrite sqrt_pow2 by lra. rewrite Q, Bv. ring.
Qed.
Lemma l_g_mono x y : ept <= x <= y -> y <= 2/100 -> g x <= g y.
Proof.
  intros X Y. destruct l_q2 as (Q0 & _). unfold g.
  assert (sqrt (a ^ 2 - (2/100 - x) ^ 2) <= sqrt (a ^ 2 - (2/100 - y) ^ 2)) by (apply sqrt_le_1_alt; nra). nra.
Qed.

(** The law as a total function of the strain. *)
Lemma law_value eps h : stress_law eps fp E fy fu h = Some (
  if Rle_dec eps ept then E * eps
  else if Rlt_dec eps (2/100) then g eps
  else if Rle_dec eps (15/100) then
    (if h then (if Rlt_dec eps (4/100) then 50 * (fu - fy) * eps + 2 * fy - fu else fu) else fy)
  else if Rlt_dec eps (20/100) then
    (if h then fu * (1 - 20 * (eps - 15/100)) else fy * (1 - (eps - 15/100) / (20/100 - 15/100)))
  else 0).
Proof.
  destruct OK as (HE & Hp & Hf & H). unfold stress_law. unfold pdiv at 1. rewrite (proj2 (Reqb_false E 0)) by lra. cbn [bind].
  fold ept. unfold Rleb at 1. destruct (Rle_dec eps ept) as [L|L]; auto.
  unfold Rltb at 1. destruct (Rlt_dec eps (2/100)) as [L2|L2].
  - destruct l_dE as (A & B & _). destruct l_c as (C1 & C2). destruct l_ab as (Pa & A2 & Bv & Q). cbv zeta. fold d.
    unfold pdiv at 1. rewrite (proj2 (Reqb_false (d * E - 2 * (fy - fp)) 0)) by lra. cbn [bind]. fold c.
    assert (0 <= c / E) by (apply le_div_iff; lra).
    unfold psqrt at 1. rewrite (proj2 (Rltb_false (c * d * E + c ^ 2) 0)) by nra. cbn [bind]. fold b.
    unfold psqrt at 1. rewrite (proj2 (Rltb_false (d * (d + c / E)) 0)) by nra. cbn [bind]. fold a.
    unfold pdiv at 1. rewrite (proj2 (Reqb_false a 0)) by lra. cbn [bind]. fold q.
    unfold psqrt. rewrite (proj2 (Rltb_false _ 0)) by (apply l_dom; lra). reflexivity.
  - unfold Rleb, Rltb. destruct (Rle_dec eps (15/100)); [destruct h; auto; destruct (Rlt_dec eps (4/100)); auto|].
    destruct (Rlt_dec eps (20/100)); auto. destruct h; auto.
Qed.

Lemma law_bounds eps (h : bool) : 0 <= eps -> exists v, stress_law eps fp E fy fu h = Some v /\
  0 <= v <= (if h then fu else fy) /\ (20/100 <= eps -> v = 0) /\ (eps <= ept -> v = E * eps).
Proof.
  intros He. rewrite law_value. eexists; split; [reflexivity|]. destruct OK as (HE & Hp & Hf & H). destruct l_dE as (A & B & E0).
  assert (Ee : E * ept = fp) by (unfold ept; field; lra).
  destruct (Rle_dec eps ept) as [L|L].
  - split; [|split; [intros; unfold d in B; lra|auto]]. assert (E * eps <= E * ept) by nra. split; [nra|destruct h; nra].
  - destruct (Rlt_dec eps (2/100)) as [L2|L2].
    + pose proof (l_g_mono ept eps ltac:(lra) ltac:(lra)). pose proof (l_g_mono eps (2/100) ltac:(lra) ltac:(lra)).
      rewrite l_g_left in *. rewrite l_g_right in *. split; [destruct h; lra|split; intros; lra].
    + destruct (Rle_dec eps (15/100)).
      * split; [|split; intros; lra]. destruct h; [destruct (Rlt_dec eps (4/100))|]; try lra. split; nra.
      * destruct (Rlt_dec eps (20/100)); [|split; [destruct h; lra|split; intros; lra]]. split; [|split; intros; lra].
        destruct h; [split; nra|]. replace ((eps - 15/100) / (20/100 - 15/100)) with (20 * (eps - 15/100)) by field. split; nra.
Qed.

Lemma law_mono x y (h : bool) vx vy : x <= y -> y <= 15/100 ->
  stress_law x fp E fy fu h = Some vx -> stress_law y fp E fy fu h = Some vy -> vx <= vy.
Proof.
  intros X Y. rewrite !law_value. intros Ex Ey; injection Ex as <-; injection Ey as <-.
  destruct OK as (HE & Hp & Hf & H). destruct l_dE as (A & B & E0). assert (Ee : E * ept = fp) by (unfold ept; field; lra).
  assert (D : ept < 2/100) by (unfold d in B; lra).
  assert (GL : forall z, ept <= z <= 2/100 -> fp <= g z <= fy).
  { intros z Hz. pose proof (l_g_mono ept z ltac:(lra) ltac:(lra)). pose proof (l_g_mono z (2/100) ltac:(lra) ltac:(lra)). rewrite l_g_left in *. rewrite l_g_right in *. lra. }
  assert (PL : forall z, 2/100 <= z -> fy <= (if h then if Rlt_dec z (4/100) then 50 * (fu - fy) * z + 2 * fy - fu else fu else fy)).
  { intros z Hz. destruct h; [destruct (Rlt_dec z (4/100))|]; nra. }
  destruct (Rle_dec x ept), (Rle_dec y ept); try lra.
  - nra.
  - assert (E * x <= fp) by nra. destruct (Rlt_dec y (2/100)); [pose proof (GL y ltac:(lra)); lra|].
    destruct (Rle_dec y (15/100)); [|lra]. pose proof (PL y ltac:(lra)). lra.
  - destruct (Rlt_dec x (2/100)).
    + destruct (Rlt_dec y (2/100)); [apply l_g_mono; lra|]. destruct (Rle_dec y (15/100)); [|lra].
      pose proof (PL y ltac:(lra)). pose proof (GL x ltac:(lra)). lra.
    + destruct (Rlt_dec y (2/100)); [lra|]. destruct (Rle_dec x (15/100)), (Rle_dec y (15/100)); try lra.
      destruct h; [|lra]. destruct (Rlt_dec x (4/100)), (Rlt_dec y (4/100)); try lra; nra.
Qed.

(** Gluing of continuous pieces. *)
Lemma glue_pt (f1 f2 : R -> R) (m x : R) (f : R -> R) : (forall t, t <= m -> f t = f1 t) -> (forall t, m <= t -> f t = f2 t) ->
  (x <= m -> continuity_pt f1 x) -> (m <= x -> continuity_pt f2 x) -> continuity_pt f x.
Proof.
  intros F1 F2 C1 C2. intros e He. simpl. unfold R_dist, D_x, no_cond.
  destruct (Rtotal_order x m) as [L|[L|L]].
  - destruct (C1 ltac:(lra) e He) as (al & P & Q). exists (Rmin al (m - x)). split; [apply Rmin_glb_lt; lra|].
    intros t [_ Ht]. simpl in Q. unfold R_dist in Q.
    assert (Rabs (t - x) < al) by (eapply Rlt_le_trans; [exact Ht|apply Rmin_l]).
    assert (Rabs (t - x) < m - x) by (eapply Rlt_le_trans; [exact Ht|apply Rmin_r]).
    destruct (Req_dec t x) as [->|N]; [rewrite Rminus_eq_0, Rabs_R0; auto|].
    rewrite (F1 t) by (destruct (Rabs_facts (t - x)); lra). rewrite (F1 x) by lra. apply Q. split; auto. split; [exact I|auto].
  - subst m. destruct (C1 ltac:(lra) e He) as (al & P & Q). destruct (C2 ltac:(lra) e He) as (al' & P' & Q').
    exists (Rmin al al'). split; [apply Rmin_glb_lt; lra|]. intros t [_ Ht]. simpl in Q, Q'. unfold R_dist in Q, Q'.
    assert (Rabs (t - x) < al) by (eapply Rlt_le_trans; [exact Ht|apply Rmin_l]).
    assert (Rabs (t - x) < al') by (eapply Rlt_le_trans; [exact Ht|apply Rmin_r]).
    destruct (Req_dec t x) as [->|N]; [rewrite Rminus_eq_0, Rabs_R0; auto|].
    destruct (Rle_dec t x).
    + rewrite (F1 t), (F1 x) by lra. apply Q. split; auto. split; [exact I|auto].
    + rewrite (F2 t), (F2 x) by lra. apply Q'. split; auto. split; [exact I|auto].
  - destruct (C2 ltac:(lra) e He) as (al & P & Q). exists (Rmin al (x - m)). split; [apply Rmin_glb_lt; lra|].
    intros t [_ Ht]. simpl in Q. unfold R_dist in Q.
    assert (Rabs (t - x) < al) by (eapply Rlt_le_trans; [exact Ht|apply Rmin_l]).
    assert (Rabs (t - x) < x - m) by (eapply Rlt_le_trans; [exact Ht|apply Rmin_r]).
    destruct (Req_dec t x) as [->|N]; [rewrite Rminus_eq_0, Rabs_R0; auto|].
    rewrite (F2 t) by (destruct (Rabs_facts (t - x)); lra). rewrite (F2 x) by lra. apply Q. split; auto. split; [exact I|auto].
Qed.
Lemma cont_affine m k x : continuity_pt (fun t => m * t + k) x.
Proof. apply derivable_continuous_pt. exists (m * 1 + 0). apply derivable_pt_lim_plus; [apply derivable_pt_lim_scal, derivable_pt_lim_id|apply derivable_pt_lim_const]. Qed.
Lemma cont_ext (f f' : R -> R) x : (forall t, f t = f' t) -> continuity_pt f' x -> continuity_pt f x.
Proof. intros H C e He. destruct (C e He) as (al & P & Q). exists al. split; auto. intros t Ht. rewrite !H. apply Q; auto. Qed.
Lemma cont_g x : ept <= x <= 2/100 -> continuity_pt g x.
Proof.
  intros H. unfold g.
  apply continuity_pt_plus; [apply continuity_pt_const; intros ? ?; auto|].
  apply continuity_pt_mult; [apply continuity_pt_const; intros ? ?; auto|].
  apply (continuity_pt_comp (fun eps => a ^ 2 - (2/100 - eps) ^ 2) sqrt).
  - apply derivable_continuous_pt. exists (0 - 2 * (2/100 - x) * (0 - 1)).
    apply derivable_pt_lim_minus; [apply derivable_pt_lim_const|].
    apply (derivable_pt_lim_comp (fun t => 2/100 - t) (fun t => t ^ 2)).
    + apply derivable_pt_lim_minus; [apply derivable_pt_lim_const|apply derivable_pt_lim_id].
    + replace (2 * (2/100 - x)) with (INR 2 * (2/100 - x) ^ pred 2) by (simpl; ring). apply derivable_pt_lim_pow.
  - apply continuity_pt_sqrt. apply l_dom; auto.
Qed.

Lemma law_continuous h : continuity (fun eps => sv (stress_law eps fp E fy fu h)).
Proof.
  intros x. destruct OK as (HE & Hp & Hf & H). destruct l_dE as (A & B & E0). assert (Ee : E * ept = fp) by (unfold ept; field; lra).
  assert (D : ept < 2/100) by (unfold d in B; lra).
  pose (F5 := fun eps : R => 0).
  pose (F4 := fun eps : R => if h then (-20 * fu) * eps + 4 * fu else (-20 * fy) * eps + 4 * fy).
  pose (F3b := fun eps : R => if h then fu else fy).
  pose (F3a := fun eps : R => if h then 50 * (fu - fy) * eps + (2 * fy - fu) else fy).
  pose (f45 := fun e => if Rle_dec e (20/100) then F4 e else F5 e).
  pose (f345 := fun e => if Rle_dec e (15/100) then F3b e else f45 e).
  pose (f3345 := fun e => if Rle_dec e (4/100) then F3a e else f345 e).
  pose (f2345 := fun e => if Rle_dec e (2/100) then g e else f3345 e).
  pose (f := fun e => if Rle_dec e ept then E * e + 0 else f2345 e).
  apply (cont_ext _ f).
  - intros e. rewrite law_value. cbn [sv]. unfold f, f2345, f3345, f345, f45, F3a, F3b, F4, F5.
    destruct (Rle_dec e ept); [lra|]. destruct (Rlt_dec e (2/100)), (Rle_dec e (2/100)); try lra.
    + assert (e = 2/100) as -> by lra. rewrite l_g_right. destruct (Rle_dec (2/100) (15/100)); [|lra].
      destruct h; auto. destruct (Rlt_dec (2/100) (4/100)); lra.
    + destruct (Rle_dec e (4/100)).
      * destruct (Rle_dec e (15/100)); [|lra]. destruct h; auto. destruct (Rlt_dec e (4/100)); [lra|]. assert (e = 4/100) as -> by lra. lra.
      * destruct (Rle_dec e (15/100)); [destruct h; auto; destruct (Rlt_dec e (4/100)); lra|].
        destruct (Rlt_dec e (20/100)), (Rle_dec e (20/100)); try lra.
        -- destruct h; [lra|]. field.
        -- assert (e = 20/100) as -> by lra. destruct h; lra.
  - assert (CF4 : forall y, continuity_pt F4 y) by (intros y; unfold F4; destruct h; apply cont_affine).
    assert (CF3b : forall y, continuity_pt F3b y) by (intros y; unfold F3b; apply continuity_pt_const; intros ? ?; auto).
    assert (CF3a : forall y, continuity_pt F3a y) by (intros y; unfold F3a; destruct h; [apply cont_affine|apply continuity_pt_const; intros ? ?; auto]).
    assert (C45 : forall y, continuity_pt f45 y).
    { intros y. apply (glue_pt F4 F5 (20/100)); auto.
      - intros t Ht. unfold f45. destruct (Rle_dec t (20/100)); [auto|lra].
      - intros t Ht. unfold f45. destruct (Rle_dec t (20/100)); auto. assert (t = 20/100) as -> by lra. unfold F4, F5. destruct h; lra.
      - intros _. apply continuity_pt_const; intros ? ?; auto. }
    assert (C345 : forall y, continuity_pt f345 y).
    { intros y. apply (glue_pt F3b f45 (15/100)); auto.
      - intros t Ht. unfold f345. destruct (Rle_dec t (15/100)); [auto|lra].
      - intros t Ht. unfold f345. destruct (Rle_dec t (15/100)); auto. assert (t = 15/100) as -> by lra.
        unfold f45, F3b, F4. destruct (Rle_dec (15/100) (20/100)); [|lra]. destruct h; lra. }
    assert (C3345 : forall y, continuity_pt f3345 y).
    { intros y. apply (glue_pt F3a f345 (4/100)); auto.
      - intros t Ht. unfold f3345. destruct (Rle_dec t (4/100)); [auto|lra].
      - intros t Ht. unfold f3345. destruct (Rle_dec t (4/100)); auto. assert (t = 4/100) as -> by lra.
        unfold f345, F3a, F3b. destruct (Rle_dec (4/100) (15/100)); [|lra]. destruct h; lra. }
    assert (C2345 : forall y, ept <= y -> continuity_pt f2345 y).
    { intros y Hy. apply (glue_pt g f3345 (2/100)); auto.
      - intros t Ht. unfold f2345. destruct (Rle_dec t (2/100)); [auto|lra].
      - intros t Ht. unfold f2345. destruct (Rle_dec t (2/100)); auto. assert (t = 2/100) as -> by lra.
        rewrite l_g_right. unfold f3345, F3a. destruct (Rle_dec (2/100) (4/100)); [|lra]. destruct h; lra.
      - intros. apply cont_g. lra. }
    apply (glue_pt (fun e => E * e + 0) f2345 ept); auto.
    + intros t Ht. unfold f. destruct (Rle_dec t ept); [auto|lra].
    + intros t Ht. unfold f. destruct (Rle_dec t ept); auto. assert (t = ept) as -> by lra.
      unfold f2345. destruct (Rle_dec ept (2/100)); [|lra]. rewrite l_g_left. lra.
    + intros _. apply cont_affine.
Qed.
End Law.
