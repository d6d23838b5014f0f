(** Proofs about the geometry of tube joints. *)
From Verif Require Import Base EC3_model Bool_tac Sections_proofs F2d_proofs F2d2_proofs F2d3_proofs.
From Verif Require Import F2d_model Tube_model Tube_spec.
Require Import Reals List Bool Lra Lia Psatz PeanoNat.
Import ListNotations.
Local Open Scope R_scope.

(** ---- location. *)
Lemma round3_idem : forall x, roundn 3 (roundn 3 x) = roundn 3 x.
Proof.
  intros z. unfold roundn at 2. rewrite (roundn_of 3 _ (roundZ (z * 10 ^ 3))); [unfold roundn; field; lra|].
  replace (IZR (roundZ (z * 10 ^ 3)) / 10 ^ 3 * 10 ^ 3 - IZR (roundZ (z * 10 ^ 3))) with 0 by (field; lra). rewrite Rabs_R0. lra.
Qed.
Lemma round3_mirror : forall x, roundn 3 (1 - roundn 3 x) = 1 - roundn 3 x.
Proof.
  intros x. rewrite (roundn_of 3 (1 - roundn 3 x) (1000 - roundZ (x * 10 ^ 3))).
  - unfold roundn. rewrite minus_IZR. field.
  - rewrite minus_IZR. unfold roundn. replace ((1 - IZR (roundZ (x * 10 ^ 3)) / 10 ^ 3) * 10 ^ 3 - (1000 - IZR (roundZ (x * 10 ^ 3)))) with 0 by (field; lra). rewrite Rabs_R0. lra.
Qed.
Lemma round3_int : forall z, roundn 3 (IZR z) = IZR z.
Proof.
  intros z. rewrite (roundn_of 3 _ (z * 1000)); rewrite mult_IZR; [field; lra|]. replace (IZR z * 10 ^ 3 - IZR z * 1000) with 0 by ring. rewrite Rabs_R0. lra.
Qed.
Lemma round3_bounds : forall x, 0 <= x <= 1 -> 0 <= roundn 3 x <= 1.
Proof.
  intros x [H0 H1]. assert (M : forall a b, a <= b -> roundn 3 a <= roundn 3 b).
  { intros a b H. unfold roundn. apply Rmult_le_compat_r; [lra|]. apply IZR_le. apply roundZ_mono. lra. }
  pose proof (M 0 x H0). pose proof (M x 1 H1). rewrite (round3_int 0) in *. rewrite (round3_int 1) in *. lra.
Qed.
Lemma loc_lemma : forall j v, 0 <= v <= 1 ->
  get_loc (set_loc j v) = (if l_rev j then 1 - roundn 3 v else roundn 3 v) /\ 0 <= get_loc (set_loc j v) <= 1 /\ l_rev (set_loc j v) = l_rev j /\
  (l_rev j = false -> Rabs (get_loc (set_loc j v) - v) <= 1/2000).
Proof.
  intros j v [H0 H1]. assert (C : Rmin (Rmax 0 v) 1 = v) by (rewrite Rmax_right by lra; apply Rmin_left; lra).
  assert (E : get_loc (set_loc j v) = (if l_rev j then 1 - roundn 3 v else roundn 3 v)).
  { unfold set_loc. rewrite C. set (w := if l_rev j then 1 - roundn 3 v else roundn 3 v). cbn zeta. destruct (Reqb w (get_loc j)) eqn:Q; [apply Reqb_true in Q; auto|].
    unfold get_loc. cbn [l_val]. unfold w. destruct (l_rev j); [apply round3_mirror|apply round3_idem]. }
  split; [exact E|]. rewrite E. pose proof (round3_bounds v (conj H0 H1)). split; [destruct (l_rev j); lra|]. split.
  - unfold set_loc. cbn zeta. destruct (Reqb _ (get_loc j)); reflexivity.
  - intros ->. pose proof (roundn_err 3 v). lra.
Qed.
Lemma loc_clamp_lemma : forall j v, (v <= 0 -> set_loc j v = set_loc j 0) /\ (1 <= v -> set_loc j v = set_loc j 1).
Proof.
  intros j v. split; intros H; unfold set_loc.
  - rewrite (Rmax_left 0 v) by lra. rewrite (Rmax_left 0 0) by lra. reflexivity.
  - rewrite (Rmax_right 0 v) by lra. rewrite (Rmax_right 0 1) by lra. rewrite (Rmin_right v 1) by lra. rewrite (Rmin_left 1 1) by lra. reflexivity.
Qed.
(** Assigning a reversed joint its own location moves it to the mirrored place. *)
Lemma loc_flip_lemma : forall j, l_rev j = true -> 0 <= get_loc j <= 1 -> get_loc (set_loc j (get_loc j)) = 1 - get_loc j.
Proof.
  intros j R H. destruct (loc_lemma j (get_loc j) H) as [E _]. rewrite E, R. unfold get_loc. rewrite round3_idem. reflexivity.
Qed.
Lemma y_adjust_lemma : forall j g L, l_rev j = false -> 0 < L -> 1/1000 <= g / L <= 1/2 ->
  0 <= get_loc j <= 1 -> 0 < get_loc (y_adjust j g L) < 1 /\
  (0 < get_loc j < 1 -> y_adjust j g L = j) /\ (get_loc j = 0 -> get_loc (y_adjust j g L) = roundn 3 (g / L)) /\
  (get_loc j = 1 -> get_loc (y_adjust j g L) = roundn 3 (1 - g / L)).
Proof.
  intros j g L R HL G J. pose proof (roundn_err 3 (g / L)) as E1. pose proof (roundn_err 3 (1 - g / L)) as E2.
  assert (A1 : Rabs (roundn 3 (g / L) - g / L) <= 1/2000) by lra. assert (A2 : Rabs (roundn 3 (1 - g / L) - (1 - g / L)) <= 1/2000) by lra.
  assert (B1 : 0 < roundn 3 (g / L) < 1) by (revert A1; unfold Rabs; destruct (Rcase_abs _); lra).
  assert (B2 : 0 < roundn 3 (1 - g / L) < 1) by (revert A2; unfold Rabs; destruct (Rcase_abs _); lra).
  assert (S0 : get_loc (set_loc j (g / L)) = roundn 3 (g / L)) by (destruct (loc_lemma j (g / L)) as [E _]; [lra|]; rewrite E, R; reflexivity).
  assert (S1 : get_loc (set_loc j (1 - g / L)) = roundn 3 (1 - g / L)) by (destruct (loc_lemma j (1 - g / L)) as [E _]; [lra|]; rewrite E, R; reflexivity).
  assert (Z : get_loc j = 0 -> get_loc (y_adjust j g L) = roundn 3 (g / L)).
  { intros Q. unfold y_adjust. cbn zeta. rewrite (eqb_t (get_loc j) 0) by auto. rewrite S0. rewrite eqb_f by lra. exact S0. }
  assert (O : get_loc j = 1 -> get_loc (y_adjust j g L) = roundn 3 (1 - g / L)).
  { intros Q. unfold y_adjust. cbn zeta. rewrite (eqb_f (get_loc j) 0) by lra. rewrite (eqb_t (get_loc j) 1) by auto. exact S1. }
  assert (I : 0 < get_loc j < 1 -> y_adjust j g L = j).
  { intros Q. unfold y_adjust. cbn zeta. rewrite (eqb_f (get_loc j) 0) by lra. rewrite (eqb_f (get_loc j) 1) by lra. reflexivity. }
  split; [|auto]. destruct (Req_dec (get_loc j) 0) as [Q|Q]; [rewrite Z by auto; exact B1|]. destruct (Req_dec (get_loc j) 1) as [Q1|Q1]; [rewrite O by auto; exact B2|]. rewrite I by lra. lra.
Qed.
(** A reversed Y joint at the start of its chord is moved to the other end. *)
Lemma y_jump_lemma : forall j g L, l_rev j = true -> 0 < L -> 1/1000 <= g / L <= 1/2 -> get_loc j = 0 -> get_loc (y_adjust j g L) = 1 - roundn 3 (g / L).
Proof.
  intros j g L R HL G J. pose proof (roundn_err 3 (g / L)) as E1. assert (A1 : Rabs (roundn 3 (g / L) - g / L) <= 1/2000) by lra.
  assert (B1 : 0 < roundn 3 (g / L) < 1) by (revert A1; unfold Rabs; destruct (Rcase_abs _); lra).
  assert (S0 : get_loc (set_loc j (g / L)) = 1 - roundn 3 (g / L)) by (destruct (loc_lemma j (g / L)) as [E _]; [lra|]; rewrite E, R; reflexivity).
  unfold y_adjust. cbn zeta. rewrite (eqb_t (get_loc j) 0) by auto. rewrite S0. rewrite eqb_f by lra. exact S0.
Qed.

(** ---- angle. *)
Lemma theta_lemma : forall w c, 0 <= w < PI -> 0 <= c < PI ->
  0 <= theta w c <= PI / 2 /\ (c = 0 -> theta w c = acute w c) /\ (w <= PI / 2 -> c <= PI / 2 -> theta w c = acute w c) /\ theta w c = theta c w.
Proof.
  intros w c [W0 W1] [C0 C1]. pose proof PI_RGT_0 as P. unfold theta, acute, Rmin, Rabs.
  split; [|split; [|split]].
  - repeat destruct (Rcase_abs _); repeat destruct (Rle_dec _ _); lra.
  - intros ->. repeat destruct (Rcase_abs _); repeat destruct (Rle_dec _ _); lra.
  - intros A B. repeat destruct (Rcase_abs _); repeat destruct (Rle_dec _ _); lra.
  - repeat destruct (Rcase_abs _); repeat destruct (Rle_dec _ _); lra.
Qed.
(** With a rising chord the web leaning the other way gets an angle that is too small by twice the
    inclination of the chord. *)
Lemma theta_wrong_lemma : forall w c, 0 < c -> PI / 2 + c <= w -> w <= PI - c -> acute w c = theta w c + 2 * c.
Proof.
  intros w c C0 W0 W1. pose proof PI_RGT_0 as P. unfold theta, acute, Rmin, Rabs. repeat destruct (Rcase_abs _); repeat destruct (Rle_dec _ _); lra.
Qed.

(** ---- eccentricity and gap. *)
Lemma good_sines : forall q, good_angles q -> 0 < sin (g_t1 q) /\ 0 < sin (g_t2 q) /\ sin (g_t1 q + g_t2 q) <> 0.
Proof.
  intros q ((A1 & A2) & (B1 & B2) & C). split; [apply sin_gt_0; auto|]. split; [apply sin_gt_0; auto|]. intros E.
  destruct (Rlt_dec (g_t1 q + g_t2 q) PI) as [H|H]; [pose proof (sin_gt_0 (g_t1 q + g_t2 q) ltac:(lra) H); lra|].
  pose proof (sin_lt_0 (g_t1 q + g_t2 q) ltac:(lra) ltac:(lra)). lra.
Qed.
Lemma k_relation_lemma : forall q s, good_angles q ->
  (get_e q s + g_h0 q / 2) * sin (g_t1 q + g_t2 q) =
  (get_g q s + g_h1 q / (2 * sin (g_t1 q)) + g_h2 q / (2 * sin (g_t2 q))) * (sin (g_t1 q) * sin (g_t2 q)).
Proof. intros q s G. destruct (good_sines q G) as (S1 & S2 & S3). unfold get_g. field. lra. Qed.
Lemma k_run : forall ops q s d, let r := fold_left kstep ops (q, s) in
  (match d with Some (true, v) => k_gset s = true /\ k_g s = v | Some (false, v) => k_gset s = false /\ k_e s = v | None => k_gset s = false end) ->
  (match last_set ops d with Some (true, v) => k_gset (snd r) = true /\ k_g (snd r) = v | Some (false, v) => k_gset (snd r) = false /\ k_e (snd r) = v | None => k_gset (snd r) = false end).
Proof.
  induction ops as [|o ops IH]; intros q s d r H; [exact H|]. subst r. cbn [fold_left last_set]. destruct o as [q'|x1 x2 v|v]; cbn [kstep fst snd].
  - apply (IH q' s d H).
  - apply (IH q (set_e q x1 x2 s v) (Some (false, v))). cbn. auto.
  - apply (IH q (set_g s v) (Some (true, v))). cbn. auto.
Qed.
Lemma k_last_lemma : forall ops q g, let r := fold_left kstep ops (q, new_k g) in good_angles (fst r) ->
  match last_set ops None with
  | Some (true, v) => get_g (fst r) (snd r) = v
  | Some (false, v) => get_e (fst r) (snd r) = v
  | None => True
  end.
Proof.
  intros ops q g r G. pose proof (k_run ops q (new_k g) None eq_refl) as H. fold r in H. destruct (good_sines _ G) as (S1 & S2 & S3).
  destruct (last_set ops None) as [[[|] v]|]; auto; destruct H as [H1 H2].
  - unfold get_g, get_e. rewrite H1, H2. field. lra.
  - unfold get_e. rewrite H1. exact H2.
Qed.
(** The gap given to the constructor has no effect on a K joint. *)
Lemma k_init_lemma : forall q g, good_angles q -> get_e q (new_k g) = 0 /\
  get_g q (new_k g) = g_h0 q / 2 * (cos (g_t1 q) / sin (g_t1 q) + cos (g_t2 q) / sin (g_t2 q)) - g_h1 q / (2 * sin (g_t1 q)) - g_h2 q / (2 * sin (g_t2 q)).
Proof.
  intros q g G. destruct (good_sines _ G) as (S1 & S2 & S3). unfold get_g, get_e, new_k. cbn [k_gset k_e]. split; [reflexivity|]. rewrite sin_plus. field. lra.
Qed.

(** ---- nodes of a K joint. *)
Lemma local_frame : forall c, 0 < mlen c -> exists k, k * k = 1 /\
  fst (unitv c) ^ 2 + snd (unitv c) ^ 2 = 1 /\ fst (perp c) ^ 2 + snd (perp c) ^ 2 = 1 /\
  fst (unitv c) * fst (perp c) + snd (unitv c) * snd (perp c) = 0 /\ fst (unitv c) * snd (perp c) - snd (unitv c) * fst (perp c) = k /\
  fst (m_b c) - fst (m_a c) = mlen c * fst (unitv c) /\ snd (m_b c) - snd (m_a c) = mlen c * snd (unitv c).
Proof.
  intros c H. destruct (member_frame_lemma c H) as (_ & _ & _ & U & V & O & K). exists (if m_rev c then 1 else -1).
  split; [destruct (m_rev c); ring|]. split; auto. split; auto. split; auto. split; auto. unfold unitv. cbn [fst snd]. split; field; lra.
Qed.
Lemma local_dist : forall c s n s' n' p p', 0 < mlen c -> at_local c s n p -> at_local c s' n' p' -> pdist p p' = sqrt ((s' - s) ^ 2 + (n' - n) ^ 2).
Proof.
  intros c s n s' n' p p' H [A1 A2] [B1 B2]. destruct (local_frame c H) as (k & _ & U & V & O & _). unfold pdist. f_equal. rewrite A1, A2, B1, B2.
  transitivity ((s' - s) ^ 2 * (fst (unitv c) ^ 2 + snd (unitv c) ^ 2) + (n' - n) ^ 2 * (fst (perp c) ^ 2 + snd (perp c) ^ 2) + 2 * (s' - s) * (n' - n) * (fst (unitv c) * fst (perp c) + snd (unitv c) * snd (perp c))); [ring|].
  rewrite U, V, O. ring.
Qed.
Lemma local_dist_axis : forall c s s' p p', 0 < mlen c -> at_local c s 0 p -> at_local c s' 0 p' -> pdist p p' = Rabs (s' - s).
Proof.
  intros c s s' p p' H A B. rewrite (local_dist c s 0 s' 0 p p' H A B). replace ((s' - s) ^ 2 + (0 - 0) ^ 2) with ((s' - s)²) by (unfold Rsqr; ring). apply sqrt_Rsqr_abs.
Qed.
Lemma local_add_u : forall c s n p d, at_local c s n p -> at_local c (s + d) n (addv p d (unitv c)).
Proof. intros c s n p d [A B]. unfold at_local, addv. cbn [fst snd]. rewrite A, B. split; ring. Qed.
Lemma local_add_v : forall c s n p d, at_local c s n p -> at_local c s (n + d) (addv p d (perp c)).
Proof. intros c s n p d [A B]. unfold at_local, addv. cbn [fst snd]. rewrite A, B. split; ring. Qed.
Lemma local_global : forall c t, 0 < mlen c -> at_local c (mlen c * t) 0 (to_global c t).
Proof. intros c t H. unfold at_local, to_global. cbn [fst snd]. split; ring. Qed.
Lemma local_raw : forall c sp np sq nq p q, 0 < mlen c -> at_local c sp np p -> at_local c sq nq q -> np <> nq ->
  at_local c (sp + np * (sq - sp) / (np - nq)) 0 (raw_intersection c p q).
Proof.
  intros c sp np sq nq p q H [A1 A2] [B1 B2] D. destruct (local_frame c H) as (k & KK & U & V & O & K & L1 & L2).
  assert (Kn : k <> 0) by (intros Z; rewrite Z in KK; lra).
  assert (DT : det4 c p q = mlen c * (nq - np) * k).
  { unfold det4. transitivity (- (fst (m_b c) - fst (m_a c)) * (snd p - snd q) + (snd (m_b c) - snd (m_a c)) * (fst p - fst q)); [ring|]. rewrite L1, L2, A1, A2, B1, B2, <- K. ring. }
  assert (Dn : det4 c p q <> 0) by (rewrite DT; apply Rmult_integral_contrapositive_currified; [apply Rmult_integral_contrapositive_currified; lra|exact Kn]).
  destruct (raw_spec c p q Dn) as [[R1 R2] _].
  set (t := ((fst p - fst (m_a c)) * (snd q - snd p) - (snd p - snd (m_a c)) * (fst q - fst p)) / det4 c p q) in *.
  assert (T : t * mlen c = sp + np * (sq - sp) / (np - nq)).
  { unfold t. rewrite DT. replace ((fst p - fst (m_a c)) * (snd q - snd p) - (snd p - snd (m_a c)) * (fst q - fst p)) with ((sp * (nq - np) - np * (sq - sp)) * k) by (rewrite A1, A2, B1, B2, <- K; ring). field. lra. }
  unfold at_local. rewrite R1, R2, L1, L2, <- T. split; ring.
Qed.
Lemma shift_lemma : forall c s0 s1 s2 c0 c1 c2, 0 < mlen c -> at_local c s0 0 c0 -> at_local c s1 0 c1 -> at_local c s2 0 c2 ->
  s1 <= mlen c -> 0 <= s2 ->
  let d := if Rlt_dec s1 0 then - s1 else if Rlt_dec (mlen c) s2 then mlen c - s2 else 0 in
  exists a b e, shift_ends c (c0, c1, c2) = (a, b, e) /\ at_local c (s0 + d) 0 a /\ at_local c (s1 + d) 0 b /\ at_local c (s2 + d) 0 e.
Proof.
  intros c s0 s1 s2 c0 c1 c2 H A0 A1 A2 B1 B2 d. unfold shift_ends.
  pose proof (local_global c 0 H) as G0. pose proof (local_global c 1 H) as G1. rewrite Rmult_0_r in G0. rewrite Rmult_1_r in G1.
  rewrite (local_dist_axis c (mlen c) s1 _ _ H G1 A1), (local_dist_axis c 0 s1 _ _ H G0 A1), (local_dist_axis c 0 s2 _ _ H G0 A2), (local_dist_axis c (mlen c) s2 _ _ H G1 A2).
  rewrite (Rabs_left1 (s1 - mlen c)) by lra. rewrite (Rabs_pos_eq (s2 - 0)) by lra. unfold d. destruct (Rlt_dec s1 0) as [K|K].
  - rewrite ltb_t by lra. eexists _, _, _. split; [reflexivity|]. rewrite (Rabs_left1 (s1 - 0)) by lra. replace (- (s1 - 0)) with (- s1) by ring. split; [|split]; apply local_add_u; auto.
  - rewrite ltb_f by lra. destruct (Rlt_dec (mlen c) s2) as [M|M].
    + rewrite ltb_t by lra. rewrite (Rabs_pos_eq (s2 - mlen c)) by lra. eexists _, _, _. split; [reflexivity|]. replace (mlen c - s2) with (- (s2 - mlen c)) by ring. split; [|split]; apply local_add_u; auto.
    + rewrite ltb_f by lra. eexists _, _, _. split; [reflexivity|]. rewrite !Rplus_0_r. auto.
Qed.
(** The nodes of a K joint in the frame of the chord: the web axes meet at the given eccentricity, so
    the webs end on the face of the chord where their axes cross it. *)
Lemma k_nodes_lemma : forall c h e c0 p1 p2 t1 t2 s0 s1 s2 n1 n2, 0 < mlen c -> 0 < h -> - h / 2 < e ->
  at_local c s0 0 c0 -> at_local c s1 n1 p1 -> at_local c s2 n2 p2 -> 0 < n1 + e -> 0 < n2 + e -> s1 < s0 < s2 -> 
  tan t1 = (n1 + e) / (s0 - s1) -> tan t2 = (n2 + e) / (s2 - s0) ->
  let x1 := (e + h / 2) / tan t1 in let x2 := (e + h / 2) / tan t2 in
  s0 - x1 <= mlen c -> 0 <= s0 + x2 ->
  let d := if Rlt_dec (s0 - x1) 0 then x1 - s0 else if Rlt_dec (mlen c) (s0 + x2) then mlen c - (s0 + x2) else 0 in
  let k := k_nodes c h e c0 p1 p2 t1 t2 in
  at_local c (s0 + d) 0 (n_0 k) /\ at_local c (s0 + d - x1) 0 (n_01 k) /\ at_local c (s0 + d + x2) 0 (n_02 k) /\
  at_local c (s0 + d - x1) (h / 2) (n_1 k) /\ at_local c (s0 + d + x2) (h / 2) (n_2 k) /\
  pdist (n_1 k) (n_2 k) = (e + h / 2) * (1 / tan t1 + 1 / tan t2).
Proof.
  intros c h e c0 p1 p2 t1 t2 s0 s1 s2 n1 n2 H Hh He A0 A1 A2 N1 N2 [S1 S2] T1 T2 x1 x2 B1 B2 d k.
  assert (P1 : 0 < tan t1) by (rewrite T1; apply Rdiv_lt_0_compat; lra). assert (P2 : 0 < tan t2) by (rewrite T2; apply Rdiv_lt_0_compat; lra).
  assert (EC : at_local c s0 (- e) (addv c0 (- e) (perp c))) by (replace (- e) with (0 + - e) at 1 by ring; apply local_add_v; exact A0).
  assert (R1 : at_local c (s0 - e / tan t1) 0 (raw_intersection c p1 (addv c0 (- e) (perp c)))).
  { replace (s0 - e / tan t1) with (s1 + n1 * (s0 - s1) / (n1 - - e)) by (rewrite T1; field; lra). apply local_raw; auto. lra. }
  assert (R2 : at_local c (s0 + e / tan t2) 0 (raw_intersection c p2 (addv c0 (- e) (perp c)))).
  { replace (s0 + e / tan t2) with (s2 + n2 * (s0 - s2) / (n2 - - e)) by (rewrite T2; field; lra). apply local_raw; auto. lra. }
  assert (D1 : Rabs (h / 2 / tan t1) = h / 2 / tan t1) by (apply Rabs_pos_eq; apply Rlt_le, Rdiv_lt_0_compat; lra).
  assert (D2 : Rabs (h / 2 / tan t2) = h / 2 / tan t2) by (apply Rabs_pos_eq; apply Rlt_le, Rdiv_lt_0_compat; lra).
  assert (Q1 : at_local c (s0 - x1) 0 (addv (raw_intersection c p1 (addv c0 (- e) (perp c))) (- Rabs (h / 2 / tan t1)) (unitv c))).
  { rewrite D1. replace (s0 - x1) with (s0 - e / tan t1 + - (h / 2 / tan t1)) by (unfold x1; field; lra). apply local_add_u. exact R1. }
  assert (Q2 : at_local c (s0 + x2) 0 (addv (raw_intersection c p2 (addv c0 (- e) (perp c))) (Rabs (h / 2 / tan t2)) (unitv c))).
  { rewrite D2. replace (s0 + x2) with (s0 + e / tan t2 + h / 2 / tan t2) by (unfold x2; field; lra). apply local_add_u. exact R2. }
  destruct (shift_lemma c s0 (s0 - x1) (s0 + x2) c0 _ _ H A0 Q1 Q2 B1 B2) as (a & b & f & ES & C0 & C1 & C2).
  assert (ED : (if Rlt_dec (s0 - x1) 0 then - (s0 - x1) else if Rlt_dec (mlen c) (s0 + x2) then mlen c - (s0 + x2) else 0) = d).
  { unfold d. destruct (Rlt_dec (s0 - x1) 0); [ring|reflexivity]. }
  rewrite ED in C0, C1, C2. replace (s0 - x1 + d) with (s0 + d - x1) in C1 by ring. replace (s0 + x2 + d) with (s0 + d + x2) in C2 by ring.
  unfold k, k_nodes. rewrite ES. cbn [n_0 n_01 n_02 n_1 n_2].
  assert (F1 : at_local c (s0 + d - x1) (h / 2) (addv b (h / 2) (perp c))) by (replace (h / 2) with (0 + h / 2) at 1 by ring; apply local_add_v; exact C1).
  assert (F2 : at_local c (s0 + d + x2) (h / 2) (addv f (h / 2) (perp c))) by (replace (h / 2) with (0 + h / 2) at 1 by ring; apply local_add_v; exact C2).
  repeat (split; [assumption|]). rewrite (local_dist c _ _ _ _ _ _ H F1 F2).
  replace ((s0 + d + x2 - (s0 + d - x1)) ^ 2 + (h / 2 - h / 2) ^ 2) with ((x1 + x2) * (x1 + x2)) by ring.
  assert (X : 0 < x1 /\ 0 < x2) by (split; apply Rdiv_lt_0_compat; lra). rewrite sqrt_square by lra. unfold x1, x2. field. lra.
Qed.
(** The distance of the web ends is the gap plus the half widths of the webs on the face. *)
Lemma k_gap_lemma : forall q s, good_angles q -> cos (g_t1 q) <> 0 -> cos (g_t2 q) <> 0 ->
  (get_e q s + g_h0 q / 2) * (1 / tan (g_t1 q) + 1 / tan (g_t2 q)) = get_g q s + g_h1 q / (2 * sin (g_t1 q)) + g_h2 q / (2 * sin (g_t2 q)).
Proof.
  intros q s G C1 C2. destruct (good_sines _ G) as (S1 & S2 & S3). pose proof (k_relation_lemma q s G) as E. rewrite sin_plus in E.
  apply (Rmult_eq_reg_r (sin (g_t1 q) * sin (g_t2 q))); [|apply Rmult_integral_contrapositive_currified; lra]. rewrite <- E. unfold tan. field. lra.
Qed.
