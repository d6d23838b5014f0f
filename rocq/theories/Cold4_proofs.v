(** Local transverse forces on sheeting with two or more webs. *)
Require Import Psatz.
From Verif Require Import Tac Bool_tac EC3_proofs Sections_proofs Loads2_proofs Plate_proofs Cold_proofs.
From Verif Require Import Cold_model Cold_spec.
Open Scope R_scope.

Lemma tail_eq a la fyb r t phi : 0 < t -> 0 <= fyb -> 0 <= r -> 0 <= la ->
  bind (psqrt (fyb * 210000)) (fun s1 => bind (pdiv r t) (fun rt => bind (psqrt rt) (fun s2 =>
  bind (pdiv (2/100 * la) t) (fun lt => bind (psqrt lt) (fun s3 =>
  Some (a * t ^ 2 * s1 * (1 - 1/10 * s2) * (5/10 + s3) * (24/10 + (phi / 90) ^ 2) / gammaM1)))))) = Some (en_sheet a la fyb r t phi).
Proof.
  intros T F R0 L. assert (I0 : 0 < / t) by (apply Rinv_0_lt_compat; exact T).
  rewrite psqrt_ok by lra. cbn [bind]. rewrite pdiv_ok by lra. cbn [bind]. rewrite psqrt_ok by (unfold Rdiv; apply Rmult_le_pos; lra). cbn [bind]. rewrite pdiv_ok by lra. cbn [bind].
  rewrite psqrt_ok by (unfold Rdiv; apply Rmult_le_pos; lra). cbn [bind]. unfold en_sheet, gammaM1. replace (2/100 * la / t) with (la / (50 * t)) by (field; lra). f_equal. field.
Qed.
Lemma sheet_mono a a' la la' fyb r t phi : 0 < t -> 0 <= fyb -> 0 <= r <= 100 * t -> 0 <= a <= a' -> 0 <= la <= la' -> en_sheet a la fyb r t phi <= en_sheet a' la' fyb r t phi.
Proof.
  intros T F R0 A L. unfold en_sheet. 
  assert (P : 0 <= 24/10 + (phi / 90) ^ 2) by (pose proof (pow2_ge_0 (phi / 90)); lra). apply Rmult_le_compat_r; [exact P|].
  assert (Q : sqrt (la / (50 * t)) <= sqrt (la' / (50 * t))) by (apply sqrt_le_1_alt; unfold Rdiv; apply Rmult_le_compat_r; [left; apply Rinv_0_lt_compat; lra|lra]).
  pose proof (sqrt_pos (la / (50 * t))) as Q0.
  assert (S0 : sqrt (r / t) <= 10). { rewrite <- (sqrt_square 10) by lra. apply sqrt_le_1_alt. apply (Rmult_le_reg_r t); [exact T|]. replace (r / t * t) with r by (field; lra). lra. }
  pose proof (sqrt_pos (fyb * 210000)) as F0. pose proof (pow2_ge_0 t) as T2.
  assert (B0 : 0 <= a * t ^ 2 * sqrt (fyb * 210000)) by (repeat apply Rmult_le_pos; lra).
  assert (B1 : a * t ^ 2 * sqrt (fyb * 210000) <= a' * t ^ 2 * sqrt (fyb * 210000)) by (repeat apply Rmult_le_compat_r; lra).
  apply Rmult_le_compat; [apply Rmult_le_pos; lra | lra | apply Rmult_le_compat_r; lra | lra].
Qed.
Lemma sheet_pos a la fyb r t phi : 0 < t -> 0 < fyb -> 0 <= r < 100 * t -> 0 < a -> 0 <= la -> 0 < en_sheet a la fyb r t phi.
Proof.
  intros T F R0 A L. unfold en_sheet. pose proof (pow2_ge_0 (phi / 90)). pose proof (sqrt_pos (la / (50 * t))).
  assert (S0 : sqrt (r / t) < 10). { rewrite <- (sqrt_square 10) by lra. apply sqrt_lt_1_alt. split; [unfold Rdiv; apply Rmult_le_pos; [lra|left; apply Rinv_0_lt_compat; lra]|]. apply (Rmult_lt_reg_r t); [exact T|]. replace (r / t * t) with r by (field; lra). lra. }
  pose proof (sqrt_lt_R0 (fyb * 210000) ltac:(lra)). pose proof (pow_lt t 2 T). repeat apply Rmult_lt_0_compat; lra.
Qed.
(** The bearing length at an internal support. *)
Lemma web_bearing_lemma ss a b : 10 <= ss -> 0 < Rabs a + Rabs b ->
  exists la, bearing_length true ss (Some (a, b)) = Some la /\ 10 <= la <= ss /\
    (Rabs a - Rabs b <= 2/10 * (Rabs a + Rabs b) -> la = ss) /\ (3/10 * (Rabs a + Rabs b) <= Rabs a - Rabs b -> la = 10) /\
    (2/10 * (Rabs a + Rabs b) <= Rabs a - Rabs b <= 3/10 * (Rabs a + Rabs b) -> la = ss - ((Rabs a - Rabs b) / (Rabs a + Rabs b) - 2/10) * 10 * (ss - 10)).
Proof.
  intros S0 P. unfold bearing_length. cbn [bind fst snd]. rewrite pdiv_ok by lra. cbn [bind]. set (x := Rabs a) in *. set (y := Rabs b) in *.
  assert (E : (x - y) / (x + y) * (x + y) = x - y) by (field; lra). set (be := (x - y) / (x + y)) in *. clearbody be x y. cmp.
  - assert (Q1 : be * (x + y) <= 2/10 * (x + y)) by (apply Rmult_le_compat_r; lra). exists ss. split; [reflexivity|]. split; [lra|]. split; [reflexivity|]. split; intros H; [lra|].
    assert (Q2 : be = 2/10) by (apply (Rmult_eq_reg_r (x + y)); lra). rewrite Q2. ring.
  - assert (Q1 : 3/10 * (x + y) <= be * (x + y)) by (apply Rmult_le_compat_r; lra). exists 10. split; [reflexivity|]. split; [lra|]. split; [intros H; lra|]. split; [reflexivity|]. intros H.
    assert (Q2 : be = 3/10) by (apply (Rmult_eq_reg_r (x + y)); lra). rewrite Q2. field.
  - assert (Q1 : 2/10 * (x + y) < be * (x + y)) by (apply Rmult_lt_compat_r; lra). assert (Q2 : be * (x + y) < 3/10 * (x + y)) by (apply Rmult_lt_compat_r; lra).
    exists (ss - (be - 2/10) / (1/10) * (ss - 10)). split; [reflexivity|]. assert (X : 0 <= (be - 2/10) / (1/10) <= 1) by lra. split; [nra|]. split; [intros H; lra|]. split; [intros H; lra|]. intros H. field.
Qed.
Lemma bearing_anti_lemma ss a b a' b' la la' : 10 <= ss -> 0 < Rabs a + Rabs b -> 0 < Rabs a' + Rabs b' ->
  (Rabs a - Rabs b) / (Rabs a + Rabs b) <= (Rabs a' - Rabs b') / (Rabs a' + Rabs b') ->
  bearing_length true ss (Some (a, b)) = Some la -> bearing_length true ss (Some (a', b')) = Some la' -> la' <= la.
Proof.
  intros S0 P P' L. unfold bearing_length. cbn [bind fst snd]. rewrite !pdiv_ok by lra. cbn [bind]. set (be := _ / _) in *. set (be' := (Rabs a' - _) / _) in *. clearbody be be'.
  cmp; intros X1 X2; apply some_inj in X1; apply some_inj in X2; subst; try lra; nra.
Qed.
(** Reading the keywords: the last e and c count. *)
Lemma cat_internal hw : 0 <= hw -> category2 (-1) (-1) hw = true.
Proof. intros H. unfold category2. rewrite (ltb_t (-1) 0) by lra. rewrite Bool.orb_true_r. reflexivity. Qed.
Lemma internal_lemma fyb r t phi hw ss V la : 0 < t -> 0 <= fyb -> 0 <= r -> 0 <= hw -> bearing_length true ss (Some V) = Some la -> 0 <= la ->
  RwRd_two_webs fyb r t phi hw ss true [WV V] = Some (en_sheet (15/100) (Rmin la 200) fyb r t phi).
Proof.
  intros T F R0 H B L. unfold RwRd_two_webs. cbn [read_kw bind]. rewrite cat_internal by exact H. rewrite B. cbn [bind]. apply tail_eq; auto. rmx; lra.
Qed.
Lemma near_end_lemma fyb r t phi hw ss c kw : 0 < t -> 0 <= fyb -> 0 <= r -> 0 <= c <= 15/10 * hw -> kw = [Wc c] \/ (exists V, kw = [Wc c; WV V]) ->
  RwRd_two_webs fyb r t phi hw ss true kw = Some (en_sheet (75/1000) 10 fyb r t phi).
Proof.
  intros T F R0 C K. assert (Q : category2 (-1) c hw = false) by (unfold category2; rewrite (ltb_f _ (-1)), (ltb_f _ c), (ltb_f c 0) by lra; rewrite Bool.andb_false_r; reflexivity).
  destruct K as [->|[V ->]]; unfold RwRd_two_webs; cbn [read_kw bind]; rewrite Q; cbn [bind]; apply tail_eq; lra.
Qed.
Lemma opposite_lemma fyb r t phi hw ss e old : 0 < t -> 0 <= fyb -> 0 <= r -> 0 < e <= 15/10 * hw ->
  RwRd_two_webs fyb r t phi hw ss old [We e] = Some (en_sheet (75/1000) 10 fyb r t phi).
Proof.
  intros T F R0 E. assert (Q : category2 e (-1) hw = false) by (unfold category2; rewrite (ltb_f _ e), (ltb_f _ (-1)), (ltb_f e 0) by lra; reflexivity).
  unfold RwRd_two_webs. cbn [read_kw bind]. rewrite Q. rewrite (ltb_t 0 e) by lra. destruct old; cbn [bind]; apply tail_eq; lra.
Qed.
Lemma far_lemma fyb r t phi hw ss c V : 0 <= hw -> 15/10 * hw < c -> RwRd_two_webs fyb r t phi hw ss true [Wc c; WV V] = RwRd_two_webs fyb r t phi hw ss true [WV V].
Proof.
  intros H C. unfold RwRd_two_webs. cbn [read_kw bind]. rewrite cat_internal by exact H. unfold category2. rewrite (ltb_t _ c) by exact C. rewrite Bool.orb_true_r. reflexivity.
Qed.
Lemma internal_vs_end_lemma fyb r t phi hw ss c V v v' : 0 < t -> 0 < fyb -> 0 <= r < 100 * t -> 10 <= ss -> 0 <= c <= 15/10 * hw -> 0 < Rabs (fst V) + Rabs (snd V) ->
  RwRd_two_webs fyb r t phi hw ss true [Wc c] = Some v -> RwRd_two_webs fyb r t phi hw ss true [WV V] = Some v' -> 0 < v /\ 2 * v <= v'.
Proof.
  intros T F R0 S0 C P E E'. destruct V as [a b]. cbn [fst snd] in P. destruct (web_bearing_lemma ss a b S0 P) as (la & B & L & _).
  rewrite (internal_lemma _ _ _ _ _ _ _ la) in E' by (auto; lra). rewrite (near_end_lemma _ _ _ _ _ _ c) in E by (auto; lra). apply some_inj in E. apply some_inj in E'. subst v v'.
  split; [apply sheet_pos; lra|]. replace (2 * en_sheet (75/1000) 10 fyb r t phi) with (en_sheet (15/100) 10 fyb r t phi) by (unfold en_sheet; field; lra).
  apply sheet_mono; try lra. split; [lra|]. apply Rmin_glb; lra.
Qed.
Lemma internal_mono_lemma fyb r t phi hw ss ss' V v v' : 0 < t -> 0 < fyb -> 0 <= r < 100 * t -> 10 <= ss <= ss' -> 0 <= hw -> 0 < Rabs (fst V) + Rabs (snd V) ->
  RwRd_two_webs fyb r t phi hw ss true [WV V] = Some v -> RwRd_two_webs fyb r t phi hw ss' true [WV V] = Some v' -> v <= v' /\ (200 <= ss -> Rabs (fst V) <= Rabs (snd V) -> v = v').
Proof.
  intros T F R0 S0 H P E E'. destruct V as [a b]. cbn [fst snd] in P. destruct (web_bearing_lemma ss a b ltac:(lra) P) as (la & B & L & L1 & L2 & L3). destruct (web_bearing_lemma ss' a b ltac:(lra) P) as (la' & B' & L' & L1' & L2' & L3').
  rewrite (internal_lemma _ _ _ _ _ _ _ la) in E by (auto; lra). rewrite (internal_lemma _ _ _ _ _ _ _ la') in E' by (auto; lra). apply some_inj in E. apply some_inj in E'. subst v v'. cbn [fst snd].
  assert (Q : la <= la').
  { set (x := Rabs a) in *. set (y := Rabs b) in *. destruct (Rle_lt_dec (x - y) (2/10 * (x + y))) as [D|D]; [rewrite L1, L1' by lra; lra|].
    destruct (Rle_lt_dec (3/10 * (x + y)) (x - y)) as [D2|D2]; [rewrite L2, L2' by lra; lra|]. rewrite L3, L3' by lra.
    assert (X : (x - y) / (x + y) * (x + y) = x - y) by (field; lra). set (be := (x - y) / (x + y)) in *. clearbody be. assert (2/10 <= be <= 3/10) by (split; nra). nra. }
  split; [apply sheet_mono; try lra; split; [apply Rmin_glb; lra | rmx; lra]|].
  intros S1 A. pose proof (Rabs_pos b). rewrite L1, L1' by nra. rewrite !Rmin_right by lra. reflexivity.
Qed.
(** Findings. *)
Lemma swapped_lemma ss a b : 10 < ss -> 0 < Rabs b -> 2 * Rabs b <= Rabs a -> bearing_length true ss (Some (a, b)) = Some 10 /\ bearing_length true ss (Some (b, a)) = Some ss.
Proof.
  intros S0 B A. destruct (web_bearing_lemma ss a b ltac:(lra) ltac:(lra)) as (la & E & _ & _ & L2 & _). destruct (web_bearing_lemma ss b a ltac:(lra) ltac:(lra)) as (la' & E' & _ & L1 & _).
  rewrite E, E', L2, L1 by lra. auto.
Qed.
Lemma forces_needed_lemma fyb r t phi hw ss : 0 <= hw ->
  RwRd_two_webs fyb r t phi hw ss true [] = None /\ RwRd_two_webs fyb r t phi hw ss true [WV (0, 0)] = None /\ (forall c, 15/10 * hw < c -> RwRd_two_webs fyb r t phi hw ss true [Wc c] = None).
Proof.
  intros H. unfold RwRd_two_webs. cbn [read_kw bind]. rewrite cat_internal by exact H. cbn [bearing_length bind fst snd]. repeat split.
  - rewrite Rabs_R0. unfold pdiv. rewrite eqb_t by lra. reflexivity.
  - intros c C. cbn [read_kw bind]. unfold category2. rewrite (ltb_t _ c) by exact C. rewrite Bool.orb_true_r. reflexivity.
Qed.
Lemma negative_c_lemma fyb r t phi hw ss V c : 0 <= hw -> c < 0 -> RwRd_two_webs fyb r t phi hw ss true [Wc c; WV V] = RwRd_two_webs fyb r t phi hw ss true [WV V].
Proof.
  intros H C. unfold RwRd_two_webs. cbn [read_kw bind]. rewrite cat_internal by exact H. unfold category2. rewrite (ltb_t c 0), (ltb_t (-1) 0) by lra. rewrite Bool.orb_true_r. reflexivity.
Qed.
(** The newer rules near a free end. *)
Lemma new_end_lemma fyb r t phi hw ss c : 0 < t -> 0 <= fyb -> 0 <= r -> 0 < hw -> 0 <= c <= 15/10 * hw -> 0 <= ss ->
  RwRd_two_webs fyb r t phi hw ss false [Wc c] = Some (en_sheet (Rmin (18/100 * sqrt ((c + ss) / (15/10 * hw))) (15/100)) 10 fyb r t phi).
Proof.
  intros T F R0 H C S0. assert (Q : category2 (-1) c hw = false) by (unfold category2; rewrite (ltb_f _ (-1)), (ltb_f _ c), (ltb_f c 0) by lra; rewrite Bool.andb_false_r; reflexivity).
  unfold RwRd_two_webs; cbn [read_kw bind]; rewrite Q. rewrite (ltb_f 0 (-1)) by lra. rewrite pdiv_ok by lra. cbn [bind]. replace ((c + ss) / (15/10) / hw) with ((c + ss) / (15/10 * hw)) by (field; lra).
  rewrite psqrt_ok by (unfold Rdiv; apply Rmult_le_pos; [lra|left; apply Rinv_0_lt_compat; lra]). cbn [bind]. apply tail_eq; lra.
Qed.
