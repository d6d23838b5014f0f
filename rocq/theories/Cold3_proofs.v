(** Local transverse forces on a single web. *)
Require Import Psatz.
From Verif Require Import Tac Bool_tac EC3_proofs Sections_proofs Loads2_proofs Plate_proofs Cold_proofs.
From Verif Require Import Cold_model Cold_spec.
Open Scope R_scope.

Lemma RwRd_eq fyb t hw ss c r phi e st : t <> 0 ->
  RwRd fyb t hw ss c r phi e st false = Some (en_coefficient (Rleb (1/1000000) (Rabs e)) (Rltb (15/10 * hw) c) st (fyb / 228) (r / t) (hw / t) (ss / t) 90 * kk3 phi * (t ^ 2 * fyb)).
Proof.
  intros T. unfold RwRd. rewrite eqb_f by exact T. f_equal.
  replace (Rltb (Rabs e) (1/1000000)) with (negb (Rleb (1/1000000) (Rabs e))) by (destruct (Rleb (1/1000000) (Rabs e)) eqn:E; [apply Rleb_true in E | apply Rleb_false in E]; cbn [negb]; symmetry; [apply ltb_f|apply ltb_t]; lra).
  replace (Rleb c (15/10 * hw)) with (negb (Rltb (15/10 * hw) c)) by (destruct (Rltb (15/10 * hw) c) eqn:E; [apply Rltb_true in E | apply Rltb_false in E]; cbn [negb]; symmetry; [apply leb_f|apply leb_t]; lra).
  destruct (Rleb (1/1000000) (Rabs e)), (Rltb (15/10 * hw) c); cbn [negb].
  - unfold en_coefficient, en_interior, en_k3, kk4, kk5, gammaM1. replace ((90 / 90) ^ 2) with 1 by field. set (m := Rmin _ _). field. exact T.
  - unfold en_coefficient, en_end, en_k3, kk1, kk2, gammaM1. replace ((90 / 90) ^ 2) with 1 by field. replace (5/10) with (1/2) by lra. set (m := Rmin _ _). field. exact T.
  - unfold en_coefficient, en_interior, en_k3, kk4, kk5, gammaM1. replace ((90 / 90) ^ 2) with 1 by field. set (m := Rmin _ _). destruct (Rleb (ss / t) 60); field; exact T.
  - unfold en_coefficient, en_end, en_k3, kk1, kk2, gammaM1. replace ((90 / 90) ^ 2) with 1 by field. replace (5/10) with (1/2) by lra. set (m := Rmin _ _). destruct st; [|destruct (Rleb (ss / t) 60)]; field; exact T.
Qed.
Lemma en_split o f st k x h s phi : en_coefficient o f st k x h s phi = en_coefficient o f st k x h s 90 * en_k3 phi.
Proof. unfold en_coefficient, en_end, en_interior. replace (en_k3 90) with 1 by (unfold en_k3; field). destruct o, f, st; ring. Qed.
(** Against the Eurocode. *)
Lemma RwRd_code_lemma fyb t hw ss c r phi e st : 0 < t ->
  exists v, RwRd fyb t hw ss c r phi e st false = Some v /\ v * en_k3 phi = en_resistance fyb t hw ss c r phi e st * (7/10 + 3/10 * (phi / 8100)) /\
    (phi = 90 -> v = (7/10 + 1/300) * en_resistance fyb t hw ss c r phi e st).
Proof.
  intros T. rewrite RwRd_eq by lra. eexists. split; [reflexivity|]. unfold en_resistance. rewrite (en_split _ _ _ _ _ _ _ phi). unfold kk3. split; [ring|].
  intros ->. replace (en_k3 90) with 1 by (unfold en_k3; field). replace (90 / 8100) with (1/90) by field. field.
Qed.
Lemma ratio_range a t m : 0 < t -> 0 <= a <= m * t -> 0 <= a / t <= m.
Proof. intros T H. assert (E : a / t * t = a) by (field; lra). split; [unfold Rdiv; apply Rmult_le_pos; [lra|left; apply Rinv_0_lt_compat; lra]|]. apply (Rmult_le_reg_r t); lra. Qed.
Lemma kf_pos k x : 0 < k < 4 -> 0 <= x <= 6 -> 0 < (133/100 - 33/100 * k) * Rmin (Rmax (115/100 - 15/100 * x) (1/2)) 1 /\ 0 < (122/100 - 22/100 * k) * Rmin (106/100 - 6/100 * x) 1.
Proof.
  intros K X. assert (0 < Rmin (Rmax (115/100 - 15/100 * x) (1/2)) 1) by (rmx; lra). assert (0 < Rmin (106/100 - 6/100 * x) 1) by (rmx; lra).
  split; apply Rmult_lt_0_compat; lra.
Qed.
Lemma en_pos o f st k x h s : 0 < k < 4 -> 0 <= x <= 6 -> 0 <= h <= 200 -> 0 <= s -> 0 < en_coefficient o f st k x h s 90.
Proof.
  intros K X H S0. pose proof (kf_pos k x K X) as (E1 & E2). unfold en_coefficient, en_end, en_interior. replace (en_k3 90) with 1 by (unfold en_k3; field).
  rewrite Rmult_1_r, Rmult_1_l. destruct o, f, st; repeat apply Rmult_lt_0_compat; try destruct (Rleb s 60); try lra; try (apply Rlt_le_trans with (2 := Rle_refl _); nra);
    match goal with |- 0 < Rmin _ _ => rmx; lra | _ => idtac end.
Qed.
Lemma range_ratios fyb t hw ss r phi : web_range fyb t hw ss r phi -> 0 < t /\ 0 < fyb / 228 < 4 /\ 0 <= r / t <= 6 /\ 0 <= hw / t <= 200 /\ 0 <= ss / t <= 210 /\ 0 < kk3 phi /\ 0 < t ^ 2 * fyb.
Proof.
  intros (T & F & H & S0 & R0 & P). split; [exact T|]. split; [lra|]. split; [apply ratio_range; lra|]. split; [apply ratio_range; lra|]. split; [apply ratio_range; lra|].
  split; [unfold kk3; lra|]. apply Rmult_lt_0_compat; [apply pow_lt; lra|lra].
Qed.
Lemma RwRd_range_lemma fyb t hw ss c r phi e st : web_range fyb t hw ss r phi -> 1 <= phi ->
  exists v, RwRd fyb t hw ss c r phi e st false = Some v /\ 0 < v <= en_resistance fyb t hw ss c r phi e st.
Proof.
  intros W P. destruct (range_ratios _ _ _ _ _ _ W) as (T & K & X & H & S0 & K3 & B). rewrite RwRd_eq by lra. eexists. split; [reflexivity|].
  unfold en_resistance. rewrite (en_split _ _ _ _ _ _ _ phi). set (C := en_coefficient _ _ _ _ _ _ _ 90).
  assert (C0 : 0 < C) by (apply en_pos; lra). split; [repeat apply Rmult_lt_0_compat; lra|].
  apply Rmult_le_compat_r; [lra|]. apply Rmult_le_compat_l; [lra|]. unfold kk3, en_k3. replace ((phi / 90) ^ 2) with (phi * phi / 8100) by field. nra.
Qed.
(** The support width. *)
Lemma RwRd_mono_ss_lemma fyb t hw ss ss' c r phi e st v v' : web_range fyb t hw ss r phi -> web_range fyb t hw ss' r phi -> ss <= ss' ->
  (c <= 15/10 * hw \/ 1/1000000 <= Rabs e \/ ss' <= 60 * t \/ 60 * t < ss) ->
  RwRd fyb t hw ss c r phi e st false = Some v -> RwRd fyb t hw ss' c r phi e st false = Some v' -> v <= v'.
Proof.
  intros W W' L H. destruct (range_ratios _ _ _ _ _ _ W) as (T & K & X & Hh & S0 & K3 & B). destruct (range_ratios _ _ _ _ _ _ W') as (_ & _ & _ & _ & S0' & _).
  rewrite !RwRd_eq by lra. intros E E'. apply some_inj in E. apply some_inj in E'. subst v v'.
  apply Rmult_le_compat_r; [lra|]. apply Rmult_le_compat_r; [lra|].
  set (s := ss / t) in *. set (s' := ss' / t) in *. assert (SS : s <= s') by (unfold s, s', Rdiv; apply Rmult_le_compat_r; [left; apply Rinv_0_lt_compat; lra|lra]).
  assert (Es : s * t = ss) by (unfold s; field; lra). assert (Es' : s' * t = ss') by (unfold s'; field; lra).
  pose proof (kf_pos _ _ K X) as (E1 & E2). set (k := fyb / 228) in *. set (x := r / t) in *. set (h := hw / t) in *.
  unfold en_coefficient, en_end, en_interior. replace (en_k3 90) with 1 by (unfold en_k3; field). rewrite Rmult_1_r, Rmult_1_l.
  set (A := (133/100 - 33/100 * k) * _) in *. set (D := (122/100 - 22/100 * k) * _) in *. clearbody A D.
  destruct (Rleb (1/1000000) (Rabs e)) eqn:Ee; [apply Rleb_true in Ee | apply Rleb_false in Ee];
  (destruct (Rltb (15/10 * hw) c) eqn:Ec; [apply Rltb_true in Ec | apply Rltb_false in Ec]);
  try (destruct st); cbn [andb]; (apply Rmult_le_compat_l; [apply Rmult_le_pos; lra|]); cmp; try lra.
  - exfalso. destruct H as [H|[H|[H|H]]]; try lra; nra.
  - exfalso. destruct H as [H|[H|[H|H]]]; try lra; nra.
Qed.
Lemma RwRd_drop_lemma fyb t hw c r phi : 0 < t -> 0 < fyb < 912 -> 0 <= hw <= 200 * t -> 0 <= r <= 6 * t -> 0 <= phi -> 15/10 * hw < c ->
  exists ss ss' v v', 0 <= ss < ss' /\ ss' <= 210 * t /\ RwRd fyb t hw ss c r phi 0 false false = Some v /\ RwRd fyb t hw ss' c r phi 0 false false = Some v' /\ v' < v.
Proof.
  intros T F H R0 P C. exists (60 * t), (605/10 * t).
  assert (W : web_range fyb t hw (60 * t) r phi) by (unfold web_range; repeat split; lra). destruct (range_ratios _ _ _ _ _ _ W) as (_ & K & X & Hh & _ & K3 & B).
  rewrite !RwRd_eq by lra. do 2 eexists. split; [lra|]. split; [lra|]. split; [reflexivity|]. split; [reflexivity|].
  apply Rmult_lt_compat_r; [lra|]. apply Rmult_lt_compat_r; [lra|]. rewrite Rabs_R0. rewrite leb_f by lra. rewrite ltb_t by exact C. unfold en_coefficient, en_interior. replace (en_k3 90) with 1 by (unfold en_k3; field). rewrite Rmult_1_l.
  replace (60 * t / t) with 60 by (field; lra). replace (605/10 * t / t) with (605/10) by (field; lra). rewrite (leb_t 60 60), (leb_f (605/10) 60) by lra.
  pose proof (kf_pos _ _ K X) as (_ & E2). apply Rmult_lt_compat_l; [apply Rmult_lt_0_compat; lra|]. lra.
Qed.
(** Distance from the end, and stiffened flanges. *)
Lemma k25 x : 0 <= x <= 6 -> Rmin (Rmax (115/100 - 15/100 * x) (1/2)) 1 <= Rmin (106/100 - 6/100 * x) 1.
Proof. intros X. rmx; lra. Qed.
Lemma RwRd_interior_lemma fyb t hw ss c c' r phi v v' : web_range fyb t hw ss r phi -> c <= 15/10 * hw -> 15/10 * hw < c' ->
  RwRd fyb t hw ss c r phi 0 false false = Some v -> RwRd fyb t hw ss c' r phi 0 false false = Some v' -> v < v'.
Proof.
  intros W C C'. destruct (range_ratios _ _ _ _ _ _ W) as (T & K & X & Hh & S0 & K3 & B). rewrite !RwRd_eq by lra. intros E E'. apply some_inj in E. apply some_inj in E'. subst v v'.
  apply Rmult_lt_compat_r; [lra|]. apply Rmult_lt_compat_r; [lra|]. rewrite Rabs_R0, leb_f, (ltb_f _ c), (ltb_t _ c') by lra.
  unfold en_coefficient, en_end, en_interior. replace (en_k3 90) with 1 by (unfold en_k3; field). rewrite Rmult_1_r, Rmult_1_l.
  set (k := fyb / 228) in *. set (x := r / t) in *. set (h := hw / t) in *. set (s := ss / t) in *. pose proof (k25 x X) as K25.
  assert (P2 : 0 < Rmin (Rmax (115/100 - 15/100 * x) (1/2)) 1) by (rmx; lra). set (p := Rmin (Rmax _ _) 1) in *. set (q := Rmin (106/100 - 6/100 * x) 1) in *. clearbody p q.
  assert (A : (133/100 - 33/100 * k) * p <= 12/11 * ((122/100 - 22/100 * k) * q)).
  { assert (133/100 - 33/100 * k <= 12/11 * (122/100 - 22/100 * k)) by lra. assert ((133/100 - 33/100 * k) * p <= 12/11 * (122/100 - 22/100 * k) * p) by (apply Rmult_le_compat_r; lra). assert ((122/100 - 22/100 * k) * p <= (122/100 - 22/100 * k) * q) by (apply Rmult_le_compat_l; lra). lra. }
  assert (A0 : 0 < (133/100 - 33/100 * k) * p) by (apply Rmult_lt_0_compat; lra).
  set (a := (133/100 - 33/100 * k) * p) in *. set (d := (122/100 - 22/100 * k) * q) in *. clearbody a d.
  assert (D0 : 0 < d) by lra.
  assert (Hx : 592/100 - h / 132 <= 57/100 * (147/10 - 2 * h / 99)) by lra.
  set (f := 592/100 - h / 132) in *. set (g := 147/10 - 2 * h / 99) in *. assert (F0 : 0 < f) by (unfold f; lra). clearbody f g.
  assert (AF : a * f <= 7/11 * (d * g)).
  { assert (a * f <= 12/11 * d * f) by (apply Rmult_le_compat_r; lra). assert (d * f <= d * (57/100 * g)) by (apply Rmult_le_compat_l; lra).
    assert (0 < d * g) by (apply Rmult_lt_0_compat; lra). lra. }
  assert (Y : 0 < a * f) by (apply Rmult_lt_0_compat; lra).
  set (m := a * f) in *. set (n := d * g) in *. clearbody m n. cmp.
  - assert (0 < 1 + 7 * s / 1000) by lra. assert (7/11 * (1 + s / 100) < 1 + 7 * s / 1000) by lra. nra.
  - assert (7/11 * (71/100 + 15 * s / 1000) < 75/100 + 11 * s / 1000) by lra. nra.
Qed.
Lemma RwRd_flange_lemma fyb t hw ss c r phi v v' : web_range fyb t hw ss r phi -> c <= 15/10 * hw ->
  RwRd fyb t hw ss c r phi 0 false false = Some v -> RwRd fyb t hw ss c r phi 0 true false = Some v' -> v < v'.
Proof.
  intros W C. destruct (range_ratios _ _ _ _ _ _ W) as (T & K & X & Hh & S0 & K3 & B). rewrite !RwRd_eq by lra. intros E E'. apply some_inj in E. apply some_inj in E'. subst v v'.
  apply Rmult_lt_compat_r; [lra|]. apply Rmult_lt_compat_r; [lra|]. rewrite Rabs_R0, leb_f, (ltb_f _ c) by lra.
  unfold en_coefficient, en_end. replace (en_k3 90) with 1 by (unfold en_k3; field). rewrite Rmult_1_r. pose proof (kf_pos _ _ K X) as (E1 & _).
  set (a := (133/100 - 33/100 * (fyb/228)) * _) in *. set (h := hw / t) in *. set (s := ss / t) in *. clearbody a. rewrite !Rmult_assoc. apply Rmult_lt_compat_l; [exact E1|].
  assert (Hx : 129/100 * (592/100 - h / 132) <= 904/100 - h / 60) by lra. assert (F0 : 0 < 592/100 - h / 132) by lra. set (f := 592/100 - h / 132) in *. set (g := 904/100 - h / 60) in *. clearbody f g.
  cmp.
  - assert (0 < 1 + s / 100) by lra. nra.
  - assert (71/100 + 15 * s / 1000 < 129/100 * (1 + s / 100)) by lra. nra.
Qed.
