(** Self-tapping screws. *)
Require Import Psatz.
From Verif Require Import Tac Bool_tac EC3_proofs Sections_proofs Loads2_proofs Plate_proofs Cold_proofs.
From Verif Require Import Cold_model Cold_spec.
Open Scope R_scope.

Lemma screw_validity_lemma e1 e2 p1 p2 d : screw_validity e1 e2 p1 p2 d = true <-> 3 * d <= e1 /\ 3/2 <= e2 /\ 3 * d <= p1 /\ 3 * d <= p2 /\ 3 <= d <= 8.
Proof.
  unfold screw_validity. rewrite !Bool.andb_true_iff, !Rleb_true. split.
  - intros (((A & B) & (C & D)) & (E & F)). repeat split; lra.
  - intros (A & B & C & D & E & F). repeat split; lra.
Qed.
Lemma screw_edge_lemma d : 3 <= d <= 8 -> exists e1 e2 p1 p2, screw_validity e1 e2 p1 p2 d = true /\ e2 < 3/2 * d /\ e2 < d / 2 + 1/100.
Proof. intros D. exists (3 * d), (3/2), (3 * d), (3 * d). split; [apply screw_validity_lemma; lra|]. lra. Qed.
Lemma alfa_low_eq t d : 0 <= t -> 0 < d -> alfa_low t d = Some (en_alfa_low t d).
Proof.
  intros T D. unfold alfa_low. rewrite pdiv_ok by lra. cbn [bind]. rewrite psqrt_ok; [reflexivity|]. unfold Rdiv. apply Rmult_le_pos; [lra|left; apply Rinv_0_lt_compat; lra].
Qed.
Lemma screw_alfa_lemma d t t1 : 0 < d -> 0 < t <= t1 ->
  exists a, screw_alfa d t t1 = Some a /\ en_alfa_low t d <= a <= 21/10 /\ (t < 1 -> a = en_alfa_low t d) /\ (t1 = t -> a = en_alfa_low t d) /\
    (1 <= t -> 25/10 * t <= t1 -> a = 21/10) /\ (1 <= t -> t1 <= 25/10 * t -> a = en_alfa_low t d + (21/10 - en_alfa_low t d) * (t1 - t) / (15/10 * t)).
Proof.
  intros D T. assert (L : en_alfa_low t d <= 21/10) by apply Rmin_r. unfold screw_alfa. rewrite !alfa_low_eq by lra. set (l := en_alfa_low t d) in *. clearbody l.
  destruct (Req_dec t t1) as [->|NE].
  - rewrite eqb_t by reflexivity. exists l. repeat split; try lra; intros _ _; replace (t1 - t1) with 0 by ring; field; lra.
  - rewrite eqb_f by exact NE. destruct (Rle_lt_dec (25/10 * t) t1) as [H|H].
    + rewrite leb_t by exact H. cbn [andb]. destruct (Rle_lt_dec 1 t) as [H1|H1].
      * rewrite ltb_f by exact H1. exists (21/10). repeat split; try lra. intros _ E. replace t1 with (25/10 * t) by lra. field. lra.
      * rewrite ltb_t by exact H1. exists l. repeat split; lra.
    + rewrite leb_f by exact H. cbn [andb bind]. destruct (Rle_lt_dec 1 t) as [H1|H1].
      * rewrite ltb_f by exact H1. unfold interpolate. cbn [bind]. rewrite pdiv_ok by lra. cbn [bind]. eexists. split; [reflexivity|].
        replace (_ + _) with (l + (21/10 - l) * (t1 - t) / (15/10 * t)) by (field; lra).
        assert (X : 0 <= (t1 - t) / (15/10 * t) <= 1). { assert (E : (t1 - t) / (15/10 * t) * (15/10 * t) = t1 - t) by (field; lra). split; [unfold Rdiv; apply Rmult_le_pos; [lra|left; apply Rinv_0_lt_compat; lra]|]. apply (Rmult_le_reg_r (15/10 * t)); lra. }
        replace ((21/10 - l) * (t1 - t) / (15/10 * t)) with ((21/10 - l) * ((t1 - t) / (15/10 * t))) by (field; lra). repeat split; try lra; nra.
      * rewrite ltb_t by exact H1. unfold interpolate. cbn [bind]. rewrite pdiv_ok by lra. cbn [bind]. eexists. split; [reflexivity|].
        replace (_ + _) with l by (field; lra). repeat split; lra.
Qed.
Lemma screw_alfa_mono_lemma d t t1 t1' a a' : 0 < d -> 0 < t <= t1 -> t1 <= t1' -> screw_alfa d t t1 = Some a -> screw_alfa d t t1' = Some a' -> a <= a'.
Proof.
  intros D T T1 E E'. destruct (screw_alfa_lemma d t t1 D T) as (b & B & R1 & L1 & Q1 & H1 & I1). destruct (screw_alfa_lemma d t t1' D ltac:(lra)) as (b' & B' & R2 & L2 & Q2 & H2 & I2).
  rewrite E in B. rewrite E' in B'. apply some_inj in B. apply some_inj in B'. subst b b'.
  destruct (Rle_lt_dec 1 t) as [K|K]; [|rewrite L1, L2 by exact K; lra].
  destruct (Rle_lt_dec (25/10 * t) t1') as [K2|K2]; [rewrite H2 by lra; lra|]. rewrite I1, I2 by lra.
  assert (X : 0 <= 21/10 - en_alfa_low t d) by (pose proof (Rmin_r (32/10 * sqrt (t / d)) (21/10)) as Y; fold (en_alfa_low t d) in Y; lra).
  apply Rplus_le_compat_l. unfold Rdiv. apply Rmult_le_compat_r; [left; apply Rinv_0_lt_compat; lra|]. apply Rmult_le_compat_l; lra.
Qed.
Lemma screw_bearing_lemma fu d t t1 F a : 0 < fu -> 0 < d -> 0 < t <= t1 -> screw_bearing fu d t t1 = Some (F, a) ->
  screw_alfa d t t1 = Some a /\ 125 * F = 100 * (a * fu * d * t) /\ 0 < F <= 168/100 * fu * d * t.
Proof.
  intros U D T E. unfold screw_bearing in E. apply bind_inv in E. destruct E as (b & B & E). apply some_inj in E. injection E as E1 E2. subst b.
  split; [exact B|]. unfold gammaM2 in E1. assert (Q : 125 * F = 100 * (a * fu * d * t)) by (rewrite <- E1; field). split; [exact Q|].
  destruct (screw_alfa_lemma d t t1 D T) as (b & B' & R1 & _). rewrite B in B'. apply some_inj in B'. subst b.
  assert (L : 0 < en_alfa_low t d). { unfold en_alfa_low. apply Rmin_glb_lt; [|lra]. apply Rmult_lt_0_compat; [lra|]. apply sqrt_lt_R0. apply Rdiv_lt_0_compat; lra. }
  assert (P : 0 < fu * d * t) by (repeat apply Rmult_lt_0_compat; lra). replace (a * fu * d * t) with (a * (fu * d * t)) in Q by ring. replace (168/100 * fu * d * t) with (168/100 * (fu * d * t)) by ring.
  set (x := fu * d * t) in *. clearbody x. split; nra.
Qed.
Lemma screw_fire_lemma fu d t fub e1 e2 T fuT kb : 0 < d -> fyT T fu carbon = Some fuT -> kbT T = Some kb -> 0 < fuT ->
  exists v, screw_bearing_fire fu d t fub e1 e2 T = Some v /\ v * fuT = en_bearing_fire fuT (kb * fub) d t e1 e2 * (kb * fub).
Proof.
  intros D F K F0. unfold screw_bearing_fire. rewrite F, K. cbn [bind]. rewrite pdiv_ok by lra. cbn [bind]. rewrite pdiv_ok by lra. cbn [bind]. rewrite pdiv_ok by lra. cbn [bind].
  eexists. split; [reflexivity|]. unfold en_bearing_fire, gammaMfi. replace (e1 / 3 / d) with (e1 / (3 * d)) by (field; lra). set (x := Rmin _ (25/10)). set (y := Rmin _ 1). field.
Qed.
Lemma screw_fire_high_lemma fu d t fub e1 e2 T fuT kb v : 0 < d -> 0 < t -> 0 < e1 -> d / 2 < e2 -> fyT T fu carbon = Some fuT -> kbT T = Some kb -> 0 < fuT < kb * fub ->
  screw_bearing_fire fu d t fub e1 e2 T = Some v -> 0 < en_bearing_fire fuT (kb * fub) d t e1 e2 < v.
Proof.
  intros D T0 E1 E2 F K F0 E. destruct (screw_fire_lemma fu d t fub e1 e2 T fuT kb D F K ltac:(lra)) as (w & W & Q). rewrite E in W. apply some_inj in W. subst w.
  assert (P : 0 < en_bearing_fire fuT (kb * fub) d t e1 e2).
  { unfold en_bearing_fire. assert (0 < Rmin (2 * e2 / d - 1) (25/10)). { apply Rmin_glb_lt; [|lra]. assert (X : 2 * e2 / d * d = 2 * e2) by (field; lra). assert (1 < 2 * e2 / d); [|lra]. apply (Rmult_lt_reg_r d); lra. }
    assert (0 < Rmin (Rmin (e1 / (3 * d)) (kb * fub / fuT)) 1). { repeat apply Rmin_glb_lt; try lra; apply Rdiv_lt_0_compat; lra. }
    repeat apply Rmult_lt_0_compat; lra. }
  split; [exact P|]. apply (Rmult_lt_reg_r fuT); [lra|]. rewrite Q. apply Rmult_lt_compat_l; lra.
Qed.
Lemma screw_table_lemma d : 
  (forall m v, screw_shear d m = Some v -> d = 48/10 \/ d = 55/10 \/ d = 63/10 \/ d = 8) /\
  (forall h s, screw_shear d hardened = Some h -> screw_shear d stainless_screw = Some s -> 0 < s < h) /\
  (forall m, m <> other_screw -> d = 48/10 \/ d = 55/10 \/ d = 63/10 \/ d = 8 -> screw_shear d m <> None).
Proof.
  unfold screw_shear. repeat split.
  - intros m v. destruct m; cbn [screw_table find fst]; try (cmp; cbn; intros; try discriminate; subst; auto; lra).
  - revert H H0. cbn [screw_table find fst]. cmp; cbn; intros X1 X2; try discriminate; apply some_inj in X1; apply some_inj in X2; lra.
  - revert H H0. cbn [screw_table find fst]. cmp; cbn; intros X1 X2; try discriminate; apply some_inj in X1; apply some_inj in X2; lra.
  - intros m M D. destruct m; [| |congruence]; cbn [screw_table find fst]; cmp; cbn; try discriminate; exfalso; lra.
Qed.
Lemma screw_table_mono_lemma d d' m v v' : d < d' -> screw_shear d m = Some v -> screw_shear d' m = Some v' -> v < v'.
Proof.
  intros L. unfold screw_shear. destruct m; cbn [screw_table find fst]; cmp; cbn; intros X1 X2; try discriminate; apply some_inj in X1; apply some_inj in X2; lra.
Qed.
