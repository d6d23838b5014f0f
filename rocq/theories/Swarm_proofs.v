Require Import Reals List Bool Lra Lia Psatz PeanoNat.
Import ListNotations.
From Verif Require Import Base EC3_model Bool_tac EC3_proofs Plate_proofs.
From Verif Require Import Swarm_model Swarm_spec.
Local Open Scope R_scope.

Definition even (s : sched) (c : nat) : Prop := s_cnt s = c /\ s_icnt s = c.
Lemma even_count imp s c : even s c -> even (count imp s) (if imp then 0 else S c)%nat.
Proof. intros (A&B). unfold count, even. destruct imp; simpl; auto. Qed.
Lemma even_reduce s c : even s c -> even (reduce s) c.
Proof. intros (A&B). unfold reduce, even. destruct (Nat.ltb 5 (s_icnt s)); simpl; auto. Qed.

Lemma gen_le : forall m imp s, (fst (generations imp m s) <= m)%nat.
Proof.
  induction m as [|m IH]; intros imp s; cbn [generations]; auto. destruct (Nat.ltb 10 (s_cnt (count (imp O) s))); simpl. lia.
  specialize (IH (fun k => imp (S k)) (reduce (count (imp O) s))). destruct (generations _ m _); simpl in *. lia.
Qed.
Lemma gen_stop : forall m imp s c, even s c -> (c <= 10)%nat -> let n := fst (generations imp m s) in (n < m)%nat ->
  s_cnt (snd (generations imp m s)) = 11%nat /\ forall d, (d < 11)%nat -> ((d < n)%nat -> imp (n - 1 - d)%nat = false) /\ ((n <= d)%nat -> (d - n < c)%nat).
Proof.
  induction m as [|m IH]; intros imp s c E C; cbn [generations]. simpl; lia.
  pose proof (even_count (imp O) s c E) as E1. destruct E1 as (E1&E1'). rewrite E1.
  destruct (imp O) eqn:I.
  - change (Nat.ltb 10 0) with false. cbv beta iota.
    specialize (IH (fun k => imp (S k)) (reduce (count true s)) 0%nat ltac:(apply even_reduce; split; auto) ltac:(lia)).
    destruct (generations (fun k => imp (S k)) m (reduce (count true s))) as (n, t). cbn [fst snd] in *. cbv zeta in *. intros L. destruct (IH ltac:(lia)) as (T&F). split; auto.
    intros d D. destruct (F d D) as (F1&F2). split; intros Q.
    + destruct (Nat.lt_ge_cases d n). replace (S n - 1 - d)%nat with (S (n - 1 - d)) by lia. apply F1; lia. specialize (F2 H). lia.
    + specialize (F2 ltac:(lia)). lia.
  - destruct (Nat.ltb 10 (S c)) eqn:J.
    + apply Nat.ltb_lt in J. cbn [fst snd]. cbv zeta; intros L. split. rewrite E1. lia. intros d D. split; intros Q. replace (1 - 1 - d)%nat with 0%nat by lia. auto. lia.
    + apply Nat.ltb_ge in J.
      specialize (IH (fun k => imp (S k)) (reduce (count false s)) (S c) ltac:(apply even_reduce; split; auto) ltac:(lia)).
      destruct (generations (fun k => imp (S k)) m (reduce (count false s))) as (n, t). cbn [fst snd] in *. cbv zeta in *. intros L. destruct (IH ltac:(lia)) as (T&F). split; auto.
      intros d D. destruct (F d D) as (F1&F2). split; intros Q.
      * destruct (Nat.lt_ge_cases d n). replace (S n - 1 - d)%nat with (S (n - 1 - d)) by lia. apply F1; lia. replace (S n - 1 - d)%nat with 0%nat by lia. auto.
      * specialize (F2 ltac:(lia)). lia.
Qed.
Lemma gen_must : forall m imp s c j, even s c -> (c <= 10)%nat -> (1 <= j <= m)%nat ->
  (forall d, (d < 11)%nat -> ((d < j)%nat -> imp (j - 1 - d)%nat = false) /\ ((j <= d)%nat -> (d - j < c)%nat)) -> (fst (generations imp m s) <= j)%nat.
Proof.
  induction m as [|m IH]; intros imp s c j E C J F; cbn [generations]. simpl; lia.
  pose proof (even_count (imp O) s c E) as (E1&E1'). rewrite E1.
  destruct (Nat.ltb 10 (if imp O then 0 else S c)) eqn:K; [simpl; lia|]. apply Nat.ltb_ge in K.
  destruct (Nat.eq_dec j 1) as [->|N].
  - exfalso. destruct (F 0%nat ltac:(lia)) as (F0&_). specialize (F0 ltac:(lia)). simpl in F0. rewrite F0 in K. destruct (F 10%nat ltac:(lia)) as (_&F1). specialize (F1 ltac:(lia)). lia.
  - assert (Q : (fst (generations (fun k => imp (S k)) m (reduce (count (imp O) s))) <= j - 1)%nat).
    { apply (IH _ _ (if imp O then 0 else S c)%nat); auto. apply even_reduce. split; auto. lia.
      intros d D. destruct (F d D) as (F1&F2). split; intros Q.
      - replace (S (j - 1 - 1 - d)) with (j - 1 - d)%nat by lia. apply F1; lia.
      - destruct (Nat.eq_dec d (j - 1)). { assert (Z : imp O = false) by (replace 0%nat with (j - 1 - d)%nat by lia; apply F1; lia). rewrite Z. lia. }
        specialize (F2 ltac:(lia)). destruct (imp O) eqn:I0; [|lia]. exfalso.
        assert (imp O = false). { destruct (F (j - 1)%nat ltac:(lia)) as (F3&_). specialize (F3 ltac:(lia)). now replace (j - 1 - (j - 1))%nat with 0%nat in F3 by lia. } congruence. }
    destruct (generations _ m _); simpl in *. lia.
Qed.
Lemma fresh_even imp w : even (begin imp (fresh w)) (if imp then 0 else 1)%nat.
Proof. destruct imp; split; reflexivity. Qed.

Lemma run_le_lemma : forall imp m s, (fst (run imp m s) <= m)%nat.
Proof. intros. apply gen_le. Qed.
Lemma run_stop_lemma : forall imp m w, let n := fst (run imp m (fresh w)) in (n < m)%nat -> (10 <= n)%nat /\ idle imp (n - 10) 11.
Proof.
  intros imp m w n L. unfold run in n. destruct (gen_stop m (fun k => imp (S k)) _ _ (fresh_even (imp O) w) ltac:(destruct (imp O); lia) L) as (_&F). fold n in F.
  assert (N : (10 <= n)%nat). { destruct (F 10%nat ltac:(lia)) as (_&F2). destruct (Nat.lt_ge_cases n 11); [|lia]. destruct (Nat.le_gt_cases n 10) as [Q|]; [|lia]. specialize (F2 Q). destruct (imp O); lia. }
  split; auto. intros k K. destruct (F (n - k)%nat ltac:(lia)) as (F1&F2). destruct (Nat.eq_dec k 0) as [->|Z].
  - specialize (F2 ltac:(lia)). destruct (imp O); auto; lia.
  - specialize (F1 ltac:(lia)). now replace (S (n - 1 - (n - k))) with k in F1 by lia.
Qed.
Lemma run_must_lemma : forall imp m w j, (j + 10 <= m)%nat -> idle imp j 11 -> (fst (run imp m (fresh w)) <= j + 10)%nat.
Proof.
  intros imp m w j J I. unfold run. apply (gen_must m _ _ _ (j + 10)%nat (fresh_even (imp O) w)); [destruct (imp O); lia|lia|].
  intros d D. split; intros Q. apply I; lia. assert (j = 0%nat) by lia. subst j. rewrite (I 0%nat) by lia. lia.
Qed.
Lemma run_idle_lemma : forall imp m w, (10 <= m)%nat -> (forall k, imp k = false) -> fst (run imp m (fresh w)) = 10%nat.
Proof.
  intros imp m w M I. pose proof (run_must_lemma imp m w 0 ltac:(lia) ltac:(intros k _; auto)).
  destruct (Nat.eq_dec m 10) as [->|N].
  - pose proof (run_stop_lemma imp 10 w) as S. pose proof (run_le_lemma imp 10 (fresh w)). simpl in *. destruct (Nat.lt_ge_cases (fst (run imp 10 (fresh w))) 10) as [L|]; [|lia]. destruct (S L). lia.
  - pose proof (run_stop_lemma imp m w) as S. simpl in S. assert (fst (run imp m (fresh w)) < m)%nat by lia. destruct (S H0). lia.
Qed.
Lemma improvements_head : forall n imp, improvements imp (S n) = ((if imp 1%nat then 1 else 0) + improvements (fun k => imp (S k)) n)%nat.
Proof. induction n as [|n IH]; intros imp. reflexivity. cbn [improvements] in *. rewrite IH. lia. Qed.
Lemma gen_reduce : forall m imp s c, even s c -> (c <= 10)%nat -> let r := generations (fun k => imp (S k)) m s in
  exists k, s_w (snd r) = s_w s * (9 / 10) ^ k /\ s_red (snd r) = s_red s * (95 / 100) ^ k /\ (k + (c - 5) <= 5 * improvements imp (fst r) + 5)%nat.
Proof.
  induction m as [|m IH]; intros imp s c E C; cbn [generations]; cbv zeta.
  - exists 0%nat. simpl. split; [ring|]. split; [ring|]. lia.
  - pose proof (even_count (imp 1%nat) s c E) as (E1&E1'). rewrite E1.
    assert (W : s_w (count (imp 1%nat) s) = s_w s /\ s_red (count (imp 1%nat) s) = s_red s) by (unfold count; destruct (imp 1%nat); auto).
    destruct (Nat.ltb 10 (if imp 1%nat then 0 else S c)) eqn:K.
    + exists 0%nat. cbn [fst snd pow]. destruct W as (->&->). split; [ring|]. split; [ring|]. destruct (imp 1%nat); simpl; lia.
    + apply Nat.ltb_ge in K. assert (ER : even (reduce (count (imp 1%nat) s)) (if imp 1%nat then 0 else S c)%nat) by (apply even_reduce; split; auto).
      destruct (IH (fun k => imp (S k)) _ _ ER K) as (k&A&B&D).
      destruct (generations (fun k => imp (S (S k))) m (reduce (count (imp 1%nat) s))) as (n, t). cbn [fst snd] in *. rewrite improvements_head.
      unfold reduce in A, B. rewrite E1' in A, B. destruct W as (W1&W2).
      destruct (imp 1%nat) eqn:I1.
      * change (Nat.ltb 5 0) with false in *. cbn [s_w s_red] in *. exists k. rewrite A, B, W1, W2. repeat split; auto. lia.
      * destruct (Nat.ltb 5 (S c)) eqn:J.
        -- apply Nat.ltb_lt in J. cbn [s_w s_red] in *. exists (S k). rewrite A, B, W1, W2. simpl. split; [ring|]. split; [ring|]. lia.
        -- apply Nat.ltb_ge in J. exists k. rewrite A, B, W1, W2. repeat split; auto. lia.
Qed.
Lemma run_reduce_lemma : forall imp m w, let r := run imp m (fresh w) in
  exists k, s_w (snd r) = w * (9 / 10) ^ k /\ s_red (snd r) = (95 / 100) ^ k /\ (k <= 5 * improvements imp (fst r) + 5)%nat.
Proof.
  intros imp m w. cbv zeta. unfold run. destruct (gen_reduce m imp _ _ (fresh_even (imp O) w) ltac:(destruct (imp O); lia)) as (k&A&B&C). exists k. rewrite A, B.
  split; [|split]. unfold begin, count, fresh. destruct (imp O); reflexivity. unfold begin, count, fresh. destruct (imp O); simpl; ring. lia.
Qed.
Lemma run_again_lemma : forall imp m imp' m' w, (fst (run imp m (fresh w)) < m)%nat -> (1 <= m')%nat -> imp' 0%nat = false -> imp' 1%nat = false ->
  let s := snd (run imp m (fresh w)) in fst (run imp' m' s) = 1%nat /\ s_w (snd (run imp' m' s)) = s_w s.
Proof.
  intros imp m imp' m' w L M I0 I1 s. destruct (gen_stop m (fun k => imp (S k)) _ _ (fresh_even (imp O) w) ltac:(destruct (imp O); lia) L) as (T&_).
  assert (TS : s_cnt s = 11%nat) by exact T. clearbody s. clear T L. destruct m' as [|m']; [lia|]. unfold run. cbn [generations]. rewrite I0, I1. unfold begin, count. cbn [s_cnt s_icnt s_w s_red].
  rewrite TS. split; reflexivity.
Qed.

Lemma advance_lemma : forall w r i c, 0 <= r -> 0 <= i_u i < 1 -> c_lb c <= c_ub c -> let c' := advance w r i c in
  c_lb c' = c_lb c /\ c_ub c' = c_ub c /\ c_lb c <= c_x c' <= c_ub c /\ Rabs (c_v c') <= r * ((c_ub c - c_lb c) / 5).
Proof.
  intros w r i c Hr U B. cbv zeta. unfold advance. cbn [c_lb c_ub c_x c_v]. set (v2 := if i_crazy i then _ else _).
  assert (M : 0 <= vlim r c) by (unfold vlim; apply Rmult_le_pos; auto; lra).
  assert (V : - vlim r c <= v2 <= vlim r c).
  { unfold v2. destruct (i_crazy i). nra. split. apply Rmin_glb; [apply Rmax_r|lra]. apply Rmin_r. }
  split; auto. split; auto. split. split. apply Rmin_glb; [apply Rmax_r|lra]. apply Rmin_r.
  apply Rabs_le. unfold vlim in V. split; lra.
Qed.
Lemma still_lemma : forall w r i c, i_crazy i = false -> 0 <= r -> c_lb c <= c_ub c -> let v := w * c_v c + i_c1 i * (i_own i - c_x c) + i_c2 i * (i_best i - c_x c) in
  Rabs v <= r * ((c_ub c - c_lb c) / 5) -> c_lb c <= c_x c + v <= c_ub c -> advance w r i c = mkCo (c_lb c) (c_ub c) (c_x c + v) v.
Proof.
  intros w r i c K Hr B v V X. unfold advance. rewrite K. fold v. assert (Q : - (r * ((c_ub c - c_lb c) / 5)) <= v <= r * ((c_ub c - c_lb c) / 5)) by (unfold Rabs in V; destruct (Rcase_abs v); lra).
  assert (E : Rmin (Rmax v (- vlim r c)) (vlim r c) = v). { unfold vlim. rewrite Rmax_left by lra. apply Rmin_left. lra. }
  cbv zeta. rewrite E. f_equal. rewrite Rmax_left by lra. apply Rmin_left. lra.
Qed.
Lemma seed_lemma : forall lb ub y u, lb <= y <= ub -> 0 <= u < 1 -> in_box (seed_coord lb ub y u) /\ c_v (seed_coord lb ub y u) = (2 * u - 1) * ((ub - lb) / 5).
Proof. intros lb ub y u Y U. unfold in_box, seed_coord; simpl. split; [split; [lra|nra]|field]. Qed.
Lemma reduce_range s : 0 <= s_red s <= 1 -> 0 <= s_red (reduce s) <= 1.
Proof. intros. unfold reduce. destruct (Nat.ltb 5 (s_icnt s)); simpl; lra. Qed.
Lemma evolve_lemma : forall n imp ins s c, 0 <= s_red s <= 1 -> (forall k, 0 <= i_u (ins k) < 1) -> in_box c -> let c' := snd (evolve imp ins n s c) in
  c_lb c' = c_lb c /\ c_ub c' = c_ub c /\ in_box c'.
Proof.
  induction n as [|n IH]; intros imp ins s c HS U B; cbn [evolve]. simpl; auto.
  assert (L : c_lb c <= c_ub c) by (destruct B; lra).
  destruct (advance_lemma (s_w s) (s_red s) (ins O) c ltac:(lra) (U O) L) as (A1&A2&A3&A4). set (c1 := advance (s_w s) (s_red s) (ins O) c) in *.
  assert (B1 : in_box c1). { split. rewrite A1, A2; auto. rewrite A1, A2. assert (Rabs (c_v c1) <= (c_ub c - c_lb c) / 5) by nra. unfold Rabs in H. destruct (Rcase_abs (c_v c1)); lra. }
  assert (S1 : 0 <= s_red (reduce (count (imp O) s)) <= 1) by (apply reduce_range; unfold count; destruct (imp O); auto).
  destruct (IH (fun k => imp (S k)) (fun k => ins (S k)) _ c1 S1 (fun k => U (S k)) B1) as (D1&D2&D3). rewrite D1, D2. auto.
Qed.
