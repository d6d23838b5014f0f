(** Proofs about fin plate joints. *)
From Verif Require Import Base EC3_model Bool_tac EC3_proofs Plate_proofs Sections_proofs Cold_proofs Joint_model Joint_proofs.
From Verif Require Import Fin_model Fin_spec.
Require Import Reals List Bool Lra Lia Psatz PeanoNat.
Import ListNotations.
Local Open Scope R_scope.

(** ---- the bolt group. *)
Lemma Rsum_grid : forall n c p, Rsum (map (fun i => ((INR i - c) * p) ^ 2) (seq 0 n)) = p ^ 2 * (INR n * c ^ 2 - c * INR n * (INR n - 1) + INR n * (INR n - 1) * (2 * INR n - 1) / 6).
Proof.
  induction n as [|n IH]; intros c p; [cbn; lra|]. rewrite seq_S, map_app, Rsum_app, IH, S_INR. cbn [map Nat.add]. rewrite Rsum_cons. cbn [Rsum fold_right]. field.
Qed.
Lemma grid_sum : forall n p, Rsum (map (fun i => grid_pos n p i ^ 2) (seq 0 n)) = p ^ 2 * INR n * (INR n ^ 2 - 1) / 12.
Proof. intros n p. unfold grid_pos. rewrite Rsum_grid. field. Qed.
Lemma Rsum_lin : forall n c p, Rsum (map (fun i => (INR i - c) * p) (seq 0 n)) = p * (INR n * (INR n - 1) / 2 - INR n * c).
Proof.
  induction n as [|n IH]; intros c p; [cbn; lra|]. rewrite seq_S, map_app, Rsum_app, IH, S_INR. cbn [map Nat.add]. rewrite Rsum_cons. cbn [Rsum fold_right]. field.
Qed.
Lemma grid_zero : forall n p, Rsum (map (fun i => grid_pos n p i) (seq 0 n)) = 0.
Proof. intros n p. unfold grid_pos. rewrite Rsum_lin. field. Qed.
Lemma Rsum_const_add : forall (f : nat -> R) c l, Rsum (map (fun k => f k + c) l) = Rsum (map f l) + INR (length l) * c.
Proof.
  induction l as [|a l IH]; [cbn; lra|]. cbn [map length]. rewrite !Rsum_cons, IH, S_INR. ring.
Qed.
Lemma bolts_length : forall n1 n2 p1 p2, length (bolts n1 n2 p1 p2) = (n1 * n2)%nat.
Proof.
  intros n1 n2 p1 p2. unfold bolts. generalize 0%nat at 2 as s. intros s. replace n1 with (length (seq s n1)) at 2 by apply seq_length. induction (seq s n1) as [|a l IH]; [reflexivity|].
  cbn [flat_map length Nat.mul]. rewrite app_length, map_length, seq_length, IH. reflexivity.
Qed.
Lemma Rsum_flat : forall (A B : Type) (g : B -> R) (f : A -> list B) l, Rsum (map g (flat_map f l)) = Rsum (map (fun a => Rsum (map g (f a))) l).
Proof. intros A B g f. induction l as [|a l IH]; [reflexivity|]. cbn [flat_map map]. rewrite map_app, Rsum_app, Rsum_cons, IH. reflexivity. Qed.
Lemma polar_bolts : forall n1 n2 p1 p2, polar (bolts n1 n2 p1 p2) = INR n2 * (p1 ^ 2 * INR n1 * (INR n1 ^ 2 - 1) / 12) + INR n1 * (p2 ^ 2 * INR n2 * (INR n2 ^ 2 - 1) / 12).
Proof.
  intros n1 n2 p1 p2. unfold polar, bolts. rewrite Rsum_flat.
  rewrite (map_ext _ (fun i => INR n2 * grid_pos n1 p1 i ^ 2 + (p2 ^ 2 * INR n2 * (INR n2 ^ 2 - 1) / 12))).
  - rewrite (Rsum_const_add (fun i => INR n2 * grid_pos n1 p1 i ^ 2)). rewrite seq_length. rewrite <- (grid_sum n1 p1). rewrite <- Rsum_scale. rewrite map_map. reflexivity.
  - intros i. rewrite map_map. cbn [fst snd]. rewrite (Rsum_const_add (fun k => grid_pos n2 p2 k ^ 2)). rewrite seq_length, grid_sum. ring.
Qed.
Lemma sum_affine : forall (l : list (R * R)) (f : R * R -> R) a b, Rsum (map (fun x => a * f x + b) l) = a * Rsum (map f l) + INR (length l) * b.
Proof. intros l f a b. induction l as [|x l IH]; [cbn; lra|]. cbn [map length]. rewrite !Rsum_cons, IH, S_INR. ring. Qed.
Lemma bolts_centre : forall n1 n2 p1 p2, Rsum (map fst (bolts n1 n2 p1 p2)) = 0 /\ Rsum (map snd (bolts n1 n2 p1 p2)) = 0.
Proof.
  intros n1 n2 p1 p2. unfold bolts. rewrite !Rsum_flat. split.
  - rewrite (map_ext _ (fun _ => 0)). + induction (seq 0 n1) as [|a l IH]; [reflexivity|]. cbn [map]. rewrite Rsum_cons, IH. lra. + intros i. rewrite map_map. cbn [fst]. apply grid_zero.
  - rewrite (map_ext _ (fun i => INR n2 * grid_pos n1 p1 i)).
    + rewrite <- (map_map (fun i => grid_pos n1 p1 i) (fun x => INR n2 * x)), Rsum_scale, grid_zero. ring.
    + intros i. rewrite map_map. cbn [snd]. rewrite <- (seq_length n2 0) at 2. induction (seq 0 n2) as [|k l IH]; [cbn; lra|]. cbn [map length]. rewrite Rsum_cons, IH, S_INR. ring.
Qed.
(** The elastic distribution is in equilibrium with the force and its moment. *)
Lemma equilibrium_lemma : forall n1 n2 p1 p2 V z, (1 <= n1)%nat -> (1 <= n2)%nat -> polar (bolts n1 n2 p1 p2) <> 0 ->
  let l := bolts n1 n2 p1 p2 in
  Rsum (map (force_v l V z) l) = V /\ Rsum (map (force_h l V z) l) = 0 /\ Rsum (map (fun b => force_v l V z b * fst b + force_h l V z b * snd b) l) = V * z.
Proof.
  intros n1 n2 p1 p2 V z H1 H2 HP l. destruct (bolts_centre n1 n2 p1 p2) as [C1 C2]. fold l in C1, C2, HP.
  assert (L : INR (length l) <> 0) by (unfold l; rewrite bolts_length; apply not_0_INR; nia).
  split; [|split].
  - unfold force_v. rewrite (map_ext _ (fun x => (V * z / polar l) * fst x + V / INR (length l))) by (intros; field; auto). rewrite sum_affine, C1. field. auto.
  - unfold force_h. rewrite (map_ext _ (fun x => (V * z / polar l) * snd x + 0)) by (intros; field; auto). rewrite sum_affine, C2. ring.
  - unfold force_v, force_h. rewrite (map_ext _ (fun x => V * z / polar l * (fst x ^ 2 + snd x ^ 2) + V / INR (length l) * fst x)) by (intros; field; auto).
    assert (A : forall l', Rsum (map (fun x : R * R => V * z / polar l * (fst x ^ 2 + snd x ^ 2) + V / INR (length l) * fst x) l') = V * z / polar l * Rsum (map (fun b => fst b ^ 2 + snd b ^ 2) l') + V / INR (length l) * Rsum (map fst l')).
    { intros l'. induction l' as [|x l' IH]; [cbn; lra|]. cbn [map]. rewrite !Rsum_cons, IH. ring. }
    rewrite A, C1. fold (polar l). field. auto.
Qed.
Lemma grid_bound : forall n p i, 0 <= p -> (i < n)%nat -> Rabs (grid_pos n p i) <= (INR n - 1) / 2 * p.
Proof.
  intros n p i Hp Hi. unfold grid_pos. assert (A : 0 <= INR i) by apply pos_INR. assert (B : INR i <= INR n - 1) by (apply le_INR in Hi; rewrite S_INR in Hi; lra).
  rewrite Rabs_mult, (Rabs_pos_eq p) by lra. apply Rmult_le_compat_r; [lra|]. unfold Rabs. destruct (Rcase_abs _); lra.
Qed.
Lemma bolt_bound : forall n1 n2 p1 p2 b, 0 <= p1 -> 0 <= p2 -> In b (bolts n1 n2 p1 p2) -> Rabs (fst b) <= (INR n2 - 1) / 2 * p2 /\ Rabs (snd b) <= (INR n1 - 1) / 2 * p1.
Proof.
  intros n1 n2 p1 p2 b H1 H2 H. unfold bolts in H. apply in_flat_map in H. destruct H as (i & Hi & H). apply in_map_iff in H. destruct H as (k & <- & Hk). apply in_seq in Hi, Hk. cbn [fst snd]. split; apply grid_bound; auto; lia.
Qed.
Lemma corner_in : forall n1 n2 p1 p2, (1 <= n1)%nat -> (1 <= n2)%nat -> In ((INR n2 - 1) / 2 * p2, (INR n1 - 1) / 2 * p1) (bolts n1 n2 p1 p2).
Proof.
  intros n1 n2 p1 p2 H1 H2. unfold bolts. apply in_flat_map. exists (n1 - 1)%nat. split; [apply in_seq; lia|]. apply in_map_iff. exists (n2 - 1)%nat. split; [|apply in_seq; lia].
  unfold grid_pos. rewrite !minus_INR by auto. f_equal; cbn [INR]; field.
Qed.
(** The corner bolt decides. *)
Lemma group_check : forall n1 n2 p1 p2 V z A B, (1 <= n1)%nat -> (1 <= n2)%nat -> 0 <= p1 -> 0 <= p2 -> 0 <= V -> 0 <= z -> 0 < A -> 0 < B -> 0 < polar (bolts n1 n2 p1 p2) ->
  let l := bolts n1 n2 p1 p2 in
  let k1 := 1 / INR (length l) + z * ((INR n2 - 1) / 2 * p2) / polar l in let k2 := z * ((INR n1 - 1) / 2 * p1) / polar l in
  ((forall b, In b l -> (force_v l V z b / A) ^ 2 + (force_h l V z b / B) ^ 2 <= 1) <-> V * sqrt ((k1 / A) ^ 2 + (k2 / B) ^ 2) <= 1).
Proof.
  intros n1 n2 p1 p2 V z A B H1 H2 P1 P2 HV Hz HA HB HP l k1 k2.
  assert (L : 0 < INR (length l)) by (unfold l; rewrite bolts_length; apply lt_0_INR; nia). fold l in HP.
  assert (SQ : (V * sqrt ((k1 / A) ^ 2 + (k2 / B) ^ 2)) ^ 2 = (V * k1 / A) ^ 2 + (V * k2 / B) ^ 2).
  { rewrite Rpow_mult_distr. rewrite pow2_sqrt by (pose proof (pow2_ge_0 (k1 / A)); pose proof (pow2_ge_0 (k2 / B)); lra). field. lra. }
  assert (NN : 0 <= V * sqrt ((k1 / A) ^ 2 + (k2 / B) ^ 2)) by (apply Rmult_le_pos; [lra|apply sqrt_pos]).
  assert (EQ : V * sqrt ((k1 / A) ^ 2 + (k2 / B) ^ 2) <= 1 <-> (V * k1 / A) ^ 2 + (V * k2 / B) ^ 2 <= 1) by (rewrite <- SQ; split; intros; nra).
  rewrite EQ. clear EQ SQ NN. split.
  - intros H. specialize (H _ (corner_in n1 n2 p1 p2 H1 H2)). unfold force_v, force_h in H. cbn [fst snd] in H.
    replace (V * k1 / A) with ((V / INR (length l) + V * z * ((INR n2 - 1) / 2 * p2) / polar l) / A) by (unfold k1; field; lra).
    replace (V * k2 / B) with (V * z * ((INR n1 - 1) / 2 * p1) / polar l / B) by (unfold k2; field; lra). exact H.
  - intros H b Hb. destruct (bolt_bound n1 n2 p1 p2 b P1 P2 Hb) as [B1 B2]. 
    assert (E1 : Rabs (force_v l V z b / A) <= V * k1 / A).
    { replace (force_v l V z b / A) with (V / A / INR (length l) + V * z / polar l / A * fst b) by (unfold force_v; field; lra).
      replace (V * k1 / A) with (V / A / INR (length l) + V * z / polar l / A * ((INR n2 - 1) / 2 * p2)) by (unfold k1; field; lra).
      eapply Rle_trans; [apply Rabs_triang|]. assert (Q1 : 0 <= V / A / INR (length l)) by (apply Rmult_le_pos; [apply Rmult_le_pos; [lra|]|]; apply Rlt_le, Rinv_0_lt_compat; lra).
      assert (Q2 : 0 <= V * z / polar l / A) by (apply Rmult_le_pos; [apply Rmult_le_pos; [nra|]|]; apply Rlt_le, Rinv_0_lt_compat; lra).
      rewrite (Rabs_pos_eq _ Q1), Rabs_mult, (Rabs_pos_eq _ Q2). apply Rplus_le_compat_l. apply Rmult_le_compat_l; auto. }
    assert (E2 : Rabs (force_h l V z b / B) <= V * k2 / B).
    { replace (force_h l V z b / B) with (V * z / polar l / B * snd b) by (unfold force_h; field; lra).
      replace (V * k2 / B) with (V * z / polar l / B * ((INR n1 - 1) / 2 * p1)) by (unfold k2; field; lra).
      assert (Q2 : 0 <= V * z / polar l / B) by (apply Rmult_le_pos; [apply Rmult_le_pos; [nra|]|]; apply Rlt_le, Rinv_0_lt_compat; lra).
      rewrite Rabs_mult, (Rabs_pos_eq _ Q2). apply Rmult_le_compat_l; auto. }
    assert (SQ1 : forall x y, Rabs x <= y -> x ^ 2 <= y ^ 2) by (intros x y K; rewrite <- (pow2_abs x); pose proof (Rabs_pos x); nra).
    pose proof (SQ1 _ _ E1). pose proof (SQ1 _ _ E2). lra.
Qed.
Lemma standard_facts : forall j, standard j -> 
  let l := group j in let p := j_p j in
  (1 <= p_n1 p)%nat /\ (1 <= p_n2 p)%nat /\ 0 < polar l /\ INR (length l) = p_n p /\ 0 < p_n p /\
  (p_n2 p = 1%nat -> polar l = p_py p ^ 2 * INR (p_n1 p) * (INR (p_n1 p) ^ 2 - 1) / 12 /\ p_n p = INR (p_n1 p) /\ 2 <= INR (p_n1 p)) /\
  (p_n2 p = 2%nat -> polar l = fI j /\ 1 <= INR (p_n1 p)).
Proof.
  intros j (H & P & Z) l p. assert (P1 : (1 <= p_n1 p)%nat) by (destruct H as [[_ H]|[_ [H _]]]; unfold p; lia). assert (P2 : (1 <= p_n2 p)%nat) by (destruct H as [[H _]|[H _]]; unfold p; lia).
  assert (EL : length l = (p_n1 p * p_n2 p)%nat) by apply bolts_length.
  assert (N1 : 1 <= INR (p_n1 p)) by (apply (le_INR 1); exact P1).
  assert (Q1 : p_n2 p = 1%nat -> polar l = p_py p ^ 2 * INR (p_n1 p) * (INR (p_n1 p) ^ 2 - 1) / 12 /\ p_n p = INR (p_n1 p) /\ 2 <= INR (p_n1 p)).
  { intros E. assert (E' : p_n2 (j_p j) = 1%nat) by exact E. unfold l, group. rewrite polar_bolts. rewrite E'. fold p. cbn [INR]. split; [field|]. split; [unfold p_n; rewrite E, Nat.mul_1_r; reflexivity|].
    destruct H as [[_ H]|[H _]]; [apply (le_INR 2) in H; cbn [INR] in H; fold p in H; lra|fold p in H; lia]. }
  assert (Q2 : p_n2 p = 2%nat -> polar l = fI j /\ 1 <= INR (p_n1 p)).
  { intros E. assert (E' : p_n2 (j_p j) = 2%nat) by exact E. unfold l, group. rewrite polar_bolts, E'. unfold fI. cbn [INR]. split; [field|exact N1]. }
  assert (PP : 0 < polar l).
  { destruct H as [[E _]|[E [_ X]]].
    - destruct (Q1 E) as (-> & _ & N2). fold p in P. assert (0 < INR (p_n1 p) ^ 2 - 1) by nra. assert (0 < p_py p ^ 2) by nra. apply Rdiv_lt_0_compat; [|lra]. apply Rmult_lt_0_compat; [apply Rmult_lt_0_compat|]; lra.
    - destruct (Q2 E) as (-> & _). unfold fI. fold p in P, X |- *. assert (0 <= INR (p_n1 p) ^ 2 - 1) by nra. assert (0 < p_px p ^ 2) by nra. assert (0 < p_py p ^ 2) by nra.
      assert (0 < 1/2 * INR (p_n1 p) * p_px p ^ 2) by (apply Rmult_lt_0_compat; lra). assert (0 <= 1/6 * INR (p_n1 p) * (INR (p_n1 p) ^ 2 - 1) * p_py p ^ 2) by (apply Rmult_le_pos; [apply Rmult_le_pos|]; lra). lra. }
  split; auto. split; auto. split; auto. unfold p_n. rewrite EL. split; auto. split; [apply lt_0_INR; nia|]. auto.
Qed.
(** The factor of the corner bolt. *)
Definition kv (j : fin) : R := 1 / p_n (j_p j) + fz j * ((INR (p_n2 (j_p j)) - 1) / 2 * p_px (j_p j)) / polar (group j).
Definition kh (j : fin) : R := fz j * ((INR (p_n1 (j_p j)) - 1) / 2 * p_py (j_p j)) / polar (group j).
Lemma k_pos : forall j, standard j -> 0 < kv j /\ 0 <= kh j.
Proof.
  intros j S0. destruct (standard_facts j S0) as (N1 & N2 & PP & _ & PN & F1 & F2). destruct S0 as (H & P & Z).
  assert (A1 : 1 <= INR (p_n1 (j_p j))) by (apply (le_INR 1); exact N1). assert (A2 : 1 <= INR (p_n2 (j_p j))) by (apply (le_INR 1); exact N2).
  assert (X : 0 <= (INR (p_n2 (j_p j)) - 1) / 2 * p_px (j_p j)) by (destruct H as [[E _]|[E [_ Q]]]; [rewrite E; cbn [INR]; lra|apply Rmult_le_pos; lra]).
  assert (I0 : 0 < / polar (group j)) by (apply Rinv_0_lt_compat; exact PP). unfold kv, kh, Rdiv at 2 5.
  assert (0 < 1 / p_n (j_p j)) by (apply Rdiv_lt_0_compat; lra).
  assert (0 <= fz j * ((INR (p_n2 (j_p j)) - 1) / 2 * p_px (j_p j)) * / polar (group j)) by (apply Rmult_le_pos; [apply Rmult_le_pos; auto|lra]).
  split; [unfold Rdiv in *; lra|]. apply Rmult_le_pos; [|lra]. apply Rmult_le_pos; [lra|]. apply Rmult_le_pos; lra.
Qed.
Lemma fin_check : forall j V A B, standard j -> 0 <= V -> 0 < A -> 0 < B ->
  ((forall b, In b (group j) -> (force_v (group j) V (fz j) b / A) ^ 2 + (force_h (group j) V (fz j) b / B) ^ 2 <= 1) <-> V <= 1 / sqrt ((kv j / A) ^ 2 + (kh j / B) ^ 2)).
Proof.
  intros j V A B S0 HV HA HB. destruct (standard_facts j S0) as (N1 & N2 & PP & EL & PN & F1 & F2). destruct (k_pos j S0) as [K1 K2].
  destruct S0 as (H & P & Z).
  assert (SP : 0 < sqrt ((kv j / A) ^ 2 + (kh j / B) ^ 2)).
  { apply sqrt_lt_R0. assert (0 < kv j / A) by (apply Rdiv_lt_0_compat; lra). pose proof (pow2_ge_0 (kh j / B)). nra. }
  assert (E : (forall b, In b (group j) -> (force_v (group j) V (fz j) b / A) ^ 2 + (force_h (group j) V (fz j) b / B) ^ 2 <= 1) <-> V * sqrt ((kv j / A) ^ 2 + (kh j / B) ^ 2) <= 1).
  { unfold kv, kh. rewrite <- EL. destruct H as [[E2 _]|[E2 [_ X]]].
    - assert (G : group j = bolts (p_n1 (j_p j)) (p_n2 (j_p j)) (p_py (j_p j)) 0).
      { unfold group, bolts, grid_pos. rewrite E2. cbn [seq map INR]. apply flat_map_ext. intros a. replace ((0 - (1 - 1) / 2) * p_px (j_p j)) with ((0 - (1 - 1) / 2) * 0) by lra. reflexivity. }
      pose proof (group_check (p_n1 (j_p j)) (p_n2 (j_p j)) (p_py (j_p j)) 0 V (fz j) A B N1 N2 ltac:(lra) ltac:(lra) HV Z HA HB) as GC. cbv zeta in GC. rewrite <- G in GC. specialize (GC PP). rewrite GC. rewrite E2. cbn [INR]. replace ((1 - 1) / 2 * p_px (j_p j)) with ((1 - 1) / 2 * 0) by lra. tauto.
    - apply (group_check (p_n1 (j_p j)) (p_n2 (j_p j)) (p_py (j_p j)) (p_px (j_p j)) V (fz j) A B); auto; lra. }
  rewrite E. symmetry. rewrite (le_div_iff 1 (sqrt ((kv j / A) ^ 2 + (kh j / B) ^ 2)) V) by exact SP. tauto.
Qed.
Lemma fin_bolt_shear_lemma : forall j, standard j -> 0 < shear_resistance (j_bolt j) true ->
  exists R, bolt_shear j = Some R /\ 0 < R /\ forall V, 0 <= V ->
  ((forall b, In b (group j) -> sqrt (force_v (group j) V (fz j) b ^ 2 + force_h (group j) V (fz j) b ^ 2) <= shear_resistance (j_bolt j) true) <-> V <= R).
Proof.
  intros j S0 HF. set (F := shear_resistance (j_bolt j) true) in *. destruct (standard_facts j S0) as (N1 & N2 & PP & EL & PN & F1 & F2). destruct (k_pos j S0) as [K1 K2].
  assert (SP : 0 < sqrt (kv j ^ 2 + kh j ^ 2)) by (apply sqrt_lt_R0; nra).
  assert (EQ : bolt_shear j = Some (1 / sqrt (kv j ^ 2 + kh j ^ 2) * F)).
  { unfold bolt_shear. destruct S0 as (H & P & Z). destruct H as [[E _]|[E [_ X]]].
    - rewrite E. cbn [Nat.eqb]. rewrite (pdiv_ok _ (p_py (j_p j))) by lra. cbn [bind]. destruct (F1 E) as (EP & EN & N3).
      set (q := 6 * fz j / (p_n (j_p j) + 1) / p_py (j_p j)). do 2 f_equal.
      assert (A1 : kv j = 1 / p_n (j_p j)) by (unfold kv; rewrite E; cbn [INR]; field; lra).
      assert (A2 : kh j = q / p_n (j_p j)). { unfold kh, q. rewrite EP, EN. field. repeat split; try lra; nra. }
      replace (kv j ^ 2 + kh j ^ 2) with ((1 + q ^ 2) / (p_n (j_p j) * p_n (j_p j))) by (rewrite A1, A2; field; lra).
      assert (0 < 1 + q ^ 2) by (pose proof (pow2_ge_0 q); lra).
      rewrite sqrt_div; [|lra|nra]. rewrite sqrt_square by lra. assert (0 < sqrt (1 + q ^ 2)) by (apply sqrt_lt_R0; auto). field. lra.
    - rewrite E. cbn [Nat.eqb]. destruct (F2 E) as (EP & N3). rewrite EP in PP. rewrite (pdiv_ok _ (fI j)) by lra. cbn [bind]. rewrite (pdiv_ok 1 (p_n (j_p j))) by lra. cbn [bind]. rewrite (pdiv_ok _ (fI j)) by lra. cbn [bind].
      assert (A1 : 1/2 * fz j * p_px (j_p j) / fI j + 1 / p_n (j_p j) = kv j) by (unfold kv; rewrite E, EP; cbn [INR]; field; lra).
      assert (A2 : 1/2 * fz j * p_py (j_p j) / fI j * (INR (p_n1 (j_p j)) - 1) = kh j) by (unfold kh; rewrite EP; field; lra).
      rewrite A1, A2. rewrite pdiv_ok by lra. reflexivity. }
  exists (1 / sqrt (kv j ^ 2 + kh j ^ 2) * F). split; [exact EQ|]. split; [apply Rmult_lt_0_compat; [apply Rdiv_lt_0_compat; lra|exact HF]|].
  intros V HV. pose proof (fin_check j V F F S0 HV HF HF) as C.
  replace (sqrt ((kv j / F) ^ 2 + (kh j / F) ^ 2)) with (sqrt (kv j ^ 2 + kh j ^ 2) / F) in C.
  2:{ replace ((kv j / F) ^ 2 + (kh j / F) ^ 2) with ((kv j ^ 2 + kh j ^ 2) / (F * F)) by (field; lra). rewrite sqrt_div; [|nra|nra]. rewrite sqrt_square by lra. reflexivity. }
  replace (1 / (sqrt (kv j ^ 2 + kh j ^ 2) / F)) with (1 / sqrt (kv j ^ 2 + kh j ^ 2) * F) in C by (field; lra). rewrite <- C.
  assert (Q : forall x y, sqrt (x ^ 2 + y ^ 2) <= F <-> (x / F) ^ 2 + (y / F) ^ 2 <= 1).
  { intros x y. assert (N : 0 <= x ^ 2 + y ^ 2) by (pose proof (pow2_ge_0 x); pose proof (pow2_ge_0 y); lra).
    replace ((x / F) ^ 2 + (y / F) ^ 2) with ((x ^ 2 + y ^ 2) / (F * F)) by (field; lra). rewrite (div_le_iff _ (F * F) 1) by nra. pose proof (sqrt_pos (x ^ 2 + y ^ 2)). pose proof (sqrt_def _ N). split; intros; nra. }
  split; intros K b Hb; apply Q; apply K; exact Hb.
Qed.
Lemma bearing_V_lemma : forall j Fv Fh p2 a b, standard j -> bearing_ab j = Some (p2, a, b) -> 0 < Fv -> 0 < Fh ->
  exists R, bearing_V (p_n (j_p j)) a b Fv Fh = Some R /\ 0 < R /\ R = 1 / sqrt ((kv j / Fv) ^ 2 + (kh j / Fh) ^ 2).
Proof.
  intros j Fv Fh p2 a b S0 HB H1 H2. destruct (standard_facts j S0) as (N1 & N2 & PP & EL & PN & F1 & F2). destruct (k_pos j S0) as [K1 K2].
  assert (AB : (1 + p_n (j_p j) * a) = p_n (j_p j) * kv j /\ b = kh j).
  { unfold bearing_ab in HB. destruct S0 as (H & P & Z). destruct H as [[E _]|[E [_ X]]]; rewrite E in HB; cbn [Nat.eqb] in HB.
    - destruct (F1 E) as (EP & EN & N3). rewrite pdiv_ok in HB by lra. cbn [bind] in HB. rewrite pdiv_ok in HB by lra. cbn [bind] in HB. injection HB as <- <- <-.
      split; [unfold kv; rewrite E; cbn [INR]; field; lra|]. unfold kh. rewrite EP. field. repeat split; try lra; nra.
    - destruct (F2 E) as (EP & N3). rewrite EP in PP. rewrite pdiv_ok in HB by lra. cbn [bind] in HB. rewrite pdiv_ok in HB by lra. cbn [bind] in HB. injection HB as <- <- <-.
      split; [unfold kv; rewrite E, EP; cbn [INR]; field; lra|]. unfold kh. rewrite EP. field. lra. }
  destruct AB as [EA EB]. unfold bearing_V. rewrite EA, EB. rewrite !pdiv_ok by lra. cbn [bind].
  assert (SP : 0 < sqrt ((kv j / Fv) ^ 2 + (kh j / Fh) ^ 2)).
  { apply sqrt_lt_R0. assert (0 < kv j / Fv) by (apply Rdiv_lt_0_compat; lra). pose proof (pow2_ge_0 (kh j / Fh)). nra. }
  replace ((p_n (j_p j) * kv j / Fv) ^ 2 + (p_n (j_p j) * kh j / Fh) ^ 2) with ((p_n (j_p j) * p_n (j_p j)) * ((kv j / Fv) ^ 2 + (kh j / Fh) ^ 2)) by (field; lra).
  rewrite sqrt_mult_alt by nra. rewrite sqrt_square by lra. rewrite pdiv_ok by (apply Rgt_not_eq, Rmult_lt_0_compat; lra).
  eexists. split; [reflexivity|]. assert (E : p_n (j_p j) / (p_n (j_p j) * sqrt ((kv j / Fv) ^ 2 + (kh j / Fh) ^ 2)) = 1 / sqrt ((kv j / Fv) ^ 2 + (kh j / Fh) ^ 2)) by (field; lra).
  rewrite E. split; [apply Rdiv_lt_0_compat; lra|reflexivity].
Qed.
Lemma plate_bearing_lemma : forall j Fv Fh, standard j ->
  let p2 := if Nat.eqb (p_n2 (j_p j)) 1 then 100000 else p_px (j_p j) in
  bearing_resistance (j_bolt j) (p_fu (j_p j)) (p_t (j_p j)) (fe1 j) (fe2 j) (p_py (j_p j)) p2 true true = Some Fv ->
  bearing_resistance (j_bolt j) (p_fu (j_p j)) (p_t (j_p j)) (fe2 j) (fe1 j) p2 (p_py (j_p j)) true true = Some Fh -> 0 < Fv -> 0 < Fh ->
  exists R, fin_plate_bearing j = Some R /\ 0 < R /\ forall V, 0 <= V ->
  ((forall b, In b (group j) -> (force_v (group j) V (fz j) b / Fv) ^ 2 + (force_h (group j) V (fz j) b / Fh) ^ 2 <= 1) <-> V <= R).
Proof.
  intros j Fv Fh S0 p2 E1 E2 H1 H2. destruct (standard_facts j S0) as (N1 & N2 & PP & EL & PN & F1 & F2).
  assert (AB : exists a b, bearing_ab j = Some (p2, a, b)).
  { unfold bearing_ab, p2. pose proof S0 as (H & P & Z). destruct H as [[E _]|[E [_ X]]]; rewrite E; cbn [Nat.eqb].
    - destruct (F1 E) as (EP & EN & N3). rewrite pdiv_ok by lra. cbn [bind]. rewrite pdiv_ok by lra. cbn [bind]. eauto.
    - destruct (F2 E) as (EP & N3). rewrite EP in PP. rewrite !pdiv_ok by lra. cbn [bind]. eauto. }
  destruct AB as (a & b & AB). destruct (bearing_V_lemma j Fv Fh p2 a b S0 AB H1 H2) as (R & ER & PR & VR).
  exists R. split; [|split; [exact PR|]].
  - unfold fin_plate_bearing. rewrite AB. cbn [bind]. rewrite E1. cbn [bind]. rewrite E2. cbn [bind]. exact ER.
  - intros V HV. rewrite VR. apply fin_check; auto.
Qed.
Lemma fin_web_bearing_lemma : forall j Fv Fh, standard j ->
  let p2 := if Nat.eqb (p_n2 (j_p j)) 1 then 100000 else p_px (j_p j) in
  bearing_resistance (j_bolt j) (j_fu j) (j_tw j) (fe1 j) (fe2b j) (p_py (j_p j)) p2 true true = Some Fv ->
  bearing_resistance (j_bolt j) (j_fu j) (j_tw j) (fe2b j) (fe1 j) p2 (p_py (j_p j)) true true = Some Fh -> 0 < Fv -> 0 < Fh ->
  exists R, beam_web_bearing j = Some R /\ 0 < R /\ forall V, 0 <= V ->
  ((forall b, In b (group j) -> (force_v (group j) V (fz j) b / Fv) ^ 2 + (force_h (group j) V (fz j) b / Fh) ^ 2 <= 1) <-> V <= R).
Proof.
  intros j Fv Fh S0 p2 E1 E2 H1 H2. destruct (standard_facts j S0) as (N1 & N2 & PP & EL & PN & F1 & F2).
  assert (AB : exists a b, bearing_ab j = Some (p2, a, b)).
  { unfold bearing_ab, p2. pose proof S0 as (H & P & Z). destruct H as [[E _]|[E [_ X]]]; rewrite E; cbn [Nat.eqb].
    - destruct (F1 E) as (EP & EN & N3). rewrite pdiv_ok by lra. cbn [bind]. rewrite pdiv_ok by lra. cbn [bind]. eauto.
    - destruct (F2 E) as (EP & N3). rewrite EP in PP. rewrite !pdiv_ok by lra. cbn [bind]. eauto. }
  destruct AB as (a & b & AB). destruct (bearing_V_lemma j Fv Fh p2 a b S0 AB H1 H2) as (R & ER & PR & VR).
  exists R. split; [|split; [exact PR|]].
  - unfold beam_web_bearing. rewrite AB. cbn [bind]. rewrite E1. cbn [bind]. rewrite E2. cbn [bind]. exact ER.
  - intros V HV. rewrite VR. apply fin_check; auto.
Qed.

(** ---- plate and web. *)
Lemma sqrt3_bounds : 1732/1000 < sqrt 3 < 17321/10000.
Proof. pose proof (sqrt_def 3 ltac:(lra)). pose proof (sqrt_pos 3). split; nra. Qed.
Lemma fin_symmetric_lemma : forall j, j_sym j = true -> fe1 j = (p_h (j_p j) - (INR (p_n1 (j_p j)) - 1) * p_py (j_p j)) / 2 /\ fe1 j = p_y (centred j) /\
  p_h (j_p j) = 2 * fe1 j + (INR (p_n1 (j_p j)) - 1) * p_py (j_p j).
Proof. intros j E. unfold fe1, centred, eTop. rewrite E. cbn [p_h p_y p_n1 p_py]. repeat split; lra. Qed.
Lemma edges_lemma : forall j, eLeft (j_p j) + (INR (p_n2 (j_p j)) - 1) * p_px (j_p j) + fe2 j = p_b (j_p j) /\
  fz j = (eLeft (j_p j) + (p_b (j_p j) - fe2 j)) / 2 /\ fe1b j + (j_pos j + p_h (j_p j) / 2 - fe1 j) = j_h j / 2.
Proof. intros j. unfold fe2, eRight, fz, eLeft, fe1b. repeat split; lra. Qed.
(** Block tearing with the net areas along the outline of the bolt group. *)
Lemma plate_block_lemma : forall j, (p_n2 (j_p j) = 2%nat \/ p_n2 (j_p j) = 1%nat /\ p_px (j_p j) = 0) ->
  let d0 := b_d0 (j_bolt j) in let n1 := INR (p_n1 (j_p j)) in let n2 := INR (p_n2 (j_p j)) in
  plate_block j = block_tearing (p_fy (j_p j)) (p_fu (j_p j))
    (p_t (j_p j) * (fe2 j + (n2 - 1) * p_px (j_p j) - (n2 - 1/2) * d0)) (p_t (j_p j) * (p_h (j_p j) - fe1 j - (n1 - 1/2) * d0)) false.
Proof.
  intros j H d0 n1 n2. unfold plate_block, block_tearing. fold d0 n1 n2. assert (E : p_px (j_p j) = (n2 - 1) * p_px (j_p j)) by (unfold n2; destruct H as [->|[-> ->]]; cbn [INR]; lra).
  rewrite E at 1. pose proof sqrt3_bounds. unfold gammaM0, gammaM2. field. lra.
Qed.
Lemma web_block_lemma : forall j, (p_n2 (j_p j) = 2%nat \/ p_n2 (j_p j) = 1%nat /\ p_px (j_p j) = 0) ->
  let d0 := b_d0 (j_bolt j) in let n1 := INR (p_n1 (j_p j)) in let n2 := INR (p_n2 (j_p j)) in
  web_block j = block_tearing (j_fy j) (j_fu j)
    (j_tw j * (fe2b j + (n2 - 1) * p_px (j_p j) - (n2 - 1/2) * d0)) (j_tw j * (fe1b j + (n1 - 1) * p_py (j_p j) - (n1 - 1/2) * d0)) false.
Proof.
  intros j H d0 n1 n2. unfold web_block, block_tearing. fold d0 n1 n2. assert (E : p_px (j_p j) = (n2 - 1) * p_px (j_p j)) by (unfold n2; destruct H as [->|[-> ->]]; cbn [INR]; lra).
  rewrite E at 1. pose proof sqrt3_bounds. unfold gammaM0, gammaM2. field. lra.
Qed.
(** One vertical row but a horizontal distance was given: the resistance is too large. *)
Lemma block_extra_lemma : forall j, p_n2 (j_p j) = 1%nat -> 
  let d0 := b_d0 (j_bolt j) in let n1 := INR (p_n1 (j_p j)) in
  plate_block j = block_tearing (p_fy (j_p j)) (p_fu (j_p j)) (p_t (j_p j) * (fe2 j - 1/2 * d0)) (p_t (j_p j) * (p_h (j_p j) - fe1 j - (n1 - 1/2) * d0)) false
    + 4/10 * p_fu (j_p j) * p_t (j_p j) * p_px (j_p j).
Proof.
  intros j H d0 n1. unfold plate_block, block_tearing. fold d0 n1. rewrite H. cbn [INR]. pose proof sqrt3_bounds. unfold gammaM0, gammaM2. field. lra.
Qed.
Lemma shear_formulas_lemma : forall j, 
  shear_gross j = EC3_model.shear_resistance (p_h (j_p j) * p_t (j_p j)) (p_fy (j_p j)) / (127/100) /\
  shear_net j = (p_h (j_p j) * p_t (j_p j) - INR (p_n1 (j_p j)) * (b_d0 (j_bolt j) * p_t (j_p j))) * p_fu (j_p j) / (sqrt 3 * (125/100)) /\
  web_net j = (j_Av j - INR (p_n1 (j_p j)) * (b_d0 (j_bolt j) * j_tw j)) * j_fu j / (sqrt 3 * (125/100)).
Proof.
  intros j. pose proof sqrt3_bounds. unfold shear_gross, shear_net, web_net, EC3_model.shear_resistance, gammaM0, gammaM2. repeat split; field; lra.
Qed.
Lemma plate_bending_lemma : forall j, 0 < fz j -> plate_bending j = Some (p_fy (j_p j) * p_t (j_p j) * p_h (j_p j) ^ 2 / (6 * fz j)) /\
  (0 < p_fy (j_p j) -> 0 < p_t (j_p j) -> 273/100 * fz j <= p_h (j_p j) -> shear_gross j <= p_fy (j_p j) * p_t (j_p j) * p_h (j_p j) ^ 2 / (6 * fz j)).
Proof.
  intros j Z. split.
  - unfold plate_bending. rewrite pdiv_ok by lra. cbn [bind]. f_equal. unfold gammaM0. field. lra.
  - intros F T H. pose proof sqrt3_bounds as S3. unfold shear_gross, gammaM0. set (h := p_h (j_p j)) in *. set (t := p_t (j_p j)) in *. set (fy := p_fy (j_p j)) in *. set (z := fz j) in *.
    replace (h * t * fy / (127 / 100) / sqrt 3 / 1) with ((h * t * fy) * (1 / (127/100 * sqrt 3))) by (field; lra).
    replace (fy * t * h ^ 2 / (6 * z)) with ((h * t * fy) * (h / (6 * z))) by (field; lra).
    apply Rmult_le_compat_l; [apply Rmult_le_pos; [apply Rmult_le_pos|]; lra|]. 
    apply Rle_trans with (273/600).
    + rewrite (div_le_iff 1 (127/100 * sqrt 3) (273/600)) by lra. lra.
    + rewrite (le_div_iff h (6 * z) (273/600)) by lra. lra.
Qed.
Lemma plate_ltb_lemma : forall j, 0 < fz j -> 0 < p_fy (j_p j) -> 0 < p_t (j_p j) -> 0 < p_h (j_p j) -> 0 < p_E (j_p j) ->
  exists V M, plate_ltb j = Some V /\ plate_bending j = Some M /\ 0 < V <= M /\ (fz j < p_t (j_p j) / (15/100) -> V = M).
Proof.
  intros j Z F T H E. destruct (plate_bending_lemma j Z) as [EM _]. set (p := j_p j) in *. set (M := p_fy p * p_t p * p_h p ^ 2 / (6 * fz j)) in *.
  assert (PM : 0 < M) by (apply Rdiv_lt_0_compat; [apply Rmult_lt_0_compat; [apply Rmult_lt_0_compat|nra]; lra|lra]).
  unfold plate_ltb. fold p. rewrite pdiv_ok by lra. cbn [bind]. assert (EV : p_fy p * p_t p * p_h p ^ 2 / 6 / fz j = M) by (unfold M; field; lra). rewrite EV.
  destruct (Rltb (fz j) (p_t p / (15/100))) eqn:B.
  - cbn [bind]. exists (1 * M), M. repeat split; auto; try lra.
  - apply Rltb_false in B. rewrite (pdiv_ok (p_E p)) by lra. cbn [bind]. assert (Q1 : 0 < p_E p / p_fy p) by (apply Rdiv_lt_0_compat; lra). rewrite (psqrt_ok (p_E p / p_fy p)) by lra. cbn [bind].
    assert (S1 : 0 < sqrt (p_E p / p_fy p)) by (apply sqrt_lt_R0; auto). pose proof PI_RGT_0 as P. rewrite (pdiv_ok (28/10)) by (apply Rgt_not_eq, Rmult_lt_0_compat; auto). cbn [bind].
    rewrite (pdiv_ok (fz j * p_h p / (3/2))) by nra. cbn [bind].
    assert (Q2 : 0 < fz j * p_h p / (3/2) / p_t p ^ 2) by (apply Rdiv_lt_0_compat; nra). rewrite (psqrt_ok (fz j * p_h p / (3/2) / p_t p ^ 2)) by lra. cbn [bind].
    set (lam := 28/10 / (PI * sqrt (p_E p / p_fy p)) * sqrt (fz j * p_h p / (3/2) / p_t p ^ 2)).
    assert (L0 : 0 <= lam). { unfold lam. apply Rmult_le_pos; [|apply sqrt_pos]. apply Rlt_le, Rdiv_lt_0_compat; [lra|apply Rmult_lt_0_compat; auto]. }
    destruct (chi_proper_lemma (76/100) lam ltac:(lra) L0) as (chi & EC & CH & _). rewrite EC. cbn [bind]. exists (Rmin (chi / (6/10) / gammaM1) (1 / gammaM0) * M), M.
    split; [reflexivity|]. split; [exact EM|]. unfold gammaM0, gammaM1. split; [|lra].
    assert (0 < Rmin (chi / (6/10) / 1) (1 / 1)) by (unfold Rmin; destruct (Rle_dec _ _); lra). assert (Rmin (chi / (6/10) / 1) (1 / 1) <= 1) by (eapply Rle_trans; [apply Rmin_r|lra]). nra.
Qed.
Lemma check_bolts_lemma : forall j, let d0 := b_d0 (j_bolt j) in
  (check_bolts j = true <-> 12/10 * d0 <= fe1 j /\ 12/10 * d0 <= fe2 j /\ 12/10 * d0 <= fe2b j /\ 22/10 * d0 <= p_py (j_p j) /\ (p_px (j_p j) <= 0 \/ 24/10 * d0 <= p_px (j_p j))).
Proof.
  intros j d0. unfold check_bolts. fold d0. cmp; try (split; [discriminate|]; lra); try (split; [intros _|reflexivity]; lra).
Qed.
(** The edge distance of the bolts in the beam web is not looked at. *)
Lemma unchecked_edge_lemma : forall j, j_sym j = true -> check_bolts j = true -> forall h, 
  let j' := mkFin h (j_tw j) (j_fy j) (j_fu j) (j_Av j) (j_VRd j) (j_p j) (j_pos j) (j_bolt j) (j_gh j) (j_sym j) in
  check_bolts j' = true /\ fe1b j' = h / 2 - j_pos j - (INR (p_n1 (j_p j)) - 1) * p_py (j_p j) / 2.
Proof.
  intros j S0 H h j'. split; [exact H|]. unfold fe1b. destruct (fin_symmetric_lemma j' S0) as (E & _). rewrite E. unfold j'. cbn [j_h j_pos j_p]. lra.
Qed.
