(** Stability of the generated symmetric trusses on their supports. *)
From Verif Require Import Base EC3_model Sections_proofs Rhs_model Bool_tac.
From Verif Require Import Truss_proofs Truss2_proofs Truss3_proofs Truss4_proofs Truss5_proofs Truss6_proofs Truss7_proofs Truss8_proofs.
From Verif Require Import Truss_model Truss_spec.
Require Import Reals Lra List Bool Arith Lia Psatz.
Import ListNotations.
Local Open Scope R_scope.

(** Order of the coordinates of a web pattern. *)
Definition ordered (nt nb : nat) (xt xb : nat -> R) (L : R) : Prop :=
  xt 0%nat = 0 /\ xt (nt - 1)%nat = 2 * L /\
  (forall i, (S i < nt)%nat -> xt i < xt (S i)) /\ (forall j, (S j < nb)%nat -> xb j < xb (S j)).

Lemma inc_bounds : forall n (f : nat -> R), (forall i, (S i < n)%nat -> f i < f (S i)) ->
  forall j i, (i <= j)%nat -> (j < n)%nat -> f i <= f j.
Proof.
  intros n f H. induction j as [|j IH]; intros i Hi Hj; [replace i with 0%nat by lia; lra|].
  destruct (Nat.eq_dec i (S j)) as [->|]; [lra|]. pose proof (H j Hj). pose proof (IH i ltac:(lia) ltac:(lia)). lra.
Qed.
Lemma ordered_range : forall nt nb xt xb L, ordered nt nb xt xb L -> forall i, (i < nt)%nat -> 0 <= xt i <= 2 * L.
Proof.
  intros nt nb xt xb L (A & B & C & _) i Hi. rewrite <- A, <- B. split; apply (inc_bounds nt xt C); lia.
Qed.
Lemma ordered_chords : forall t nt nb xt xb L h H0, shape t nt nb xt xb L h H0 -> ordered nt nb xt xb L -> 0 < L -> 0 <= h -> 0 < H0 ->
  chords_ok t (- H0).
Proof.
  intros. eapply shape_chords; eauto; [eapply ordered_range; eauto| |]; destruct H1 as (_ & _ & C & D); auto.
Qed.

Lemma K_dx_ordered : forall L dx n, 0 < dx < L -> (1 <= n)%nat -> ordered (2 * n + 1) (2 * n) (xt_Kdx L dx n) (xb_dx L dx n) L.
Proof.
  intros L dx n Hd Hn. pose proof (Dk_eq L dx n Hn) as E. pose proof (Dk_pos L dx n Hn (proj2 Hd)) as P. pose proof (INR1 n Hn).
  split; [reflexivity|]. split; [apply xt_Kdx_end; lia|]. split.
  - intros i Hi. destruct (Nat.eq_dec (S i) (2 * n)) as [Z|Z].
    + rewrite (xt_Kdx_end L dx n (S i)) by lia. rewrite xt_Kdx_mid by lia. replace (INR i) with (2 * INR n - 1).
      * nra.
      * replace i with (2 * n - 1)%nat by lia. rewrite minus_INR, mult_INR by lia. simpl INR. ring.
    + rewrite (xt_Kdx_mid L dx n (S i)) by lia. rewrite S_INR. destruct (Nat.eq_dec i 0) as [->|Z0]; [unfold xt_Kdx; simpl; nra|].
      rewrite xt_Kdx_mid by lia. nra.
  - intros j Hj. unfold xb_dx. rewrite S_INR. nra.
Qed.
Lemma K_up_ordered : forall L n, 0 < L -> (1 <= n)%nat -> ordered (2 * n + 3) (2 * n + 2) (xt_Kup L n) (xb_Kup L n) L.
Proof.
  intros L n HL Hn. split; [reflexivity|]. split; [unfold xt_Kup; rewrite if_neq by lia; now rewrite if_eq by lia|]. split.
  - intros i Hi. destruct (Nat.eq_dec i 0) as [->|Z0].
    + rewrite (xt_Kup_mid L n 1) by lia. unfold xt_Kup at 1. simpl (if (0 =? 0)%nat then _ else _). change (1 - 1)%nat with 0%nat.
      pose proof (xb_Kup_inc L n 0 Hn HL). rewrite (xb_Kup_lo L n 0) in * by lia. simpl INR in *. lra.
    + rewrite (xt_Kup_mid L n i) by lia. destruct (Nat.eq_dec (S i) (2 * n + 2)) as [Z|Z].
      * unfold xt_Kup. rewrite if_neq by lia. rewrite if_eq by lia. pose proof (xb_Kup_inc L n (i - 1) Hn HL).
        replace (S (i - 1)) with i in * by lia. pose proof (xb_Kup_hi_ge L n i Hn HL ltac:(lia)). lra.
      * rewrite (xt_Kup_mid L n (S i)) by lia. replace (S i - 1)%nat with i by lia. pose proof (xb_Kup_inc L n (i - 1) Hn HL).
        replace (S (i - 1)) with i in * by lia. pose proof (xb_Kup_inc L n i Hn HL). lra.
  - intros j Hj. apply xb_Kup_inc; auto.
Qed.
Lemma INR2 : forall n, (2 <= n)%nat -> 2 <= INR n.
Proof. intros n H. change 2 with (INR 2). now apply le_INR. Qed.
Lemma down_facts : forall L n, 0 < L -> (2 <= n)%nat -> forall q D e, q = L / INR n -> D = L / (INR n - / 2) -> e = e_down L n ->
  INR n * q = L /\ (INR n - / 2) * D = L /\ (INR n - 1) * e = L - D /\ 0 < q /\ 0 < D /\ 0 < e /\ e <= q /\ / 2 * D <= q.
Proof.
  intros L n HL Hn q D e Eq ED Ee. pose proof (INR2 n Hn) as N2.
  assert (A : INR n * q = L) by (subst q; field; lra). assert (B : (INR n - / 2) * D = L) by (subst D; field; lra).
  assert (C : (INR n - 1) * e = L - D) by (subst e D; now apply e_down_eq).
  assert (Pq : 0 < q) by (subst q; apply Rdiv_lt_0_compat; lra). assert (PD : 0 < D) by (subst D; apply Rdiv_lt_0_compat; lra).
  assert (LD : D < L) by nra.
  assert (Pe : 0 < e). { apply Rmult_lt_reg_l with (INR n - 1); [lra|]. lra. }
  assert (Hq : / 2 * D <= q). { apply Rmult_le_reg_l with (INR n); [lra|]. nra. }
  assert (Le : e <= q). { apply Rmult_le_reg_l with (INR n - 1); [lra|]. nra. }
  repeat split; auto.
Qed.
Lemma xb_Kdown_lo : forall L n j, (1 <= j <= n)%nat -> xb_Kdown L n j = / 2 * (L / (INR n - / 2)) + (INR j - 1) * e_down L n.
Proof. intros. unfold xb_Kdown. rewrite if_neq by lia. now rewrite if_le by lia. Qed.
Lemma xb_Kdown_hi : forall L n j, (n < j <= 2 * n)%nat -> xb_Kdown L n j = 2 * L - (/ 2 * (L / (INR n - / 2)) + (2 * INR n - INR j) * e_down L n).
Proof. intros. unfold xb_Kdown. rewrite if_neq by lia. rewrite if_gt by lia. now rewrite if_le by lia. Qed.
Lemma xb_Kdown_end : forall L n j, (2 * n < j)%nat -> xb_Kdown L n j = 2 * L.
Proof. intros. unfold xb_Kdown. rewrite if_neq by lia. rewrite if_gt by lia. now rewrite if_gt by lia. Qed.
Lemma K_down_ordered : forall L n, 0 < L -> (2 <= n)%nat ->
  ordered (2 * n + 1) (2 * n + 2) (fun i => INR i * (L / INR n)) (xb_Kdown L n) L.
Proof.
  intros L n HL Hn. destruct (down_facts L n HL Hn _ _ _ eq_refl eq_refl eq_refl) as (A & B & C & Pq & PD & Pe & Le & Hq). pose proof (INR2 n Hn).
  split; [simpl; ring|]. split; [replace (2 * n + 1 - 1)%nat with (2 * n)%nat by lia; rewrite mult_INR; simpl INR; lra|]. split.
  - intros i Hi. rewrite S_INR. nra.
  - intros j Hj. destruct (Nat.eq_dec j 0) as [->|Z0].
    + rewrite (xb_Kdown_lo L n 1) by lia. unfold xb_Kdown at 1. rewrite if_eq by lia. simpl INR. lra.
    + destruct (le_dec (S j) n) as [Z1|Z1].
      * rewrite !xb_Kdown_lo by lia. rewrite S_INR. nra.
      * destruct (Nat.eq_dec j n) as [->|Z2].
        -- rewrite xb_Kdown_lo, xb_Kdown_hi by lia. rewrite S_INR. nra.
        -- destruct (Nat.eq_dec j (2 * n)) as [->|Z3].
           ++ rewrite xb_Kdown_hi, xb_Kdown_end by lia. rewrite mult_INR. simpl INR. lra.
           ++ rewrite !xb_Kdown_hi by lia. rewrite S_INR. nra.
Qed.
Lemma K_down_betw : forall L n i, 0 < L -> (2 <= n)%nat -> (i < 2 * n)%nat ->
  INR i * (L / INR n) <= xb_Kdown L n (1 + i) <= INR (S i) * (L / INR n).
Proof.
  intros L n i HL Hn Hi. destruct (down_facts L n HL Hn _ _ _ eq_refl eq_refl eq_refl) as (A & B & C & Pq & PD & Pe & Le & Hq). pose proof (INR2 n Hn).
  set (q := L / INR n) in *. set (D := L / (INR n - / 2)) in *. set (e := e_down L n) in *.
  assert (K : forall x, 0 <= x <= INR n - 1 -> x * q <= / 2 * D + x * e <= (x + 1) * q).
  { intros x [X0 X1]. split; [|nra]. assert ((INR n - 1 - x) * (q - e) >= 0) by (apply Rle_ge, Rmult_le_pos; lra). nra. }
  destruct (lt_dec i n) as [Z|Z].
  - rewrite xb_Kdown_lo by lia. fold D e. change (1 + i)%nat with (S i). rewrite !S_INR.
    assert (INR i <= INR n - 1) by (assert (INR (S i) <= INR n) by (apply le_INR; lia); rewrite S_INR in *; lra).
    pose proof (pos_INR i). destruct (K (INR i) ltac:(lra)). lra.
  - rewrite xb_Kdown_hi by lia. fold D e. change (1 + i)%nat with (S i). rewrite !S_INR.
    assert (INR n <= INR i) by (apply le_INR; lia).
    assert (INR i <= 2 * INR n - 1). { assert (INR (S i) <= INR (2 * n)) by (apply le_INR; lia). rewrite S_INR, mult_INR in *. simpl INR in *. lra. }
    destruct (K (2 * INR n - 1 - INR i) ltac:(lra)). nra.
Qed.
Lemma N_zero_ordered : forall L n, 0 < L -> (1 <= n)%nat ->
  ordered (2 * n + 1) (2 * n + 1) (fun i => INR i * (L / INR n)) (fun i => INR i * (L / INR n)) L.
Proof.
  intros L n HL Hn. pose proof (INR1 n Hn). assert (0 < L / INR n) by (apply Rdiv_lt_0_compat; lra).
  split; [simpl; ring|]. split; [replace (2 * n + 1 - 1)%nat with (2 * n)%nat by lia; rewrite mult_INR; simpl INR; field; lra|].
  split; intros i Hi; rewrite S_INR; nra.
Qed.
Lemma N_dx_ordered : forall L dx n, 0 < dx < L -> (2 <= n)%nat -> ordered (2 * n + 1) (2 * n - 1) (xt_N L dx n) (xb_N L dx n) L.
Proof.
  intros L dx n Hd Hn. pose proof (INR2 n Hn). set (e := (L - dx) / (INR n - 1)).
  assert (Pe : 0 < e) by (apply Rdiv_lt_0_compat; lra). assert (Ee : (INR n - 1) * e = L - dx) by (unfold e; field; lra).
  split; [reflexivity|]. split; [unfold xt_N; rewrite if_neq by lia; now rewrite if_eq by lia|]. split.
  - intros i Hi. destruct (Nat.eq_dec i 0) as [->|Z].
    + rewrite (xt_N_mid L dx n 1) by lia. unfold xt_N, xb_N. simpl. lra.
    + rewrite (xt_N_mid L dx n i) by lia. destruct (Nat.eq_dec (S i) (2 * n)) as [Z1|Z1].
      * unfold xt_N. rewrite if_neq by lia. rewrite if_eq by lia. unfold xb_N. fold e.
        replace (i - 1)%nat with (2 * n - 2)%nat by lia. rewrite minus_INR, mult_INR by lia. simpl INR. nra.
      * rewrite xt_N_mid by lia. unfold xb_N. fold e. replace (S i - 1)%nat with (S (i - 1)) by lia. rewrite S_INR. nra.
  - intros j Hj. unfold xb_N. fold e. rewrite S_INR. nra.
Qed.
Lemma KT_dx_ordered : forall L dx n, 0 < dx < L -> (1 <= n)%nat -> ordered (4 * n + 1) (2 * n) (xt_KTdx L dx n) (xb_dx L dx n) L.
Proof.
  intros L dx n Hd Hn. pose proof (Dk_eq L dx n Hn) as E. pose proof (Dk_pos L dx n Hn (proj2 Hd)) as P. pose proof (INR1 n Hn).
  split; [reflexivity|]. split; [unfold xt_KTdx; rewrite if_neq by lia; now rewrite if_eq by lia|]. split.
  - intros i Hi. destruct (Nat.eq_dec (S i) (4 * n)) as [Z|Z].
    + unfold xt_KTdx at 2. rewrite if_neq by lia. rewrite if_eq by lia. rewrite xt_KTdx_mid by lia. replace (INR i) with (4 * INR n - 1).
      * nra.
      * replace i with (4 * n - 1)%nat by lia. rewrite minus_INR, mult_INR by lia. simpl INR. ring.
    + rewrite (xt_KTdx_mid L dx n (S i)) by lia. rewrite S_INR. destruct (Nat.eq_dec i 0) as [->|Z0]; [unfold xt_KTdx; simpl; nra|].
      rewrite xt_KTdx_mid by lia. nra.
  - intros j Hj. unfold xb_dx. rewrite S_INR. nra.
Qed.
Lemma KT_up_ordered : forall L n, 0 < L -> (1 <= n)%nat ->
  ordered (4 * n + 3) (2 * n + 2) (fun i => INR i * (L / (2 * INR n + 1))) (fun j => INR j * (2 * L / (2 * INR n + 1))) L.
Proof.
  intros L n HL Hn. pose proof (INR1 n Hn). assert (0 < L / (2 * INR n + 1)) by (apply Rdiv_lt_0_compat; lra).
  assert (0 < 2 * L / (2 * INR n + 1)) by (apply Rdiv_lt_0_compat; lra).
  split; [simpl; ring|]. split.
  - replace (4 * n + 3 - 1)%nat with (2 * (2 * n + 1))%nat by lia. rewrite mult_INR, plus_INR, mult_INR. simpl INR. field; lra.
  - split; intros i Hi; rewrite S_INR; nra.
Qed.
Lemma KT_down_ordered : forall L n, 0 < L -> (1 <= n)%nat ->
  ordered (4 * n + 1) (2 * n + 2) (fun i => INR i * (L / (2 * INR n))) (xb_KTdown L n) L.
Proof.
  intros L n HL Hn. pose proof (INR1 n Hn). assert (0 < L / (2 * INR n)) by (apply Rdiv_lt_0_compat; lra).
  assert (PD : 0 < L / INR n) by (apply Rdiv_lt_0_compat; lra). assert (ED : INR n * (L / INR n) = L) by (field; lra).
  split; [simpl; ring|]. split; [|split].
  - replace (4 * n + 1 - 1)%nat with (4 * n)%nat by lia. rewrite mult_INR. simpl INR. field; lra.
  - intros i Hi; rewrite S_INR; nra.
  - intros j Hj. unfold xb_KTdown. destruct (Nat.eq_dec j 0) as [->|Z].
    + rewrite if_eq, if_neq, if_le by lia. simpl INR. lra.
    + rewrite !(if_neq _ 0) by lia. rewrite (if_le j) by lia. destruct (Nat.eq_dec j (2 * n)) as [->|Z1].
      * rewrite if_gt by lia. rewrite mult_INR. simpl INR. nra.
      * rewrite if_le by lia. rewrite S_INR. nra.
Qed.
