(** Symmetric trusses: both chords are mirror images about the middle. *)
From Verif Require Import Base EC3_model Sections_proofs Rhs_model Bool_tac.
From Verif Require Import Truss_proofs Truss3_proofs Truss4_proofs Truss5_proofs Truss6_proofs Truss7_proofs Truss8_proofs Truss10_proofs.
From Verif Require Import Truss_model Truss_spec.
Require Import Reals Lra List Bool Arith Lia Psatz.
Import ListNotations.
Local Open Scope R_scope.

Definition mirrorf (n : nat) (f : nat -> R) (L : R) : Prop := forall i, (i < n)%nat -> f (n - 1 - i)%nat = 2 * L - f i.

Lemma mirrorf_half : forall n (f : nat -> R) L, (forall i, (2 * i <= n - 1)%nat -> (i < n)%nat -> f (n - 1 - i)%nat = 2 * L - f i) -> mirrorf n f L.
Proof.
  intros n f L H i Hi. destruct (le_dec (2 * i) (n - 1)) as [C|C]; [now apply H|].
  pose proof (H (n - 1 - i)%nat ltac:(lia) ltac:(lia)) as E. replace (n - 1 - (n - 1 - i))%nat with i in E by lia. lra.
Qed.
Lemma INR_2n : forall n, INR (2 * n) = 2 * INR n.
Proof. intros. rewrite mult_INR. simpl. ring. Qed.

Lemma K_dx_mirror_t : forall L dx n, 0 < dx < L -> (1 <= n)%nat -> mirrorf (2 * n + 1) (xt_Kdx L dx n) L.
Proof.
  intros L dx n Hd Hn. pose proof (Dk_eq L dx n Hn) as E. apply mirrorf_half. intros i H1 H2.
  destruct (Nat.eq_dec i 0) as [->|Z].
  - rewrite xt_Kdx_end by lia. unfold xt_Kdx. simpl. lra.
  - rewrite !xt_Kdx_mid by lia. replace (2 * n + 1 - 1 - i)%nat with (2 * n - i)%nat by lia. rewrite minus_INR, INR_2n by lia. lra.
Qed.
Lemma dx_mirror_b : forall L dx n, 0 < dx < L -> (1 <= n)%nat -> mirrorf (2 * n) (xb_dx L dx n) L.
Proof.
  intros L dx n Hd Hn i Hi. pose proof (Dk_eq L dx n Hn) as E. unfold xb_dx. rewrite !minus_INR, INR_2n by lia. simpl INR. lra.
Qed.
Lemma K_up_mirror_b : forall L n, 0 < L -> (1 <= n)%nat -> mirrorf (2 * n + 2) (xb_Kup L n) L.
Proof.
  intros L n HL Hn. apply mirrorf_half. intros i H1 H2. rewrite xb_Kup_hi, xb_Kup_lo by lia.
  replace (2 * n + 2 - 1 - i)%nat with (2 * n + 1 - i)%nat by lia. rewrite minus_INR, plus_INR, INR_2n by lia. simpl INR. lra.
Qed.
Lemma K_up_mirror_t : forall L n, 0 < L -> (1 <= n)%nat -> mirrorf (2 * n + 3) (xt_Kup L n) L.
Proof.
  intros L n HL Hn. pose proof (K_up_mirror_b L n HL Hn) as M. apply mirrorf_half. intros i H1 H2.
  destruct (Nat.eq_dec i 0) as [->|Z].
  - unfold xt_Kup. rewrite if_neq, if_eq by lia. simpl. lra.
  - rewrite !xt_Kup_mid by lia. pose proof (M i ltac:(lia)) as A. pose proof (M (i - 1)%nat ltac:(lia)) as B.
    replace (2 * n + 2 - 1 - i)%nat with (2 * n + 3 - 1 - i - 1)%nat in A by lia.
    replace (2 * n + 2 - 1 - (i - 1))%nat with (2 * n + 3 - 1 - i)%nat in B by lia. lra.
Qed.
Lemma even_mirror : forall L m d, INR m * d = 2 * L -> mirrorf (m + 1) (fun i => INR i * d) L.
Proof.
  intros L m d E i Hi. cbv beta. replace (m + 1 - 1 - i)%nat with (m - i)%nat by lia. rewrite minus_INR by lia. lra.
Qed.
Lemma K_down_mirror_b : forall L n, 0 < L -> (2 <= n)%nat -> mirrorf (2 * n + 2) (xb_Kdown L n) L.
Proof.
  intros L n HL Hn. apply mirrorf_half. intros i H1 H2. unfold xb_Kdown. destruct (Nat.eq_dec i 0) as [->|Z].
  - rewrite if_neq, if_gt, if_gt by lia. rewrite if_eq by lia. lra.
  - rewrite if_neq, if_gt, if_le by lia. rewrite if_neq, if_le by lia. replace (2 * n + 2 - 1 - i)%nat with (2 * n + 1 - i)%nat by lia.
    rewrite minus_INR, plus_INR, INR_2n by lia. simpl INR. lra.
Qed.
Lemma N_dx_mirror_b : forall L dx n, 0 < dx < L -> (2 <= n)%nat -> mirrorf (2 * n - 1) (xb_N L dx n) L.
Proof.
  intros L dx n Hd Hn i Hi. assert (2 <= INR n) by (change 2 with (INR 2); now apply le_INR). unfold xb_N. rewrite !minus_INR, INR_2n by lia. simpl INR.
  assert ((INR n - 1) * ((L - dx) / (INR n - 1)) = L - dx) by (field; lra). lra.
Qed.
Lemma N_dx_mirror_t : forall L dx n, 0 < dx < L -> (2 <= n)%nat -> mirrorf (2 * n + 1) (xt_N L dx n) L.
Proof.
  intros L dx n Hd Hn. pose proof (N_dx_mirror_b L dx n Hd Hn) as M. apply mirrorf_half. intros i H1 H2.
  destruct (Nat.eq_dec i 0) as [->|Z].
  - unfold xt_N. rewrite if_neq, if_eq by lia. simpl. lra.
  - rewrite !xt_N_mid by lia. pose proof (M (i - 1)%nat ltac:(lia)) as A. replace (2 * n - 1 - 1 - (i - 1))%nat with (2 * n + 1 - 1 - i - 1)%nat in A by lia. exact A.
Qed.
Lemma KT_dx_mirror_t : forall L dx n, 0 < dx < L -> (1 <= n)%nat -> mirrorf (4 * n + 1) (xt_KTdx L dx n) L.
Proof.
  intros L dx n Hd Hn. pose proof (Dk_eq L dx n Hn) as E. apply mirrorf_half. intros i H1 H2.
  destruct (Nat.eq_dec i 0) as [->|Z].
  - unfold xt_KTdx. rewrite if_neq, if_eq by lia. simpl. lra.
  - rewrite !xt_KTdx_mid by lia. replace (4 * n + 1 - 1 - i)%nat with (2 * (2 * n) - i)%nat by lia. rewrite minus_INR, !INR_2n by lia. lra.
Qed.
Lemma KT_down_mirror_b : forall L n, 0 < L -> (1 <= n)%nat -> mirrorf (2 * n + 2) (xb_KTdown L n) L.
Proof.
  intros L n HL Hn. pose proof (INR1 n Hn). apply mirrorf_half. intros i H1 H2. unfold xb_KTdown. destruct (Nat.eq_dec i 0) as [->|Z].
  - rewrite if_neq, if_gt by lia. rewrite if_eq by lia. lra.
  - rewrite if_neq, if_le by lia. rewrite if_neq, if_le by lia. replace (2 * n + 2 - 1 - i)%nat with (2 * n + 1 - i)%nat by lia.
    rewrite minus_INR, plus_INR, INR_2n by lia. simpl INR. assert (INR n * (L / INR n) = L) by (field; lra). lra.
Qed.

Lemma shape_mirrored : forall t nt nb xt xb L h H0, shape t nt nb xt xb L h H0 -> mirrorf nt xt L -> mirrorf nb xb L ->
  mirrored L (top_nodes t) /\ mirrored L (bottom_nodes t).
Proof.
  intros t nt nb xt xb L h H0 (L1 & L2 & T & B) Mt Mb. split; intros i Hi; [rewrite L1 in *|rewrite L2 in *].
  - rewrite !T by lia. cbn [fst snd]. rewrite Mt by lia. split; [reflexivity|apply roof_mirror].
  - rewrite !B by lia. cbn [fst snd]. rewrite Mb by lia. split; reflexivity.
Qed.
Lemma shape_increasing : forall t nt nb xt xb L h H0, shape t nt nb xt xb L h H0 -> ordered nt nb xt xb L ->
  x_increasing (top_nodes t) /\ x_increasing (bottom_nodes t).
Proof.
  intros t nt nb xt xb L h H0 (L1 & L2 & T & B) (_ & _ & A & C). split; intros i Hi; [rewrite L1 in *|rewrite L2 in *].
  - rewrite !T by lia. cbn [fst]. now apply A.
  - rewrite !B by lia. cbn [fst]. now apply C.
Qed.

(** What the configurations have in common. *)
Lemma config : forall L dx H0 H1 tp n up edge, 0 <= dx < L -> usable tp up dx n ->
  exists t nt nb xt xb, generate_topology (mkSl L L dx dx H0 H1) tp n up edge = Some t /\
    shape t nt nb xt xb L (H1 - H0) H0 /\ ordered nt nb xt xb L /\ mirrorf nt xt L /\ mirrorf nb xb L /\
    (3 <= nt)%nat /\ (1 <= nb)%nat /\ Nat.odd nt = true.
Proof.
  intros L dx H0 H1 tp n up edge Hd (Hn & HN & HK). pose proof (INR1 n Hn) as N1. destruct (Req_dec dx 0) as [->|Z].
  - destruct tp.
    + destruct up.
      * destruct (K_up_shape L H0 H1 n edge ltac:(lra) Hn) as (t & Et & Sh & _). exists t. do 4 eexists. split; [exact Et|]. split; [exact Sh|].
        split; [apply K_up_ordered; auto; lra|]. split; [apply K_up_mirror_t; auto; lra|]. split; [apply K_up_mirror_b; auto; lra|].
        split; [lia|split; [lia|]]. replace (2 * n + 3)%nat with (S (2 * (n + 1))) by lia. now rewrite Nat.odd_succ, Nat.even_mul.
      * specialize (HK eq_refl eq_refl eq_refl). destruct (K_down_shape L H0 H1 n edge ltac:(lra) HK) as (t & Et & Sh & _). exists t. do 4 eexists. split; [exact Et|]. split; [exact Sh|].
        split; [apply K_down_ordered; auto; lra|]. split; [apply even_mirror; rewrite INR_2n; field; lra|]. split; [apply K_down_mirror_b; auto; lra|].
        split; [lia|split; [lia|]]. replace (2 * n + 1)%nat with (S (2 * n)) by lia. now rewrite Nat.odd_succ, Nat.even_mul.
    + destruct (N_zero_shape L H0 H1 n up edge ltac:(lra) Hn) as (t & Et & Sh & _). exists t. do 4 eexists. split; [exact Et|]. split; [exact Sh|].
      split; [apply N_zero_ordered; auto; lra|]. split; [apply even_mirror; rewrite INR_2n; field; lra|]. split; [apply even_mirror; rewrite INR_2n; field; lra|].
      split; [lia|split; [lia|]]. replace (2 * n + 1)%nat with (S (2 * n)) by lia. now rewrite Nat.odd_succ, Nat.even_mul.
    + destruct up.
      * destruct (KT_up_shape L H0 H1 n edge ltac:(lra) Hn) as (t & Et & Sh & _). exists t. do 4 eexists. split; [exact Et|]. split; [exact Sh|].
        split; [apply KT_up_ordered; auto; lra|].
        split; [replace (4 * n + 3)%nat with (2 * (2 * n + 1) + 1)%nat by lia; apply even_mirror; rewrite INR_2n, plus_INR, INR_2n; simpl INR; field; lra|].
        split; [replace (2 * n + 2)%nat with (2 * n + 1 + 1)%nat by lia; apply even_mirror; rewrite plus_INR, INR_2n; simpl INR; field; lra|].
        split; [lia|split; [lia|]]. replace (4 * n + 3)%nat with (S (2 * (2 * n + 1))) by lia. now rewrite Nat.odd_succ, Nat.even_mul.
      * destruct (KT_down_shape L H0 H1 n edge ltac:(lra) Hn) as (t & Et & Sh & _). exists t. do 4 eexists. split; [exact Et|]. split; [exact Sh|].
        split; [apply KT_down_ordered; auto; lra|].
        split; [replace (4 * n + 1)%nat with (2 * (2 * n) + 1)%nat by lia; apply even_mirror; rewrite !INR_2n; field; lra|].
        split; [apply KT_down_mirror_b; auto; lra|].
        split; [lia|split; [lia|]]. replace (4 * n + 1)%nat with (S (2 * (2 * n))) by lia. now rewrite Nat.odd_succ, Nat.even_mul.
  - assert (Hd' : 0 < dx < L) by lra. destruct tp.
    + destruct (K_dx_shape L dx H0 H1 n up edge Hd' Hn) as (t & Et & Sh & _). exists t. do 4 eexists. split; [exact Et|]. split; [exact Sh|].
      split; [now apply K_dx_ordered|]. split; [now apply K_dx_mirror_t|]. split; [now apply dx_mirror_b|].
      split; [lia|split; [lia|]]. replace (2 * n + 1)%nat with (S (2 * n)) by lia. now rewrite Nat.odd_succ, Nat.even_mul.
    + specialize (HN eq_refl (proj1 Hd')). destruct (N_dx_shape L dx H0 H1 n up edge Hd' HN) as (t & Et & Sh & _). exists t. do 4 eexists. split; [exact Et|]. split; [exact Sh|].
      split; [now apply N_dx_ordered|]. split; [now apply N_dx_mirror_t|]. split; [now apply N_dx_mirror_b|].
      split; [lia|split; [lia|]]. replace (2 * n + 1)%nat with (S (2 * n)) by lia. now rewrite Nat.odd_succ, Nat.even_mul.
    + destruct (KT_dx_shape L dx H0 H1 n up edge Hd' Hn) as (t & Et & Sh & _). exists t. do 4 eexists. split; [exact Et|]. split; [exact Sh|].
      split; [now apply KT_dx_ordered|]. split; [now apply KT_dx_mirror_t|]. split; [now apply dx_mirror_b|].
      split; [lia|split; [lia|]]. replace (4 * n + 1)%nat with (S (2 * (2 * n))) by lia. now rewrite Nat.odd_succ, Nat.even_mul.
Qed.

(** Geometry of the symmetric truss. *)
Lemma truss_geometry_lemma : forall L dx H0 H1 tp n up edge, 0 <= dx < L -> usable tp up dx n ->
  exists t, generate_topology (mkSl L L dx dx H0 H1) tp n up edge = Some t /\
    (forall p, In p (top_nodes t) -> snd p = roof L (H1 - H0) (fst p) /\ 0 <= fst p <= 2 * L) /\
    (forall p, In p (bottom_nodes t) -> snd p = - H0) /\
    x_increasing (top_nodes t) /\ x_increasing (bottom_nodes t) /\
    mirrored L (top_nodes t) /\ mirrored L (bottom_nodes t) /\
    hd (0, 1) (top_nodes t) = (0, 0) /\ last (top_nodes t) (0, 1) = (2 * L, 0) /\ In (L, H1 - H0) (top_nodes t).
Proof.
  intros L dx H0 H1 tp n up edge Hd U. destruct (config L dx H0 H1 tp n up edge Hd U) as (t & nt & nb & xt & xb & Et & Sh & O & Mt & Mb & N1 & N2 & Od).
  exists t. split; [exact Et|]. destruct (shape_mirrored _ _ _ _ _ _ _ _ Sh Mt Mb) as [A B]. destruct (shape_increasing _ _ _ _ _ _ _ _ Sh O) as [C D].
  destruct Sh as (L1 & L2 & T & Bt). destruct O as (O1 & O2 & O3 & O4).
  assert (Last : nth (nt - 1) (top_nodes t) (0, 0) = (2 * L, 0)).
  { rewrite T by lia. rewrite O2. f_equal. unfold roof. rewrite Rmin_right by lra. ring. }
  split.
  { intros p I. apply In_nth with (d := (0, 0)) in I. destruct I as (i & Hi & <-). rewrite L1 in Hi. rewrite T by lia. cbn [fst snd]. split; [reflexivity|].
    rewrite <- O1 at 1. rewrite <- O2. split; apply (inc_bounds nt xt O3); lia. }
  split. { intros p I. apply In_nth with (d := (0, 0)) in I. destruct I as (i & Hi & <-). rewrite L2 in Hi. now rewrite Bt by lia. }
  do 4 (split; [assumption|]).
  split.
  { destruct (top_nodes t) as [|p l] eqn:Ep; [simpl in L1; lia|]. cbn [hd]. pose proof (T 0%nat ltac:(lia)) as E. cbn [nth] in E. rewrite E, O1. f_equal.
    unfold roof. rewrite Rmin_left by lra. ring. }
  split.
  { rewrite <- Last. rewrite <- L1. rewrite (last_is_nth (top_nodes t) (0, 1) (0, 0)); [reflexivity|lia]. }
  apply Nat.odd_spec in Od. destruct Od as (k & Ek). pose proof (Mt k ltac:(lia)) as M. replace (nt - 1 - k)%nat with k in M by lia.
  replace (L, H1 - H0) with (nth k (top_nodes t) (0, 0)); [apply nth_In; lia|]. rewrite T by lia. replace (xt k) with L by lra.
  f_equal. unfold roof. rewrite Rmin_left by lra. field. lra.
Qed.
