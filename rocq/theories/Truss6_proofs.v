(** Node coordinates of the symmetric trusses of each web pattern. *)
From Verif Require Import Base EC3_model Sections_proofs Rhs_model Bool_tac.
From Verif Require Import Truss_proofs Truss3_proofs Truss4_proofs Truss5_proofs Truss_model Truss_spec.
Require Import Reals Lra List Bool Arith Lia Psatz.
Import ListNotations.
Local Open Scope R_scope.

Lemma half2 : forall L, / 2 * (L + L) = L.
Proof. intros; field. Qed.
Lemma xmid_sym : forall L a b H0 H1, xmid (mkSl L L a b H0 H1) = (L, H1 - H0).
Proof. intros. unfold xmid, span; cbn. now rewrite half2. Qed.
Lemma xend_sym : forall L a b H0 H1, xend (mkSl L L a b H0 H1) = (2 * L, 0).
Proof. intros. unfold xend, span; cbn. f_equal; ring. Qed.
Lemma end_sym : forall L a b H0 H1, (0 + span (mkSl L L a b H0 H1), 0) = (2 * L, 0).
Proof. intros. unfold span; cbn. f_equal; ring. Qed.

Lemma gap_plain : forall L dx H0 H1 up k D e, Reqb dx 0 && negb up = false -> L - / 2 * D - dx = INR (k - 1) * e ->
  forall j, (j < 2 * k)%nat -> nth j (bottom_gap (mkSl L L dx dx H0 H1) up (linspace k) D) (0, 0) =
    (if (j <? k)%nat then dx + INR j * e else L + / 2 * D + INR (j - k) * e, - H0).
Proof.
  intros L dx H0 H1 up k D e Ends E j Hj. unfold bottom_gap. cbn [s_dx1 s_dx2 s_L1]. rewrite Ends. unfold ybot, span; cbn [s_L1 s_L2 s_H0 fst].
  replace (0 - H0) with (- H0) by ring.
  destruct (j <? k)%nat eqn:C; [apply Nat.ltb_lt in C|apply Nat.ltb_ge in C].
  - rewrite app_nth1 by (rewrite along_length, linspace_length; lia). rewrite along_lin with (e := e) by (auto; lra). f_equal. ring.
  - rewrite app_nth2 by (rewrite along_length, linspace_length; lia). rewrite along_length, linspace_length.
    rewrite along_lin with (e := e) by (try lia; lra). f_equal. lra.
Qed.
Lemma gap_ends : forall L H0 H1 k D e, L - D = INR (k - 1) * e ->
  forall j, (j < 2 * k + 2)%nat -> nth j (bottom_gap (mkSl L L 0 0 H0 H1) false (linspace k) D) (0, 0) =
    (if (j =? 0)%nat then 0 else if (j <=? k)%nat then / 2 * D + INR (j - 1) * e
     else if (j <=? 2 * k)%nat then L + / 2 * D + INR (j - 1 - k) * e else 2 * L, - H0).
Proof.
  intros L H0 H1 k D e E j Hj. unfold bottom_gap. cbn [s_dx1 s_dx2 s_L1]. rewrite eqb_t by reflexivity. cbn [negb andb].
  unfold ybot, span; cbn [s_L1 s_L2 s_H0 fst]. replace (0 - H0) with (- H0) by ring.
  destruct j as [|j]; [reflexivity|]. cbn [nth Nat.eqb]. replace (S j - 1)%nat with j by lia.
  destruct (S j <=? k)%nat eqn:C; [apply Nat.leb_le in C|apply Nat.leb_gt in C].
  - rewrite app_nth1 by (rewrite app_length, !along_length, linspace_length; lia).
    rewrite app_nth1 by (rewrite along_length, linspace_length; lia). rewrite along_lin with (e := e) by (auto; lra). f_equal. ring.
  - destruct (S j <=? 2 * k)%nat eqn:C2; [apply Nat.leb_le in C2|apply Nat.leb_gt in C2].
    + rewrite app_nth1 by (rewrite app_length, !along_length, linspace_length; lia).
      rewrite app_nth2 by (rewrite along_length, linspace_length; lia). rewrite along_length, linspace_length.
      rewrite along_lin with (e := e) by (try lia; lra). f_equal. lra.
    + rewrite app_nth2 by (rewrite app_length, !along_length, linspace_length; lia).
      rewrite app_length, !along_length, linspace_length. replace (j - (k + k))%nat with 0%nat by lia. cbn [nth]. f_equal. ring.
Qed.

Lemma if_lt : forall {A} a b (x y : A), (a < b)%nat -> (if (a <? b)%nat then x else y) = x.
Proof. intros. now rewrite (proj2 (Nat.ltb_lt a b)). Qed.
Lemma if_ge : forall {A} a b (x y : A), (b <= a)%nat -> (if (a <? b)%nat then x else y) = y.
Proof. intros. now rewrite (proj2 (Nat.ltb_ge a b)). Qed.
Lemma INR1 : forall n, (1 <= n)%nat -> 1 <= INR n.
Proof. intros n H. change 1 with (INR 1). now apply le_INR. Qed.

(** Distance of the nodes of a 'K' or 'KT' web whose bottom chord starts at [dx]. *)
Definition Dk (L dx : R) (n : nat) : R := (L - dx) / (INR n - / 2).
Lemma Dk_eq : forall L dx n, (1 <= n)%nat -> Dk L dx n * (INR n - / 2) = L - dx.
Proof. intros L dx n H. pose proof (INR1 n H). unfold Dk. field. lra. Qed.
Lemma Dk_pos : forall L dx n, (1 <= n)%nat -> dx < L -> 0 < Dk L dx n.
Proof. intros L dx n H Hd. pose proof (INR1 n H). unfold Dk. apply Rdiv_lt_0_compat; lra. Qed.

(** x coordinates of the top nodes of a 'K' web whose bottom chord starts at [dx]. *)
Definition xt_Kdx (L dx : R) (n i : nat) : R :=
  if (i =? 0)%nat then 0 else if (i =? 2 * n)%nat then 2 * L else dx + (INR i - / 2) * Dk L dx n.
(** x coordinates of the bottom nodes. *)
Definition xb_dx (L dx : R) (n j : nat) : R := dx + INR j * Dk L dx n.

Lemma xt_Kdx_mid : forall L dx n i, (0 < i)%nat -> i <> (2 * n)%nat -> xt_Kdx L dx n i = dx + (INR i - / 2) * Dk L dx n.
Proof. intros. unfold xt_Kdx. now rewrite !(proj2 (Nat.eqb_neq _ _)) by lia. Qed.
Lemma xt_Kdx_end : forall L dx n i, (0 < i)%nat -> i = (2 * n)%nat -> xt_Kdx L dx n i = 2 * L.
Proof. intros. unfold xt_Kdx. rewrite (proj2 (Nat.eqb_neq _ _)) by lia. now rewrite (proj2 (Nat.eqb_eq _ _)) by lia. Qed.

Lemma gap_dx : forall L dx H0 H1 up n, (1 <= n)%nat -> dx <> 0 -> forall j, (j < 2 * n)%nat ->
  nth j (bottom_gap (mkSl L L dx dx H0 H1) up (linspace n) (Dk L dx n)) (0, 0) = (xb_dx L dx n j, - H0).
Proof.
  intros L dx H0 H1 up n Hn Hd j Hj. pose proof (Dk_eq L dx n Hn) as E.
  rewrite (gap_plain L dx H0 H1 up n (Dk L dx n) (Dk L dx n)); [|now rewrite eqb_f|rewrite minus_INR by lia; simpl; lra|exact Hj].
  f_equal. unfold xb_dx. destruct (j <? n)%nat eqn:C; [reflexivity|apply Nat.ltb_ge in C]. rewrite minus_INR by lia. lra.
Qed.

Lemma K_dx_shape : forall L dx H0 H1 n up edge, 0 < dx < L -> (1 <= n)%nat ->
  exists t, generate_topology (mkSl L L dx dx H0 H1) TK n up edge = Some t /\
    shape t (2 * n + 1) (2 * n) (xt_Kdx L dx n) (xb_dx L dx n) L (H1 - H0) H0 /\
    (forall i j, In (i, j) (braces t) <-> ((j < 2 * n /\ (i = j \/ i = j + 1))%nat)).
Proof.
  intros L dx H0 H1 n up edge Hd Hn. pose proof (INR1 n Hn) as In1. unfold generate_topology.
  unfold K_bottom; cbn [s_dx1 s_L1]. rewrite ltb_t by lra. rewrite pdiv_ok by lra. cbn [bind]. fold (Dk L dx n).
  set (Xb := bottom_gap _ _ _ _).
  assert (Lb : length Xb = (2 * n)%nat).
  { unfold Xb. rewrite bottom_gap_length, linspace_length. cbn [s_dx1]. now rewrite eqb_f by lra. }
  assert (Nb : forall j, (j < 2 * n)%nat -> nth j Xb (0, 0) = (xb_dx L dx n j, - H0)) by (intros; unfold Xb; apply gap_dx; auto; lra).
  unfold K_top; cbn [s_dx1]. rewrite eqb_f by lra. rewrite xmid_sym, end_sym.
  set (A := mids (slice 0 n Xb) _). set (B := mids (skipn n Xb) _).
  assert (La : length A = n) by (unfold A; rewrite mids_length, !slice_length by lia; lia).
  assert (LB : length B = (n - 1)%nat) by (unfold B; rewrite mids_length, !skipn_length; lia).
  pose proof (Dk_eq L dx n Hn) as E. pose proof (Dk_pos L dx n Hn (proj2 Hd)) as P.
  destruct (top_lines_sym L (H1 - H0) A B (xt_Kdx L dx n)) as (Xt & E1 & E2 & E3); rewrite ?La, ?LB; try lia; try lra.
  - reflexivity.
  - intros i Hi. unfold A. rewrite nth_mids by (rewrite slice_length by lia; lia). rewrite !nth_slice by lia. rewrite !Nb by lia.
    rewrite xt_Kdx_mid by lia. unfold xb_dx. cbn [fst]. rewrite ?S_INR, ?plus_INR. simpl. lra.
  - intros i Hi. unfold B. rewrite nth_mids by (rewrite skipn_length; lia). rewrite !nth_skip. rewrite !Nb by lia.
    rewrite xt_Kdx_mid by lia. unfold xb_dx. cbn [fst]. rewrite ?S_INR, ?plus_INR. simpl. lra.
  - apply xt_Kdx_end; lia.
  - rewrite xt_Kdx_mid by lia. lra.
  - intros i Hi. destruct (Nat.eq_dec i 0) as [->|Z]; [unfold xt_Kdx; simpl; lra|]. rewrite xt_Kdx_mid by lia.
    apply le_INR in Hi. nra.
  - intros i Hi. destruct (Nat.eq_dec i (2 * n)) as [Z|Z]; [rewrite xt_Kdx_end by lia; lra|]. rewrite xt_Kdx_mid by lia.
    assert (INR n <= INR i) by (apply le_INR; lia). nra.
  - rewrite E1. cbn [bind]. rewrite E2, Lb, La, LB. replace (n + (n - 1) + 2)%nat with (2 * n + 1)%nat in * by lia.
    rewrite in_range_all; [|intros i j I; apply K_dx_braces in I; [lia|lra]].
    eexists; split; [reflexivity|]. split.
    + unfold shape; cbn [top_nodes bottom_nodes]. rewrite E2, La, LB. repeat split; auto; try lia.
      intros i Hi. apply E3. rewrite La, LB. lia.
    + cbn [braces]. intros i j. apply K_dx_braces. lra.
Qed.
