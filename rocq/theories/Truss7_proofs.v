(** Node coordinates of the symmetric trusses, continued. *)
From Verif Require Import Base EC3_model Sections_proofs Rhs_model Bool_tac.
From Verif Require Import Truss_proofs Truss3_proofs Truss4_proofs Truss5_proofs Truss6_proofs Truss_model Truss_spec.
Require Import Reals Lra List Bool Arith Lia Psatz.
Import ListNotations.
Local Open Scope R_scope.

Lemma if_eq : forall {A} a b (x y : A), a = b -> (if (a =? b)%nat then x else y) = x.
Proof. intros. now rewrite (proj2 (Nat.eqb_eq a b)). Qed.
Lemma if_neq : forall {A} a b (x y : A), a <> b -> (if (a =? b)%nat then x else y) = y.
Proof. intros. now rewrite (proj2 (Nat.eqb_neq a b)). Qed.
Lemma if_le : forall {A} a b (x y : A), (a <= b)%nat -> (if (a <=? b)%nat then x else y) = x.
Proof. intros. now rewrite (proj2 (Nat.leb_le a b)). Qed.
Lemma if_gt : forall {A} a b (x y : A), (b < a)%nat -> (if (a <=? b)%nat then x else y) = y.
Proof. intros. now rewrite (proj2 (Nat.leb_gt a b)). Qed.

(* ------------------------------------------------ K, first diagonal up *)
(** Node distance in the halves of the bottom chord. *)
Definition e_up (L : R) (n : nat) : R := (L - / 2 * (L / INR n)) / INR n.
(** x coordinates of the bottom nodes. *)
Definition xb_Kup (L : R) (n j : nat) : R :=
  if (j <? n + 1)%nat then INR j * e_up L n else 2 * L - (2 * INR n + 1 - INR j) * e_up L n.
(** x coordinates of the top nodes. *)
Definition xt_Kup (L : R) (n i : nat) : R :=
  if (i =? 0)%nat then 0 else if (i =? 2 * n + 2)%nat then 2 * L else / 2 * (xb_Kup L n (i - 1) + xb_Kup L n i).

Lemma e_up_eq : forall L n, (1 <= n)%nat -> INR n * e_up L n = L - / 2 * (L / INR n).
Proof. intros L n H. pose proof (INR1 n H). unfold e_up. field. lra. Qed.
Lemma half_le : forall L n, (1 <= n)%nat -> 0 < L -> 0 < / 2 * (L / INR n) <= / 2 * L.
Proof.
  intros L n H HL. pose proof (INR1 n H). assert (0 < L / INR n) by (apply Rdiv_lt_0_compat; lra).
  assert (L / INR n * INR n = L) by (field; lra). split; nra.
Qed.
Lemma e_up_pos : forall L n, (1 <= n)%nat -> 0 < L -> 0 < e_up L n.
Proof. intros L n H HL. pose proof (INR1 n H). pose proof (half_le L n H HL). unfold e_up. apply Rdiv_lt_0_compat; lra. Qed.
Lemma xb_Kup_lo : forall L n j, (j <= n)%nat -> xb_Kup L n j = INR j * e_up L n.
Proof. intros. unfold xb_Kup. now rewrite if_lt by lia. Qed.
Lemma xb_Kup_hi : forall L n j, (n < j)%nat -> xb_Kup L n j = 2 * L - (2 * INR n + 1 - INR j) * e_up L n.
Proof. intros. unfold xb_Kup. now rewrite if_ge by lia. Qed.
Lemma xt_Kup_mid : forall L n i, (0 < i)%nat -> i <> (2 * n + 2)%nat -> xt_Kup L n i = / 2 * (xb_Kup L n (i - 1) + xb_Kup L n i).
Proof. intros. unfold xt_Kup. now rewrite !if_neq by lia. Qed.
Lemma xb_Kup_inc : forall L n j, (1 <= n)%nat -> 0 < L -> xb_Kup L n j < xb_Kup L n (S j).
Proof.
  intros L n j Hn HL. pose proof (e_up_eq L n Hn). pose proof (e_up_pos L n Hn HL). pose proof (half_le L n Hn HL). pose proof (INR1 n Hn).
  destruct (le_dec (S j) n) as [C|C].
  - rewrite !xb_Kup_lo by lia. rewrite S_INR. nra.
  - destruct (le_dec j n) as [C2|C2].
    + rewrite xb_Kup_lo, xb_Kup_hi by lia. assert (j = n) by lia. subst. rewrite S_INR. nra.
    + rewrite !xb_Kup_hi by lia. rewrite S_INR. nra.
Qed.
Lemma xb_Kup_mid : forall L n, (1 <= n)%nat -> xb_Kup L n n + xb_Kup L n (n + 1) = 2 * L.
Proof. intros L n Hn. rewrite xb_Kup_lo, xb_Kup_hi by lia. rewrite plus_INR. simpl. ring. Qed.
Lemma xb_Kup_lo_le : forall L n j, (1 <= n)%nat -> 0 < L -> (j <= n)%nat -> 0 <= xb_Kup L n j <= L.
Proof.
  intros L n j Hn HL Hj. rewrite xb_Kup_lo by lia. pose proof (e_up_eq L n Hn). pose proof (e_up_pos L n Hn HL). pose proof (half_le L n Hn HL).
  pose proof (pos_INR j). apply le_INR in Hj. split; nra.
Qed.
Lemma xb_Kup_hi_ge : forall L n j, (1 <= n)%nat -> 0 < L -> (n < j <= 2 * n + 1)%nat -> L <= xb_Kup L n j <= 2 * L.
Proof.
  intros L n j Hn HL Hj. rewrite xb_Kup_hi by lia. pose proof (e_up_eq L n Hn). pose proof (e_up_pos L n Hn HL). pose proof (half_le L n Hn HL).
  assert (INR n + 1 <= INR j) by (rewrite <- S_INR; apply le_INR; lia).
  assert (INR j <= 2 * INR n + 1). { replace (2 * INR n + 1) with (INR (2 * n + 1)) by (rewrite plus_INR, mult_INR; simpl; ring). apply le_INR; lia. }
  split; nra.
Qed.

Lemma K_up_shape : forall L H0 H1 n edge, 0 < L -> (1 <= n)%nat ->
  exists t, generate_topology (mkSl L L 0 0 H0 H1) TK n true edge = Some t /\
    shape t (2 * n + 3) (2 * n + 2) (xt_Kup L n) (xb_Kup L n) L (H1 - H0) H0 /\
    (forall i j, In (i, j) (braces t) <-> ((1 <= i <= 2 * n + 1 /\ (j = i - 1 \/ j = i)) \/
      (edge = true /\ ((i = 0 /\ j = 0) \/ (i = 2 * n + 2 /\ j = 2 * n + 1))))%nat).
Proof.
  intros L H0 H1 n edge HL Hn. pose proof (INR1 n Hn) as In1. unfold generate_topology.
  unfold K_bottom; cbn [s_dx1 s_L1]. rewrite ltb_f by lra. rewrite pdiv_ok by lra. cbn [bind].
  set (Xb := bottom_gap _ _ _ _).
  pose proof (e_up_eq L n Hn) as E. pose proof (e_up_pos L n Hn HL) as P.
  assert (Lb : length Xb = (2 * n + 2)%nat).
  { unfold Xb. rewrite bottom_gap_length, linspace_length. cbn [s_dx1]. rewrite andb_false_r. lia. }
  assert (Nb : forall j, (j < 2 * n + 2)%nat -> nth j Xb (0, 0) = (xb_Kup L n j, - H0)).
  { intros j Hj. unfold Xb. rewrite (gap_plain L 0 H0 H1 true (n + 1) (L / INR n) (e_up L n)); [|apply andb_false_r| |lia].
    - f_equal. unfold xb_Kup. destruct (j <? n + 1)%nat eqn:C; [ring|apply Nat.ltb_ge in C]. rewrite minus_INR by lia. rewrite plus_INR. simpl. lra.
    - replace (n + 1 - 1)%nat with n by lia. lra. }
  unfold K_top; cbn [s_dx1]. rewrite eqb_t by lra. rewrite xmid_sym, end_sym.
  set (A := mids (slice 0 (n + 1) Xb) _). set (B := mids (skipn (n + 1) Xb) _).
  assert (La : length A = (n + 1)%nat) by (unfold A; rewrite mids_length, !slice_length by lia; lia).
  assert (LB : length B = n) by (unfold B; rewrite mids_length, !skipn_length; lia).
  destruct (top_lines_sym L (H1 - H0) A B (xt_Kup L n)) as (Xt & E1 & E2 & E3); rewrite ?La, ?LB; try lia; try lra.
  - reflexivity.
  - intros i Hi. unfold A. rewrite nth_mids by (rewrite slice_length by lia; lia). rewrite !nth_slice by lia. rewrite !Nb by lia.
    rewrite xt_Kup_mid by lia. cbn [fst]. f_equal. f_equal; f_equal; lia.
  - intros i Hi. unfold B. rewrite nth_mids by (rewrite skipn_length; lia). rewrite !nth_skip. rewrite !Nb by lia.
    rewrite xt_Kup_mid by lia. cbn [fst]. f_equal. f_equal; f_equal; lia.
  - unfold xt_Kup. rewrite if_neq by lia. now rewrite if_eq by lia.
  - rewrite xt_Kup_mid by lia. replace (n + 1 - 1)%nat with n by lia. rewrite xb_Kup_mid by lia. lra.
  - intros i Hi. destruct (Nat.eq_dec i 0) as [->|Z]; [unfold xt_Kup; simpl; lra|]. rewrite xt_Kup_mid by lia.
    destruct (Nat.eq_dec i (n + 1)) as [->|Z1].
    + replace (n + 1 - 1)%nat with n by lia. rewrite xb_Kup_mid by lia. lra.
    + pose proof (xb_Kup_lo_le L n (i - 1) Hn HL ltac:(lia)). pose proof (xb_Kup_lo_le L n i Hn HL ltac:(lia)). lra.
  - intros i Hi. destruct (Nat.eq_dec i (2 * n + 2)) as [->|Z]; [unfold xt_Kup; rewrite if_neq by lia; rewrite if_eq by lia; lra|].
    rewrite xt_Kup_mid by lia.
    pose proof (xb_Kup_hi_ge L n (i - 1) Hn HL ltac:(lia)). pose proof (xb_Kup_hi_ge L n i Hn HL ltac:(lia)). lra.
  - rewrite E1. cbn [bind]. rewrite E2, Lb, La, LB. replace (n + 1 + n + 2)%nat with (2 * n + 3)%nat in * by lia.
    rewrite in_range_all; [|intros i j I; apply K_up_braces in I; [lia|lra]].
    eexists; split; [reflexivity|]. split.
    + unfold shape; cbn [top_nodes bottom_nodes]. rewrite E2, La, LB. repeat split; auto; try lia.
      intros i Hi. apply E3. rewrite La, LB. lia.
    + cbn [braces]. intros i j. apply K_up_braces. lra.
Qed.

(* ------------------------------------------------ K, first diagonal down *)
(** Node distance in the halves of the bottom chord. *)
Definition e_down (L : R) (n : nat) : R := (L - L / (INR n - / 2)) / (INR n - 1).
(** x coordinates of the bottom nodes. *)
Definition xb_Kdown (L : R) (n j : nat) : R :=
  if (j =? 0)%nat then 0 else if (j <=? n)%nat then / 2 * (L / (INR n - / 2)) + (INR j - 1) * e_down L n
  else if (j <=? 2 * n)%nat then 2 * L - (/ 2 * (L / (INR n - / 2)) + (2 * INR n - INR j) * e_down L n) else 2 * L.

Lemma e_down_eq : forall L n, (2 <= n)%nat -> (INR n - 1) * e_down L n = L - L / (INR n - / 2).
Proof. intros L n H. assert (2 <= INR n) by (change 2 with (INR 2); now apply le_INR). unfold e_down. field. lra. Qed.

Lemma division_shape : forall L dx dx' H0 H1 m, 0 < L -> (1 <= m)%nat ->
  length (top_by_division (0, 0) (xmid (mkSl L L dx dx' H0 H1)) (2 * L, 0) (m + 1)) = (2 * m + 1)%nat /\
  forall i, (i < 2 * m + 1)%nat -> nth i (top_by_division (0, 0) (xmid (mkSl L L dx dx' H0 H1)) (2 * L, 0) (m + 1)) (0, 0) =
    (INR i * (L / INR m), roof L (H1 - H0) (INR i * (L / INR m))).
Proof.
  intros L dx dx' H0 H1 m HL Hm. rewrite xmid_sym. destruct (top_division_sym L (H1 - H0) m HL Hm) as [A B].
  split; [exact A|]. intros i Hi. apply B. lia.
Qed.

Lemma K_down_shape : forall L H0 H1 n edge, 0 < L -> (2 <= n)%nat ->
  exists t, generate_topology (mkSl L L 0 0 H0 H1) TK n false edge = Some t /\
    shape t (2 * n + 1) (2 * n + 2) (fun i => INR i * (L / INR n)) (xb_Kdown L n) L (H1 - H0) H0 /\
    (forall i j, In (i, j) (braces t) <-> ((1 <= j <= 2 * n /\ (i = j - 1 \/ i = j)) \/
      (edge = true /\ ((i = 0 /\ j = 0) \/ (i = 2 * n /\ j = 2 * n + 1))))%nat).
Proof.
  intros L H0 H1 n edge HL Hn. assert (2 <= INR n) by (change 2 with (INR 2); now apply le_INR). unfold generate_topology.
  unfold K_bottom; cbn [s_dx1 s_L1]. rewrite ltb_f by lra. rewrite pdiv_ok by lra. cbn [bind].
  set (Xb := bottom_gap _ _ _ _).
  pose proof (e_down_eq L n Hn) as E.
  assert (Lb : length Xb = (2 * n + 2)%nat).
  { unfold Xb. rewrite bottom_gap_length, linspace_length. cbn [s_dx1]. rewrite eqb_t by lra. reflexivity. }
  assert (Nb : forall j, (j < 2 * n + 2)%nat -> nth j Xb (0, 0) = (xb_Kdown L n j, - H0)).
  { intros j Hj. unfold Xb. rewrite (gap_ends L H0 H1 n (L / (INR n - / 2)) (e_down L n)); [| |lia].
    - f_equal. unfold xb_Kdown. destruct (j =? 0)%nat eqn:C0; [reflexivity|apply Nat.eqb_neq in C0].
      destruct (j <=? n)%nat eqn:C; [rewrite minus_INR by lia; reflexivity|apply Nat.leb_gt in C].
      destruct (j <=? 2 * n)%nat eqn:C2; [|reflexivity]. rewrite !minus_INR by lia. simpl INR. lra.
    - rewrite minus_INR by lia. simpl INR. lra. }
  unfold K_top; cbn [s_dx1]. rewrite eqb_t by lra. cbn [bind]. rewrite end_sym.
  destruct (division_shape L 0 0 H0 H1 n HL ltac:(lia)) as [T1 T2]. rewrite T1, Lb.
  rewrite in_range_all; [|intros i j I; apply K_down_braces in I; [lia|lra]].
  eexists; split; [reflexivity|]. split.
  - unfold shape; cbn [top_nodes bottom_nodes]. repeat split; auto.
  - cbn [braces]. intros i j. apply K_down_braces. lra.
Qed.

(* ------------------------------------------------ N *)
Lemma N_zero_shape : forall L H0 H1 n up edge, 0 < L -> (1 <= n)%nat ->
  exists t, generate_topology (mkSl L L 0 0 H0 H1) TN n up edge = Some t /\
    shape t (2 * n + 1) (2 * n + 1) (fun i => INR i * (L / INR n)) (fun i => INR i * (L / INR n)) L (H1 - H0) H0 /\
    (forall i j, In (i, j) (braces t) <-> ((i = j /\ i <= 2 * n /\ (edge = true \/ 1 <= i < 2 * n)) \/
      (if up then (i = j + 1 /\ j < n) \/ (j = i + 1 /\ n <= i < 2 * n)
       else (j = i + 1 /\ i < n) \/ (i = j + 1 /\ n <= j < 2 * n)))%nat).
Proof.
  intros L H0 H1 n up edge HL Hn. pose proof (INR1 n Hn) as In1. unfold generate_topology. cbn [bind].
  set (Xb := N_bottom _ _).
  assert (Lb : length Xb = (2 * n + 1)%nat).
  { unfold Xb, N_bottom. cbn [s_dx1]. rewrite ltb_f by lra. rewrite app_length, !along_length, tl_length, linspace_length. lia. }
  assert (Nb : forall j, (j < 2 * n + 1)%nat -> nth j Xb (0, 0) = (INR j * (L / INR n), - H0)).
  { intros j Hj. unfold Xb, N_bottom. cbn [s_dx1 s_dx2]. rewrite ltb_f by lra. unfold span, ybot; cbn [s_L1 s_L2 s_H0].
    replace (0 - H0) with (- H0) by ring.
    destruct (le_dec j n) as [C|C].
    - rewrite app_nth1 by (rewrite along_length, linspace_length; lia). rewrite along_lin with (e := L / INR n); [f_equal; ring| |lia].
      replace (n + 1 - 1)%nat with n by lia. field. lra.
    - rewrite app_nth2 by (rewrite along_length, linspace_length; lia). rewrite along_length, linspace_length.
      rewrite along_lin_tl with (e := L / INR n); [|replace (n + 1 - 1)%nat with n by lia; field; lra|lia].
      replace (S (j - (n + 1))) with (j - n)%nat by lia. rewrite minus_INR by lia. f_equal. field. lra. }
  unfold N_top; cbn [s_dx1]. rewrite eqb_t by lra. cbn [bind]. rewrite xend_sym.
  destruct (division_shape L 0 0 H0 H1 n HL ltac:(lia)) as [T1 T2]. rewrite T1, Lb.
  rewrite in_range_all; [|intros i j I; apply N_zero_braces in I; [destruct up; lia|lra|lia]].
  eexists; split; [reflexivity|]. split.
  - unfold shape; cbn [top_nodes bottom_nodes]. repeat split; auto.
  - cbn [braces]. intros i j. apply N_zero_braces; [lra|lia].
Qed.

(** x coordinates of the bottom nodes of an 'N' web starting at [dx]. *)
Definition xb_N (L dx : R) (n j : nat) : R := dx + INR j * ((L - dx) / (INR n - 1)).
(** x coordinates of the top nodes. *)
Definition xt_N (L dx : R) (n i : nat) : R :=
  if (i =? 0)%nat then 0 else if (i =? 2 * n)%nat then 2 * L else xb_N L dx n (i - 1).
Lemma xt_N_mid : forall L dx n i, (0 < i)%nat -> i <> (2 * n)%nat -> xt_N L dx n i = xb_N L dx n (i - 1).
Proof. intros. unfold xt_N. now rewrite !if_neq by lia. Qed.

Lemma N_dx_shape : forall L dx H0 H1 n up edge, 0 < dx < L -> (2 <= n)%nat ->
  exists t, generate_topology (mkSl L L dx dx H0 H1) TN n up edge = Some t /\
    shape t (2 * n + 1) (2 * n - 1) (xt_N L dx n) (xb_N L dx n) L (H1 - H0) H0 /\
    (forall i j, In (i, j) (braces t) <-> ((i = j + 1 /\ j < 2 * n - 1) \/ (i = j /\ j < n) \/ (i = j + 2 /\ n <= j + 1 < 2 * n))%nat).
Proof.
  intros L dx H0 H1 n up edge Hd Hn. assert (In2 : 2 <= INR n) by (change 2 with (INR 2); now apply le_INR). unfold generate_topology. cbn [bind].
  set (Xb := N_bottom _ _). set (e := (L - dx) / (INR n - 1)).
  assert (Pe : 0 < e) by (apply Rdiv_lt_0_compat; lra). assert (Ee : (INR n - 1) * e = L - dx) by (unfold e; field; lra).
  assert (Lb : length Xb = (2 * n - 1)%nat).
  { unfold Xb, N_bottom. cbn [s_dx1]. rewrite ltb_t by lra. rewrite app_length, !along_length, tl_length, linspace_length. lia. }
  assert (Nb : forall j, (j < 2 * n - 1)%nat -> nth j Xb (0, 0) = (xb_N L dx n j, - H0)).
  { intros j Hj. unfold Xb, N_bottom. cbn [s_dx1 s_dx2]. rewrite ltb_t by lra. unfold span, ybot; cbn [s_L1 s_L2 s_H0].
    replace (0 - H0) with (- H0) by ring. unfold xb_N. fold e.
    destruct (lt_dec j n) as [C|C].
    - rewrite app_nth1 by (rewrite along_length, linspace_length; lia). rewrite along_lin with (e := e); [f_equal; ring| |lia].
      rewrite minus_INR by lia. simpl INR. lra.
    - rewrite app_nth2 by (rewrite along_length, linspace_length; lia). rewrite along_length, linspace_length.
      rewrite along_lin_tl with (e := e); [|rewrite minus_INR by lia; simpl INR; lra|lia].
      rewrite S_INR, minus_INR by lia. f_equal. lra. }
  unfold N_top; cbn [s_dx1]. rewrite eqb_f by lra. rewrite xmid_sym, xend_sym.
  set (A := slice 0 n Xb). set (B := skipn n Xb).
  assert (La : length A = n) by (unfold A; rewrite slice_length by lia; lia).
  assert (LB : length B = (n - 1)%nat) by (unfold B; rewrite skipn_length; lia).
  destruct (top_lines_sym L (H1 - H0) A B (xt_N L dx n)) as (Xt & E1 & E2 & E3); rewrite ?La, ?LB; try lia; try lra.
  - reflexivity.
  - intros i Hi. unfold A. rewrite nth_slice by lia. rewrite Nb by lia. rewrite xt_N_mid by lia. cbn [fst]. f_equal. lia.
  - intros i Hi. unfold B. rewrite nth_skip. rewrite Nb by lia. rewrite xt_N_mid by lia. cbn [fst]. f_equal. lia.
  - unfold xt_N. rewrite if_neq by lia. now rewrite if_eq by lia.
  - rewrite xt_N_mid by lia. unfold xb_N. fold e. rewrite minus_INR by lia. simpl INR. lra.
  - intros i Hi. destruct (Nat.eq_dec i 0) as [->|Z]; [unfold xt_N; simpl; lra|]. rewrite xt_N_mid by lia. unfold xb_N. fold e.
    rewrite minus_INR by lia. simpl INR. apply le_INR in Hi. nra.
  - intros i Hi. destruct (Nat.eq_dec i (2 * n)) as [Z|Z]; [unfold xt_N; rewrite if_neq by lia; rewrite if_eq by lia; lra|]. rewrite xt_N_mid by lia.
    unfold xb_N. fold e. rewrite minus_INR by lia. simpl INR. assert (INR n <= INR i) by (apply le_INR; lia). nra.
  - rewrite E1. cbn [bind]. rewrite E2, Lb, La, LB. replace (n + (n - 1) + 2)%nat with (2 * n + 1)%nat in * by lia.
    rewrite in_range_all; [|intros i j I; apply N_dx_braces in I; [lia|lra|lia]].
    eexists; split; [reflexivity|]. split.
    + unfold shape; cbn [top_nodes bottom_nodes]. rewrite E2, La, LB. repeat split; auto; try lia.
      intros i Hi. apply E3. rewrite La, LB. lia.
    + cbn [braces]. intros i j. apply N_dx_braces; [lra|lia].
Qed.
