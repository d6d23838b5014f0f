(** Node coordinates of the symmetric trusses with the 'KT' web. *)
From Verif Require Import Base EC3_model Sections_proofs Rhs_model Bool_tac.
From Verif Require Import Truss_proofs Truss3_proofs Truss4_proofs Truss5_proofs Truss6_proofs Truss7_proofs Truss_model Truss_spec.
Require Import Reals Lra List Bool Arith Lia Psatz.
Import ListNotations.
Local Open Scope R_scope.

Lemma nth_with_half : forall D (l : list pt) i, (i < length l)%nat ->
  nth (2 * i) (with_half D l) (0, 0) = nth i l (0, 0) /\
  nth (2 * i + 1) (with_half D l) (0, 0) = (fst (nth i l (0, 0)) + / 2 * D, snd (nth i l (0, 0))).
Proof.
  intros D; induction l as [|x l IH]; intros i H; simpl in H; [lia|]. destruct i as [|i]; [split; reflexivity|].
  replace (2 * S i)%nat with (S (S (2 * i))) by lia. replace (S (S (2 * i)) + 1)%nat with (S (S (2 * i + 1))) by lia.
  cbn [with_half flat_map app nth]. apply IH. lia.
Qed.
Lemma with_half_lin : forall D (l : list pt) (f : R -> R), (forall i, (i < length l)%nat -> fst (nth i l (0, 0)) = f 0 + INR i * D) ->
  forall k, (k < 2 * length l)%nat -> fst (nth k (with_half D l) (0, 0)) = f 0 + INR k * (/ 2 * D).
Proof.
  intros D l f H k Hk. destruct (Nat.Even_or_Odd k) as [[i ->]|[i ->]].
  - destruct (nth_with_half D l i) as [A _]; [lia|]. rewrite A, H by lia. rewrite mult_INR. simpl INR. lra.
  - destruct (nth_with_half D l i) as [_ A]; [lia|]. rewrite A. cbn [fst]. rewrite H by lia. rewrite plus_INR, mult_INR. simpl INR. lra.
Qed.
Lemma nth_removelast : forall (l : list pt) i d, (i < length l - 1)%nat -> nth i (removelast l) d = nth i l d.
Proof.
  induction l as [|x l IH]; intros i d H; [reflexivity|]. destruct l as [|y l]; [simpl in H; lia|].
  change (removelast (x :: y :: l)) with (x :: removelast (y :: l)). destruct i as [|i]; [reflexivity|]. cbn [nth]. rewrite IH by (simpl in *; lia). reflexivity.
Qed.
Lemma last_is_nth : forall (l : list pt) p d, (1 <= length l)%nat -> last l p = nth (length l - 1) l d.
Proof.
  induction l as [|x l IH]; intros p d H; [simpl in H; lia|]. destruct l as [|y l]; [reflexivity|].
  change (last (x :: y :: l) p) with (last (y :: l) p). rewrite (IH p d) by (simpl; lia). simpl length.
  replace (S (S (length l)) - 1)%nat with (S (S (length l) - 1))%nat by lia. reflexivity.
Qed.

(** x coordinates of the top nodes of a 'KT' web whose bottom chord starts at [dx]. *)
Definition xt_KTdx (L dx : R) (n i : nat) : R :=
  if (i =? 0)%nat then 0 else if (i =? 4 * n)%nat then 2 * L else dx + (INR i - 1) * (/ 2 * Dk L dx n).
Lemma xt_KTdx_mid : forall L dx n i, (0 < i)%nat -> i <> (4 * n)%nat -> xt_KTdx L dx n i = dx + (INR i - 1) * (/ 2 * Dk L dx n).
Proof. intros. unfold xt_KTdx. now rewrite !if_neq by lia. Qed.

Lemma KT_dx_shape : forall L dx H0 H1 n up edge, 0 < dx < L -> (1 <= n)%nat ->
  exists t, generate_topology (mkSl L L dx dx H0 H1) TKT n up edge = Some t /\
    shape t (4 * n + 1) (2 * n) (xt_KTdx L dx n) (xb_dx L dx n) L (H1 - H0) H0 /\
    (forall i j, In (i, j) (braces t) <-> ((j < 2 * n /\ (i = 2 * j \/ i = 2 * j + 1 \/ i = 2 * j + 2))%nat)).
Proof.
  intros L dx H0 H1 n up edge Hd Hn. pose proof (INR1 n Hn) as In1. unfold generate_topology.
  unfold KT_bottom; cbn [s_dx1 s_L1]. rewrite ltb_t by lra. rewrite pdiv_ok by lra. cbn [bind]. fold (Dk L dx n).
  set (Xb := bottom_gap _ _ _ _).
  assert (Lb : length Xb = (2 * n)%nat).
  { unfold Xb. rewrite bottom_gap_length, linspace_length. cbn [s_dx1]. now rewrite eqb_f by lra. }
  assert (Nb : forall j, (j < 2 * n)%nat -> nth j Xb (0, 0) = (xb_dx L dx n j, - H0)) by (intros; unfold Xb; apply gap_dx; auto; lra).
  unfold KT_top; cbn [s_dx1 s_L1]. rewrite eqb_f by lra. rewrite xmid_sym, xend_sym. rewrite pdiv_ok by lra. cbn [bind]. fold (Dk L dx n).
  assert (exists p r, Xb = p :: r) as (p & r & Ep) by (destruct Xb as [|p r]; [simpl in Lb; lia|now exists p, r]).
  replace (match Xb with [] => None | p :: _ => top_by_lines (0, 0) (L, H1 - H0) (2 * L, 0) (with_half (Dk L dx n) (slice 0 n Xb))
          (with_half (Dk L dx n) (removelast (skipn n Xb)) ++ [last Xb p]) end)
    with (top_by_lines (0, 0) (L, H1 - H0) (2 * L, 0) (with_half (Dk L dx n) (slice 0 n Xb))
          (with_half (Dk L dx n) (removelast (skipn n Xb)) ++ [last Xb p])) by (rewrite Ep; reflexivity).
  set (A := with_half (Dk L dx n) (slice 0 n Xb)). set (B := with_half (Dk L dx n) (removelast (skipn n Xb)) ++ [last Xb p]).
  assert (La : length A = (2 * n)%nat) by (unfold A; rewrite with_half_length, slice_length by lia; lia).
  assert (LB : length B = (2 * n - 1)%nat).
  { unfold B. rewrite app_length, with_half_length, removelast_length, skipn_length, Lb. simpl. lia. }
  pose proof (Dk_eq L dx n Hn) as E. pose proof (Dk_pos L dx n Hn (proj2 Hd)) as P.
  destruct (top_lines_sym L (H1 - H0) A B (xt_KTdx L dx n)) as (Xt & E1 & E2 & E3); rewrite ?La, ?LB; try lia; try lra.
  - reflexivity.
  - intros i Hi. unfold A. rewrite (with_half_lin _ _ (fun _ => dx)).
    + rewrite xt_KTdx_mid by lia. rewrite S_INR. lra.
    + intros k Hk. rewrite slice_length in Hk by lia. rewrite nth_slice by lia. rewrite Nb by lia. reflexivity.
    + rewrite slice_length by lia. lia.
  - intros i Hi. rewrite xt_KTdx_mid by lia. unfold B.
    assert (Lw : length (with_half (Dk L dx n) (removelast (skipn n Xb))) = (2 * n - 2)%nat)
      by (rewrite with_half_length, removelast_length, skipn_length, Lb; lia).
    destruct (Nat.eq_dec i (2 * n - 2)) as [->|Z].
    + rewrite app_nth2 by lia. rewrite Lw, Nat.sub_diag. cbn [nth]. rewrite (last_is_nth Xb p (0, 0)) by lia. rewrite Lb, Nb by lia.
      unfold xb_dx. cbn [fst]. rewrite S_INR, plus_INR, !minus_INR, !mult_INR by lia. simpl INR. lra.
    + rewrite app_nth1 by lia. rewrite (with_half_lin _ _ (fun _ => dx + INR n * Dk L dx n)).
      * rewrite S_INR, plus_INR, mult_INR. simpl INR. lra.
      * intros k Hk. rewrite removelast_length, skipn_length in Hk. rewrite nth_removelast by (rewrite skipn_length; lia). rewrite nth_skip, Nb by lia.
        unfold xb_dx. cbn [fst]. rewrite plus_INR. lra.
      * rewrite removelast_length, skipn_length. lia.
  - unfold xt_KTdx. rewrite if_neq by lia. now rewrite if_eq by lia.
  - rewrite xt_KTdx_mid by lia. rewrite mult_INR. simpl INR. lra.
  - intros i Hi. destruct (Nat.eq_dec i 0) as [->|Z]; [unfold xt_KTdx; simpl; lra|]. rewrite xt_KTdx_mid by lia.
    apply le_INR in Hi. rewrite mult_INR in Hi. simpl INR in Hi. nra.
  - intros i Hi. destruct (Nat.eq_dec i (4 * n)) as [Z|Z]; [unfold xt_KTdx; rewrite if_neq by lia; rewrite if_eq by lia; lra|]. rewrite xt_KTdx_mid by lia.
    assert (2 * INR n <= INR i). { replace (2 * INR n) with (INR (2 * n)) by (rewrite mult_INR; simpl; ring). apply le_INR; lia. } nra.
  - rewrite E1. cbn [bind]. rewrite E2, Lb, La, LB. replace (2 * n + (2 * n - 1) + 2)%nat with (4 * n + 1)%nat in * by lia.
    rewrite in_range_all; [|intros i j I; apply KT_dx_braces in I; [lia|lra]].
    eexists; split; [reflexivity|]. split.
    + unfold shape; cbn [top_nodes bottom_nodes]. rewrite E2, La, LB. repeat split; auto; try lia.
      intros i Hi. apply E3. rewrite La, LB. lia.
    + cbn [braces]. intros i j. apply KT_dx_braces. lra.
Qed.

Lemma KT_up_shape : forall L H0 H1 n edge, 0 < L -> (1 <= n)%nat ->
  exists t, generate_topology (mkSl L L 0 0 H0 H1) TKT n true edge = Some t /\
    shape t (4 * n + 3) (2 * n + 2) (fun i => INR i * (L / (2 * INR n + 1))) (fun j => INR j * (2 * L / (2 * INR n + 1))) L (H1 - H0) H0 /\
    (forall i j, In (i, j) (braces t) <-> ((i = 2 * j /\ j <= 2 * n + 1 /\ (edge = true \/ 1 <= j <= 2 * n)) \/
      (i = 2 * j + 1 /\ j <= 2 * n) \/ (i + 1 = 2 * j /\ 1 <= j <= 2 * n + 1))%nat).
Proof.
  intros L H0 H1 n edge HL Hn. pose proof (INR1 n Hn) as In1. unfold generate_topology.
  assert (Em : INR (2 * n + 1) = 2 * INR n + 1) by (rewrite plus_INR, mult_INR; simpl; ring).
  unfold KT_bottom; cbn [s_dx1 s_L1]. rewrite ltb_f by lra. rewrite pdiv_ok by (rewrite Em; lra). rewrite Em. cbn [bind].
  set (D := 2 * L / (2 * INR n + 1)). assert (ED : D * (2 * INR n + 1) = 2 * L) by (unfold D; field; lra).
  set (Xb := bottom_gap _ _ _ _).
  assert (Lb : length Xb = (2 * n + 2)%nat).
  { unfold Xb. rewrite bottom_gap_length, linspace_length. cbn [s_dx1]. rewrite andb_false_r. lia. }
  assert (Nb : forall j, (j < 2 * n + 2)%nat -> nth j Xb (0, 0) = (INR j * D, - H0)).
  { intros j Hj. unfold Xb. rewrite (gap_plain L 0 H0 H1 true (n + 1) D D); [|apply andb_false_r| |lia].
    - f_equal. destruct (j <? n + 1)%nat eqn:C; [ring|apply Nat.ltb_ge in C]. rewrite minus_INR by lia. rewrite plus_INR. simpl INR. lra.
    - replace (n + 1 - 1)%nat with n by lia. lra. }
  unfold KT_top; cbn [s_dx1]. rewrite eqb_t by lra. cbn [bind]. rewrite xend_sym.
  destruct (division_shape L 0 0 H0 H1 (2 * n + 1) HL ltac:(lia)) as [T1 T2].
  replace (2 * n + 1 + 1)%nat with (2 * n + 2)%nat in * by lia. rewrite T1, Lb.
  replace (2 * (2 * n + 1) + 1)%nat with (4 * n + 3)%nat in * by lia.
  rewrite in_range_all; [|intros i j I; apply KT_up_braces in I; [lia|lra|lia]].
  eexists; split; [reflexivity|]. split.
  - unfold shape; cbn [top_nodes bottom_nodes]. repeat split; auto. intros i Hi. rewrite T2 by lia. rewrite Em. reflexivity.
  - cbn [braces]. intros i j. apply KT_up_braces; [lra|lia].
Qed.

(** x coordinates of the bottom nodes of a 'KT' web that starts downwards. *)
Definition xb_KTdown (L : R) (n j : nat) : R :=
  if (j =? 0)%nat then 0 else if (j <=? 2 * n)%nat then (INR j - / 2) * (L / INR n) else 2 * L.

Lemma KT_down_shape : forall L H0 H1 n edge, 0 < L -> (1 <= n)%nat ->
  exists t, generate_topology (mkSl L L 0 0 H0 H1) TKT n false edge = Some t /\
    shape t (4 * n + 1) (2 * n + 2) (fun i => INR i * (L / (2 * INR n))) (xb_KTdown L n) L (H1 - H0) H0 /\
    (forall i j, In (i, j) (braces t) <-> ((1 <= j <= 2 * n /\ (i + 2 = 2 * j \/ i + 1 = 2 * j \/ i = 2 * j)) \/
      (edge = true /\ ((i = 0 /\ j = 0) \/ (i = 4 * n /\ j = 2 * n + 1))))%nat).
Proof.
  intros L H0 H1 n edge HL Hn. pose proof (INR1 n Hn) as In1. unfold generate_topology.
  assert (Em : INR (2 * n) = 2 * INR n) by (rewrite mult_INR; simpl; ring).
  unfold KT_bottom; cbn [s_dx1 s_L1]. rewrite ltb_f by lra. rewrite pdiv_ok by lra. cbn [bind].
  set (D := L / INR n). assert (ED : D * INR n = L) by (unfold D; field; lra).
  set (Xb := bottom_gap _ _ _ _).
  assert (Lb : length Xb = (2 * n + 2)%nat).
  { unfold Xb. rewrite bottom_gap_length, linspace_length. cbn [s_dx1]. rewrite eqb_t by lra. reflexivity. }
  assert (Nb : forall j, (j < 2 * n + 2)%nat -> nth j Xb (0, 0) = (xb_KTdown L n j, - H0)).
  { intros j Hj. unfold Xb. rewrite (gap_ends L H0 H1 n D D); [| |lia].
    - f_equal. unfold xb_KTdown. fold D. destruct (j =? 0)%nat eqn:C0; [reflexivity|apply Nat.eqb_neq in C0].
      destruct (j <=? n)%nat eqn:C; [apply Nat.leb_le in C; rewrite if_le by lia; rewrite minus_INR by lia; simpl INR; lra|apply Nat.leb_gt in C].
      destruct (j <=? 2 * n)%nat eqn:C2; [|reflexivity]. rewrite !minus_INR by lia. simpl INR. lra.
    - rewrite minus_INR by lia. simpl INR. lra. }
  unfold KT_top; cbn [s_dx1]. rewrite eqb_t by lra. cbn [bind]. rewrite xend_sym.
  destruct (division_shape L 0 0 H0 H1 (2 * n) HL ltac:(lia)) as [T1 T2]. rewrite T1, Lb.
  replace (2 * (2 * n) + 1)%nat with (4 * n + 1)%nat in * by lia.
  rewrite in_range_all; [|intros i j I; apply KT_down_braces in I; [lia|lra]].
  eexists; split; [reflexivity|]. split.
  - unfold shape; cbn [top_nodes bottom_nodes]. repeat split; auto. intros i Hi. rewrite T2 by lia. rewrite Em. reflexivity.
  - cbn [braces]. intros i j. apply KT_down_braces; lra.
Qed.
