(** Stability of the generated symmetric trusses on their supports, continued. *)
From Verif Require Import Base EC3_model Sections_proofs Rhs_model Bool_tac.
From Verif Require Import Truss_proofs Truss2_proofs Truss3_proofs Truss4_proofs Truss5_proofs Truss6_proofs Truss7_proofs Truss8_proofs Truss10_proofs.
From Verif Require Import Truss_model Truss_spec.
Require Import Reals Lra List Bool Arith Lia Psatz.
Import ListNotations.
Local Open Scope R_scope.

Lemma all_in : forall t l, (forall i, (i < length (top_nodes t))%nat -> In (Top i) l) -> (forall j, (j < length (bottom_nodes t))%nat -> In (Bot j) l) ->
  forall v, is_node t v -> In v l.
Proof. intros t l A B [i|j] H; [apply A|apply B]; exact H. Qed.

Lemma K_dx_stable : forall L dx H0 H1 n up edge, 0 < dx < L -> 0 < H0 <= H1 -> (1 <= n)%nat ->
  exists t, generate_topology (mkSl L L dx dx H0 H1) TK n up edge = Some t /\ stable t (Top 0) (Top (length (top_nodes t) - 1)).
Proof.
  intros L dx H0 H1 n up edge Hd HH Hn. destruct (K_dx_shape L dx H0 H1 n up edge Hd Hn) as (t & Et & Sh & Br). exists t. split; [exact Et|].
  pose proof (K_dx_ordered L dx n Hd Hn) as O. pose proof (ordered_chords _ _ _ _ _ _ _ _ Sh O ltac:(lra) ltac:(lra) ltac:(lra)) as C.
  pose proof Sh as (L1 & L2 & T & B). pose proof O as (O1 & O2 & O3 & O4).
  pose proof (Dk_eq L dx n Hn) as E. pose proof (Dk_pos L dx n Hn (proj2 Hd)) as P.
  destruct (zigzag_top t (- H0) 0 (2 * n) C) as (l & Bl & It & Ib); try lia.
  { intros i Hi. rewrite !Br. repeat split; try lia.
    - destruct (Nat.eq_dec i 0) as [->|]; [|pose proof (pos_INR i)]; rewrite T, B by lia; cbn [fst plus].
      + unfold xt_Kdx, xb_dx; simpl; lra.
      + rewrite xt_Kdx_mid by lia. unfold xb_dx. nra.
    - rewrite T, B by lia; cbn [fst plus]. destruct (Nat.eq_dec (S i) (2 * n)) as [Z|Z].
      + rewrite xt_Kdx_end by lia. unfold xb_dx. replace (INR i) with (2 * INR n - 1); [nra|].
        replace i with (2 * n - 1)%nat by lia. rewrite minus_INR, mult_INR by lia. simpl INR. ring.
      + rewrite xt_Kdx_mid by lia. unfold xb_dx. rewrite S_INR. nra. }
  apply (built_stable t l Bl).
  - apply all_in; intros i Hi; [apply It; lia|apply (Ib i); lia].
  - cbn [is_node]. lia.
  - cbn [is_node]. lia.
  - cbn [place]. rewrite !T by lia. cbn [fst]. rewrite L1. rewrite O1, O2. lra.
Qed.

Lemma K_up_stable : forall L H0 H1 n, 0 < L -> 0 < H0 <= H1 -> (1 <= n)%nat ->
  exists t, generate_topology (mkSl L L 0 0 H0 H1) TK n true true = Some t /\ stable t (Bot 0) (Bot (length (bottom_nodes t) - 1)).
Proof.
  intros L H0 H1 n HL HH Hn. destruct (K_up_shape L H0 H1 n true HL Hn) as (t & Et & Sh & Br). exists t. split; [exact Et|].
  pose proof (K_up_ordered L n HL Hn) as O. pose proof (ordered_chords _ _ _ _ _ _ _ _ Sh O ltac:(lra) ltac:(lra) ltac:(lra)) as C.
  pose proof Sh as (L1 & L2 & T & B). pose proof O as (O1 & O2 & O3 & O4).
  destruct (zigzag_bottom t (- H0) (2 * n + 1) C) as (l & Bl & It & Ib); try lia.
  { intros i Hi. rewrite !Br. split; left; lia. }
  { intros i Hi. unfold betw. rewrite !T, B by lia. cbn [fst]. rewrite !xt_Kup_mid by lia. replace (S i - 1)%nat with i by lia. replace (S (S i) - 1)%nat with (S i) by lia.
    pose proof (xb_Kup_inc L n i Hn HL). pose proof (xb_Kup_inc L n (S i) Hn HL). lra. }
  assert (B0 : xb_Kup L n 0 = 0) by (rewrite xb_Kup_lo by lia; simpl; ring).
  assert (B1 : xb_Kup L n (2 * n + 1) = 2 * L).
  { rewrite xb_Kup_hi by lia. rewrite plus_INR, mult_INR. simpl INR. ring. }
  assert (Bl1 : built t (Top 0 :: l)).
  { apply (add_top_back t (- H0) C l Bl 0 0); try lia; [apply It; lia|apply Ib; lia|apply Br; lia|].
    unfold betw. rewrite !T, B by lia. cbn [fst]. pose proof (O3 0%nat ltac:(lia)). rewrite B0, O1 in *. lra. }
  assert (Bl2 : built t (Top (S (2 * n + 1)) :: Top 0 :: l)).
  { apply (add_top t (- H0) C _ Bl1 (2 * n + 1) (2 * n + 1)); try lia; [right; apply It; lia|right; apply Ib; lia|apply Br; lia|].
    unfold betw. rewrite !T, B by lia. cbn [fst]. pose proof (O3 (2 * n + 1)%nat ltac:(lia)). rewrite B1. replace (2 * n + 3 - 1)%nat with (S (2 * n + 1)) in O2 by lia. lra. }
  apply (built_stable t _ Bl2).
  - apply all_in; intros i Hi.
    + destruct (Nat.eq_dec i 0) as [->|]; [simpl; auto|]. destruct (Nat.eq_dec i (S (2 * n + 1))) as [->|]; [now left|]. right; right. apply It. lia.
    + right; right. apply Ib. lia.
  - cbn [is_node]. lia.
  - cbn [is_node]. lia.
  - cbn [place]. rewrite !B by lia. cbn [fst]. rewrite L2. replace (2 * n + 2 - 1)%nat with (2 * n + 1)%nat by lia. rewrite B0, B1. lra.
Qed.

Lemma K_down_stable : forall L H0 H1 n, 0 < L -> 0 < H0 <= H1 -> (2 <= n)%nat ->
  exists t, generate_topology (mkSl L L 0 0 H0 H1) TK n false true = Some t /\ stable t (Bot 0) (Bot (length (bottom_nodes t) - 1)).
Proof.
  intros L H0 H1 n HL HH Hn. destruct (K_down_shape L H0 H1 n true HL Hn) as (t & Et & Sh & Br). exists t. split; [exact Et|].
  pose proof (K_down_ordered L n HL Hn) as O. pose proof (ordered_chords _ _ _ _ _ _ _ _ Sh O ltac:(lra) ltac:(lra) ltac:(lra)) as C.
  pose proof Sh as (L1 & L2 & T & B). pose proof O as (O1 & O2 & O3 & O4).
  destruct (zigzag_top t (- H0) 1 (2 * n) C) as (l & Bl & It & Ib); try lia.
  { intros i Hi. rewrite !Br. split; [left; lia|]. split; [left; lia|]. eapply shape_between; [exact Sh|lia|lia|]. now apply K_down_betw. }
  assert (Bl1 : built t (Bot 0 :: l)).
  { apply (add_bot_back t (- H0) C l Bl 0 0); try lia; [apply It; lia|apply (Ib 0%nat); lia|apply Br; lia]. }
  assert (Bl2 : built t (Bot (2 * n + 1) :: Bot 0 :: l)).
  { replace (2 * n + 1)%nat with (S (2 * n)) by lia. apply (add_bot t (- H0) C _ Bl1 (2 * n) (2 * n)); try lia; [right; apply It; lia| |apply Br; lia].
    right. replace (2 * n)%nat with (1 + (2 * n - 1))%nat by lia. apply Ib. lia. }
  apply (built_stable t _ Bl2).
  - apply all_in; intros i Hi.
    + right; right. apply It. lia.
    + destruct (Nat.eq_dec i 0) as [->|]; [simpl; auto|]. destruct (Nat.eq_dec i (2 * n + 1)) as [->|]; [now left|]. right; right.
      replace i with (1 + (i - 1))%nat by lia. apply Ib. lia.
  - cbn [is_node]. lia.
  - cbn [is_node]. lia.
  - cbn [place]. rewrite !B by lia. cbn [fst]. rewrite L2. rewrite (xb_Kdown_end L n (2 * n + 2 - 1)) by lia. unfold xb_Kdown. rewrite if_eq by lia. lra.
Qed.

Lemma N_zero_stable : forall L H0 H1 n up, 0 < L -> 0 < H0 <= H1 -> (1 <= n)%nat ->
  exists t, generate_topology (mkSl L L 0 0 H0 H1) TN n up true = Some t /\ stable t (Bot 0) (Bot (length (bottom_nodes t) - 1)).
Proof.
  intros L H0 H1 n up HL HH Hn. destruct (N_zero_shape L H0 H1 n up true HL Hn) as (t & Et & Sh & Br). exists t. split; [exact Et|].
  pose proof (N_zero_ordered L n HL Hn) as O. pose proof (ordered_chords _ _ _ _ _ _ _ _ Sh O ltac:(lra) ltac:(lra) ltac:(lra)) as C.
  pose proof Sh as (L1 & L2 & T & B). pose proof O as (O1 & O2 & O3 & O4).
  destruct (columns t (- H0) 0 (2 * n) C) as (l & Bl & I); try lia.
  { intros j Hj. rewrite Br. split; [left; lia|]. cbn [plus]. rewrite T, B by lia. reflexivity. }
  { intros j Hj. rewrite !Br. destruct up; destruct (lt_dec j n); lia. }
  apply (built_stable t _ Bl).
  - apply all_in; intros i Hi; destruct (I i) as [X Y]; try lia; assumption.
  - cbn [is_node]. lia.
  - cbn [is_node]. lia.
  - cbn [place]. rewrite !B by lia. cbn [fst]. rewrite L2. cbv beta in O2. rewrite O2. simpl INR. lra.
Qed.

Lemma N_dx_stable : forall L dx H0 H1 n up edge, 0 < dx < L -> 0 < H0 <= H1 -> (2 <= n)%nat ->
  exists t, generate_topology (mkSl L L dx dx H0 H1) TN n up edge = Some t /\ stable t (Top 0) (Top (length (top_nodes t) - 1)).
Proof.
  intros L dx H0 H1 n up edge Hd HH Hn. destruct (N_dx_shape L dx H0 H1 n up edge Hd Hn) as (t & Et & Sh & Br). exists t. split; [exact Et|].
  pose proof (N_dx_ordered L dx n Hd Hn) as O. pose proof (ordered_chords _ _ _ _ _ _ _ _ Sh O ltac:(lra) ltac:(lra) ltac:(lra)) as C.
  pose proof Sh as (L1 & L2 & T & B). pose proof O as (O1 & O2 & O3 & O4).
  destruct (columns t (- H0) 1 (2 * n - 2) C) as (l & Bl & I); try lia.
  { intros j Hj. rewrite Br. split; [left; lia|]. rewrite T, B by lia. cbn [fst]. rewrite xt_N_mid by lia. f_equal. lia. }
  { intros j Hj. rewrite !Br. destruct (lt_dec (j + 1) n); lia. }
  assert (Bl1 : built t (Top 0 :: l)).
  { apply (add_top_back t (- H0) C l Bl 0 0); try lia; [apply (I 0%nat); lia|apply (I 0%nat); lia|apply Br; lia|].
    unfold betw. rewrite !T, B by lia. cbn [fst]. pose proof (O3 0%nat ltac:(lia)). rewrite (xt_N_mid L dx n 1) in * by lia. simpl minus in *. lra. }
  assert (Bl2 : built t (Top (2 * n) :: Top 0 :: l)).
  { replace (2 * n)%nat with (S (2 * n - 1)) by lia. apply (add_top t (- H0) C _ Bl1 (2 * n - 1) (2 * n - 2)); try lia.
    - right. replace (2 * n - 1)%nat with (1 + (2 * n - 2))%nat by lia. apply I. lia.
    - right. apply I. lia.
    - apply Br. lia.
    - unfold betw. rewrite !T, B by lia. cbn [fst]. pose proof (O3 (2 * n - 1)%nat ltac:(lia)). rewrite (xt_N_mid L dx n (2 * n - 1)) in * by lia.
      replace (2 * n - 1 - 1)%nat with (2 * n - 2)%nat in * by lia. lra. }
  apply (built_stable t _ Bl2).
  - apply all_in; intros i Hi.
    + destruct (Nat.eq_dec i 0) as [->|]; [simpl; auto|]. destruct (Nat.eq_dec i (2 * n)) as [->|]; [now left|]. right; right.
      replace i with (1 + (i - 1))%nat by lia. apply I. lia.
    + right; right. apply I. lia.
  - cbn [is_node]. lia.
  - cbn [is_node]. lia.
  - cbn [place]. rewrite !T by lia. cbn [fst]. rewrite L1. rewrite O1, O2. lra.
Qed.

Lemma KT_dx_stable : forall L dx H0 H1 n up edge, 0 < dx < L -> 0 < H0 <= H1 -> (1 <= n)%nat ->
  exists t, generate_topology (mkSl L L dx dx H0 H1) TKT n up edge = Some t /\ stable t (Top 0) (Top (length (top_nodes t) - 1)).
Proof.
  intros L dx H0 H1 n up edge Hd HH Hn. destruct (KT_dx_shape L dx H0 H1 n up edge Hd Hn) as (t & Et & Sh & Br). exists t. split; [exact Et|].
  pose proof (KT_dx_ordered L dx n Hd Hn) as O. pose proof (ordered_chords _ _ _ _ _ _ _ _ Sh O ltac:(lra) ltac:(lra) ltac:(lra)) as C.
  pose proof Sh as (L1 & L2 & T & B). pose proof O as (O1 & O2 & O3 & O4).
  pose proof (Dk_eq L dx n Hn) as E. pose proof (Dk_pos L dx n Hn (proj2 Hd)) as P.
  destruct (fans t (- H0) 0 (2 * n) C) as (l & Bl & It & Ib); try lia.
  { intros i Hi. rewrite !Br. split; [lia|]. split; [lia|]. split; [lia|].
    assert (M : xt_KTdx L dx n (S (2 * i)) = xb_dx L dx n i).
    { rewrite xt_KTdx_mid by lia. unfold xb_dx. rewrite S_INR, mult_INR. simpl INR. lra. }
    pose proof (O3 (2 * i)%nat ltac:(lia)). pose proof (O3 (S (2 * i)) ltac:(lia)).
    split; (eapply shape_between; [exact Sh|lia|lia|]); cbn [plus]; rewrite <- M; lra. }
  apply (built_stable t l Bl).
  - apply all_in; intros i Hi; [apply It; lia|apply (Ib i); lia].
  - cbn [is_node]. lia.
  - cbn [is_node]. lia.
  - cbn [place]. rewrite !T by lia. cbn [fst]. rewrite L1. rewrite O1, O2. lra.
Qed.

Lemma KT_up_stable : forall L H0 H1 n, 0 < L -> 0 < H0 <= H1 -> (1 <= n)%nat ->
  exists t, generate_topology (mkSl L L 0 0 H0 H1) TKT n true true = Some t /\ stable t (Bot 0) (Bot (length (bottom_nodes t) - 1)).
Proof.
  intros L H0 H1 n HL HH Hn. destruct (KT_up_shape L H0 H1 n true HL Hn) as (t & Et & Sh & Br). exists t. split; [exact Et|].
  pose proof (KT_up_ordered L n HL Hn) as O. pose proof (ordered_chords _ _ _ _ _ _ _ _ Sh O ltac:(lra) ltac:(lra) ltac:(lra)) as C.
  pose proof Sh as (L1 & L2 & T & B). pose proof (INR1 n Hn).
  destruct (half_fans t (- H0) (2 * n + 1) C) as (l & Bl & It & Ib); try lia.
  { intros i Hi. rewrite Br. split; [left; lia|]. rewrite T, B by lia. cbn [fst]. rewrite mult_INR. simpl INR. field. lra. }
  { intros i Hi. rewrite !Br. lia. }
  apply (built_stable t _ Bl).
  - apply all_in; intros i Hi; [apply It; lia|apply (Ib i); lia].
  - cbn [is_node]. lia.
  - cbn [is_node]. lia.
  - cbn [place]. rewrite !B by lia. cbn [fst]. rewrite L2. replace (2 * n + 2 - 1)%nat with (2 * n + 1)%nat by lia. rewrite plus_INR, mult_INR. simpl INR.
    replace (((1 + 1) * INR n + 1) * (2 * L / (2 * INR n + 1))) with (2 * L) by (field; lra). lra.
Qed.

Lemma KT_down_stable : forall L H0 H1 n, 0 < L -> 0 < H0 <= H1 -> (1 <= n)%nat ->
  exists t, generate_topology (mkSl L L 0 0 H0 H1) TKT n false true = Some t /\ stable t (Bot 0) (Bot (length (bottom_nodes t) - 1)).
Proof.
  intros L H0 H1 n HL HH Hn. destruct (KT_down_shape L H0 H1 n true HL Hn) as (t & Et & Sh & Br). exists t. split; [exact Et|].
  pose proof (KT_down_ordered L n HL Hn) as O. pose proof (ordered_chords _ _ _ _ _ _ _ _ Sh O ltac:(lra) ltac:(lra) ltac:(lra)) as C.
  pose proof Sh as (L1 & L2 & T & B). pose proof O as (O1 & O2 & O3 & O4). pose proof (INR1 n Hn) as N1.
  destruct (fans t (- H0) 1 (2 * n) C) as (l & Bl & It & Ib); try lia.
  { intros i Hi. rewrite !Br. split; [left; lia|]. split; [left; lia|]. split; [left; lia|].
    assert (M : xb_KTdown L n (1 + i) = INR (S (2 * i)) * (L / (2 * INR n))).
    { unfold xb_KTdown. rewrite if_neq, if_le by lia. change (1 + i)%nat with (S i). rewrite !S_INR, mult_INR. simpl INR. field. lra. }
    pose proof (O3 (2 * i)%nat ltac:(lia)). pose proof (O3 (S (2 * i)) ltac:(lia)).
    split; (eapply shape_between; [exact Sh|lia|lia|]); rewrite M; lra. }
  assert (Bl1 : built t (Bot 0 :: l)).
  { apply (add_bot_back t (- H0) C l Bl 0 0); try lia; [apply It; lia|apply (Ib 0%nat); lia|apply Br; lia]. }
  assert (Bl2 : built t (Bot (2 * n + 1) :: Bot 0 :: l)).
  { replace (2 * n + 1)%nat with (S (2 * n)) by lia. apply (add_bot t (- H0) C _ Bl1 (4 * n) (2 * n)); try lia; [right; apply It; lia| |apply Br; lia].
    right. replace (2 * n)%nat with (1 + (2 * n - 1))%nat by lia. apply Ib. lia. }
  apply (built_stable t _ Bl2).
  - apply all_in; intros i Hi.
    + right; right. apply It. lia.
    + destruct (Nat.eq_dec i 0) as [->|]; [simpl; auto|]. destruct (Nat.eq_dec i (2 * n + 1)) as [->|]; [now left|]. right; right.
      replace i with (1 + (i - 1))%nat by lia. apply Ib. lia.
  - cbn [is_node]. lia.
  - cbn [is_node]. lia.
  - cbn [place]. rewrite !B by lia. cbn [fst]. rewrite L2. unfold xb_KTdown. rewrite if_eq by lia. rewrite if_neq, if_gt by lia. lra.
Qed.

(** Every symmetric truss closed at its ends is stable on its own supports. *)
Lemma truss_stable_lemma : forall L dx H0 H1 tp n up edge, 0 <= dx < L -> 0 < H0 <= H1 -> (1 <= n)%nat ->
  (tp = TN -> 0 < dx -> (2 <= n)%nat) -> (tp = TK -> dx = 0 -> up = false -> (2 <= n)%nat) ->
  0 < dx \/ edge = true ->
  exists t, generate_topology (mkSl L L dx dx H0 H1) tp n up edge = Some t /\
    let sup := generate_supports (mkSl L L dx dx H0 H1) t in stable t (fst sup) (snd sup).
Proof.
  intros L dx H0 H1 tp n up edge Hd HH Hn HN HK He. unfold generate_supports; cbn [s_dx1 s_dx2].
  destruct (Req_dec dx 0) as [->|Z].
  - destruct He as [He| ->]; [lra|]. rewrite ltb_f by lra. cbn [fst snd]. destruct tp, up; 
      [apply K_up_stable|apply K_down_stable|apply N_zero_stable|apply N_zero_stable|apply KT_up_stable|apply KT_down_stable]; auto; lra.
  - rewrite ltb_t by lra. cbn [fst snd]. destruct tp; [apply K_dx_stable|apply N_dx_stable|apply KT_dx_stable]; auto; try lra. apply HN; auto; lra.
Qed.

(** Without the verticals at the ends it is not. *)
Lemma truss_unstable_lemma : forall L H0 H1 tp n up, 0 < L -> (1 <= n)%nat -> (tp = TK -> up = false -> (2 <= n)%nat) ->
  exists t, generate_topology (mkSl L L 0 0 H0 H1) tp n up false = Some t /\
    let sup := generate_supports (mkSl L L 0 0 H0 H1) t in ~ stable t (fst sup) (snd sup).
Proof.
  intros L H0 H1 tp n up HL Hn HK. unfold generate_supports; cbn [s_dx1 s_dx2]. rewrite ltb_f by lra. cbn [fst snd].
  assert (UP : forall t nt nb xt xb, shape t nt nb xt xb L (H1 - H0) H0 -> ordered nt nb xt xb L -> (2 <= nt)%nat -> (forall j, ~ In (0%nat, j) (braces t)) ->
    ~ stable t (Bot 0) (Bot (length (bottom_nodes t) - 1))).
  { intros t nt nb xt xb Sh O N2 NB St. pose proof Sh as (L1 & L2 & T & B). pose proof O as (O1 & O2 & O3 & O4).
    set (u := fun v => match v with Top 0 => (- (snd (place t (Top 1)) - snd (place t (Top 0))), fst (place t (Top 1)) - fst (place t (Top 0))) | _ => (0, 0) end).
    assert (E : u (Top 0) = (0, 0)).
    { apply (St u); [|reflexivity|reflexivity|cbn [is_node]; lia]. intros a b J. destruct a as [[|i]|i], b as [[|j]|j]; cbn [joined] in J; cbn [u fst snd];
        try (exfalso; eapply NB; exact J); try lra; try lia.
      - assert (j = 0%nat) by lia; subst. cbn [place]. ring.
      - assert (i = 0%nat) by lia; subst. cbn [place]. ring. }
    unfold u in E. pose proof (f_equal snd E) as E2. cbn [snd] in E2. cbn [place] in E2. rewrite !T in E2 by lia. cbn [fst] in E2. pose proof (O3 0%nat ltac:(lia)). lra. }
  assert (DOWN : forall t nt nb xt xb, shape t nt nb xt xb L (H1 - H0) H0 -> (1 <= nt)%nat -> (1 <= nb)%nat ->
    (forall i, ~ In (i, 0%nat) (braces t)) -> (forall i, ~ In (i, (nb - 1)%nat) (braces t)) -> ~ stable t (Bot 0) (Bot (length (bottom_nodes t) - 1))).
  { intros t nt nb xt xb Sh N1 N2 NB1 NB2 St. pose proof Sh as (L1 & L2 & T & B).
    set (u := fun v => match v with Top _ => (0, 1) | Bot j => if (j =? 0)%nat then (0, 0) else if (j =? nb - 1)%nat then (0, 0) else (0, 1) end).
    assert (E : u (Top 0) = (0, 0)).
    { apply (St u); [|reflexivity| |cbn [is_node]; lia].
      - intros a b J. destruct a as [i|i], b as [j|j]; cbn [joined] in J.
        + cbn [u fst snd]. ring.
        + cbn [u]. destruct (Nat.eq_dec j 0) as [->|Z]; [exfalso; eapply NB1; exact J|]. destruct (Nat.eq_dec j (nb - 1)) as [->|Z1]; [exfalso; eapply NB2; exact J|].
          rewrite !if_neq by lia. cbn [fst snd]. ring.
        + cbn [u]. destruct (Nat.eq_dec i 0) as [->|Z]; [exfalso; eapply NB1; exact J|]. destruct (Nat.eq_dec i (nb - 1)) as [->|Z1]; [exfalso; eapply NB2; exact J|].
          rewrite !if_neq by lia. cbn [fst snd]. ring.
        + cbn [place]. rewrite !B by lia. cbn [fst snd]. cbn [u].
          assert (Z : forall k, fst (if (k =? 0)%nat then (0, 0) else if (k =? nb - 1)%nat then (0, 0) else (0, 1)) = 0)
            by (intros k; destruct (k =? 0)%nat; [reflexivity|destruct (k =? nb - 1)%nat; reflexivity]).
          rewrite !Z. ring.
      - cbn [u]. rewrite L2. destruct (nb - 1 =? 0)%nat; [reflexivity|]. now rewrite if_eq by lia. }
    cbn [u] in E. inversion E. lra. }
  destruct tp, up.
  - destruct (K_up_shape L H0 H1 n false HL Hn) as (t & Et & Sh & Br). exists t. split; [exact Et|].
    eapply UP; [exact Sh|apply K_up_ordered; auto|lia|]. intros j J. apply Br in J. destruct J as [J|[J _]]; [lia|discriminate].
  - destruct (K_down_shape L H0 H1 n false HL) as (t & Et & Sh & Br); [auto|]. exists t. split; [exact Et|].
    eapply DOWN; [exact Sh|lia|lia| |]; intros j J; apply Br in J; (destruct J as [J|[J _]]; [lia|discriminate]).
  - destruct (N_zero_shape L H0 H1 n true false HL Hn) as (t & Et & Sh & Br). exists t. split; [exact Et|].
    eapply UP; [exact Sh|apply N_zero_ordered; auto|lia|]. intros j J. apply Br in J. destruct J as [(J & _ & [K|K])|J]; [discriminate|lia|lia].
  - destruct (N_zero_shape L H0 H1 n false false HL Hn) as (t & Et & Sh & Br). exists t. split; [exact Et|].
    eapply DOWN; [exact Sh|lia|lia| |]; intros j J; apply Br in J; (destruct J as [(J & _ & [K|K])|J]; [discriminate|lia|lia]).
  - destruct (KT_up_shape L H0 H1 n false HL Hn) as (t & Et & Sh & Br). exists t. split; [exact Et|].
    eapply UP; [exact Sh|apply KT_up_ordered; auto|lia|]. intros j J. apply Br in J. destruct J as [(J & _ & [K|K])|J]; [discriminate|lia|lia].
  - destruct (KT_down_shape L H0 H1 n false HL Hn) as (t & Et & Sh & Br). exists t. split; [exact Et|].
    eapply DOWN; [exact Sh|lia|lia| |]; intros j J; apply Br in J; (destruct J as [J|[J _]]; [lia|discriminate]).
Qed.
