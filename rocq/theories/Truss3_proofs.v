(** Stability of the web patterns from the order of their nodes. *)
From Verif Require Import Base EC3_model Sections_proofs Rhs_model.
From Verif Require Import Truss2_proofs Truss_model Truss_spec.
Require Import Reals Lra List Bool Arith Lia Psatz.
Import ListNotations.
Local Open Scope R_scope.

(** Horizontal bottom chord below the top chord, both from left to right. *)
Definition chords_ok (t : truss) (yb : R) : Prop :=
  (forall j, (j < length (bottom_nodes t))%nat -> snd (nth j (bottom_nodes t) (0, 0)) = yb) /\
  (forall i, (i < length (top_nodes t))%nat -> yb < snd (nth i (top_nodes t) (0, 0))) /\
  x_increasing (top_nodes t) /\ x_increasing (bottom_nodes t).

(** The bottom node is between two consecutive top nodes. *)
Definition betw (t : truss) (i j : nat) : Prop :=
  fst (nth i (top_nodes t) (0, 0)) <= fst (nth j (bottom_nodes t) (0, 0)) <= fst (nth (S i) (top_nodes t) (0, 0)).

Section Grow.
  Context (t : truss) (yb : R) (G : chords_ok t yb) (l : list node) (B : built t l).
  Let nt := length (top_nodes t).
  Let nb := length (bottom_nodes t).

  Lemma add_top : forall i j, In (Top i) l -> In (Bot j) l -> In (S i, j) (braces t) -> (S i < nt)%nat -> (j < nb)%nat ->
    betw t i j -> built t (Top (S i) :: l).
  Proof.
    intros i j I1 I2 J Hi Hj W. destruct G as (G1 & G2 & G3 & G4). unfold nt, nb in *.
    apply built_add with (Top i) (Bot j); auto; [simpl; lia|].
    cbn [place]. rewrite area_swap.
    assert (area2 (nth i (top_nodes t) (0, 0)) (nth (S i) (top_nodes t) (0, 0)) (nth j (bottom_nodes t) (0, 0)) < 0).
    { apply area_below; [now apply G3|exact W|rewrite G1 by auto; apply G2; lia|rewrite G1 by auto; apply G2; lia]. }
    lra.
  Qed.
  Lemma add_top_back : forall i j, In (Top (S i)) l -> In (Bot j) l -> In (i, j) (braces t) -> (S i < nt)%nat -> (j < nb)%nat ->
    betw t i j -> built t (Top i :: l).
  Proof.
    intros i j I1 I2 J Hi Hj W. destruct G as (G1 & G2 & G3 & G4). unfold nt, nb in *.
    apply built_add with (Top (S i)) (Bot j); auto; [simpl; lia|].
    cbn [place].
    assert (area2 (nth i (top_nodes t) (0, 0)) (nth (S i) (top_nodes t) (0, 0)) (nth j (bottom_nodes t) (0, 0)) < 0).
    { apply area_below; [now apply G3|exact W|rewrite G1 by auto; apply G2; lia|rewrite G1 by auto; apply G2; lia]. }
    lra.
  Qed.
  Lemma add_bot : forall i j, In (Top i) l -> In (Bot j) l -> In (i, S j) (braces t) -> (i < nt)%nat -> (S j < nb)%nat ->
    built t (Bot (S j) :: l).
  Proof.
    intros i j I1 I2 J Hi Hj. destruct G as (G1 & G2 & G3 & G4). unfold nt, nb in *.
    apply built_add with (Bot j) (Top i); auto; [simpl; lia|].
    cbn [place]. rewrite area_cyc.
    apply area_bottom; [rewrite !G1 by lia; reflexivity|pose proof (G4 j Hj); lra|rewrite G1 by lia; pose proof (G2 i Hi); lra].
  Qed.
  Lemma add_bot_back : forall i j, In (Top i) l -> In (Bot (S j)) l -> In (i, j) (braces t) -> (i < nt)%nat -> (S j < nb)%nat ->
    built t (Bot j :: l).
  Proof.
    intros i j I1 I2 J Hi Hj. destruct G as (G1 & G2 & G3 & G4). unfold nt, nb in *.
    apply built_add with (Bot (S j)) (Top i); auto; [simpl; lia|].
    cbn [place]. rewrite area_cyc.
    apply area_bottom; [rewrite !G1 by lia; reflexivity|pose proof (G4 j Hj); lra|rewrite G1 by lia; pose proof (G2 i Hi); lra].
  Qed.
End Grow.

Lemma start_brace : forall t yb i j, chords_ok t yb -> (i < length (top_nodes t))%nat -> (j < length (bottom_nodes t))%nat ->
  In (i, j) (braces t) -> built t [Bot j; Top i].
Proof.
  intros t yb i j (G1 & G2 & _) Hi Hj J. apply built_start; [exact J|]. cbn [place]. intros E. pose proof (G1 j Hj). pose proof (G2 i Hi).
  rewrite E in *. lra.
Qed.

(** Zigzag from the top chord: bottom node [b0 + i] is joined to the top nodes [i] and [i + 1]. *)
Lemma zigzag_top : forall t yb b0 m, chords_ok t yb -> (m < length (top_nodes t))%nat -> (b0 + m <= length (bottom_nodes t))%nat ->
  (1 <= m)%nat ->
  (forall i, (i < m)%nat -> In (i, b0 + i)%nat (braces t) /\ In (S i, b0 + i)%nat (braces t) /\ betw t i (b0 + i)) ->
  exists l, built t l /\ (forall i, (i <= m)%nat -> In (Top i) l) /\ (forall i, (i < m)%nat -> In (Bot (b0 + i)) l).
Proof.
  intros t yb b0 m G. induction m as [|m IH]; intros Hm Hb H1 H; [lia|].
  destruct (Nat.eq_dec m 0) as [->|Nz].
  - destruct (H 0%nat) as (A & B & C); [lia|].
    pose proof (start_brace t yb 0%nat (b0 + 0)%nat G ltac:(lia) ltac:(lia) A) as S0.
    exists [Top 1; Bot (b0 + 0); Top 0]. repeat split.
    + apply (add_top t yb G _ S0 0 (b0 + 0)); simpl; auto; lia.
    + intros i Hi. assert (i = 0 \/ i = 1)%nat as [-> | ->] by lia; simpl; auto.
    + intros i Hi. assert (i = 0)%nat as -> by lia. simpl; auto.
  - destruct IH as (l & B & T & Bo); [lia|lia|lia|intros; apply H; lia|].
    destruct (H m) as (J1 & J2 & W); [lia|].
    assert (B1 : built t (Bot (b0 + m) :: l)).
    { replace (b0 + m)%nat with (S (b0 + (m - 1)))%nat in * by lia.
      apply (add_bot t yb G _ B m (b0 + (m - 1))); auto; try lia. apply Bo. lia. }
    exists (Top (S m) :: Bot (b0 + m) :: l). repeat split.
    + apply (add_top t yb G _ B1 m (b0 + m)); simpl; auto; try lia.
    + intros i Hi. destruct (Nat.eq_dec i (S m)) as [->|]; [now left|]. right; right. apply T. lia.
    + intros i Hi. destruct (Nat.eq_dec i m) as [->|]; [now right; left|]. right; right. apply Bo. lia.
Qed.

(** Zigzag from the bottom chord: top node [i + 1] is joined to the bottom nodes [i] and [i + 1]. *)
Lemma zigzag_bottom : forall t yb m, chords_ok t yb -> (m < length (top_nodes t))%nat -> (m < length (bottom_nodes t))%nat ->
  (1 <= m)%nat ->
  (forall i, (i < m)%nat -> In (S i, i) (braces t) /\ In (S i, S i) (braces t)) ->
  (forall i, (S i < m)%nat -> betw t (S i) (S i)) ->
  exists l, built t l /\ (forall i, (1 <= i <= m)%nat -> In (Top i) l) /\ (forall i, (i <= m)%nat -> In (Bot i) l).
Proof.
  intros t yb m G. induction m as [|m IH]; intros Hm Hb H1 H W; [lia|].
  destruct (Nat.eq_dec m 0) as [->|Nz].
  - destruct (H 0%nat) as (A & B); [lia|].
    pose proof (start_brace t yb 1%nat 0%nat G ltac:(lia) ltac:(lia) A) as S0.
    exists [Bot 1; Bot 0; Top 1]. repeat split.
    + apply (add_bot t yb G _ S0 1 0); simpl; auto; lia.
    + intros i Hi. assert (i = 1)%nat as -> by lia; simpl; auto.
    + intros i Hi. assert (i = 0 \/ i = 1)%nat as [-> | ->] by lia; simpl; auto.
  - destruct IH as (l & B & T & Bo); [lia|lia|lia|intros; apply H; lia|intros; apply W; lia|].
    destruct (H m) as (J1 & J2); [lia|].
    assert (B1 : built t (Top (S m) :: l)).
    { apply (add_top t yb G _ B m m); auto; try lia. { apply T. lia. }
      replace m with (S (m - 1)) by lia. apply W. lia. }
    exists (Bot (S m) :: Top (S m) :: l). repeat split.
    + apply (add_bot t yb G _ B1 (S m) m); simpl; auto; try lia.
    + intros i Hi. destruct (Nat.eq_dec i (S m)) as [->|]; [now right; left|]. right; right. apply T. lia.
    + intros i Hi. destruct (Nat.eq_dec i (S m)) as [->|]; [now left|]. right; right. apply Bo. lia.
Qed.

(** Columns: top node [a + j] above bottom node [j], neighbouring columns joined by a diagonal. *)
Lemma columns : forall t yb a m, chords_ok t yb -> (a + m < length (top_nodes t))%nat -> (m < length (bottom_nodes t))%nat ->
  (forall j, (j <= m)%nat -> In (a + j, j)%nat (braces t) /\ fst (nth (a + j) (top_nodes t) (0, 0)) = fst (nth j (bottom_nodes t) (0, 0))) ->
  (forall j, (j < m)%nat -> In (a + j, S j)%nat (braces t) \/ In (a + S j, j)%nat (braces t)) ->
  exists l, built t l /\ (forall j, (j <= m)%nat -> In (Top (a + j)) l /\ In (Bot j) l).
Proof.
  intros t yb a m G. induction m as [|m IH]; intros Hm Hb H D.
  - destruct (H 0%nat) as (A & _); [lia|].
    exists [Bot 0; Top (a + 0)]. split; [apply (start_brace t yb); auto; lia|].
    intros j Hj. assert (j = 0)%nat as -> by lia. simpl; auto.
  - destruct IH as (l & B & C); [lia|lia|intros; apply H; lia|intros; apply D; lia|].
    destruct (C m (le_n m)) as [Cm1 Cm2]. destruct (H m) as [V1 E1]; [lia|]. destruct (H (S m)) as [V2 E2]; [lia|].
    replace (a + S m)%nat with (S (a + m)) in * by lia.
    assert (K : built t (Top (S (a + m)) :: Bot (S m) :: l) \/ built t (Bot (S m) :: Top (S (a + m)) :: l)).
    { pose proof G as (_ & _ & X1 & X2). pose proof (X1 (a + m)%nat ltac:(lia)). pose proof (X2 m Hb).
      destruct (D m) as [Q|Q]; [lia| |].
      - left. assert (B1 : built t (Bot (S m) :: l)) by (apply (add_bot t yb G _ B (a + m) m); auto; lia).
        apply (add_top t yb G _ B1 (a + m) (S m)); simpl; auto; try lia. unfold betw. lra.
      - right. replace (a + S m)%nat with (S (a + m)) in Q by lia.
        assert (B1 : built t (Top (S (a + m)) :: l)).
        { apply (add_top t yb G _ B (a + m) m); auto; try lia. unfold betw. lra. }
        apply (add_bot t yb G _ B1 (S (a + m)) m); simpl; auto; try lia. }
    destruct K as [K|K]; eexists; (split; [exact K|]); intros j Hj; (destruct (Nat.eq_dec j (S m)) as [->|];
      [replace (a + S m)%nat with (S (a + m)) by lia; simpl; auto|destruct (C j) as [C1 C2]; [lia|]; simpl; auto]).
Qed.

(** Fans: bottom node [b0 + i] is joined to the top nodes [2 i], [2 i + 1] and [2 i + 2]. *)
Lemma fans : forall t yb b0 m, chords_ok t yb -> (2 * m < length (top_nodes t))%nat -> (b0 + m <= length (bottom_nodes t))%nat ->
  (1 <= m)%nat ->
  (forall i, (i < m)%nat -> In (2 * i, b0 + i)%nat (braces t) /\ In (S (2 * i), b0 + i)%nat (braces t) /\ In (S (S (2 * i)), b0 + i)%nat (braces t) /\
     betw t (2 * i) (b0 + i) /\ betw t (S (2 * i)) (b0 + i)) ->
  exists l, built t l /\ (forall i, (i <= 2 * m)%nat -> In (Top i) l) /\ (forall i, (i < m)%nat -> In (Bot (b0 + i)) l).
Proof.
  intros t yb b0 m G. induction m as [|m IH]; intros Hm Hb H1 H; [lia|].
  destruct (H m) as (J0 & J1 & J2 & W1 & W2); [lia|].
  assert (Z : exists l, built t l /\ (forall i, (i <= 2 * m)%nat -> In (Top i) l) /\ (forall i, (i < S m)%nat -> In (Bot (b0 + i)) l)).
  { destruct (Nat.eq_dec m 0) as [->|Nz].
    - exists [Bot (b0 + 0); Top (2 * 0)]. split; [apply (start_brace t yb); auto; lia|]. split.
      + intros i Hi. assert (i = 0)%nat as -> by lia. simpl; auto.
      + intros i Hi. assert (i = 0)%nat as -> by lia. simpl; auto.
    - destruct IH as (l & B & T & Bo); [lia|lia|lia|intros; apply H; lia|].
      exists (Bot (b0 + m) :: l). split; [|split].
      + replace (b0 + m)%nat with (S (b0 + (m - 1)))%nat in * by lia.
        apply (add_bot t yb G _ B (2 * m) (b0 + (m - 1))); auto; try lia. apply Bo. lia.
      + intros i Hi. right. now apply T.
      + intros i Hi. destruct (Nat.eq_dec i m) as [->|]; [now left|]. right. apply Bo. lia. }
  destruct Z as (l & B & T & Bo).
  assert (B1 : built t (Top (S (2 * m)) :: l)).
  { apply (add_top t yb G _ B (2 * m) (b0 + m)); auto; lia. }
  exists (Top (S (S (2 * m))) :: Top (S (2 * m)) :: l). split; [|split].
  - apply (add_top t yb G _ B1 (S (2 * m)) (b0 + m)); simpl; auto; try lia.
  - intros i Hi. destruct (Nat.eq_dec i (S (S (2 * m)))) as [->|]; [now left|].
    destruct (Nat.eq_dec i (S (2 * m))) as [->|]; [now right; left|]. right; right. apply T. lia.
  - intros i Hi. right; right. now apply Bo.
Qed.

(** Half fans: bottom node [i] under the top node [2 i], joined to the top nodes beside it. *)
Lemma half_fans : forall t yb m, chords_ok t yb -> (2 * m < length (top_nodes t))%nat -> (m < length (bottom_nodes t))%nat ->
  (forall i, (i <= m)%nat -> In (2 * i, i)%nat (braces t) /\ fst (nth (2 * i) (top_nodes t) (0, 0)) = fst (nth i (bottom_nodes t) (0, 0))) ->
  (forall i, (i < m)%nat -> In (S (2 * i), i)%nat (braces t) /\ In (S (2 * i), S i)%nat (braces t)) ->
  exists l, built t l /\ (forall i, (i <= 2 * m)%nat -> In (Top i) l) /\ (forall i, (i <= m)%nat -> In (Bot i) l).
Proof.
  intros t yb m G. induction m as [|m IH]; intros Hm Hb V D.
  - exists [Bot 0; Top (2 * 0)]. destruct (V 0%nat) as [A _]; [lia|]. split; [apply (start_brace t yb); auto; lia|]. split.
    + intros i Hi. assert (i = 0)%nat as -> by lia. simpl; auto.
    + intros i Hi. assert (i = 0)%nat as -> by lia. simpl; auto.
  - destruct IH as (l & B & T & Bo); [lia|lia|intros; apply V; lia|intros; apply D; lia|].
    destruct (D m) as [D1 D2]; [lia|]. destruct (V m) as [V1 E1]; [lia|]. destruct (V (S m)) as [V2 E2]; [lia|].
    replace (2 * S m)%nat with (S (S (2 * m))) in * by lia.
    pose proof G as (_ & _ & X1 & X2). pose proof (X1 (2 * m)%nat ltac:(lia)). pose proof (X1 (S (2 * m)) ltac:(lia)).
    assert (B1 : built t (Top (S (2 * m)) :: l)).
    { apply (add_top t yb G _ B (2 * m) m); auto; try lia. unfold betw. lra. }
    assert (B2 : built t (Bot (S m) :: Top (S (2 * m)) :: l)).
    { apply (add_bot t yb G _ B1 (S (2 * m)) m); simpl; auto; try lia. }
    exists (Top (S (S (2 * m))) :: Bot (S m) :: Top (S (2 * m)) :: l). split; [|split].
    + apply (add_top t yb G _ B2 (S (2 * m)) (S m)); cbn [In]; auto; try lia. unfold betw. lra.
    + intros i Hi. destruct (Nat.eq_dec i (S (S (2 * m)))) as [->|]; [now left|].
      destruct (Nat.eq_dec i (S (2 * m))) as [->|]; [now right; right; left|]. right; right; right. apply T. lia.
    + intros i Hi. destruct (Nat.eq_dec i (S m)) as [->|]; [now right; left|]. right; right; right. apply Bo. lia.
Qed.
