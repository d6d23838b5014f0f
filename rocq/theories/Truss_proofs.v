(** Numbers of nodes and members of the generated trusses. *)
From Verif Require Import Base EC3_model EC3_proofs Sections_proofs Loads2_proofs Rhs_model Bool_tac.
From Verif Require Import Truss_model Truss_spec.
Require Import Reals Lra List Bool Arith Lia.
Import ListNotations.
Local Open Scope R_scope.

Lemma linspace_length : forall n, length (linspace n) = n.
Proof. intros [|[|n]]; try reflexivity. unfold linspace. now rewrite map_length, seq_length. Qed.
Lemma nth_map_in : forall {A B} (f : A -> B) l i d d', (i < length l)%nat -> nth i (map f l) d = f (nth i l d').
Proof.
  intros A B f; induction l as [|x l IH]; intros i d d' H; simpl in H; [lia|]. destruct i; simpl; [reflexivity|].
  apply IH. lia.
Qed.
Lemma linspace_nth : forall n i, (i < n)%nat -> nth i (linspace n) 0 = INR i / INR (n - 1).
Proof.
  intros [|[|n]] i H; [lia| |].
  - assert (i = O) by lia; subst. simpl. unfold Rdiv. ring.
  - unfold linspace. rewrite nth_map_in with (d' := 0%nat) by (rewrite seq_length; lia). now rewrite seq_nth by lia.
Qed.
Lemma along_length : forall p q l, length (along p q l) = length l.
Proof. intros. unfold along. apply map_length. Qed.
Lemma along_nth : forall p q l i, (i < length l)%nat ->
  nth i (along p q l) (0, 0) = vadd p (vscale (nth i l 0) (vminus q p)).
Proof.
  intros p q l i H. unfold along. now rewrite nth_map_in with (d' := 0) by exact H.
Qed.
Lemma all_above_length : forall l xs r, all_above l xs = Some r -> length r = length xs.
Proof.
  intros l; induction xs as [|x xs IH]; simpl; intros r H.
  - now inversion H.
  - apply bind_inv in H as (p & _ & H). apply bind_inv in H as (ps & E & H). inversion H; subst. simpl.
    f_equal. now apply IH.
Qed.
Lemma top_by_lines_length : forall a b c x y r, top_by_lines a b c x y = Some r ->
  length r = (length x + length y + 2)%nat.
Proof.
  intros a b c x y r H. unfold top_by_lines in H.
  apply bind_inv in H as (v1 & _ & H). apply bind_inv in H as (ta & E1 & H).
  apply bind_inv in H as (v2 & _ & H). apply bind_inv in H as (tb & E2 & H). inversion H; subst.
  apply all_above_length in E1, E2. simpl. rewrite !app_length. simpl. lia.
Qed.
Lemma tl_length : forall (l : list R), length (tl l) = (length l - 1)%nat.
Proof. intros [|x l]; simpl; lia. Qed.
Lemma tl_length_nat : forall (l : list nat), length (tl l) = (length l - 1)%nat.
Proof. intros [|x l]; simpl; lia. Qed.
Lemma removelast_length : forall {A} (l : list A), length (removelast l) = (length l - 1)%nat.
Proof.
  intros A; induction l as [|x l IH]; [reflexivity|]. destruct l as [|y l]; [reflexivity|].
  change (removelast (x :: y :: l)) with (x :: removelast (y :: l)). simpl length in *. rewrite IH. lia.
Qed.
Lemma slice_length : forall {A} a b (l : list A), (b <= length l)%nat -> length (slice a b l) = (b - a)%nat.
Proof. intros. unfold slice. rewrite firstn_length, skipn_length. lia. Qed.
Lemma evens_length_aux : forall {A} k (l : list A), (length l <= k)%nat -> length (evens l) = ((length l + 1) / 2)%nat.
Proof.
  intros A; induction k as [|k IH]; intros l H.
  - destruct l; [reflexivity|simpl in H; lia].
  - destruct l as [|x [|y l]]; [reflexivity|reflexivity|]. simpl in H. simpl length at 1.
    cbn [evens length]. rewrite IH by lia. replace (S (S (length l)) + 1)%nat with ((length l + 1) + 1 * 2)%nat by lia.
    rewrite Nat.div_add by lia. lia.
Qed.
Lemma evens_length : forall {A} (l : list A), length (evens l) = ((length l + 1) / 2)%nat.
Proof. intros. eapply evens_length_aux; eauto. Qed.
Lemma flat2_length : forall (f : nat -> list brace) c l, (forall i, length (f i) = c) -> length (flat_map f l) = (c * length l)%nat.
Proof. intros f c l H; induction l as [|x l IH]; simpl; [lia|]. rewrite app_length, IH, H. lia. Qed.
Lemma zip_length : forall a b, length (zip_idx a b) = Nat.min (length a) (length b).
Proof. intros. unfold zip_idx. apply combine_length. Qed.
Lemma mids_length : forall a b, length (mids a b) = Nat.min (length a) (length b).
Proof. intros. unfold mids. now rewrite map_length, combine_length. Qed.
Lemma with_half_length : forall D l, length (with_half D l) = (2 * length l)%nat.
Proof. intros D l; induction l as [|x l IH]; [reflexivity|]. simpl in *. lia. Qed.

Lemma bottom_gap_length : forall s up S D, length (bottom_gap s up S D) =
  (if Reqb (s_dx1 s) 0 && negb up then 2 * length S + 2 else 2 * length S)%nat.
Proof.
  intros. unfold bottom_gap. destruct (Reqb (s_dx1 s) 0 && negb up); simpl; rewrite ?app_length, ?along_length; simpl;
  rewrite ?app_length, ?along_length; simpl; lia.
Qed.

(** The number of nodes of the two chords. *)
Definition nt_of (tp : topology) (zero up : bool) (n : nat) : nat :=
  match tp, zero, up with
  | TK, true, true => 2 * n + 3 | TK, true, false => 2 * n + 1 | TK, false, _ => 2 * n + 1
  | TN, _, _ => 2 * n + 1
  | TKT, true, true => 4 * n + 3 | TKT, true, false => 4 * n + 1 | TKT, false, _ => 4 * n + 1
  end%nat.
Definition nb_of (tp : topology) (zero up : bool) (n : nat) : nat :=
  match tp, zero, up with
  | TK, true, _ => 2 * n + 2 | TK, false, _ => 2 * n
  | TN, true, _ => 2 * n + 1 | TN, false, _ => 2 * n - 1
  | TKT, true, _ => 2 * n + 2 | TKT, false, _ => 2 * n
  end%nat.

Lemma if_dx : forall dx, 0 <= dx -> Rltb 0 dx = negb (Reqb dx 0).
Proof. intros dx H. destruct (Req_dec dx 0) as [E|E]. - rewrite eqb_t by lra. now rewrite ltb_f by lra. - rewrite eqb_f by lra. now rewrite ltb_t by lra. Qed.

Lemma gen_lengths : forall s tp n up edge t, (1 <= n)%nat -> 0 <= s_dx1 s -> generate_topology s tp n up edge = Some t ->
  length (top_nodes t) = nt_of tp (Reqb (s_dx1 s) 0) up n /\
  length (bottom_nodes t) = nb_of tp (Reqb (s_dx1 s) 0) up n /\
  braces t = match tp with
             | TK => K_braces (s_dx1 s) up edge n (nt_of tp (Reqb (s_dx1 s) 0) up n) (nb_of tp (Reqb (s_dx1 s) 0) up n)
             | TN => N_braces (s_dx1 s) up edge n (nt_of tp (Reqb (s_dx1 s) 0) up n) (nb_of tp (Reqb (s_dx1 s) 0) up n)
             | TKT => KT_braces (s_dx1 s) up edge (nt_of tp (Reqb (s_dx1 s) 0) up n) (nb_of tp (Reqb (s_dx1 s) 0) up n)
             end.
Proof.
  intros s tp n up edge t Hn Hd H. unfold generate_topology in H.
  apply bind_inv in H as (Xb & Eb & H). apply bind_inv in H as (Xt & Et & H). cbv zeta in H.
  destruct (forallb _ _) in H; [|discriminate]. inversion H; subst; clear H. cbn [top_nodes bottom_nodes braces].
  assert (LL : length Xt = nt_of tp (Reqb (s_dx1 s) 0) up n /\ length Xb = nb_of tp (Reqb (s_dx1 s) 0) up n).
  2:{ destruct LL as [-> ->]. repeat split; reflexivity. }
  destruct tp.
  - assert (L : length Xb = nb_of TK (Reqb (s_dx1 s) 0) up n).
    { unfold K_bottom in Eb. rewrite if_dx in Eb by auto.
      destruct (Reqb (s_dx1 s) 0) eqn:Ed; cbn [negb] in Eb; [destruct up|];
      apply bind_inv in Eb as (D & _ & Eb); inversion Eb; subst; rewrite bottom_gap_length, Ed, linspace_length; simpl; lia. }
    split; [|exact L]. unfold K_top in Et.
    destruct (Reqb (s_dx1 s) 0); [destruct up|]; cbn [nb_of] in L.
    + apply top_by_lines_length in Et. rewrite Et, !mids_length, !slice_length, !skipn_length, L by lia. cbn [nt_of]. lia.
    + inversion Et; subst. unfold top_by_division. rewrite app_length, !along_length, tl_length, linspace_length. cbn [nt_of]. lia.
    + apply top_by_lines_length in Et. rewrite Et, !mids_length, !slice_length, !skipn_length, L by lia. cbn [nt_of]. lia.
  - assert (L : length Xb = nb_of TN (Reqb (s_dx1 s) 0) up n).
    { inversion Eb; subst. unfold N_bottom. rewrite if_dx by auto. rewrite app_length, !along_length, tl_length.
      destruct (Reqb (s_dx1 s) 0); cbn [negb nb_of]; rewrite !linspace_length; lia. }
    split; [|exact L]. unfold N_top in Et.
    destruct (Reqb (s_dx1 s) 0); cbn [nb_of] in L.
    + inversion Et; subst. unfold top_by_division. rewrite app_length, !along_length, tl_length, linspace_length. cbn [nt_of]. lia.
    + apply top_by_lines_length in Et. rewrite Et, !slice_length, !skipn_length, L by lia. cbn [nt_of]. lia.
  - assert (L : length Xb = nb_of TKT (Reqb (s_dx1 s) 0) up n).
    { unfold KT_bottom in Eb. rewrite if_dx in Eb by auto.
      destruct (Reqb (s_dx1 s) 0) eqn:Ed; cbn [negb] in Eb; [destruct up|];
      apply bind_inv in Eb as (D & _ & Eb); inversion Eb; subst; rewrite bottom_gap_length, Ed, linspace_length; simpl; lia. }
    split; [|exact L]. unfold KT_top in Et.
    destruct (Reqb (s_dx1 s) 0); [inversion Et; subst|]; cbn [nb_of] in L.
    + unfold top_by_division. rewrite app_length, !along_length, tl_length. destruct up; rewrite linspace_length; cbn [nt_of]; lia.
    + apply bind_inv in Et as (D & _ & Et). destruct Xb as [|p Xb]; [discriminate|].
      apply top_by_lines_length in Et. rewrite Et, app_length, !with_half_length, removelast_length.
      rewrite slice_length by lia. rewrite skipn_length, L. cbn [nt_of length]. lia.
Qed.

(** Twice the number of nodes less three is the number of members. *)
Lemma truss_count_lemma : forall s tp n up edge t, (1 <= n)%nat -> 0 <= s_dx1 s ->
  generate_topology s tp n up edge = Some t ->
  (0 < s_dx1 s \/ edge = true -> (member_count t + 3 = 2 * node_count t)%nat) /\
  (s_dx1 s = 0 -> edge = false -> (member_count t + 5 = 2 * node_count t)%nat) /\
  node_count t = (match tp with
                  | TN => if Req_EM_T (s_dx1 s) 0 then 4 * n + 2 else 4 * n
                  | TK => if Req_EM_T (s_dx1 s) 0 then (if up then 4 * n + 5 else 4 * n + 3) else 4 * n + 1
                  | TKT => if Req_EM_T (s_dx1 s) 0 then (if up then 6 * n + 5 else 6 * n + 3) else 6 * n + 1
                  end)%nat.
Proof.
  intros s tp n up edge t Hn Hd H. destruct (gen_lengths _ _ _ _ _ _ Hn Hd H) as (A & B & C).
  unfold member_count, node_count. rewrite A, B, C.
  assert (Dv : forall k, ((4 * k + 3 + 1) / 2 = 2 * k + 2)%nat).
  { intros k. replace (4 * k + 3 + 1)%nat with ((2 * k + 2) * 2)%nat by lia. apply Nat.div_mul. lia. }
  assert (Dw : forall k, ((4 * k + 3 - 2 + 1) / 2 = 2 * k + 1)%nat).
  { intros k. replace (4 * k + 3 - 2 + 1)%nat with ((2 * k + 1) * 2)%nat by lia. apply Nat.div_mul. lia. }
  assert (E2 : forall (f : nat -> list brace), (forall i, length (f i) = 2%nat) -> forall l, length (flat_map f l) = (2 * length l)%nat)
    by (intros; apply flat2_length; auto).
  assert (E3 : forall (f : nat -> list brace), (forall i, length (f i) = 3%nat) -> forall l, length (flat_map f l) = (3 * length l)%nat)
    by (intros; apply flat2_length; auto).
  destruct (Req_EM_T (s_dx1 s) 0) as [E|E].
  - rewrite eqb_t by exact E. unfold K_braces, N_braces, KT_braces. rewrite eqb_t by exact E.
    split; [|split]; [intros [X| ->]; [lra|]|intros _ ->|]; destruct tp, up; cbn [nt_of nb_of];
    rewrite ?app_length, ?zip_length; rewrite ?slice_length by (rewrite ?seq_length; lia); rewrite ?removelast_length, ?skipn_length, ?tl_length_nat, ?evens_length,
      ?skipn_length, ?seq_length, ?Dv, ?Dw; rewrite ?seq_length; cbn [length]; try lia;
    try (rewrite E2 by reflexivity; rewrite seq_length; cbn [length]; lia);
    try (rewrite E3 by reflexivity; rewrite seq_length; cbn [length]; lia); try (cbn [length]; lia).
  - rewrite eqb_f by exact E. unfold K_braces, N_braces, KT_braces. rewrite eqb_f by exact E.
    split; [|split]; [intros _|intros X; contradiction|]; destruct tp; cbn [nt_of nb_of];
    rewrite ?app_length, ?zip_length; rewrite ?slice_length by (rewrite ?seq_length; lia); rewrite ?removelast_length, ?skipn_length, ?tl_length_nat,
      ?skipn_length, ?seq_length; rewrite ?seq_length; cbn [length]; try lia;
    try (rewrite E2 by reflexivity; rewrite seq_length; cbn [length]; lia);
    try (rewrite E3 by reflexivity; rewrite seq_length; cbn [length]; lia); try (cbn [length]; lia).
Qed.
