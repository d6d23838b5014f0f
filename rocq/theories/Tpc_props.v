(** C371: compression perpendicular to the grain where members meet. *)
Require Import Reals List Bool Lra Lia PeanoNat. Import ListNotations.
From Verif Require Import Bool_tac EC3_proofs Plate_proofs Sections_proofs Tpc_proofs.
From Verif Require Import Tpc_model Tpc_spec.
Local Open Scope R_scope.

(** C371: the check finds the first node with the largest stress and divides it by the strength times the factor for
    the smallest distance to the other contacts and the depth at the last of them. *)
Theorem C371_utilisation : forall m ns k, well m ns -> (forall v, k = Some v -> 0 < v) ->
  exists os r k', (os = true <-> one_sided m) /\ check_perp m ns k = Some (r, k') /\
  ((r = 0 /\ k' = k /\ forall n v, In n ns -> governs m n os v -> v = 0) \/
   exists ci c v n0, nth_error ns ci = Some c /\ governs m c os v /\ 0 < v /\
     (forall n w, In n ns -> governs m n os w -> w <= v) /\
     (forall j n w, (j < ci)%nat -> nth_error ns j = Some n -> governs m n os w -> w < v) /\
     match other_contacts ci ns with
     | [] => k' = k /\ r = match k with Some f => v / (f * t_f m) | None => 0 end
     | F => exists d, In d (map (dist_n c) F) /\ (forall n, In n F -> d <= dist_n c n) /\
              k' = Some (kc90 m d (depth_at (last F n0))) /\ r = v / (kc90 m d (depth_at (last F n0)) * t_f m)
     end).
Proof. exact tpc_main. Qed.
Print Assumptions C371_utilisation.
(** C371: which nodes count as contacts: those shared with another member (a node on which a single member is recorded
    is left out, whichever it is), and the others at a node are exactly the recorded members but the member itself. *)
Theorem C371_contacts : forall n,
  (alone n = true <-> length (n_parents n) = 1%nat \/ forall c, ~ In (Some c) (n_parents n)) /\
  (forall c, In c (others n) <-> In (Some c) (n_parents n)).
Proof.
  intros n. assert (O : forall c, In c (others n) <-> In (Some c) (n_parents n)).
  { intros c. unfold others. rewrite in_flat_map. split.
    - intros (p & H & K). destruct p as [c'|]; [|destruct K]. destruct K as [->|[]]. exact H.
    - intros H. exists (Some c). split; [exact H|left; reflexivity]. }
  split; [|exact O]. unfold alone. rewrite orb_true_iff, Nat.eqb_eq. destruct (others n) as [|c l] eqn:E.
  - split; [intros _; right; intros c H; apply O in H; destruct H|intros _; right; reflexivity].
  - split; [intros [H|H]; [left; exact H|discriminate]|]. intros [H|H]; [left; exact H|].
    exfalso. apply (H c). apply O. left. reflexivity.
Qed.
Print Assumptions C371_contacts.
(** C371: the factor is 2.5 for solid timber and 1.75 for glued laminated timber with contact depths up to 400 mm if
    the contacts are at least twice the depth of the member apart, otherwise 1. *)
Theorem C371_factor : forall m l1 l,
  (2 * t_H m <= l1 -> t_mat m = Msolid -> kc90 m l1 l = 5/2) /\
  (2 * t_H m <= l1 -> t_mat m = Mglt -> l <= 400 -> kc90 m l1 l = 7/4) /\
  (l1 < 2 * t_H m \/ t_mat m = Mother \/ (t_mat m = Mglt /\ 400 < l) -> kc90 m l1 l = 1).
Proof.
  intros m l1 l. unfold kc90. split; [|split].
  - intros H ->. rewrite (proj2 (Rleb_true _ _)) by lra. lra.
  - intros H -> L. rewrite (proj2 (Rleb_true (t_H m * 2) l1)) by lra. rewrite (proj2 (Rleb_true l 400)) by lra. lra.
  - intros [H|[->|(-> & H)]].
    + rewrite (proj2 (Rleb_false _ _)) by lra. reflexivity.
    + destruct (Rleb _ _); reflexivity.
    + rewrite (proj2 (Rleb_false l 400)) by lra. destruct (Rleb _ _); reflexivity.
Qed.
Print Assumptions C371_factor.
(** C371: the distance of two contacts is the straight one: not negative, and its square is the sum of the squares of
    the differences of the coordinates. *)
Theorem C371_distance : forall a b,
  0 <= dist_n a b /\ dist_n a b * dist_n a b = (n_x a - n_x b) * (n_x a - n_x b) + (n_y a - n_y b) * (n_y a - n_y b).
Proof.
  intros a b. unfold dist_n. split; [apply sqrt_pos|].
  assert (X := Rle_0_sqr (n_x a - n_x b)). assert (Y := Rle_0_sqr (n_y a - n_y b)). unfold Rsqr in *.
  rewrite sqrt_sqrt; [ring|]. cbn. lra.
Qed.
Print Assumptions C371_distance.
(** C371: the stress of a contact, wherever the node is, comes from the axial force at the last section of the other
    member. *)
Theorem C371_contact_stress : forall m n c, 0 < t_B m -> t_pts m <> [] -> complete c ->
  exists os, (os = true <-> one_sided m) /\ get_sigma m n c = Some (- contact_stress m os c (last (c_ned c) 0)).
Proof. intros m n c B P C. exists (tpc_os m). split; [apply tpc_os_iff; auto|apply tpc_sigma; auto]. Qed.
Print Assumptions C371_contact_stress.

Lemma col_complete x a b : complete (col x a b).
Proof. unfold complete, col; cbn. repeat split; try lra; discriminate. Qed.

(** C371, finding: the force at the place of contact is not the one used: a column that presses with 100 kN on the
    node at its first section and carries no force at its last one gives no stress. *)
Theorem C371_place_of_contact_refuted : forall x N0 N1 n, N0 < 0 -> 0 <= N1 -> n_x n = x -> n_y n = 0 ->
  get_sigma (bm Msolid) n (col x N0 N1) = Some 0.
Proof.
  intros x N0 N1 n A B _ _. rewrite tpc_sigma; [|cbn; lra|cbn; discriminate|apply col_complete]. unfold contact_stress. cbn [col c_ned last].
  rewrite Rmax_left by lra. f_equal. unfold Rdiv. ring.
Qed.
Print Assumptions C371_place_of_contact_refuted.
(** C371, finding: with three or more sections up to the location 1 a contact at the very end of the member counts
    30 mm on both sides, also on the side where the member has ended. *)
Theorem C371_end_contact_refuted : forall m n c, 0 < t_B m -> (3 <= length (t_pts m))%nat -> t_last m = 1 -> complete c ->
  nth_error (t_pts m) 0 = Some (n_x n, n_y n) -> get_sigma m n c = Some (- contact_stress m false c (last (c_ned c) 0)).
Proof.
  intros m n c B L T C _. assert (P : t_pts m <> []) by (destruct (t_pts m); [cbn in L; lia|discriminate]).
  rewrite tpc_sigma by auto. f_equal. f_equal. f_equal. apply not_true_is_false. intros H. apply tpc_os_iff in H; auto.
  destruct H as [H|H]; [lia|]. rewrite T in H. change 1 with (INR 1) in H. apply INR_eq in H. lia.
Qed.
Print Assumptions C371_end_contact_refuted.
(** C371, finding: a single contact is not checked: the utilisation of a new member is 0 whatever the stress. *)
Theorem C371_single_contact_refuted : forall m n c, well m [n] -> n_parents n = [None; Some c] -> last (c_ned c) 0 < 0 ->
  exists k, check_perp m [n] None = Some (0, k).
Proof.
  intros m n c W PN N. destruct (tpc_main m [n] None W ltac:(discriminate)) as (os & r & k' & _ & E & C).
  destruct C as [(-> & _)|(ci & c' & v & n0 & NC & _ & _ & _ & _ & M)]; [eauto|].
  destruct ci as [|ci]; [|destruct ci; discriminate]. cbn in M. destruct M as (-> & ->). eauto.
Qed.
Print Assumptions C371_single_contact_refuted.
(** C371, finding: for glued laminated timber the result depends on the order of the nodes: the depth at the last one
    decides. *)
Theorem C371_order_refuted : forall m n0 n1 n2 v w1 w2 os, well m [n0; n1; n2] -> (os = true <-> one_sided m) ->
  alone n0 = false -> alone n1 = false -> alone n2 = false ->
  governs m n0 os v -> governs m n1 os w1 -> governs m n2 os w2 -> w1 < v -> w2 < v -> 0 < v ->
  t_mat m = Mglt -> t_H m * 2 <= dist_n n0 n1 -> t_H m * 2 <= dist_n n0 n2 -> depth_at n1 <= 400 -> 400 < depth_at n2 ->
  check_perp m [n0; n1; n2] None = Some (v / t_f m, Some 1) /\ check_perp m [n0; n2; n1] None = Some (v / (7/4 * t_f m), Some (7/4)).
Proof.
  intros m n0 n1 n2 v w1 w2 os W OS A0 A1 A2 G0 G1 G2 L1 L2 VP MG D1 D2 H1 H2.
  split.
  - rewrite (tpc_two_lemma m n0 n1 n2 v w1 w2 os) by auto. rewrite (proj2 (proj2 (C371_factor m (t_H m * 2) (depth_at n2)))) by auto.
    rewrite Rmult_1_l. reflexivity.
  - assert (W' : well m [n0; n2; n1]).
    { destruct W as (B & F & P & W). split; [auto|]. split; [auto|]. split; [auto|]. intros n [<-|[<-|[<-|[]]]]; apply W; cbn; auto. }
    rewrite (tpc_two_lemma m n0 n2 n1 v w2 w1 os) by auto. rewrite (proj1 (proj2 (C371_factor m (t_H m * 2) (depth_at n1)))) by (auto; lra). reflexivity.
Qed.
Print Assumptions C371_order_refuted.
Definition nd (x N0 N1 : R) : tnode := mkTn x 3000 [None; Some (col x N0 N1)].
Example C371_ex : well (bm Mglt) [nd 0 (-50000) (-48000); nd 4000 (-30000) (-28000)] /\
  exists k, check_perp (bm Mglt) [nd 0 (-50000) (-48000); nd 4000 (-30000) (-28000)] None = Some (6/7, k).
Proof.
  assert (W : well (bm Mglt) [nd 0 (-50000) (-48000); nd 4000 (-30000) (-28000)]).
  { unfold well; cbn. split; [lra|]. split; [lra|]. split; [discriminate|]. intros n [<-|[<-|[]]]; cbn; repeat (apply Forall_cons || apply Forall_nil); apply col_complete. }
  split; [exact W|].
  destruct (tpc_main _ _ None W ltac:(discriminate)) as (os & r & k' & OS & E & C).
  assert (O : os = false).
  { apply not_true_is_false. intros H. apply OS in H. destruct H as [H|H]; cbn in H; [discriminate|lra]. }
  subst os.
  assert (SC : forall x N0 N1, N1 <= 0 -> contact_stress (bm Mglt) false (col x N0 N1) (last (c_ned (col x N0 N1)) 0) = - N1 / 16000).
  { intros x N0 N1 H. unfold contact_stress, eff_length, col, bm; cbn [c_H c_B t_B c_ned last]. rewrite Rmax_right by lra. rewrite Rmin_left by lra. rewrite Rmin_left by lra. lra. }
  assert (G : forall x N0 N1 v, N1 <= 0 -> governs (bm Mglt) (nd x N0 N1) false v <-> v = - N1 / 16000).
  { intros x N0 N1 v H. unfold governs. cbn [nd alone n_parents length Nat.eqb others flat_map app orb].
    split; [intros ((c & [<-|[]] & ->) & _); apply SC; auto|]. intros ->. split.
    - exists (col x N0 N1). split; [left; auto|]. rewrite SC; auto.
    - intros c [<-|[]]. rewrite SC by auto. lra. }
  destruct C as [(_ & _ & Z)|(ci & c & v & n0 & NC & GC & VP & MX & _ & M)].
  { assert (X := Z (nd 0 (-50000) (-48000)) 3 (or_introl eq_refl)). rewrite G in X by lra. specialize (X ltac:(lra)). lra. }
  assert (X := MX (nd 0 (-50000) (-48000)) 3 (or_introl eq_refl)). rewrite G in X by lra. specialize (X ltac:(lra)).
  destruct ci as [|[|ci]]; cbn in NC; [|injection NC as <-; rewrite G in GC by lra; lra|destruct ci; discriminate].
  injection NC as <-. rewrite G in GC by lra. cbn in M. destruct M as (d & [<-|[]] & _ & -> & ->).
  exists (Some (7/4)). rewrite E. rewrite (proj1 (proj2 (C371_factor (bm Mglt) _ _))); [|unfold dist_n; cbn|reflexivity|cbn; lra].
  - f_equal. f_equal. rewrite GC. cbn. lra.
  - replace ((0 - 4000) * ((0 - 4000) * 1) + (3000 - 3000) * ((3000 - 3000) * 1)) with (4000 * 4000) by ring. rewrite sqrt_square; lra.
Qed.
