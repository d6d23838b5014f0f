(** Properties C338-C340: symmetry of frames: nodes, axis, members. *)
From Verif Require Import Base EC3_model Bool_tac EC3_proofs Plate_proofs Sym_proofs Sym2_proofs.
From Verif Require Import Sym_model Sym_spec.
Require Import Reals List Bool Lra Lia Psatz PeanoNat.
Import ListNotations.
Local Open Scope R_scope.

(** Decide the two tests of [near] on literal coordinates. *)
Ltac dec_abs := unfold Rabs; repeat match goal with |- context [Rcase_abs ?t] => destruct (Rcase_abs t) end; lra.
Ltac dec_near := match goal with
  | |- context [near ?s ?a ?b] =>
    first [replace (near s a b) with true by (symmetry; unfold near; cbn [fst snd]; apply andb_true_iff; split; apply Rltb_true; dec_abs)
          |replace (near s a b) with false by (symmetry; unfold near; cbn [fst snd]; apply andb_false_iff; (left; apply Rltb_false; dec_abs) || (right; apply Rltb_false; dec_abs))]
  end.
Ltac run_pairs := unfold pair_nodes; cbn [length seq Nat.sub fold_left repeat]; repeat (unfold pair_step at 1; cbn [nth first_near length seq Nat.sub put]; repeat dec_near; cbn [nth put]).

(** C338 *)
Theorem C338_sound : forall s ns i j, rel (pair_nodes s ns (repeat None (length ns))) i j -> mirror_nodes s ns i j.
Proof. exact sym_sound_lemma. Qed.
Print Assumptions C338_sound.
Theorem C338_exact : forall s ns, one_image s ns -> forall i j,
  rel (pair_nodes s ns (repeat None (length ns))) i j <-> mirror_nodes s ns i j.
Proof. exact sym_exact_lemma. Qed.
Print Assumptions C338_exact.
Theorem C338_mutual : forall s ns, no_chains s ns -> mutual (pair_nodes s ns (repeat None (length ns))).
Proof. exact sym_mutual_lemma. Qed.
Print Assumptions C338_mutual.
Theorem C338_left_out : forall s ns i, nth i (pair_nodes s ns (repeat None (length ns))) None = None ->
  forall j, (i < j)%nat -> ~ mirror_nodes s ns i j.
Proof. exact sym_unpaired_lemma. Qed.
Print Assumptions C338_left_out.
Theorem C338_tolerance_refuted : exists s ns i j, (forall k, (k < length ns)%nat -> exists m, rel (pair_nodes s ns (repeat None (length ns))) k m)
  /\ rel (pair_nodes s ns (repeat None (length ns))) i j /\ ~ rel (pair_nodes s ns (repeat None (length ns))) j i.
Proof.
  assert (E : pair_nodes 0 [(1, 0); (1 + 12 / 10000000, 0); (1 + 6 / 10000000, 0)] (repeat None 3) = [Some 2%nat; Some 2%nat; Some 1%nat]).
  { run_pairs. reflexivity. }
  exists 0, [(1, 0); (1 + 12 / 10000000, 0); (1 + 6 / 10000000, 0)], 0%nat, 2%nat. cbn [length]. unfold rel. rewrite E. split; [|split].
  - intros [|[|[|k]]] H; cbn [nth]; eauto. lia.
  - reflexivity.
  - discriminate.
Qed.
Print Assumptions C338_tolerance_refuted.
Example C338_ex : pair_nodes 2 [(0, 0); (2, 3); (4, 0); (1, 2); (3, 2)] (repeat None 5) = [Some 2%nat; None; Some 0%nat; Some 4%nat; Some 3%nat].
Proof. run_pairs. reflexivity. Qed.

(** C339 *)
Theorem C339_default_axis : forall s ns, ns <> [] -> symmetric_about s ns -> axis_at None ns = Some s.
Proof. exact sym_axis_lemma. Qed.
Print Assumptions C339_default_axis.
Theorem C339_default_pairs : forall s ns, ns <> [] -> symmetric_about s ns -> one_image s ns ->
  exists sy, symmetry_nodes None ns (repeat None (length ns)) = Some sy /\ forall i j, rel sy i j <-> mirror_nodes s ns i j.
Proof. exact sym_call_lemma. Qed.
Print Assumptions C339_default_pairs.
Theorem C339_again : forall s ns sy, length sy = length ns -> pair_nodes s ns (pair_nodes s ns sy) = pair_nodes s ns sy.
Proof. exact sym_again_lemma. Qed.
Print Assumptions C339_again.
Theorem C339_kept : forall s ns sy, length sy = length ns -> (forall i, (i < length ns)%nat -> exists j, rel sy i j) -> pair_nodes s ns sy = sy.
Proof. exact sym_kept_lemma. Qed.
Print Assumptions C339_kept.
Theorem C339_moved_refuted : exists s ns ns' sy, length ns' = length ns /\ sy = pair_nodes s ns (repeat None (length ns))
  /\ pair_nodes s ns' sy = sy /\ exists i j, rel sy i j /\ ~ mirror_nodes s ns' i j.
Proof.
  assert (E : pair_nodes 0 [(-1, 0); (1, 0)] (repeat None 2) = [Some 1%nat; Some 0%nat]) by (run_pairs; reflexivity).
  exists 0, [(-1, 0); (1, 0)], [(-1, 0); (1, 5)], [Some 1%nat; Some 0%nat]. split; [reflexivity|]. split; [symmetry; exact E|]. split.
  - apply sym_kept_lemma. reflexivity. intros [|[|i]] H; unfold rel; cbn [nth]; eauto. cbn [length] in H. lia.
  - exists 0%nat, 1%nat. split; [reflexivity|]. intros (_&_&_&H&_). cbn [nth fst snd] in H. revert H. apply Rle_not_lt. dec_abs.
Qed.
Print Assumptions C339_moved_refuted.
Example C339_ex : axis_at None [(0, 0); (2, 3); (4, 0)] = Some 2.
Proof.
  apply sym_axis_lemma. discriminate. intros p [<-|[<-|[<-|[]]]]; cbn [fst snd In].
  right; right; left; f_equal; lra. right; left; f_equal; lra. left; f_equal; lra.
Qed.

(** C340 *)
Theorem C340_exact : forall sy ms, mutual sy -> plain_members ms -> forall p q,
  rel (pair_members sy ms (repeat None (length ms))) p q <-> mirror_members sy ms p q.
Proof. exact mates_exact_lemma. Qed.
Print Assumptions C340_exact.
Theorem C340_mutual : forall sy ms, mutual sy -> plain_members ms -> mutual (pair_members sy ms (repeat None (length ms))).
Proof. exact mates_mutual_lemma. Qed.
Print Assumptions C340_mutual.
Theorem C340_frame : forall s ns ms, no_chains s ns -> plain_members ms ->
  let sy := pair_nodes s ns (repeat None (length ns)) in
  forall p q, rel (pair_members sy ms (repeat None (length ms))) p q ->
  rel (pair_members sy ms (repeat None (length ms))) q p /\
  forall a, In a (nth p ms []) -> exists b, In b (nth q ms []) /\ (b = a \/ mirror_nodes s ns a b).
Proof. exact symmetry_members_lemma. Qed.
Print Assumptions C340_frame.
Theorem C340_parallel_refuted : exists sy ms, mutual sy /\ (forall m, In m ms -> exists a b, m = [a; b] /\ a <> b)
  /\ pair_members sy ms (repeat None (length ms)) = [Some 2%nat; Some 0%nat; Some 0%nat].
Proof.
  exists [Some 2%nat; Some 3%nat; Some 0%nat; Some 1%nat], [[0; 1]; [2; 3]; [2; 3]]%nat. split; [|split].
  - intros [|[|[|[|i]]]] j; unfold rel; cbn [nth]; intro H; try (injection H as <-; reflexivity). destruct i; discriminate.
  - intros m [<-|[<-|[<-|[]]]]; eexists; eexists; split; try reflexivity; discriminate.
  - reflexivity.
Qed.
Print Assumptions C340_parallel_refuted.
Example C340_ex : pair_members [Some 2%nat; None; Some 0%nat] [[0; 1]; [0; 2]; [2; 1]]%nat (repeat None 3) = [Some 2%nat; None; Some 0%nat].
Proof. reflexivity. Qed.
