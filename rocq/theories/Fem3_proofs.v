(** Findings about the frame analysis. *)
From Verif Require Import Tac Fem_spec Fem2_proofs.

Definition spring (a b : nat) : elem := mkEl a b 1 (mrows [[1; -1]; [-1; 1]]).
Definition solve1 : nat -> mat -> vec -> vec := fun m A b i => b 0%nat / A 0%nat 0%nat.

(** Second analysis with one more support: the node keeps its old displacement. *)
Lemma stale_displacement_lemma : exists ns n els loads sups1 sups2 us1 us2,
  us1 = linear_statics ns n els loads sups1 0 0 solve1 (map (fun nd => repeat 0 (length nd)) ns) /\
  us2 = linear_statics ns n els loads sups2 0 0 solve1 us1 /\
  rem_dofs ns sups2 0 = [0%nat; 1%nat] /\ dof_at ns 1 0 = Some 1%Z /\ nth 0 (nth 1 us2 []) 0 = 1.
Proof.
  exists [[0%Z]; [1%Z]], 2%nat, [spring 0 1], [point_load 0 [1%Z] [1] 1], [mkSup 0 0 [0%nat]], [mkSup 0 0 [0%nat]; mkSup 0 1 [0%nat]].
  eexists. eexists. split; [reflexivity|]. split; [reflexivity|]. split; [reflexivity|]. split; [reflexivity|].
  unfold spring, point_load, solve1, linear_statics, glob_dofs, reduce_v, reduce, load_vector, assemble, write_all, scatter, scatter_v, global_dofs, mzero, mrows. cbn. change (Pos.to_nat 1) with 1%nat. cbn. field.
Qed.

Lemma zero_method_raises_lemma ns n K stored solve us :
  (exists m k d, dof_at ns m k = Some d /\ (0 <= d)%Z) -> linear_statics_zero ns n K stored solve us = None.
Proof.
  intros (m & k & d & H & D). unfold linear_statics_zero. destruct stored; auto.
  replace (existsb (existsb (fun d => (0 <=? d)%Z)) ns) with true; auto. symmetry.
  unfold dof_at in H. destruct (nth_error (ns : list node) m) as [nd|] eqn:E; [|discriminate].
  apply existsb_exists. exists nd. split; [eapply nth_error_In; eauto|]. apply existsb_exists. exists d. split; [eapply nth_error_In; eauto|].
  apply Z.leb_le; auto.
Qed.

(** Element and node added after an analysis: the load on the new node is lost. *)
Lemma stale_numbering_lemma : exists els1 ns1 els2 new_node,
  let '(ns, n) := analysis_dofs els1 ns1 0 in
  let ns2 := ns ++ [new_node] in
  let '(ns', n') := analysis_dofs els2 ns2 n in
  used els2 2 0 /\
  (forall i, load_vector [point_load 0 (nth 2 ns' []) [1] 1] 0 i = 0) /\
  (let '(ns'', _) := nodal_dofs els2 ns2 in load_vector [point_load 0 (nth 2 ns'' []) [1] 1] 0 2%nat = 1).
Proof.
  exists [spring 0 1], [[-1]%Z; [-1]%Z], [spring 0 1; spring 1 2], [-1]%Z. cbn.
  split; [|split].
  - exists (spring 1 2). cbn. repeat split; auto; lia.
  - intros i. unfold load_vector; cbn. unfold scatter_v. cbn [find_last point_load l_dofs]. destruct (-1 =? Z.of_nat i)%Z eqn:E; [apply Z.eqb_eq in E; lia|]. reflexivity.
  - unfold load_vector, scatter_v; cbn. lra.
Qed.
Lemma first_analysis_lemma els ns : analysis_dofs els ns 0 = nodal_dofs els ns.
Proof. reflexivity. Qed.
Lemma repeated_analysis_lemma els ns ns' n : analysis_dofs els ns 0 = (ns', n) -> analysis_dofs els ns' n = nodal_dofs els ns'.
Proof.
  intros H. rewrite first_analysis_lemma in H. unfold analysis_dofs. destruct (Z.eqb_spec n 0); auto.
  symmetry. eapply Fem_proofs.renumbering_lemma; eauto.
Qed.
