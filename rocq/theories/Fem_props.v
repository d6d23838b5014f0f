(** C34 to C38, C47, C90: frame analysis core. *)
From Verif Require Import Tac Fem_spec Fem_proofs Fem2_proofs Fem3_proofs.

(** C34: positions used by an element (or already free) get a number below n, others
    keep none; no two share a number; every number below n is used. *)
Theorem C34_numbering_bijection : forall els ns ns' n, nodal_dofs els ns = (ns', n) ->
  map (@length Z) ns' = map (@length Z) ns /\
  (forall m k d, dof_at ns m k = Some d -> exists v, dof_at ns' m k = Some v /\
     ((0 <= d)%Z \/ used els m k -> (0 <= v < n)%Z) /\
     ((d < 0)%Z -> ~ used els m k -> v = d)) /\
  (forall m k m' k' v, dof_at ns' m k = Some v -> dof_at ns' m' k' = Some v -> (0 <= v)%Z -> m = m' /\ k = k') /\
  (forall i, (0 <= i < n)%Z -> exists m k, dof_at ns' m k = Some i).
Proof. exact numbering_lemma. Qed.
Print Assumptions C34_numbering_bijection.
Theorem C34_renumbering_stable : forall els ns ns' n, nodal_dofs els ns = (ns', n) -> nodal_dofs els ns' = (ns', n).
Proof. exact renumbering_lemma. Qed.
Print Assumptions C34_renumbering_stable.
Example C34_ex : nodal_dofs [mkEl 0 1 3 mzero; mkEl 1 2 2 mzero] [[-1; -1; -1]; [-1; -1; -1]; [-1; -1; -1]]%Z
  = ([[0; 1; 2]; [3; 4; 5]; [6; 7; -1]]%Z, 8%Z).
Proof. reflexivity. Qed.

(** C35 *)
Theorem C35_global_stiffness_symmetric : forall ns els, Forall (fun e => sym (el_k e)) els -> sym (assemble ns els).
Proof. exact assemble_sym_lemma. Qed.
Print Assumptions C35_global_stiffness_symmetric.
Example C35_ex : sym (mrows [[1; -1]; [-1; 1]]).
Proof. intros i j. unfold mrows. destruct i as [|[|i]]; destruct j as [|[|j]]; cbn; try reflexivity; try (destruct i; reflexivity); try (destruct j; reflexivity). destruct i, j; reflexivity. Qed.

(** C36: numbering, matrix and load vector do not depend on the order. *)
Theorem C36_assembly_order : forall els els' ns, Permutation els els' ->
  nodal_dofs els ns = nodal_dofs els' ns /\ forall ns' i j, assemble ns' els i j = assemble ns' els' i j.
Proof. exact order_lemma. Qed.
Print Assumptions C36_assembly_order.
Theorem C36_load_order : forall l1 l2 sid i, Permutation l1 l2 -> load_vector l1 sid i = load_vector l2 sid i.
Proof. exact load_order_lemma. Qed.
Print Assumptions C36_load_order.
Example C36_ex : Permutation [spring 0 1; spring 1 2] [spring 1 2; spring 0 1].
Proof. constructor. Qed.

(** C37 *)
Theorem C37_energy_sum : forall els ns0 ns n, nodal_dofs els ns0 = (ns, n) -> Forall (proper ns0) els ->
  forall u, quad (Z.to_nat n) (assemble ns els) u =
    Rsum (map (fun e => quad (2 * el_d e) (el_k e) (elem_u (global_dofs ns e) u)) els).
Proof. exact energy_lemma. Qed.
Print Assumptions C37_energy_sum.
Theorem C37_semidefinite : forall els ns0 ns n, nodal_dofs els ns0 = (ns, n) -> Forall (proper ns0) els ->
  Forall (fun e => psd (2 * el_d e) (el_k e)) els -> psd (Z.to_nat n) (assemble ns els).
Proof. exact psd_lemma. Qed.
Print Assumptions C37_semidefinite.
Example C37_ex : exists ns n, nodal_dofs [spring 0 1; spring 1 2] [[-1]; [-1]; [-1]]%Z = (ns, n) /\
  Forall (proper [[-1]; [-1]; [-1]]%Z) [spring 0 1; spring 1 2] /\ Forall (fun e => psd (2 * el_d e) (el_k e)) [spring 0 1; spring 1 2].
Proof.
  eexists. eexists. split; [reflexivity|]. split.
  - repeat constructor; cbn; try lia; eexists; split; try reflexivity; cbn; lia.
  - assert (P : psd 2 (mrows [[1; -1]; [-1; 1]])).
    { intros u. unfold quad, mrows; cbn [sumn nth]. pose proof (pow2_ge_0 (u 0%nat - u 1%nat)). lra. }
    constructor; [exact P|]. constructor; [exact P|]. constructor.
Qed.

(** C38: first analysis; U is the vector of all displacements. *)
Theorem C38_statics_partial : forall ns n els loads sups supp load solve us res, at_rest ns us ->
  let g := glob_dofs n (rem_dofs ns sups supp) in
  solves solve (length g) (reduce g (assemble ns els)) (reduce_v g (load_vector loads load)) ->
  linear_statics ns n els loads sups supp load solve us = res ->
  exists U : vec,
    (forall i, In i (rem_dofs ns sups supp) -> U i = 0) /\
    (forall i, (i < n)%nat -> ~ In i (rem_dofs ns sups supp) ->
       sumn n (fun j => assemble ns els i j * U j) = load_vector loads load i) /\
    length res = length ns /\
    (forall m k d, dof_at ns m k = Some d -> (d < Z.of_nat n)%Z ->
       nth k (nth m res []) 0 = if (0 <=? d)%Z then U (Z.to_nat d) else 0).
Proof. exact statics_lemma. Qed.
Print Assumptions C38_statics_partial.
Example C38_ex : at_rest [[0%Z]; [1%Z]] [[0]; [0]] /\
  solves solve1 1 (reduce [1%nat] (assemble [[0%Z]; [1%Z]] [spring 0 1])) (reduce_v [1%nat] (load_vector [point_load 0 [1%Z] [1] 1] 0)).
Proof.
  split; [reflexivity|]. intros a Ha. destruct a; [|lia].
  unfold solve1, spring, assemble, reduce, reduce_v, load_vector, scatter, scatter_v, global_dofs, point_load, mrows, mzero. cbn. field.
Qed.
(** Finding: displacements of an earlier analysis survive on newly supported nodes. *)
Theorem C38_second_analysis_refuted : exists ns n els loads sups1 sups2 us1 us2,
  us1 = linear_statics ns n els loads sups1 0 0 solve1 (map (fun nd => repeat 0 (length nd)) ns) /\
  us2 = linear_statics ns n els loads sups2 0 0 solve1 us1 /\
  rem_dofs ns sups2 0 = [0%nat; 1%nat] /\ dof_at ns 1 0 = Some 1%Z /\ nth 0 (nth 1 us2 []) 0 = 1.
Proof. exact stale_displacement_lemma. Qed.
Print Assumptions C38_second_analysis_refuted.
(** Finding: the default support method raises. *)
Theorem C38_default_method_raises : forall ns n K stored solve us, (exists m k d, dof_at ns m k = Some d /\ (0 <= d)%Z) -> linear_statics_zero ns n K stored solve us = None.
Proof. exact zero_method_raises_lemma. Qed.
Print Assumptions C38_default_method_raises.
Example C38_raises_ex : exists m k d, dof_at [[0%Z]] m k = Some d /\ (0 <= d)%Z.
Proof. exists 0%nat, 0%nat, 0%Z. split; [reflexivity|lia]. Qed.

(** C90: elements added after an analysis. *)
Theorem C90_added_element_refuted : exists els1 ns1 els2 new_node,
  let '(ns, n) := analysis_dofs els1 ns1 0 in
  let ns2 := ns ++ [new_node] in
  let '(ns', n') := analysis_dofs els2 ns2 n in
  used els2 2 0 /\
  (forall i, load_vector [point_load 0 (nth 2 ns' []) [1] 1] 0 i = 0) /\
  (let '(ns'', _) := nodal_dofs els2 ns2 in load_vector [point_load 0 (nth 2 ns'' []) [1] 1] 0 2%nat = 1).
Proof. exact stale_numbering_lemma. Qed.
Print Assumptions C90_added_element_refuted.
Theorem C90_unchanged_model_partial : forall els ns ns' n, analysis_dofs els ns 0 = (ns', n) -> analysis_dofs els ns' n = nodal_dofs els ns'.
Proof. exact repeated_analysis_lemma. Qed.
Print Assumptions C90_unchanged_model_partial.
Example C90_ex : analysis_dofs [spring 0 1] [[-1]; [-1]]%Z 0 = ([[0]; [1]]%Z, 2%Z).
Proof. reflexivity. Qed.
