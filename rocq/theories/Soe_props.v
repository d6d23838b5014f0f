(** C372: what an incremental second order analysis leaves behind, and which values nodes get of a buckling mode. *)
Require Import Reals List Bool Lra Lia PeanoNat. Import ListNotations.
From Verif Require Import Base EC3_model Mat Soe_proofs.
From Verif Require Import Soe_model Soe_spec.
Local Open Scope R_scope.

(** For every number of increments: the analysis fails exactly for no increments; else every load of the case has the
    factor (n-1)/n whatever it was, loads of other cases keep theirs, and coordinates have moved by (n-1)/2 times the
    displacements of the loads with factor one. *)
Theorem C372_state_after_analysis n S lc ninc s r :
  second_order_elastic n S lc ninc s = Some r ->
  (0 < ninc)%nat /\ length (sm_loads r) = length (sm_loads s) /\
  (forall k l l', nth_error (sm_loads s) k = Some l -> nth_error (sm_loads r) k = Some l' ->
     sl_id l' = sl_id l /\ sl_p l' = sl_p l /\
     sl_f l' = if Nat.eqb (sl_id l) lc then (INR ninc - 1) / INR ninc else sl_f l) /\
  (forall i, sm_X r i = sm_X s i + (INR ninc - 1) / 2 * unit_disp n S lc (map (fun l => (sl_id l, sl_p l)) (sm_loads s)) i).
Proof.
  intros H. destruct (soe_total _ _ _ _ _ _ H) as [A [B C]]. split; [exact A|]. split; [|split; [|exact C]].
  - rewrite B. apply map_length.
  - intros k l l' E E'. rewrite B in E'. unfold set_increment in E'. rewrite (map_nth_error _ _ _ E) in E'. injection E' as <-.
    destruct (Nat.eqb (sl_id l) lc); repeat split.
Qed.
Print Assumptions C372_state_after_analysis.

Theorem C372_analysis_defined n S lc ninc s : (exists r, second_order_elastic n S lc ninc s = Some r) <-> (0 < ninc)%nat.
Proof. exact (soe_some n S lc ninc s). Qed.
Print Assumptions C372_analysis_defined.

(** A later linear analysis of the case sees (n-1)/n of the loads with factor one. *)
Theorem C372_later_analysis n S lc ninc s r i :
  second_order_elastic n S lc ninc s = Some r ->
  statics_u n S lc (sm_loads r) i = (INR ninc - 1) / INR ninc * unit_disp n S lc (map (fun l => (sl_id l, sl_p l)) (sm_loads s)) i.
Proof. intros H. destruct (soe_total _ _ _ _ _ _ H) as [_ [B _]]. rewrite B. apply soe_statics_set. Qed.
Print Assumptions C372_later_analysis.

(** One load of 6 in case 0 with factor 3/2, one of another case; flexibility 1/2. *)
Definition soe_ex : smodel := mkSm [mkSl 0 (3/2) (fun _ => 6); mkSl 1 2 (fun _ => 4)] (fun _ => 10).
Example C372_ex n : (0 < n)%nat -> exists r, second_order_elastic 1 (fun _ _ => 1/2) 0 n soe_ex = Some r /\
  sm_X r 0%nat = 10 + (INR n - 1) / 2 * 3.
Proof.
  intros H. apply (soe_some 1 (fun _ _ => 1/2) 0 n soe_ex) in H. destruct H as [r H]. exists r. split; [exact H|].
  destruct (soe_total _ _ _ _ _ _ H) as [_ [_ C]]. rewrite C. unfold unit_disp, unit_load, soe_pl. cbn. field.
Qed.

(** Finding: the coordinates after the analysis are not those under the full load unless there are three increments,
    nor do loads keep the factors they had. *)
Theorem C372_full_load_coordinates_refuted :
  ~ (forall n S lc ninc s r i, second_order_elastic n S lc ninc s = Some r ->
       sm_X r i = sm_X s i + unit_disp n S lc (map (fun l => (sl_id l, sl_p l)) (sm_loads s)) i).
Proof.
  intros F. destruct (C372_ex 10 ltac:(lia)) as [r [H X]]. specialize (F _ _ _ _ _ _ 0%nat H). rewrite X in F.
  unfold unit_disp, unit_load in F. cbn in F. lra.
Qed.
Print Assumptions C372_full_load_coordinates_refuted.

Theorem C372_full_load_coordinates_iff n S lc ninc s r i :
  second_order_elastic n S lc ninc s = Some r ->
  unit_disp n S lc (map (fun l => (sl_id l, sl_p l)) (sm_loads s)) i <> 0 ->
  (sm_X r i = sm_X s i + unit_disp n S lc (map (fun l => (sl_id l, sl_p l)) (sm_loads s)) i <-> ninc = 3%nat).
Proof.
  intros H U. destruct (soe_total _ _ _ _ _ _ H) as [_ [_ C]]. rewrite C.
  change (soe_pl (sm_loads s)) with (map (fun l => (sl_id l, sl_p l)) (sm_loads s)).
  set (u := unit_disp _ _ _ _ i) in *. split.
  - intros E. assert (K : ((INR ninc - 1) / 2 - 1) * u = 0) by lra. apply Rmult_integral in K. destruct K as [K|K]; [|contradiction].
    apply INR_eq. change (INR 3) with (1 + 1 + 1). lra.
  - intros ->. change (INR 3) with (1 + 1 + 1). lra.
Qed.
Print Assumptions C372_full_load_coordinates_iff.

(** No number of increments gives a load its factor one back. *)
Theorem C372_full_load_never_applied n S lc ninc s r k l :
  second_order_elastic n S lc ninc s = Some r -> nth_error (sm_loads r) k = Some l -> sl_id l = lc -> 0 <= sl_f l < 1.
Proof.
  intros H E I. destruct (soe_total _ _ _ _ _ _ H) as [A [B _]]. rewrite B in E. apply nth_error_In in E.
  unfold set_increment in E. apply in_map_iff in E. destruct E as [l0 [E _]].
  assert (G : 1 <= INR ninc) by (apply (le_INR 1); lia).
  destruct (Nat.eqb_spec (sl_id l0) lc) as [e|e]; subst l; cbn [sl_id sl_f] in *; [|congruence].
  split; [apply Rmult_le_pos; [lra|apply Rlt_le, Rinv_0_lt_compat; lra]|].
  apply (Rmult_lt_reg_r (INR ninc)); [lra|]. unfold Rdiv. rewrite Rmult_assoc, Rinv_l; lra.
Qed.
Print Assumptions C372_full_load_never_applied.

(** Each degree of freedom of each node gets the value listed with it, degrees of freedom that are not listed get zero. *)
Theorem C372_mode_values v glob dofs a b :
  length v = length glob -> NoDup glob -> (a < length dofs)%nat -> NoDup (nth a dofs []) -> (b < length (nth a dofs []))%nat ->
  (forall k, (k < length glob)%nat -> nth k glob O = nth b (nth a dofs []) O ->
     nth b (nth a (mode_to_nodes v glob dofs) []) 0 = nth k v 0) /\
  (~ In (nth b (nth a dofs []) O) glob -> nth b (nth a (mode_to_nodes v glob dofs) []) 0 = 0).
Proof. exact (soe_mode v glob dofs a b). Qed.
Print Assumptions C372_mode_values.

Theorem C372_mode_shape v glob dofs : map (@length R) (mode_to_nodes v glob dofs) = map (@length nat) dofs.
Proof. exact (soe_shape v glob dofs). Qed.
Print Assumptions C372_mode_shape.

(** With the free degrees of freedom in ascending order, each gets the value of its row in the reduced system and
    supported ones get zero. *)
Theorem C372_mode_rows v total supp dofs a b :
  length v = length (free_dofs total supp) ->
  (a < length dofs)%nat -> NoDup (nth a dofs []) -> (b < length (nth a dofs []))%nat -> (nth b (nth a dofs []) O < total)%nat ->
  let d := nth b (nth a dofs []) O in
  nth b (nth a (mode_to_nodes v (free_dofs total supp) dofs) []) 0 =
    if in_dec Nat.eq_dec d supp then 0 else nth (reduced_row supp d) v 0.
Proof.
  intros L Ha N Hb Hd d. destruct (soe_mode v _ dofs a b L (soe_free_NoDup total supp) Ha N Hb) as [A B].
  destruct (in_dec Nat.eq_dec d supp) as [i|i].
  - apply B. intros K. apply soe_free_in in K. tauto.
  - destruct (soe_free_nth total supp d Hd i) as [P Q]. apply A; assumption.
Qed.
Print Assumptions C372_mode_rows.

Theorem C372_row_count total supp : length (free_dofs total supp) = reduced_row supp total.
Proof. exact (soe_row supp total). Qed.
Print Assumptions C372_row_count.

Example C372_mode_ex : free_dofs 6 [0; 1]%nat = [2; 3; 4; 5]%nat /\
  mode_to_nodes [7; 8; 9; 10] [2; 3; 4; 5]%nat [[0; 1; 2]; [3; 4; 5]]%nat = [[0; 0; 7]; [8; 9; 10]].
Proof. split; reflexivity. Qed.

(** Finding: the order of the listing matters, and the code takes that of a set: another order of the same degrees of
    freedom gives nodes values of other rows. *)
Theorem C372_any_order_refuted :
  ~ (forall v total supp glob dofs a b,
       length v = length glob -> NoDup glob -> (forall d, In d glob <-> (d < total)%nat /\ ~ In d supp) ->
       (a < length dofs)%nat -> NoDup (nth a dofs []) -> (b < length (nth a dofs []))%nat -> (nth b (nth a dofs []) O < total)%nat ->
       ~ In (nth b (nth a dofs []) O) supp ->
       nth b (nth a (mode_to_nodes v glob dofs) []) 0 = nth (reduced_row supp (nth b (nth a dofs []) O)) v 0).
Proof.
  intros F. specialize (F [5; 6] 2%nat [] [1; 0]%nat [[0; 1]%nat] 0%nat 0%nat). cbn in F.
  assert (K : 6 = 5); [|lra]. apply F; try lia.
  - repeat constructor; cbn; intuition lia.
  - repeat constructor; cbn; intuition lia.
Qed.
Print Assumptions C372_any_order_refuted.
