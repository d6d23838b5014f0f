(** Property C367: geometry of end plate joints in optimisation. *)
Require Import Reals List Bool Lra Lia PeanoNat.
Import ListNotations.
From Verif Require Import Base EC3_model Bool_tac Epo_proofs.
From Verif Require Import Epo_model Epo_spec.
Local Open Scope R_scope.

(** C367 *)
Theorem C367_feasible : forall j ev bv tp x et bp z1 zs, extended j -> 0 <= e_d0 j -> length (e_rows j) = S (length zs) ->
  (feasible j ev bv (point ev bv tp x et bp z1 zs) <->
   4 <= tp <= 30 /\
   (e_tb j / 2 + sqrt 2 * e_aw j + e_dw j / 2 <= x /\ e_tc j / 2 + e_rc j + e_dw j / 2 <= x /\ 12/10 * e_d0 j <= x /\
    x <= e_bc j / 2 - 12/10 * e_d0 j /\ x <= e_bc j / 2 - e_dw j / 2) /\
   (ev = true -> integer_within (e_dw j / 2 + sqrt 2 * e_af j + 12/10 * e_d0 j) et /\ et <= 5 * e_d0 j /\ z1 + 12/10 * e_d0 j <= e_hb j / 2 + et) /\
   (bv = true -> e_bb j <= bp <= e_bc j + 100 /\ x + 12/10 * e_d0 j <= bp / 2 /\ x + e_dw j / 2 <= bp / 2) /\
   (integer_within (e_hb j / 2 + sqrt 2 * e_af j + e_dw j / 2) z1 /\ z1 <= e_hb j / 2 + (if ev then 5 * e_d0 j else e_etop j)) /\
   spaced (22/10 * e_d0 j) (z1 :: zs) /\
   Forall (fun z => integer_within (Rabs z) (e_hb j / 2 - e_tbf j - sqrt 2 * e_af j - e_dw j / 2)) zs).
Proof. exact epo_feasible_lemma. Qed.
Print Assumptions C367_feasible.
Theorem C367_clearances : forall j ev bv tp x et bp z1 zs, extended j -> 0 <= e_d0 j -> length (e_rows j) = S (length zs) ->
  feasible j ev bv (point ev bv tp x et bp z1 zs) ->
  (e_tb j / 2 + sqrt 2 * e_aw j <= x - e_dw j / 2 /\ e_tc j / 2 + e_rc j <= x - e_dw j / 2) /\
  (12/10 * e_d0 j <= e_bc j / 2 - x /\ e_dw j / 2 <= e_bc j / 2 - x) /\
  e_hb j / 2 + sqrt 2 * e_af j <= z1 - e_dw j / 2 /\
  (forall z, In z zs -> Rabs z + e_dw j / 2 <= e_hb j / 2 - e_tbf j - sqrt 2 * e_af j) /\
  (forall i k, (i < k < S (length zs))%nat -> INR (k - i) * (22/10 * e_d0 j) <= nth i (z1 :: zs) 0 - nth k (z1 :: zs) 0).
Proof. exact epo_clear_lemma. Qed.
Print Assumptions C367_clearances.
Theorem C367_substitution : forall j ev bv tp x et bp z1 zs, extended j -> 0 <= e_d0 j -> length (e_rows j) = S (length zs) ->
  feasible j ev bv (point ev bv tp x et bp z1 zs) ->
  let j' := substitute_values j (create_variables j ev bv) (point ev bv tp x et bp z1 zs) in
  map er_z (e_rows j') = z1 :: zs /\ e_tp j' = tp /\ e_x j' = x /\ e_bp j' = (if bv then bp else e_bp j) /\
  e_etop j' = (if ev then et else e_etop j) /\ e_hp j' = (if ev then et + e_ebot j + e_hb j else e_hp j) /\
  e_eb j' = e_bp j / 2 - x.
Proof. exact epo_subst_lemma. Qed.
Print Assumptions C367_substitution.
Theorem C367_second_substitution : forall j ev bv tp x et bp z1 zs, extended j -> 0 <= e_d0 j -> length (e_rows j) = S (length zs) ->
  feasible j ev bv (point ev bv tp x et bp z1 zs) ->
  let vs := create_variables j ev bv in let p := point ev bv tp x et bp z1 zs in
  e_eb (substitute_values (substitute_values j vs p) vs p) = (if bv then bp else e_bp j) / 2 - x.
Proof. exact epo_again_lemma. Qed.
Print Assumptions C367_second_substitution.
Theorem C367_top_edge_refuted : exists j tp x z1 zs, extended j /\ 0 < e_d0 j /\ length (e_rows j) = S (length zs) /\
  feasible j false false (point false false tp x 0 0 z1 zs) /\ e_hb j / 2 + e_etop j - z1 = 0.
Proof. exact epo_edge_lemma. Qed.
Print Assumptions C367_top_edge_refuted.
Theorem C367_plate_width_refuted : exists j tp x z1 zs, extended j /\ 0 < e_d0 j /\ e_bb j <= e_bp j /\ length (e_rows j) = S (length zs) /\
  feasible j false false (point false false tp x 0 0 z1 zs) /\ e_bp j / 2 - x < e_d0 j / 2.
Proof. exact epo_width_lemma. Qed.
Print Assumptions C367_plate_width_refuted.
Theorem C367_edge_distance_refuted : exists j tp x et bp z1 zs, extended j /\ 0 < e_d0 j /\ length (e_rows j) = S (length zs) /\
  feasible j true true (point true true tp x et bp z1 zs) /\
  let j1 := substitute_values j (create_variables j true true) (point true true tp x et bp z1 zs) in
  e_eb j1 <> e_bp j1 / 2 - e_x j1.
Proof. exact epo_stale_lemma. Qed.
Print Assumptions C367_edge_distance_refuted.
Theorem C367_flush_refuted : exists j xs, 0 < e_d0 j /\ Forall (fun r => er_shear r = false /\ er_outside r = false) (e_rows j) /\
  ~ NoDup (map v_name (create_variables j false false)) /\ feasible j false false xs /\
  map er_z (e_rows (substitute_values j (create_variables j false false) xs)) = [50; 50].
Proof. exact epo_flush_lemma. Qed.
Print Assumptions C367_flush_refuted.

(** An IPE300-like beam at a column flange 200 wide with M20 bolts and three rows, all variables free. *)
Example C367_ex : extended ep0 /\ 0 <= e_d0 ep0 /\ length (e_rows ep0) = 3%nat /\ feasible ep0 true true (point true true 20 60 80 250 190 [80; -80]).
Proof. destruct epo_case as (A & B & C). split; [exact A|]. split; [exact B|]. split; [reflexivity|exact C]. Qed.
(** Rows 40 apart are not feasible. *)
Example C367_ex_close : ~ feasible ep0 true true (point true true 20 60 80 250 190 [80; 40]).
Proof. intros F. apply epo_clear_lemma in F; [|apply epo_case|apply epo_case|reflexivity]. destruct F as (_ & _ & _ & _ & F). specialize (F 1%nat 2%nat ltac:(cbn; lia)). cbn in F. lra. Qed.
