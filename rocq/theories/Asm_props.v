(** Property C356: numerical gradients and approximate sub-problems. *)
Require Import Reals List Bool Lra Lia Psatz PeanoNat.
Import ListNotations.
From Verif Require Import Base EC3_model Bool_tac EC3_proofs Plate_proofs Asm_proofs.
From Verif Require Import Asm_model Asm_spec.
Local Open Scope R_scope.

(** C356 *)
Theorem C356_gradient_affine : forall c a x f, length a = length x -> (forall y, length y = length x -> f y = c + dot a y) -> num_grad f x = a.
Proof. exact num_affine_lemma. Qed.
Print Assumptions C356_gradient_affine.
Theorem C356_gradient_error : forall f x i d1 d2 M, (i < length x)%nat -> let h := Rmax (Rabs (nth i x 0) / 1000000) (1 / 100000000) in
  smooth (fun t => f (set_nth i t x)) d1 d2 (nth i x 0) h M -> Rabs (nth i (num_grad f x) 0 - d1 (nth i x 0)) <= M / 2 * h.
Proof. exact num_error_lemma. Qed.
Print Assumptions C356_gradient_error.
Theorem C356_gradient_blind : forall f x, (forall y, length y = length x -> f y = f x) -> num_grad f x = repeat 0 (length x).
Proof. exact num_blind_lemma. Qed.
Print Assumptions C356_gradient_blind.
Theorem C356_objective : forall k vs L U x f g, admissible k L U x -> sized g -> sub_obj k vs f g L U x x = f (fill vs x) (fill vs x) /\
  forall i, (i < length x)%nat -> partial_deriv (sub_obj k vs f g L U x) x i (nth i (match g with None => num_grad (fun y => f (fill vs y) (fill vs y)) x | Some g => g x end) 0).
Proof. exact sub_obj_lemma. Qed.
Print Assumptions C356_objective.
Theorem C356_constraint_value : forall k vs L U x f g ty, length x = length (free vs) -> none_locked vs \/ k = SMmaP -> admissible k L U x -> sized g ->
  call (sub_vars x) (sub_con k vs L U x (ANon f g ty)) x = call vs (ANon f g ty) x.
Proof. exact sub_value_lemma. Qed.
Print Assumptions C356_constraint_value.
Theorem C356_constraint_gradient : forall k vs L U x f g ty, length x = length (free vs) -> admissible k L U x -> sized g ->
  exists F, (forall y, length y = length x -> call (sub_vars x) (sub_con k vs L U x (ANon f g ty)) y = Some (F y)) /\
    forall i, (i < length x)%nat -> partial_deriv F x i (nth i (con_df (fill vs x) f g x) 0).
Proof. exact sub_grad_lemma. Qed.
Print Assumptions C356_constraint_gradient.
Theorem C356_linear : forall k vs L U x a b ty y, none_locked vs -> length x = length (free vs) -> length y = length x ->
  call (sub_vars x) (sub_con k vs L U x (ALin a b ty)) y = call vs (ALin a b ty) y.
Proof. exact sub_linear_lemma. Qed.
Print Assumptions C356_linear.
Theorem C356_linear_value : forall k vs L U x a b ty y, none_locked vs -> length x = length (free vs) -> length y = length x -> length a = length x ->
  call (sub_vars x) (sub_con k vs L U x (ALin a b ty)) y = Some (dot a y - b) /\ call vs (ALin a b ty) y = Some (dot a y - b).
Proof. exact sub_linear_value_lemma. Qed.
Print Assumptions C356_linear_value.
Theorem C356_types : forall k vs L U x cs, map type_of (map (sub_con k vs L U x) cs) = map type_of cs.
Proof. exact sub_types_lemma. Qed.
Print Assumptions C356_types.
Theorem C356_afterwards : forall vs s x y c, none_locked vs -> length x = length (free vs) -> length y = length x ->
  call_after vs s x y c = match call vs c y with Some r => Some (r, match c with ALin _ _ _ => s | ANon _ _ _ => y end) | None => None end.
Proof. exact after_free_lemma. Qed.
Print Assumptions C356_afterwards.
Theorem C356_afterwards_locked : forall vs s x y a b ty, ~ none_locked vs -> length a = length vs -> length x = length (free vs) -> length y = length x ->
  call vs (ALin a b ty) y <> None /\ call_after vs s x y (ALin a b ty) = None.
Proof. exact after_locked_lemma. Qed.
Print Assumptions C356_afterwards_locked.
(** A constraint that reads the structure, as those of structural problems do: its approximation is constant. *)
Theorem C356_structure_refuted : exists vs f ty, none_locked vs /\
  partial_deriv (fun y => f (fill vs y) (fill vs y)) [2] 0 1 /\ con_df (fill vs [2]) f None [2] = [0] /\
  forall k y, length y = 1%nat -> call (sub_vars [2]) (sub_con k vs [1] [3] [2] (ANon f None ty)) y = call vs (ANon f None ty) [2].
Proof.
  exists [mkAv false 2], (fun s _ => nth 0 s 0), ALe. split. repeat constructor.
  assert (Z : con_df (fill [mkAv false 2] [2]) (fun s _ => nth 0 s 0) None [2] = [0]) by (cbn [con_df]; apply (num_blind_lemma _ [2]); reflexivity).
  split. unfold partial_deriv. cbn. apply derivable_pt_lim_id. split; auto.
  intros k y L. destruct y as [|y [|? ?]]; try discriminate. cbn [sub_con call]. rewrite Z. f_equal.
  destruct k; cbn; unfold conlin, mma, mma_sum, conlin_a, mma_p, mma_q; cbn; destruct (Rle_dec 0 0); try lra; unfold Rdiv; rewrite ?Rmult_0_r, ?Rmult_0_l; ring.
Qed.
Print Assumptions C356_structure_refuted.
(** With a locked variable the function is called with the free values only. *)
Theorem C356_locked_refuted : forall k, k <> SMmaP -> exists vs f g ty L U x, length x = length (free vs) /\ admissible k L U x /\ sized g /\
  call (sub_vars x) (sub_con k vs L U x (ANon f g ty)) x <> call vs (ANon f g ty) x.
Proof.
  intros k K. exists [mkAv true 5; mkAv false 2], (fun _ v => Rsum v), None, ALe, [1], [3], [2]. split; auto.
  assert (A : admissible k [1] [3] [2]) by (destruct k; cbn; unfold Approx_spec.positive, between; repeat split; repeat constructor; lra).
  split; auto. split; [exact Logic.I|]. cbn [sub_con call]. rewrite fill_sub by auto. rewrite approx_value; auto.
  destruct k; try congruence; cbn; intros E; injection E; lra.
Qed.
Print Assumptions C356_locked_refuted.
Example C356_ex : admissible SConlin [] [] [2; 3] /\ admissible SMma [1; 1] [4; 5] [2; 3] /\ sized None /\ none_locked [mkAv false 0; mkAv false 1] /\ ~ none_locked [mkAv true 1; mkAv false 2] /\
  smooth (fun t => t ^ 2) (fun t => 2 * t) (fun _ => 2) 1 (1/10) 2.
Proof.
  split; [repeat constructor; lra|]. split; [split; [reflexivity|split; [reflexivity|split; repeat constructor; lra]]|].
  split; [exact Logic.I|]. split; [repeat constructor|]. split; [intros N; inversion N; discriminate|].
  intros t T. split; [|split].
  - replace (2 * t) with (INR 2 * t ^ 1) by (simpl; ring). apply derivable_pt_lim_pow.
  - assert (Q := derivable_pt_lim_scal id 2 t 1 (derivable_pt_lim_id t)). rewrite Rmult_1_r in Q. exact Q.
  - rewrite Rabs_right; lra.
Qed.
