(** Properties C357 and C358: random designs and stopping criteria. *)
Require Import Reals ZArith List Bool Lra Lia Psatz PeanoNat.
Import ListNotations.
From Verif Require Import Base EC3_model Bool_tac EC3_proofs Plate_proofs Rst_proofs.
From Verif Require Import Rst_model Rst_spec.
Local Open Scope R_scope.

(** C357 *)
Theorem C357_random_values : forall vs us, Forall well_formed vs -> (forall i, rnd (us i)) -> exists x, random_values vs us = Some x /\ Forall2 allowed vs x.
Proof. exact random_values_lemma. Qed.
Print Assumptions C357_random_values.
Theorem C357_nearest : forall v u l x w, r_kind v = RDisc l -> draw v u = Some x -> In w l -> let t := (1 - u) * r_lb v + u * r_ub v in Rabs (x - t) <= Rabs (w - t).
Proof. exact draw_nearest_lemma. Qed.
Print Assumptions C357_nearest.
Theorem C357_every_value : forall v x, well_formed v -> allowed v x -> (r_kind v = RCont -> x < r_ub v) -> exists u, rnd u /\ draw v u = Some x.
Proof. exact draw_onto_lemma. Qed.
Print Assumptions C357_every_value.
Theorem C357_first_margin : forall cont vs cs fuel us x, feasible_point cont vs cs us fuel = Some x <->
  exists k, (k < fuel)%nat /\ point cont vs (us k) = Some x /\ (forall c, In c cs -> snd c x <= - (15 / 100)) /\
    forall j, (j < k)%nat -> exists y c, point cont vs (us j) = Some y /\ In c cs /\ - (15 / 100) < snd c y.
Proof. exact feasible_first_lemma. Qed.
Print Assumptions C357_first_margin.
Theorem C357_point_continuous : forall vs us x, (forall i, rnd (us i)) -> Forall (fun v => r_lb v <= r_ub v) vs -> point true vs us = Some x -> Forall2 (fun v y => r_lb v <= y <= r_ub v) vs x.
Proof. exact point_cont_lemma. Qed.
Print Assumptions C357_point_continuous.
Theorem C357_point_discrete : forall vs us x, (forall i, rnd (us i)) -> Forall (fun v => exists a b, r_lb v = IZR a /\ r_ub v = IZR b) vs -> point false vs us = Some x ->
  Forall2 (fun v y => r_lb v <= y < r_ub v /\ exists z, y = IZR z) vs x.
Proof. exact point_int_lemma. Qed.
Print Assumptions C357_point_discrete.
Theorem C357_less_constraints : forall cont vs cs us fuel x tol, feasible_point cont vs cs us fuel = Some x -> 0 <= tol -> forall c, In c cs -> fst c = RLe -> con_ok tol c x = true.
Proof. exact feasible_less_lemma. Qed.
Print Assumptions C357_less_constraints.
(** Constraints of the other types are violated by every point returned. *)
Theorem C357_other_constraints_refuted : forall cont vs cs us fuel x tol, feasible_point cont vs cs us fuel = Some x -> tol < 15 / 100 -> forall c, In c cs -> fst c <> RLe -> con_ok tol c x = false.
Proof. exact feasible_other_lemma. Qed.
Print Assumptions C357_other_constraints_refuted.
(** A problem with feasible designs, for which no point is ever returned. *)
Theorem C357_endless_refuted : exists vs cs, (forall us : nat -> nat -> R, (forall k i, rnd (us k i)) -> forall k, exists x, point true vs (us k) = Some x /\ forall c, In c cs -> con_ok 0 c x = true) /\
  forall (us : nat -> nat -> R) fuel, (forall k i, rnd (us k i)) -> feasible_point true vs cs us fuel = None.
Proof.
  exists [mkRv RCont 0 1], [(RLe, fun x => - (1 / 10) * nth 0 x 0)]. split.
  - intros us U k. eexists. split; [reflexivity|]. intros c [<-|[]]. unfold con_ok. simpl. apply negb_true_iff. apply Rltb_false. destruct (U k O). nra.
  - intros us fuel U. destruct (feasible_point _ _ _ us fuel) as [x|] eqn:E; auto. exfalso. apply feasible_first_lemma in E. destruct E as (k&_&P&C&_).
    specialize (C _ (or_introl eq_refl)). simpl in *. injection P as <-. simpl in C. destruct (U k O). lra.
Qed.
Print Assumptions C357_endless_refuted.
Example C357_ex : Forall well_formed [mkRv RCont 0 2; mkRv RInt 0 3; mkRv (RDisc [4; 1; 9]) 1 9] /\ rnd (1/2) /\ allowed (mkRv RInt 0 3) 3 /\
  exists x, feasible_point true [mkRv RCont 0 1] [(RLe, fun x => nth 0 x 0 - 1)] (fun _ _ => 1/2) 3 = Some x.
Proof.
  split; [|split; [|split]].
  - constructor; [unfold well_formed; simpl; lra|]. constructor; [exists 0%Z, 3%Z; repeat split; lia|]. constructor; [|constructor]. split; [simpl; auto|]. split; [simpl; auto|]. intros w W. simpl in *. destruct W as [W|[W|[W|[]]]]; lra.
  - unfold rnd; lra.
  - split. unfold allowed; simpl; lra. exists 3%Z. reflexivity.
  - exists [0 + (1 - 0) * (1/2)]. apply feasible_first_lemma. exists 0%nat. split; [lia|]. split; auto. split. intros c [<-|[]]. simpl. lra. intros; lia.
Qed.

(** C358 *)
Theorem C358_unchanged : forall xtol x, 0 < xtol -> stop_x xtol x x = true <-> Exists (fun a => a <> 0) x.
Proof. exact stop_same_lemma. Qed.
Print Assumptions C358_unchanged.
Theorem C358_scale : forall xtol x0 x1 c, c <> 0 -> stop_x xtol (map (Rmult c) x0) (map (Rmult c) x1) = stop_x xtol x0 x1.
Proof. exact stop_scale_lemma. Qed.
Print Assumptions C358_scale.
Theorem C358_entries : forall xtol x0 x1 i, length x1 = length x0 -> (i < length x0)%nat -> stop_x xtol x0 x1 = true -> Rabs (nth i x1 0 - nth i x0 0) < xtol * sqrt (Rsum (map (fun a => a ^ 2) x0)).
Proof. exact stop_entry_lemma. Qed.
Print Assumptions C358_entries.
Theorem C358_objective : forall atol rtol f0 f1, stop_f atol rtol f0 f1 = true <-> f0 - (atol + rtol * Rabs f0) <= f1 <= f0 + (atol + rtol * Rabs f0).
Proof. exact stop_f_lemma. Qed.
Print Assumptions C358_objective.
(** At the origin an unchanged design does not stop the solver. *)
Theorem C358_origin_refuted : forall xtol n, stop_x xtol (repeat 0 n) (repeat 0 n) = false.
Proof.
  intros xtol n. apply Rltb_false. assert (Z : norm2 (repeat 0 n) = 0) by (apply norm2_zero, Forall_forall; intros x I; now apply repeat_spec in I). rewrite Z.
  assert (Z2 : norm2 (vsub (repeat 0 n) (repeat 0 n)) = 0) by (apply norm2_zero, vsub_self). rewrite Z2. lra.
Qed.
Print Assumptions C358_origin_refuted.
(** The criterion is not symmetric: the same two designs stop the solver in one order only. *)
Theorem C358_order_refuted : exists x0 x1, stop_x (1/2) x0 x1 = true /\ stop_x (1/2) x1 x0 = false.
Proof.
  exists [4], [5/2]. assert (N : forall a, norm2 [a] = Rabs a) by (intros a; unfold norm2; simpl; rewrite Rplus_0_r, Rmult_1_r; apply sqrt_Rsqr_abs).
  unfold stop_x. simpl vsub. rewrite !N. rewrite Rltb_true, Rltb_false. rewrite (Rabs_left (5/2 - 4)), (Rabs_right 4), (Rabs_right (4 - 5/2)), (Rabs_right (5/2)) by lra. lra.
Qed.
Print Assumptions C358_order_refuted.
Example C358_ex : Exists (fun a => a <> 0) [0; 3] /\ 0 < 1/100000000 /\ stop_f (1/100000000) (1/10000) 10 (10 + 1/10000) = true.
Proof. split; [|split]. apply Exists_cons_tl, Exists_cons_hd; lra. lra. apply stop_f_lemma. rewrite Rabs_right; lra. Qed.
