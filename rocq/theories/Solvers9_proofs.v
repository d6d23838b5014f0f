From Verif Require Import Base Problem_proofs Solvers_proofs Solvers2_proofs.
From Verif Require Import Solvers_model Solvers_spec.

(* the step from x0 to x1 ends the iteration *)
Definition small_step (P : oprob) (x0 x1 : list R) : Prop :=
  ok_at P x1 /\
  (vnorm (vsub x1 x0) < 1 / 100000000 * vnorm x0 \/ Rabs (op_f P x1 - op_f P x0) <= 1 / 100000000 + 1 / 10000 * Rabs (op_f P x0)).
Lemma stop_iff P x0 x : andb (op_feasible P x) (orb (stop_x x0 x) (stop_f (op_f P x0) (op_f P x))) = true <-> small_step P x0 x.
Proof.
  unfold small_step. rewrite andb_true_iff, orb_true_iff, op_feasible_ok. unfold stop_x, stop_f. rewrite Rltb_true, Rleb_true. unfold XS_TOL, ABS_F_TOL, REL_F_TOL. tauto.
Qed.
Lemma oloop_stop P act late : forall fuel k s s', oloop P act late fuel k s = Some s' ->
  exists new, o_states s' = o_states s ++ new /\
    (length new = fuel \/ ((length new < fuel)%nat /\ late (k + length new)%nat = true) \/
     exists pre x0 x1, o_X s :: new = pre ++ [x0; x1] /\ small_step P x0 x1) /\
    (forall pre x0 x1 y post, o_X s :: new = pre ++ x0 :: x1 :: y :: post -> ~ small_step P x0 x1) /\
    (forall i, (i < length new)%nat -> late (k + i)%nat = false).
Proof.
  induction fuel as [|fuel IH]; intros k s s' H; cbn [oloop] in H.
  - injection H as <-. exists []. rewrite app_nil_r. split; auto. split; [auto|]. split; [|simpl; lia]. intros [|a [|b pre]] x0 x1 y post E; discriminate.
  - destruct (late k) eqn:EL. { injection H as <-. exists []. rewrite app_nil_r. split; auto. split; [right; left; simpl; split; [lia|rewrite Nat.add_0_r; auto]|]. split; [|simpl; lia]. intros [|a [|b pre]] x0 x1 y post E; discriminate. }
    destruct (ostep (op_bounds P) (o_X s) (act k)) as [x|] eqn:ES; [|discriminate]. cbv zeta in H.
    destruct (andb (op_feasible P x) _) eqn:EQ.
    + apply stop_iff in EQ. injection H as <-. exists [x]. cbn [o_states]. split; auto. split; [right; right; exists [], (o_X s), x; auto|].
      split; [intros [|a [|b [|c pre]]] x0 x1 y post E; discriminate|]. intros [|i] L; [rewrite Nat.add_0_r; auto|simpl in L; lia].
    + assert (NQ : ~ small_step P (o_X s) x) by (intros C; apply stop_iff in C; congruence).
      apply IH in H. cbn [o_states o_X] in H. destruct H as (new & A & B & C & D). exists (x :: new). split; [rewrite A, <- app_assoc; reflexivity|]. split; [|split].
      * cbn [length]. destruct B as [B|[(B & B2)|(pre & x0 & x1 & B & B2)]]; [left; lia|right; left; split; [lia|]; rewrite Nat.add_succ_r; exact B2|].
        right. right. exists (o_X s :: pre), x0, x1. rewrite B. auto.
      * intros [|a pre] x0 x1 y post E; [injection E as <- <- _; exact NQ|]. injection E as <- E. apply (C pre x0 x1 y post E).
      * intros [|i] L; [rewrite Nat.add_0_r; auto|]. rewrite Nat.add_succ_r. apply (D i). cbn [length] in L. lia.
Qed.
Lemma osolve_stop_lemma : forall P act late maxiter bf0 bx0 x0 bf bx states, osolve P act late maxiter bf0 bx0 x0 = Some (bf, bx, states) ->
  (length states = maxiter \/ ((length states < maxiter)%nat /\ late (length states) = true) \/
     exists pre y z, x0 :: states = pre ++ [y; z] /\ small_step P y z) /\
  (forall pre y z w post, x0 :: states = pre ++ y :: z :: w :: post -> ~ small_step P y z) /\
  (forall i, (i < length states)%nat -> late i = false).
Proof.
  intros P act late m bf0 bx0 x0 bf bx states H. unfold osolve in H. destruct (oloop _ _ _ _ _ _) as [s|] eqn:E; [|discriminate].
  apply oloop_stop in E. cbn [o_states o_X app] in E. destruct E as (new & A & B & C & D).
  assert (states = new) as -> by (destruct (o_bestx s); injection H as _ _ <-; exact A). auto.
Qed.
Lemma slp_relax_lemma : forall (rows : list (list R * R)) x,
  (forall b1 b2, b1 <= b2 -> Forall (slp_row_ok x b1) rows -> Forall (slp_row_ok x b2) rows) /\
  (exists b, 0 <= b /\ Forall (slp_row_ok x b) rows) /\
  (Forall (slp_row_ok x 0) rows <-> Forall (fun r => dot (fst r) x <= snd r) rows).
Proof.
  intros rows x. unfold slp_row_ok. split; [|split].
  - intros b1 b2 H. apply Forall_impl. intros a A. lra.
  - induction rows as [|r rows (b & B & IH)]; [exists 0; split; [lra|constructor]|].
    exists (Rmax b (dot (fst r) x - snd r)). split; [pose proof (Rmax_l b (dot (fst r) x - snd r)); lra|]. constructor.
    + pose proof (Rmax_r b (dot (fst r) x - snd r)). lra.
    + eapply Forall_impl; [|exact IH]. intros a A. cbv beta in A. pose proof (Rmax_l b (dot (fst r) x - snd r)). lra.
  - split; apply Forall_impl; intros a A; lra.
Qed.
Lemma least_scv_first l p : least_scv l = Some p -> exists l1 l2, l = l1 ++ p :: l2 /\ Forall (fun q => p_scv p < p_scv q) l1 /\ Forall (fun q => p_scv p <= p_scv q) l2.
Proof.
  revert p. induction l as [|a l IH]; intros p H; [discriminate|]. cbn [least_scv] in H. destruct (least_scv l) as [q|] eqn:E.
  - destruct (IH q eq_refl) as (l1 & l2 & E2 & F1 & F2). subst l. destruct (Rleb (p_scv a) (p_scv q)) eqn:EL; injection H as <-.
    + apply Rleb_true in EL. exists [], (l1 ++ q :: l2). split; auto. split; [constructor|]. apply Forall_app. split; [|constructor; [auto|]].
      * eapply Forall_impl; [|exact F1]. intros c C. cbv beta in C. lra.
      * eapply Forall_impl; [|exact F2]. intros c C. cbv beta in C. lra.
    + apply Rleb_false in EL. exists (a :: l1), l2. split; auto.
  - injection H as <-. destruct l; [exists [], []; auto|]. cbn in E. destruct (least_scv l); [destruct (Rleb _ _)|]; discriminate.
Qed.
Lemma visit_infeasible swarm : forall g, g_scv g = None -> g_x g = None -> Forall (fun p => 1 / 100000000 < p_scv p) swarm -> fold_left visit swarm g = g.
Proof.
  induction swarm as [|p r IH]; intros g S0 X0 F; [reflexivity|]. inversion F as [|? ? F1 F2]; subst. cbn [fold_left].
  assert (visit g p = g) as ->; [|apply IH; auto]. unfold visit. rewrite S0. cbn [above_tol]. destruct (Rleb (p_scv p) G_TOL) eqn:E; auto. apply Rleb_true in E. unfold G_TOL in E. lra.
Qed.
Lemma least_violation_lemma : forall bf swarm, swarm <> [] -> Forall (fun p => 1 / 100000000 < p_scv p) swarm ->
  exists l1 p l2, swarm = l1 ++ p :: l2 /\ update_best swarm (g_new bf) = Some (mkG bf None (Some (p_x p))) /\
    Forall (fun q => p_scv p < p_scv q) l1 /\ Forall (fun q => p_scv p <= p_scv q) l2.
Proof.
  intros bf swarm NE F. unfold update_best. rewrite visit_infeasible by auto. cbn [g_new g_x g_f g_scv].
  destruct (least_scv swarm) as [p|] eqn:E.
  - destruct (least_scv_first _ _ E) as (l1 & l2 & E2 & F1 & F2). exists l1, p, l2. auto.
  - exfalso. destruct swarm as [|a l]; [congruence|]. cbn in E. destruct (least_scv l); [destruct (Rleb _ _)|]; discriminate.
Qed.
Lemma pso_free_lemma : (forall x v lb ub, lb <= x + v <= ub -> pso_coord x v lb ub = x + v) /\
  (forall w c1 c2 v x own glob vmin vmax, vmin <= w * v + c1 * own + c2 * glob - (c1 + c2) * x <= vmax ->
     pso_velocity w c1 c2 v x own glob vmin vmax = w * v + c1 * own + c2 * glob - (c1 + c2) * x).
Proof.
  split; intros; unfold pso_coord, pso_velocity.
  - rewrite Rmax_left by lra. rewrite Rmin_left by lra. reflexivity.
  - replace (w * v + c1 * (own - x) + c2 * (glob - x)) with (w * v + c1 * own + c2 * glob - (c1 + c2) * x) by ring. rewrite Rmax_left by lra. rewrite Rmin_left by lra. reflexivity.
Qed.
Lemma arange_lemma : forall lb ub x, In x (arange lb ub) <-> exists z, x = IZR z /\ (lb <= z <= ub)%Z.
Proof.
  intros lb ub x. unfold arange. rewrite in_map_iff. split.
  - intros (i & <- & I). apply in_seq in I. exists (lb + Z.of_nat i)%Z. split; auto. lia.
  - intros (z & -> & H). exists (Z.to_nat (z - lb)). split; [f_equal; lia|]. apply in_seq. lia.
Qed.
Lemma integer_neighborhood_lemma : forall k vs x N p i lb ub, length x = length vs -> neighborhood k vs x = Some N -> Forall (fun v => v <> NCont) vs ->
  In p N -> nth_error vs i = Some (NInt lb ub) -> exists z, nth_error p i = Some (IZR z) /\ (lb <= z <= ub)%Z.
Proof.
  intros k vs x N p i lb ub L H F I E. unfold neighborhood in H. destruct (nbhd_lists k vs x) as [l|] eqn:EL; [|discriminate]. injection H as <-. apply product_in in I.
  revert x l p i L EL I E F. induction vs as [|v vs IH]; intros x l p i L EL I E F; [destruct i; discriminate|].
  destruct x as [|xi x]; [discriminate|]. inversion F as [|? ? F1 F2]; subst. destruct v as [vals|lb' ub'|]; [| |congruence]; cbn [nbhd_lists] in EL; destruct (nbhd_lists k vs x) as [l'|] eqn:E2; try discriminate; injection EL as <-;
    inversion I as [|? y ? p' I1 I2]; subst; (destruct i as [|i]; cbn in E |- *; [|apply (IH x l' p' i); auto]); try discriminate.
  injection E as -> ->. destruct (nearest_k_ok k xi (arange lb ub)) as (rest & P & _). assert (In y (arange lb ub)) as Q by (eapply Permutation_in; [apply Permutation_sym, P|apply in_or_app; auto]).
  apply arange_lemma in Q. destruct Q as (z & -> & Z). exists z. auto.
Qed.
