From Coq Require Import Psatz.
From Verif Require Import Base Tac Problem_proofs Solvers_proofs Solvers2_proofs.
From Verif Require Import Heur_model Heur_spec.

(* ---------------- scipy translations ---------------- *)
Lemma slsqp_cons_lemma vs cs x : scipy_ok (slsqp_cons vs cs) x <-> all_hold vs cs x.
Proof.
  unfold scipy_ok, slsqp_cons, all_hold. rewrite Forall_app, !Forall_map. simpl.
  induction cs as [|c cs IH]; simpl; [split; auto|].
  rewrite Forall_cons_iff, <- IH. unfold demands.
  destruct (t_type c); simpl; rewrite ?Forall_app, ?Forall_cons_iff; simpl; intuition lra.
Qed.
Lemma slsqp_bounds_lemma vs : Forall (fun v => tv_lb v <= tv_ub v) vs ->
  inside (slsqp_bounds vs) (slsqp_x0 vs) /\
  (forall x, inside (slsqp_bounds vs) x <-> Forall2 (fun v xi => tv_lb v <= xi <= tv_ub v) (tfree vs) x).
Proof.
  intros O. assert (O' : Forall (fun v => tv_lb v <= tv_ub v) (tfree vs)).
  { rewrite Forall_forall in *. intros v H. apply filter_In in H as [H _]. auto. }
  unfold inside, slsqp_bounds, slsqp_x0. split.
  - induction O'; simpl; constructor; simpl; auto; lra.
  - clear. induction (tfree vs) as [|v l IH]; intros x; simpl; split; intros H; inversion H; subst; constructor; simpl in *; auto; apply IH; auto.
Qed.
Lemma cobyla_refuted_lemma : exists vs cs x, Forall (fun v => tv_lb v <= tv_ub v) vs /\
  scipy_ok (fst (cobyla_problem vs cs)) x /\ snd (cobyla_problem vs cs) = [] /\
  ~ inside (slsqp_bounds vs) x.
Proof.
  exists [mkTv vCont 1 2 None], [NonLin sLt (fun x => hd 0 x - 2)], [0]. repeat split.
  - repeat constructor; simpl; lra.
  - simpl. apply slsqp_cons_lemma. repeat constructor; simpl; lra.
  - intros H. inversion H; subst. simpl in *. lra.
Qed.

(* ---------------- trust region, LP, MILP ---------------- *)
Lemma tall_free vs x : Forall (fun v => tv_fixed v = None) vs -> length x = length vs -> tall vs x = x.
Proof.
  intros F; revert x; induction F as [|v vs E F IH]; intros [|a x] L; simpl in *; try discriminate; auto.
  rewrite E. f_equal. apply IH. lia.
Qed.
Lemma tr_cons_lemma vs cs x : Forall (fun v => tv_fixed v = None) vs -> length x = length vs ->
  (tr_ok (tr_cons cs) x <-> all_hold vs cs x).
Proof.
  intros F L. pose proof (tall_free vs x F L) as TF0. clear F. unfold tr_ok, tr_cons, all_hold. rewrite Forall_map.
  split; intros H; rewrite Forall_forall in *; intros c Hc; specialize (H c Hc);
    destruct c as [ty g|ty a b]; simpl in *; unfold between, demands in *; rewrite ?TF0 in *;
    destruct ty; simpl in *; intuition lra.
Qed.
Lemma tr_nonlinear_lemma vs cs x : Forall (fun c => match c with NonLin _ _ => True | Lin _ _ _ => False end) cs ->
  (tr_ok (tr_cons cs) x <-> all_hold vs cs x).
Proof.
  intros F. unfold tr_ok, tr_cons, all_hold. rewrite Forall_map.
  split; intros H; rewrite Forall_forall in *; intros c Hc; specialize (H c Hc); specialize (F c Hc);
    destruct c as [ty g|ty a b]; simpl in *; try contradiction; unfold between, demands in *;
    destruct ty; simpl in *; intuition lra.
Qed.
Lemma tr_locked_refuted_lemma : exists vs cs x, length x = length (tfree vs) /\
  tr_ok (tr_cons cs) x /\ ~ all_hold vs cs x.
Proof.
  exists [mkTv vCont 0 10 (Some 5); mkTv vCont 0 10 None], [Lin sLt [0; 1] 3], [4].
  repeat split; simpl; auto.
  - repeat constructor. simpl. lra.
  - intros H. inversion H; subst. unfold demands in *; simpl in *. lra.
Qed.
Lemma lp_rows_lemma vs cs x : Forall (fun v => tv_fixed v = None) vs -> length x = length vs ->
  Forall (fun c => exists ty a b, c = Lin ty a b /\ (ty = sLt \/ ty = sGt \/ ty = sEq)) cs ->
  (rows_ok (lp_rows cs) x <-> all_hold vs cs x).
Proof.
  intros F L C. unfold rows_ok, lp_rows, all_hold.
  induction C as [|c cs (ty & a & b & -> & T) C IH]; simpl; [split; auto|].
  rewrite !Forall_cons_iff, IH. simpl. unfold demands. rewrite (tall_free vs x F L).
  destruct T as [->|[->| ->]]; simpl; intuition lra.
Qed.
Lemma lp_nonlinear_refuted_lemma : exists vs cs x, length x = length vs /\
  Forall (fun v => tv_fixed v = None) vs /\ rows_ok (lp_rows cs) x /\ ~ all_hold vs cs x.
Proof.
  exists [mkTv vCont 0 10 None], [NonLin sLt (fun x => hd 0 x - 3)], [4].
  split; [reflexivity|]. split; [repeat constructor|]. split; [constructor|].
  intros H. inversion H; subst. unfold demands in *; simpl in *. lra.
Qed.
Lemma lp_le_refuted_lemma : exists vs cs x, length x = length vs /\
  Forall (fun v => tv_fixed v = None) vs /\ all_hold vs cs x /\ ~ rows_ok (lp_rows cs) x.
Proof.
  exists [mkTv vCont 0 10 None], [Lin sLe [1] 3], [2].
  split; [reflexivity|]. split; [repeat constructor|]. split.
  - repeat constructor; unfold demands; simpl; lra.
  - intros H. inversion H; subst. simpl in *. lra.
Qed.
Lemma lp_locked_refuted_lemma : exists vs cs x, length x = length (tfree vs) /\
  rows_ok (lp_rows cs) x /\ ~ all_hold vs cs x.
Proof.
  exists [mkTv vCont 0 10 (Some 5); mkTv vCont 0 10 None], [Lin sLt [0; 1] 3], [4].
  repeat split; simpl; auto.
  - repeat constructor. simpl. lra.
  - intros H. inversion H; subst. unfold demands in *; simpl in *. lra.
Qed.
Lemma milp_vars_lemma vs x : Forall (fun v => tv_fixed v = None) vs ->
  Forall (fun v => tv_class v = vCont \/ tv_class v = vBin) vs ->
  (milp_ok (milp_vars vs) x <-> Forall2 var_ok vs x).
Proof.
  intros F C. unfold milp_ok, milp_vars.
  replace (tfree vs) with vs.
  2:{ unfold tfree. symmetry. clear C. induction F as [|v vs E F IH]; simpl; auto. rewrite E. f_equal. auto. }
  clear F. revert x. induction C as [|v vs E C IH]; intros x; simpl; split; intros H; inversion H; subst; constructor; auto; try (apply IH; auto);
    unfold var_ok in *; destruct E as [E|E]; rewrite E in *; intuition discriminate.
Qed.
Lemma milp_relaxed_lemma vs x : Forall (fun v => tv_fixed v = None) vs ->
  Forall2 var_ok vs x -> milp_ok (milp_vars vs) x.
Proof.
  intros F H. unfold milp_ok, milp_vars.
  replace (tfree vs) with vs.
  2:{ unfold tfree. symmetry. clear H. induction F as [|v vs E F IH]; simpl; auto. rewrite E. f_equal. auto. }
  clear F. induction H as [|v xi vs x E H IH]; simpl; constructor; auto.
  unfold var_ok in E. destruct (tv_class v); intuition discriminate.
Qed.
Lemma milp_integer_refuted_lemma : exists vs x, Forall (fun v => tv_fixed v = None) vs /\
  milp_ok (milp_vars vs) x /\ ~ Forall2 var_ok vs x.
Proof.
  exists [mkTv vInt 0 10 None], [1/2]. repeat split.
  - repeat constructor.
  - unfold milp_ok, milp_vars; simpl. constructor; [|constructor]. cbn. split; [discriminate|lra].
  - intros H. inversion H as [|? ? ? ? V _]; subst. destruct V as [_ [z Z]]. simpl in Z.
    assert (A : 0 < IZR z < 1) by lra. destruct A as [A B]. apply lt_IZR in A. apply lt_IZR in B. lia.
Qed.

(* ---------------- MISLP ---------------- *)
Lemma mislp_range_lemma ty ml mu v x l u : tv_class v <> vBin -> tv_lb v <= x <= tv_ub v ->
  0 <= ml -> 0 <= mu -> (ty = MRelative -> 0 <= x) -> mislp_range ty ml mu v x = Some (l, u) ->
  tv_lb v <= l <= x /\ x <= u <= tv_ub v.
Proof.
  intros NB B P1 P2 X H. unfold mislp_range in H. cbv zeta in H.
  set (delta := match ty with MRange => tv_ub v - tv_lb v | MRelative => x end) in *.
  assert (D : 0 <= delta) by (unfold delta; destruct ty; [lra|auto]). clearbody delta.
  assert (0 <= ml * delta) by (apply Rmult_le_pos; auto).
  assert (0 <= mu * delta) by (apply Rmult_le_pos; auto).
  assert (K : forall a b, 0 <= a -> 0 <= b -> Some (Rmax (x - a) (tv_lb v), Rmin (x + b) (tv_ub v)) = Some (l, u) -> tv_lb v <= l <= x /\ x <= u <= tv_ub v).
  { intros a b A1 B1 E. injection E as <- <-. rmx; lra. }
  assert (KM : forall a b, 0 <= a -> 0 <= Rmax a b) by (intros; rmx; lra).
  destruct (tv_class v) as [| | |values]; try congruence; try (eapply K; [| |exact H]; auto; fail).
  destruct (nearest_idx values x) as [[|idx]|]; try discriminate.
  - destruct (nth_error values 1); [|discriminate]. eapply K; [| |exact H]; auto.
  - destruct (Nat.eqb _ _); (eapply K; [| |exact H]; auto).
Qed.
Lemma nearest_idx_ok values x idx : nearest_idx values x = Some idx ->
  (idx < length values)%nat /\ forall w, In w values -> Rabs (nth idx values 0 - x) <= Rabs (w - x).
Proof.
  unfold nearest_idx. destruct (argmin_from 0 _ values) as [[i v]|] eqn:E; [|discriminate].
  intros H; injection H as <-. apply argmin_from_ok in E as (A & B & C). rewrite Nat.sub_0_r in B.
  split; [lia|]. intros w W. rewrite (nth_error_nth _ _ 0 B). apply sq_abs. auto.
Qed.
Lemma mislp_neighbours_lemma ty ml mu v values x l u i : tv_class v = vDisc values ->
  (forall w, In w values -> tv_lb v <= w <= tv_ub v) ->
  (forall a b, (a < b < length values)%nat -> nth a values 0 < nth b values 0) ->
  (i < length values)%nat -> x = nth i values 0 -> mislp_range ty ml mu v x = Some (l, u) ->
  (forall w, ((0 < i)%nat -> w = nth (i - 1) values 0 -> l <= w) /\ ((i + 1 < length values)%nat -> w = nth (i + 1) values 0 -> w <= u)).
Proof.
  intros C B SS I X H w. unfold mislp_range in H. cbv zeta in H.
  set (delta := match ty with MRange => tv_ub v - tv_lb v | MRelative => x end) in *. clearbody delta. rewrite C in H.
  destruct (nearest_idx values x) as [idx|] eqn:E; [|discriminate].
  destruct (nearest_idx_ok _ _ _ E) as [E1 E2].
  assert (idx = i).
  { specialize (E2 x ltac:(rewrite X; apply nth_In; auto)). unfold Rminus in E2 at 2. rewrite Rplus_opp_r, Rabs_R0 in E2.
    assert (nth idx values 0 = x) by (revert E2; unfold Rabs; destruct (Rcase_abs _); lra).
    destruct (lt_eq_lt_dec idx i) as [[L|L]|L]; auto.
    - specialize (SS idx i ltac:(lia)). lra.
    - specialize (SS i idx ltac:(lia)). lra. }
  subst idx. split; intros Hi Hw; subst w.
  - specialize (B (nth (i - 1) values 0) ltac:(apply nth_In; lia)).
    destruct i as [|i']; [lia|]. change (S i' - 1)%nat with (i' - 0)%nat in *. rewrite Nat.sub_0_r in *. destruct (Nat.eqb _ _); injection H as <- <-; clear - B; rmx; lra.
  - specialize (B (nth (i + 1) values 0) ltac:(apply nth_In; lia)).
    destruct i as [|i'].
    + destruct (nth_error values 1) eqn:N; [|discriminate]. injection H as <- <-.
      change (0 + 1)%nat with 1%nat in *. rewrite (nth_error_nth _ _ 0 N) in *. clear - B; rmx; lra.
    + destruct (Nat.eqb (S i') (length values - 1)) eqn:N; [apply Nat.eqb_eq in N; lia|].
      set (q := nth (S i' + 1) values 0) in *. clearbody q. injection H as <- <-. clear - B; rmx; lra.
Qed.
Lemma mislp_rows_lemma rows x beta : Forall (fun r => snd (fst r) = sLt \/ snd (fst r) = sEq) rows ->
  (Forall (fun r => let '(a, eq, b) := r in if eq : bool then dot a x = b else dot a x <= b + beta) (mislp_rows rows) <->
   Forall (fun r => let '(a, ty, b) := r in match ty with sEq => dot a x - b = 0 | _ => dot a x - b <= beta end) rows).
Proof.
  intros F. induction F as [|[[a ty] b] rows T F IH]; [split; constructor|].
  simpl in T. unfold mislp_rows in *. destruct T as [->| ->]; simpl; rewrite !Forall_cons_iff, IH; intuition lra.
Qed.
Lemma mislp_gt_refuted_lemma : exists rows x, ~ Forall (fun r => demands (snd (fst r)) (dot (fst (fst r)) x - snd r)) rows /\ mislp_rows rows = [].
Proof.
  exists [([1], sGt, 3)], [1]. split; auto. intros H. inversion H; subst. unfold demands in *; simpl in *. lra.
Qed.
Lemma sum01_list : forall y values, length y = length values -> Forall (fun b => b = 0 \/ b = 1) y -> 
  (Rsum y = 0 -> dot y values = 0) /\ (Rsum y = 1 -> In (dot y values) values) /\ 0 <= Rsum y.
Proof.
  induction y as [|b y IH]; intros [|v values] L F; simpl in *; try discriminate; [repeat split; auto; lra|].
  inversion F; subst. destruct (IH values ltac:(lia) H2) as (A & B & C). unfold Rsum in *. simpl in *.
  destruct H1 as [->| ->].
  - replace (0 * v + dot y values) with (dot y values) by ring. replace (0 + fold_right Rplus 0 y) with (fold_right Rplus 0 y) by ring. auto.
  - split; [lra|]. split; [|lra]. intros E. left. rewrite A by lra. ring.
Qed.
Lemma Rsum_zeros n : Rsum (repeat 0 n) = 0.
Proof. induction n; unfold Rsum in *; simpl; lra. Qed.
Lemma picks_lemma values x : picks values x <-> In x values.
Proof.
  split.
  - intros (y & L & F & E1 & E2). rewrite <- E2. apply sum01_list; auto.
  - induction values as [|v values IH]; intros H; [destruct H|]. destruct H as [->|H].
    + exists (1 :: repeat 0 (length values)). cbn [length dot]. rewrite repeat_length, dot_zeros. split; [reflexivity|split; [|split]].
      * constructor; auto. apply Forall_forall. intros b Hb. apply repeat_spec in Hb. auto.
      * rewrite Rsum_cons, Rsum_zeros. ring.
      * ring.
    + destruct (IH H) as (y & L & F & E1 & E2). exists (0 :: y). cbn [length dot]. rewrite L. split; [reflexivity|split; [auto|split]].
      * rewrite Rsum_cons, E1. ring.
      * rewrite E2. ring.
Qed.
Lemma select_from_in : forall vs k i values, In (i, values) (flat_map (fun iv => match tv_class (snd iv) with vDisc values => [(fst iv, values)] | _ => [] end) (combine (seq k (length vs)) vs)) <->
  (k <= i)%nat /\ exists v, nth_error vs (i - k) = Some v /\ tv_class v = vDisc values.
Proof.
  induction vs as [|v vs IH]; intros k i values; simpl.
  - split; [tauto|]. intros (_ & v & H & _). destruct (i - k)%nat; discriminate.
  - rewrite in_app_iff, IH. split.
    + intros [H|(H1 & w & H2 & H3)].
      * destruct (tv_class v) eqn:E; simpl in H; try tauto. destruct H as [H|[]]. injection H as <- <-. split; auto. exists v. rewrite Nat.sub_diag. auto.
      * split; [lia|]. exists w. replace (i - k)%nat with (S (i - S k)) by lia. auto.
    + intros (H1 & w & H2 & H3). destruct (Nat.eq_dec i k) as [->|N].
      * left. rewrite Nat.sub_diag in H2. injection H2 as ->. rewrite H3. simpl. auto.
      * right. split; [lia|]. exists w. replace (i - k)%nat with (S (i - S k)) in H2 by lia. auto.
Qed.
Lemma mislp_select_lemma vs x : Forall (fun v => tv_class v <> vBin) vs -> length x = length vs ->
  ((forall i values, In (i, values) (mislp_select vs) -> picks values (nth i x 0)) <->
   (forall i v values, nth_error vs i = Some v -> tv_class v = vDisc values -> In (nth i x 0) values)).
Proof.
  intros F L. unfold mislp_select.
  destruct (existsb _ vs) eqn:E.
  - apply existsb_exists in E as (v & V & W). rewrite Forall_forall in F. specialize (F v V). destruct (tv_class v); congruence.
  - split.
    + intros H i v values N C. apply picks_lemma, H, select_from_in. split; [lia|]. exists v. rewrite Nat.sub_0_r. auto.
    + intros H i values I. apply select_from_in in I as (_ & v & N & C). rewrite Nat.sub_0_r in N. apply picks_lemma. eapply H; eauto.
Qed.
Lemma mislp_binary_refuted_lemma : exists vs, In (mkTv (vDisc [1; 2]) 1 2 None) vs /\ mislp_select vs = [].
Proof. exists [mkTv (vDisc [1; 2]) 1 2 None; mkTv vBin 0 1 None]. simpl. auto. Qed.
Lemma roundn3_err x : Rabs (roundn 3 x - x) <= 5 / 10000.
Proof.
  unfold roundn. pose proof (roundZ_err (x * 10 ^ 3)) as E.
  replace (IZR (roundZ (x * 10 ^ 3)) / 10 ^ 3 - x) with (- (x * 10 ^ 3 - IZR (roundZ (x * 10 ^ 3))) / 1000) by field.
  unfold Rdiv at 1. rewrite Rabs_mult, Rabs_Ropp, (Rabs_pos_eq (/ 1000)) by lra. lra.
Qed.
Lemma roundn3_exact z : roundn 3 (IZR z / 1000) = IZR z / 1000.
Proof. unfold roundn. replace (IZR z / 1000 * 10 ^ 3) with (IZR z) by field. rewrite roundZ_IZR. simpl. field. Qed.
Lemma mislp_next_lemma sol : Forall2 (fun a b => Rabs (b - a) <= 5/10000 /\ (forall z, a = IZR z / 1000 -> b = a)) sol (mislp_next sol).
Proof.
  unfold mislp_next. induction sol as [|a sol IH]; simpl; constructor; auto. split; [apply roundn3_err|].
  intros z ->. apply roundn3_exact.
Qed.
Lemma roundn3_of z x : Rabs (x * 1000 - IZR z) < 1/2 -> roundn 3 x = IZR z / 1000.
Proof.
  intros H. unfold roundn. replace (x * 10 ^ 3) with (x * 1000) by ring.
  pose proof (roundZ_nearest (x * 1000) z) as N. pose proof (roundZ_err (x * 1000)) as E.
  assert (roundZ (x * 1000) = z).
  { assert (A : Rabs (IZR (roundZ (x * 1000)) - IZR z) < 1).
    { pose proof (Rabs_triang (IZR (roundZ (x * 1000)) - x * 1000) (x * 1000 - IZR z)) as T.
      replace (IZR (roundZ (x * 1000)) - x * 1000 + (x * 1000 - IZR z)) with (IZR (roundZ (x * 1000)) - IZR z) in T by ring.
      rewrite (Rabs_minus_sym (IZR _) (x * 1000)) in T. lra. }
    rewrite <- minus_IZR in A. apply Rabs_def2 in A as [A B]. apply lt_IZR in A. rewrite <- opp_IZR in B. apply lt_IZR in B. lia. }
  rewrite H0. simpl. field.
Qed.
Lemma mislp_round_refuted_lemma : exists values sol, Forall (fun a => In a values) sol /\ ~ Forall (fun a => In a values) (mislp_next sol).
Proof.
  exists [2/10000; 1], [2/10000]. split; [repeat constructor; simpl; auto|]. intros H. inversion H as [|? ? I _]; subst.
  rewrite (roundn3_of 0) in I by (rewrite Rabs_pos_eq; lra). simpl in I. destruct I as [I|[I|[]]]; lra.
Qed.
Lemma mip_feasible_lemma cons x : mip_feasible cons x = true <->
  Forall (fun c => let '(a, l, u) := c in l - 1/100000 <= dot a x <= u + 1/100000) cons.
Proof.
  induction cons as [|[[a l] u] cons IH]; simpl; [split; auto|].
  rewrite Forall_cons_iff, <- IH.
  destruct (Rltb (u + _) (dot a x)) eqn:E1; simpl; [apply Rltb_true in E1; split; [discriminate|lra]|apply Rltb_false in E1].
  destruct (Rltb (dot a x) _) eqn:E2; simpl; [apply Rltb_true in E2; split; [discriminate|lra]|apply Rltb_false in E2].
  intuition lra.
Qed.
