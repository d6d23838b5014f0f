From Coq Require Import Psatz.
From Verif Require Import Base Tac Problem_proofs Solvers_proofs Solvers2_proofs Heur_proofs Heur2_proofs.
From Verif Require Import Heur_model Heur_spec.

(* ---------------- DiscreteVNS ---------------- *)
Lemma forallb_le0 g : forallb (fun v => Rleb v 0) g = true <-> Forall (fun v => v <= 0) g.
Proof.
  rewrite forallb_forall, Forall_forall. split; intros H v V; specialize (H v V); apply Rleb_true; auto. 
Qed.
Lemma dvns_step_lemma f g ub0 s a y : dvns_trial ub0 (d_X s) a = Some y ->
  exists t b, dvns_step f g ub0 s a = Some (t, y, b) /\ d_X t = d_X s /\ d_cons t = g y /\
  (b = true <-> f y < d_best s /\ Forall (fun v => v <= 0) (g y)) /\
  d_best t = (if b then f y else d_best s).
Proof.
  intros T. unfold dvns_step. rewrite T.
  destruct (andb _ _) eqn:E.
  - apply andb_prop in E as [E1 E2]. apply andb_prop in E2 as [E2 E3]. apply Rltb_true in E1. apply forallb_le0 in E3.
    do 2 eexists. repeat split; auto. lra.
  - do 2 eexists. repeat split; auto; try discriminate. intros [H1 H2]. exfalso.
    assert (V : viol100 (g y) = 0) by (apply viol100_lemma; auto).
    rewrite (proj2 (Rltb_true 0 (d_best s - f y))) in E by lra.
    rewrite (proj2 (Rleb_true 0 _)) in E by (rewrite V; destruct (viol100_lemma (d_cons s)); lra).
    rewrite (proj2 (forallb_le0 _)) in E by auto. discriminate.
Qed.
Lemma dvns_trial_box ub0 X a y : 0 <= ub0 -> dvns_trial ub0 X a = Some y -> Forall (fun v => 0 <= v <= ub0) y /\ length y = length X.
Proof.
  intros P H. unfold dvns_trial in H. destruct (vadd X a) as [z|] eqn:E; [|discriminate]. injection H as <-.
  rewrite map_length, (vadd_length _ _ _ E). split; auto. rewrite Forall_map. apply Forall_forall. intros v _. rmx; lra.
Qed.
Lemma dvns_run_lemma f g ub0 : 0 <= ub0 -> forall acts s t l, dvns_run f g ub0 acts s = Some (t, l) ->
  d_X t = last l (d_X s) /\ d_best t = last (map f l) (d_best s) /\ falling (d_best s) (map f l) /\
  Forall (fun y => Forall (fun v => v <= 0) (g y) /\ Forall (fun v => 0 <= v <= ub0) y /\ length y = length (d_X s)) l.
Proof.
  intros P. induction acts as [|a acts IH]; intros s t l H; simpl in H; [injection H as <- <-; simpl; auto|].
  destruct (dvns_trial ub0 (d_X s) a) as [y|] eqn:T.
  2:{ unfold dvns_step in H. rewrite T in H. discriminate. }
  destruct (dvns_step_lemma f g ub0 s a y T) as (s' & b & E & X & _ & B1 & B2). rewrite E in H.
  destruct b.
  - destruct (dvns_run f g ub0 acts (mkDv y (d_best s') (d_cons s'))) as [[t' l']|] eqn:R'; [|discriminate].
    injection H as -> <-. apply IH in R' as (A1 & A2 & A3 & A4). simpl in *. destruct B1 as [B1 _]. destruct (B1 eq_refl) as [B3 B4].
    destruct (dvns_trial_box ub0 _ _ _ P T) as [C1 C2]. rewrite B2 in *.
    repeat split.
    + rewrite A1. destruct l'; auto. apply last_irrel.
    + rewrite A2. destruct l'; auto. cbn [map]. apply last_irrel.
    + lra.
    + auto.
    + constructor; auto. eapply Forall_impl; [|exact A4]. intros z (Z1 & Z2 & Z3). rewrite C2 in Z3. auto.
  - apply IH in H. rewrite X, B2 in H. auto.
Qed.
Lemma dvns_solve_lemma f g ub0 acts x0 t l : 0 <= ub0 -> dvns_run f g ub0 acts (dvns_init g x0) = Some (t, l) ->
  d_X t = last l x0 /\ falling 10000 (map f l) /\
  Forall (fun y => Forall (fun v => v <= 0) (g y) /\ Forall (fun v => 0 <= v <= ub0) y /\ length y = length x0) l /\
  dvns_result f false t = ValueAndPoint (f (last l x0)) (last l x0).
Proof.
  intros P H. apply dvns_run_lemma in H as (A & B & C & D); auto. simpl in *. unfold dvns_result. rewrite A. auto.
Qed.
Lemma dvns_heavy_refuted_lemma : exists f g x0 a ub0, 0 <= ub0 /\ (forall y, Forall (fun v => v <= 0) (g y)) /\
  (exists y, dvns_trial ub0 x0 a = Some y /\ f y < f x0) /\
  forall acts t l, Forall (fun b => length b = length x0) acts -> dvns_run f g ub0 acts (dvns_init g x0) = Some (t, l) -> l = [] /\ d_X t = x0.
Proof.
  exists (fun x => 20000 + hd 0 x), (fun _ => [-1]), [5], [-1], 10. split; [lra|]. split; [intros; repeat constructor; lra|]. split.
  - eexists. split; [reflexivity|]. simpl. rmx; lra.
  - intros acts t l _ H. apply dvns_run_lemma in H as (A & _ & C & D); [|lra]. simpl in *.
    destruct l as [|y l]; auto. exfalso. simpl in C. inversion D as [|? ? (_ & D2 & _) _]; subst.
    destruct D2; simpl in C; lra.
Qed.
Lemma dvns_bounds_refuted_lemma : exists f g (ubs : list R) x0 acts t l, Forall2 (fun u v => 0 <= v <= u) ubs x0 /\
  dvns_run f g (hd 0 ubs) acts (dvns_init g x0) = Some (t, l) /\ ~ Forall2 (fun u v => 0 <= v <= u) ubs (d_X t).
Proof.
  exists (fun x => - nth 1 x 0), (fun _ => []), [10; 1], [0; 1], [[0; 1]].
  assert (T : dvns_trial 10 [0; 1] [0; 1] = Some [0; 2]).
  { unfold dvns_trial. simpl. f_equal. f_equal; [rmx; lra|]. f_equal. rmx; lra. }
  unfold dvns_init. cbn [hd dvns_run]. 
  destruct (dvns_step_lemma (fun x => - nth 1 x 0) (fun _ => []) 10 (mkDv [0; 1] 10000 []) [0; 1] [0; 2] T) as (s' & b & E & _ & _ & B & _).
  rewrite E. destruct b.
  - do 2 eexists. split; [repeat constructor; lra|]. split; [reflexivity|]. simpl. intros H. inversion H as [|? ? ? ? _ H2]; subst. inversion H2; subst. lra.
  - exfalso. assert (false = true); [|discriminate]. apply B. simpl. split; [lra|constructor].
Qed.
Lemma dvns_late_lemma f t : dvns_result f true t = PointAndValue (d_X t) (f (d_X t)).
Proof. reflexivity. Qed.

(* ---------------- VNS ---------------- *)
Lemma vns_bounds_lemma step index lb ub v : (1 <= step)%nat -> lb <= v <= ub -> (index = true -> 0 <= v) ->
  let b := vns_bounds step index lb ub v in
  fst b <= v <= snd b /\ snd b <= ub /\ (index = false -> lb <= fst b) /\ (index = true -> 0 <= fst b) /\
  (forall w, fst b <= w <= snd b -> Rabs (w - v) <= (if index then INR step else INR step * (ub - lb) / 10)).
Proof.
  intros S1 B P. apply le_INR in S1. simpl in S1. unfold vns_bounds. destruct index; cbv zeta; cbn [fst snd].
  - specialize (P eq_refl). split; [rmx; lra|]. split; [rmx; lra|]. split; [discriminate|]. split; [intros _; rmx; lra|].
    intros w W. unfold Rabs. destruct (Rcase_abs _); rmx; lra.
  - assert (Q : 0 <= (ub - lb) / 10 * INR step) by (apply Rmult_le_pos; lra).
    replace (INR step * (ub - lb) / 10) with ((ub - lb) / 10 * INR step) by field. set (q := (ub - lb) / 10 * INR step) in *. clearbody q.
    split; [rmx; lra|]. split; [rmx; lra|]. split; [intros _; rmx; lra|]. split; [discriminate|].
    intros w W. unfold Rabs. destruct (Rcase_abs _); rmx; lra.
Qed.
Lemma vns_widen_lemma step index lb ub v : lb <= v <= ub ->
  fst (vns_bounds (S step) index lb ub v) <= fst (vns_bounds step index lb ub v) /\
  snd (vns_bounds step index lb ub v) <= snd (vns_bounds (S step) index lb ub v).
Proof.
  intros B. unfold vns_bounds. rewrite S_INR. destruct index; cbv zeta; cbn [fst snd].
  - split; rmx; lra.
  - assert (0 <= (ub - lb) / 10) by lra. set (q := (ub - lb) / 10) in *. clearbody q. split; rmx; nra.
Qed.
Lemma vns_disc_refuted_lemma : exists step values lb ub v l u, (1 <= step)%nat /\ In v values /\ list_min values = Some lb /\ list_max values = Some ub /\
  vns_disc_bounds step values lb ub v = Some (l, u) /\ l < lb /\ ub < u.
Proof.
  exists 1%nat, [1; 3], 1, 3, 1, 0, 4. split; auto. split; [simpl; auto|].
  split; [apply list_min_spec; simpl; split; [auto|intros x [<-|[<-|[]]]; lra]|].
  split; [apply list_max_spec; simpl; split; [auto|intros x [<-|[<-|[]]]; lra]|].
  split; [|lra]. unfold vns_disc_bounds, nearest_idx. simpl.
  destruct (Rleb _ _) eqn:E; [|apply Rleb_false in E; lra].
  f_equal. f_equal; [field|]. replace (3 + (3 - 1) / (1 * (1 + 1))) with 4 by field. rmx; lra.
Qed.
Lemma vns_action_lemma arrays maxexp vars prev : forall res values s a b s',
  vns_action arrays maxexp vars prev res values s = Some (a, b, s') ->
  (v_fopt s' = v_fopt s /\ a = map (fun _ => 0) vars) \/
  (exists f x after, In (f, x, after) res /\ f < v_fopt s /\ v_fopt s' = f /\ a = vsub x prev /\ v_exp s' = 0%nat /\
     b = map (fun v => let '(_, l, u) := v in (l, u)) vars).
Proof.
  induction res as [|[[f x] after] res IH]; intros values s a b s' H; cbn [vns_action] in H; cbv zeta in H.
  - destruct (Nat.leb 10 (v_exp s)); [|discriminate]. injection H as <- _ <-. auto.
  - destruct (Nat.leb 10 (v_exp s)); [injection H as <- _ <-; auto|].
    destruct (andb _ _) eqn:E.
    + injection H as <- <- <-. right. apply andb_prop in E as [E _]. apply Rltb_true in E. exists f, x, after. simpl. repeat split; auto.
    + destruct (Nat.leb maxexp (v_exp s)); [injection H as <- _ <-; auto|].
      apply IH in H. simpl in H. destruct H as [H|(f1 & x1 & a1 & I1 & H)]; [auto|]. right. exists f1, x1, a1. split; [right; auto|auto].
Qed.
Lemma vns_point_lemma x prev : length x = length prev -> vadd prev (vsub x prev) = Some x.
Proof.
  revert prev; induction x as [|a x IH]; intros [|p prev] L; simpl in *; try discriminate; auto.
  rewrite IH by lia. f_equal. f_equal. ring.
Qed.
Lemma vns_first_lemma arrays maxexp vars prev f x after res values s : (v_exp s < 10)%nat ->
  f < v_fopt s -> (forall i, (i < length x)%nat -> nth i x 0 <> nth i prev 0) -> x <> [] -> length x = length prev ->
  vns_action arrays maxexp vars prev ((f, x, after) :: res) values s =
  Some (vsub x prev, map (fun v => let '(_, l, u) := v in (l, u)) vars, mkVst f 0 (v_step s)).
Proof.
  intros E F D N L. cbn [vns_action]. cbv zeta. rewrite (proj2 (Nat.leb_gt 10 (v_exp s))) by auto.
  rewrite (proj2 (Rltb_true f (v_fopt s))) by auto.
  replace (all_differ arrays x prev) with true; auto. unfold all_differ. symmetry. destruct arrays.
  - clear - D L. revert prev L D. induction x as [|a x IH]; intros [|p prev] L D; simpl in *; try discriminate; auto.
    rewrite (IH prev) by (try lia; intros i I; apply (D (S i)); lia). rewrite (proj2 (Reqb_false a p)); auto. apply (D 0%nat). lia.
  - destruct (eq_list x prev) eqn:Q; auto. apply eq_list_ok in Q. subst prev. destruct x as [|a x]; [congruence|].
    exfalso. apply (D 0%nat); simpl; auto; lia.
Qed.
Lemma vns_partial_move_refuted_lemma : exists vars prev f x s, f < v_fopt s /\ x <> prev /\ length x = length prev /\ (v_exp s < 10)%nat /\
  exists a b s', vns_action true 0 vars prev [(f, x, x)] prev s = Some (a, b, s') /\ v_fopt s' = v_fopt s.
Proof.
  exists [(false, 0, 1); (false, 0, 1)], [0; 0], 1, [0; 1], (mkVst 2 0 1). simpl. split; [lra|]. split; [intros H; injection H; lra|].
  split; auto. split; [lia|]. rewrite (proj2 (Reqb_true 0 0)) by auto. simpl. rewrite andb_false_r.
  do 3 eexists. split; reflexivity.
Qed.
Lemma vns_bounds_left_refuted_lemma : exists vars values prev res s a b s',
  vns_action true 0 vars prev res values s = Some (a, b, s') /\ b <> map (fun v => let '(_, l, u) := v in (l, u)) vars.
Proof.
  exists [(false, 0, 10)], [5], [5], [(3, [4], [4])], (mkVst 2 0 1). do 3 eexists. cbn [vns_action]. cbv zeta. simpl.
  destruct (Rltb 3 2) eqn:E; [apply Rltb_true in E; lra|]. simpl. split; [reflexivity|]. unfold vns_bounds.
  intros H. injection H. intros. rmx; lra.
Qed.

(* ---------------- steepest descent ---------------- *)
Lemma Rsum_sq_nn l : 0 <= Rsum (map (fun a => a ^ 2) l).
Proof. apply Rsum_map_nonneg. intros. apply pow2_ge_0. Qed.
Lemma vnorm_sq l : vnorm l ^ 2 = Rsum (map (fun a => a ^ 2) l).
Proof. unfold vnorm. rewrite <- Rsqr_pow2. apply Rsqr_sqrt. apply Rsum_sq_nn. Qed.
Lemma sd_dir_lemma df : 0 < vnorm df -> vnorm (sd_dir df) = 1 /\ dot df (sd_dir df) = - vnorm df.
Proof.
  intros P. pose proof (vnorm_sq df) as Q. unfold sd_dir. set (n := vnorm df) in *. clearbody n. split.
  - unfold vnorm. rewrite map_map.
    replace (Rsum (map (fun g => (- g / n) ^ 2) df)) with (Rsum (map (fun a => a ^ 2) df) / n ^ 2).
    + rewrite <- Q. replace (n ^ 2 / n ^ 2) with 1 by (field; lra). apply sqrt_1.
    + rewrite <- Rsum_div, map_map. f_equal. apply map_ext. intros a. field. lra.
  - assert (E : dot df (map (fun g => - g / n) df) = - (Rsum (map (fun a => a ^ 2) df) / n)).
    { clear Q. induction df as [|a df IH]; simpl; [unfold Rsum; simpl; field; lra|]. rewrite IH. unfold Rsum. simpl. field. lra. }
    rewrite E, <- Q. field. lra.
Qed.
Lemma sd_loop_lemma f grad ls : (forall x d a, ls x d = Some a -> f (vaxpy a d x) <= f x) ->
  forall fuel hist x fprev stop h, hd_error hist = Some x -> decreasing f hist ->
  sd_loop f grad ls fuel hist x fprev stop = Some h -> decreasing f h /\ exists new, h = new ++ hist /\ (length new <= fuel)%nat.
Proof.
  intros C. induction fuel as [|fuel IH]; intros hist x fprev stop h X D H; cbn [sd_loop] in H.
  - injection H as <-. split; auto. exists []. auto.
  - destruct (Rltb _ _). { injection H as <-. split; auto. exists []. simpl. split; auto; lia. }
    destruct (ls x (sd_dir (grad x))) as [a|] eqn:L.
    + assert (D' : decreasing f (vaxpy a (sd_dir (grad x)) x :: hist)).
      { destruct hist as [|z hist]; [discriminate|]. injection X as ->. split; auto. }
      cbv zeta in H. destruct (Nat.eqb _ 2).
      * injection H as <-. split; auto. exists [vaxpy a (sd_dir (grad x)) x]. simpl. split; auto; lia.
      * apply IH in H as (H1 & new & -> & H3); auto. split; auto. exists (new ++ [vaxpy a (sd_dir (grad x)) x]).
        rewrite <- app_assoc. split; auto. rewrite app_length. simpl. lia.
    + destruct fprev as [fp|]; [|discriminate]. cbv zeta in H. destruct (Nat.eqb _ 2).
      * injection H as <-. split; auto. exists []. simpl. split; auto; lia.
      * destruct fuel; [|discriminate]. injection H as <-. split; auto. exists []. simpl. split; auto; lia.
Qed.
Lemma decreasing_first f : forall h x0, decreasing f (h ++ [x0]) -> forall y, In y h -> f (hd x0 h) <= f y /\ f y <= f x0.
Proof.
  induction h as [|y h IH]; intros x0 D z Z; [destruct Z|].
  destruct h as [|w h].
  - simpl in *. destruct Z as [<-|[]]. lra.
  - cbn [app decreasing] in D. destruct D as [D1 D2]. destruct Z as [<-|Z].
    + cbn [hd]. destruct (IH x0 D2 w (or_introl eq_refl)) as [A B]. simpl in A. lra.
    + destruct (IH x0 D2 z Z) as [A B]. cbn [hd] in *. lra.
Qed.
Lemma sd_solve_lemma f grad ls maxiter x0 h : (forall x d a, ls x d = Some a -> f (vaxpy a d x) <= f x) ->
  sd_solve f grad ls maxiter x0 = Some h ->
  exists new, h = new ++ [x0] /\ (length new <= maxiter)%nat /\ decreasing f h /\
    forall y, In y h -> f (hd x0 h) <= f y.
Proof.
  intros C H. unfold sd_solve in H. apply (sd_loop_lemma f grad ls C) in H as (D & new & -> & L); simpl; auto.
  exists new. split; auto. split; auto. split; auto. intros y Y. apply in_app_iff in Y.
  destruct new as [|w new].
  - destruct Y as [[]|[<-|[]]]. simpl. lra.
  - cbn [app hd]. pose proof (decreasing_first f (w :: new) x0 D) as G. cbn [hd] in G. destruct Y as [Y|[<-|[]]].
    + apply G; auto.
    + destruct (G w (or_introl eq_refl)). lra.
Qed.
Lemma sd_fail_lemma f grad ls maxiter x0 : (1 <= maxiter)%nat -> 1 / 100000000 <= vnorm (grad x0) -> (forall x d, ls x d = None) ->
  sd_solve f grad ls maxiter x0 = None.
Proof.
  intros M G L. destruct maxiter as [|n]; [lia|]. unfold sd_solve. cbn [sd_loop]. unfold SD_GRAD_TOL.
  rewrite (proj2 (Rltb_false _ _)) by auto. rewrite L. auto.
Qed.
Lemma sd_total_lemma f grad ls : (forall x d, ls x d <> None) -> forall maxiter x0, exists h, sd_solve f grad ls maxiter x0 = Some h.
Proof.
  intros L maxiter x0. unfold sd_solve. assert (A : forall hist x fp st, exists h, sd_loop f grad ls maxiter hist x fp st = Some h); [|apply A]. clear x0.
  induction maxiter as [|n IH]; intros hist x fp st; cbn [sd_loop]; eauto.
  destruct (Rltb _ _); eauto. destruct (ls x (sd_dir (grad x))) eqn:E; [|destruct (L _ _ E)]. cbv zeta.
  match goal with |- context [Nat.eqb ?a 2] => destruct (Nat.eqb a 2) end; [eauto|apply IH].
Qed.

(* ---------------- augmented Lagrangian ---------------- *)
Lemma upd_bounds_nn Rineq v : 0 <= m_lbm v -> 0 <= m_ubm v -> 0 <= m_lbm (upd_bounds Rineq v) /\ 0 <= m_ubm (upd_bounds Rineq v).
Proof.
  intros A B. unfold upd_bounds; simpl. destruct (Rlt_dec XLB (m_lb v)), (Rlt_dec (m_ub v) XUB); split; auto; apply Rmax_r.
Qed.
Lemma alm_update_ok s Rineq Req x : mult_ok s -> mult_ok (alm_update s Rineq Req x).
Proof.
  intros [A B]. unfold mult_ok, alm_update; simpl. rewrite !Forall_map. split.
  - eapply Forall_impl; [|exact A]. intros [[ty m] g] H NE. apply upd_mult_nonneg; auto.
  - apply Forall_forall. intros [[[[lb ub] lm] um] xi] I. apply in_combine_l in I. rewrite Forall_forall in B. specialize (B _ I). simpl in B. cbn [fst snd].
    apply (upd_bounds_nn Rineq (mkMvar xi lb ub lm um)); simpl; tauto.
Qed.
Lemma alm_loop_lemma f argmin : forall fuel k Rineq Req s hist fs stop s' h R',
  mult_ok s -> alm_loop f argmin fuel k Rineq Req s hist fs stop = (s', h, R') ->
  mult_ok s' /\ exists j new, (j <= fuel)%nat /\ h = new ++ hist /\ (length new = j \/ length new = S j)%nat /\ (length new <= fuel)%nat /\
    R' = (Rineq * (15/10) ^ j, Req * (15/10) ^ j).
Proof.
  induction fuel as [|fuel IH]; intros k Rineq Req s hist fs stop s' h R' M H; cbn [alm_loop] in H.
  - injection H as <- <- <-. split; auto. exists 0%nat, []. simpl. rewrite !Rmult_1_r. auto.
  - cbv zeta in H. set (y := argmin (aug_lag f s Rineq Req) (hd [] hist)) in *.
    assert (E0 : (s, y :: hist, (Rineq, Req)) = (s', h, R') -> mult_ok s' /\ exists j new, (j <= S fuel)%nat /\ h = new ++ hist /\ (length new = j \/ length new = S j)%nat /\ (length new <= S fuel)%nat /\
      R' = (Rineq * (15/10) ^ j, Req * (15/10) ^ j)).
    { intros Q. injection Q as <- <- <-. split; auto. exists 0%nat, [y]. simpl. rewrite !Rmult_1_r. repeat split; auto; lia. }
    destruct (stop_x _ _); auto. match goal with H : context [Nat.eqb ?a 2] |- _ => destruct (Nat.eqb a 2) end; auto.
    apply IH in H; [|apply alm_update_ok; auto]. destruct H as (H1 & j & new & J1 & -> & J2 & J3 & ->). split; auto.
    exists (S j), (new ++ [y]). rewrite <- app_assoc, app_length. simpl. repeat split; auto; try lia. f_equal; ring.
Qed.
Lemma aug_term_le ty Rineq Req m v : 0 < Rineq -> 0 < Req -> (ty <> CEq -> 0 <= m) -> holds (ty, v) ->
  aug_term ty Rineq Req m v <= match ty with CEq => 0 | _ => Rineq * (5/10 * m / Rineq) ^ 2 end.
Proof.
  intros P1 P2 M H. destruct ty; simpl in H; cbn [aug_term].
  - assert (0 <= 5/10 * m / Rineq) by (apply Rmult_le_pos; [specialize (M ltac:(discriminate)); lra|left; apply Rinv_0_lt_compat; auto]).
    apply Rmult_le_compat_l; [lra|]. apply pow_incr. rmx; lra.
  - assert (0 <= 5/10 * m / Rineq) by (apply Rmult_le_pos; [specialize (M ltac:(discriminate)); lra|left; apply Rinv_0_lt_compat; auto]).
    apply Rmult_le_compat_l; [lra|]. apply pow_incr. rmx; lra.
  - rewrite H. lra.
Qed.
Lemma max_fix Rq m v : 0 < Rq -> 0 <= m -> Rmax (m + 2 * Rq * v) 0 = m -> v <= 0 /\ Rmax (5/10 * m / Rq + v) 0 = 5/10 * m / Rq.
Proof.
  intros P M H. assert (I : 0 < / (2 * Rq)) by (apply Rinv_0_lt_compat; lra).
  assert (V : v <= 0) by (rmx; nra). split; auto.
  replace (5/10 * m / Rq + v) with ((m + 2 * Rq * v) * / (2 * Rq)) by (field; lra).
  replace (5/10 * m / Rq) with (m * / (2 * Rq)) by (field; lra).
  set (q := / (2 * Rq)) in *. clearbody q. set (t := m + 2 * Rq * v) in *. clearbody t.
  unfold Rmax in *. destruct (Rle_dec t 0), (Rle_dec (t * q) 0); subst; nra.
Qed.
Lemma aug_term_fix ty Rineq Req m v : 0 < Rineq -> 0 < Req -> (ty <> CEq -> 0 <= m) -> upd_mult ty Rineq Req m v = m ->
  holds (ty, v) /\ aug_term ty Rineq Req m v = match ty with CEq => 0 | _ => Rineq * (5/10 * m / Rineq) ^ 2 end.
Proof.
  intros P1 P2 M H. destruct ty; cbn [holds aug_term]; unfold upd_mult in H.
  - destruct (max_fix Rineq m v P1 (M ltac:(discriminate)) H) as [A B]. rewrite B. auto.
  - replace (m - 2 * Rineq * v) with (m + 2 * Rineq * - v) in H by ring.
    destruct (max_fix Rineq m (- v) P1 (M ltac:(discriminate)) H) as [A B]. replace (5/10 * m / Rineq - v) with (5/10 * m / Rineq + - v) by ring. rewrite B. split; auto. lra.
  - assert (v = 0) by nra. subst v. split; auto. ring.
Qed.
Lemma alm_fixed_lemma f s Rineq Req y z : 0 < Rineq -> 0 < Req -> mult_ok s -> one_sided s ->
  length y = length (al_vars s) -> alm_update s Rineq Req y = s ->
  (forall w, length w = length y -> aug_lag f s Rineq Req y <= aug_lag f s Rineq Req w) ->
  al_feasible s y /\ (al_feasible s z -> f y <= f z).
Proof.
  intros P1 P2 [MC MV] OS L U OPT. destruct s as [cs vs]. unfold alm_update in U. simpl in *. injection U as UC UV.
  set (KC := Rsum (map (fun c : ctype * R * (list R -> R) => let '(ty, m, _) := c in match ty with CEq => 0 | _ => Rineq * (5/10 * m / Rineq) ^ 2 end) cs)).
  set (KV := Rsum (map (fun v : R * R * R * R => let '(lb, ub, lm, um) := v in if Rlt_dec XLB lb then Rineq * (5/10 * lm / Rineq) ^ 2 else 0) vs)).
  assert (C1 : Forall (fun c => holds (con_of c y)) cs /\ Rsum (map (fun c => let '(ty, m, g) := c in aug_term ty Rineq Req m (g y)) cs) = KC).
  { unfold KC. clear - P1 P2 MC UC. induction cs as [|[[ty m] g] cs IH]; cbn [map] in *; [auto|]. inversion MC; subst. injection UC as U1 U2.
    destruct (IH H2 U2) as [A B]. destruct (aug_term_fix ty Rineq Req m (g y) P1 P2 H1 U1) as [C D].
    split; [constructor; auto|]. rewrite !Rsum_cons, B, D. auto. }
  assert (V1 : Forall2 (fun v xi => let '(lb, ub, _, _) := v in bounds_hold (xi, lb, ub)) vs y /\
     Rsum (map (fun vx => let '(lb, ub, lm, um) := fst vx in (if Rlt_dec XLB lb then aug_bound Rineq lm (- snd vx + lb) else 0) + (if Rlt_dec ub XUB then aug_bound Rineq um (snd vx - ub) else 0)) (combine vs y)) = KV).
  { unfold KV. clear - P1 MV OS L UV. revert y L UV. induction vs as [|[[[lb ub] lm] um] vs IH]; intros [|xi y] L UV; cbn [map combine length fst snd] in *; try discriminate; [auto|].
    inversion MV as [|? ? MM M3]; subst. cbn in MM. destruct MM as [M1 M2]. inversion OS as [|? ? O1 O2]; subst. cbn beta iota in O1. injection UV as U1 U2 U3.
    destruct (IH M3 O2 y ltac:(lia) U3) as [A B].
    destruct (Rlt_dec ub XUB) as [Q|Q]; [lra|].
    unfold upd_bounds in U1; simpl in U1. destruct (Rlt_dec XLB lb) as [W|W].
    - destruct (max_fix Rineq lm (- xi + lb) P1 M1 U1) as [X Y]. split.
      + constructor; auto. unfold bounds_hold. split; intros; lra.
      + rewrite !Rsum_cons, B. unfold aug_bound. rewrite Y. ring.
    - split; [constructor; auto; unfold bounds_hold; split; intros; lra|]. rewrite !Rsum_cons, B. ring. }
  destruct C1 as [C1 C2], V1 as [V1 V2]. split; [split; auto|]. intros [Z1 Z2].
  pose proof (Base.Forall2_length _ _ _ Z2) as LZ. simpl in LZ. specialize (OPT z ltac:(lia)). unfold aug_lag in OPT. simpl in OPT, Z1, Z2.
  rewrite C2, V2 in OPT.
  assert (C3 : Rsum (map (fun c => let '(ty, m, g) := c in aug_term ty Rineq Req m (g z)) cs) <= KC).
  { unfold KC. apply Rsum_map_le. intros [[ty m] g] I. rewrite Forall_forall in Z1, MC. apply aug_term_le; auto; [apply (MC _ I)|apply (Z1 _ I)]. }
  assert (V3 : Rsum (map (fun vx => let '(lb, ub, lm, um) := fst vx in (if Rlt_dec XLB lb then aug_bound Rineq lm (- snd vx + lb) else 0) + (if Rlt_dec ub XUB then aug_bound Rineq um (snd vx - ub) else 0)) (combine vs z)) <= KV).
  { unfold KV. clear - P1 MV OS Z2. induction Z2 as [|[[[lb ub] lm] um] xi vs z Z Z2 IH]; cbn [map combine fst snd]; [lra|].
    inversion MV as [|? ? MM M3]; subst. cbn in MM. destruct MM as [M1 M2]. inversion OS as [|? ? O1 O2]; subst. cbn beta iota in O1. specialize (IH M3 O2). rewrite !Rsum_cons.
    destruct (Rlt_dec ub XUB) as [Q|Q]; [lra|]. destruct (Rlt_dec XLB lb) as [W|W]; [|lra].
    cbn in Z. unfold bounds_hold in Z. destruct Z as [Z _]. specialize (Z W).
    pose proof (aug_term_le CLt Rineq 1 lm (- xi + lb) P1 Rlt_0_1 (fun _ => M1)) as T. cbn [holds aug_term] in T. specialize (T ltac:(lra)). apply Rplus_le_compat; [|exact IH]. unfold aug_bound. rewrite Rplus_0_r. exact T. }
  lra.
Qed.
Lemma vnorm1 a : vnorm [a] = Rabs a.
Proof. unfold vnorm, Rsum. simpl. replace (a * (a * 1) + 0) with (Rsqr a) by (unfold Rsqr; ring). apply sqrt_Rsqr_abs. Qed.
Lemma halve_no_stop a : 0 < a -> stop_x [a] [a / 2] = false.
Proof. intros A. unfold stop_x, XS_TOL. cbn [vsub]. rewrite !vnorm1. apply Rltb_false. rmx; lra. Qed.
Lemma alm_reuse_refuted_lemma : exists f argmin s x0 fs,
  length (snd (fst (alm_loop f argmin 3 0 1 1 s [x0] [f x0] 0))) = 4%nat /\
  length (snd (fst (alm_loop f argmin 3 0 1 1 s [x0] (fs ++ [f x0]) 0))) = 3%nat.
Proof.
  exists (fun x => hd 0 x), (fun _ x => [hd 0 x / 2]), (mkAlm [] []), [4], [0; 0; 0].
  assert (SF : forall a, 1 <= a -> stop_f a (a / 2) = false) by (intros a A; unfold stop_f, ABS_F_TOL, REL_F_TOL; apply Rleb_false; rmx; lra).
  assert (S0 : stop_f 0 0 = true) by (unfold stop_f, ABS_F_TOL, REL_F_TOL; apply Rleb_true; rmx; lra).
  split.
  - repeat (cbn [alm_loop hd app nth Nat.eqb]; cbv zeta; rewrite ?halve_no_stop by lra; rewrite ?SF by lra). reflexivity.
  - repeat (cbn [alm_loop hd app nth Nat.eqb]; cbv zeta; rewrite ?halve_no_stop by lra; rewrite ?S0). reflexivity.
Qed.

(* ---------------- variable groups ---------------- *)
Lemma group_cont_lemma : forall attrs lbs ubs vals,
  length (group_cont attrs lbs ubs vals) = Nat.min (Nat.min (length attrs) (length lbs)) (Nat.min (length ubs) (length vals)) /\
  forall i g, nth_error (group_cont attrs lbs ubs vals) i = Some g ->
    nth_error attrs i = Some (gv_attr g) /\ nth_error lbs i = Some (gv_lb g) /\ nth_error ubs i = Some (gv_ub g) /\ nth_error vals i = Some (gv_value g).
Proof.
  induction attrs as [|a attrs IH]; intros lbs ubs vals; simpl.
  - split; auto. intros [|i] g H; discriminate.
  - destruct lbs as [|l lbs], ubs as [|u ubs], vals as [|v vals]; simpl; rewrite ?Nat.min_0_r; (split; [try reflexivity|intros [|i] g H; try discriminate]); simpl in *.
    + f_equal. apply IH.
    + injection H as <-. auto.
    + apply IH; auto.
Qed.
Lemma group_disc_lemma : forall attrs vals cats l, group_disc attrs vals cats = Some l ->
  length l = Nat.min (length attrs) (Nat.min (length vals) (length cats)) /\
  forall i g, nth_error l i = Some g ->
    nth_error attrs i = Some (gv_attr g) /\ nth_error vals i = Some (gv_value g) /\ nth_error cats i = Some (gv_values g) /\
    In (gv_lb g) (gv_values g) /\ In (gv_ub g) (gv_values g) /\ forall w, In w (gv_values g) -> gv_lb g <= w <= gv_ub g.
Proof.
  induction attrs as [|a attrs IH]; intros vals cats l H; simpl in H.
  - injection H as <-. simpl. split; auto. intros [|i] g H; discriminate.
  - destruct vals as [|v vals], cats as [|c cats]; try (injection H as <-; simpl; split; [auto|intros [|i] g H; discriminate]).
    destruct (list_min c) as [lo|] eqn:E1; [|discriminate]. destruct (list_max c) as [hi|] eqn:E2; [|discriminate].
    destruct (group_disc attrs vals cats) as [r|] eqn:E3; [|discriminate]. injection H as <-.
    destruct (IH _ _ _ E3) as [A B]. apply list_min_spec in E1 as [E1 E1']. apply list_max_spec in E2 as [E2 E2']. simpl. split; [f_equal; auto|].
    intros [|i] g H; simpl in *; [|auto]. injection H as <-. simpl. repeat split; auto.
Qed.
Lemma group_default_refuted_lemma : exists attrs lbs ubs g, In g (group_cont attrs lbs ubs (group_values (length attrs) None)) /\
  gv_lb g <= gv_ub g /\ ~ (gv_lb g <= gv_value g <= gv_ub g).
Proof. exists [0%nat], [100], [200]. eexists. split; [left; reflexivity|]. simpl. lra. Qed.
Lemma group_short_refuted_lemma : exists attrs lbs ubs, (length (group_cont attrs lbs ubs (group_values (length attrs) None)) < length attrs)%nat.
Proof. exists [0%nat; 1%nat], [100], [200; 300]. simpl. lia. Qed.
