From Verif Require Import BnB_spec Problem_proofs BnB_proofs.

(** ---- selection ---- *)
Lemma deepest_aux nodes : forall md l,
  (forall n, In n l -> length (n_path n) = md) ->
  let r := fold_left (fun acc nd =>
         let '(md, l) := acc in
         let d := length (n_path nd) in
         if Nat.ltb md d then (d, [nd])
         else if Nat.eqb d md then (md, l ++ [nd]) else (md, l)) nodes (md, l) in
  (forall n, In n (snd r) -> length (n_path n) = fst r /\ (In n l \/ In n nodes)) /\
  (md <= fst r)%nat /\ (forall n, In n nodes -> (length (n_path n) <= fst r)%nat) /\
  (forall n, In n nodes \/ In n l -> length (n_path n) = fst r -> In n (snd r)).
Proof.
  induction nodes as [|nd nodes IH]; intros md l H; cbn [fold_left]; cbv zeta.
  - simpl; repeat split; auto; intros; try tauto.
  - destruct (Nat.ltb md (length (n_path nd))) eqn:E1.
    + apply Nat.ltb_lt in E1. destruct (IH (length (n_path nd)) [nd]) as (A & B & C & D).
      { intros n [<-|[]]; auto. }
      cbv zeta in *. split; [|split; [|split]].
      * intros n I. destruct (A n I) as [A1 [[<-|[]]|A2]]; split; simpl; auto.
      * lia.
      * intros n [<-|I]; auto.
      * intros n [[<-|I]|I] L; try (apply D; auto; fail).
        -- apply D; auto. right; simpl; auto.
        -- exfalso. rewrite (H n I) in L. lia.
    + apply Nat.ltb_ge in E1. destruct (Nat.eqb (length (n_path nd)) md) eqn:E2.
      * apply Nat.eqb_eq in E2. destruct (IH md (l ++ [nd])) as (A & B & C & D).
        { intros n I. apply in_app_iff in I. destruct I as [I|[<-|[]]]; auto. }
        cbv zeta in *. split; [|split; [|split]]; auto.
        -- intros n I. destruct (A n I) as [A1 [A2|A2]]; split; simpl; auto. apply in_app_iff in A2. destruct A2 as [A2|[<-|[]]]; auto.
        -- intros n [<-|I]; auto. lia.
        -- intros n [[<-|I]|I] L; apply D; auto; right; apply in_app_iff; simpl; auto.
      * apply Nat.eqb_neq in E2. destruct (IH md l H) as (A & B & C & D).
        cbv zeta in *. split; [|split; [|split]]; auto.
        -- intros n I. destruct (A n I) as [A1 [A2|A2]]; split; simpl; auto.
        -- intros n [<-|I]; auto. lia.
        -- intros n [[<-|I]|I] L; try (apply D; auto; fail). exfalso. lia.
Qed.

Lemma deepest_spec nodes n : In n (deepest nodes) <->
  In n nodes /\ forall m, In m nodes -> (length (n_path m) <= length (n_path n))%nat.
Proof.
  unfold deepest. destruct (deepest_aux nodes 0 []) as (A & B & C & D); [intros ? []|].
  set (r := fold_left _ nodes _) in *. split.
  - intros I. destruct (A n I) as [E [[]|I2]]. split; auto. intros m Im. rewrite E. auto.
  - intros [I M]. apply D; auto. apply Nat.le_antisymm; auto.
    destruct (snd r) as [|w ws] eqn:Er.
    + destruct (Nat.eq_dec (fst r) 0) as [Z|Z]; [lia|].
      exfalso. clear -Er Z D C r I. 
      (* the maximal depth is attained *)
      assert (exists m, In m nodes /\ length (n_path m) = fst r) as (m & Im & Em).
      { unfold r in *. clear Er D C I. revert Z.
        assert (G : forall md l, let q := fold_left (fun acc nd => let '(md, l) := acc in let d := length (n_path nd) in
            if Nat.ltb md d then (d, [nd]) else if Nat.eqb d md then (md, l ++ [nd]) else (md, l)) nodes (md, l) in
            fst q = md \/ exists m, In m nodes /\ length (n_path m) = fst q).
        { induction nodes as [|a nodes IH]; intros md l; cbn [fold_left]; cbv zeta; [auto|].
          destruct (Nat.ltb md (length (n_path a))).
          - destruct (IH (length (n_path a)) [a]) as [E|(m & I & E)]; right; [exists a|exists m]; simpl; auto.
          - destruct (Nat.eqb _ _).
            + destruct (IH md (l ++ [a])) as [E'|(m' & I' & E')]; [left; auto|right; exists m'; simpl; auto].
            + destruct (IH md l) as [E'|(m' & I' & E')]; [left; auto|right; exists m'; simpl; auto]. }
        intros Z. destruct (G 0%nat []) as [E|E]; [contradiction|exact E]. }
      assert (In m []) as [] by (apply D; auto).
    + destruct (A w) as [E [[]|Iw]]; [simpl; auto|]. rewrite <- E. auto.
Qed.


Lemma min_lb_aux nodes : forall fmin s,
  (match fmin, s with None, None => True | Some f, Some n => f = n_lb n | _, _ => False end) ->
  let r := fold_left (fun acc nd =>
         let '(fmin, s) := acc in
         if lb_less (Some (n_lb nd)) fmin then (Some (n_lb nd), Some nd) else (fmin, s)) nodes (fmin, s) in
  (nodes <> [] \/ s <> None -> exists n, snd r = Some n /\ (In n nodes \/ s = Some n) /\
     (forall m, In m nodes -> lb_le (n_lb n) (n_lb m)) /\ (forall m, s = Some m -> lb_le (n_lb n) (n_lb m))).
Proof.
  assert (LT : forall a b c, lb_le a b -> lb_le b c -> lb_le a c).
  { intros [a|] [b|] [c|]; simpl; try tauto; lra. }
  assert (RF : forall a, lb_le a a) by (intros [a|]; simpl; lra || auto).
  induction nodes as [|nd nodes IH]; intros fmin s H; cbn [fold_left]; cbv zeta.
  - simpl; intros [A|A]; [congruence|]. destruct s as [n|]; [|congruence]. exists n. repeat split; auto; [intros ? []|intros m E; injection E as <-; apply RF].
  - intros _. destruct fmin as [f|], s as [n0|]; try contradiction.
    + subst f. destruct (lb_less (Some (n_lb nd)) (Some (n_lb n0))) eqn:E.
      * assert (L : lb_le (n_lb nd) (n_lb n0)).
        { unfold lb_less in E. destruct (n_lb nd), (n_lb n0); simpl; auto; try discriminate. apply Rltb_true in E; lra. }
        destruct (IH (Some (n_lb nd)) (Some nd) eq_refl) as (n & R1 & R2 & R3 & R4); [right; discriminate|].
        exists n; repeat split; auto.
        -- destruct R2 as [R2|R2]; [left; right; exact R2|injection R2 as R2; left; left; exact R2].
        -- intros m [<-|I]; auto.
        -- intros m Em; injection Em as <-. eapply LT; [apply R4; reflexivity|auto].
      * assert (L : lb_le (n_lb n0) (n_lb nd)).
        { unfold lb_less in E. destruct (n_lb nd), (n_lb n0); simpl; auto; try discriminate. apply Rltb_false in E; lra. }
        destruct (IH (Some (n_lb n0)) (Some n0) eq_refl) as (n & R1 & R2 & R3 & R4); [right; discriminate|].
        exists n; repeat split; auto.
        -- destruct R2 as [R2|R2]; [left; right; exact R2|right; exact R2].
        -- intros m [<-|I]; auto. eapply LT; [apply R4; reflexivity|auto].
    + assert (E : lb_less (Some (n_lb nd)) None = true) by (simpl; destruct (n_lb nd); reflexivity).
      rewrite E.
      destruct (IH (Some (n_lb nd)) (Some nd) eq_refl) as (n & R1 & R2 & R3 & R4); [right; discriminate|].
      exists n; repeat split; auto.
      * destruct R2 as [R2|R2]; [left; right; exact R2|injection R2 as R2; left; left; exact R2].
      * intros m [<-|I]; auto.
      * discriminate.
Qed.

Lemma depth_first_lemma nodes : nodes <> [] -> exists n, depth_first nodes = Some n /\ In n nodes /\
  (forall m, In m nodes -> (length (n_path m) <= length (n_path n))%nat) /\
  (forall m, In m nodes -> length (n_path m) = length (n_path n) -> lb_le (n_lb n) (n_lb m)).
Proof.
  intros NE. unfold depth_first, min_lb.
  assert (D : deepest nodes <> []).
  { assert (exists n, In n nodes /\ forall m, In m nodes -> (length (n_path m) <= length (n_path n))%nat) as (n & I & M).
    { clear -NE. induction nodes as [|a l IH]; [congruence|]. destruct l as [|b l].
      - exists a; split; simpl; auto. intros m [<-|[]]; auto.
      - destruct IH as (n & I & M); [discriminate|].
        destruct (le_lt_dec (length (n_path n)) (length (n_path a))).
        + exists a; split; simpl; auto. intros m [<-|Im]; auto. specialize (M m Im). lia.
        + exists n; split; [right; auto|]. intros m [<-|Im]; auto. lia. }
    intros E. assert (In n (deepest nodes)) as H by (apply deepest_spec; auto). rewrite E in H; destruct H. }
  destruct (min_lb_aux (deepest nodes) None None I) as (n & R1 & R2 & R3 & _); auto.
  exists n; split; auto. destruct R2 as [R2|R2]; [|discriminate].
  apply deepest_spec in R2. destruct R2 as [I1 I2]. repeat split; auto.
  intros m Im Em. apply R3. apply deepest_spec. split; auto. intros q Iq. rewrite Em; auto.
Qed.

(** ---- exceptions ---- *)
Lemma cont_raises vs bx xR : Exists (fun v => b_kind v = BCont) vs -> all_allowed vs bx xR = None.
Proof.
  intros H; revert bx xR; induction H as [v vs K|v vs E IH]; intros [|b bx] [|x xR]; simpl; auto.
  - unfold allowed; rewrite K; auto.
  - rewrite IH. destruct (allowed v b x); auto.
Qed.
Lemma continuous_raises_lemma P O k nd rest best bx1 flb xR :
  Exists (fun v => b_kind v = BCont) (p_vs P) ->
  feasibility_tightening (p_vs P) (p_lin P) (node_box (p_box P) (n_path nd)) = Some bx1 ->
  existsb (fun b => Rltb (snd b) (fst b)) (o_obt O k bx1) = false ->
  o_relax O k (o_obt O k bx1) = Some (flb, xR) -> fathomed flb best = false ->
  process P O k nd rest best = None.
Proof. intros E H1 H2 H3 H4. unfold process. rewrite H1, H2, H3, H4, cont_raises; auto. Qed.

(** ---- refutations of tightening ---- *)
Lemma tighten_gt_refuted : exists vs lcons bx x bx',
  Forall (fun c => length (snd (fst c)) = length vs) lcons /\ admissible vs x /\ in_bounds bx x /\
  Forall (row_holds x) lcons /\ feasibility_tightening vs lcons bx = Some bx' /\ ~ in_bounds bx' x.
Proof.
  exists [mkBv BCont 0], [(CGt, [1], 5)], [(0, 10)], [8], [(0, 5)].
  split; [repeat constructor|]. split; [repeat constructor|]. split; [repeat constructor; simpl; lra|].
  split; [repeat constructor; simpl; lra|]. split.
  - unfold feasibility_tightening; cbn [tighten_cons ax_min tighten_vars].
    destruct (Rlt_dec (1/1000000000) (Rabs 1)) as [C|C]; [|rewrite Rabs_R1 in C; lra].
    destruct (Rlt_dec 0 1) as [D|D]; [|lra]. cbn [round_ub b_kind]. f_equal. f_equal. f_equal.
    unfold Rsum; simpl. rmx; lra.
  - intros H; inversion H; subst. simpl in *; lra.
Qed.
Lemma tighten_tiny_refuted : exists vs lcons bx x bx',
  Forall (fun c => fst (fst c) = CLt /\ length (snd (fst c)) = length vs) lcons /\ admissible vs x /\ in_bounds bx x /\
  Forall (row_holds x) lcons /\ feasibility_tightening vs lcons bx = Some bx' /\ ~ in_bounds bx' x.
Proof.
  exists [mkBv BCont 0; mkBv BCont 0], [(CLt, [1; 1/10000000000], 1)], [(0, 1); (0, 10)], [0; 5], [(0, 1); (0, 1)].
  split; [repeat constructor|]. split; [repeat constructor|]. split; [repeat constructor; simpl; lra|].
  split; [repeat constructor; simpl; lra|]. split.
  - unfold feasibility_tightening; cbn [tighten_cons ax_min tighten_vars].
    destruct (Rlt_dec (1/1000000000) (Rabs 1)) as [C|C]; [|rewrite Rabs_R1 in C; lra].
    destruct (Rlt_dec 0 1) as [D|D]; [|lra]. cbn [round_ub b_kind].
    destruct (Rlt_dec (1/1000000000) (Rabs (1/10000000000))) as [C2|C2]; [rewrite Rabs_pos_eq in C2; lra|].
    destruct (Rlt_dec 0 (1/10000000000)) as [D2|D2]; [|lra].
    f_equal. f_equal; [f_equal|f_equal; f_equal]; unfold Rsum; simpl; rmx; lra.
  - intros H; inversion H as [|? ? ? ? A B]; subst. inversion B as [|? ? ? ? C D]; subst. simpl in C; lra.
Qed.

(** ---- a worked run: one catalogue variable {1,3}, objective |x - 5/2| ---- *)
Definition exP : bprob := mkBp [mkBv (BDisc [1; 3]) 0] [(1, 3)] [] [] (fun x => Rabs (nth 0 x 0 - 5/2)) (1/10000).
Definition exO : oracles := mkOr (fun _ _ => 0%nat) (fun _ b => b)
  (fun _ b => match b with
              | [(l, u)] => if Rle_dec l u then Some (Rabs (clamp l u (5/2) - 5/2), [clamp l u (5/2)]) else None
              | _ => None end)
  (fun _ _ => []).

Lemma ex_contracts : length (p_box exP) = length (p_vs exP) /\ good_rows (p_vs exP) (p_lin exP) /\
  obt_sound exP (fun _ => True) exO /\ relax_sound exP (fun _ => True) exO.
Proof.
  split; [reflexivity|]. split; [constructor|]. split; [intros k bx x _ _ H; exact H|].
  intros k bx x A _ B. unfold exP in A; simpl in A. inversion A as [|? y ? ? A1 A2]; subst. inversion A2; subst.
  inversion B as [|[l u] ? ? ? B1 B2]; subst. inversion B2; subst. simpl in *.
  destruct (Rle_dec l u); [|lra]. do 2 eexists; split; [reflexivity|].
  pose proof (clamp_nearest l u (5/2) y B1). rewrite (Rabs_minus_sym _ (5/2)), (Rabs_minus_sym y). auto.
Qed.

Lemma ex_root : process exP exO 0 (mkNode [] None) [] None =
  Some (mkBs [mkNode [(0%nat, true, 1)] (Some (Rabs (5/2 - 5/2))); mkNode [(0%nat, false, 3)] (Some (Rabs (5/2 - 5/2)))] None).
Proof.
  unfold process. cbn [feasibility_tightening tighten_cons exP p_vs p_lin p_box n_path node_box fold_left exO o_obt o_relax existsb fst snd].
  unfold Rltb at 1. destruct (Rlt_dec 3 1); [lra|]. cbn [orb]. destruct (Rle_dec 1 3); [|lra].
  rewrite (clamp_id 1 3) by lra. cbn [fathomed upper_bound o_nbhd all_allowed allowed b_kind fst snd].
  rewrite (proj2 (Rleb_true 1 (5/2))), (proj2 (Rleb_true (5/2) 3)) by lra. cbn [andb map list_min fold_left].
  rewrite (Rabs_left (1 - 5/2)), (Rabs_pos_eq (3 - 5/2)) by lra. rewrite Rmin_right by lra.
  unfold Rltb, INT_TOL. destruct (Rlt_dec (3 - 5/2) (1/10000)); [lra|]. cbn [andb].
  unfold branch. cbn [choose_loop violation b_kind disc_violation map].
  unfold disc_violation; cbn [map list_min fold_left].
  rewrite (Rabs_left (1 - 5/2)), (Rabs_pos_eq (3 - 5/2)) by lra. rewrite Rmin_right by lra.
  unfold DISC_TOL. destruct (Rle_dec (3 - 5/2) (1/1000)); [lra|]. cbn [choose_step].
  unfold Rltb. destruct (Rlt_dec 0 (3 - 5/2)); [|lra]. cbn [nth_error branch_limits b_kind].
  unfold smaller_value, larger_value. cbn [filter]. unfold Rltb.
  destruct (Rlt_dec (1 - 5/2) 0); [|lra]. destruct (Rlt_dec (3 - 5/2) 0); [lra|].
  destruct (Rlt_dec 0 (1 - 5/2)); [lra|]. destruct (Rlt_dec 0 (3 - 5/2)); [|lra].
  cbn [list_max list_min fold_left]. reflexivity.
Qed.

Lemma ex_leaf k i lt lim lb rest best l u c : apply_branch [(1, 3)] (i, lt, lim) = [(l, u)] -> l <= u ->
  clamp l u (5/2) = c -> In c [1; 3] -> l <= c <= u -> fathomed (Rabs (c - 5/2)) best = false ->
  process exP exO k (mkNode [(i, lt, lim)] lb) rest best =
  Some (mkBs rest (if improves (Rabs (c - 5/2)) best then Some (Rabs (c - 5/2), [c]) else best)).
Proof.
  intros EB LU EC IC CB EF. unfold process.
  cbn [feasibility_tightening tighten_cons exP p_vs p_lin p_box n_path node_box fold_left]. unfold feasibility_tightening. cbn [tighten_cons].
  rewrite EB. cbn [exO o_obt o_relax existsb fst snd]. unfold Rltb at 1. destruct (Rlt_dec u l); [lra|]. cbn [orb].
  destruct (Rle_dec l u); [|lra]. rewrite EC. rewrite EF. cbn [upper_bound o_nbhd all_allowed allowed b_kind fst snd].
  rewrite (proj2 (Rleb_true l c)), (proj2 (Rleb_true c u)) by lra. cbn [andb map list_min fold_left].
  assert (M : Rltb (Rmin (Rabs (1 - c)) (Rabs (3 - c))) INT_TOL = true).
  { apply Rltb_true. unfold INT_TOL. destruct IC as [<-|[<-|[]]].
    - rewrite (Rabs_left1 (1-1)), (Rabs_pos_eq (3-1)) by lra. rmx; lra.
    - rewrite (Rabs_left1 (1-3)), (Rabs_pos_eq (3-3)) by lra. rmx; lra. }
  rewrite M. cbn [andb]. reflexivity.
Qed.

Lemma ex_run : exists s, bnb_solve exP exO 5 = Some s /\ s_open s = [] /\ s_best s = Some (Rabs (3 - 5/2), [3]).
Proof.
  unfold bnb_solve, bnb_start. cbn [bnb_loop s_open s_best o_choose exO nth_error remove_at]. fold exO.
  rewrite ex_root. cbn [s_open s_best nth_error remove_at].
  rewrite (ex_leaf 1 0 true 1 _ _ _ 1 1 1); try lra; simpl; auto.
  2:{ f_equal; f_equal. rewrite Rmin_right; lra. }
  2:{ rewrite clamp_high; lra. }
  cbn [improves s_open s_best nth_error remove_at].
  rewrite (ex_leaf 2 0 false 3 _ _ _ 3 3 3); try lra; simpl; auto.
  2:{ f_equal; f_equal. rewrite Rmax_right; lra. }
  2:{ rewrite clamp_low; lra. }
  2:{ apply Rltb_false. rewrite (Rabs_pos_eq (3 - 5/2)), (Rabs_left (1-5/2)) by lra. lra. }
  eexists; split; [reflexivity|]. split; [reflexivity|]. simpl.
  unfold Rltb. destruct (Rlt_dec (Rabs (3 - 5/2)) (Rabs (1 - 5/2))) as [|C]; [reflexivity|].
  exfalso; apply C. rewrite (Rabs_pos_eq (3 - 5/2)), (Rabs_left (1-5/2)) by lra. lra.
Qed.

(** ---- refutation of C23 ---- *)
Definition rfP : bprob := mkBp [mkBv (BDisc [0; 1]) 0] [(0, 1)] [] [(CGt, fun x => nth 0 x 0 - 1)] (fun x => nth 0 x 0) (1/10000).
Definition rfO : oracles := mkOr (fun _ _ => 0%nat) (fun _ b => b)
  (fun _ b => Some (1, [1])) (fun _ _ => [[0]; [1]]).
Lemma rf_upper : upper_bound (p_tol rfP) (p_cons rfP) (p_f rfP) [[0]; [1]] None = Some (0, [0]).
Proof.
  cbn [upper_bound rfP p_tol p_cons p_f forallb snd nth].
  rewrite (proj2 (Rleb_true (0 - 1) (1/10000))), (proj2 (Rleb_true (1 - 1) (1/10000))) by lra. cbn [andb].
  rewrite (proj2 (Rltb_false 1 0)) by lra. reflexivity.
Qed.
Lemma rf_allowed : all_allowed [mkBv (BDisc [0; 1]) 0] [(0, 1)] [1] = Some true.
Proof.
  cbn [all_allowed allowed b_kind fst snd]. rewrite (proj2 (Rleb_true 0 1)), (proj2 (Rleb_true 1 1)) by lra. cbn [andb map list_min fold_left].
  rewrite (proj2 (Rltb_true (Rmin (Rabs (0 - 1)) (Rabs (1 - 1))) INT_TOL)); [reflexivity|].
  unfold INT_TOL. rewrite (Rabs_left (0-1)), (Rabs_pos_eq (1-1)) by lra. rmx; lra.
Qed.
Lemma rf_root : process rfP rfO 0 (mkNode [] None) [] None = Some (mkBs [] (Some (0, [0]))).
Proof.
  unfold process. change (feasibility_tightening (p_vs rfP) (p_lin rfP) (node_box (p_box rfP) (n_path (mkNode [] None)))) with (Some [(0, 1)]).
  cbv zeta. unfold rfO. cbn [o_obt o_relax o_nbhd existsb fst snd].
  rewrite (proj2 (Rltb_false 1 0)) by lra. cbn [orb fathomed]. rewrite rf_upper.
  change (p_vs rfP) with [mkBv (BDisc [0; 1]) 0]. rewrite rf_allowed. cbn [improves].
  rewrite (proj2 (Rltb_false 1 0)) by lra. reflexivity.
Qed.
Lemma accepts_infeasible_refuted : exists P O s fb xb,
  (forall k bx flb xR, o_relax O k bx = Some (flb, xR) -> flb = p_f P xR /\ ok_within (p_tol P) (p_cons P) xR) /\
  bnb_solve P O 5 = Some s /\ s_best s = Some (fb, xb) /\ ~ ok_within (p_tol P) (p_cons P) xb.
Proof.
  exists rfP, rfO. eexists; exists 0, [0]. split; [|split; [|split]].
  - intros k bx flb xR H; injection H as <- <-. simpl. split; auto. unfold ok_within. repeat constructor. simpl; lra.
  - unfold bnb_solve, bnb_start. cbn [bnb_loop s_open s_best]. change (o_choose rfO 0 [mkNode [] None]) with 0%nat. cbn [nth_error remove_at].
    rewrite rf_root. cbn [s_open]. reflexivity.
  - reflexivity.
  - intros H. inversion H as [|? ? A _]; subst. simpl in A. lra.
Qed.

Lemma branch_example : exists c1 c2, branch [mkBv (BDisc [1; 3]) 0] [5/2] (mkNode [] None) = Some (c1, c2).
Proof.
  do 2 eexists. unfold branch. cbn [choose_loop violation b_kind].
  unfold disc_violation; cbn [map list_min fold_left].
  rewrite (Rabs_left (1 - 5/2)), (Rabs_pos_eq (3 - 5/2)) by lra. rewrite Rmin_right by lra.
  unfold DISC_TOL. destruct (Rle_dec (3 - 5/2) (1/1000)); [lra|]. cbn [choose_step].
  unfold Rltb. destruct (Rlt_dec 0 (3 - 5/2)); [|lra]. cbn [nth_error branch_limits b_kind].
  unfold smaller_value, larger_value. cbn [filter]. unfold Rltb.
  destruct (Rlt_dec (1 - 5/2) 0); [|lra]. destruct (Rlt_dec (3 - 5/2) 0); [lra|].
  destruct (Rlt_dec 0 (1 - 5/2)); [lra|]. destruct (Rlt_dec 0 (3 - 5/2)); [|lra].
  cbn [list_max list_min fold_left]. reflexivity.
Qed.
