From Verif Require Import BnB_spec Problem_proofs.

(** ---- boxes and paths ---- *)
Definition sat (br : nat * bool * R) (x : list R) : Prop :=
  let '(i, lt, lim) := br in if lt then nth i x 0 <= lim else lim <= nth i x 0.

Lemma in_apply : forall bx br x, (fst (fst br) < length bx)%nat ->
  (in_bounds (apply_branch bx br) x <-> in_bounds bx x /\ sat br x).
Proof.
  intros bx [[i lt] lim] x; simpl. unfold in_bounds.
  destruct (nth i bx (0,0)) as [l u] eqn:E.
  revert i x E; induction bx as [|[l0 u0] bx IH]; intros [|i] x E Hi; simpl in *; try lia.
  - injection E as -> ->. split.
    + intros H; inversion H as [|? y ? x' B F]; subst. simpl in *. destruct lt; simpl in *.
      * pose proof (Rmin_facts u lim). split; [constructor; auto; simpl; lra|lra].
      * pose proof (Rmax_facts l lim). split; [constructor; auto; simpl; lra|lra].
    + intros [H S]; inversion H as [|? y ? x' B F]; subst; simpl in *. constructor; auto.
      destruct lt; simpl; rmx; lra.
  - split.
    + intros H; inversion H as [|? y ? x' B F]; subst. apply IH in F; auto; try lia. destruct F as [F S].
      split; [constructor; auto|]. simpl. auto.
    + intros [H S]; inversion H as [|? y ? x' B F]; subst. constructor; auto. apply (IH i); auto; lia.
Qed.

Lemma apply_length bx br : length (apply_branch bx br) = length bx.
Proof. destruct br as [[i lt] lim]; simpl. destruct (nth i bx (0,0)). apply set_nth_length. Qed.

Lemma in_node_box : forall path bx x, Forall (fun br => (fst (fst br) < length bx)%nat) path ->
  (in_bounds (node_box bx path) x <-> in_bounds bx x /\ Forall (fun br => sat br x) path).
Proof.
  unfold node_box. induction path as [|br path IH]; intros bx x F; simpl.
  - split; [intros; split; auto|intros [? _]; auto].
  - inversion F; subst. rewrite IH.
    + rewrite in_apply by auto. split.
      * intros [[A B] C]; auto.
      * intros [A B]; inversion B; subst; auto.
    + rewrite apply_length; auto.
Qed.

(** ---- choice of the branching variable ---- *)
Definition chosen (VS : list bv) (XR : list R) (c : choice) : Prop :=
  0 <= snd c /\
  match fst c with
  | None => True
  | Some (i, p, xr) => exists v viol, nth_error VS i = Some v /\ nth_error XR i = Some xr /\
                                      violation v xr = Some viol /\ 0 < viol
  end.

Lemma choose_step_ok VS XR acc i v x viol : chosen VS XR acc ->
  nth_error VS i = Some v -> nth_error XR i = Some x -> violation v x = Some viol ->
  chosen VS XR (choose_step acc i v x viol).
Proof.
  intros [M C] H1 H2 H3. destruct acc as [cur mx]; simpl in *. unfold choose_step.
  assert (K : 0 < viol -> chosen VS XR (Some (i, b_prio v, x), viol)).
  { intros P; split; simpl; [lra|]. exists v, viol; auto. }
  assert (K0 : chosen VS XR (cur, mx)) by (split; auto).
  destruct cur as [[[j p] y]|].
  - destruct (p <? b_prio v)%Z.
    + destruct (Rltb 0 viol) eqn:E; auto. apply Rltb_true in E; auto.
    + destruct (b_prio v =? p)%Z; auto. destruct (Rltb mx viol) eqn:E; auto. apply Rltb_true in E; apply K; lra.
  - destruct (Rltb mx viol) eqn:E; auto. apply Rltb_true in E; apply K; lra.
Qed.

Lemma choose_loop_ok VS XR : forall vs i xR acc c, vs = skipn i VS -> xR = skipn i XR ->
  chosen VS XR acc -> choose_loop i vs xR acc = Some c -> chosen VS XR c.
Proof.
  induction vs as [|v vs IH]; intros i xR acc c E1 E2 C H; simpl in H.
  - injection H as <-; auto.
  - destruct xR as [|x xR]; [discriminate|]. destruct (violation v x) as [viol|] eqn:EV; [|discriminate].
    assert (N1 : nth_error VS i = Some v).
    { rewrite <- (firstn_skipn i VS), <- E1. assert (i <= length VS)%nat.
      { assert (length (skipn i VS) = S (length vs)) by (rewrite <- E1; reflexivity). rewrite skipn_length in H0. lia. }
      rewrite nth_error_app2; rewrite firstn_length_le; auto. rewrite Nat.sub_diag; reflexivity. }
    assert (N2 : nth_error XR i = Some x).
    { rewrite <- (firstn_skipn i XR), <- E2. assert (i <= length XR)%nat.
      { assert (length (skipn i XR) = S (length xR)) by (rewrite <- E2; reflexivity). rewrite skipn_length in H0. lia. }
      rewrite nth_error_app2; rewrite firstn_length_le; auto. rewrite Nat.sub_diag; reflexivity. }
    eapply (IH (S i) xR); [| |apply (choose_step_ok VS XR acc i v x viol); auto|exact H].
    + clear -E1. revert VS E1. induction i; intros VS E1; destruct VS; simpl in *; try discriminate; [congruence|]. apply IHi; auto.
    + clear -E2. revert XR E2. induction i; intros XR E2; destruct XR; simpl in *; try discriminate; [congruence|]. apply IHi; auto.
Qed.

Lemma violation_off_grid vals x viol : disc_violation vals x = Some viol -> 0 < viol -> ~ In x vals.
Proof.
  intros H P I. destruct (disc_violation_lemma _ _ _ H) as (d & [(v & Iv & Ev) D] & _ & [-> |[-> _]] & _); try lra.
  specialize (D x I). rewrite Rminus_eq_0, Rabs_R0 in D. lra.
Qed.

(** What branch returns. *)
Lemma branch_ok vs xR nd c1 c2 : branch vs xR nd = Some (c1, c2) ->
  exists i vals prio xr lo hi, nth_error vs i = Some (mkBv (BDisc vals) prio) /\ nth_error xR i = Some xr /\
    ~ In xr vals /\ In lo vals /\ In hi vals /\ lo < xr < hi /\
    (forall w, In w vals -> w <= lo \/ hi <= w) /\
    c1 = mkNode ((i, true, lo) :: n_path nd) (n_lb nd) /\
    c2 = mkNode ((i, false, hi) :: n_path nd) (n_lb nd).
Proof.
  unfold branch. destruct (choose_loop 0 vs xR (None, 0)) as [[[[[i p] xr]|] mx]|] eqn:E; try discriminate.
  apply (choose_loop_ok vs xR) in E; auto; [|split; simpl; auto; lra].
  destruct E as [_ (v & viol & N1 & N2 & V & P)]. simpl in *. rewrite N1.
  destruct v as [k pr]. unfold branch_limits; simpl. destruct k as [| |vals]; try discriminate.
  destruct (smaller_value vals xr) as [lo|] eqn:EL; [|discriminate].
  destruct (larger_value vals xr) as [hi|] eqn:EH; [|discriminate].
  intros H; injection H as <- <-.
  apply smaller_lemma in EL. apply larger_lemma in EH. destruct EL as (L1 & L2 & L3), EH as (H1 & H2 & H3).
  simpl in V. pose proof (violation_off_grid _ _ _ V P) as NI.
  exists i, vals, pr, xr, lo, hi. repeat split; auto.
  intros w W. destruct (Rle_dec w lo); auto. destruct (Rle_dec hi w); auto. exfalso.
  destruct (Rtotal_order w xr) as [T|[T|T]].
  - apply (L3 w W); lra.
  - subst; auto.
  - apply (H3 w W); lra.
Qed.

Lemma Forall2_nth_error {A B} (Q : A -> B -> Prop) l m i a : Forall2 Q l m -> nth_error l i = Some a ->
  exists b, nth_error m i = Some b /\ Q a b.
Proof. intros F; revert i; induction F; intros [|i] H1; simpl in *; try discriminate; eauto. injection H1 as <-; eauto. Qed.

Lemma nth_error_nthR (l : list R) i x : nth_error l i = Some x -> nth i l 0 = x.
Proof. revert i; induction l; intros [|i] H; simpl in *; try discriminate; auto. congruence. Qed.


(** C20 *)
Lemma branch_covers_lemma vs orig xR nd c1 c2 : length orig = length vs -> wf_path (length vs) (n_path nd) ->
  branch vs xR nd = Some (c1, c2) ->
  (wf_path (length vs) (n_path c1) /\ wf_path (length vs) (n_path c2)) /\
  (forall x, admissible vs x -> in_bounds (node_box orig (n_path nd)) x ->
     (in_bounds (node_box orig (n_path c1)) x /\ ~ in_bounds (node_box orig (n_path c2)) x) \/
     (in_bounds (node_box orig (n_path c2)) x /\ ~ in_bounds (node_box orig (n_path c1)) x)) /\
  (forall x, in_bounds (node_box orig (n_path c1)) x \/ in_bounds (node_box orig (n_path c2)) x ->
     in_bounds (node_box orig (n_path nd)) x) /\
  (~ in_bounds (node_box orig (n_path c1)) xR /\ ~ in_bounds (node_box orig (n_path c2)) xR).
Proof.
  intros HL HW HB. destruct (branch_ok _ _ _ _ _ HB) as (i & vals & pr & xr & lo & hi & N1 & N2 & NI & Ilo & Ihi & LH & AD & -> & ->).
  assert (Hi : (i < length vs)%nat) by (apply nth_error_Some; rewrite N1; discriminate).
  simpl. unfold wf_path in *.
  assert (W1 : Forall (fun br => (fst (fst br) < length orig)%nat) ((i, true, lo) :: n_path nd)) by (rewrite HL; constructor; auto).
  assert (W2 : Forall (fun br => (fst (fst br) < length orig)%nat) ((i, false, hi) :: n_path nd)) by (rewrite HL; constructor; auto).
  assert (W0 : Forall (fun br => (fst (fst br) < length orig)%nat) (n_path nd)) by (rewrite HL; auto).
  split; [rewrite HL in W1, W2; auto|].
  split; [|split].
  - intros x A B. rewrite (in_node_box _ _ _ W1), (in_node_box _ _ _ W2). rewrite (in_node_box _ _ _ W0) in B.
    destruct B as [B1 B2]. destruct (Forall2_nth_error _ _ _ _ _ A N1) as (y & Ny & Ay). simpl in Ay.
    pose proof (nth_error_nthR _ _ _ Ny) as Ey.
    destruct (AD y Ay) as [C|C].
    + left; split.
      * split; auto. constructor; auto. simpl. lra.
      * intros [_ F]; inversion F as [|? ? F1 _]; subst; simpl in F1. lra.
    + right; split.
      * split; auto. constructor; auto. simpl. lra.
      * intros [_ F]; inversion F as [|? ? F1 _]; subst; simpl in F1. lra.
  - intros x. rewrite (in_node_box _ _ _ W1), (in_node_box _ _ _ W2), (in_node_box _ _ _ W0).
    intros [[A B]|[A B]]; inversion B; subst; auto.
  - pose proof (nth_error_nthR _ _ _ N2) as Ex.
    rewrite (in_node_box _ _ _ W1), (in_node_box _ _ _ W2).
    split; intros [_ F]; inversion F as [|? ? F1 _]; subst; simpl in F1; lra.
Qed.

Lemma branch_integer_raises vs xR nd i v xr viol :
  nth_error vs i = Some v -> b_kind v = BInt -> nth_error xR i = Some xr -> violation v xr = Some viol -> 0 < viol ->
  (forall j w y, nth_error vs j = Some w -> nth_error xR j = Some y -> j <> i -> violation w y = Some 0) ->
  branch vs xR nd = None.
Proof.
  intros N1 K N2 V P O. destruct (branch vs xR nd) as [[c1 c2]|] eqn:E; auto. exfalso.
  destruct (branch_ok _ _ _ _ _ E) as (j & vals & pr & y & lo & hi & M1 & M2 & NI & _).
  destruct (Nat.eq_dec j i) as [->|D].
  - rewrite N1 in M1; injection M1 as ->. simpl in K; discriminate.
  - unfold branch in E. destruct (choose_loop 0 vs xR (None, 0)) as [[[[[i' p] xr']|] mx]|] eqn:E'; try discriminate.
    apply (choose_loop_ok vs xR) in E'; auto; [|split; simpl; auto; lra].
    destruct E' as [_ (v' & viol' & Q1 & Q2 & Q3 & Q4)]. simpl in *. rewrite Q1 in E.
    destruct (Nat.eq_dec i' i) as [->|D'].
    + rewrite N1 in Q1; injection Q1 as <-. unfold branch_limits in E; rewrite K in E; discriminate.
    + rewrite (O i' v' xr' Q1 Q2 D') in Q3. injection Q3 as <-; lra.
Qed.

(** ---- tightening ---- *)
Lemma ax_min_le : forall a bx x, length a = length bx -> in_bounds bx x ->
  length (ax_min a bx) = length a /\
  (forall i, (i < length a)%nat -> nth i (ax_min a bx) 0 <= nth i a 0 * nth i x 0) /\
  forall i, (i < length a)%nat ->
    nth i a 0 * nth i x 0 - nth i (ax_min a bx) 0 <= dot a x - Rsum (ax_min a bx).
Proof.
  induction a as [|ai a IH]; intros [|[l u] bx] x HL HB; simpl in HL; try lia.
  - inversion HB; subst; simpl. repeat split; intros; lia.
  - inversion HB as [|? y ? x' B F]; subst. destruct (IH bx x' ltac:(lia) F) as (I1 & I2 & I3).
    simpl in B.
    assert (M : Rmin (ai * u) (ai * l) <= ai * y).
    { destruct (Rle_dec 0 ai).
      - apply Rle_trans with (ai * l); [apply Rmin_r|]. apply Rmult_le_compat_l; lra.
      - apply Rle_trans with (ai * u); [apply Rmin_l|]. apply Rmult_le_compat_neg_l; lra. }
    assert (T : 0 <= dot a x' - Rsum (ax_min a bx)).
    { clear -I1 I2 I3. destruct a as [|a0 a]; [simpl; destruct bx as [|[? ?] ?]; simpl; lra|].
      pose proof (I3 0%nat ltac:(simpl; lia)). pose proof (I2 0%nat ltac:(simpl; lia)). lra. }
    cbn [ax_min length dot]. rewrite Rsum_cons. split; [lia|]. split.
    + intros [|i] Hi; simpl; [auto|apply I2; lia].
    + intros [|i] Hi; cbn [nth].
      * lra.
      * pose proof (I3 i ltac:(lia)). lra.
Qed.

Lemma round_ub_ok v ub x : adm1 v x -> x <= ub -> exists u, round_ub v ub = Some u /\ x <= u.
Proof.
  unfold adm1, round_ub. destruct (b_kind v) as [| |vals]; intros A H.
  - eauto.
  - destruct A as [z ->]. eexists; split; [reflexivity|]. apply IZR_le.
    destruct (floorZ_spec ub). apply Z.lt_succ_r, lt_IZR. rewrite succ_IZR. lra.
  - destruct (list_max (filter (fun w => Rleb w ub) vals)) as [m|] eqn:E.
    + exists m; split; auto. apply list_max_spec in E. apply E, filter_In; split; auto. apply Rleb_true; auto.
    + apply list_max_none in E. assert (I : In x (filter (fun w => Rleb w ub) vals)) by (apply filter_In; split; auto; apply Rleb_true; auto).
      rewrite E in I; destruct I.
Qed.
Lemma round_lb_ok v lb x : adm1 v x -> lb <= x -> exists l, round_lb v lb = Some l /\ l <= x.
Proof.
  unfold adm1, round_lb, ceilZ. destruct (b_kind v) as [| |vals]; intros A H.
  - eauto.
  - destruct A as [z ->]. eexists; split; [reflexivity|]. rewrite opp_IZR.
    destruct (floorZ_spec (- lb)) as [F1 F2]. 
    assert (IZR (- floorZ (- lb)) <= IZR z); [|rewrite opp_IZR in *; auto].
    apply IZR_le. apply Z.lt_succ_r, lt_IZR. rewrite succ_IZR, opp_IZR. lra.
  - destruct (list_min (filter (fun w => Rleb lb w) vals)) as [m|] eqn:E.
    + exists m; split; auto. apply list_min_spec in E. apply E, filter_In; split; auto. apply Rleb_true; auto.
    + apply list_min_none in E. assert (I : In x (filter (fun w => Rleb lb w) vals)) by (apply filter_In; split; auto; apply Rleb_true; auto).
      rewrite E in I; destruct I.
Qed.

Lemma tighten_vars_ok b S D : D <= b -> forall vs a am bx x bnd,
  length a = length vs -> length am = length vs -> admissible vs x -> in_bounds bx x ->
  Forall (fun c => c = 0 \/ 1 / 1000000000 < Rabs c) a ->
  (forall i, (i < length vs)%nat -> nth i a 0 * nth i x 0 - nth i am 0 <= D - S) ->
  exists bx' bnd', tighten_vars vs a am b S bx bnd = Some (bx', bnd') /\ in_bounds bx' x.
Proof.
  intros HD. induction vs as [|v vs IH]; intros a am bx x bnd L1 L2 A B C G.
  - inversion A; subst. inversion B; subst. destruct a, am; simpl in *; try lia. do 2 eexists; split; [reflexivity|constructor].
  - destruct a as [|ai a]; simpl in L1; try lia. destruct am as [|ami am]; simpl in L2; try lia.
    inversion A as [|? y ? x' A1 A2]; subst. inversion B as [|[l u] ? bx' ? B1 B2]; subst. simpl in B1.
    inversion C as [|? ? C1 C2]; subst.
    pose proof (G 0%nat ltac:(simpl; lia)) as G0. simpl in G0.
    assert (G' : forall i, (i < length vs)%nat -> nth i a 0 * nth i x' 0 - nth i am 0 <= D - S).
    { intros i Hi. apply (G (Datatypes.S i)). simpl; lia. }
    simpl. destruct (Rlt_dec (1 / 1000000000) (Rabs ai)) as [Big|Small].
    + set (bd := 1 / ai * (b - (S - ami))).
      destruct (Rlt_dec 0 ai) as [Pos|NPos].
      * assert (y <= bd).
        { unfold bd. apply (Rmult_le_reg_l ai); auto. replace (ai * (1 / ai * (b - (S - ami)))) with (b - (S - ami)) by (field; lra). lra. }
        destruct (round_ub_ok v (Rmin u bd) y A1) as (u' & E & Hu); [apply Rmin_glb; lra|]. rewrite E.
        destruct (IH a am bx' x' (Some bd) ltac:(lia) ltac:(lia) A2 B2 C2 G') as (r & bn & E2 & F). rewrite E2.
        do 2 eexists; split; [reflexivity|]. constructor; auto; simpl; lra.
      * destruct (Rlt_dec ai 0) as [Neg|NNeg].
        -- assert (bd <= y).
           { unfold bd. apply (Rmult_le_reg_l (- ai)); [lra|]. replace (- ai * (1 / ai * (b - (S - ami)))) with (- (b - (S - ami))) by (field; lra). lra. }
           destruct (round_lb_ok v (Rmax l bd) y A1) as (l' & E & Hl); [apply Rmax_lub; lra|]. rewrite E.
           destruct (IH a am bx' x' (Some bd) ltac:(lia) ltac:(lia) A2 B2 C2 G') as (r & bn & E2 & F). rewrite E2.
           do 2 eexists; split; [reflexivity|]. constructor; auto; simpl; lra.
        -- destruct (IH a am bx' x' (Some bd) ltac:(lia) ltac:(lia) A2 B2 C2 G') as (r & bn & E2 & F). rewrite E2.
           do 2 eexists; split; [reflexivity|]. constructor; auto; simpl; lra.
    + destruct C1 as [->|C1]; [|lra].
      destruct (Rlt_dec 0 0); [lra|]. 
      destruct (IH a am bx' x' bnd ltac:(lia) ltac:(lia) A2 B2 C2 G') as (r & bn & E2 & F). rewrite E2.
      do 2 eexists; split; [reflexivity|]. constructor; auto; simpl; lra.
Qed.

Lemma tighten_cons_ok vs bx0 x : admissible vs x -> in_bounds bx0 x -> forall lcons bx bnd,
  good_rows vs lcons -> Forall (row_holds x) lcons -> in_bounds bx x ->
  exists bx', tighten_cons vs bx0 lcons bx bnd = Some bx' /\ in_bounds bx' x.
Proof.
  intros A B0. induction lcons as [|[[ty a] b] lcons IH]; intros bx bnd GR RH B; simpl.
  - eauto.
  - inversion GR as [|? ? [G1 [G2 G3]] GR']; subst. simpl in G1, G2, G3. subst ty.
    inversion RH as [|? ? R1 R2]; subst. simpl in R1.
    assert (LB : length a = length bx0).
    { rewrite G2. unfold admissible, in_bounds in *. rewrite (Forall2_length _ _ _ A), (Forall2_length _ _ _ B0). reflexivity. }
    destruct (ax_min_le a bx0 x LB B0) as (I1 & I2 & I3).
    destruct (tighten_vars_ok b (Rsum (ax_min a bx0)) (dot a x) R1 vs a (ax_min a bx0) bx x bnd) as (bx' & bn & E & F); auto.
    + congruence.
    + intros i Hi. apply I3; lia.
    + rewrite E. apply IH; auto.
Qed.

Lemma tightening_lemma vs lcons bx x : good_rows vs lcons -> admissible vs x -> in_bounds bx x ->
  Forall (row_holds x) lcons ->
  exists bx', feasibility_tightening vs lcons bx = Some bx' /\ in_bounds bx' x.
Proof. intros; unfold feasibility_tightening; apply tighten_cons_ok; auto. Qed.

(** ---- upper bound ---- *)
Lemma best_le_refl b : best_le b b.
Proof. destruct b as [[f x]|]; simpl; auto; lra. Qed.
Lemma best_le_trans a b c : best_le a b -> best_le b c -> best_le a c.
Proof. destruct a as [[? ?]|], b as [[? ?]|], c as [[? ?]|]; simpl; auto; try tauto; lra. Qed.

Lemma upper_bound_mono tol cons f : forall N best, best_le (upper_bound tol cons f N best) best.
Proof.
  induction N as [|x N IH]; intros best; simpl; [apply best_le_refl|].
  eapply best_le_trans; [apply IH|]. destruct (forallb _ cons); [|apply best_le_refl].
  destruct best as [[fb xb]|]; simpl; auto. destruct (Rltb (f x) fb) eqn:E; simpl; [apply Rltb_true in E; lra|lra].
Qed.

Lemma upper_bound_inv (Q : R * list R -> Prop) tol cons f : forall N best,
  (forall x, In x N -> Forall (fun c => snd c x <= tol) cons -> Q (f x, x)) ->
  (forall b, best = Some b -> Q b) -> forall b, upper_bound tol cons f N best = Some b -> Q b.
Proof.
  induction N as [|x N IH]; intros best H1 H2 b H; simpl in H; [auto|].
  eapply IH; [intros; apply H1; simpl; auto| |exact H]. intros b' Hb.
  destruct (forallb (fun c => Rleb (snd c x) tol) cons) eqn:E; [|auto].
  assert (QX : Q (f x, x)).
  { apply H1; [simpl; auto|]. rewrite forallb_forall in E. apply Forall_forall. intros c Hc. apply Rleb_true, E; auto. }
  destruct best as [[fb xb]|].
  - destruct (Rltb (f x) fb); [injection Hb as <-; auto|]. apply H2; auto.
  - injection Hb as <-; auto.
Qed.

(** ---- one iteration ---- *)
Definition covered (P : bprob) (Feas : list R -> Prop) (s : bstate) : Prop :=
  forall x, admissible (p_vs P) x -> Feas x -> in_bounds (p_box P) x ->
    (exists fb xb, s_best s = Some (fb, xb) /\ fb <= p_f P x) \/
    (exists nd, In nd (s_open s) /\ in_bounds (node_box (p_box P) (n_path nd)) x).
Definition wf_state (P : bprob) (s : bstate) : Prop :=
  forall nd, In nd (s_open s) -> wf_path (length (p_vs P)) (n_path nd).

Lemma best_le_cover b1 b2 y : best_le b1 b2 -> (exists fb xb, b2 = Some (fb, xb) /\ fb <= y) ->
  exists fb (xb : list R), b1 = Some (fb, xb) /\ fb <= y.
Proof.
  intros H (fb & xb & -> & L). simpl in H. destruct b1 as [[f1 x1]|]; [|contradiction].
  exists f1, x1; split; auto; lra.
Qed.

Lemma process_mono P O k nd rest best s' : process P O k nd rest best = Some s' -> best_le (s_best s') best.
Proof.
  unfold process. destruct (feasibility_tightening _ _ _) as [bx1|]; [|discriminate].
  destruct (existsb _ _); [intros H; injection H as <-; apply best_le_refl|].
  destruct (o_relax _ _ _) as [[flb xR]|]; [|intros H; injection H as <-; apply best_le_refl].
  destruct (fathomed flb best); [intros H; injection H as <-; apply best_le_refl|].
  destruct (all_allowed _ _ _) as [[|]|]; [| |discriminate].
  - intros H; injection H as <-; simpl.
    apply best_le_trans with (upper_bound (p_tol P) (p_cons P) (p_f P) (o_nbhd O k xR) best); [|apply upper_bound_mono].
    destruct (upper_bound _ _ _ _ _) as [[fb xb]|]; simpl; auto.
    destruct (Rltb flb fb) eqn:E; simpl; [apply Rltb_true in E; lra|lra].
  - destruct (branch _ _ _) as [[c1 c2]|]; [|discriminate]. intros H; injection H as <-; simpl. apply upper_bound_mono.
Qed.

Lemma process_cover P (Feas : list R -> Prop) O k nd rest best s' :
  length (p_box P) = length (p_vs P) -> good_rows (p_vs P) (p_lin P) ->
  (forall x, Feas x -> Forall (row_holds x) (p_lin P)) ->
  obt_sound P Feas O -> relax_sound P Feas O ->
  wf_path (length (p_vs P)) (n_path nd) -> (forall n, In n rest -> wf_path (length (p_vs P)) (n_path n)) ->
  process P O k nd rest best = Some s' ->
  wf_state P s' /\
  (forall x, admissible (p_vs P) x -> Feas x -> in_bounds (node_box (p_box P) (n_path nd)) x ->
    (exists fb xb, s_best s' = Some (fb, xb) /\ fb <= p_f P x) \/
    (exists c, In c (s_open s') /\ in_bounds (node_box (p_box P) (n_path c)) x)) /\
  (forall n, In n rest -> In n (s_open s')).
Proof.
  intros HL GR FR OB RL W WR H. pose proof (process_mono _ _ _ _ _ _ _ H) as MONO. unfold process in H.
  destruct (feasibility_tightening (p_vs P) (p_lin P) (node_box (p_box P) (n_path nd))) as [bx1|] eqn:ET; [|discriminate].
  assert (TB : forall x, admissible (p_vs P) x -> Feas x -> in_bounds (node_box (p_box P) (n_path nd)) x -> in_bounds (o_obt O k bx1) x).
  { intros x A F B. apply OB; auto. destruct (tightening_lemma _ _ _ x GR A B (FR x F)) as (b' & E & Hb).
    rewrite ET in E; injection E as <-; auto. }
  destruct (existsb (fun b => Rltb (snd b) (fst b)) (o_obt O k bx1)) eqn:EX.
  { injection H as <-; simpl. split; [intros n; simpl; auto|]. split; auto. intros x A F B. exfalso.
    apply existsb_exists in EX. destruct EX as ([l u] & I & LT). apply Rltb_true in LT; simpl in LT.
    specialize (TB x A F B). clear -TB I LT. unfold in_bounds in TB. induction TB; simpl in *; auto. destruct I as [->|I]; auto. simpl in *; lra. }
  destruct (o_relax O k (o_obt O k bx1)) as [[flb xR]|] eqn:ER.
  2:{ injection H as <-; simpl. split; [intros n; simpl; auto|]. split; auto. intros x A F B. exfalso.
      destruct (RL k _ x A F (TB x A F B)) as (f' & x' & E & _). congruence. }
  assert (LB : forall x, admissible (p_vs P) x -> Feas x -> in_bounds (node_box (p_box P) (n_path nd)) x -> flb <= p_f P x).
  { intros x A F B. destruct (RL k _ x A F (TB x A F B)) as (f' & x' & E & L). rewrite ER in E; injection E as -> ->; auto. }
  destruct (fathomed flb best) eqn:EF.
  { injection H as <-; simpl. split; [intros n; simpl; auto|]. split; auto. intros x A F B. left.
    unfold fathomed in EF. destruct best as [[fb xb]|]; [|discriminate]. apply Rltb_true in EF.
    exists fb, xb; split; auto. specialize (LB x A F B). lra. }
  destruct (all_allowed (p_vs P) (o_obt O k bx1) xR) as [[|]|]; [| |discriminate].
  - injection H as <-; simpl. split; [intros n; simpl; auto|]. split; auto. intros x A F B. left.
    specialize (LB x A F B). destruct (upper_bound _ _ _ _ _) as [[fb xb]|]; simpl.
    + destruct (Rltb flb fb) eqn:E; [do 2 eexists; split; [reflexivity|auto]|].
      apply Rltb_false in E. do 2 eexists; split; [reflexivity|lra].
    + do 2 eexists; split; [reflexivity|auto].
  - destruct (branch (p_vs P) xR (mkNode (n_path nd) (Some flb))) as [[c1 c2]|] eqn:EB; [|discriminate].
    injection H as <-; simpl.
    destruct (branch_covers_lemma _ (p_box P) _ (mkNode (n_path nd) (Some flb)) _ _ HL W EB) as [[W1 W2] [CV _]]. simpl in CV.
    split; [|split].
    + intros n I. apply in_app_iff in I. destruct I as [I|[<-|[<-|[]]]]; auto.
    + intros x A F B. right. destruct (CV x A B) as [[C _]|[C _]].
      * exists c1; split; auto. apply in_app_iff; simpl; auto.
      * exists c2; split; auto. apply in_app_iff; simpl; auto.
    + intros n I. apply in_app_iff; auto.
Qed.

Lemma remove_at_in {A} : forall (l : list A) i a x, nth_error l i = Some a -> In x l -> x = a \/ In x (remove_at i l).
Proof.
  induction l as [|b l IH]; intros [|i] a x H I; simpl in *; try discriminate.
  - injection H as ->. destruct I as [->|I]; auto.
  - destruct I as [->|I]; auto. destruct (IH i a x H I); auto.
Qed.
Lemma remove_at_sub {A} : forall (l : list A) i x, In x (remove_at i l) -> In x l.
Proof. induction l as [|b l IH]; intros [|i] x I; simpl in *; auto. destruct I; eauto. Qed.

Lemma loop_mono P O : forall fuel k s s', bnb_loop P O fuel k s = Some s' -> best_le (s_best s') (s_best s).
Proof.
  induction fuel as [|fuel IH]; intros k s s' H; simpl in H.
  - injection H as <-; apply best_le_refl.
  - destruct (s_open s) eqn:EO; [injection H as <-; apply best_le_refl|]. rewrite <- EO in H.
    destruct (nth_error (s_open s) (o_choose O k (s_open s))) as [nd|]; [|discriminate].
    destruct (process _ _ _ _ _ _) as [s1|] eqn:EP; [|discriminate].
    eapply best_le_trans; [eapply IH; eauto|]. eapply process_mono; eauto.
Qed.

Lemma loop_cover P (Feas : list R -> Prop) O :
  length (p_box P) = length (p_vs P) -> good_rows (p_vs P) (p_lin P) ->
  (forall x, Feas x -> Forall (row_holds x) (p_lin P)) ->
  obt_sound P Feas O -> relax_sound P Feas O ->
  forall fuel k s s', wf_state P s -> covered P Feas s -> bnb_loop P O fuel k s = Some s' ->
  wf_state P s' /\ covered P Feas s'.
Proof.
  intros HL GR FR OB RL. induction fuel as [|fuel IH]; intros k s s' W C H; simpl in H.
  - injection H as <-; auto.
  - destruct (s_open s) eqn:EO; [injection H as <-; auto|]. rewrite <- EO in H.
    destruct (nth_error (s_open s) (o_choose O k (s_open s))) as [nd|] eqn:EN; [|discriminate].
    destruct (process _ _ _ _ _ _) as [s1|] eqn:EP; [|discriminate].
    assert (Wn : wf_path (length (p_vs P)) (n_path nd)) by (apply W; eapply nth_error_In; eauto).
    assert (WR : forall n, In n (remove_at (o_choose O k (s_open s)) (s_open s)) -> wf_path (length (p_vs P)) (n_path n)).
    { intros n0 I. apply W. eapply remove_at_sub; eauto. }
    pose proof (process_mono _ _ _ _ _ _ _ EP) as MONO.
    destruct (process_cover P Feas O k nd _ _ s1 HL GR FR OB RL Wn WR EP) as (W1 & C1 & R1).
    eapply IH; [exact W1| |exact H].
    intros x A F B. destruct (C x A F B) as [L|(m & I & Bm)].
    + left. eapply best_le_cover; eauto.
    + destruct (remove_at_in _ _ _ _ EN I) as [->|I'].
      * apply C1; auto.
      * right. exists m; split; auto.
Qed.

Lemma bnb_optimal_lemma P (Feas : list R -> Prop) O maxiter s :
  length (p_box P) = length (p_vs P) -> good_rows (p_vs P) (p_lin P) ->
  (forall x, Feas x -> Forall (row_holds x) (p_lin P)) ->
  obt_sound P Feas O -> relax_sound P Feas O ->
  bnb_solve P O maxiter = Some s -> s_open s = [] ->
  forall x, admissible (p_vs P) x -> Feas x -> in_bounds (p_box P) x ->
  exists fb xb, s_best s = Some (fb, xb) /\ fb <= p_f P x.
Proof.
  intros HL GR FR OB RL H E x A F B. unfold bnb_solve in H.
  destruct (loop_cover P Feas O HL GR FR OB RL (S maxiter) 0 bnb_start s) as [_ C]; auto.
  - intros n [<-|[]]; simpl. constructor.
  - intros y _ _ By. right. exists (mkNode [] None). split; simpl; auto.
  - destruct (C x A F B) as [L|(m & I & _)]; auto. rewrite E in I; destruct I.
Qed.

(** C22: the incumbent never gets worse from one iteration to any later one; it
    carries its own objective value if the relaxation solver reports that of
    its point. *)
Lemma loop_split P O : forall f1 f2 k s s', bnb_loop P O (f1 + f2) k s = Some s' ->
  exists s1 k', bnb_loop P O f1 k s = Some s1 /\ bnb_loop P O f2 k' s1 = Some s'.
Proof.
  induction f1 as [|f1 IH]; intros f2 k s s' H; simpl in *.
  - exists s, k; auto.
  - destruct (s_open s) eqn:EO.
    + injection H as <-. exists s, k; split; auto. destruct f2; simpl; auto. rewrite EO; auto.
    + rewrite <- EO in *. destruct (nth_error (s_open s) (o_choose O k (s_open s))) as [nd|]; [|discriminate].
      destruct (process _ _ _ _ _ _) as [s1|]; [|discriminate]. apply IH; auto.
Qed.

Lemma incumbent_improves_lemma P O m1 m2 s1 s2 : (m1 <= m2)%nat ->
  bnb_solve P O m1 = Some s1 -> bnb_solve P O m2 = Some s2 -> best_le (s_best s2) (s_best s1).
Proof.
  unfold bnb_solve. intros L H1 H2. replace (S m2) with (S m1 + (m2 - m1))%nat in H2 by lia.
  destruct (loop_split _ _ _ _ _ _ _ H2) as (s & k & E1 & E2). rewrite H1 in E1; injection E1 as <-.
  eapply loop_mono; eauto.
Qed.

Lemma process_inv (Q : R * list R -> Prop) P O k nd rest best s' :
  (forall bx flb xR, o_relax O k bx = Some (flb, xR) -> all_allowed (p_vs P) bx xR = Some true -> Q (flb, xR)) ->
  (forall xR x, In x (o_nbhd O k xR) -> Forall (fun c => snd c x <= p_tol P) (p_cons P) -> Q (p_f P x, x)) ->
  (forall b, best = Some b -> Q b) -> process P O k nd rest best = Some s' -> forall b, s_best s' = Some b -> Q b.
Proof.
  intros H1 H2 H3. unfold process. destruct (feasibility_tightening _ _ _) as [bx1|]; [|discriminate].
  destruct (existsb _ _); [intros H; injection H as <-; auto|].
  destruct (o_relax _ _ _) as [[flb xR]|] eqn:ER; [|intros H; injection H as <-; auto].
  destruct (fathomed flb best); [intros H; injection H as <-; auto|].
  assert (U : forall b, upper_bound (p_tol P) (p_cons P) (p_f P) (o_nbhd O k xR) best = Some b -> Q b).
  { apply upper_bound_inv; auto. intros; eapply H2; eauto. }
  destruct (all_allowed _ _ _) as [[|]|] eqn:EA; [| |discriminate].
  - intros H; injection H as <-; simpl. intros b. destruct (improves flb _); [|apply U]. intros Hb; injection Hb as <-. eapply H1; eauto.
  - destruct (branch _ _ _) as [[c1 c2]|]; [|discriminate]. intros H; injection H as <-; simpl; auto.
Qed.

Lemma loop_inv (Q : R * list R -> Prop) P O :
  (forall k bx flb xR, o_relax O k bx = Some (flb, xR) -> all_allowed (p_vs P) bx xR = Some true -> Q (flb, xR)) ->
  (forall k xR x, In x (o_nbhd O k xR) -> Forall (fun c => snd c x <= p_tol P) (p_cons P) -> Q (p_f P x, x)) ->
  forall fuel k s s', (forall b, s_best s = Some b -> Q b) -> bnb_loop P O fuel k s = Some s' ->
  forall b, s_best s' = Some b -> Q b.
Proof.
  intros H1 H2. induction fuel as [|fuel IH]; intros k s s' H3 H; simpl in H.
  - injection H as <-; auto.
  - destruct (s_open s) eqn:EO; [injection H as <-; auto|]. rewrite <- EO in H.
    destruct (nth_error (s_open s) (o_choose O k (s_open s))) as [nd|]; [|discriminate].
    destruct (process _ _ _ _ _ _) as [s1|] eqn:EP; [|discriminate].
    eapply (IH (S k) s1); [|exact H]. eapply process_inv; eauto.
Qed.

Lemma incumbent_value_lemma P O maxiter s fb xb :
  (forall k bx flb xR, o_relax O k bx = Some (flb, xR) -> flb = p_f P xR) ->
  bnb_solve P O maxiter = Some s -> s_best s = Some (fb, xb) -> fb = p_f P xb.
Proof.
  intros H1 H2 H3. unfold bnb_solve in H2.
  refine (loop_inv (fun b => fst b = p_f P (snd b)) P O _ _ _ _ _ _ _ H2 (fb, xb) H3); simpl; intros; eauto. discriminate.
Qed.


Lemma incumbent_feasible_lemma P O maxiter s fb xb :
  Forall (fun c => fst c = CLt) (p_cons P) ->
  (forall k bx flb xR, o_relax O k bx = Some (flb, xR) -> ok_within (p_tol P) (p_cons P) xR) ->
  bnb_solve P O maxiter = Some s -> s_best s = Some (fb, xb) -> ok_within (p_tol P) (p_cons P) xb.
Proof.
  intros HT H1 H2 H3. unfold bnb_solve in H2.
  refine (loop_inv (fun b => ok_within (p_tol P) (p_cons P) (snd b)) P O _ _ _ _ _ _ _ H2 (fb, xb) H3); simpl; intros; eauto; try discriminate.
  unfold ok_within. rewrite Forall_forall in *. intros c Hc. specialize (HT c Hc). specialize (H0 c Hc).
  unfold holds_within; simpl. rewrite HT. lra.
Qed.
