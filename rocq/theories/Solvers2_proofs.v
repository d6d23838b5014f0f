From Verif Require Import Solvers_spec Solvers_proofs.

(** ---- product ---- *)
Lemma product_in {A} : forall (ls : list (list A)) p, In p (product ls) <-> Forall2 (fun l a => In a l) ls p.
Proof.
  induction ls as [|l r IH]; intros p; simpl.
  - split; [intros [<-|[]]; constructor|]. intros F; inversion F; auto.
  - rewrite in_flat_map. split.
    + intros (a & Ha & Hp). apply in_map_iff in Hp. destruct Hp as (q & <- & Hq). constructor; auto. apply IH; auto.
    + intros F; inversion F as [|? a ? q Ha Hq]; subst. exists a; split; auto. apply in_map. apply IH; auto.
Qed.
Lemma product_length {A} (ls : list (list A)) : length (product ls) = fold_right Nat.mul 1%nat (map (@length A) ls).
Proof.
  induction ls as [|l r IH]; simpl; auto. rewrite <- IH. clear IH.
  induction l as [|a l IHl]; simpl; auto. rewrite app_length, map_length, IHl. auto.
Qed.
Lemma nodup_app {A} (l1 l2 : list A) : NoDup l1 -> NoDup l2 -> (forall x, In x l1 -> ~ In x l2) -> NoDup (l1 ++ l2).
Proof.
  intros N1 N2 D; induction N1 as [|a l N N1 IH]; simpl; auto. constructor.
  - rewrite in_app_iff. intros [H|H]; [contradiction|]. apply (D a); simpl; auto.
  - apply IH. intros x Hx; apply D; simpl; auto.
Qed.
Lemma product_nodup {A} (ls : list (list A)) : Forall (@NoDup A) ls -> NoDup (product ls).
Proof.
  induction ls as [|l r IH]; intros F; simpl; [repeat constructor; auto|].
  inversion F as [|? ? F1 F2]; subst. specialize (IH F2). clear F F2.
  induction F1 as [|a l N F1 IHl]; simpl; [constructor|].
  apply nodup_app; auto.
  - apply FinFun.Injective_map_NoDup; auto. intros x y H; injection H; auto.
  - intros x H1 H2. apply in_map_iff in H1. destruct H1 as (q & <- & _). apply in_flat_map in H2.
    destruct H2 as (b & Hb & Hq). apply in_map_iff in Hq. destruct Hq as (q' & Hq & _). injection Hq as -> _. contradiction.
Qed.

(** ---- grid search ---- *)
Lemma ins_key_perm {V} (e : nat * V) l : Permutation (ins_key e l) (e :: l).
Proof.
  induction l as [|a l IH]; simpl; auto. destruct (fst e <=? fst a)%nat; auto.
  rewrite IH. apply perm_swap.
Qed.
Lemma sort_items_perm {V} (l : list (nat * V)) : Permutation (sort_items l) l.
Proof. induction l as [|a l IH]; simpl; auto. unfold sort_items in *. simpl. rewrite ins_key_perm. auto. Qed.

Lemma combine_in_assign {V} : forall (items : list (nat * list V)) v,
  Forall2 (fun l a => In a l) (map snd items) v ->
  Forall2 (fun p e => fst e = fst p /\ In (snd e) (snd p)) items (combine (map fst items) v).
Proof.
  induction items as [|[k l] r IH]; intros v F; inversion F; subst; simpl; constructor; auto.
Qed.
Lemma assign_combine {V} : forall (items : list (nat * list V)) g,
  Forall2 (fun p e => fst e = fst p /\ In (snd e) (snd p)) items g ->
  g = combine (map fst items) (map snd g) /\ Forall2 (fun l a => In a l) (map snd items) (map snd g).
Proof.
  intros items g F; induction F as [|[k l] [k' a] r g [H1 H2] F [IH1 IH2]]; simpl in *; [split; [auto|constructor]|].
  subst k'. split; [congruence|constructor; auto].
Qed.
Lemma Forall2_perm {A B} (Q : A -> B -> Prop) l l' : Permutation l l' -> forall g, Forall2 Q l g ->
  exists g', Permutation g g' /\ Forall2 Q l' g'.
Proof.
  intros P; induction P as [|x l l' P IH|x y l|l l' l'' P1 IH1 P2 IH2]; intros g F.
  - inversion F; subst. exists []; split; auto; constructor.
  - inversion F as [|? b ? g1 H F1]; subst. destruct (IH _ F1) as (g' & G1 & G2). exists (b :: g'); split; auto.
  - inversion F as [|? b ? g1 H F1]; subst. inversion F1 as [|? c ? g2 H2 F2]; subst.
    exists (c :: b :: g2). split; [apply perm_swap|]. constructor; auto.
  - destruct (IH1 _ F) as (g' & G1 & G2). destruct (IH2 _ G2) as (g'' & G3 & G4). exists g''; split; auto. eapply perm_trans; eauto.
Qed.

Lemma grid_lemma {V} (params : list (nat * list V)) : params <> [] ->
  exists l, grid params = Some l /\
    (forall g, In g l -> assignment params g) /\
    (forall g, Forall2 (fun p e => fst e = fst p /\ In (snd e) (snd p)) params g ->
       exists g', In g' l /\ Permutation g g') /\
    length l = fold_right Nat.mul 1%nat (map (fun p => length (snd p)) params) /\
    (Forall (fun p => NoDup (snd p)) params -> NoDup l).
Proof.
  intros NE. unfold grid. pose proof (sort_items_perm params) as P.
  destruct (sort_items params) as [|i0 items0] eqn:E.
  - apply Permutation_nil in P. congruence.
  - set (items := i0 :: items0) in *. clearbody items. clear E i0 items0.
    eexists; split; [reflexivity|]. split; [|split; [|split]].
    + intros g H. apply in_map_iff in H. destruct H as (v & <- & Hv). apply product_in in Hv.
      apply combine_in_assign in Hv. unfold assignment.
      destruct (Forall2_perm _ _ _ P _ Hv) as (g' & G1 & G2). exists g'; auto.
    + intros g F. destruct (Forall2_perm _ _ _ (Permutation_sym P) _ F) as (g' & G1 & G2).
      destruct (assign_combine _ _ G2) as [G3 G4]. exists g'; split; auto. rewrite G3. apply in_map_iff.
      exists (map snd g'); split; auto. apply product_in; auto.
    + rewrite map_length, product_length, map_map.
      clear -P. induction P as [|x l l' P IH|x y l|l l' l'' P1 IH1 P2 IH2]; simpl; auto; try congruence; lia.
    + intros ND. assert (ND' : Forall (fun p => NoDup (snd p)) items).
      { rewrite Forall_forall in *. intros x Hx. apply ND. eapply Permutation_in; eauto. }
      assert (NDP : NoDup (product (map snd items))).
      { apply product_nodup. rewrite Forall_map. exact ND'. }
      assert (LN : forall v, In v (product (map snd items)) -> length v = length items).
      { intros v Hv. apply product_in in Hv. apply Forall2_length in Hv. rewrite map_length in Hv. auto. }
      clear -NDP LN. induction NDP as [|v vs N NDP IH]; simpl; constructor.
      * intros H. apply in_map_iff in H. destruct H as (w & Hw & Iw). apply N.
        assert (v = w); [|congruence].
        assert (L1 := LN v (or_introl eq_refl)). assert (L2 := LN w (or_intror Iw)).
        clear -Hw L1 L2. revert v w Hw L1 L2. induction items as [|[k l] r IH]; intros [|a v] [|b w] Hw L1 L2; simpl in *; try discriminate; auto.
        injection Hw as -> Hw. f_equal. apply IH; auto.
      * apply IH. intros; apply LN; simpl; auto.
Qed.

(** ---- TwoPhase ---- *)
Lemma argmin_from_ok key : forall l i j v, argmin_from i key l = Some (j, v) ->
  (i <= j < i + length l)%nat /\ nth_error l (j - i) = Some v /\ forall w, In w l -> key v <= key w.
Proof.
  induction l as [|a l IH]; intros i j v H; simpl in H; [discriminate|].
  destruct (argmin_from (S i) key l) as [[j' w]|] eqn:E.
  - destruct (IH _ _ _ E) as (I1 & I2 & I3). destruct (Rleb (key a) (key w)) eqn:EL; injection H as <- <-;
      [apply Rleb_true in EL|apply Rleb_false in EL]; simpl.
    + rewrite Nat.sub_diag. repeat split; auto; try lia. intros u [<-|Hu]; [lra|]. specialize (I3 u Hu); lra.
    + replace (j' - i)%nat with (S (j' - S i)) by lia. repeat split; simpl; auto; try lia.
      intros u [<-|Hu]; [lra|auto].
  - injection H as <- <-. destruct l as [|b l]; [|simpl in E; destruct (argmin_from (S (S i)) key l) as [[? ?]|]; [destruct (Rleb _ _)|]; discriminate].
    rewrite Nat.sub_diag. simpl. repeat split; auto; try lia. intros u [<-|[]]; lra.
Qed.
Lemma argmin_from_total key : forall l i, l <> [] -> exists j v, argmin_from i key l = Some (j, v).
Proof.
  intros [|a l] i NE; [congruence|]. simpl. destruct (argmin_from (S i) key l) as [[j w]|]; [destruct (Rleb _ _)|]; eauto.
Qed.
Lemma sq_abs a b : a ^ 2 <= b ^ 2 -> Rabs a <= Rabs b.
Proof. intros H. apply Rsqr_le_abs_0. unfold Rsqr. simpl in H. lra. Qed.
Lemma nth_error_slice {A} (l : list A) lb n i : (lb <= i < lb + n)%nat ->
  nth_error (firstn n (skipn lb l)) (i - lb) = nth_error l i.
Proof.
  revert lb n i; induction l as [|a l IH]; intros lb n i H.
  - rewrite skipn_nil, firstn_nil. destruct (i - lb)%nat, i; auto.
  - destruct lb as [|lb]; simpl.
    + destruct n; [lia|]. rewrite Nat.sub_0_r. destruct i; auto. simpl. specialize (IH 0%nat n i).
      simpl in IH. rewrite Nat.sub_0_r in IH. apply IH; lia.
    + destruct i; [lia|]. simpl. apply IH; lia.
Qed.
Lemma window_lemma values x ll ul : values <> [] -> (1 <= ul)%nat ->
  exists w pre post v, window values x ll ul = Some w /\ values = pre ++ w ++ post /\
    In v w /\ nearest_value values x v.
Proof.
  intros NE U. unfold window. destruct (argmin_from_total (fun v => (v - x) ^ 2) values 0%nat NE) as (j & v & E). rewrite E.
  apply argmin_from_ok in E. destruct E as (I1 & I2 & I3). rewrite Nat.sub_0_r in I2. cbv zeta.
  set (lb := (j - ll)%nat). set (ub := Nat.min (length values) (j + ul)).
  exists (firstn (ub - lb) (skipn lb values)), (firstn lb values), (skipn (ub - lb) (skipn lb values)), v.
  split; auto. split; [rewrite firstn_skipn, firstn_skipn; auto|]. split.
  - apply (nth_error_In _ (j - lb)). rewrite nth_error_slice; auto. unfold lb, ub in *. lia.
  - split; [eapply nth_error_In; eauto|]. intros w Hw. apply sq_abs. auto.
Qed.
Lemma window_size values x ll ul w : window values x ll ul = Some w ->
  (length w <= ll + ul)%nat.
Proof.
  unfold window. destruct (argmin_from 0 _ values) as [[j v]|]; [|discriminate]. intros H; injection H as <-.
  rewrite firstn_length. lia.
Qed.
Lemma window_refuted : exists values x ll, values <> [] /\ window values x ll 0 = Some [].
Proof. exists [5], 5, 0%nat. split; [discriminate|]. reflexivity. Qed.

(** phase two looks around the last iterate of phase one, not around the best one *)
Definition tpP : oprob := mkOp (fun x => Rabs (nth 0 x 0 - 1)) [] (1/10000) [(0, 100)].
Lemma two_phase_last_refuted : exists P act maxiter x0 bf bx states values w,
  osolve P act (fun _ => false) maxiter None None x0 = Some (bf, bx, states) /\ ok_at P bx /\
  window values (nth 0 (last states x0) 0) 1 3 = Some w /\
  forall v, nearest_value values (nth 0 bx 0) v -> ~ In v w.
Proof.
  assert (C1 : np_clip 0 100 (5 + -4) = 1) by (unfold np_clip; rmx; lra).
  assert (C2 : np_clip 0 100 (1 + 50) = 51) by (unfold np_clip; rmx; lra).
  exists tpP, (fun k => match k with O => [-4] | _ => [50] end), 2%nat, [5], (Some (Rabs (1 - 1))), [1], [[1]; [51]], [1; 20; 51; 60], [20; 51; 60].
  split; [|split; [constructor|split]].
  - unfold osolve. cbn [oloop tpP op_bounds ostep vadd clip_all o_X]. rewrite C1.
    change (op_feasible tpP [1]) with true. fold tpP. change (op_f tpP [1]) with (Rabs (1 - 1)). change (op_f tpP [5]) with (Rabs (5 - 1)).
    cbv zeta. cbn [andb lt_inf o_bestf o_bestx o_states app].
    replace (stop_x [5] [1]) with false.
    2:{ symmetry. apply Rltb_false. unfold vnorm, vsub, XS_TOL. cbn [map]. rewrite !Rsum_cons. unfold Rsum; cbn [fold_right].
        replace ((1 - 5) ^ 2 + 0) with (4 ^ 2) by ring. replace (5 ^ 2 + 0) with (5 ^ 2) by ring. rewrite !sqrt_pow2 by lra. lra. }
    replace (stop_f (Rabs (5 - 1)) (Rabs (1 - 1))) with false.
    2:{ symmetry. apply Rleb_false. unfold ABS_F_TOL, REL_F_TOL. rmx; lra. }
    cbn [orb]. cbn [oloop o_X vadd clip_all op_bounds tpP ostep]. rewrite C2. fold tpP.
    change (op_feasible tpP [51]) with true. change (op_f tpP [51]) with (Rabs (51 - 1)). change (op_f tpP [1]) with (Rabs (1 - 1)).
    cbv zeta. cbn [lt_inf o_bestf o_bestx o_states app].
    rewrite (proj2 (Rltb_false (Rabs (51 - 1)) (Rabs (1 - 1)))) by (rmx; lra). cbn [andb].
    destruct (orb _ _); reflexivity.
  - unfold window. cbn [last nth argmin_from].
    rewrite (proj2 (Rleb_true ((51 - 51) ^ 2) ((60 - 51) ^ 2))) by lra.
    rewrite (proj2 (Rleb_false ((20 - 51) ^ 2) ((51 - 51) ^ 2))) by lra.
    rewrite (proj2 (Rleb_false ((1 - 51) ^ 2) ((51 - 51) ^ 2))) by lra. reflexivity.
  - simpl. intros v [H1 H2] I. specialize (H2 1 (or_introl eq_refl)).
    destruct I as [<-|[<-|[<-|[]]]]; rmx; lra.
Qed.

(** ---- neighbourhood ---- *)
Lemma ins_by_perm key v l : Permutation (ins_by key v l) (v :: l).
Proof. induction l as [|a l IH]; simpl; auto. destruct (Rleb (key v) (key a)); auto. rewrite IH. apply perm_swap. Qed.
Lemma sort_by_perm key l : Permutation (sort_by key l) l.
Proof. unfold sort_by. induction l as [|a l IH]; simpl; auto. rewrite ins_by_perm. auto. Qed.
Inductive sorted (key : R -> R) : list R -> Prop :=
| sorted_nil : sorted key []
| sorted_cons v l : sorted key l -> (forall w, In w l -> key v <= key w) -> sorted key (v :: l).
Lemma ins_by_sorted key v l : sorted key l -> sorted key (ins_by key v l).
Proof.
  intros S; induction S as [|a l S IH H]; simpl; [apply sorted_cons; [apply sorted_nil|intros w []]|].
  destruct (Rleb (key v) (key a)) eqn:E; [apply Rleb_true in E|apply Rleb_false in E].
  - constructor; [constructor; auto|]. intros w [<-|Hw]; auto. specialize (H w Hw). lra.
  - constructor; auto. intros w Hw. apply (Permutation_in _ (ins_by_perm key v l)) in Hw. destruct Hw as [<-|Hw]; auto. lra.
Qed.
Lemma sort_by_sorted key l : sorted key (sort_by key l).
Proof. unfold sort_by. induction l; simpl; [constructor|apply ins_by_sorted; auto]. Qed.
Lemma sorted_app key l1 l2 : sorted key (l1 ++ l2) -> forall v w, In v l1 -> In w l2 -> key v <= key w.
Proof.
  induction l1 as [|a l1 IH]; intros S v w Hv Hw; [destruct Hv|]. inversion S as [|? ? S1 H]; subst.
  destruct Hv as [<-|Hv]; [apply H; apply in_or_app; auto|auto].
Qed.
Lemma nearest_k_ok k x vals : k_nearest k x vals (nearest_k k x vals).
Proof.
  unfold k_nearest, nearest_k. set (s := sort_by _ vals). exists (skipn k s). split; [|split].
  - rewrite firstn_skipn. apply Permutation_sym, sort_by_perm.
  - rewrite firstn_length. unfold s. rewrite (Permutation_length (sort_by_perm _ vals)). auto.
  - apply (sorted_app (fun v => Rabs (v - x))). rewrite firstn_skipn. apply sort_by_sorted.
Qed.
Lemma nbhd_lists_ok k : forall vs x l, length x = length vs -> nbhd_lists k vs x = Some l ->
  Forall2 (fun vx sel => k_nearest k (snd vx) (fst vx) sel) (listed vs x) l.
Proof.
  induction vs as [|v vs IH]; intros [|xi x] l L H; simpl in *; try discriminate; [injection H as <-; constructor|].
  destruct v as [vals|lb ub|]; simpl.
  - destruct (nbhd_lists k vs x) as [l'|] eqn:E; [|discriminate]. injection H as <-. constructor; [simpl; apply nearest_k_ok|auto].
  - destruct (nbhd_lists k vs x) as [l'|] eqn:E; [|discriminate]. injection H as <-. constructor; [simpl; apply nearest_k_ok|auto].
  - auto.
Qed.
Lemma nbhd_lists_total k : forall vs x, length x = length vs -> exists l, nbhd_lists k vs x = Some l.
Proof.
  induction vs as [|v vs IH]; intros [|xi x] L; simpl in *; try discriminate; eauto.
  destruct (IH x) as [l E]; [lia|]. destruct v; rewrite ?E; eauto.
Qed.
Lemma neighborhood_lemma k vs x : length x = length vs ->
  exists N L, neighborhood k vs x = Some N /\
    Forall2 (fun vx sel => k_nearest k (snd vx) (fst vx) sel) (listed vs x) L /\
    (forall p, In p N <-> Forall2 (fun sel a => In a sel) L p).
Proof.
  intros H. destruct (nbhd_lists_total k vs x H) as [l E]. unfold neighborhood. rewrite E.
  exists (product l), l. split; auto. split; [apply nbhd_lists_ok; auto|]. intros p; apply product_in.
Qed.
(** with k >= 1 and non-empty value lists a nearest admissible point is included *)
Lemma k_nearest_first k x vals sel : (1 <= k)%nat -> vals <> [] -> k_nearest k x vals sel ->
  exists v, In v sel /\ nearest_value vals x v.
Proof.
  intros K NE (rest & P & L & N).
  assert (SN : sel <> []).
  { intros ->. simpl in L. destruct vals; [congruence|]. simpl in L. lia. }
  assert (exists v, In v sel /\ forall w, In w sel -> Rabs (v - x) <= Rabs (w - x)) as (v & V1 & V2).
  { clear -SN. induction sel as [|a l IH]; [congruence|]. destruct l as [|b l].
    - exists a; split; simpl; auto. intros w [<-|[]]; lra.
    - destruct IH as (v & V1 & V2); [discriminate|]. destruct (Rle_dec (Rabs (a - x)) (Rabs (v - x))).
      + exists a; split; [simpl; auto|]. intros w [<-|Hw]; [lra|]. specialize (V2 w Hw). lra.
      + exists v; split; [simpl; auto|]. intros w [<-|Hw]; [lra|]. auto. }
  exists v; split; auto. split.
  - apply (Permutation_in v (Permutation_sym P)). apply in_or_app; auto.
  - intros w Hw. apply (Permutation_in w P) in Hw. apply in_app_or in Hw. destruct Hw; auto.
Qed.
Lemma neighborhood_nearest_lemma k vs x N : (1 <= k)%nat -> length x = length vs ->
  Forall (fun vx => fst vx <> []) (listed vs x) -> neighborhood k vs x = Some N ->
  exists p, In p N /\ Forall2 (fun vx a => nearest_value (fst vx) (snd vx) a) (listed vs x) p.
Proof.
  intros K L NE H. destruct (neighborhood_lemma k vs x L) as (N' & Ls & E & F & I). rewrite H in E; injection E as <-.
  assert (exists p, Forall2 (fun sel a => In a sel) Ls p /\ Forall2 (fun vx a => nearest_value (fst vx) (snd vx) a) (listed vs x) p) as (p & P1 & P2).
  { clear -K NE F. induction F as [|vx sel l1 l2 H F IH]; [exists []; split; constructor|].
    inversion NE; subst. destruct IH as (p & P1 & P2); auto.
    destruct (k_nearest_first k (snd vx) (fst vx) sel K) as (v & V1 & V2); auto. exists (v :: p); split; constructor; auto. }
  exists p; split; auto. apply I; auto.
Qed.
Lemma neighborhood_cont_refuted : exists k vs x N, length x = length vs /\ neighborhood k vs x = Some N /\
  Forall (fun p => length p <> length vs) N /\ N <> [].
Proof.
  exists 1%nat, [NCont; NDisc [7]], [3; 6], [[7]]. repeat split; auto; [|discriminate]. repeat constructor; simpl; lia.
Qed.

(** ---- SLP rows ---- *)
Lemma slp_gt_refuted : exists (a : list R) (b : R) (x : list R),
  slp_row_ok x 0 (a, b) /\ ~ holds (CGt, dot a x - b).
Proof. exists [1], 5, [2]. unfold slp_row_ok; simpl. split; lra. Qed.
