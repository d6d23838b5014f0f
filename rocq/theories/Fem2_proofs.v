From Verif Require Import Fem_spec Fem_proofs.

Lemma sumn_front n f : sumn (S n) f = f O + sumn n (fun i => f (S i)).
Proof. induction n; simpl; [lra|]. simpl in IHn. rewrite IHn. lra. Qed.

Lemma find_last_some : forall ve a i b, find_last ve a i = Some b ->
  (a <= b)%nat /\ nth_error ve (b - a) = Some (Z.of_nat i).
Proof.
  induction ve as [|d r IH]; intros a i b H; simpl in *; [discriminate|].
  destruct (find_last r (S a) i) as [c|] eqn:E.
  - injection H as <-. destruct (IH _ _ _ E) as [A B]. split; [lia|].
    replace (c - a)%nat with (S (c - S a)) by lia. exact B.
  - destruct (Z.eqb_spec d (Z.of_nat i)); [|discriminate]. injection H as <-. subst. split; [lia|]. rewrite Nat.sub_diag. reflexivity.
Qed.
Lemma find_last_none : forall ve a i, find_last ve a i = None -> ~ In (Z.of_nat i) ve.
Proof.
  induction ve as [|d r IH]; intros a i H; simpl in *; auto.
  destruct (find_last r (S a) i) as [c|] eqn:E; [discriminate|]. destruct (Z.eqb_spec d (Z.of_nat i)); [discriminate|].
  intros [C|C]; [auto|]. exact (IH _ _ E C).
Qed.
Lemma find_last_in : forall ve a i, In (Z.of_nat i) ve -> exists b, find_last ve a i = Some b.
Proof. intros ve a i H. destruct (find_last ve a i) eqn:E; [eauto|]. exfalso; exact (find_last_none _ _ _ E H). Qed.

(** assembled entries as sums *)
Definition contrib (ve : list Z) (ke : mat) (i j : nat) : R :=
  match find_last ve 0 i, find_last ve 0 j with Some a, Some b => ke a b | _, _ => 0 end.
Lemma scatter_contrib ve ke K i j : scatter ve ke K i j = K i j + contrib ve ke i j.
Proof. unfold scatter, contrib. destruct (find_last ve 0 i), (find_last ve 0 j); lra. Qed.
Lemma assemble_sum_gen ns : forall els K i j,
  fold_left (fun K e => scatter (global_dofs ns e) (el_k e) K) els K i j =
  K i j + Rsum (map (fun e => contrib (global_dofs ns e) (el_k e) i j) els).
Proof.
  induction els as [|e els IH]; intros K i j; cbn [fold_left map]; [unfold Rsum; simpl; lra|].
  rewrite IH, scatter_contrib, Rsum_cons. lra.
Qed.
Lemma assemble_sum ns els i j : assemble ns els i j = Rsum (map (fun e => contrib (global_dofs ns e) (el_k e) i j) els).
Proof. unfold assemble. rewrite assemble_sum_gen. unfold mzero. lra. Qed.

(** C35 *)
Lemma assemble_sym_lemma ns els : Forall (fun e => sym (el_k e)) els -> sym (assemble ns els).
Proof.
  intros F i j. rewrite !assemble_sum. induction F as [|e els H F IH]; cbn [map]; auto.
  rewrite !Rsum_cons, IH. f_equal. unfold contrib. destruct (find_last _ 0 i), (find_last _ 0 j); auto.
Qed.

(** C36 *)
Lemma used_perm els els' m k : Permutation els els' -> used els m k -> used els' m k.
Proof. intros P (e & I & H). exists e; split; auto. eapply Permutation_in; eauto. Qed.
Lemma Forall2_Forall2_eq (ns ns' : list node) : Forall2 (Forall2 eq) ns ns' -> ns = ns'.
Proof.
  intros F; induction F as [|a b l l' H F IH]; auto. f_equal; auto.
  clear -H. induction H; congruence.
Qed.
Lemma order_lemma els els' ns : Permutation els els' ->
  nodal_dofs els ns = nodal_dofs els' ns /\ forall ns' i j, assemble ns' els i j = assemble ns' els' i j.
Proof.
  intros P. split.
  - unfold nodal_dofs. f_equal. apply Forall2_Forall2_eq. apply Forall2_of_dofs; [rewrite !init_shape; auto|].
    intros m k a b A B. destruct (dof_at_shape (init_dofs els ns) ns m k a (init_shape els ns) A) as [v V].
    destruct (init_entry els ns m k v V) as (w & W1 & W2). destruct (init_entry els' ns m k v V) as (w' & X1 & X2).
    assert (w = a) by congruence. assert (w' = b) by congruence. subst.
    destruct W2 as [[U ->]|[U ->]], X2 as [[U' ->]|[U' ->]]; auto; exfalso.
    + apply U'. eapply used_perm; eauto.
    + apply U. eapply used_perm; [apply Permutation_sym|]; eauto.
  - intros ns' i j. rewrite !assemble_sum. apply Rsum_perm. apply Permutation_map; auto.
Qed.

(** C37: pulling a sum over all numbers back to the element *)
Lemma distinct_tail n d r : distinct_dofs n (d :: r) -> distinct_dofs n r.
Proof.
  intros [H1 H2]. split.
  - intros a b e A B E. assert (S a = S b) by (apply (H1 _ _ e); auto). lia.
  - intros a e A E. apply (H2 (S a)); auto.
Qed.
Lemma pull_back n u g : forall ve a0, distinct_dofs n ve ->
  sumn n (fun i => match find_last ve a0 i with Some a => u i * g a | None => 0 end) =
  sumn (length ve) (fun a => elem_u ve u a * g (a0 + a)%nat).
Proof.
  induction ve as [|d r IH]; intros a0 D; [simpl; apply sumn_0|].
  cbn [length]. rewrite sumn_front.
  rewrite (sumn_ext n _ (fun i => (match find_last r (S a0) i with Some a => u i * g a | None => 0 end)
                                 + (if (d =? Z.of_nat i)%Z then u i * g a0 else 0))).
  2:{ intros i Hi. simpl. destruct (find_last r (S a0) i) as [b|] eqn:E.
      - destruct (Z.eqb_spec d (Z.of_nat i)); [|lra]. exfalso. destruct (find_last_some _ _ _ _ E) as [A B].
        destruct D as [D1 D2]. assert (O = S (b - S a0))%nat by (apply (D1 _ _ d); simpl; auto; [congruence|lia]). lia.
      - destruct (d =? Z.of_nat i)%Z; lra. }
  rewrite sumn_plus, IH by (eapply distinct_tail; eauto). rewrite Rplus_comm. f_equal.
  - unfold elem_u; simpl. rewrite Nat.add_0_r. destruct (Z.leb_spec 0 d).
    + destruct D as [D1 D2]. specialize (D2 O d eq_refl H).
      rewrite (sumn_ext n _ (fun i => if (i =? Z.to_nat d)%nat then u i * g a0 else 0)).
      2:{ intros i Hi. destruct (Z.eqb_spec d (Z.of_nat i)), (Nat.eqb_spec i (Z.to_nat d)); auto; lia. }
      rewrite (sumn_delta n (Z.to_nat d) (fun i => u i * g a0)) by lia. reflexivity.
    + rewrite sumn_zero; [lra|]. intros i Hi. destruct (Z.eqb_spec d (Z.of_nat i)); auto; lia.
  - apply sumn_ext. intros a Ha. unfold elem_u; simpl. f_equal. f_equal. lia.
Qed.
Lemma quad_contrib n u ve ke : distinct_dofs n ve ->
  quad n (contrib ve ke) u = quad (length ve) ke (elem_u ve u).
Proof.
  intros D. unfold quad.
  rewrite (sumn_ext n _ (fun i => match find_last ve 0 i with
      Some a => u i * sumn (length ve) (fun b => elem_u ve u b * ke a (0 + b)%nat) | None => 0 end)).
  2:{ intros i Hi. unfold contrib. destruct (find_last ve 0 i) as [a|] eqn:E.
      - f_equal. rewrite <- (pull_back n u (ke a) ve 0 D). apply sumn_ext. intros j Hj. destruct (find_last ve 0 j); lra.
      - rewrite sumn_zero; [lra|]. intros j Hj. destruct (find_last ve 0 j); lra. }
  rewrite (pull_back n u (fun a => sumn (length ve) (fun b => elem_u ve u b * ke a (0 + b)%nat)) ve 0 D).
  apply sumn_ext. intros a Ha. f_equal. apply sumn_ext. intros; simpl; ring.
Qed.
Lemma quad_sum n u (fs : list mat) : quad n (fun i j => Rsum (map (fun f => f i j) fs)) u = Rsum (map (fun f => quad n f u) fs).
Proof.
  induction fs as [|f fs IH]; cbn [map].
  - unfold quad, Rsum; simpl. apply sumn_zero. intros i _. rewrite sumn_zero; [lra|]. intros; lra.
  - rewrite Rsum_cons, <- IH. unfold quad. rewrite <- sumn_plus. apply sumn_ext. intros i _.
    rewrite <- Rmult_plus_distr_l. f_equal. rewrite <- sumn_plus. apply sumn_ext. intros j _. rewrite Rsum_cons. ring.
Qed.
Lemma energy_gen ns els n u : Forall (fun e => distinct_dofs n (global_dofs ns e)) els ->
  quad n (assemble ns els) u = Rsum (map (fun e => quad (length (global_dofs ns e)) (el_k e) (elem_u (global_dofs ns e) u)) els).
Proof.
  intros F.
  replace (quad n (assemble ns els) u) with
    (quad n (fun i j => Rsum (map (fun f => f i j) (map (fun e => contrib (global_dofs ns e) (el_k e)) els))) u).
  2:{ unfold quad. apply sumn_ext. intros i _. f_equal. apply sumn_ext. intros j _. rewrite assemble_sum, map_map. reflexivity. }
  rewrite quad_sum, map_map. induction F as [|e els H F IH]; cbn [map]; auto.
  rewrite !Rsum_cons, IH. f_equal. apply quad_contrib; auto.
Qed.
Lemma proper_distinct els ns0 ns n e : nodal_dofs els ns0 = (ns, n) -> In e els -> proper ns0 e ->
  distinct_dofs (Z.to_nat n) (global_dofs ns e) /\ length (global_dofs ns e) = (2 * el_d e)%nat /\
  Forall (fun d => (0 <= d)%Z) (global_dofs ns e).
Proof.
  intros N I (NE & (nd1 & E1 & L1) & (nd2 & E2 & L2)).
  destruct (numbering_lemma els ns0 ns n N) as (SH & EN & INJ & ON).
  assert (G : forall m nd, nth_error ns0 m = Some nd -> (el_d e <= length nd)%nat ->
     exists nd', nth_error ns m = Some nd' /\ nth m ns [] = nd' /\ (el_d e <= length nd')%nat).
  { intros m nd E L. pose proof (map_nth_error (@length Z) _ _ E) as M. rewrite <- SH in M.
    destruct (nth_error ns m) as [nd'|] eqn:F.
    - rewrite (map_nth_error (@length Z) _ _ F) in M. injection M as M. exists nd'. split; auto. split; [apply nth_error_nth; auto|]. unfold node in *; lia.
    - apply nth_error_None in F. assert (nth_error (map (@length Z) ns) m = None) by (apply nth_error_None; rewrite map_length; auto). congruence. }
  destruct (G _ _ E1 L1) as (n1 & F1 & G1 & M1). destruct (G _ _ E2 L2) as (n2 & F2 & G2 & M2).
  assert (ENT : forall a d, nth_error (global_dofs ns e) a = Some d ->
     ((a < el_d e)%nat /\ dof_at ns (el_n1 e) a = Some d) \/ ((el_d e <= a < 2 * el_d e)%nat /\ dof_at ns (el_n2 e) (a - el_d e) = Some d)).
  { intros a d A. unfold global_dofs in A. unfold dof_at. rewrite G1, G2 in A. rewrite F1, F2.
    destruct (Nat.lt_ge_cases a (el_d e)) as [L|L].
    - left; split; auto. rewrite nth_error_app1 in A by (rewrite firstn_length; lia). rewrite <- (firstn_skipn (el_d e) n1).
      rewrite nth_error_app1 by (rewrite firstn_length; lia). auto.
    - right. rewrite nth_error_app2 in A by (rewrite firstn_length; lia). rewrite firstn_length, Nat.min_l in A by lia.
      assert (a - el_d e < el_d e)%nat.
      { assert (a - el_d e < length (firstn (el_d e) n2))%nat by (apply nth_error_Some; congruence). rewrite firstn_length in H. lia. }
      split; [lia|]. rewrite <- (firstn_skipn (el_d e) n2). rewrite nth_error_app1 by (rewrite firstn_length; lia). auto. }
  assert (LEN : length (global_dofs ns e) = (2 * el_d e)%nat).
  { unfold global_dofs. rewrite G1, G2, app_length, !firstn_length. lia. }
  assert (NN : forall a d, nth_error (global_dofs ns e) a = Some d -> (0 <= d < n)%Z).
  { intros a d A. destruct (ENT a d A) as [[B C]|[B C]].
    - destruct (dof_at_shape ns ns0 _ _ _ SH C) as [d0 D0]. destruct (EN _ _ _ D0) as (v & V1 & V2 & _).
      assert (v = d) by congruence. subst. apply V2. right. exists e; split; [auto|]. split; auto.
    - destruct (dof_at_shape ns ns0 _ _ _ SH C) as [d0 D0]. destruct (EN _ _ _ D0) as (v & V1 & V2 & _).
      assert (v = d) by congruence. subst. apply V2. right. exists e; split; [auto|]. split; auto. lia. }
  split; [split|split]; auto.
  - intros a b d A B D. destruct (ENT a d A) as [[A1 A2]|[A1 A2]], (ENT b d B) as [[B1 B2]|[B1 B2]];
      destruct (INJ _ _ _ _ _ A2 B2 D); try contradiction; try lia; congruence.
  - intros a d A D. specialize (NN a d A). lia.
  - apply Forall_forall. intros d Hd. apply In_nth_error in Hd. destruct Hd as [a A]. specialize (NN a d A). lia.
Qed.
Lemma energy_lemma els ns0 ns n : nodal_dofs els ns0 = (ns, n) -> Forall (proper ns0) els ->
  forall u, quad (Z.to_nat n) (assemble ns els) u =
    Rsum (map (fun e => quad (2 * el_d e) (el_k e) (elem_u (global_dofs ns e) u)) els).
Proof.
  intros N P u. rewrite energy_gen.
  - f_equal. apply map_ext_in. intros e I. rewrite Forall_forall in P. destruct (proper_distinct _ _ _ _ e N I (P e I)) as (_ & -> & _). reflexivity.
  - apply Forall_forall. intros e I. rewrite Forall_forall in P. exact (proj1 (proper_distinct _ _ _ _ e N I (P e I))).
Qed.
Lemma psd_lemma els ns0 ns n : nodal_dofs els ns0 = (ns, n) -> Forall (proper ns0) els ->
  Forall (fun e => psd (2 * el_d e) (el_k e)) els -> psd (Z.to_nat n) (assemble ns els).
Proof.
  intros N P F u. rewrite (energy_lemma _ _ _ _ N P). clear N P.
  induction F as [|e els H F IH]; cbn [map]; [unfold Rsum; simpl; lra|]. rewrite Rsum_cons. specialize (H (elem_u (global_dofs ns e) u)). lra.
Qed.

(** C47 *)
Definition contrib_v (l : nload) (sid : nat) (i : nat) : R :=
  if (l_sid l =? sid)%nat then match find_last (l_dofs l) 0 i with Some a => l_F l a | None => 0 end else 0.
Lemma load_vector_gen sid : forall loads p i,
  fold_left (fun p l => if (l_sid l =? sid)%nat then scatter_v (l_dofs l) (l_F l) p else p) loads p i =
  p i + Rsum (map (fun l => contrib_v l sid i) loads).
Proof.
  induction loads as [|l loads IH]; intros p i; cbn [fold_left map]; [unfold Rsum; simpl; lra|].
  rewrite IH, Rsum_cons. unfold contrib_v at 2, scatter_v. destruct (l_sid l =? sid)%nat; [|lra].
  destruct (find_last (l_dofs l) 0 i); lra.
Qed.
Lemma load_vector_sum loads sid i : load_vector loads sid i = Rsum (map (fun l => contrib_v l sid i) loads).
Proof. unfold load_vector. rewrite load_vector_gen. lra. Qed.
Lemma load_union_lemma l1 l2 sid i : load_vector (l1 ++ l2) sid i = load_vector l1 sid i + load_vector l2 sid i.
Proof. rewrite !load_vector_sum, map_app, Rsum_app. reflexivity. Qed.
Lemma load_order_lemma l1 l2 sid i : Permutation l1 l2 -> load_vector l1 sid i = load_vector l2 sid i.
Proof. intros P. rewrite !load_vector_sum. apply Rsum_perm, Permutation_map; auto. Qed.
Lemma point_scale_lemma sid nd v f c i : load_vector [point_load sid nd v (c * f)] sid i = c * load_vector [point_load sid nd v f] sid i.
Proof.
  rewrite !load_vector_sum. unfold Rsum; simpl. unfold contrib_v; simpl. rewrite Nat.eqb_refl. destruct (find_last nd 0 i); ring.
Qed.
Lemma point_value_lemma sid nd v f k i : NoDup nd -> nth_error nd k = Some (Z.of_nat i) -> 
  load_vector [point_load sid nd v f] sid i = f * nth k v 0.
Proof.
  intros N H. rewrite load_vector_sum. unfold Rsum; simpl. unfold contrib_v; simpl. rewrite Nat.eqb_refl.
  destruct (find_last_in nd 0 i) as [b E]; [eapply nth_error_In; eauto|]. rewrite E.
  destruct (find_last_some _ _ _ _ E) as [_ B]. rewrite Nat.sub_0_r in B.
  assert (b = k). { apply (proj1 (NoDup_nth_error nd) N); [apply nth_error_Some; congruence|congruence]. }
  subst. lra.
Qed.
Lemma other_case_lemma loads sid i : Forall (fun l => l_sid l <> sid) loads -> load_vector loads sid i = 0.
Proof.
  intros F. rewrite load_vector_sum. induction F as [|l loads H F IH]; cbn [map]; auto. rewrite Rsum_cons, IH.
  unfold contrib_v. destruct (Nat.eqb_spec (l_sid l) sid); [contradiction|lra].
Qed.

(** C38 *)
Lemma write_u_nth : forall nd d ui u k, length u = length nd ->
  nth k (write_u nd d ui u) 0 = match nth_error nd k with Some e => if (e =? Z.of_nat d)%Z then ui else nth k u 0 | None => 0 end.
Proof.
  induction nd as [|e nd IH]; intros d ui [|v u] [|k] L; simpl in *; try discriminate; auto.
Qed.
Lemma write_u_length : forall nd d ui u, length (write_u nd d ui u) = length u.
Proof. induction nd as [|e nd IH]; intros d ui [|v u]; simpl; auto. Qed.
Lemma write_fold nd x : forall g a u k, length u = length nd ->
  nth k (fst (fold_left (fun '(acc, a) d => (write_u nd d (x a) acc, S a)) g (u, a))) 0 =
  match nth_error nd k with
  | Some e => if (0 <=? e)%Z then match find_last (map Z.of_nat g) a (Z.to_nat e) with Some b => x b | None => nth k u 0 end else nth k u 0
  | None => 0 end.
Proof.
  induction g as [|d g IH]; intros a u k L; simpl.
  - destruct (nth_error nd k) eqn:E; [destruct (0 <=? z)%Z; auto|]. apply nth_overflow. apply nth_error_None in E. lia.
  - rewrite IH by (rewrite write_u_length; auto). destruct (nth_error nd k) eqn:E; auto.
    rewrite write_u_nth, E by auto. destruct (Z.leb_spec 0 z).
    + destruct (find_last (map Z.of_nat g) (S a) (Z.to_nat z)); auto.
      destruct (Z.eqb_spec z (Z.of_nat d)), (Z.eqb_spec (Z.of_nat d) (Z.of_nat (Z.to_nat z))); auto; lia.
    + destruct (Z.eqb_spec z (Z.of_nat d)); auto; lia.
Qed.
Lemma glob_in n rem i : In i (glob_dofs n rem) <-> (i < n)%nat /\ ~ In i rem.
Proof.
  unfold glob_dofs. rewrite filter_In, in_seq. split.
  - intros [A B]. split; [lia|]. intros C. apply negb_true_iff in B.
    assert (existsb (Nat.eqb i) rem = true); [|congruence]. apply existsb_exists. exists i; split; auto. apply Nat.eqb_refl.
  - intros [A B]. split; [lia|]. apply negb_true_iff. destruct (existsb (Nat.eqb i) rem) eqn:E; auto.
    apply existsb_exists in E. destruct E as (j & J1 & J2). apply Nat.eqb_eq in J2. subst. contradiction.
Qed.
Lemma glob_nodup n rem : NoDup (glob_dofs n rem).
Proof. apply NoDup_filter, seq_NoDup. Qed.
Lemma glob_distinct n rem : distinct_dofs n (map Z.of_nat (glob_dofs n rem)).
Proof.
  split.
  - intros a b d A B _. assert (N : NoDup (map Z.of_nat (glob_dofs n rem))).
    { apply FinFun.Injective_map_NoDup; [intros p q; lia|apply glob_nodup]. }
    apply (proj1 (NoDup_nth_error _) N); [apply nth_error_Some; congruence|congruence].
  - intros a d A _. apply nth_error_In in A. apply in_map_iff in A. destruct A as (i & <- & I). apply glob_in in I. lia.
Qed.
Lemma statics_lemma ns n els loads sups supp load solve us res :
  at_rest ns us ->
  let g := glob_dofs n (rem_dofs ns sups supp) in
  solves solve (length g) (reduce g (assemble ns els)) (reduce_v g (load_vector loads load)) ->
  linear_statics ns n els loads sups supp load solve us = res ->
  exists U : vec,
    (forall i, In i (rem_dofs ns sups supp) -> U i = 0) /\
    (forall i, (i < n)%nat -> ~ In i (rem_dofs ns sups supp) ->
       sumn n (fun j => assemble ns els i j * U j) = load_vector loads load i) /\
    length res = length ns /\
    (forall m k d, dof_at ns m k = Some d -> (d < Z.of_nat n)%Z ->
       nth k (nth m res []) 0 = if (0 <=? d)%Z then U (Z.to_nat d) else 0).
Proof.
  intros AR g SO <-. set (x := solve (length g) (reduce g (assemble ns els)) (reduce_v g (load_vector loads load))) in *.
  exists (fun i => match find_last (map Z.of_nat g) 0 i with Some a => x a | None => 0 end).
  split; [|split; [|split]].
  - intros i Hi. destruct (find_last (map Z.of_nat g) 0 i) as [a|] eqn:E; auto. exfalso.
    destruct (find_last_some _ _ _ _ E) as [_ B]. apply nth_error_In in B. apply in_map_iff in B.
    destruct B as (j & J1 & J2). assert (j = i) by lia. subst. apply glob_in in J2. tauto.
  - intros i Hi NI. assert (IG : In i g) by (apply glob_in; auto). apply In_nth with (d := O) in IG. destruct IG as (a & A1 & A2).
    specialize (SO a A1). fold x in SO. unfold reduce, reduce_v in SO. rewrite A2 in SO. rewrite <- SO.
    rewrite (sumn_ext n _ (fun j => match find_last (map Z.of_nat g) 0 j with Some b => assemble ns els i j * x b | None => 0 end)).
    2:{ intros j Hj. destruct (find_last (map Z.of_nat g) 0 j); lra. }
    rewrite (pull_back n (fun j => assemble ns els i j) x (map Z.of_nat g) 0) by apply glob_distinct.
    rewrite map_length. apply sumn_ext. intros b Hb. simpl. f_equal. unfold elem_u.
    rewrite (map_nth_error Z.of_nat _ g (nth_error_nth' g O Hb)). rewrite (proj2 (Z.leb_le 0 _)) by lia. rewrite Nat2Z.id. reflexivity.
  - unfold linear_statics. rewrite map_length, combine_length. unfold at_rest in AR. subst us. rewrite map_length. apply Nat.min_id.
  - intros m k d D DN. unfold dof_at in D. destruct (nth_error ns m) as [nd|] eqn:E; [|discriminate].
    unfold linear_statics. fold g. fold x.
    assert (C : nth_error (combine ns us) m = Some (nd, repeat 0 (length nd))).
    { unfold at_rest in AR. subst us. clear -E. revert m E; induction ns as [|a ns IH]; intros [|m] E; simpl in *; try discriminate; [congruence|auto]. }
    rewrite (nth_error_nth _ _ [] (map_nth_error (fun nu => write_all (fst nu) g x (snd nu)) _ _ C)). cbn [fst snd]. unfold write_all.
    rewrite write_fold by apply repeat_length. rewrite D.
    assert (R : nth k (repeat 0 (length nd)) 0 = 0) by apply nth_repeat. rewrite R. reflexivity.
Qed.
