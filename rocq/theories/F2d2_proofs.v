(** Proofs about the nodes and elements of frame members. *)
From Verif Require Import Base EC3_model Bool_tac Sections_proofs F2d_proofs.
From Verif Require Import F2d_model F2d_spec.
Require Import Reals List Bool Lra Lia Psatz Permutation PeanoNat.
Import ListNotations.
Local Open Scope R_scope.

Lemma insert_perm : forall key p l, Permutation (p :: l) (insert_by key p l).
Proof.
  induction l as [|q l IH]; cbn; auto. destruct (Rleb (key p) (key q)); auto.
  eapply perm_trans; [apply perm_swap|]. constructor. exact IH.
Qed.
Lemma sort_perm : forall key l, Permutation l (sort_by key l).
Proof. induction l as [|p l IH]; [constructor|]. unfold sort_by. cbn [fold_right]. eapply perm_trans; [constructor; exact IH|apply insert_perm]. Qed.
Lemma insert_outward : forall a p l, outward a l -> outward a (insert_by (pdist a) p l).
Proof.
  induction l as [|q l IH]; intros H; [cbn; auto|]. cbn [insert_by]. destruct (Rleb (pdist a p) (pdist a q)) eqn:C.
  - apply Rleb_true in C. split; auto.
  - apply Rleb_false in C. destruct H as [H1 H2]. specialize (IH H2). destruct l as [|r l].
    + cbn. split; [lra|auto].
    + cbn [insert_by] in IH |- *. destruct (Rleb (pdist a p) (pdist a r)) eqn:C2; (split; [lra || exact H1|exact IH]).
Qed.
Lemma sort_outward : forall a l, outward a (sort_by (pdist a) l).
Proof. induction l as [|p l IH]; [exact I|]. apply insert_outward. exact IH. Qed.
Lemma outward_all : forall a p l, outward a (p :: l) -> forall q, In q l -> pdist a p <= pdist a q.
Proof.
  intros a p l. revert p. induction l as [|r l IH]; intros p H q; [intros []|]. destruct H as [H1 H2]. intros [<- | Hq]; [exact H1|].
  eapply Rle_trans; [exact H1|]. apply IH; auto.
Qed.
Lemma outward_last : forall a l d q, outward a l -> In q l -> pdist a q <= pdist a (List.last l d).
Proof.
  intros a l d. induction l as [|p l IH]; intros q H; [intros []|]. destruct l as [|r l].
  - intros [<- | []]. cbn. lra.
  - change (List.last (p :: r :: l) d) with (List.last (r :: l) d). intros [<- | Hq].
    + destruct H as [H1 H2]. eapply Rle_trans; [exact H1|]. apply IH; auto. left; auto.
    + destruct H as [H1 H2]. apply IH; auto.
Qed.
Lemma last_in : forall {A} (l : list A) d, l <> [] -> In (List.last l d) l.
Proof. intros A l d. induction l as [|x l IH]; [congruence|]. intros _. destruct l as [|y l]; [left; auto|right; apply IH; discriminate]. Qed.
(** Points of a segment ordered by distance: the steps add up. *)
Lemma path_sum : forall a b l d, a <> b -> Forall (on_segment a b) l -> outward a l -> forall p l', l = p :: l' ->
  path_length l = pdist a (List.last l d) - pdist a p.
Proof.
  intros a b l d Hab. induction l as [|x l IH]; intros F O p l' E; [discriminate|]. inversion E; subst x l'. clear E.
  destruct l as [|q l]; [cbn; lra|]. change (path_length (p :: q :: l)) with (pdist p q + path_length (q :: l)).
  change (List.last (p :: q :: l) d) with (List.last (q :: l) d). inversion F as [|? ? F1 F2]; subst. destruct O as [O1 O2].
  rewrite (IH F2 O2 q l eq_refl). inversion F2 as [|? ? F3 _]; subst. destruct F1 as [s [Hs Ps]]. destruct F3 as [t [Ht Pt]].
  rewrite (pdist_params a b s t p q Ps Pt). rewrite (pdist_param a b s p Ps), (pdist_param a b t q Pt) in *.
  assert (D : 0 < pdist a b).
  { destruct (Rle_lt_or_eq_dec 0 (pdist a b) (pdist_nn a b)) as [G|G]; auto. exfalso. apply Hab. pose proof (pdist_sq a b) as Q. rewrite <- G in Q.
    pose proof (pow2_ge_0 (fst b - fst a)). pose proof (pow2_ge_0 (snd b - snd a)). apply pt_eq; nra. }
  rewrite (Rabs_pos_eq s), (Rabs_pos_eq t) in * by lra. assert (s <= t) by nra. rewrite Rabs_pos_eq by lra. lra.
Qed.
Lemma loc_0 : forall n, (0 < n)%nat -> loc n 0 = 0.
Proof. intros n H. unfold loc. cbn [INR]. replace (0 / INR n) with 0 by (field; apply not_0_INR; lia). rewrite (roundn_of 3 0 0) by (replace (0 * 10 ^ 3 - 0) with 0 by ring; rewrite Rabs_R0; lra). field. Qed.
Lemma loc_n : forall n, (0 < n)%nat -> loc n n = 1.
Proof. intros n H. unfold loc. replace (INR n / INR n) with 1 by (field; apply not_0_INR; lia). rewrite (roundn_of 3 1 1000) by (replace (1 * 10 ^ 3 - 1000) with 0 by ring; rewrite Rabs_R0; lra). field. Qed.
Lemma loc_err : forall n k, Rabs (loc n k - INR k / INR n) <= 1/2000.
Proof. intros. eapply Rle_trans; [apply roundn_err|]. lra. Qed.
Lemma roundZ_mono : forall x y, x <= y -> (roundZ x <= roundZ y)%Z.
Proof.
  intros x y H. pose proof (roundZ_err x) as E1. pose proof (roundZ_err y) as E2.
  destruct (Z_le_gt_dec (roundZ x) (roundZ y)) as [G|G]; auto. exfalso.
  assert (K : (roundZ y + 1 <= roundZ x)%Z) by lia. apply IZR_le in K. rewrite plus_IZR in K.
  unfold Rabs in E1, E2. destruct (Rcase_abs _) in E1; destruct (Rcase_abs _) in E2; try lra.
  assert (x = y) by lra. subst. lia.
Qed.
Lemma loc_bounds : forall n k, (0 < n)%nat -> (k <= n)%nat -> 0 <= loc n k <= 1.
Proof.
  intros n k Hn Hk. assert (P : 0 < INR n) by (apply lt_0_INR; lia). assert (Q : 0 <= INR k / INR n <= 1).
  { pose proof (pos_INR k). apply le_INR in Hk. split; [apply Rmult_le_pos; [auto|left; apply Rinv_0_lt_compat; auto]|]. apply (Rmult_le_reg_r (INR n)); auto. unfold Rdiv. rewrite Rmult_assoc, Rinv_l; lra. }
  assert (T : 0 < 10 ^ 3) by lra. unfold loc, roundn. split.
  - apply Rmult_le_pos; [|left; apply Rinv_0_lt_compat; auto]. apply IZR_le. replace 0%Z with (roundZ (IZR 0)) by apply roundZ_IZR. apply roundZ_mono. lra.
  - apply (Rmult_le_reg_r (10 ^ 3)); auto. unfold Rdiv. rewrite Rmult_assoc, Rinv_l by lra. rewrite Rmult_1_r, Rmult_1_l. replace (10 ^ 3) with (IZR 1000) by ring. apply IZR_le.
    replace 1000%Z with (roundZ (IZR 1000)) at 2 by apply roundZ_IZR. apply roundZ_mono. lra.
Qed.

Lemma f2d_nodes_lemma : forall m added n l, 0 < mlen m -> nodal_coordinates m added n = Some l ->
  Permutation l (added ++ map (fun k => to_global m (loc n k)) (seq 0 (n + 1))) /\ outward (m_a m) l /\
  (Forall (on_segment (m_a m) (m_b m)) added -> exists r, l = m_a m :: r /\ List.last l (m_a m) = m_b m /\ Forall (on_segment (m_a m) (m_b m)) l /\ path_length l = mlen m).
Proof.
  intros m added n l L E. unfold nodal_coordinates in E. destruct n as [|n0]; [discriminate|]. set (n := S n0) in *.
  assert (Pn : (0 < n)%nat) by (unfold n; lia). clearbody n. inversion E as [E']. clear E. set (raw := added ++ _) in *.
  assert (PL : Permutation l raw) by (rewrite <- E'; apply Permutation_sym, sort_perm).
  assert (OL : outward (m_a m) l) by (rewrite <- E'; apply sort_outward). rewrite E'. clear E'.
  split; [exact PL|split; [exact OL|]]. intros F.
  assert (Hab : m_a m <> m_b m). { intros H. unfold mlen in L. rewrite H in L. unfold pdist in L. replace ((fst (m_b m) - fst (m_b m)) ^ 2 + (snd (m_b m) - snd (m_b m)) ^ 2) with 0 in L by ring. rewrite sqrt_0 in L. lra. }
  destruct (member_frame_lemma m L) as (G0 & G1 & _).
  assert (FR : Forall (on_segment (m_a m) (m_b m)) raw).
  { apply Forall_app. split; auto. apply Forall_forall. intros p Hp. apply in_map_iff in Hp. destruct Hp as (k & <- & Hk). apply in_seq in Hk.
    exists (loc n k). split; [apply loc_bounds; lia|apply to_global_param; auto]. }
  assert (FL : Forall (on_segment (m_a m) (m_b m)) l) by (eapply Permutation_Forall; [apply Permutation_sym; exact PL|exact FR]).
  assert (Ia : In (m_a m) l).
  { apply (Permutation_in _ (Permutation_sym PL)). apply in_or_app. right. apply in_map_iff. exists 0%nat. split; [rewrite loc_0 by auto; exact G0|apply in_seq; lia]. }
  assert (Ib : In (m_b m) l).
  { apply (Permutation_in _ (Permutation_sym PL)). apply in_or_app. right. apply in_map_iff. exists n. split; [rewrite loc_n by auto; exact G1|apply in_seq; lia]. }
  destruct l as [|p r]; [destruct Ia|].
  assert (Z : forall q, pdist (m_a m) q = 0 -> q = m_a m).
  { intros q H. pose proof (pdist_sq (m_a m) q) as Q. rewrite H in Q. pose proof (pow2_ge_0 (fst q - fst (m_a m))). pose proof (pow2_ge_0 (snd q - snd (m_a m))). apply pt_eq; nra. }
  assert (D0 : pdist (m_a m) (m_a m) = 0) by (unfold pdist; replace ((fst (m_a m) - fst (m_a m)) ^ 2 + (snd (m_a m) - snd (m_a m)) ^ 2) with 0 by ring; apply sqrt_0).
  assert (EP : p = m_a m).
  { apply Z. apply Rle_antisym; [|apply pdist_nn]. destruct Ia as [-> | Ia]; [lra|]. rewrite <- D0. apply (outward_all _ _ _ OL); auto. }
  exists r. subst p. split; [reflexivity|].
  assert (ELast : List.last (m_a m :: r) (m_a m) = m_b m).
  { pose proof (outward_last (m_a m) (m_a m :: r) (m_a m) (m_b m) OL Ib) as H.
    assert (IL : In (List.last (m_a m :: r) (m_a m)) (m_a m :: r)) by (apply last_in; discriminate).
    rewrite Forall_forall in FL. destruct (FL _ IL) as [t [Ht Pt]]. rewrite (pdist_param _ _ _ _ Pt) in H. fold (mlen m) in H. rewrite Rabs_pos_eq in H by lra.
    assert (t = 1) by nra. subst t. destruct Pt as [P1 P2]. apply pt_eq; lra. }
  split; [exact ELast|]. split; [exact FL|]. rewrite (path_sum (m_a m) (m_b m) _ (m_a m) Hab FL OL (m_a m) r eq_refl). rewrite ELast, D0. unfold mlen. lra.
Qed.
Lemma spacing_lemma : (forall n k, Rabs (loc n k - INR k / INR n) <= 1/2000) /\
  (forall n k, (0 < n)%nat -> (exists j : nat, 1000 = j * n)%nat -> loc n k = INR k / INR n).
Proof.
  split; [exact loc_err|]. intros n k Hn [j Hj]. assert (P : 0 < INR n) by (apply lt_0_INR; lia). unfold loc.
  assert (E : INR k / INR n * 10 ^ 3 = IZR (Z.of_nat (k * j))).
  { rewrite <- INR_IZR_INZ. rewrite mult_INR. replace (10 ^ 3) with (INR 1000) by (rewrite INR_IZR_INZ; change (Z.of_nat 1000) with 1000%Z; lra). rewrite Hj, mult_INR. field. lra. }
  rewrite (roundn_of 3 _ (Z.of_nat (k * j))) by (rewrite E, Rminus_diag_eq, Rabs_R0 by reflexivity; lra). rewrite <- E. field. lra.
Qed.
Lemma unequal_lemma : loc 6 1 - loc 6 0 <> loc 6 2 - loc 6 1.
Proof.
  rewrite loc_0 by lia. unfold loc. replace (INR 6) with 6 by (cbn [INR]; lra). replace (INR 1) with 1 by reflexivity. replace (INR 2) with 2 by (cbn [INR]; lra). rewrite (roundn_of 3 (1/6) 167) by (rewrite Rabs_left; lra). rewrite (roundn_of 3 (2/6) 333) by (rewrite Rabs_pos_eq; lra). lra.
Qed.

(** ---- finite element nodes. *)
Lemma find_pt_some : forall c l i, find_pt c l = Some i -> nth_error l i = Some c.
Proof.
  induction l as [|q l IH]; intros i H; [discriminate|]. cbn in H. destruct (peqb c q) eqn:E.
  - inversion H; subst. apply peqb_iff in E. subst. reflexivity.
  - destruct (find_pt c l) as [j|]; [|discriminate]. inversion H; subst. cbn. apply IH. reflexivity.
Qed.
Lemma find_pt_none : forall c l, find_pt c l = None <-> ~ In c l.
Proof.
  induction l as [|q l IH]; cbn; [tauto|]. destruct (peqb c q) eqn:E.
  - apply peqb_iff in E. subst. split; [discriminate|tauto].
  - destruct (find_pt c l); cbn; split; intros H; try discriminate.
    + exfalso. apply H. right. destruct IH as [_ IH]. destruct (in_dec (fun a b => match bool_dec (peqb a b) true with left p => left (proj1 (peqb_iff a b) p) | right p => right (fun e => p (proj2 (peqb_iff a b) e)) end) c l) as [K|K]; auto. specialize (IH K). discriminate.
    + intros [-> | K]; [rewrite (proj2 (peqb_iff c c) eq_refl) in E; discriminate|]. apply (proj1 IH); auto.
    + reflexivity.
Qed.
Lemma add_fe_node_spec : forall fe c fe' i, NoDup fe -> add_fe_node fe c = (fe', i) ->
  NoDup fe' /\ (exists t, fe' = fe ++ t) /\ nth_error fe' i = Some c /\ (forall q, In q fe' <-> In q fe \/ q = c).
Proof.
  intros fe c fe' i N E. unfold add_fe_node in E. destruct (find_pt c fe) as [j|] eqn:F; inversion E; subst.
  - split; auto. split; [exists []; rewrite app_nil_r; auto|]. split; [apply find_pt_some; auto|]. intros q. split; [auto|]. intros [H|H]; auto. subst. eapply nth_error_In. apply find_pt_some. exact F.
  - apply find_pt_none in F. split; [|split; [eexists; reflexivity|split]].
    + apply (Permutation_NoDup (l := c :: fe)); [apply Permutation_cons_append|constructor; auto].
    + rewrite nth_error_app2 by lia. rewrite Nat.sub_diag. reflexivity.
    + intros q. rewrite in_app_iff. cbn. intuition.
Qed.
Lemma add_nodes_spec : forall cs fe fe' is, NoDup fe -> add_nodes fe cs = (fe', is) ->
  NoDup fe' /\ (exists t, fe' = fe ++ t) /\ Forall2 (fun c i => nth_error fe' i = Some c) cs is /\ (forall q, In q fe' <-> In q fe \/ In q cs).
Proof.
  induction cs as [|c cs IH]; intros fe fe' is N E; cbn in E.
  - inversion E; subst. split; auto. split; [exists []; rewrite app_nil_r; auto|]. split; [constructor|]. intros q; cbn; tauto.
  - destruct (add_fe_node fe c) as [fe1 i] eqn:A. destruct (add_nodes fe1 cs) as [fe2 is2] eqn:B. inversion E; subst fe' is.
    destruct (add_fe_node_spec fe c fe1 i N A) as (N1 & [t1 T1] & G1 & M1). destruct (IH fe1 fe2 is2 N1 B) as (N2 & [t2 T2] & G2 & M2).
    split; auto. split; [exists (t1 ++ t2); rewrite T2, T1, app_assoc; auto|]. split.
    + constructor; auto. rewrite T2. rewrite nth_error_app1; auto. apply nth_error_Some. rewrite G1. discriminate.
    + intros q. rewrite M2, M1. cbn. intuition.
Qed.
Lemma gen_nodes_spec : forall ms fe fe' iss, NoDup fe -> gen_nodes fe ms = (fe', iss) ->
  NoDup fe' /\ (exists t, fe' = fe ++ t) /\ Forall2 (Forall2 (fun c i => nth_error fe' i = Some c)) ms iss /\
  (forall q, In q fe' <-> In q fe \/ exists cs, In cs ms /\ In q cs).
Proof.
  induction ms as [|cs ms IH]; intros fe fe' iss N E; cbn in E.
  - inversion E; subst. split; auto. split; [exists []; rewrite app_nil_r; auto|]. split; [constructor|]. intros q. split; [auto|]. intros [H|(x & [] & _)]; auto.
  - destruct (add_nodes fe cs) as [fe1 is] eqn:A. destruct (gen_nodes fe1 ms) as [fe2 iss2] eqn:B. inversion E; subst fe' iss.
    destruct (add_nodes_spec cs fe fe1 is N A) as (N1 & [t1 T1] & G1 & M1). destruct (IH fe1 fe2 iss2 N1 B) as (N2 & [t2 T2] & G2 & M2).
    split; auto. split; [exists (t1 ++ t2); rewrite T2, T1, app_assoc; auto|]. split.
    + constructor; auto. clear - G1 T2. induction G1; constructor; auto. rewrite T2, nth_error_app1; auto. apply nth_error_Some. rewrite H. discriminate.
    + intros q. rewrite M2, M1. split.
      * intros [[H|H]|(x & X1 & X2)]; auto; right; [exists cs|exists x]; cbn; auto.
      * intros [H|(x & [-> | X1] & X2)]; auto. right. exists x; auto.
Qed.
(** Two coordinates of any two members have the same node exactly when they are equal. *)
Lemma shared_nodes_lemma : forall ms fe iss, gen_nodes [] ms = (fe, iss) ->
  NoDup fe /\ (forall q, In q fe <-> exists cs, In cs ms /\ In q cs) /\ Forall2 (fun cs is => List.length cs = List.length is) ms iss /\
  forall a b i j c d u v, nth_error ms a = Some c -> nth_error iss a = Some u -> nth_error ms b = Some d -> nth_error iss b = Some v ->
    (i < List.length c)%nat -> (j < List.length d)%nat -> (nth_error u i = nth_error v j <-> nth_error c i = nth_error d j).
Proof.
  intros ms fe iss E. destruct (gen_nodes_spec ms [] fe iss (NoDup_nil _) E) as (N & _ & F & M). split; auto. split; [intros q; rewrite M; cbn; intuition|].
  assert (K : forall a c u, nth_error ms a = Some c -> nth_error iss a = Some u -> Forall2 (fun c i => nth_error fe i = Some c) c u).
  { clear - F. induction F as [|x y l l' H F IH]; intros a c u A B; [destruct a; discriminate|]. destruct a; cbn in A, B; [inversion A; inversion B; subst; auto|eapply IH; eauto]. }
  assert (LL : forall (c : list pt) (u : list nat), Forall2 (fun c i => nth_error fe i = Some c) c u -> List.length c = List.length u) by (intros c u H; induction H; cbn; auto).
  assert (KK : forall (c : list pt) (u : list nat) i, Forall2 (fun c i => nth_error fe i = Some c) c u -> (i < List.length c)%nat -> exists p k, nth_error c i = Some p /\ nth_error u i = Some k /\ nth_error fe k = Some p).
  { intros c u i H. revert i. induction H as [|x y l l' H0 H IH]; intros i Hi; [cbn in Hi; lia|]. destruct i; cbn; [exists x, y; auto|]. apply IH. cbn in Hi. lia. }
  split.
  - clear - F LL. induction F as [|x y l l' H F IH]; constructor; auto.
  - intros a b i j c d u v A1 A2 B1 B2 Hi Hj. destruct (KK c u i (K a c u A1 A2) Hi) as (p & k & P1 & P2 & P3). destruct (KK d v j (K b d v B1 B2) Hj) as (q & h & Q1 & Q2 & Q3).
    rewrite P1, P2, Q1, Q2. split; intros H; inversion H; subst.
    + rewrite P3 in Q3. auto.
    + f_equal. rewrite NoDup_nth_error in N. apply N; [apply nth_error_Some; rewrite P3; discriminate|]. rewrite P3, Q3. auto.
Qed.
Lemma end_nodes_lemma : forall ids, ids <> [] ->
  fst (end_nodes ids) = Some (List.hd 0%nat ids) /\ (List.last ids 0%nat <> 0%nat -> snd (end_nodes ids) = Some (List.last ids 0%nat)) /\
  (List.last ids 0%nat = 0%nat -> snd (end_nodes ids) = None).
Proof.
  intros ids H. unfold end_nodes. split; [destruct ids; [congruence|reflexivity]|]. split; intros E.
  - cbn. destruct (List.last ids 0%nat); [congruence|reflexivity].
  - cbn. rewrite E. reflexivity.
Qed.
(** The second member ends where the first one starts: it gets no end node. *)
Lemma closed_end_lemma : forall p q r, p <> q -> p <> r -> q <> r ->
  exists fe ia ib, gen_nodes [] [[p; q]; [r; p]] = (fe, [ia; ib]) /\ nth_error fe (List.last ib 0%nat) = Some p /\ snd (end_nodes ib) = None.
Proof.
  intros p q r H1 H2 H3. assert (E : forall x y, x <> y -> peqb x y = false) by (intros x y H; destruct (peqb x y) eqn:P; auto; apply peqb_iff in P; contradiction).
  assert (T : peqb p p = true) by (apply peqb_iff; auto).
  exists [p; q; r], [0%nat; 1%nat], [2%nat; 0%nat]. split; [|split; reflexivity].
  unfold gen_nodes, add_nodes, add_fe_node. cbn [find_pt app List.length]. rewrite (E q p) by auto. cbn [option_map find_pt app List.length].
  rewrite (E r p) by auto. rewrite (E r q) by auto. cbn [option_map app List.length find_pt]. rewrite T. reflexivity.
Qed.

(** ---- elements. *)
Lemma pairs_len : forall {A} (l : list A), List.length (pairs l) = (List.length l - 1)%nat.
Proof. intros A l. unfold pairs. rewrite combine_length. destruct l as [|x l]; [reflexivity|]. cbn [tl List.length]. lia. Qed.
Lemma pairs_nth : forall {A} (l : list A) i a b, nth_error (pairs l) i = Some (a, b) <-> nth_error l i = Some a /\ nth_error l (S i) = Some b.
Proof.
  intros A l. unfold pairs. induction l as [|x l IH]; intros i a b; [destruct i; cbn; (split; [discriminate|intros [? ?]; discriminate])|].
  destruct l as [|y l]; [cbn; destruct i; cbn; split; try discriminate; intros [H1 H2]; try discriminate; destruct i; discriminate|].
  destruct i; [cbn; split; [intros H; inversion H; auto|intros [H1 H2]; inversion H1; inversion H2; auto]|].
  change (nth_error (combine (y :: l) (tl (y :: l))) i = Some (a, b) <-> nth_error (y :: l) i = Some a /\ nth_error (y :: l) (S i) = Some b). apply IH.
Qed.
Lemma combine_seq_nth : forall {A} (l : list A) s i, nth_error (combine (seq s (List.length l)) l) i = option_map (fun x => ((s + i)%nat, x)) (nth_error l i).
Proof.
  induction l as [|x l IH]; intros s i; [destruct i; reflexivity|]. destruct i; cbn; [rewrite Nat.add_0_r; reflexivity|]. rewrite IH. replace (S s + i)%nat with (s + S i)%nat by lia. reflexivity.
Qed.
Lemma f2d_elements_lemma : forall t nodes s1 s2 es, t <> Bar -> gen_elements t nodes s1 s2 = Some es ->
  List.length es = (List.length nodes - 1)%nat /\
  forall i, (i < List.length es)%nat -> exists k a b, nth_error es i = Some (k, (a, b)) /\ nth_error nodes i = Some a /\ nth_error nodes (S i) = Some b /\
    match t, k with
    | Beam, Semi u v => (u = if Nat.eqb i 0 then s1 else Rigid) /\ (v = if Nat.eqb (S (S i)) (List.length nodes) then s2 else Rigid)
    | Beam, EB => (0 < i)%nat /\ (S (S i) < List.length nodes)%nat
    | _, EB => True
    | _, _ => False
    end.
Proof.
  intros t nodes s1 s2 es Ht E.
  assert (X : forall i, (i < List.length nodes - 1)%nat -> exists a b, nth_error (pairs nodes) i = Some (a, b) /\ nth_error nodes i = Some a /\ nth_error nodes (S i) = Some b).
  { intros i Hi. destruct (nth_error nodes i) as [a|] eqn:A; [|apply nth_error_None in A; lia]. destruct (nth_error nodes (S i)) as [b|] eqn:B; [|apply nth_error_None in B; lia].
    exists a, b. split; auto. apply pairs_nth; auto. }
  destruct t; try congruence; cbn [gen_elements] in E; inversion E as [E']; clear E.
  - rewrite map_length, pairs_len. split; auto. intros i Hi. destruct (X i Hi) as (a & b & P1 & P2 & P3). exists EB, a, b. split; [apply (map_nth_error (fun p => (EB, p)) _ _ P1)|auto].
  - rewrite map_length, combine_length, seq_length, pairs_len, Nat.min_id. split; auto. intros i Hi. destruct (X i Hi) as (a & b & P1 & P2 & P3).
    exists (beam_kind (List.length nodes) i s1 s2), a, b.
    assert (C : nth_error (combine (seq 0 (List.length nodes - 1)) (pairs nodes)) i = Some (i, (a, b))).
    { rewrite <- pairs_len. rewrite combine_seq_nth, P1. reflexivity. }
    split; [rewrite (map_nth_error (fun ip : nat * (nat * nat) => (beam_kind (List.length nodes) (fst ip) s1 s2, snd ip)) _ _ C); reflexivity|]. split; auto. split; auto. unfold beam_kind.
    destruct (Nat.eqb_spec (List.length nodes) 2) as [K|K].
    + rewrite K in *. destruct i; [cbn; auto|lia].
    + destruct (Nat.eqb_spec i 0) as [K0|K0]; [split; auto; destruct (Nat.eqb_spec (S (S i)) (List.length nodes)); auto; lia|].
      destruct (Nat.eqb_spec i (List.length nodes - 2)) as [K1|K1]; [split; auto; destruct (Nat.eqb_spec (S (S i)) (List.length nodes)); auto; lia|]. split; lia.
  - rewrite map_length, pairs_len. split; auto. intros i Hi. destruct (X i Hi) as (a & b & P1 & P2 & P3). exists EB, a, b. split; [apply (map_nth_error (fun p => (EB, p)) _ _ P1)|auto].
Qed.
(** A bar of more than two nodes is a rod between its first two nodes only. *)
Lemma bar_lemma : forall nodes s1 s2, NoDup nodes -> (2 < List.length nodes)%nat ->
  exists es, gen_elements Bar nodes s1 s2 = Some es /\ forall k a b, In (k, (a, b)) es -> a <> List.last nodes 0%nat /\ b <> List.last nodes 0%nat.
Proof.
  intros nodes s1 s2 N H. destruct nodes as [|x [|y [|z l]]]; cbn in H; try lia. exists [(RodE, (x, y))]. split; [reflexivity|].
  intros k a b [E|[]]. inversion E; subst. assert (IL : In (List.last (a :: b :: z :: l) 0%nat) (z :: l)) by (change (List.last (a :: b :: z :: l) 0%nat) with (List.last (z :: l) 0%nat); apply last_in; discriminate).
  inversion N as [|? ? N1 N2]; subst. inversion N2 as [|? ? N3 N4]; subst. split; intros Q; [apply N1; right|apply N3]; rewrite Q; exact IL.
Qed.
