From Verif Require Import Fem_spec.

(** ---------- numbering ---------- *)
Lemma number_node_length : forall nd z, length (fst (number_node nd z)) = length nd.
Proof.
  induction nd as [|d r IH]; intros z; simpl; auto. destruct (0 <=? d)%Z.
  - specialize (IH (z + 1)%Z). destruct (number_node r (z + 1)); simpl in *; auto.
  - specialize (IH z). destruct (number_node r z); simpl in *; auto.
Qed.
Lemma number_node_le : forall nd z, (z <= snd (number_node nd z))%Z.
Proof.
  induction nd as [|d r IH]; intros z; simpl; [lia|]. destruct (0 <=? d)%Z.
  - specialize (IH (z + 1)%Z). destruct (number_node r (z + 1)); simpl in *; lia.
  - specialize (IH z). destruct (number_node r z); simpl in *; lia.
Qed.
Lemma number_node_entry : forall nd z k d, nth_error nd k = Some d ->
  exists v, nth_error (fst (number_node nd z)) k = Some v /\
  (((0 <= d)%Z /\ (z <= v < snd (number_node nd z))%Z) \/ ((d < 0)%Z /\ v = d)).
Proof.
  induction nd as [|d0 r IH]; intros z [|k] d H; simpl in *; try discriminate.
  - injection H as ->. destruct (Z.leb_spec 0 d).
    + pose proof (number_node_le r (z + 1)). destruct (number_node r (z + 1)); simpl in *. exists z; split; auto. left; lia.
    + destruct (number_node r z); simpl. exists d; split; auto.
  - destruct (0 <=? d0)%Z.
    + destruct (IH (z + 1)%Z k d H) as (v & V1 & V2). destruct (number_node r (z + 1)); simpl in *.
      exists v; split; auto. destruct V2; [left; lia|right; auto].
    + destruct (IH z k d H) as (v & V1 & V2). destruct (number_node r z); simpl in *. exists v; split; auto.
Qed.
Lemma number_node_lt : forall nd z k k' v v', (k < k')%nat ->
  nth_error (fst (number_node nd z)) k = Some v -> nth_error (fst (number_node nd z)) k' = Some v' ->
  (0 <= z)%Z -> (0 <= v)%Z -> (0 <= v')%Z -> (v < v')%Z.
Proof.
  induction nd as [|d r IH]; intros z k k' v v' L H H' Z0 V V'; simpl in *; [destruct k; discriminate|].
  destruct k' as [|k']; [lia|].
  assert (E : exists d', nth_error r k' = Some d').
  { destruct (nth_error r k') eqn:E; [eauto|]. apply nth_error_None in E. exfalso.
    destruct (0 <=? d)%Z.
    - pose proof (number_node_length r (z + 1)). destruct (number_node r (z + 1)) as [l n1]; simpl in *.
      assert (nth_error l k' = None) by (apply nth_error_None; lia). congruence.
    - pose proof (number_node_length r z). destruct (number_node r z) as [l n1]; simpl in *.
      assert (nth_error l k' = None) by (apply nth_error_None; lia). congruence. }
  destruct E as [d' E]. destruct (Z.leb_spec 0 d).
  - destruct (number_node_entry r (z + 1) k' d' E) as (w & W1 & W2).
    specialize (IH (z + 1)%Z). destruct (number_node r (z + 1)) as [l n']; simpl in *.
    assert (w = v') by congruence; subst w. destruct k as [|k].
    + simpl in H. injection H as <-. destruct W2; lia.
    + simpl in H. apply (IH k k'); auto; lia.
  - specialize (IH z). destruct (number_node_entry r z k' d' E) as (w & W1 & W2).
    destruct (number_node r z) as [l n']; simpl in *. destruct k as [|k].
    + simpl in H. injection H as <-. lia.
    + simpl in H. apply (IH k k'); auto; lia.
Qed.
Lemma number_node_onto : forall nd z i, (z <= i < snd (number_node nd z))%Z ->
  exists k, nth_error (fst (number_node nd z)) k = Some i.
Proof.
  induction nd as [|d r IH]; intros z i H; simpl in *; [lia|]. destruct (0 <=? d)%Z.
  - specialize (IH (z + 1)%Z i). destruct (number_node r (z + 1)) as [l n']; simpl in *.
    destruct (Z.eq_dec i z) as [->|D]; [exists O; auto|]. destruct IH as [k K]; [lia|]. exists (S k); auto.
  - specialize (IH z i). destruct (number_node r z) as [l n']; simpl in *. destruct IH as [k K]; [lia|]. exists (S k); auto.
Qed.

Lemma number_all_le : forall ns z, (z <= snd (number_all ns z))%Z.
Proof.
  induction ns as [|nd r IH]; intros z; simpl; [lia|]. pose proof (number_node_le nd z).
  destruct (number_node nd z) as [nd' n1]. specialize (IH n1). destruct (number_all r n1); simpl in *; lia.
Qed.
Lemma number_all_shape : forall ns z, map (@length Z) (fst (number_all ns z)) = map (@length Z) ns.
Proof.
  induction ns as [|nd r IH]; intros z; simpl; auto. pose proof (number_node_length nd z).
  destruct (number_node nd z) as [nd' n1]. specialize (IH n1). destruct (number_all r n1); simpl in *. congruence.
Qed.
Lemma number_all_entry : forall ns z m k d, dof_at ns m k = Some d ->
  exists v, dof_at (fst (number_all ns z)) m k = Some v /\
  (((0 <= d)%Z /\ (z <= v < snd (number_all ns z))%Z) \/ ((d < 0)%Z /\ v = d)).
Proof.
  unfold dof_at. induction ns as [|nd r IH]; intros z [|m] k d H; simpl in *; try discriminate.
  - destruct (number_node_entry nd z k d H) as (v & V1 & V2). destruct (number_node nd z) as [nd' n1].
    pose proof (number_all_le r n1). destruct (number_all r n1); simpl in *. exists v; split; auto. destruct V2; [left; lia|auto].
  - pose proof (number_node_le nd z). destruct (number_node nd z) as [nd' n1]. destruct (IH n1 m k d H) as (v & V1 & V2).
    destruct (number_all r n1); simpl in *. exists v; split; auto. destruct V2; [left; lia|auto].
Qed.
Lemma dof_at_back ns z m k v : dof_at (fst (number_all ns z)) m k = Some v -> exists d, dof_at ns m k = Some d.
Proof.
  unfold dof_at. intros H. pose proof (number_all_shape ns z) as S.
  destruct (nth_error (fst (number_all ns z)) m) as [nd'|] eqn:E; [|discriminate].
  assert (E2 : nth_error (map (@length Z) ns) m = Some (length nd')).
  { rewrite <- S. apply map_nth_error; auto. }
  destruct (nth_error ns m) as [nd|] eqn:E3.
  - rewrite (map_nth_error (@length Z) _ _ E3) in E2. injection E2 as E2.
    destruct (nth_error nd k) eqn:E4; [eauto|]. apply nth_error_None in E4.
    assert (nth_error nd' k = None) by (apply nth_error_None; lia). congruence.
  - apply nth_error_None in E3. assert (nth_error (map (@length Z) ns) m = None) by (apply nth_error_None; rewrite map_length; auto).
    congruence.
Qed.
Lemma number_all_lt : forall ns z m m' k k' v v', (0 <= z)%Z ->
  (m < m')%nat \/ (m = m' /\ (k < k')%nat) ->
  dof_at (fst (number_all ns z)) m k = Some v -> dof_at (fst (number_all ns z)) m' k' = Some v' ->
  (0 <= v)%Z -> (0 <= v')%Z -> (v < v')%Z.
Proof.
  induction ns as [|nd r IH]; intros z m m' k k' v v' Z0 L H H' V V'.
  { unfold dof_at in H; simpl in H; destruct m; discriminate. }
  destruct (dof_at_back _ _ _ _ _ H) as [d D]. destruct (dof_at_back _ _ _ _ _ H') as [d' D'].
  unfold dof_at in *. simpl in *. pose proof (number_node_le nd z) as NL.
  destruct m as [|m].
  - destruct m' as [|m'].
    + destruct L as [L|[_ L]]; [lia|]. pose proof (number_node_lt nd z k k' v v' L) as W.
      destruct (number_node nd z) as [nd' n1]. destruct (number_all r n1); simpl in *. auto.
    + destruct (number_node_entry nd z k d D) as (w & W1 & W2). destruct (number_node nd z) as [nd' n1].
      destruct (number_all_entry r n1 m' k' d' D') as (w' & X1 & X2). unfold dof_at in X1.
      destruct (number_all r n1); simpl in *. assert (w = v) by congruence. assert (w' = v') by congruence. subst.
      destruct W2, X2; lia.
  - destruct m' as [|m']; [destruct L; lia|]. destruct (number_node nd z) as [nd' n1]. specialize (IH n1 m m' k k' v v').
    destruct (number_all r n1); simpl in *. apply IH; auto; lia.
Qed.
Lemma number_all_onto : forall ns z i, (z <= i < snd (number_all ns z))%Z ->
  exists m k, dof_at (fst (number_all ns z)) m k = Some i.
Proof.
  unfold dof_at. induction ns as [|nd r IH]; intros z i H; simpl in *; [lia|].
  pose proof (number_node_onto nd z i) as A. destruct (number_node nd z) as [nd' n1]; simpl in *.
  pose proof (IH n1 i) as B. destruct (number_all r n1); simpl in *.
  destruct (Z_lt_ge_dec i n1).
  - destruct A as [k K]; [lia|]. exists O, k; auto.
  - destruct B as (m & k & K); [lia|]. exists (S m), k; auto.
Qed.

(** what init_dofs does *)
Lemma activate_entry d nd k v : nth_error nd k = Some v ->
  nth_error (activate d nd) k = Some (if (k <? d)%nat then 0%Z else v).
Proof.
  revert d k; induction nd as [|a r IH]; intros [|d] [|k] H; simpl in *; try discriminate; auto.
  unfold activate; simpl. unfold activate in IH. rewrite (IH d k H). reflexivity.
Qed.
Lemma activate_length d nd : length (activate d nd) = length nd.
Proof. unfold activate. rewrite app_length, map_length. rewrite <- app_length, firstn_skipn. reflexivity. Qed.
Lemma nth_error_set {A} : forall i j (v : A) l, nth_error (set_nth i v l) j =
  if (j =? i)%nat then (match nth_error l i with Some _ => Some v | None => None end) else nth_error l j.
Proof.
  induction i; intros [|j] v [|a l]; simpl; auto.
  destruct (j =? i)%nat; auto.
Qed.
Lemma upd_entry i d ns m k v : dof_at ns m k = Some v ->
  dof_at (upd_node i (activate d) ns) m k = Some (if andb (m =? i)%nat (k <? d)%nat then 0%Z else v).
Proof.
  unfold dof_at, upd_node. intros H. destruct (nth_error ns i) as [nd|] eqn:E.
  - rewrite nth_error_set. destruct (Nat.eqb_spec m i) as [->|N]; simpl; auto.
    rewrite E in *. apply activate_entry; auto.
  - destruct (Nat.eqb_spec m i) as [->|N]; simpl; auto. rewrite E in H; discriminate.
Qed.
Lemma upd_shape i d ns : map (@length Z) (upd_node i (activate d) ns) = map (@length Z) ns.
Proof.
  unfold upd_node. destruct (nth_error ns i) as [nd|] eqn:E; auto.
  revert i E; induction ns as [|a l IH]; intros [|i] E; simpl in *; try discriminate; auto.
  - injection E as ->. f_equal. apply activate_length.
  - f_equal. apply IH; auto.
Qed.
Lemma init_shape : forall els ns, map (@length Z) (init_dofs els ns) = map (@length Z) ns.
Proof.
  unfold init_dofs. induction els as [|e els IH]; intros ns; simpl; auto. rewrite IH, !upd_shape; auto.
Qed.
Lemma init_entry : forall els ns m k v, dof_at ns m k = Some v ->
  exists w, dof_at (init_dofs els ns) m k = Some w /\
  ((used els m k /\ w = 0%Z) \/ (~ used els m k /\ w = v)).
Proof.
  unfold init_dofs. induction els as [|e els IH]; intros ns m k v H; cbn [fold_left].
  - exists v; split; auto. right; split; auto. intros (e & [] & _).
  - pose proof (upd_entry (el_n1 e) (el_d e) ns m k v H) as H1.
    pose proof (upd_entry (el_n2 e) (el_d e) _ m k _ H1) as H2.
    destruct (IH _ _ _ _ H2) as (w & W1 & W2). exists w; split; auto.
    destruct W2 as [[U ->]|[U ->]].
    + left; split; auto. destruct U as (e' & I & R). exists e'; split; [right; auto|auto].
    + destruct (Nat.eqb_spec m (el_n2 e)) as [E2|E2]; destruct (Nat.eqb_spec m (el_n1 e)) as [E1|E1];
      destruct (Nat.ltb_spec k (el_d e)) as [KL|KL]; simpl.
      all: try (left; split; [exists e; split; [left; reflexivity|split; [auto|lia]]|reflexivity]).
      all: right; split; auto.
      all: intros (e' & I & R & Q); destruct I as [I|I]; [subst e'; destruct R; try congruence; try lia|apply U; exists e'; auto].
Qed.
Lemma dof_at_shape (ns ns' : list node) m k v : map (@length Z) ns = map (@length Z) ns' -> dof_at ns m k = Some v ->
  exists v', dof_at ns' m k = Some v'.
Proof.
  intros S H. unfold dof_at in *. destruct (nth_error ns m) as [nd|] eqn:E; [|discriminate].
  pose proof (map_nth_error (@length Z) _ _ E) as E2. rewrite S in E2.
  destruct (nth_error ns' m) as [nd'|] eqn:E3.
  - rewrite (map_nth_error (@length Z) _ _ E3) in E2. injection E2 as E2.
    destruct (nth_error nd' k) eqn:E4; [eauto|]. apply nth_error_None in E4.
    assert (nth_error nd k = None) by (apply nth_error_None; lia). congruence.
  - apply nth_error_None in E3. assert (nth_error (map (@length Z) ns') m = None) by (apply nth_error_None; rewrite map_length; auto).
    congruence.
Qed.

Lemma numbering_lemma els ns ns' n : nodal_dofs els ns = (ns', n) ->
  map (@length Z) ns' = map (@length Z) ns /\
  (forall m k d, dof_at ns m k = Some d -> exists v, dof_at ns' m k = Some v /\
     ((0 <= d)%Z \/ used els m k -> (0 <= v < n)%Z) /\
     ((d < 0)%Z -> ~ used els m k -> v = d)) /\
  (forall m k m' k' v, dof_at ns' m k = Some v -> dof_at ns' m' k' = Some v -> (0 <= v)%Z -> m = m' /\ k = k') /\
  (forall i, (0 <= i < n)%Z -> exists m k, dof_at ns' m k = Some i).
Proof.
  unfold nodal_dofs. intros H.
  assert (H1 : fst (number_all (init_dofs els ns) 0) = ns') by (rewrite H; auto).
  assert (H2 : snd (number_all (init_dofs els ns) 0) = n) by (rewrite H; auto). clear H. subst ns' n.
  split; [rewrite number_all_shape; apply init_shape|]. split; [|split].
  - intros m k d D. destruct (init_entry els ns m k d D) as (w & W1 & W2).
    destruct (number_all_entry _ 0 _ _ _ W1) as (v & V1 & V2). exists v; split; auto. split.
    + intros U. destruct V2 as [[A B]|[A B]]; [lia|]. destruct W2 as [[C ->]|[C ->]]; [lia|].
      destruct U as [U|U]; [lia|contradiction].
    + intros N U. destruct W2 as [[C ->]|[C ->]]; [contradiction|]. destruct V2 as [[A B]|[A B]]; [lia|auto].
  - intros m k m' k' v A B V.
    destruct (Nat.lt_total m m') as [L|[->|L]].
    + pose proof (number_all_lt _ 0 m m' k k' v v ltac:(lia) (or_introl L) A B V V). lia.
    + split; auto. destruct (Nat.lt_total k k') as [L|[->|L]]; auto.
      * pose proof (number_all_lt _ 0 m' m' k k' v v ltac:(lia) (or_intror (conj eq_refl L)) A B V V). lia.
      * pose proof (number_all_lt _ 0 m' m' k' k v v ltac:(lia) (or_intror (conj eq_refl L)) B A V V). lia.
    + pose proof (number_all_lt _ 0 m' m k' k v v ltac:(lia) (or_introl L) B A V V). lia.
  - intros i Hi. apply number_all_onto; auto.
Qed.
(** numbering again changes nothing *)
Lemma number_node_again : forall nd z, (0 <= z)%Z -> number_node (fst (number_node nd z)) z = number_node nd z.
Proof.
  induction nd as [|d r IH]; intros z Z0; simpl; auto. destruct (Z.leb_spec 0 d).
  - specialize (IH (z + 1)%Z ltac:(lia)). destruct (number_node r (z + 1)) as [l n'] eqn:E; simpl in *.
    rewrite (proj2 (Z.leb_le 0 z) Z0), IH. reflexivity.
  - specialize (IH z Z0). destruct (number_node r z) as [l n'] eqn:E; simpl in *.
    rewrite (proj2 (Z.leb_gt 0 d)) by lia. rewrite IH. reflexivity.
Qed.
Lemma number_node_sign : forall nd nd' z, Forall2 (fun a b => (0 <=? a)%Z = (0 <=? b)%Z /\ ((a < 0)%Z -> a = b)) nd nd' ->
  number_node nd z = number_node nd' z.
Proof.
  intros nd nd' z F; revert z; induction F as [|a b l l' [H H'] F IH]; intros z; simpl; auto. rewrite <- H.
  destruct (Z.leb_spec 0 a); rewrite IH; auto. rewrite H' by lia. reflexivity.
Qed.
Lemma number_all_sign : forall ns ns' z, Forall2 (Forall2 (fun a b => (0 <=? a)%Z = (0 <=? b)%Z /\ ((a < 0)%Z -> a = b))) ns ns' ->
  number_all ns z = number_all ns' z.
Proof.
  intros ns ns' z F; revert z; induction F as [|a b l l' H F IH]; intros z; simpl; auto.
  rewrite (number_node_sign a b z H). destruct (number_node b z). rewrite IH. reflexivity.
Qed.
Lemma Forall2_of_dofs (Q : Z -> Z -> Prop) : forall ns ns', map (@length Z) ns = map (@length Z) ns' ->
  (forall m k a b, dof_at ns m k = Some a -> dof_at ns' m k = Some b -> Q a b) -> Forall2 (Forall2 Q) ns ns'.
Proof.
  induction ns as [|nd ns IH]; intros [|nd' ns'] SS H; simpl in *; try discriminate; constructor.
  - injection SS as S1 S2. assert (H0 : forall k a b, nth_error nd k = Some a -> nth_error nd' k = Some b -> Q a b).
    { intros k a b A B. apply (H O k); unfold dof_at; simpl; auto. }
    clear -S1 H0. revert nd' S1 H0; induction nd as [|x nd IH]; intros [|y nd'] SS H; simpl in *; try discriminate; constructor.
    + apply (H O); auto.
    + apply IH; [lia|]. intros k a b A B. apply (H (S k)); auto.
  - injection SS as S1 S2. apply IH; auto. intros m k a b A B. apply (H (S m) k); auto.
Qed.
Lemma renumbering_lemma els ns ns' n : nodal_dofs els ns = (ns', n) -> nodal_dofs els ns' = (ns', n).
Proof.
  intros H. destruct (numbering_lemma els ns ns' n H) as (SH & EN & INJ & ON).
  assert (E : number_all (init_dofs els ns') 0 = number_all (init_dofs els ns) 0).
  { apply number_all_sign. apply Forall2_of_dofs; [rewrite !init_shape; auto|].
    intros m k a b A B.
    destruct (dof_at_shape (init_dofs els ns) ns m k b) as [d D]; [apply init_shape|auto|].
    destruct (EN m k d D) as (v & V1 & V2 & V3).
    destruct (init_entry els ns m k d D) as (w & W1 & W2). destruct (init_entry els ns' m k v V1) as (w' & X1 & X2).
    assert (w = b) by congruence. assert (w' = a) by congruence. subst.
    destruct W2 as [[U ->]|[U ->]], X2 as [[U' ->]|[U' ->]]; try contradiction; auto.
    destruct (Z_lt_ge_dec d 0).
    - rewrite (V3 l U). auto.
    - assert (0 <= v < n)%Z by (apply V2; left; lia). split; [|lia].
      rewrite (proj2 (Z.leb_le 0 v)), (proj2 (Z.leb_le 0 d)) by lia. reflexivity. }
  unfold nodal_dofs in *. rewrite E. exact H.
Qed.
