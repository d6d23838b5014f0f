Require Import Reals List Bool Lra Lia Psatz PeanoNat. Import ListNotations.
From Verif Require Import Base EC3_model Bool_tac EC3_proofs Plate_proofs Sections_proofs Mat.
From Verif Require Import Soe_model Soe_spec.
Local Open Scope R_scope.

Definition soe_pl (ls : list sload) := map (fun l => (sl_id l, sl_p l)) ls.
Lemma soe_load_vec_set lc f ls j :
  load_vec lc (set_increment lc f ls) j = f * unit_load lc (soe_pl ls) j.
Proof.
  unfold unit_load, soe_pl. induction ls as [|l ls IH]; cbn [set_increment map load_vec filter]; [cbn; ring|].
  fold (set_increment lc f ls). rewrite IH. cbn [fst snd].
  destruct (Nat.eqb (sl_id l) lc) eqn:E; cbn [sl_id sl_f sl_p]; rewrite E; cbn [map snd]; [rewrite ?Rsum_cons; cbn [Rsum fold_right]; try ring|ring].
Qed.
Lemma soe_set_pl lc f ls : soe_pl (set_increment lc f ls) = soe_pl ls.
Proof. unfold soe_pl, set_increment. rewrite map_map. apply map_ext. intros l. destruct (Nat.eqb _ _); reflexivity. Qed.
Lemma soe_statics_set n S lc f ls i :
  statics_u n S lc (set_increment lc f ls) i = f * unit_disp n S lc (soe_pl ls) i.
Proof.
  unfold statics_u, unit_disp. rewrite <- sumn_scale. apply sumn_ext. intros j _. rewrite soe_load_vec_set. ring.
Qed.
Lemma soe_set_set lc f g ls : set_increment lc f (set_increment lc g ls) = set_increment lc f ls.
Proof. unfold set_increment. rewrite map_map. apply map_ext. intros l. destruct (Nat.eqb (sl_id l) lc) eqn:E; cbn [sl_id]; rewrite E; reflexivity. Qed.
Lemma soe_fold n S lc d m s :
  let r := fold_left (fun s i => increment n S lc d i s) (seq 0 m) s in
  sm_loads r = (match m with O => sm_loads s | Datatypes.S k => set_increment lc (INR k * d) (sm_loads s) end) /\
  (forall i, sm_X r i = sm_X s i + INR m * (INR m - 1) / 2 * d * unit_disp n S lc (soe_pl (sm_loads s)) i).
Proof.
  induction m as [|m IH]; intros r; subst r.
  - split; [reflexivity|]. intros i. cbn. lra.
  - rewrite seq_S, fold_left_app. cbn [fold_left plus]. destruct IH as [IHl IHx].
    set (r := fold_left _ (seq 0 m) s) in *. unfold increment. cbn [sm_loads sm_X]. split.
    + rewrite IHl. destruct m; [reflexivity|]. apply soe_set_set.
    + intros i. rewrite IHx, soe_statics_set.
      assert (E : soe_pl (sm_loads r) = soe_pl (sm_loads s)) by (rewrite IHl; destruct m; [reflexivity|apply soe_set_pl]).
      rewrite E. rewrite S_INR. field.
Qed.
Lemma soe_total n S lc ninc s r :
  second_order_elastic n S lc ninc s = Some r ->
  (0 < ninc)%nat /\
  sm_loads r = set_increment lc ((INR ninc - 1) / INR ninc) (sm_loads s) /\
  (forall i, sm_X r i = sm_X s i + (INR ninc - 1) / 2 * unit_disp n S lc (soe_pl (sm_loads s)) i).
Proof.
  unfold second_order_elastic, pdiv, bind. destruct (Reqb (INR ninc) 0) eqn:E; [discriminate|]. apply Reqb_false in E.
  intros H. injection H as <-. destruct ninc as [|m]; [exfalso; apply E; reflexivity|].
  destruct (soe_fold n S lc (1 / INR (Datatypes.S m)) (Datatypes.S m) s) as [A B].
  split; [lia|split].
  - rewrite A. f_equal. rewrite S_INR in *. field. exact E.
  - intros i. rewrite B. field. exact E.
Qed.
Lemma soe_some n S lc ninc s : (exists r, second_order_elastic n S lc ninc s = Some r) <-> (0 < ninc)%nat.
Proof.
  split; [intros [r H]; exact (proj1 (soe_total _ _ _ _ _ _ H))|].
  intros H. unfold second_order_elastic, pdiv, bind. destruct (Reqb (INR ninc) 0) eqn:E; [|eexists; reflexivity].
  apply Reqb_true in E. apply (INR_eq _ 0%nat) in E. lia.
Qed.

Lemma soe_index_spec d l j : NoDup l -> (j < length l)%nat -> nth j l O = d -> index_of d l = Some j.
Proof.
  revert j. induction l as [|x l IH]; intros j N Hj E; cbn in Hj; [lia|].
  inversion N; subst x0 l0. cbn [index_of]. destruct j; cbn [nth] in E.
  - subst. rewrite Nat.eqb_refl. reflexivity.
  - destruct (Nat.eqb_spec x d) as [e|e]; [exfalso; apply H1; rewrite e, <- E; apply nth_In; lia|].
    rewrite (IH j); [reflexivity|assumption|lia|assumption].
Qed.
Lemma soe_index_some d l j : index_of d l = Some j -> (j < length l)%nat /\ nth j l O = d.
Proof.
  revert j. induction l as [|x l IH]; intros j; cbn [index_of]; [discriminate|].
  destruct (Nat.eqb_spec x d).
  - intros H; injection H as <-. cbn. split; [lia|assumption].
  - destruct (index_of d l) eqn:E; cbn; [|discriminate]. intros H; injection H as <-. destruct (IH _ eq_refl). split; [lia|assumption].
Qed.
(* one node *)
Definition soe_node (ps : list (R * nat)) (nd : list nat * list R) := fold_left (fun nd p => put_value (snd p) (fst p) nd) ps nd.
Lemma soe_fold_map ps nds :
  fold_left (fun nds p => map (put_value (snd p) (fst p)) nds) ps nds = map (soe_node ps) nds.
Proof.
  revert nds. induction ps as [|p ps IH]; intros nds; cbn [fold_left].
  - symmetry. apply map_id.
  - rewrite IH, map_map. reflexivity.
Qed.
Lemma soe_put_fst d v nd : fst (put_value d v nd) = fst nd.
Proof. unfold put_value. destruct (index_of _ _); reflexivity. Qed.
Lemma soe_put_len d v nd : length (snd (put_value d v nd)) = length (snd nd).
Proof. unfold put_value. destruct (index_of _ _); cbn [snd]; [apply set_nth_length|reflexivity]. Qed.
Lemma soe_put_nth d v nd j : NoDup (fst nd) -> length (snd nd) = length (fst nd) -> (j < length (fst nd))%nat ->
  nth j (snd (put_value d v nd)) 0 = if Nat.eqb (nth j (fst nd) O) d then v else nth j (snd nd) 0.
Proof.
  intros N L Hj. unfold put_value. destruct (index_of d (fst nd)) as [i|] eqn:E.
  - destruct (soe_index_some _ _ _ E) as [Hi Ei]. cbn [snd]. rewrite nth_set_nth by lia.
    destruct (Nat.eqb_spec j i) as [->|ne].
    + rewrite Ei, Nat.eqb_refl. reflexivity.
    + destruct (Nat.eqb_spec (nth j (fst nd) O) d) as [e|e]; [|reflexivity].
      rewrite (soe_index_spec d (fst nd) j N Hj e) in E. injection E as E. lia.
  - destruct (Nat.eqb_spec (nth j (fst nd) O) d) as [e|e]; [|reflexivity].
    rewrite (soe_index_spec d (fst nd) j N Hj e) in E. discriminate.
Qed.
Lemma soe_node_nth ps nd j : NoDup (fst nd) -> length (snd nd) = length (fst nd) -> (j < length (fst nd))%nat ->
  NoDup (map snd ps) ->
  (forall v, In (v, nth j (fst nd) O) ps -> nth j (snd (soe_node ps nd)) 0 = v) /\
  (~ In (nth j (fst nd) O) (map snd ps) -> nth j (snd (soe_node ps nd)) 0 = nth j (snd nd) 0).
Proof.
  revert nd. induction ps as [|[v0 d0] ps IH]; intros nd N L Hj ND; cbn [soe_node fold_left].
  - split; [intros v []|reflexivity].
  - cbn [map snd] in ND. inversion ND as [|a b Hn ND']; subst a b. cbn [fst snd].
    assert (F := soe_put_fst d0 v0 nd). 
    destruct (IH (put_value d0 v0 nd)) as [A B]; [rewrite F; exact N|rewrite soe_put_len, F; exact L|rewrite F; exact Hj|exact ND'|].
    rewrite F in A, B. fold (soe_node ps (put_value d0 v0 nd)). split.
    + intros v [H|H]; [|apply A; exact H]. injection H as -> E.
      rewrite B by (rewrite <- E; exact Hn). rewrite soe_put_nth by assumption. rewrite E, Nat.eqb_refl. reflexivity.
    + cbn [map snd In]. intros H. rewrite B by (intros K; apply H; right; exact K).
      rewrite soe_put_nth by assumption. destruct (Nat.eqb_spec (nth j (fst nd) O) d0); [exfalso; apply H; left; congruence|reflexivity].
Qed.
Lemma soe_combine_snd (v : list R) (g : list nat) : length v = length g -> map snd (combine v g) = g.
Proof. revert g. induction v; intros [|x g] H; cbn in *; try discriminate; [reflexivity|]. f_equal. apply IHv. lia. Qed.
Lemma soe_mode v glob dofs a b :
  length v = length glob -> NoDup glob -> (a < length dofs)%nat -> NoDup (nth a dofs []) -> (b < length (nth a dofs []))%nat ->
  (forall k, (k < length glob)%nat -> nth k glob O = nth b (nth a dofs []) O ->
     nth b (nth a (mode_to_nodes v glob dofs) []) 0 = nth k v 0) /\
  (~ In (nth b (nth a dofs []) O) glob -> nth b (nth a (mode_to_nodes v glob dofs) []) 0 = 0).
Proof.
  intros L ND Ha Hn Hb. unfold mode_to_nodes. rewrite soe_fold_map, !map_map.
  set (g := fun ds : list nat => snd (soe_node (combine v glob) (ds, repeat 0 (length ds)))).
  assert (E : nth a (map g dofs) [] = g (nth a dofs [])).
  { rewrite (nth_indep _ [] (g [])) by (rewrite map_length; exact Ha). apply map_nth. }
  rewrite E. unfold g. set (ds := nth a dofs []) in *.
  destruct (soe_node_nth (combine v glob) (ds, repeat 0 (length ds)) b) as [A B]; cbn [fst snd];
    [exact Hn|apply repeat_length|exact Hb|rewrite soe_combine_snd by exact L; exact ND|].
  cbn [fst snd] in A, B. split.
  - intros k Hk Ek. apply A. rewrite <- Ek. rewrite <- (combine_nth v glob k 0 O L). apply nth_In. rewrite combine_length. lia.
  - intros H. rewrite B by (rewrite soe_combine_snd by exact L; exact H). apply nth_repeat.
Qed.
Lemma soe_shape v glob dofs : map (@length R) (mode_to_nodes v glob dofs) = map (@length nat) dofs.
Proof.
  unfold mode_to_nodes. rewrite soe_fold_map, !map_map. apply map_ext. intros ds.
  assert (H : forall ps nd, length (snd (soe_node ps nd)) = length (snd nd)).
  { induction ps as [|p ps IH]; intros nd; [reflexivity|]. cbn [soe_node fold_left]. fold (soe_node ps (put_value (snd p) (fst p) nd)).
    rewrite IH. apply soe_put_len. }
  rewrite H. apply repeat_length.
Qed.
Lemma soe_free_in total supp d : In d (free_dofs total supp) <-> (d < total)%nat /\ ~ In d supp.
Proof.
  unfold free_dofs. rewrite filter_In, in_seq, negb_true_iff. 
  assert (H : existsb (Nat.eqb d) supp = false <-> ~ In d supp).
  { split.
    - intros H K. assert (existsb (Nat.eqb d) supp = true) by (apply existsb_exists; exists d; split; [exact K|apply Nat.eqb_refl]). congruence.
    - intros H. destruct (existsb (Nat.eqb d) supp) eqn:E; [|reflexivity]. apply existsb_exists in E. destruct E as [x [Hx E]].
      apply Nat.eqb_eq in E. subst. contradiction. }
  rewrite H. split; intros [A B]; split; try assumption; lia.
Qed.
Lemma soe_row supp d : length (free_dofs d supp) = reduced_row supp d.
Proof.
  unfold free_dofs. induction d as [|d IH]; [reflexivity|]. rewrite seq_S, filter_app, app_length, IH. cbn [reduced_row plus filter].
  f_equal. pose proof (soe_free_in (S d) supp d) as H. unfold free_dofs in H.
  destruct (in_dec Nat.eq_dec d supp) as [i|i].
  - assert (E : existsb (Nat.eqb d) supp = true) by (apply existsb_exists; exists d; split; [exact i|apply Nat.eqb_refl]).
    rewrite E. reflexivity.
  - assert (K : existsb (Nat.eqb d) supp = false).
    { assert (In d (filter (fun d => negb (existsb (Nat.eqb d) supp)) (seq 0 (S d)))) as K by (apply H; split; [lia|exact i]).
      apply filter_In in K. destruct K as [_ K]. apply negb_true_iff in K. exact K. }
    rewrite K. reflexivity.
Qed.
Lemma soe_free_nth total supp d : (d < total)%nat -> ~ In d supp ->
  (reduced_row supp d < length (free_dofs total supp))%nat /\ nth (reduced_row supp d) (free_dofs total supp) O = d.
Proof.
  intros Hd Hs. assert (E : free_dofs total supp = free_dofs d supp ++ d :: filter (fun d => negb (existsb (Nat.eqb d) supp)) (seq (S d) (total - S d))).
  { unfold free_dofs. replace total with (d + S (total - S d))%nat at 1 by lia. rewrite seq_app, filter_app. cbn [plus seq filter].
    pose proof (proj2 (soe_free_in total supp d) (conj Hd Hs)) as K. unfold free_dofs in K. apply filter_In in K. destruct K as [_ K].
    rewrite K. reflexivity. }
  rewrite E, <- soe_row, app_length, nth_middle. cbn [length]. split; [lia|reflexivity].
Qed.
Lemma soe_free_NoDup total supp : NoDup (free_dofs total supp).
Proof. apply NoDup_filter, seq_NoDup. Qed.
