Require Import Reals List Bool Lra Lia Psatz PeanoNat. Import ListNotations.
From Verif Require Import Base EC3_model Bool_tac EC3_proofs Plate_proofs Sections_proofs Timber4_proofs.
From Verif Require Import Tseg_model Tseg_spec.
Local Open Scope R_scope.

Lemma in_seg_lies secs ab f : In f (in_seg secs ab) <-> lies_in secs ab f.
Proof.
  unfold in_seg, lies_in. rewrite filter_In, andb_true_iff, !Rleb_true. tauto.
Qed.
Lemma first_at_self secs f : distinct_locs secs -> In f secs -> first_at secs f = f.
Proof.
  unfold distinct_locs, first_at. induction secs as [|g s IH]; [intros _ []|]. intros D [->|I].
  - cbn [find]. replace (Reqb (f_loc f) (f_loc f)) with true; [reflexivity|]. symmetry. apply Reqb_true. reflexivity.
  - cbn [find]. cbn [map] in D. inversion D as [|? ? N D']; subst. destruct (Reqb (f_loc g) (f_loc f)) eqn:E.
    + apply Reqb_true in E. exfalso. apply N. rewrite E. apply in_map. exact I.
    + apply IH; assumption.
Qed.
Lemma seg_secs_distinct secs ab : distinct_locs secs -> seg_secs secs ab = in_seg secs ab.
Proof.
  intros D. unfold seg_secs. rewrite <- (map_id (in_seg secs ab)) at 2. apply map_ext_in. intros f I. apply first_at_self; [exact D|].
  apply in_seg_lies in I. apply I.
Qed.
Lemma max_key_none {A} (k : A -> R) l : max_key k l = None <-> l = [].
Proof.
  destruct l as [|x l]; cbn; [tauto|]. destruct (max_key k l) as [y|]; [destruct (Rltb (k x) (k y))|]; split; discriminate.
Qed.
Lemma max_key_spec {A} (k : A -> R) l y : max_key k l = Some y -> In y l /\ forall x, In x l -> k x <= k y.
Proof.
  revert y. induction l as [|x l IH]; intros y; cbn; [discriminate|]. destruct (max_key k l) as [z|] eqn:E.
  - destruct (IH z eq_refl) as [I M]. destruct (Rltb (k x) (k z)) eqn:C; intros [= <-].
    + apply Rltb_true in C. split; [auto|]. intros w [<-|W]; [lra|auto].
    + apply Rltb_false in C. split; [auto|]. intros w [<-|W]; [lra|]. specialize (M w W). lra.
  - intros [= <-]. apply max_key_none in E. subst. split; [auto|]. intros w [<-|[]]. lra.
Qed.
Lemma max_lex_none k l : max_lex k l = None <-> l = [].
Proof.
  destruct l as [|x l]; cbn; [tauto|]. destruct (max_lex k l) as [y|]; [destruct (lex_lt (k x) (k y))|]; split; discriminate.
Qed.
Lemma lex_lt_true p q : lex_lt p q = true <-> fst p < fst q \/ (fst p = fst q /\ snd p < snd q).
Proof. unfold lex_lt. rewrite orb_true_iff, andb_true_iff, !Rltb_true, Reqb_true. tauto. Qed.
Lemma lex_lt_false p q : lex_lt p q = false <-> fst q < fst p \/ (fst p = fst q /\ snd q <= snd p).
Proof.
  rewrite <- not_true_iff_false, lex_lt_true. split; [|intros; lra]. intros N.
  destruct (Rlt_le_dec (fst q) (fst p)); [auto|right]. destruct (Req_dec (fst p) (fst q)) as [E|E]; [|lra]. split; [exact E|].
  destruct (Rle_dec (snd q) (snd p)); [assumption|lra].
Qed.
Lemma max_lex_spec k l y : max_lex k l = Some y ->
  In y l /\ forall x, In x l -> fst (k x) < fst (k y) \/ (fst (k x) = fst (k y) /\ snd (k x) <= snd (k y)).
Proof.
  revert y. induction l as [|x l IH]; intros y; cbn; [discriminate|]. destruct (max_lex k l) as [z|] eqn:E.
  - destruct (IH z eq_refl) as [I M]. destruct (lex_lt (k x) (k z)) eqn:C; intros [= <-].
    + apply lex_lt_true in C. split; [auto|]. intros w [<-|W]; [lra|auto].
    + apply lex_lt_false in C. split; [auto|]. intros w [<-|W]; [lra|]. specialize (M w W). lra.
  - intros [= <-]. apply max_lex_none in E. subst. split; [auto|]. intros w [<-|[]]. lra.
Qed.
Lemma all_some_forall2 {A B} (f : A -> option B) l r : all_some (map f l) = Some r -> Forall2 (fun a b => f a = Some b) l r.
Proof.
  revert r. induction l as [|a l IH]; intros r; cbn; [intros [= <-]; constructor|].
  destruct (f a) as [b|] eqn:E; cbn; [|discriminate]. destruct (all_some (map f l)) as [s|]; cbn; [|discriminate].
  intros [= <-]. constructor; [exact E|auto].
Qed.
Lemma all_some_def {A B} (f : A -> option B) l : all_some (map f l) <> None <-> Forall (fun a => f a <> None) l.
Proof.
  induction l as [|a l IH]; cbn; [split; [constructor|discriminate]|].
  destruct (f a) as [b|] eqn:E; cbn.
  - destruct (all_some (map f l)) as [s|]; cbn; split; intros X; try discriminate.
    + constructor; [rewrite E; discriminate|]. apply IH. discriminate.
    + exfalso. apply X. reflexivity.
    + inversion X; subst. exfalso. apply (proj2 IH); auto.
  - split; [intros X; exfalso; apply X; reflexivity|]. intros X. inversion X; subst. congruence.
Qed.
Lemma in_seg_nonempty secs ab : in_seg secs ab <> [] <-> exists f, lies_in secs ab f.
Proof.
  split.
  - destruct (in_seg secs ab) as [|f l] eqn:E; [congruence|]. intros _. exists f. apply in_seg_lies. rewrite E. left. reflexivity.
  - intros [f F] E. apply in_seg_lies in F. rewrite E in F. exact F.
Qed.
Lemma Forall2_impl_l {A B} (P Q : A -> B -> Prop) l r : (forall a b, P a b -> Q a b) -> Forall2 P l r -> Forall2 Q l r.
Proof. intros I F. induction F; constructor; auto. Qed.

Lemma seg_max_lemma m secs sup r : distinct_locs secs -> max_sigma_per_segment m secs sup = Some r ->
  Forall2 (fun ab s => exists f, governs_y m secs ab f /\ s = (sigma_my m f, sigma_mz m f)) (pairs (with_ends sup)) r.
Proof.
  intros D E. apply all_some_forall2 in E. eapply Forall2_impl_l; [|exact E]. intros ab s. unfold seg_stress.
  rewrite (seg_secs_distinct secs ab D). destruct (max_key _ _) as [f|] eqn:M; cbn; [|discriminate]. intros [= <-].
  apply max_key_spec in M. destruct M as [I M]. exists f. split; [|reflexivity]. split; [apply in_seg_lies, I|].
  intros g G. apply M. apply in_seg_lies, G.
Qed.
Lemma seg_defined_lemma m secs sup :
  (max_sigma_per_segment m secs sup <> None <-> forall ab, In ab (pairs (with_ends sup)) -> exists f, lies_in secs ab f).
Proof.
  unfold max_sigma_per_segment. rewrite all_some_def, Forall_forall. 
  assert (X : forall ab, seg_stress m secs ab <> None <-> exists f, lies_in secs ab f).
  { intros ab. rewrite <- in_seg_nonempty. unfold seg_stress, seg_secs.
    destruct (in_seg secs ab) as [|f l] eqn:E; cbn [map].
    - cbn. tauto.
    - destruct (max_key _ (first_at secs f :: map (first_at secs) l)) as [y|] eqn:M; [cbn; split; discriminate|].
      apply max_key_none in M. discriminate. }
  split; intros Y ab I; apply X, Y, I.
Qed.
Lemma gyr_defined_lemma m z secs sup :
  (radius_of_gyration m z secs sup <> None <-> forall ab, In ab (pairs (with_ends sup)) -> exists f, lies_in secs ab f).
Proof.
  unfold radius_of_gyration.
  assert (X : forall ab, gyr_loc m secs ab <> None <-> exists f, lies_in secs ab f).
  { intros ab. rewrite <- in_seg_nonempty. unfold gyr_loc, seg_secs.
    destruct (in_seg secs ab) as [|f l] eqn:E; cbn [map].
    - cbn. tauto.
    - destruct (max_lex _ (first_at secs f :: map (first_at secs) l)) as [y|] eqn:M; [cbn; split; discriminate|].
      apply max_lex_none in M. discriminate. }
  assert (Y : bind (all_some (map (gyr_loc m secs) (pairs (with_ends sup)))) (fun locs => Some (map (gyr_at m z) locs, locs)) <> None
    <-> all_some (map (gyr_loc m secs) (pairs (with_ends sup))) <> None).
  { destruct (all_some _); cbn; [split; discriminate|tauto]. }
  rewrite Y, all_some_def, Forall_forall. split; intros Z ab I; apply X, Z, I.
Qed.
Lemma gyr_sq m z x : 0 < t_B m -> 0 < t_H m x -> gyr_at m z x = (if z then t_B m else t_H m x) / sqrt 12.
Proof.
  intros Hb Hh. unfold gyr_at, I_at, A_at.
  replace ((if z then t_H m x * t_B m ^ 3 / 12 else t_B m * t_H m x ^ 3 / 12) / (t_B m * t_H m x)) with ((if z then t_B m else t_H m x) ^ 2 / 12).
  2:{ destruct z; field; lra. }
  rewrite sqrt_div; [|apply pow2_ge_0|lra]. f_equal. destruct z; apply sqrt_pow2; lra.
Qed.
Lemma gyr_top m secs ab x : distinct_locs secs -> gyr_loc m secs ab = Some x -> exists f, tops_y m secs ab f /\ x = f_loc f.
Proof.
  intros D. unfold gyr_loc. rewrite (seg_secs_distinct secs ab D). destruct (max_lex _ _) as [f|] eqn:M; cbn; [|discriminate]. intros [= <-].
  apply max_lex_spec in M. destruct M as [I M]. exists f. split; [|reflexivity]. split; [apply in_seg_lies, I|].
  intros g G. apply in_seg_lies in G. specialize (M g G). cbn in M. split; intros; lra.
Qed.
Lemma gyr_value_lemma m z secs sup rs xs : 0 < t_B m -> (forall x, 0 < t_H m x) -> distinct_locs secs -> radius_of_gyration m z secs sup = Some (rs, xs) ->
  Forall2 (fun ab x => exists f, tops_y m secs ab f /\ x = f_loc f) (pairs (with_ends sup)) xs /\
  rs = map (fun x => (if z then t_B m else t_H m x) / sqrt 12) xs.
Proof.
  intros Hb Hh D. unfold radius_of_gyration. destruct (all_some _) as [l|] eqn:E; cbn; [|discriminate]. intros [= <- <-]. split.
  - apply all_some_forall2 in E. eapply Forall2_impl_l; [|exact E]. intros ab x. apply gyr_top, D.
  - apply map_ext. intros x. apply gyr_sq; auto.
Qed.
Lemma gyr_sagging_lemma m secs ab x : distinct_locs secs -> (forall f, lies_in secs ab f -> 0 <= sigma_my m f) -> gyr_loc m secs ab = Some x ->
  exists f, governs_y m secs ab f /\ x = f_loc f.
Proof.
  intros D P E. apply gyr_top in E; [|exact D]. destruct E as (f & [F T] & ->). exists f. split; [|reflexivity]. split; [exact F|].
  intros g G. rewrite !Rabs_pos_eq by auto. apply T, G.
Qed.
Lemma gyr_hogging_lemma m secs ab x : distinct_locs secs -> (forall f, lies_in secs ab f -> sigma_my m f <= 0) -> gyr_loc m secs ab = Some x ->
  exists f, lies_in secs ab f /\ x = f_loc f /\ forall g, lies_in secs ab g -> Rabs (sigma_my m f) <= Rabs (sigma_my m g).
Proof.
  intros D P E. apply gyr_top in E; [|exact D]. destruct E as (f & [F T] & ->). exists f. split; [exact F|]. split; [reflexivity|].
  intros g G. rewrite !Rabs_left1 by auto. destruct (T g G). lra.
Qed.
Lemma seg_z_lemma m secs ab s : distinct_locs secs -> seg_stress m secs ab = Some s ->
  (forall f g, lies_in secs ab f -> lies_in secs ab g -> Rabs (sigma_my m f) = Rabs (sigma_my m g) -> f = g) ->
  forall f g, governs_y m secs ab f -> lies_in secs ab g -> Rabs (sigma_mz m f) < Rabs (sigma_mz m g) -> Rabs (snd s) < Rabs (sigma_mz m g).
Proof.
  intros D E U f g [F GF] G L. unfold seg_stress in E. rewrite (seg_secs_distinct secs ab D) in E.
  destruct (max_key _ _) as [h|] eqn:M; cbn in E; [|discriminate]. injection E as <-. apply max_key_spec in M. destruct M as [I M].
  apply in_seg_lies in I. cbn. replace h with f; [exact L|]. apply U; auto. apply Rle_antisym; [|auto].
  apply (M f). apply in_seg_lies, F.
Qed.
Lemma tsg_alpha_lemma m secs r : distinct_locs secs -> sigma_m_alpha_d m secs = Some r ->
  (exists f, In f secs /\ r = sigma_my m f) /\ (forall f, In f secs -> Rabs (sigma_my m f) <= Rabs r) /\
  (forall f, In f secs -> sigma_my m f = - Rabs r -> r <= 0).
Proof.
  intros D. unfold sigma_m_alpha_d.
  replace (map (fun f => f_My (first_at secs f) / Wy_at m (f_loc f)) secs) with (map (sigma_my m) secs).
  2:{ apply map_ext_in. intros f I. rewrite (first_at_self secs f D I). reflexivity. }
  destruct (list_min (map (sigma_my m) secs)) as [lo|] eqn:L; cbn; [|discriminate].
  destruct (list_max (map (sigma_my m) secs)) as [hi|] eqn:U; cbn; [|discriminate].
  apply list_min_spec in L. apply list_max_spec in U. destruct L as [IL ML], U as [IU MU].
  assert (B : forall f, In f secs -> lo <= sigma_my m f <= hi).
  { intros f I. split; [apply ML|apply MU]; apply in_map, I. }
  apply in_map_iff in IL. apply in_map_iff in IU. destruct IL as (fl & El & Il), IU as (fu & Eu & Iu).
  assert (O : lo <= hi) by (rewrite <- Eu; apply B, Iu).
  destruct (Reqb _ _) eqn:C; intros [= <-].
  - apply Reqb_true in C. pose proof (Rmax_r (Rabs lo) (Rabs hi)) as M. rewrite C in M. split; [|split].
    + exists fl. auto.
    + intros f I. specialize (B f I). revert M. unfold Rabs. repeat destruct (Rcase_abs _); lra.
    + intros f I Ef. specialize (B f I). revert M Ef. unfold Rabs. repeat destruct (Rcase_abs _); lra.
  - apply Reqb_false in C. assert (M : Rabs lo < Rabs hi). { destruct (Rle_lt_dec (Rabs hi) (Rabs lo)) as [X|X]; [|exact X]. exfalso. apply C. apply Rmax_left, X. }
    split; [|split].
    + exists fu. auto.
    + intros f I. specialize (B f I). revert M. unfold Rabs. repeat destruct (Rcase_abs _); lra.
    + intros f I Ef. specialize (B f I). revert M Ef. unfold Rabs. repeat destruct (Rcase_abs _); lra.
Qed.
Lemma tsg_alpha_defined_lemma m secs : sigma_m_alpha_d m secs <> None <-> secs <> [].
Proof.
  unfold sigma_m_alpha_d. destruct secs as [|f s]; [cbn; tauto|]. split; [discriminate|]. intros _.
  set (l := map _ (f :: s)). assert (N : l <> []) by (unfold l; discriminate). clearbody l.
  destruct (list_min l) eqn:E; [|apply list_min_none in E; contradiction]. destruct (list_max l) eqn:F; [|apply list_max_none in F; contradiction].
  cbn. discriminate.
Qed.
Lemma pairs_fst_in l ab : In ab (pairs l) -> In (fst ab) l.
Proof.
  induction l as [|x l IH]; [intros []|]. destruct l as [|y l]; [intros []|]. intros [<-|I]; [left; reflexivity|right; apply IH, I].
Qed.
Lemma seg_covered_lemma m z secs sup : (forall x, In x (0 :: 1 :: sup) -> exists f, In f secs /\ f_loc f = x) ->
  max_sigma_per_segment m secs sup <> None /\ radius_of_gyration m z secs sup <> None.
Proof.
  intros C. rewrite seg_defined_lemma, gyr_defined_lemma.
  assert (X : forall ab, In ab (pairs (with_ends sup)) -> exists f, lies_in secs ab f).
  { intros ab I. assert (O : fst ab <= snd ab).
    { pose proof (asc_pairs (with_ends sup) (rsort_asc _)) as A. rewrite Forall_forall in A. apply A, I. }
    apply pairs_fst_in in I. unfold with_ends in I. apply (Permutation.Permutation_in _ (rsort_perm _)) in I.
    destruct (C (fst ab)) as (f & F & E). { apply in_app_iff in I. cbn in I |- *. tauto. }
    exists f. split; [exact F|]. rewrite E. lra. }
  split; exact X.
Qed.
