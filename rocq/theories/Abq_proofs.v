Require Import Reals List Bool Lra Lia Psatz PeanoNat Permutation Sorted. Import ListNotations.
From Verif Require Import Base EC3_model Bool_tac EC3_proofs.
From Verif Require Import Abq_model Abq_spec.
Local Open Scope R_scope.

Lemma abq_skipn_skipn {A} a b (l : list A) : skipn a (skipn b l) = skipn (a + b) l.
Proof. revert l. induction b as [|b IH]; intros l; [rewrite Nat.add_0_r; reflexivity|]. rewrite Nat.add_succ_r. destruct l; [rewrite !skipn_nil; reflexivity|]. cbn [skipn]. apply IH. Qed.
Lemma abq_rows_loop fuel i l : (length l < 16 * fuel + i)%nat ->
  concat (rows_loop fuel i l) = skipn i l /\ Forall (fun r => (1 <= length r <= 16)%nat) (rows_loop fuel i l).
Proof.
  revert i. induction fuel as [|fuel IH]; intros i H; cbn [rows_loop].
  - split; [|constructor]. rewrite skipn_all2 by lia. reflexivity.
  - destruct (Nat.ltb_spec i (length l)) as [C|C].
    + destruct (IH (i + 16)%nat ltac:(lia)) as [A B]. split.
      * cbn [concat]. rewrite A. replace (i + 16)%nat with (16 + i)%nat by lia. rewrite <- abq_skipn_skipn. apply firstn_skipn.
      * constructor; [|exact B]. rewrite firstn_length, skipn_length. lia.
    + split; [rewrite skipn_all2 by lia; reflexivity|constructor].
Qed.
Lemma abq_rows16 l : concat (rows16 l) = l /\ Forall (fun r => (1 <= length r <= 16)%nat) (rows16 l).
Proof. unfold rows16. destruct (abq_rows_loop (S (length l)) 0 l ltac:(lia)) as [A B]. rewrite skipn_O in A. auto. Qed.
Lemma abq_rows_full fuel i l : (length l < 16 * fuel + i)%nat ->
  forall k r, nth_error (rows_loop fuel i l) k = Some r -> r = firstn 16 (skipn (i + 16 * k) l).
Proof.
  revert i. induction fuel as [|fuel IH]; intros i H k r; cbn [rows_loop]; [destruct k; discriminate|].
  destruct (Nat.ltb_spec i (length l)); [|destruct k; discriminate]. destruct k as [|k]; cbn [nth_error].
  - intros E; injection E as <-. rewrite Nat.mul_0_r, Nat.add_0_r. reflexivity.
  - intros E. rewrite (IH (i + 16)%nat ltac:(lia) k r E). f_equal. f_equal. lia.
Qed.

Lemma abq_enum_in {A} (l : list A) i x : In (i, x) (enumerate l) <-> nth_error l i = Some x.
Proof.
  unfold enumerate. assert (H : forall a, In (i, x) (combine (seq a (length l)) l) <-> (a <= i)%nat /\ nth_error l (i - a) = Some x).
  { induction l as [|y l IH]; intros a; cbn [length seq combine].
    - split; [intros []|intros [_ E]; destruct (i - a)%nat; discriminate].
    - cbn [In]. rewrite IH. destruct (Nat.eq_dec i a) as [->|ne].
      + rewrite Nat.sub_diag. cbn [nth_error]. split.
        * intros [E|[E _]]; [injection E as ->; split; [lia|reflexivity]|lia].
        * intros [_ E]. injection E as ->. left; reflexivity.
      + split.
        * intros [E|[E1 E2]]; [injection E as E _; congruence|]. split; [lia|]. replace (i - a)%nat with (S (i - S a)) by lia. exact E2.
        * intros [E1 E2]. right. split; [lia|]. replace (i - a)%nat with (S (i - S a)) in E2 by lia. exact E2. }
  rewrite H, Nat.sub_0_r. split; [tauto|intros; split; [lia|assumption]].
Qed.
Lemma abq_existsb x l : existsb (Nat.eqb x) l = true <-> In x l.
Proof.
  rewrite existsb_exists. split; [intros [y [H E]]; apply Nat.eqb_eq in E; subst; exact H|intros H; exists x; split; [exact H|apply Nat.eqb_refl]].
Qed.
Lemma abq_existsb_f x l : existsb (Nat.eqb x) l = false <-> ~ In x l.
Proof. rewrite <- abq_existsb. destruct (existsb _ _); split; congruence. Qed.
Lemma abq_elements els ecc k a b :
  In (k, (a, b)) (element_lines els ecc) <->
  exists e, nth_error els e = Some (nth e els (mkAe 0 0 [])) /\ ~ In e ecc /\ k = S e /\
    a = S (ae_n1 (nth e els (mkAe 0 0 []))) /\ b = S (ae_n2 (nth e els (mkAe 0 0 []))).
Proof.
  unfold element_lines. rewrite in_map_iff. split.
  - intros [[e x] [E H]]. apply filter_In in H. destruct H as [H C]. apply abq_enum_in in H. cbn [fst snd] in *.
    apply negb_true_iff, abq_existsb_f in C. injection E as <- <- <-. exists e.
    rewrite (nth_error_nth _ _ _ H). repeat split; try assumption; lia.
  - intros [e [H [C [-> [-> ->]]]]]. exists (e, nth e els (mkAe 0 0 [])). split; [cbn [fst snd]; rewrite !Nat.add_1_r; reflexivity|].
    apply filter_In. split; [apply abq_enum_in; exact H|]. cbn [fst]. apply negb_true_iff, abq_existsb_f. exact C.
Qed.
Lemma abq_enum_fst {A} (l : list A) : map fst (enumerate l) = seq 0 (length l).
Proof.
  unfold enumerate. generalize 0%nat. induction l as [|x l IH]; intros a; [reflexivity|]. cbn. f_equal. apply IH.
Qed.
Lemma abq_elements_nodup els ecc : NoDup (map fst (element_lines els ecc)).
Proof.
  unfold element_lines. rewrite map_map. cbn [fst].
  assert (H : forall l : list (nat * aelem), NoDup (map fst l) -> NoDup (map (fun x => (fst x + 1)%nat) (filter (fun p => negb (existsb (Nat.eqb (fst p)) ecc)) l))).
  { induction l as [|p l IH]; intros N; [constructor|]. cbn in N. inversion N as [|a b Hn N']; subst a b. cbn [filter].
    destruct (negb _); [|apply IH, N']. cbn [map]. constructor; [|apply IH, N'].
    intros K. apply in_map_iff in K. destruct K as [p' [E K]]. apply filter_In in K. apply Hn. apply in_map_iff. exists p'. split; [lia|tauto]. }
  apply H. rewrite abq_enum_fst. apply seq_NoDup.
Qed.

Lemma abq_numbers total els ids : numbers total els = Some ids <-> (forall e, In e els -> (e < total)%nat) /\ ids = map S els.
Proof.
  unfold numbers. destruct (forallb _ els) eqn:E.
  - rewrite forallb_forall in E. split.
    + intros H; injection H as <-. split; [intros e He; apply Nat.ltb_lt, E, He|]. apply map_ext. intros; lia.
    + intros [_ ->]. f_equal. apply map_ext. intros; lia.
  - split; [discriminate|]. intros [H _]. exfalso. assert (forallb (fun e => e <? total)%nat els = true); [|congruence].
    apply forallb_forall. intros e He. apply Nat.ltb_lt, H, He.
Qed.

(* releases *)
Lemma abq_rel_fold els l st k :
  (In k (fst (fold_left (add_release els) l st)) <-> In k (fst st) \/ exists e, In e l /\ k = S e /\ In 2%nat (ae_rel (nth e els (mkAe 0 0 [])))) /\
  (In k (snd (fold_left (add_release els) l st)) <-> In k (snd st) \/ exists e, In e l /\ k = S e /\
     ~ In 2%nat (ae_rel (nth e els (mkAe 0 0 []))) /\ In 5%nat (ae_rel (nth e els (mkAe 0 0 [])))).
Proof.
  revert st. induction l as [|e l IH]; intros st; cbn [fold_left].
  - split; (split; [auto|intros [H|[e [[] _]]]; exact H]).
  - destruct (IH (add_release els st e)) as [A B]. rewrite A, B. clear A B IH. unfold add_release.
    set (rel := ae_rel (nth e els (mkAe 0 0 []))).
    destruct (existsb (Nat.eqb 2) rel) eqn:E2; [apply abq_existsb in E2|apply abq_existsb_f in E2].
    + cbn [fst snd]. rewrite in_app_iff. cbn [In]. split; split.
      * intros [[H|[H|[]]]|[x [H1 H2]]]; [left; exact H|right; exists e; subst rel; repeat split; auto; lia|right; exists x; tauto].
      * intros [H|[x [[->|H1] [-> H3]]]]; [left; left; exact H|left; right; left; lia|right; exists x; tauto].
      * intros [H|[x [H1 H2]]]; [left; exact H|right; exists x; tauto].
      * intros [H|[x [[->|H1] H2]]]; [left; exact H|subst rel; tauto|right; exists x; tauto].
    + destruct (existsb (Nat.eqb 5) rel) eqn:E5; [apply abq_existsb in E5|apply abq_existsb_f in E5]; cbn [fst snd]; rewrite ?in_app_iff; cbn [In].
      * split; split.
        -- intros [H|[x [H1 H2]]]; [left; exact H|right; exists x; tauto].
        -- intros [H|[x [[->|H1] [H2 H3]]]]; [left; exact H|subst rel; tauto|right; exists x; tauto].
        -- intros [[H|[H|[]]]|[x [H1 H2]]]; [left; exact H|right; exists e; subst rel; repeat split; auto; lia|right; exists x; tauto].
        -- intros [H|[x [[->|H1] [-> H3]]]]; [left; left; exact H|left; right; left; lia|right; exists x; tauto].
      * split; split.
        -- intros [H|[x [H1 H2]]]; [left; exact H|right; exists x; tauto].
        -- intros [H|[x [[->|H1] [H2 H3]]]]; [left; exact H|subst rel; tauto|right; exists x; tauto].
        -- intros [H|[x [H1 H2]]]; [left; exact H|right; exists x; tauto].
        -- intros [H|[x [[->|H1] [H2 [H3 H4]]]]]; [left; exact H|subst rel; tauto|right; exists x; tauto].
Qed.
Definition abq_m_ok (els : list aelem) (opt : aopts) (ms : list amember) (st0 st : list aset * (list nat * list nat)) :=
  (exists add, fst st = fst st0 ++ add /\
     add = map (fun m => mkAs (NMember (am_name m)) [map S (am_els m)]) (filter (fun m => existsb (Nat.eqb (am_name m)) (ao_incl opt)) ms)) /\
  (forall m, In m ms -> In (am_name m) (ao_incl opt) -> am_els m <> [] /\ forall e, In e (am_els m) -> (e < length els)%nat) /\
  (forall k, In k (fst (snd st)) <-> In k (fst (snd st0)) \/ exists e, in_long_member ms (ao_incl opt) e /\ k = S e /\
     In 2%nat (ae_rel (nth e els (mkAe 0 0 [])))) /\
  (forall k, In k (snd (snd st)) <-> In k (snd (snd st0)) \/ exists e, in_long_member ms (ao_incl opt) e /\ k = S e /\
     ~ In 2%nat (ae_rel (nth e els (mkAe 0 0 []))) /\ In 5%nat (ae_rel (nth e els (mkAe 0 0 [])))).
Lemma abq_long_cons m ms incl e : in_long_member (m :: ms) incl e <->
  (In (am_name m) incl /\ In e (am_els m) /\ (1 < length (am_els m))%nat) \/ in_long_member ms incl e.
Proof.
  unfold in_long_member. split.
  - intros [x [[->|H] R]]; [left; tauto|right; exists x; tauto].
  - intros [H|[x [H R]]]; [exists m; split; [left; reflexivity|exact H]|exists x; split; [right; exact H|exact R]].
Qed.
Lemma abq_incl_guard (n : nat) l : ((0 <? length l)%nat && existsb (Nat.eqb n) l)%bool = existsb (Nat.eqb n) l.
Proof. destruct l; reflexivity. Qed.
Lemma abq_members els opt ms st0 st : fold_opt (member_set els opt) ms st0 = Some st -> abq_m_ok els opt ms st0 st.
Proof.
  revert st0. induction ms as [|m ms IH]; intros st0; cbn [fold_opt].
  - intros H; injection H as <-. split; [exists []; rewrite app_nil_r; auto|]. split; [intros m []|].
    split; intros k; (split; [auto|intros [H|[e [[x [[] _]] _]]]; exact H]).
  - unfold member_set at 1. rewrite abq_incl_guard. cbn [filter] in *.
    destruct (existsb (Nat.eqb (am_name m)) (ao_incl opt)) eqn:Ei.
    + destruct (numbers (length els) (am_els m)) as [ids|] eqn:En; [|discriminate]. apply abq_numbers in En. destruct En as [Hlt ->].
      apply abq_existsb in Ei.
      assert (K : forall st1, fst st1 = fst st0 ++ [mkAs (NMember (am_name m)) [map S (am_els m)]] -> am_els m <> [] ->
         (forall k, In k (fst (snd st1)) <-> In k (fst (snd st0)) \/ exists e, ((1 < length (am_els m))%nat /\ In e (am_els m)) /\ k = S e /\ In 2%nat (ae_rel (nth e els (mkAe 0 0 [])))) ->
         (forall k, In k (snd (snd st1)) <-> In k (snd (snd st0)) \/ exists e, ((1 < length (am_els m))%nat /\ In e (am_els m)) /\ k = S e /\ ~ In 2%nat (ae_rel (nth e els (mkAe 0 0 []))) /\ In 5%nat (ae_rel (nth e els (mkAe 0 0 [])))) ->
         fold_opt (member_set els opt) ms st1 = Some st -> abq_m_ok els opt (m :: ms) st0 st).
      { intros st1 F1 Ne R1 R2 H. destruct (IH st1 H) as [[add [A1 A2]] [B [C D]]].
        split; [|split; [|split]].
        - eexists. split; [rewrite A1, F1, <- app_assoc; reflexivity|]. cbn [filter]. rewrite (proj2 (abq_existsb _ _) Ei). cbn [map app]. rewrite A2. reflexivity.
        - intros x [<-|Hx] Hi; [split; [exact Ne|exact Hlt]|apply B; assumption].
        - intros k. rewrite C, R1. split.
          + intros [[H0|[e [[P Q] R]]]|[e [P R]]]; [left; exact H0|right; exists e; rewrite abq_long_cons; tauto|right; exists e; rewrite abq_long_cons; tauto].
          + intros [H0|[e [P R]]]; [left; left; exact H0|]. rewrite abq_long_cons in P. destruct P as [[P1 [P2 P3]]|P]; [left; right; exists e; tauto|right; exists e; tauto].
        - intros k. rewrite D, R2. split.
          + intros [[H0|[e [[P Q] R]]]|[e [P R]]]; [left; exact H0|right; exists e; rewrite abq_long_cons; tauto|right; exists e; rewrite abq_long_cons; tauto].
          + intros [H0|[e [P R]]]; [left; left; exact H0|]. rewrite abq_long_cons in P. destruct P as [[P1 [P2 P3]]|P]; [left; right; exists e; tauto|right; exists e; tauto]. }
      destruct (Nat.ltb_spec 1 (length (am_els m))) as [Hl|Hl].
      * intros H. match type of H with fold_opt _ _ ?s1 = _ => apply (K s1) end; [reflexivity|intros Z; rewrite Z in Hl; cbn in Hl; lia| | |exact H]; intros k; cbn [snd];
          destruct (abq_rel_fold els (am_els m) (snd st0) k) as [P Q]; [rewrite P|rewrite Q];
          (split; [intros [H0|[e [H1 H2]]]; [left; exact H0|right; exists e; tauto]|intros [H0|[e [[H1 H1'] H2]]]; [left; exact H0|right; exists e; tauto]]).
      * destruct (am_els m) as [|e1 r] eqn:Ee; [discriminate|]. cbn [map]. cbn [length] in Hl. assert (r = []) by (destruct r; [reflexivity|cbn in Hl; lia]). subst r.
        intros H. match type of H with fold_opt _ _ ?s1 = _ => apply (K s1) end; [reflexivity|discriminate| | |exact H]; intros k; cbn [snd length];
          (split; [auto|intros [H0|[e [[H1 _] _]]]; [exact H0|lia]]).
    + intros H. apply abq_existsb_f in Ei. destruct (IH st0 H) as [[add [A1 A2]] [B [C D]]].
      split; [|split; [|split]].
      * exists add. split; [exact A1|]. cbn [filter]. rewrite (proj2 (abq_existsb_f _ _) Ei). exact A2.
      * intros x [<-|Hx] Hi; [contradiction|apply B; assumption].
      * intros k. rewrite C. split; (intros [H0|[e [P R]]]; [left; exact H0|right; exists e; rewrite abq_long_cons in *; tauto]).
      * intros k. rewrite D. split; (intros [H0|[e [P R]]]; [left; exact H0|right; exists e; rewrite abq_long_cons in *; tauto]).
Qed.
Lemma abq_sets_fold total sets acc o :
  fold_opt (fun acc s => match numbers total (snd s) with
     | Some (i :: ids) => Some (acc ++ [mkAs (NSet (fst s)) (rows16 (i :: ids))]) | _ => None end) sets acc = Some o ->
  o = acc ++ map (fun s => mkAs (NSet (fst s)) (rows16 (map S (snd s)))) sets.
Proof.
  revert acc. induction sets as [|s sets IH]; intros acc; cbn [fold_opt map].
  - intros H; injection H as <-. rewrite app_nil_r. reflexivity.
  - destruct (numbers total (snd s)) as [ids|] eqn:E; [|discriminate]. apply abq_numbers in E. destruct E as [_ E].
    destruct ids as [|i ids]; [discriminate|]. intros H. apply IH in H. rewrite H, <- app_assoc, E. reflexivity.
Qed.
Lemma abq_part els mems opt sets : part_sets els mems opt = Some sets ->
  exists s1 s2,
  sets = map (fun m => mkAs (NMember (am_name m)) [map S (am_els m)]) (filter (fun m => existsb (Nat.eqb (am_name m)) (ao_incl opt)) mems)
    ++ (if (1 <? length (ao_top opt))%nat then [mkAs NTop (rows16 (map S (ao_top opt)))] else [])
    ++ (if (1 <? length (ao_bottom opt))%nat then [mkAs NBottom (rows16 (map S (ao_bottom opt)))] else [])
    ++ map (fun s => mkAs (NSet (fst s)) (rows16 (map S (snd s)))) (ao_sets opt)
    ++ [mkAs NS1 (rows16 s1); mkAs NS2 (rows16 s2)] /\
  (forall k, In k s1 <-> exists e, in_long_member mems (ao_incl opt) e /\ k = S e /\ In 2%nat (ae_rel (nth e els (mkAe 0 0 [])))) /\
  (forall k, In k s2 <-> exists e, in_long_member mems (ao_incl opt) e /\ k = S e /\
     ~ In 2%nat (ae_rel (nth e els (mkAe 0 0 []))) /\ In 5%nat (ae_rel (nth e els (mkAe 0 0 [])))).
Proof.
  unfold part_sets. destruct (fold_opt (member_set els opt) mems ([], ([], []))) as [[ms [s1 s2]]|] eqn:E; [|discriminate].
  apply abq_members in E. destruct E as [[add [A1 A2]] [_ [C D]]]. cbn [fst snd app] in *.
  unfold gap_set. destruct (numbers (length els) (ao_top opt)) as [t|] eqn:Et; [|discriminate].
  destruct (numbers (length els) (ao_bottom opt)) as [b|] eqn:Eb; [|discriminate].
  apply abq_numbers in Et. apply abq_numbers in Eb. destruct Et as [_ ->], Eb as [_ ->].
  destruct (fold_opt _ (ao_sets opt) []) as [o|] eqn:Eo; [|discriminate]. apply abq_sets_fold in Eo. cbn [app] in Eo. subst o.
  intros H. injection H as <-. exists s1, s2. rewrite !map_length. split; [subst ms add; reflexivity|]. split.
  - intros k. rewrite C. split; [intros [[]|H]; exact H|auto].
  - intros k. rewrite D. split; [intros [[]|H]; exact H|auto].
Qed.

(* plane nodes *)
Lemma abq_remove_spec x l r : list_remove x l = Some r -> NoDup l -> In x l /\ NoDup r /\ forall y, In y r <-> In y l /\ y <> x.
Proof.
  revert r. induction l as [|z l IH]; intros r; cbn [list_remove]; [discriminate|].
  destruct (Nat.eqb_spec z x) as [->|ne].
  - intros H; injection H as <-. intros N. inversion N; subst. split; [left; reflexivity|]. split; [assumption|].
    intros y. cbn [In]. split; [intros Hy; split; [auto|intros ->; contradiction]|intros [[->|Hy] Hn]; [congruence|exact Hy]].
  - destruct (list_remove x l) as [r'|]; [|discriminate]. cbn. intros H; injection H as <-. intros N. inversion N; subst.
    destruct (IH r' eq_refl H2) as [A [B C]]. split; [right; exact A|]. split.
    + constructor; [|exact B]. rewrite C. tauto.
    + intros y. cbn [In]. rewrite C. split; [intros [->|H]; tauto|intros [[->|H] Hn]; tauto].
Qed.
Lemma abq_remove_none x l : list_remove x l = None <-> ~ In x l.
Proof.
  induction l as [|z l IH]; cbn [list_remove In]; [tauto|]. destruct (Nat.eqb_spec z x); [split; [discriminate|tauto]|].
  destruct (list_remove x l); cbn; [split; [discriminate|]|tauto]. intros H. exfalso. assert (~ In x l) by tauto. apply IH in H0. discriminate.
Qed.
Lemma abq_mpc_fold mpc l r : NoDup l -> fold_opt (fun l (c : nat * nat) => list_remove (fst c) l) mpc l = Some r ->
  NoDup r /\ NoDup (map fst mpc) /\ (forall c, In c mpc -> In (fst c) l) /\ forall y, In y r <-> In y l /\ ~ In y (map fst mpc).
Proof.
  revert l. induction mpc as [|c mpc IH]; intros l N; cbn [fold_opt map].
  - intros H; injection H as <-. repeat split; auto; try constructor; cbn in *; tauto.
  - destruct (list_remove (fst c) l) as [l'|] eqn:E; [|discriminate]. destruct (abq_remove_spec _ _ _ E N) as [A [B C]].
    intros H. destruct (IH l' B H) as [P [Q [R S]]]. split; [exact P|]. split; [|split].
    + constructor; [|exact Q]. intros K. apply in_map_iff in K. destruct K as [c' [Ec K]]. apply R in K. rewrite Ec in K. apply C in K. tauto.
    + intros x [<-|Hx]; [exact A|]. apply R in Hx. apply C in Hx. tauto.
    + intros y. rewrite S, C. cbn [In]. split; [intros [[H1 H2] H3]; split; [exact H1|intros [H4|H4]; [congruence|contradiction]]|].
      intros [H1 H2]. repeat split; auto.
Qed.
Lemma abq_mpc_some mpc l : NoDup l -> NoDup (map fst mpc) -> (forall c, In c mpc -> In (fst c) l) ->
  exists r, fold_opt (fun l (c : nat * nat) => list_remove (fst c) l) mpc l = Some r.
Proof.
  revert l. induction mpc as [|c mpc IH]; intros l N D I; cbn [fold_opt]; [eexists; reflexivity|].
  cbn [map] in D. inversion D as [|a b Hn D']; subst a b. destruct (list_remove (fst c) l) as [l'|] eqn:E.
  - destruct (abq_remove_spec _ _ _ E N) as [A [B C]]. apply IH; auto. intros x Hx. apply C. split; [apply I; right; exact Hx|].
    intros Ex. apply Hn. rewrite <- Ex. apply in_map. exact Hx.
  - apply abq_remove_none in E. exfalso. apply E, I. left; reflexivity.
Qed.

(* argsort *)
Lemma abq_insert_perm key i l : Permutation (insert_by key i l) (i :: l).
Proof.
  induction l as [|j l IH]; cbn [insert_by]; [reflexivity|]. destruct (Rltb (key j) (key i)); [|reflexivity].
  rewrite IH. apply perm_swap.
Qed.
Lemma abq_insert_sorted key i l : StronglySorted (fun a b => key a <= key b) l -> StronglySorted (fun a b => key a <= key b) (insert_by key i l).
Proof.
  induction l as [|j l IH]; intros S; cbn [insert_by]; [repeat constructor|]. inversion S as [|a b S' F]; subst a b.
  destruct (Rltb (key j) (key i)) eqn:E; [apply Rltb_true in E|apply Rltb_false in E].
  - constructor; [apply IH, S'|]. apply Forall_forall. intros x Hx. apply (Permutation_in _ (abq_insert_perm key i l)) in Hx.
    rewrite Forall_forall in F. destruct Hx as [<-|Hx]; [lra|apply F, Hx].
  - constructor; [exact S|]. apply Forall_forall. rewrite Forall_forall in F. intros x [<-|Hx]; [lra|]. specialize (F x Hx). lra.
Qed.
Lemma abq_argsort l : Permutation (argsort l) (seq 0 (length l)) /\ StronglySorted (fun a b => nth a l 0 <= nth b l 0) (argsort l).
Proof.
  unfold argsort. set (key := fun i => nth i l 0). generalize (seq 0 (length l)). induction l0 as [|i r [A B]]; cbn [fold_right].
  - split; [reflexivity|constructor].
  - split; [rewrite abq_insert_perm, A; reflexivity|apply abq_insert_sorted, B].
Qed.
Lemma abq_sorted_firstn {A} (R : A -> A -> Prop) n l a b : StronglySorted R l -> In a (firstn n l) -> In b (skipn n l) -> R a b.
Proof.
  revert n. induction l as [|x l IH]; intros n S; [rewrite firstn_nil; intros []|]. inversion S as [|u v S' F]; subst u v.
  destruct n; [intros []|]. cbn [firstn skipn In]. rewrite Forall_forall in F. intros [<-|Ha] Hb.
  - apply F. rewrite <- (firstn_skipn n l). apply in_or_app. right; exact Hb.
  - exact (IH n S' Ha Hb).
Qed.

Lemma abq_nodup_firstn {A} n (l : list A) : NoDup l -> NoDup (firstn n l).
Proof.
  revert n. induction l as [|x l IH]; intros n N; [rewrite firstn_nil; constructor|]. inversion N; subst. destruct n; [constructor|].
  cbn [firstn]. constructor; [|apply IH; assumption]. intros K. apply H1. rewrite <- (firstn_skipn n l). apply in_or_app. left. exact K.
Qed.

(* supports *)
Lemma abq_kind_eqb a b : kind_eqb a b = true <-> a = b.
Proof. destruct a, b; cbn; split; congruence. Qed.
Definition abq_code (k : akind) : acode := match k with KHinged => PINNED | KY => CODE3 | KX => XSYMM | _ => ENCASTRE end.
Lemma abq_support_in sup n c : (exists b, In b (support_sets sup) /\ In n (fst b) /\ snd b = c) <->
  exists k i, In (k, i) sup /\ n = S i /\ k <> KGeneral /\ c = abq_code k.
Proof.
  unfold support_sets. split.
  - intros [b [H [H1 H2]]]. apply in_flat_map in H. destruct H as [kc [Hk H]].
    cbn zeta in H. match type of H with In _ (if ?c then _ else _) => destruct c end; [|destruct H]. destruct H as [<-|[]]. cbn [fst snd] in *. apply in_map_iff in H1. destruct H1 as [i [<- Hi]].
    apply in_map_iff in Hi. destruct Hi as [s [<- Hs]]. apply filter_In in Hs. destruct Hs as [Hs E]. apply abq_kind_eqb in E.
    exists (fst kc), (snd s). rewrite <- E at 1. split; [rewrite <- surjective_pairing; exact Hs|]. split; [lia|].
    destruct Hk as [<-|[<-|[<-|[<-|[]]]]]; cbn in *; split; congruence.
  - intros [k [i [H [-> [Hg ->]]]]].
    assert (Hin : In (k, abq_code k) [(KFixed, ENCASTRE); (KHinged, PINNED); (KY, CODE3); (KX, XSYMM)]).
    { destruct k; cbn; tauto. }
    set (nids := map snd (filter (fun s : asupport => kind_eqb (fst s) k) sup)).
    assert (Hi : In i nids).
    { subst nids. apply in_map_iff. exists (k, i). split; [reflexivity|]. apply filter_In. split; [exact H|]. apply abq_kind_eqb. reflexivity. }
    exists (map (fun n => n + 1)%nat nids, abq_code k). split; [|split; [cbn [fst]; apply in_map_iff; exists i; split; [lia|exact Hi]|reflexivity]].
    apply in_flat_map. exists (k, abq_code k). split; [exact Hin|]. cbv zeta. cbn [fst snd].
    match goal with |- In _ (if (0 <? length ?l)%nat then _ else _) => change l with nids end.
    assert (L : (0 <? length nids)%nat = true) by (apply Nat.ltb_lt; clearbody nids; destruct nids; [destruct Hi|cbn; lia]).
    rewrite L. left. reflexivity.
Qed.
Lemma abq_held sup n dof : held (support_sets sup) n dof <->
  exists k i, In (k, i) sup /\ n = S i /\ k <> KGeneral /\ code_holds (abq_code k) dof.
Proof.
  unfold held. split.
  - intros [b [H1 [H2 H3]]]. destruct (proj1 (abq_support_in sup n (snd b))) as [k [i [A [B [C D]]]]]; [exists b; auto|].
    exists k, i. rewrite <- D. auto.
  - intros [k [i [A [B [C D]]]]]. destruct (proj2 (abq_support_in sup n (abq_code k))) as [b [H1 [H2 H3]]]; [exists k, i; auto|].
    exists b. rewrite H3. auto.
Qed.
