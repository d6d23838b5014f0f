(** Proofs: symmetry pairs of members, their sections. *)
From Verif Require Import Base EC3_model Bool_tac EC3_proofs Plate_proofs Sym_proofs.
From Verif Require Import Sym_model Sym_spec.
Require Import Reals List Bool Lra Lia Psatz PeanoNat.
Import ListNotations.
Local Open Scope R_scope.

Lemma isin_iff : forall k l, isin k l = true <-> In k l.
Proof.
  intros. unfold isin. rewrite existsb_exists. split. intros (x&H&E). apply Nat.eqb_eq in E. subst; auto.
  intro. exists k. split; auto. apply Nat.eqb_refl.
Qed.
Lemma isin_f : forall k l, isin k l = false <-> ~ In k l.
Proof. intros. rewrite <- isin_iff. destruct (isin k l); split; intros; congruence || auto. Qed.
Lemma matches_iff : forall sy a b, matches sy a b = true <-> forall x, In x a -> In (image sy x) b.
Proof.
  intros. unfold matches. rewrite forallb_forall. split; intros H x Hx. apply isin_iff, H. apply in_map; auto.
  apply in_map_iff in Hx. destruct Hx as (y&<-&Hy). apply isin_iff. auto.
Qed.
Lemma image_reflected : forall sy a b, reflected sy a b <-> b = image sy a.
Proof.
  intros. unfold reflected, rel, image. destruct (nth a sy None); split; intros.
  destruct H as [H|[H _]]; congruence. subst; auto. destruct H as [H|[_ H]]; congruence. subst; auto.
Qed.
Lemma image_invol : forall sy a, mutual sy -> image sy (image sy a) = a.
Proof.
  intros sy a M. unfold image at 2. destruct (nth a sy None) eqn:E. unfold image. rewrite (M a n E). auto. unfold image. rewrite E; auto.
Qed.
Lemma image_inj : forall sy a b, mutual sy -> image sy a = image sy b -> a = b.
Proof. intros. rewrite <- (image_invol sy a), <- (image_invol sy b) by auto. congruence. Qed.

Section Members.
Variable sy : list (option nat).
Variable ms : list (list nat).
Hypothesis Mu : mutual sy.
Hypothesis Pl : plain_members ms.

Definition mm (p q : nat) : Prop := forall x, In x (nth p ms []) -> In (image sy x) (nth q ms []).

Lemma mm_iff : forall p q, mirror_members sy ms p q <-> (p < length ms)%nat /\ (q < length ms)%nat /\ p <> q /\ mm p q.
Proof.
  intros. unfold mirror_members, mm. split; intros (?&?&?&H); repeat split; auto.
  intros x Hx. apply (H x); auto. apply image_reflected; auto. intros a b Ha Hr. apply image_reflected in Hr. subst; auto.
Qed.
Lemma two : forall p, (p < length ms)%nat -> exists a b, nth p ms [] = [a; b] /\ a <> b.
Proof. intros p H. apply Pl. apply nth_In; auto. Qed.
Lemma mm_sym : forall p q, (p < length ms)%nat -> (q < length ms)%nat -> mm p q -> mm q p.
Proof.
  intros p q Hp Hq H. destruct (two p Hp) as (a&b&Ep&Nab). destruct (two q Hq) as (c&d&Eq&Ncd). unfold mm in *. rewrite Ep, Eq in *.
  pose proof (H a ltac:(simpl; auto)) as Ha. pose proof (H b ltac:(simpl; auto)) as Hb.
  assert (Ni : image sy a <> image sy b) by (intro Q; apply Nab; apply (image_inj sy); auto).
  intros x Hx. simpl in *.
  assert (x = image sy a \/ x = image sy b) by (destruct Hx as [<-|[<-|[]]], Ha as [Ha|[Ha|[]]], Hb as [Hb|[Hb|[]]]; subst; auto; congruence).
  destruct H0; subst; rewrite image_invol; auto.
Qed.
Lemma mm_unique : forall p q q', (p < length ms)%nat -> (q < length ms)%nat -> (q' < length ms)%nat -> mm p q -> mm p q' -> q = q'.
Proof.
  intros p q q' Hp Hq Hq' H H'. apply Pl; auto.
  destruct (two p Hp) as (a&b&Ep&Nab). destruct (two q Hq) as (c&d&Eq&Ncd). unfold mm in *. rewrite Ep in *.
  pose proof (H a ltac:(simpl; auto)) as Ha. pose proof (H b ltac:(simpl; auto)) as Hb.
  pose proof (H' a ltac:(simpl; auto)) as Ha'. pose proof (H' b ltac:(simpl; auto)) as Hb'.
  assert (Ni : image sy a <> image sy b) by (intro Q; apply Nab; apply (image_inj sy); auto).
  rewrite Eq in *. intros x Hx. simpl in *.
  assert (x = image sy a \/ x = image sy b) by (destruct Hx as [<-|[<-|[]]], Ha as [Ha|[Ha|[]]], Hb as [Hb|[Hb|[]]]; subst; auto; congruence).
  destruct H0; subst; auto.
Qed.

Lemma try_skip : forall k l st, (forall q, In q l -> In q (fst st) \/ ~ mm k q) -> fold_left (try_mate sy ms k) l st = st.
Proof.
  induction l; simpl; intros st H; auto. assert (E : try_mate sy ms k st a = st).
  { unfold try_mate. destruct (isin a (fst st)) eqn:E; auto. destruct (matches sy (nth k ms []) (nth a ms [])) eqn:F; auto.
    exfalso. apply isin_f in E. destruct (H a ltac:(auto)) as [|N]; auto. apply N. intros x Hx. apply (proj1 (matches_iff _ _ _) F). auto. }
  rewrite E. apply IHl. intros; apply H; auto.
Qed.
Lemma try_one : forall k v pr q, (q < length ms)%nat -> ~ In q v -> mm k q -> (forall x, (x < length ms)%nat -> x <> q -> In x v \/ ~ mm k x) ->
  fold_left (try_mate sy ms k) (seq 0 (length ms)) (v, pr) = (v ++ [q], put q (Some k) (put k (Some q) pr)).
Proof.
  intros k v pr q Hq Hv Hm Ho.
  replace (seq 0 (length ms)) with (seq 0 q ++ q :: seq (S q) (length ms - S q)).
  2:{ replace (length ms) with (q + S (length ms - S q))%nat at 2 by lia. rewrite seq_app. reflexivity. }
  rewrite fold_left_app. rewrite (try_skip k (seq 0 q)).
  2:{ intros x Hx. apply in_seq in Hx. apply Ho; lia. }
  cbn [fold_left]. unfold try_mate at 2. cbn [fst snd]. rewrite (proj2 (isin_f _ _) Hv).
  replace (matches sy (nth k ms []) (nth q ms [])) with true by (symmetry; apply matches_iff; exact Hm).
  apply try_skip. intros x Hx. apply in_seq in Hx. cbn [fst]. destruct (Ho x ltac:(lia) ltac:(lia)); auto. left. apply in_or_app; auto.
Qed.

Record binv (k : nat) (v : list nat) (pr : list (option nat)) : Prop := {
  b_len : length pr = length ms;
  b_sound : forall a b, rel pr a b -> mirror_members sy ms a b;
  b_vis : forall a, (a < k)%nat -> In a v;
  b_bound : forall a, In a v -> (a < length ms)%nat;
  b_done : forall a, In a v -> (k <= a)%nat -> exists b, rel pr a b /\ In b v;
  b_all : forall a b, (a < k)%nat -> mirror_members sy ms a b -> rel pr a b /\ In b v }.

Lemma mirror_members_sym : forall p q, mirror_members sy ms p q -> mirror_members sy ms q p.
Proof. intros p q H. apply mm_iff in H. destruct H as (?&?&?&?). apply mm_iff. repeat split; auto. apply mm_sym; auto. Qed.
Lemma mirror_members_unique : forall p q q', mirror_members sy ms p q -> mirror_members sy ms p q' -> q = q'.
Proof. intros p q q' H H'. apply mm_iff in H, H'. destruct H as (?&?&?&?), H' as (?&?&?&?). apply (mm_unique p); auto. Qed.

Lemma binv_step : forall k st, (k < length ms)%nat -> binv k (fst st) (snd st) -> binv (S k) (fst (mate_step sy ms st k)) (snd (mate_step sy ms st k)).
Proof.
  intros k [v pr] Hk [L So Vi Bo Do Al]. cbn [fst snd] in *. unfold mate_step. cbn [fst snd].
  destruct (isin k v) eqn:Ek.
  { apply isin_iff in Ek. cbn [fst snd]. constructor; auto.
    - intros a Ha. destruct (Nat.eq_dec a k). subst; auto. apply Vi; lia.
    - intros a Ha Hka. apply Do; auto; lia.
    - intros a b Ha M. destruct (Nat.eq_dec a k) as [->|]. 2: apply Al; auto; lia.
      destruct (Do k Ek ltac:(lia)) as (x&Hx&Hv). pose proof (So _ _ Hx). assert (x = b) by (apply (mirror_members_unique k); auto). subst; auto. }
  apply isin_f in Ek.
  assert (Fr : forall q, mirror_members sy ms k q -> ~ In q (v ++ [k])).
  { intros q M Hq. apply in_app_or in Hq. destruct Hq as [Hq|[<-|[]]]. 2: destruct M as (_&_&N&_); auto.
    assert (M' := mirror_members_sym _ _ M).
    destruct (Nat.lt_ge_cases q k). destruct (Al q k H M'). auto.
    destruct (Do q Hq H) as (x&Hx&Hxv). pose proof (So _ _ Hx). assert (x = k) by (apply (mirror_members_unique q); auto). subst; auto. }
  assert (Hno : (forall q, ~ mirror_members sy ms k q) -> binv (S k) (v ++ [k]) pr).
  { intro No. constructor; auto.
    - intros a Ha. apply in_or_app. destruct (Nat.eq_dec a k). subst; simpl; auto. left. apply Vi; lia.
    - intros a Ha. apply in_app_or in Ha. destruct Ha as [|[<-|[]]]; auto.
    - intros a Ha Hka. apply in_app_or in Ha. destruct Ha as [Ha|[<-|[]]]; [|lia]. destruct (Do a Ha ltac:(lia)) as (b&?&?). exists b. split; auto. apply in_or_app; auto.
    - intros a b Ha M. destruct (Nat.eq_dec a k) as [->|]. exfalso; eapply No; eauto. destruct (Al a b ltac:(lia) M). split; auto. apply in_or_app; auto. }
  assert (Hfold : forall st', st' = fold_left (try_mate sy ms k) (seq 0 (length ms)) (v ++ [k], pr) -> binv (S k) (fst st') (snd st')).
  { intros st' ->.
    assert (Dec : (exists q, mirror_members sy ms k q) \/ forall q, ~ mirror_members sy ms k q).
    { destruct (existsb (fun q => (negb (Nat.eqb k q) && matches sy (nth k ms []) (nth q ms []))%bool) (seq 0 (length ms))) eqn:E.
      - left. apply existsb_exists in E. destruct E as (q&Hq&E). apply in_seq in Hq. apply andb_true_iff in E. destruct E as (E1&E2).
        exists q. apply mm_iff. repeat split; auto; try lia. intro; subst; rewrite Nat.eqb_refl in E1; discriminate.
        intros x Hx. apply (proj1 (matches_iff _ _ _) E2); auto.
      - right. intros q M. apply mm_iff in M. destruct M as (_&Hq&Hn&M). assert (X : existsb (fun q => (negb (Nat.eqb k q) && matches sy (nth k ms []) (nth q ms []))%bool) (seq 0 (length ms)) = true).
        { apply existsb_exists. exists q. split. apply in_seq; lia. apply andb_true_iff. split. apply negb_true_iff, Nat.eqb_neq; auto. apply matches_iff; exact M. }
        congruence. }
    destruct Dec as [(q&M)|No].
    2:{ rewrite try_skip. apply Hno; auto. intros q Hq. apply in_seq in Hq. cbn [fst]. destruct (Nat.eq_dec q k) as [->|]. left; apply in_or_app; simpl; auto.
        right. intro M. apply (No q). apply mm_iff. repeat split; auto; lia. }
    pose proof (Fr q M) as Hq. pose proof M as M0. apply mm_iff in M0. destruct M0 as (_&Hql&Hkq&Mm).
    rewrite (try_one k (v ++ [k]) pr q Hql Hq Mm).
    2:{ intros x Hx Hxq. right. intro Mx. apply Hxq. apply (mm_unique k); auto. }
    cbn [fst snd].
    assert (N1 : nth q (put q (Some k) (put k (Some q) pr)) None = Some k) by (apply put_same; rewrite put_len; lia).
    assert (N2 : nth k (put q (Some k) (put k (Some q) pr)) None = Some q) by (rewrite put_other by auto; apply put_same; lia).
    assert (N3 : forall i, i <> q -> i <> k -> nth i (put q (Some k) (put k (Some q) pr)) None = nth i pr None) by (intros; rewrite !put_other; auto).
    assert (Iq : In q ((v ++ [k]) ++ [q])) by (apply in_or_app; simpl; auto).
    assert (Ik : In k ((v ++ [k]) ++ [q])) by (apply in_or_app; left; apply in_or_app; simpl; auto).
    assert (Iv : forall a, In a v -> In a ((v ++ [k]) ++ [q])) by (intros; apply in_or_app; left; apply in_or_app; auto).
    constructor.
    - rewrite !put_len; auto.
    - intros a b. unfold rel. destruct (Nat.eq_dec a q) as [->|]. rewrite N1. intros [= <-]. apply mirror_members_sym; auto.
      destruct (Nat.eq_dec a k) as [->|]. rewrite N2. intros [= <-]; auto. rewrite N3 by auto. apply So.
    - intros a Ha. destruct (Nat.eq_dec a k). subst; auto. apply Iv, Vi; lia.
    - intros a Ha. apply in_app_or in Ha. destruct Ha as [Ha|[<-|[]]]; auto. apply in_app_or in Ha. destruct Ha as [Ha|[<-|[]]]; auto.
    - intros a Ha Hka. apply in_app_or in Ha. destruct Ha as [Ha|[<-|[]]]. 2: exists k; split; auto.
      apply in_app_or in Ha. destruct Ha as [Ha|[<-|[]]]. 2: lia. destruct (Do a Ha ltac:(lia)) as (b&?&?). exists b. split; auto. unfold rel. rewrite N3; auto.
      intro; subst. apply Hq. apply in_or_app; auto. lia.
    - intros a b Ha Mab. destruct (Nat.eq_dec a k) as [->|]. assert (b = q) by (apply (mirror_members_unique k); auto). subst. split; auto.
      destruct (Al a b ltac:(lia) Mab). split; auto. unfold rel. rewrite N3; auto. intro; subst. apply Hq. apply in_or_app. left. apply Vi; lia. }
  destruct (nth (nth 0 (nth k ms []) 0%nat) sy None) eqn:E0; [eapply Hfold; reflexivity|].
  destruct (nth (nth 1 (nth k ms []) 0%nat) sy None) eqn:E1; [eapply Hfold; reflexivity|].
  cbn [fst snd]. apply Hno. intros q M. apply mm_iff in M. destruct M as (_&Hq&Hkq&M). apply Hkq. apply Pl; auto.
  destruct (two k Hk) as (a&b&E&_). unfold mm in M. rewrite E in *. cbn [nth] in E0, E1. intros x Hx. specialize (M x Hx).
  unfold image in M. destruct Hx as [<-|[<-|[]]]. rewrite E0 in M; auto. rewrite E1 in M; auto.
Qed.

Lemma binv_fold : forall n k st, (k + n <= length ms)%nat -> binv k (fst st) (snd st) ->
  binv (k + n) (fst (fold_left (mate_step sy ms) (seq k n) st)) (snd (fold_left (mate_step sy ms) (seq k n) st)).
Proof.
  induction n; intros k st H I; simpl. rewrite Nat.add_0_r; auto.
  rewrite <- Nat.add_succ_comm. apply IHn. lia. apply binv_step; auto; lia.
Qed.
Lemma mates_exact_sec : forall p q, rel (pair_members sy ms (repeat None (length ms))) p q <-> mirror_members sy ms p q.
Proof.
  intros. unfold pair_members. assert (I : binv 0 (fst (@nil nat, repeat (@None nat) (length ms))) (snd (@nil nat, repeat (@None nat) (length ms)))).
  { cbn [fst snd]. constructor. apply repeat_length. intros a b H. unfold rel in H. rewrite nth_fresh in H; discriminate. intros; lia. intros a [].
    intros a []. intros; lia. }
  pose proof (binv_fold (length ms) 0 _ ltac:(lia) I) as [L So Vi Bo Do Al]. simpl in *. split. apply So.
  intro M. apply Al; auto. apply M.
Qed.
End Members.

Lemma mates_exact_lemma : forall sy ms, mutual sy -> plain_members ms -> forall p q,
  rel (pair_members sy ms (repeat None (length ms))) p q <-> mirror_members sy ms p q.
Proof. intros. apply mates_exact_sec; auto. Qed.
Lemma mates_mutual_lemma : forall sy ms, mutual sy -> plain_members ms -> mutual (pair_members sy ms (repeat None (length ms))).
Proof. intros sy ms H H0 p q Hr. apply mates_exact_lemma in Hr; auto. apply mates_exact_lemma; auto. apply mirror_members_sym; auto. Qed.

(** Whole call. *)
Lemma symmetry_members_lemma : forall s ns ms, no_chains s ns -> plain_members ms ->
  let sy := pair_nodes s ns (repeat None (length ns)) in
  forall p q, rel (pair_members sy ms (repeat None (length ms))) p q ->
  rel (pair_members sy ms (repeat None (length ms))) q p /\
  forall a, In a (nth p ms []) -> exists b, In b (nth q ms []) /\ (b = a \/ mirror_nodes s ns a b).
Proof.
  intros s ns ms T P sy p q H. pose proof (sym_mutual_lemma s ns T) as Mu. fold sy in Mu. split. apply mates_mutual_lemma; auto.
  apply mates_exact_lemma in H; auto. destruct H as (_&_&_&H). intros a Ha. exists (image sy a). split. apply (H a); auto. apply image_reflected; auto.
  unfold image. destruct (nth a sy None) eqn:E; auto. right. apply sym_sound_lemma. exact E.
Qed.

(** Sections. *)
Lemma set_profiles_lemma : forall pr l sec, (forall a b, pr a = Some b -> pr b = Some a) ->
  exists sec', set_profiles (fun _ => Single) pr sec l = Some sec' /\
    (forall k, sec' k = last_given pr k (sec k) l).
Proof.
  intros pr l sec Mu. revert sec. induction l as [|[k v] l]; intros sec.
  - exists sec. split; auto.
  - cbn [set_profiles]. unfold set_profile. destruct (pr k) as [q|] eqn:E; cbn [bind].
    + destruct (IHl (fun m => if (Nat.eqb m k || Nat.eqb m q)%bool then v else sec m)) as (sec'&E1&E2). exists sec'. split; auto.
      intros m. rewrite E2. unfold last_given. cbn [filter map fst snd].
      set (f := filter _ _). replace (Nat.eqb k m || match pr m with Some q0 => Nat.eqb k q0 | None => false end)%bool with (Nat.eqb m k || Nat.eqb m q)%bool.
      2:{ destruct (Nat.eqb_spec m k), (Nat.eqb_spec k m); try congruence; auto. cbn [orb]. destruct (Nat.eqb_spec m q).
          subst. rewrite (Mu _ _ E). rewrite Nat.eqb_refl; auto. destruct (pr m) eqn:Em; auto. destruct (Nat.eqb_spec k n2); auto. subst. apply Mu in Em. congruence. }
      destruct (Nat.eqb m k || Nat.eqb m q)%bool; auto. fold f. cbn [map]. destruct (map snd f) eqn:Ef; auto. cbn [last snd].
      clear -f. clear f. change (last (n :: l0) v = last (n :: l0) (sec m)). revert n. induction l0; intros; auto. exact (IHl0 a).
    + destruct (IHl (fun m => if Nat.eqb m k then v else sec m)) as (sec'&E1&E2). exists sec'. split; auto.
      intros m. rewrite E2. unfold last_given. cbn [filter map fst snd].
      set (f := filter _ _). replace (Nat.eqb k m || match pr m with Some q0 => Nat.eqb k q0 | None => false end)%bool with (Nat.eqb m k).
      2:{ destruct (Nat.eqb_spec m k), (Nat.eqb_spec k m); try congruence; auto. cbn [orb]. destruct (pr m) eqn:Em; auto. destruct (Nat.eqb_spec k n1); auto. subst. apply Mu in Em. congruence. }
      destruct (Nat.eqb m k); auto. fold f. cbn [map]. destruct (map snd f) eqn:Ef; auto. cbn [last snd].
      change (last (n :: l0) v = last (n :: l0) (sec m)). clear Ef. revert n. induction l0; intros; auto. exact (IHl0 a).
Qed.
Lemma pair_sections_lemma : forall pr l sec, (forall a b, pr a = Some b -> pr b = Some a) ->
  exists sec', set_profiles (fun _ => Single) pr sec l = Some sec' /\
    forall a b, pr a = Some b -> (sec a = sec b \/ exists e, In e l /\ (fst e = a \/ fst e = b)) -> sec' a = sec' b.
Proof.
  intros pr l sec Mu. destruct (set_profiles_lemma pr l sec Mu) as (sec'&E&H). exists sec'. split; auto.
  intros a b Eab Q. rewrite !H. unfold last_given. rewrite Eab, (Mu _ _ Eab).
  rewrite (filter_ext (fun x : nat * nat => (Nat.eqb (fst x) b || Nat.eqb (fst x) a)%bool) (fun x : nat * nat => (Nat.eqb (fst x) a || Nat.eqb (fst x) b)%bool)) by (intros; apply orb_comm).
  destruct Q as [->|(e&He&Hab)]; auto.
  set (f := filter _ _). assert (In e f). { apply filter_In. split; auto. apply orb_true_iff. destruct Hab; [left|right]; apply Nat.eqb_eq; auto. }
  destruct f as [|x f]. destruct H0. cbn [map]. clear. generalize (snd x). induction (map snd f); intros; auto. exact (IHl a0).
Qed.
Lemma pair_sweep_lemma : forall pr best n sec, (forall a b, pr a = Some b -> pr b = Some a /\ a <> b /\ (a < n)%nat) ->
  exists sec', pair_sweep (fun _ => Single) pr best [] sec (seq 0 n) = Some sec' /\
    forall k, (k < n)%nat -> sec' k = best (match pr k with Some q => Nat.min k q | None => k end).
Proof.
  intros pr best n sec Mu.
  assert (G : forall m k expl sec, (k + m = n)%nat ->
    (forall a, (a < k)%nat -> In a expl) ->
    (forall a, In a expl -> (a < n)%nat -> sec a = best (match pr a with Some q => Nat.min a q | None => a end)) ->
    (forall a, In a expl -> (k <= a)%nat -> exists b, pr a = Some b /\ (b < k)%nat) ->
    (forall a b, In a expl -> pr a = Some b -> In b expl) ->
    exists sec', pair_sweep (fun _ => Single) pr best expl sec (seq k m) = Some sec' /\
      forall a, (a < n)%nat -> sec' a = best (match pr a with Some q => Nat.min a q | None => a end)).
  { induction m; intros k expl sec0 Hm H1 H2 H3 H4; cbn [seq pair_sweep].
    - exists sec0. split; auto. intros a Ha. apply H2; auto. apply H1. lia.
    - destruct (isin k expl) eqn:Ek.
      + apply isin_iff in Ek. apply IHm; auto. lia. intros a Ha. destruct (Nat.eq_dec a k). subst; auto. apply H1; lia.
        intros a Ha Hk. destruct (H3 a Ha ltac:(lia)) as (b&?&?). exists b. split; auto.
      + apply isin_f in Ek. unfold set_profile. destruct (pr k) as [q|] eqn:Ep; cbn [bind].
        * destruct (Mu _ _ Ep) as (Eq&Nkq&_). assert (Hq : (k < q)%nat).
          { destruct (Nat.lt_ge_cases q k). exfalso. apply Ek. apply (H4 q k); auto. lia. }
          assert (Nq : ~ In q expl) by (intro Q; apply Ek; apply (H4 q k); auto).
          apply IHm. lia.
          -- intros a Ha. apply in_or_app. destruct (Nat.eq_dec a k). right; subst; simpl; auto. left; apply H1; lia.
          -- intros a Ha Hn. apply in_app_or in Ha. destruct (Nat.eqb_spec a k) as [->|]. cbn [orb]. rewrite Ep. f_equal. lia.
             destruct (Nat.eqb_spec a q) as [->|]. cbn [orb]. rewrite Eq. f_equal. lia. cbn [orb]. apply H2; auto. destruct Ha as [|[|[|[]]]]; congruence || auto.
          -- intros a Ha Hk. apply in_app_or in Ha. destruct Ha as [Ha|[<-|[<-|[]]]]. destruct (H3 a Ha ltac:(lia)) as (b&?&?). exists b; split; auto. lia. exists k. split; auto.
          -- intros a b Ha Hab. apply in_or_app. apply in_app_or in Ha. destruct Ha as [Ha|[<-|[<-|[]]]]. left; apply (H4 a); auto. right. rewrite Ep in Hab. injection Hab as <-. simpl; auto.
             right. rewrite Eq in Hab. injection Hab as <-. simpl; auto.
        * apply IHm. lia.
          -- intros a Ha. apply in_or_app. destruct (Nat.eq_dec a k). right; subst; simpl; auto. left; apply H1; lia.
          -- intros a Ha Hn. apply in_app_or in Ha. destruct (Nat.eqb_spec a k) as [->|]. rewrite Ep. auto. apply H2; auto. destruct Ha as [|[|[]]]; congruence || auto.
          -- intros a Ha Hk. apply in_app_or in Ha. destruct Ha as [Ha|[<-|[]]]. destruct (H3 a Ha ltac:(lia)) as (b&?&?). exists b; split; auto. lia.
          -- intros a b Ha Hab. apply in_or_app. apply in_app_or in Ha. destruct Ha as [Ha|[<-|[]]]. left; apply (H4 a); auto. congruence. }
  apply (G n 0%nat [] sec); [lia|intros; lia|intros a Q; destruct Q|intros a Q; destruct Q|intros a b Q; destruct Q].
Qed.
