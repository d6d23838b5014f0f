From Verif Require Import Sections_proofs Plate_proofs.
From Verif Require Import Loads_spec.
Require Import Psatz.

(* ------------------------------------------------------------ combinations *)
Lemma py_max_in x l : In (py_max x l) (x :: l).
Proof.
  revert x. induction l as [|y l IH]; intros x; [left; reflexivity|]. unfold py_max in *. cbn [fold_left].
  destruct (Rltb (k_value x) (k_value y)); [right; apply IH|]. destruct (IH x) as [E|E]; [left; exact E|right; right; exact E].
Qed.
Lemma py_max_ge x l : forall y, In y (x :: l) -> k_value y <= k_value (py_max x l).
Proof.
  revert x. induction l as [|z l IH]; intros x y H.
  - destruct H as [<-|[]]. unfold py_max; cbn [fold_left]. lra.
  - unfold py_max in *; cbn [fold_left]. destruct H as [<-|[<-|H]].
    + destruct (Rltb (k_value x) (k_value z)) eqn:E; [apply Rltb_true in E; apply Rle_trans with (k_value z); [lra|]|]; apply IH; left; auto.
    + destruct (Rltb (k_value x) (k_value z)) eqn:E; [apply IH; left; auto|]. apply Rltb_false in E.
      apply Rle_trans with (k_value x); [lra|]. apply IH; left; auto.
    + destruct (Rltb (k_value x) (k_value z)); apply IH; right; auto.
Qed.

Lemma indexed_split {A} (l : list A) i x : In (i, x) (indexed l) <-> exists pre post, l = pre ++ x :: post /\ length pre = i.
Proof.
  unfold indexed.
  assert (G : forall l k, In (i, x) (combine (seq k (length l)) l) <-> exists pre post, l = pre ++ x :: post /\ (k + length pre)%nat = i).
  { clear. induction l as [|y l IH]; intros k; cbn [length seq combine].
    - split; [intros []|]. intros (pre & post & E & _). destruct pre; discriminate.
    - split.
      + intros [E|H]; [injection E as <- <-; exists [], l; split; [auto|cbn; lia]|].
        apply IH in H. destruct H as (pre & post & -> & E). exists (y :: pre), post. split; [auto|cbn; lia].
      + intros (pre & post & E & L). destruct pre as [|z pre]; cbn in E; injection E as -> ->.
        * left. cbn in L. f_equal. lia.
        * right. apply IH. exists pre, post. split; auto. cbn in L. lia. }
  rewrite (G l 0%nat). reflexivity.
Qed.
Lemma drop_split {A} (pre : list A) x post : drop_nth (length pre) (pre ++ x :: post) = pre ++ post.
Proof. induction pre; cbn; [auto|f_equal; auto]. Qed.

Lemma total_app f a b : total f (a ++ b) = total f a + total f b.
Proof. induction a; cbn; unfold total in *; cbn; [ring|]. rewrite IHa. ring. Qed.
Lemma total_scale f k l : total (fun q => k * f q) l = k * total f l.
Proof. induction l; unfold total in *; cbn; [ring|]. rewrite IHl. ring. Qed.
Lemma total_ext f g l : (forall x, f x = g x) -> total f l = total g l.
Proof. intros E. unfold total. f_equal. apply map_ext. auto. Qed.

Lemma sum_excl c i l pre post k : c_Q c = pre ++ l :: post -> length pre = i ->
  sum_Q_excl i k c = total (fun q => psi k q * l_val q) (pre ++ post).
Proof.
  intros E <-. unfold sum_Q_excl. rewrite E, drop_split. apply total_ext. intros x. unfold combined. ring.
Qed.

Definition dsum (l : list (load * R)) : R := fold_right Rplus 0 (map (fun lf => snd lf * l_val (fst lf)) l).
Lemma dsum_app a b : dsum (a ++ b) = dsum a + dsum b.
Proof. induction a; unfold dsum in *; cbn; [ring|]. rewrite IHa. ring. Qed.
Lemma dsum_map f l : dsum (map (fun x => (x, f x)) l) = total (fun x => f x * l_val x) l.
Proof. induction l; unfold dsum, total in *; cbn; [auto|]. rewrite IHl. ring. Qed.

Lemma uls_lemma c kfi : c_kfi c = Some kfi ->
  exists k, uls_combine c = Some k /\ largest (uls_value kfi (c_G c) (c_Q c)) (k_value k) /\ design_value k = k_value k.
Proof.
  intros K. unfold uls_combine. rewrite K. cbn [bind]. 
  set (x := fst (uls_cands kfi c)). set (l := snd (uls_cands kfi c)).
  exists (py_max x l). split; [reflexivity|].
  assert (V : forall y, In y (x :: l) -> uls_value kfi (c_G c) (c_Q c) (k_value y) /\ design_value y = k_value y).
  { intros y [<-|H].
    - split; [left; reflexivity|]. unfold design_value, x, uls_cands. cbn [fst k_loads k_value].
      change (dsum (map (fun l => (l, 135/100*kfi)) (c_G c)) = 135/100 * kfi * sum_G c). rewrite dsum_map, total_scale. reflexivity.
    - unfold l, uls_cands in H. cbn [snd] in H. apply in_map_iff in H. destruct H as ([i q] & <- & H).
      apply indexed_split in H. destruct H as (pre & post & E & L). cbn [k_value]. split.
      + right. exists pre, q, post. split; auto. rewrite (sum_excl c i q pre post 0 E L). reflexivity.
      + unfold design_value. cbn [k_loads k_value]. fold (dsum (map (fun l0 : load => (l0, 115 / 100 * kfi)) (c_G c) ++ [(q, 15 / 10 * kfi)] ++ map (fun lo : load => (lo, 15 / 10 * kfi * psi 0 lo)) (drop_nth i (c_Q c)))).
        rewrite !dsum_app, dsum_map, (dsum_map (fun lo => 15/10*kfi*psi 0 lo)), total_scale.
        rewrite (sum_excl c i q pre post 0 E L). rewrite E, <- L, drop_split.
        rewrite (total_ext _ (fun q => (15/10*kfi) * (psi 0 q * l_val q)) (pre ++ post)) by (intros; ring). rewrite total_scale.
        unfold dsum, sum_G, total. cbn. ring. }
  destruct (V _ (py_max_in x l)) as [V1 V2]. split; [split; [exact V1|]|exact V2].
  intros w [->|(pre & q & post & E & ->)].
  - change (k_value x <= k_value (py_max x l)). apply py_max_ge. left; auto.
  - assert (I : In (length pre, q) (indexed (c_Q c))) by (apply indexed_split; eauto).
    pose proof (in_map (fun il : nat * load => let '(i, l) := il in
     mkCand (115/100 * kfi * sum_G c + 15/10 * kfi * l_val l + 15/10 * kfi * sum_Q_excl i 0 c)
       (map (fun l => (l, 115/100 * kfi)) (c_G c) ++ [(l, 15/10 * kfi)] ++
        map (fun lo => (lo, 15/10 * kfi * psi 0 lo)) (drop_nth i (c_Q c)))) _ _ I) as M.
    cbv beta iota in M. pose proof (py_max_ge x l _ (or_intror M)) as P. cbn [k_value] in P.
    rewrite (sum_excl c _ q pre post 0 E eq_refl) in P. exact P.
Qed.

Lemma uls_kfi_missing_lemma cls CC kk : (CC < 1 \/ 3 < CC)%nat -> uls_combine (new_combiner cls CC kk) = None.
Proof. intros H. unfold uls_combine, new_combiner. cbn [c_kfi]. destruct CC as [|[|[|[|]]]]; try reflexivity; exfalso; lia. Qed.

(** Leading-load combinations in general. *)
Lemma lead_gen (c : combiner) (f : load -> R) k (mk : nat * load -> cand) :
  (forall i l, mk (i, l) = mkCand (sum_G c + f l * l_val l + sum_Q_excl i k c)
     (perm c ++ [(l, f l)] ++ map (fun lo => (lo, psi k lo)) (drop_nth i (c_Q c)))) ->
  forall y, In y (map mk (indexed (c_Q c))) <->
    exists pre l post, c_Q c = pre ++ l :: post /\
      y = mkCand (total l_val (c_G c) + f l * l_val l + total (fun q => psi k q * l_val q) (pre ++ post))
        (perm c ++ [(l, f l)] ++ map (fun lo => (lo, psi k lo)) (pre ++ post)).
Proof.
  intros M y. rewrite in_map_iff. split.
  - intros ([i l] & <- & H). apply indexed_split in H. destruct H as (pre & post & E & L).
    exists pre, l, post. split; auto. rewrite M, (sum_excl c i l pre post k E L). rewrite E at 1. rewrite <- L, drop_split. reflexivity.
  - intros (pre & l & post & E & ->). exists (length pre, l). split; [|apply indexed_split; eauto].
    rewrite M, (sum_excl c _ l pre post k E eq_refl). rewrite E at 1. rewrite drop_split. reflexivity.
Qed.

Lemma dsum_perm c : dsum (perm c) = total l_val (c_G c).
Proof. unfold perm. rewrite (dsum_map (fun _ => 1)). apply total_ext. intros. ring. Qed.

Lemma lead_design c f k pre l post :
  design_value (mkCand (total l_val (c_G c) + f l * l_val l + total (fun q => psi k q * l_val q) (pre ++ post))
        (perm c ++ [(l, f l)] ++ map (fun lo => (lo, psi k lo)) (pre ++ post))) =
  total l_val (c_G c) + f l * l_val l + total (fun q => psi k q * l_val q) (pre ++ post).
Proof.
  unfold design_value. cbn [k_loads].
  change (dsum (perm c ++ [(l, f l)] ++ map (fun lo : load => (lo, psi k lo)) (pre ++ post)) = total l_val (c_G c) + f l * l_val l + total (fun q => psi k q * l_val q) (pre ++ post)).
  rewrite !dsum_app, dsum_perm, (dsum_map (psi k)). unfold dsum. cbn. ring.
Qed.

Lemma freq_lemma c : c_Q c <> [] -> let k := snd (fst (sls_combine c)) in
  largest (lead_value (psi 1) 2 (c_G c) (c_Q c)) (k_value k) /\ design_value k = k_value k.
Proof.
  intros NE k.
  assert (M : forall i l, freq_cand c (i, l) = mkCand (sum_G c + psi 1 l * l_val l + sum_Q_excl i 2 c)
     (perm c ++ [(l, psi 1 l)] ++ map (fun lo => (lo, psi 2 lo)) (drop_nth i (c_Q c)))).
  { intros. unfold freq_cand. f_equal. unfold combined. ring. }
  pose proof (lead_gen c (psi 1) 2 (freq_cand c) M) as G.
  unfold k, sls_combine. cbn [fst snd]. unfold best.
  destruct (map (freq_cand c) (indexed (c_Q c))) as [|x l] eqn:E.
  { exfalso. destruct (c_Q c) as [|q Q] eqn:EQ; [auto|]. unfold indexed in E. cbn in E. discriminate. }
  pose proof (py_max_in x l) as I1. apply G in I1. destruct I1 as (pre & q & post & EQ & EM).
  split.
  - split.
    + rewrite EM. exists pre, q, post. split; auto.
    + intros w (pre2 & q2 & post2 & E2 & ->).
      assert (I2 : In (mkCand (total l_val (c_G c) + psi 1 q2 * l_val q2 + total (fun q => psi 2 q * l_val q) (pre2 ++ post2))
        (perm c ++ [(q2, psi 1 q2)] ++ map (fun lo => (lo, psi 2 lo)) (pre2 ++ post2))) (x :: l)) by (apply G; eauto).
      apply py_max_ge in I2. exact I2.
  - rewrite EM. apply lead_design.
Qed.

Lemma quasi_lemma c : let k := snd (sls_combine c) in
  k_value k = total l_val (c_G c) + total (fun q => psi 2 q * l_val q) (c_Q c) /\ design_value k = k_value k.
Proof.
  cbn. assert (E : sum_Q 2 c = total (fun q => psi 2 q * l_val q) (c_Q c)) by (apply total_ext; intros; unfold combined; ring).
  split; [unfold sum_G; rewrite E; reflexivity|].
  change (dsum (perm c ++ map (fun l => (l, psi 2 l)) (c_Q c)) = sum_G c + sum_Q 2 c). rewrite dsum_app, dsum_perm, dsum_map, E. reflexivity.
Qed.

Lemma acc_lemma c : 
  let k := acc_combine c in
  largest (fun v => v = total l_val (c_G c) \/ lead_value acc_psi 2 (c_G c) (c_Q c) v) (k_value k) /\ design_value k = k_value k.
Proof.
  intros k.
  set (mk := fun il : nat * load => let '(i, l) := il in
     mkCand (sum_G c + l_val l * acc_psi l + sum_Q_excl i 2 c) (perm c ++ [(l, acc_psi l)] ++ map (fun lo => (lo, psi 2 lo)) (drop_nth i (c_Q c)))).
  assert (M : forall i l, mk (i, l) = mkCand (sum_G c + acc_psi l * l_val l + sum_Q_excl i 2 c)
     (perm c ++ [(l, acc_psi l)] ++ map (fun lo => (lo, psi 2 lo)) (drop_nth i (c_Q c)))).
  { intros. unfold mk. f_equal. ring. }
  pose proof (lead_gen c acc_psi 2 mk M) as G.
  unfold k, acc_combine. fold mk.
  destruct (map mk (indexed (c_Q c)) ++ [mkCand (sum_G c) (perm c)]) as [|x l] eqn:E.
  { exfalso. destruct (map mk (indexed (c_Q c))); discriminate. }
  assert (G2 : forall y, In y (x :: l) <-> y = mkCand (sum_G c) (perm c) \/ In y (map mk (indexed (c_Q c)))).
  { intros y. rewrite <- E, in_app_iff. cbn. intuition. }
  assert (P : forall w, w = total l_val (c_G c) \/ lead_value acc_psi 2 (c_G c) (c_Q c) w -> exists y, In y (x :: l) /\ k_value y = w).
  { intros w [->|(pre2 & q2 & post2 & E2 & ->)].
    - exists (mkCand (sum_G c) (perm c)). split; [apply G2; auto|reflexivity].
    - eexists. split; [apply G2; right; apply G; eauto|reflexivity]. }
  pose proof (py_max_in x l) as I1. apply G2 in I1.
  assert (MX : forall w, w = total l_val (c_G c) \/ lead_value acc_psi 2 (c_G c) (c_Q c) w -> w <= k_value (py_max x l)).
  { intros w H. destruct (P w H) as (y & Hy & <-). apply py_max_ge; auto. }
  destruct I1 as [EM|I1].
  - split; [split; [left; rewrite EM; reflexivity|exact MX]|]. rewrite EM. change (dsum (perm c) = sum_G c). apply dsum_perm.
  - apply G in I1. destruct I1 as (pre & q & post & EQ & EM).
    split; [split; [right; rewrite EM; exists pre, q, post; auto|exact MX]|]. rewrite EM. apply lead_design.
Qed.

(** The characteristic combination: chosen with psi2, reported with psi0. *)
Definition char_ex : combiner :=
  mkComb 4 (Some 1) 1 [] [mkLoad kImposed 10 (1, 9/10, 8/10) dy [0%nat]; mkLoad kWind 1 (6/10, 2/10, 0) dy [0%nat]].
Lemma accidental_lemma c : let k := acc_combine c in
  largest (fun v => v = total l_val (c_G c) \/ lead_value accidental_psi 2 (c_G c) (c_Q c) v) (k_value k) /\ design_value k = k_value k.
Proof.
  assert (E : forall l, acc_psi l = accidental_psi l).
  { intros l. unfold acc_psi, accidental_psi, psi. destruct (l_psi l) as [[a b] d], (l_kind l); reflexivity. }
  destruct (acc_lemma c) as [[A B] C]. split; [|exact C]. split.
  - destruct A as [A|(pre & l & post & A1 & A2)]; [left; exact A|]. right. exists pre, l, post. rewrite <- E. auto.
  - intros w [W|(pre & l & post & A1 & A2)]; apply B; [left; exact W|]. right. exists pre, l, post. rewrite E. auto.
Qed.

Lemma char_refuted_lemma :
  let k := fst (fst (sls_combine char_ex)) in
  design_value k = 106/10 /\ k_value k = 10 /\ lead_value (fun _ => 1) 0 (c_G char_ex) (c_Q char_ex) 11.
Proof.
  intros k.
  assert (E : k = char_cand char_ex (0%nat, mkLoad kImposed 10 (1, 9/10, 8/10) dy [0%nat])).
  { unfold k, sls_combine, best, indexed, char_ex. cbn [fst snd c_Q length seq combine map py_max fold_left].
    unfold py_max. cbn [fold_left]. unfold Rltb. cbn [char_cand k_value].
    match goal with |- context[Rlt_dec ?a ?b] => destruct (Rlt_dec a b) as [L|L] end; [|reflexivity].
    exfalso. unfold sum_G, sum_Q_excl, combined, psi in L. cbn in L. lra. }
  rewrite E. unfold design_value. cbn. unfold sum_G, sum_Q_excl, combined, psi. cbn. repeat split; try lra.
  exists [mkLoad kImposed 10 (1, 9/10, 8/10) dy [0%nat]], (mkLoad kWind 1 (6/10, 2/10, 0) dy [0%nat]), []. split; [reflexivity|].
  unfold total, psi. cbn. lra.
Qed.

Lemma char_value_lemma c : c_Q c <> [] -> let k := fst (fst (sls_combine c)) in
  largest (lead_value (fun _ => 1) 2 (c_G c) (c_Q c)) (k_value k) /\
  lead_value (fun _ => 1) 0 (c_G c) (c_Q c) (design_value k).
Proof.
  intros NE k. unfold k, sls_combine. cbn [fst snd]. unfold best.
  destruct (map (char_cand c) (indexed (c_Q c))) as [|x l] eqn:E.
  { exfalso. destruct (c_Q c) as [|q Q] eqn:EQ; [auto|]. unfold indexed in E. cbn in E. discriminate. }
  assert (G : forall y, In y (x :: l) <-> exists pre q post, c_Q c = pre ++ q :: post /\
     y = mkCand (total l_val (c_G c) + 1 * l_val q + total (fun q => psi 2 q * l_val q) (pre ++ post)) (perm c ++ [(q, 1)] ++ map (fun lo => (lo, psi 0 lo)) (pre ++ post))).
  { intros y. rewrite <- E, in_map_iff. split.
    - intros ([i q] & <- & H). apply indexed_split in H. destruct H as (pre & post & EQ & L). exists pre, q, post. split; auto.
      unfold char_cand. rewrite (sum_excl c i q pre post 2 EQ L). rewrite EQ at 1. rewrite <- L, drop_split. f_equal. unfold sum_G, total. ring.
    - intros (pre & q & post & EQ & ->). exists (length pre, q). split; [|apply indexed_split; eauto].
      unfold char_cand. rewrite (sum_excl c _ q pre post 2 EQ eq_refl). rewrite EQ at 1. rewrite drop_split. f_equal. unfold sum_G, total. ring. }
  pose proof (py_max_in x l) as I1. apply G in I1. destruct I1 as (pre & q & post & EQ & EM). split.
  - split; [rewrite EM; exists pre, q, post; auto|].
    intros w (pre2 & q2 & post2 & E2 & ->).
    assert (I2 := proj2 (G _) (ex_intro _ pre2 (ex_intro _ q2 (ex_intro _ post2 (conj E2 eq_refl))))).
    apply py_max_ge in I2. exact I2.
  - rewrite EM. exists pre, q, post. split; auto. unfold design_value. cbn [k_loads].
    change (dsum (perm c ++ [(q, 1)] ++ map (fun lo => (lo, psi 0 lo)) (pre ++ post)) = total l_val (c_G c) + 1 * l_val q + total (fun q => psi 0 q * l_val q) (pre ++ post)).
    rewrite !dsum_app, dsum_perm, (dsum_map (psi 0)). unfold dsum. cbn. ring.
Qed.

(** Adding a load. *)
Lemma total_nonneg f l : (forall x, In x l -> 0 <= f x) -> 0 <= total f l.
Proof.
  induction l as [|a l IH]; intros H; unfold total in *; cbn; [lra|]. assert (0 <= f a) by (apply H; left; auto).
  assert (0 <= fold_right Rplus 0 (map f l)) by (apply IH; intros; apply H; right; auto). lra.
Qed.

Lemma total_one f q : total f [q] = f q.
Proof. unfold total. cbn. ring. Qed.

Lemma add_monotone_lemma l c c' k k' kfi :
  c_kfi c = Some kfi -> 0 <= kfi -> 0 <= c_kk c -> load_ok l ->
  add_load l c = Some c' -> uls_combine c = Some k -> uls_combine c' = Some k' -> k_value k <= k_value k'.
Proof.
  intros KF kf kk [lv lp] A U U'.
  assert (CF : forall f, comb_factors (c_cls c) = Some f -> 0 <= fst (fst f)).
  { intros f. unfold comb_factors. destruct (c_cls c) as [|[|[|[|[|]]]]]; intros E; try discriminate; injection E as <-; cbn; lra. }
  assert (K' : c_kfi c' = Some kfi /\
    ((exists q, c_G c' = c_G c /\ c_Q c' = c_Q c ++ [q] /\ 0 <= l_val q /\ 0 <= psi 0 q) \/
     (exists q, c_G c' = c_G c ++ [q] /\ c_Q c' = c_Q c /\ 0 <= l_val q))).
  { unfold add_load in A. destruct l as [kd v ps d ids]. cbn [l_kind l_val l_psi l_dir l_ids] in *.
    assert (SN : 0 <= fst (fst (snow_psi v))) by (unfold snow_psi; destruct (Rltb v (275/100)); cbn; lra).
    destruct kd; cbn [l_kind l_val l_psi l_dir l_ids] in A;
    try (destruct (comb_factors (c_cls c)) as [f|] eqn:EF; [cbn [bind] in A|discriminate]); injection A as <-; cbn [c_kfi c_G c_Q]; (split; [exact KF|]).
    - right. eexists. split; [reflexivity|split; [reflexivity|cbn; lra]].
    - right. eexists. split; [reflexivity|split; [reflexivity|cbn; apply Rmult_le_pos; auto]].
    - left. eexists. split; [reflexivity|split; [reflexivity|split; [cbn; apply Rmult_le_pos; auto|]]].
      unfold psi. cbn [l_psi]. specialize (CF f eq_refl). destruct f as [[f0 f1] f2]. exact CF.
    - left. eexists. split; [reflexivity|split; [reflexivity|split; [cbn; apply Rmult_le_pos; auto|]]].
      unfold psi. cbn [l_psi]. destruct (snow_psi v) as [[f0 f1] f2]. exact SN.
    - left. eexists. split; [reflexivity|split; [reflexivity|split; [cbn; apply Rmult_le_pos; auto|exact lp]]]. }
  destruct K' as [KF' H].
  destruct (uls_lemma c kfi KF) as (k1 & E1 & [V1 _] & _). rewrite U in E1. injection E1 as <-.
  destruct (uls_lemma c' kfi KF') as (k2 & E2 & [_ M2] & _). rewrite U' in E2. injection E2 as <-.
  destruct H as [(q & EG & EQ & q0 & q1)|(q & EG & EQ & q0)].
  - destruct V1 as [->|(pre & p & post & E & ->)].
    + apply M2. left. rewrite EG. reflexivity.
    + eapply Rle_trans; [|apply M2; right; exists pre, p, (post ++ [q]); split; [rewrite EQ, E, <- app_assoc; reflexivity|reflexivity]].
      rewrite EG, app_assoc, (total_app _ (pre ++ post)). rewrite total_one.
      assert (0 <= 15/10 * kfi * (psi 0 q * l_val q)) by (apply Rmult_le_pos; [lra|apply Rmult_le_pos; auto]). lra.
  - destruct V1 as [->|(pre & p & post & E & ->)].
    + eapply Rle_trans; [|apply M2; left; reflexivity]. rewrite EG, (total_app l_val). rewrite total_one.
      assert (0 <= 135/100 * kfi * l_val q) by (apply Rmult_le_pos; lra). lra.
    + eapply Rle_trans; [|apply M2; right; exists pre, p, post; split; [rewrite EQ; exact E|reflexivity]].
      rewrite EG, (total_app l_val). rewrite total_one.
      assert (0 <= 115/100 * kfi * l_val q) by (apply Rmult_le_pos; lra). lra.
Qed.

(** Area reduction. *)
Lemma alpha_lemma p kk L : 7/10 <= reduction_alpha p kk L <= 1.
Proof. unfold reduction_alpha. split; [apply Rmin_glb; [apply Rmax_r|lra]|apply Rmin_r]. Qed.
Lemma reduction_lemma L c : 
  c_G (use_reduction L c) = c_G c /\
  Forall2 (fun q q' => l_psi q' = l_psi q /\ (l_kind q <> kImposed -> q' = q) /\ (0 <= l_val q -> 7/10 * l_val q <= l_val q' <= l_val q)) (c_Q c) (c_Q (use_reduction L c)).
Proof.
  unfold use_reduction. destruct (Nat.ltb (c_cls c) 4); cbn [c_G c_Q]; (split; [reflexivity|]).
  - induction (c_Q c) as [|q Q IH]; cbn [map]; constructor; auto.
    pose proof (alpha_lemma (psi 0 q) (c_kk c) L). destruct q as [kd v ps d ids]. destruct kd; cbn [l_kind l_val l_psi] in *; repeat split; auto; intros; try lra; try congruence; nra.
  - induction (c_Q c); constructor; auto. repeat split; auto; lra.
Qed.
Lemma reduction_twice_lemma : exists c L, 0 < L /\
  use_reduction L (use_reduction L c) <> use_reduction L c.
Proof.
  exists (mkComb 0 (Some 1) 1 [] [mkLoad kImposed 10 (7/10, 5/10, 3/10) dy [0%nat]]), 100. split; [lra|].
  unfold use_reduction. cbn -[reduction_alpha]. intros E. injection E as E.
  assert (A : reduction_alpha (7/10) 1 100 = 7/10).
  { unfold reduction_alpha. rewrite Rmax_right by lra. rewrite Rmin_left; lra. }
  unfold psi in E. cbn -[reduction_alpha] in E. rewrite A in E. lra.
Qed.

(** Totals per member. *)
Definition expand (id : nat) (k : cand) : list (load * R) :=
  flat_map (fun lf : load * R => map (fun _ => lf) (filter (Nat.eqb id) (l_ids (fst lf)))) (k_loads k).
Lemma id_z_lemma rnd d id k : Forall (fun lf => l_dir (fst lf) = dz) (k_loads k) -> id_total rnd d id k = 0.
Proof.
  intros F. unfold id_total. fold (expand id k).
  assert (G : Forall (fun lf => l_dir (fst lf) = dz) (expand id k)).
  { unfold expand. rewrite Forall_forall in *. intros x H. apply in_flat_map in H. destruct H as (y & Hy & H). apply in_map_iff in H. destruct H as (n & <- & _). auto. }
  induction (expand id k) as [|x l IH]; [reflexivity|]. inversion G; subst. cbn [filter]. rewrite H1. destruct d; apply IH; auto.
Qed.
Lemma id_round_lemma rnd d id k : (forall x, Rabs (rnd x - x) <= 5/1000) ->
  let n := length (expand id k) in Rabs (id_total rnd d id k - id_total (fun x => x) d id k) <= 5/1000 * INR n.
Proof.
  intros RD n. unfold n, id_total. fold (expand id k). generalize (expand id k). induction l as [|x l IH]; [cbn; rewrite Rminus_eq_0, Rabs_R0; lra|].
  cbn [length]. rewrite S_INR. cbn [filter]. destruct (match l_dir (fst x) with dx => _ | dy => _ | dz => _ end).
  - cbn [map fold_right]. specialize (RD (l_val (fst x) * snd x)).
    match goal with |- Rabs (?a + ?b - (?c + ?e)) <= _ => replace (a + b - (c + e)) with ((a - c) + (b - e)) by ring; pose proof (Rabs_triang (a - c) (b - e)) end. lra.
  - lra.
Qed.
