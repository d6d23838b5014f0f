(** Proofs about force envelopes, loads, generated frames and the profile sweep. *)
From Verif Require Import Base EC3_model Bool_tac Sections_proofs F2d_proofs F2d2_proofs.
From Verif Require Import F2d_model F2d_spec.
Require Import Reals List Bool Lra Lia Psatz PeanoNat.
Import ListNotations.
Local Open Scope R_scope.

(** ---- force envelopes. *)
Lemma absmax_spec : forall e, Rabs (fst e) <= Rabs (absmax e) /\ Rabs (snd e) <= Rabs (absmax e) /\ (absmax e = fst e \/ absmax e = snd e).
Proof.
  intros [a b]. unfold absmax. cbn [fst snd]. unfold Rmin, Rmax. destruct (Rle_dec a b) as [H|H].
  - destruct (Rle_dec (Rabs a) (Rabs b)) as [H1|H1].
    + destruct (Reqb (Rabs b) (Rabs a)) eqn:E; [apply Reqb_true in E|]; repeat split; auto; lra.
    + rewrite (proj2 (Reqb_true (Rabs a) (Rabs a)) eq_refl). repeat split; auto; lra.
  - destruct (Rle_dec (Rabs b) (Rabs a)) as [H1|H1].
    + destruct (Reqb (Rabs a) (Rabs b)) eqn:E; [apply Reqb_true in E|]; repeat split; auto; lra.
    + rewrite (proj2 (Reqb_true (Rabs b) (Rabs b)) eq_refl). repeat split; auto; lra.
Qed.
(** The first entry of greatest magnitude is kept. *)
Lemma keep_spec : forall {A} (g : A -> R) (l : list A) m0,
  let m := fold_left (fun m e => if Rltb (Rabs m) (Rabs (g e)) then g e else m) l m0 in
  Rabs m0 <= Rabs m /\ (forall e, In e l -> Rabs (g e) <= Rabs m) /\ (m = m0 \/ exists e, In e l /\ m = g e).
Proof.
  intros A g. induction l as [|e l IH]; intros m0 m; subst m; cbn [fold_left].
  - split; [lra|]. split; [intros e []|auto].
  - destruct (Rltb (Rabs m0) (Rabs (g e))) eqn:C; [apply Rltb_true in C|apply Rltb_false in C].
    + destruct (IH (g e)) as (H1 & H2 & H3). split; [lra|]. split; [intros x [<-|Hx]; auto|].
      right. destruct H3 as [H3|(x & Hx & H3)]; [exists e|exists x]; cbn; auto.
    + destruct (IH m0) as (H1 & H2 & H3). split; [lra|]. split; [intros x [<-|Hx]; auto; lra|].
      destruct H3 as [H3|(x & Hx & H3)]; [auto|right; exists x; cbn; auto].
Qed.
Lemma in_all_ends : forall es x, In x (all_ends es) <-> exists e, In e es /\ (x = fst e \/ x = snd e).
Proof.
  intros es x. unfold all_ends. rewrite in_flat_map. split; intros (e & He & H); exists e; cbn in *; intuition.
Qed.
Lemma max_force_lemma : forall es, extreme (max_force es) (all_ends es).
Proof.
  intros es. destruct (keep_spec absmax es 0) as (H1 & H2 & H3). fold (max_force es) in *. split.
  - intros x Hx. apply in_all_ends in Hx. destruct Hx as (e & He & Hx). specialize (H2 e He). destruct (absmax_spec e) as (A & B & _). destruct Hx; subst; lra.
  - destruct H3 as [H3|(e & He & H3)]; [auto|]. left. apply in_all_ends. exists e. split; auto. rewrite H3. apply absmax_spec.
Qed.
Lemma max_disp_lemma : forall ds, extreme (max_disp ds) ds.
Proof.
  intros ds. destruct (keep_spec (fun x => x) ds 0) as (H1 & H2 & H3). unfold max_disp. split; [exact H2|].
  destruct H3 as [H3|(e & He & H3)]; [auto|]. left. rewrite H3. exact He.
Qed.
Lemma absmax_value_lemma : forall es, no_jump es -> es <> [] -> exists v, absmax_force_value es = Some v /\ extreme v (all_ends es).
Proof.
  intros es J N. destruct es as [|e0 es]; [congruence|]. eexists. split; [reflexivity|].
  set (F := map snd (e0 :: es) ++ [fst e0]).
  assert (FA : forall x, In x (all_ends (e0 :: es)) -> In x F).
  { intros x Hx. apply in_all_ends in Hx. destruct Hx as (e & He & [Hx|Hx]); subst F; apply in_or_app.
    - assert (G : forall l d, no_jump (d :: l) -> In e (d :: l) -> fst e = fst d \/ In (fst e) (map snd (d :: l))).
      { clear. induction l as [|c l IH]; intros d J [<-|He]; [auto|destruct He|auto|]. destruct J as [J1 J2]. destruct (IH c J2 He) as [H|H]; [right; left; congruence|right; right; exact H]. }
      destruct (G es e0 J He) as [H|H]; [right; left; congruence|left; subst x; exact H].
    - left. subst x. apply in_map. exact He. }
  assert (FB : forall x, In x F -> In x (all_ends (e0 :: es))).
  { intros x Hx. subst F. apply in_app_or in Hx. apply in_all_ends. destruct Hx as [Hx|[Hx|[]]]; [apply in_map_iff in Hx; destruct Hx as (e & Ee & He); exists e; split; auto|exists e0; cbn; auto]. }
  destruct (fold_Rmin_le F (fst e0)) as [A1 A2]. destruct (fold_Rmax_ge F (fst e0)) as [B1 B2].
  assert (I0 : In (fst e0) F) by (subst F; apply in_or_app; right; left; auto).
  assert (A3 : In (fold_left Rmin F (fst e0)) F) by (destruct (fold_Rmin_in F (fst e0)) as [H|H]; [rewrite H|]; auto).
  assert (B3 : In (fold_left Rmax F (fst e0)) F) by (destruct (fold_Rmax_in F (fst e0)) as [H|H]; [rewrite H|]; auto).
  set (lo := fold_left Rmin F (fst e0)) in *. set (hi := fold_left Rmax F (fst e0)) in *. fold F. fold lo. fold hi.
  destruct (Rltb (Rabs lo) hi) eqn:C; [apply Rltb_true in C|apply Rltb_false in C]; (split; [|left; apply FB; auto]); intros x Hx; specialize (FA x Hx); specialize (A2 x FA); specialize (B2 x FA).
  - revert C. unfold Rabs. destruct (Rcase_abs lo), (Rcase_abs x), (Rcase_abs hi); lra.
  - revert C. unfold Rabs. destruct (Rcase_abs lo), (Rcase_abs x); lra.
Qed.
(** A jump at an inner node: the start of the second element is not looked at. *)
Lemma jump_missed_lemma : forall a b, Rabs a < Rabs b -> exists es v,
  In b (all_ends es) /\ absmax_force_value es = Some v /\ Rabs v = Rabs a.
Proof.
  intros a b H. exists [(a, a); (b, a)], a. split; [apply in_all_ends; exists (b, a); cbn; auto|]. split; [|reflexivity].
  unfold absmax_force_value. cbn [map snd fst app fold_left]. assert (M1 : Rmin a a = a) by (apply Rmin_left, Rle_refl). assert (M2 : Rmax a a = a) by (apply Rmax_left, Rle_refl). rewrite !M1, !M2. destruct (Rltb (Rabs a) a); reflexivity.
Qed.
Lemma f2d_sections_lemma : forall es, es <> [] -> List.length (section_forces es) = S (List.length es) /\
  (forall i e, nth_error es i = Some e -> nth_error (section_forces es) i = Some (fst e)) /\
  nth_error (section_forces es) (List.length es) = Some (snd (List.last es (0, 0))) /\
  (forall x, In x (section_forces es) -> In x (all_ends es)) /\
  (no_jump es -> forall x, In x (all_ends es) -> In x (section_forces es)).
Proof.
  intros es N. assert (E : section_forces es = map fst es ++ [snd (List.last es (0, 0))]) by (destruct es; [congruence|reflexivity]). rewrite E.
  split; [rewrite app_length, map_length; cbn [List.length]; apply Nat.add_1_r|]. split; [|split; [|split]].
  - intros i e H. rewrite nth_error_app1 by (rewrite map_length; apply nth_error_Some; intros Q; discriminate (eq_trans (eq_sym H) Q)). apply (map_nth_error fst _ _ H).
  - rewrite nth_error_app2 by (rewrite map_length; apply Nat.le_refl). rewrite map_length. unfold ends. rewrite Nat.sub_diag. reflexivity.
  - intros x Hx. apply in_all_ends. apply in_app_or in Hx. destruct Hx as [Hx|[<-|[]]].
    + apply in_map_iff in Hx. destruct Hx as (e & Ee & He). exists e. auto.
    + exists (List.last es (0, 0)). split; auto. apply last_in; auto.
  - intros J x Hx. apply in_all_ends in Hx. destruct Hx as (e & He & [Hx|Hx]); apply in_or_app; [left; subst; apply in_map; auto|].
    subst x. clear E N. induction es as [|d es IH]; [destruct He|]. destruct es as [|c es].
    + destruct He as [<-|[]]. right. left. reflexivity.
    + destruct J as [J1 J2]. destruct He as [<-|He]; [left; right; left; congruence|]. destruct (IH J2 He) as [H|H]; [left; right; exact H|right; exact H].
Qed.
Lemma sections_jump_lemma : forall a b, Rabs a < Rabs b -> exists es, In b (all_ends es) /\ forall x, In x (section_forces es) -> Rabs x = Rabs a.
Proof.
  intros a b H. exists [(a, b); (a, a)]. split; [apply in_all_ends; exists (a, b); cbn; auto|]. intros x Hx. cbn in Hx. destruct Hx as [<-|[<-|[<-|[]]]]; reflexivity.
Qed.
(** The value stored for an inner node is that of the element after it. *)
Lemma nodal_lemma : forall es, es <> [] -> List.length (nodal_forces es) = S (List.length es) /\
  forall i e, nth_error es i = Some e -> nth_error (nodal_forces es) i = Some (absmax e).
Proof.
  intros es N. assert (E : nodal_forces es = map absmax es ++ [absmax (List.last es (0, 0))]) by (destruct es; [congruence|reflexivity]). rewrite E.
  split; [rewrite app_length, map_length; cbn [List.length]; apply Nat.add_1_r|]. intros i e H. rewrite nth_error_app1 by (rewrite map_length; apply nth_error_Some; intros Q; discriminate (eq_trans (eq_sym H) Q)). apply (map_nth_error absmax _ _ H).
Qed.

(** ---- loads. *)
Lemma line_values_lemma : forall f v0 v1 n, (0 < n)%nat -> fst (line_values f v0 v1 n 0) = v0 /\ snd (line_values f v0 v1 n (n - 1)) = v1 /\
  (forall i, snd (line_values f v0 v1 n i) = fst (line_values f v0 v1 n (S i))).
Proof.
  intros f v0 v1 n H. assert (P : 0 < INR n) by (apply lt_0_INR; auto). unfold line_values. cbn [fst snd]. split; [cbn [INR]; lra|]. split; [|reflexivity].
  replace (S (n - 1)) with n by lia. field. lra.
Qed.
Lemma f2d_line_total_lemma : forall f v0 v1 n l, (0 < n)%nat -> line_total f v0 v1 (repeat l n) = (v0 + v1) / 2 * (INR n * l).
Proof.
  intros f v0 v1 n l H. assert (P : 0 < INR n) by (apply lt_0_INR; auto). unfold line_total. rewrite repeat_length. set (k := (v1 - v0) / INR n).
  assert (G : forall m s, Rsum (map (fun il => (fst (line_values f v0 v1 n (fst il)) + snd (line_values f v0 v1 n (fst il))) / 2 * snd il) (combine (seq s m) (repeat l m))) = INR m * l * (v0 + k * (INR s + INR m / 2))).
  { induction m as [|m IH]; intros s; [cbn; ring|]. cbn [seq repeat combine map]. rewrite Rsum_cons, IH. unfold line_values. fold k. cbn [fst snd]. rewrite !S_INR. field. }
  rewrite G. subst k. cbn [INR]. field. lra.
Qed.
Lemma line_uniform_lemma : forall f v ls, line_total f v v ls = v * Rsum ls.
Proof.
  intros f v ls. unfold line_total. generalize (List.length ls) at 1 2 as n. intros n. generalize 0%nat as s.
  induction ls as [|l ls IH]; intros s; [cbn; ring|]. cbn [seq List.length combine map]. rewrite !Rsum_cons, IH. unfold line_values. cbn [fst snd]. unfold Rdiv. rewrite Rminus_diag_eq by reflexivity. lra.
Qed.
Lemma line_factor_lemma : forall f v ls, f <> 1 -> v <> 0 -> Rsum ls <> 0 -> line_total f v v ls <> f * v * Rsum ls.
Proof.
  intros f v ls Hf Hv Hs E. rewrite line_uniform_lemma in E. apply Hf. apply (Rmult_eq_reg_r (v * Rsum ls)); [lra|]. apply Rmult_integral_contrapositive_currified; auto.
Qed.
Lemma line_unequal_lemma : forall f, line_total f 0 2 [1; 3] <> (0 + 2) / 2 * Rsum [1; 3].
Proof. intros f. unfold line_total, line_values. cbn [List.length seq combine map fst snd INR]. rewrite !Rsum_cons. unfold Rsum. cbn [fold_right]. lra. Qed.
Lemma point_load_lemma : forall fe c, NoDup fe -> (forall i, nth_error fe i = Some c -> point_load_node fe c = Some i) /\ (~ In c fe -> point_load_node fe c = None).
Proof.
  intros fe c N. split.
  - intros i H. unfold point_load_node. destruct (find_pt c fe) as [j|] eqn:E.
    + apply find_pt_some in E. f_equal. rewrite NoDup_nth_error in N. apply N; [apply nth_error_Some; congruence|congruence].
    + apply find_pt_none in E. exfalso. apply E. eapply nth_error_In. exact H.
  - intros H. apply find_pt_none. exact H.
Qed.
(** All nodes are rounded to three decimals; a load at a point with more decimals is dropped. *)
Lemma point_load_dropped_lemma : forall raw c, round_pt c <> c -> (forall p, round_pt (round_pt p) = round_pt p) -> point_load_node (map round_pt raw) c = None.
Proof.
  intros raw c H I. apply find_pt_none. intros K. apply in_map_iff in K. destruct K as (p & E & _). apply H. rewrite <- E. rewrite I. reflexivity.
Qed.
Lemma round_pt_idem : forall p, round_pt (round_pt p) = round_pt p.
Proof.
  intros [x y]. unfold round_pt. cbn [fst snd]. assert (G : forall x, roundn 3 (roundn 3 x) = roundn 3 x).
  { intros z. unfold roundn at 2. rewrite (roundn_of 3 _ (roundZ (z * 10 ^ 3))); [unfold roundn; field; lra|]. replace (IZR (roundZ (z * 10 ^ 3)) / 10 ^ 3 * 10 ^ 3 - IZR (roundZ (z * 10 ^ 3))) with 0 by (field; lra). rewrite Rabs_R0. lra. }
  rewrite !G. reflexivity.
Qed.

(** ---- generated frames. *)
Lemma seq_split : forall n s, seq s (S n) = s :: seq (S s) n.
Proof. reflexivity. Qed.
Lemma column_run : forall storeys h L b s k, 0 < h -> (s < storeys)%nat ->
  gen_columns (storeys - s + k) storeys h L (INR b * L) (INR s * h) (INR (S s) * h) =
  map (fun s => ((INR b * L, INR s * h), (INR b * L, INR (S s) * h))) (seq s (storeys - s)) ++ gen_columns k storeys h L (INR (S b) * L) 0 h.
Proof.
  intros storeys h L b s k H. remember (storeys - s)%nat as d. revert s Heqd. induction d as [|d IH]; intros s E Hs; [lia|].
  cbn [Nat.add gen_columns seq map app]. f_equal. destruct (Reqb (INR (S s) * h) (INR storeys * h)) eqn:C.
  - apply Reqb_true in C. assert (INR (S s) = INR storeys) by nra. apply INR_eq in H0. assert (d = 0)%nat by lia. subst d. cbn [seq map app Nat.add]. rewrite (S_INR b). f_equal; ring.
  - apply Reqb_false in C. assert (S s <> storeys) by (intros Q; apply C; rewrite Q; reflexivity).
    rewrite <- IH by lia. rewrite (S_INR (S s)). f_equal. ring.
Qed.
Lemma columns_lemma : forall storeys bays h L, 0 < h -> columns storeys bays h L = column_grid storeys bays h L.
Proof.
  intros storeys bays h L H. unfold columns, column_grid. destruct storeys as [|st]; [rewrite Nat.mul_0_r; cbn [gen_columns seq map]; induction (seq 0 (bays + 1)); auto|].
  assert (G : forall n b, gen_columns (n * S st) (S st) h L (INR b * L) 0 h = flat_map (fun b => map (fun s => ((INR b * L, INR s * h), (INR b * L, INR (S s) * h))) (seq 0 (S st))) (seq b n)).
  { induction n as [|n IH]; intros b; [reflexivity|]. rewrite (seq_split n b). cbn [flat_map]. rewrite <- IH. pose proof (column_run (S st) h L b 0 (n * S st) H ltac:(lia)) as R. rewrite Nat.sub_0_r in R.
    replace (INR 0 * h) with 0 in R by (cbn [INR]; ring). replace (INR 1 * h) with h in R by (cbn [INR]; ring). exact R. }
  specialize (G (bays + 1)%nat 0%nat). replace (INR 0 * L) with 0 in G by (cbn [INR]; ring). exact G.
Qed.
Lemma beam_run : forall storeys h L b s k, 0 < h -> (s < storeys)%nat ->
  gen_beams (storeys - s + k) storeys h L (INR b * L) (INR (S b) * L) (INR (S s) * h) =
  map (fun s => ((INR b * L, INR (S s) * h), (INR (S b) * L, INR (S s) * h))) (seq s (storeys - s)) ++ gen_beams k storeys h L (INR (S b) * L) (INR (S (S b)) * L) h.
Proof.
  intros storeys h L b s k H. remember (storeys - s)%nat as d. revert s Heqd. induction d as [|d IH]; intros s E Hs; [lia|].
  cbn [Nat.add gen_beams seq map app]. f_equal. destruct (Reqb (INR (S s) * h) (INR storeys * h)) eqn:C.
  - apply Reqb_true in C. assert (INR (S s) = INR storeys) by nra. apply INR_eq in H0. assert (d = 0)%nat by lia. subst d. cbn [seq map app Nat.add]. rewrite (S_INR (S b)). f_equal; ring.
  - apply Reqb_false in C. assert (S s <> storeys) by (intros Q; apply C; rewrite Q; reflexivity).
    rewrite <- IH by lia. rewrite (S_INR (S s)). f_equal. ring.
Qed.
Lemma beams_lemma : forall storeys bays h L, 0 < h -> beams storeys bays h L = beam_grid storeys bays h L.
Proof.
  intros storeys bays h L H. unfold beams, beam_grid. destruct storeys as [|st]; [rewrite Nat.mul_0_r; cbn [gen_beams seq map]; induction (seq 0 bays); auto|].
  assert (G : forall n b, gen_beams (n * S st) (S st) h L (INR b * L) (INR (S b) * L) h = flat_map (fun b => map (fun s => ((INR b * L, INR (S s) * h), (INR (S b) * L, INR (S s) * h))) (seq 0 (S st))) (seq b n)).
  { induction n as [|n IH]; intros b; [reflexivity|]. rewrite (seq_split n b). cbn [flat_map]. rewrite <- IH. pose proof (beam_run (S st) h L b 0 (n * S st) H ltac:(lia)) as R. rewrite Nat.sub_0_r in R.
    replace (INR 1 * h) with h in R by (cbn [INR]; ring). exact R. }
  specialize (G bays 0%nat). replace (INR 0 * L) with 0 in G by (cbn [INR]; ring). replace (INR 1 * L) with L in G by (cbn [INR]; ring). exact G.
Qed.
Lemma range_spec : forall x xs lo hi, In lo (x :: xs) -> In hi (x :: xs) -> (forall y, In y (x :: xs) -> lo <= y <= hi) ->
  fold_left Rmax xs x - fold_left Rmin xs x = hi - lo.
Proof.
  intros x xs lo hi Hl Hh B. destruct (fold_Rmin_le xs x) as [A1 A2]. destruct (fold_Rmax_ge xs x) as [B1 B2].
  assert (P1 : In (fold_left Rmin xs x) (x :: xs)) by (destruct (fold_Rmin_in xs x) as [E|E]; [rewrite E; left; auto|right; auto]).
  assert (P2 : In (fold_left Rmax xs x) (x :: xs)) by (destruct (fold_Rmax_in xs x) as [E|E]; [rewrite E; left; auto|right; auto]).
  pose proof (B _ P1). pose proof (B _ P2).
  assert (fold_left Rmin xs x <= lo) by (destruct Hl as [-> |Hl]; [lra|apply A2; auto]).
  assert (hi <= fold_left Rmax xs x) by (destruct Hh as [-> |Hh]; [lra|apply B2; auto]). lra.
Qed.
Lemma column_in : forall storeys bays h L m, In m (column_grid storeys bays h L) <-> exists b s, (b <= bays)%nat /\ (s < storeys)%nat /\ m = ((INR b * L, INR s * h), (INR b * L, INR (S s) * h)).
Proof.
  intros. unfold column_grid. rewrite in_flat_map. split.
  - intros (b & Hb & Hm). apply in_map_iff in Hm. destruct Hm as (s & Em & Hs). apply in_seq in Hb, Hs. exists b, s. split; [lia|]. split; [lia|auto].
  - intros (b & s & Hb & Hs & ->). exists b. split; [apply in_seq; lia|]. apply in_map_iff. exists s. split; auto. apply in_seq. lia.
Qed.
Lemma beam_in : forall storeys bays h L m, In m (beam_grid storeys bays h L) <-> exists b s, (b < bays)%nat /\ (s < storeys)%nat /\ m = ((INR b * L, INR (S s) * h), (INR (S b) * L, INR (S s) * h)).
Proof.
  intros. unfold beam_grid. rewrite in_flat_map. split.
  - intros (b & Hb & Hm). apply in_map_iff in Hm. destruct Hm as (s & Em & Hs). apply in_seq in Hb, Hs. exists b, s. split; [lia|]. split; [lia|auto].
  - intros (b & s & Hb & Hs & ->). exists b. split; [apply in_seq; lia|]. apply in_map_iff. exists s. split; auto. apply in_seq. lia.
Qed.
Lemma coords_in : forall (g : pt -> R) (ms : list (pt * pt)) y, In y (map (fun m => g (fst m)) ms ++ map (fun m => g (snd m)) ms) <-> exists m, In m ms /\ (y = g (fst m) \/ y = g (snd m)).
Proof.
  intros g ms y. rewrite in_app_iff, !in_map_iff. split.
  - intros [(m & E & H)|(m & E & H)]; exists m; auto.
  - intros (m & H & [E|E]); [left|right]; exists m; auto.
Qed.
Lemma extent_lemma : forall storeys bays h L, 0 < h -> 0 <= L -> (0 < storeys)%nat ->
  span (columns storeys bays h L ++ beams storeys bays h L) = Some (INR bays * L) /\
  height (columns storeys bays h L ++ beams storeys bays h L) = Some (INR storeys * h).
Proof.
  intros storeys bays h L Hh HL Hs. rewrite columns_lemma, beams_lemma by auto. set (ms := column_grid storeys bays h L ++ beam_grid storeys bays h L).
  assert (IN : forall m, In m ms <-> (exists b s, (b <= bays)%nat /\ (s < storeys)%nat /\ m = ((INR b * L, INR s * h), (INR b * L, INR (S s) * h))) \/ (exists b s, (b < bays)%nat /\ (s < storeys)%nat /\ m = ((INR b * L, INR (S s) * h), (INR (S b) * L, INR (S s) * h)))).
  { intros m. unfold ms. rewrite in_app_iff, column_in, beam_in. reflexivity. }
  assert (UB : forall b n, (b <= n)%nat -> 0 <= INR b * L <= INR n * L) by (intros b n K; apply le_INR in K; pose proof (pos_INR b); split; [nra|nra]).
  assert (UH : forall b n, (b <= n)%nat -> 0 <= INR b * h <= INR n * h) by (intros b n K; apply le_INR in K; pose proof (pos_INR b); split; [nra|nra]).
  assert (C0 : In ((INR 0 * L, INR 0 * h), (INR 0 * L, INR 1 * h)) ms) by (apply IN; left; exists 0%nat, 0%nat; split; [lia|split; [lia|auto]]).
  assert (C1 : In ((INR bays * L, INR (storeys - 1) * h), (INR bays * L, INR storeys * h)) ms) by (apply IN; left; exists bays, (storeys - 1)%nat; split; [lia|split; [lia|replace (S (storeys - 1)) with storeys by lia; auto]]).
  split.
  - unfold span. match goal with |- match ?X with _ => _ end = _ => change X with (map (fun m : pt * pt => fst (fst m)) ms ++ map (fun m : pt * pt => fst (snd m)) ms) end. pose proof (coords_in fst ms) as CI. cbn beta in CI. destruct (map (fun m : pt * pt => fst (fst m)) ms ++ map (fun m : pt * pt => fst (snd m)) ms) as [|x xs] eqn:E; [exfalso; apply (CI (INR 0 * L)); exists ((INR 0 * L, INR 0 * h), (INR 0 * L, INR 1 * h)); cbn; auto|].
    f_equal. rewrite (range_spec x xs 0 (INR bays * L)); [ring| | |].
    + apply CI. eexists. split; [exact C0|]. left. cbn [fst snd INR]. ring.
    + apply CI. eexists. split; [exact C1|]. left. reflexivity.
    + intros y Hy. apply CI in Hy. destruct Hy as (m & Hm & Hy). apply IN in Hm. destruct Hm as [(b & s & Hb & Hs' & ->)|(b & s & Hb & Hs' & ->)]; cbn [fst snd] in Hy; destruct Hy as [-> | ->]; apply UB; lia.
  - unfold height. match goal with |- match ?X with _ => _ end = _ => change X with (map (fun m : pt * pt => snd (fst m)) ms ++ map (fun m : pt * pt => snd (snd m)) ms) end. pose proof (coords_in snd ms) as CI. cbn beta in CI. destruct (map (fun m : pt * pt => snd (fst m)) ms ++ map (fun m : pt * pt => snd (snd m)) ms) as [|x xs] eqn:E; [exfalso; apply (CI (INR 0 * h)); exists ((INR 0 * L, INR 0 * h), (INR 0 * L, INR 1 * h)); cbn; auto|].
    f_equal. rewrite (range_spec x xs 0 (INR storeys * h)); [ring| | |].
    + apply CI. eexists. split; [exact C0|]. left. cbn [fst snd INR]. ring.
    + apply CI. eexists. split; [exact C1|]. right. reflexivity.
    + intros y Hy. apply CI in Hy. destruct Hy as (m & Hm & Hy). apply IN in Hm. destruct Hm as [(b & s & Hb & Hs' & ->)|(b & s & Hb & Hs' & ->)]; cbn [fst snd] in Hy; destruct Hy as [-> | ->]; apply UH; lia.
Qed.

(** ---- joint stiffness. *)
Lemma ten20 : 1 <= 10 ^ 20.
Proof. apply pow_R1_Rle. lra. Qed.
Lemma set_Sj_lemma : forall v, 1/10000 <= set_Sj v <= 10 ^ 20 /\ (1/10000 <= v <= 10 ^ 20 -> set_Sj v = v) /\ (forall w, v <= w -> set_Sj v <= set_Sj w).
Proof.
  unfold set_Sj. pose proof ten20 as B. revert B. generalize (10 ^ 20) as M. intros M B v. split; [|split].
  - destruct (Rltb v (1/10000)) eqn:A1; [lra|]. apply Rltb_false in A1. destruct (Rltb M v) eqn:A2; [lra|]. apply Rltb_false in A2. lra.
  - intros H. rewrite ltb_f by lra. rewrite ltb_f by lra. reflexivity.
  - intros w H. destruct (Rltb v (1/10000)) eqn:A1; destruct (Rltb w (1/10000)) eqn:A3; try destruct (Rltb M v) eqn:A2; try destruct (Rltb M w) eqn:A4;
      repeat match goal with K : Rltb _ _ = true |- _ => apply Rltb_true in K | K : Rltb _ _ = false |- _ => apply Rltb_false in K end; lra.
Qed.
Lemma f2d_alpha_lemma : forall alpha E I L, 0 < E -> 0 < I -> 0 < L -> 1/10000 <= alpha * E * I * / 10 ^ 12 / L <= 10 ^ 20 ->
  Sj_to_alpha (alpha_to_Sj alpha E I L) E I L = alpha.
Proof.
  intros a E I L HE HI HL H. unfold Sj_to_alpha, alpha_to_Sj. rewrite (proj1 (proj2 (set_Sj_lemma _)) H). clear H.
  assert (Q : 0 < / 10 ^ 12) by (apply Rinv_0_lt_compat, pow_lt; lra). revert Q. generalize (/ 10 ^ 12) as q. intros q Q. field. lra.
Qed.
(** The least stiffness that can be stored is not zero. *)
Lemma alpha_hinge_lemma : forall E I L, 0 < E -> 0 < I -> 0 < L -> 0 < Sj_to_alpha (alpha_to_Sj 0 E I L) E I L.
Proof.
  intros E I L HE HI HL. unfold Sj_to_alpha, alpha_to_Sj. destruct (set_Sj_lemma (0 * E * I * / 10 ^ 12 / L)) as [[H _] _]. revert H. generalize (set_Sj (0 * E * I * / 10 ^ 12 / L)) as v. intros v H.
  assert (Q : 0 < / 10 ^ 12) by (apply Rinv_0_lt_compat, pow_lt; lra). revert Q. generalize (/ 10 ^ 12) as q. intros q Q.
  apply Rdiv_lt_0_compat; [nra|]. apply Rmult_lt_0_compat; [nra|lra].
Qed.

(** ---- profiles. *)
Lemma try_lemma : forall util ps cur, ps <> [] ->
  (forall p, In p ps -> forallb (fun r => Rleb r 1) (util p) = false) /\ try_profiles util cur ps = List.last ps 0%nat \/
  exists l p r, ps = l ++ p :: r /\ (forall q, In q l -> exists x, In x (util q) /\ 1 < x) /\ (forall x, In x (util p) -> x <= 1) /\ try_profiles util cur ps = p.
Proof.
  intros util ps. induction ps as [|p ps IH]; intros cur H; [congruence|]. cbn [try_profiles]. destruct (forallb (fun r => Rleb r 1) (util p)) eqn:F.
  - right. exists [], p, ps. split; auto. split; [intros q []|]. split; [|auto]. intros x Hx. rewrite forallb_forall in F. apply Rleb_true. auto.
  - destruct ps as [|q ps]; [left; split; [intros x [<-|[]]; auto|reflexivity]|]. destruct (IH p ltac:(discriminate)) as [[A B]|(l & r & t & E & A & B & C)].
    + left. split; [intros x [<-|Hx]; auto|]. exact B.
    + right. exists (p :: l), r, t. split; [cbn; congruence|]. split; [|split; auto]. intros x [<-|Hx]; [|auto].
      clear - F. induction (util p) as [|y l IH]; [discriminate|]. cbn in F. destruct (Rleb y 1) eqn:C; [cbn in F; destruct (IH F) as (z & Hz & Z); exists z; cbn; auto|]. apply Rleb_false in C. exists y. cbn. auto.
Qed.
Lemma optimum_lemma : forall util ps cur p ch, ps <> [] -> optimum_design util ps cur = (p, ch) ->
  (ch = true <-> p <> cur) /\
  ((exists q, In q ps /\ forall x, In x (util q) -> x <= 1) -> forall x, In x (util p) -> x <= 1).
Proof.
  intros util ps cur p ch N E. unfold optimum_design in E. inversion E as [[E1 E2]]. split.
  - rewrite negb_true_iff, Nat.eqb_neq. tauto.
  - intros (q & Hq & Q). destruct (try_lemma util ps cur N) as [[A B]|(l & r & t & El & A & B & C)].
    + exfalso. specialize (A q Hq). assert (forallb (fun r => Rleb r 1) (util q) = true) by (apply forallb_forall; intros x Hx; apply Rleb_true; auto). congruence.
    + intros x Hx. rewrite C in Hx. auto.
Qed.
Lemma sweeps_lemma : forall util ps k s flag, (snd (optimize_members util ps k s flag) <= k)%nat /\ List.length (fst (optimize_members util ps k s flag)) = List.length s.
Proof.
  induction k as [|k IH]; intros s flag; [cbn; auto|]. cbn [optimize_members]. destruct flag; [|cbn; split; [lia|auto]].
  destruct (sweep util ps s true) as [s' fl] eqn:E. specialize (IH s' fl). destruct (optimize_members util ps k s' fl) as [r c]. cbn [fst snd] in *. destruct IH as [H1 H2]. split; [lia|]. rewrite H2.
  unfold sweep in E. inversion E. rewrite !map_length, combine_length, seq_length. lia.
Qed.
(** With one member a sweep that stops early stops at a fixed point. *)
Lemma one_member_lemma : forall util ps k s0 p c, ps <> [] -> optimize_members util ps k [s0] true = ([p], c) -> (0 < k)%nat -> (c < k)%nat ->
  optimum_design (util [p] 0%nat) ps p = (p, false).
Proof.
  intros util ps k s0 p c N. revert s0 c. induction k as [|k IH]; intros s0 c E Hk Hc; [lia|]. cbn [optimize_members] in E. unfold sweep in E. cbn [List.length seq combine map fst snd List.last] in E.
  destruct (optimum_design (util [s0] 0%nat) ps s0) as [q ch] eqn:O. cbn [fst snd] in E. destruct ch.
  - destruct (optimize_members util ps k [q] true) as [r d] eqn:R. inversion E; subst. destruct k as [|k]; [cbn in R; inversion R; subst; lia|]. apply (IH q d R); lia.
  - assert (q = s0) by (unfold optimum_design in O; inversion O; apply negb_false_iff, Nat.eqb_eq in H1; congruence). subst q.
    destruct k as [|k]; cbn [optimize_members] in E; inversion E; subst; exact O.
Qed.
Lemma one_sweep : forall util ps s r k, sweep util ps s true = (r, false) -> optimize_members util ps (S k) s true = (r, 1%nat).
Proof. intros util ps s r k H. cbn [optimize_members]. rewrite H. destruct k; reflexivity. Qed.
(** Utilisations of a frame whose first member alternates: profile 0 suits the forces found with
    profile 1 and the other way round; the second member is always satisfied. *)
Definition alternating (s : list nat) (i p : nat) : list R :=
  match i with
  | 0%nat => if Nat.eqb p (hd 0%nat s) then [2] else [0]
  | _ => [0]
  end.
(** The first member changes in the only sweep, the second does not, and the sweep stops with the
    first member failing for the forces of the frame it returns. *)
Lemma stops_early_lemma : exists util ps s r, ps <> [] /\ optimize_members util ps 10 s true = (r, 1%nat) /\ r <> s /\
  fst (sweep util ps r true) <> r /\ exists x, In x (util r 0%nat (nth 0 r 0%nat)) /\ 1 < x.
Proof.
  exists alternating, [0%nat; 1%nat], [1%nat; 0%nat], [0%nat; 0%nat]. split; [discriminate|].
  assert (L0 : Rleb 0 1 = true) by (apply Rleb_true; lra). assert (L2 : Rleb 2 1 = false) by (apply leb_f; lra).
  assert (S1 : sweep alternating [0%nat; 1%nat] [1%nat; 0%nat] true = ([0%nat; 0%nat], false)).
  { unfold sweep, optimum_design. cbn [List.length seq combine map fst snd try_profiles alternating hd Nat.eqb forallb]. rewrite L0. reflexivity. }
  assert (S2 : fst (sweep alternating [0%nat; 1%nat] [0%nat; 0%nat] true) = [1%nat; 0%nat]).
  { unfold sweep, optimum_design. cbn [List.length seq combine map fst snd try_profiles alternating hd Nat.eqb forallb]. rewrite L0, L2. reflexivity. }
  split; [apply one_sweep; exact S1|]. split; [discriminate|]. split; [rewrite S2; discriminate|]. exists 2. split; [left; reflexivity|lra].
Qed.
