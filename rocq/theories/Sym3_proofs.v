(** Proofs: members of several spans, groups, moving nodes. *)
From Verif Require Import Base EC3_model Bool_tac EC3_proofs Plate_proofs Sym_proofs Sym2_proofs.
From Verif Require Import Sym_model Sym_spec.
Require Import Reals List Bool Lra Lia Psatz PeanoNat.
Import ListNotations.
Local Open Scope R_scope.

Lemma sdist_pos : forall a b, 0 <= sdist a b.
Proof. intros; apply sqrt_pos. Qed.
Lemma sdist_tri : forall a b c, sdist a c <= sdist a b + sdist b c.
Proof.
  intros [ax ay] [bx by_] [cx_ cy_]. unfold sdist; cbn [fst snd].
  set (u := bx - ax). set (v := by_ - ay). set (w := cx_ - bx). set (z := cy_ - by_).
  replace (cx_ - ax) with (u + w) by (unfold u, w; ring). replace (cy_ - ay) with (v + z) by (unfold v, z; ring).
  pose proof (sqrt_pos (u * u + v * v)) as P. pose proof (sqrt_pos (w * w + z * z)) as Q.
  pose proof (sqrt_sqrt (u * u + v * v) ltac:(nra)) as S1. pose proof (sqrt_sqrt (w * w + z * z) ltac:(nra)) as S2.
  set (p := sqrt (u * u + v * v)) in *. set (q := sqrt (w * w + z * z)) in *.
  rewrite <- (sqrt_square (p + q)) by lra. apply sqrt_le_1_alt.
  assert (u * w + v * z <= p * q). { apply Rsqr_incr_0_var. 2: apply Rmult_le_pos; auto. unfold Rsqr.
    replace (p * q * (p * q)) with ((p * p) * (q * q)) by ring. rewrite S1, S2. pose proof (Rle_0_sqr (u * z - v * w)). unfold Rsqr in H. nra. }
  nra.
Qed.
Lemma path_eq : forall a b t, path_length (a :: b :: t) = sdist a b + path_length (b :: t).
Proof. reflexivity. Qed.
Lemma last_cons2 : forall A (a b d : A) t, last (a :: b :: t) d = last (b :: t) d.
Proof. reflexivity. Qed.
Lemma last_dflt : forall A (l : list A) (a d d' : A), last (a :: l) d = last (a :: l) d'.
Proof. induction l; intros; auto. rewrite !last_cons2. apply IHl. Qed.
Lemma sdist_self : forall a, sdist a a = 0.
Proof. intros. unfold sdist. replace (_ + _) with 0 by ring. apply sqrt_0. Qed.
Lemma span_short_lemma : forall ns L, span_length ns = Some L -> 0 <= L <= path_length ns.
Proof.
  intros ns L H. destruct ns as [|a t]; [discriminate|]. assert (E : L = sdist a (last (a :: t) a)) by (unfold span_length in H; congruence). rewrite E. clear L H E. split. apply sdist_pos.
  revert a. induction t as [|b t]; intros. cbn [last]. rewrite sdist_self. simpl; lra.
  rewrite path_eq, last_cons2. eapply Rle_trans. apply (sdist_tri a b). rewrite (last_dflt _ t b a b). specialize (IHt b). lra.
Qed.
Lemma ray_dist : forall o d t u, fst d * fst d + snd d * snd d = 1 -> t <= u ->
  sdist (fst o + t * fst d, snd o + t * snd d) (fst o + u * fst d, snd o + u * snd d) = u - t.
Proof.
  intros o d t u D H. unfold sdist; cbn [fst snd].
  replace (_ + _) with ((u - t) * (u - t) * (fst d * fst d + snd d * snd d)) by ring. rewrite D, Rmult_1_r. apply sqrt_square; lra.
Qed.
Lemma rising_last : forall ts t, rising (t :: ts) -> t <= last (t :: ts) t.
Proof.
  induction ts as [|u ts]; intros t H. simpl; lra. destruct H as (H1&H2). rewrite last_cons2, (last_dflt _ ts u t u). specialize (IHts u H2). lra.
Qed.
Lemma ray_last : forall o d ts t, last (along_ray o d (t :: ts)) (fst o + t * fst d, snd o + t * snd d) = (fst o + last (t :: ts) t * fst d, snd o + last (t :: ts) t * snd d).
Proof.
  intros o d. induction ts as [|u ts]; intros t. reflexivity. rewrite last_cons2. unfold along_ray in *. cbn [map] in *. rewrite last_cons2.
  rewrite (last_dflt _ ts u t u). rewrite <- IHts. apply last_dflt.
Qed.
Lemma span_straight_lemma : forall o d ts, fst d * fst d + snd d * snd d = 1 -> ts <> [] -> rising ts ->
  span_length (along_ray o d ts) = Some (path_length (along_ray o d ts)).
Proof.
  intros o d ts D Hn H. destruct ts as [|t ts]; [congruence|]. clear Hn. unfold along_ray. cbn [map span_length]. f_equal.
  change (sdist (fst o + t * fst d, snd o + t * snd d) (last (along_ray o d (t :: ts)) (fst o + t * fst d, snd o + t * snd d)) = path_length (along_ray o d (t :: ts))).
  rewrite ray_last. rewrite ray_dist by (auto; apply rising_last; auto).
  revert t H. induction ts as [|u ts]; intros t H. simpl. ring. destruct H as (H1&H2).
  rewrite last_cons2, (last_dflt _ ts u t u). unfold along_ray in *. cbn [map] in *. rewrite path_eq, <- IHts by auto. rewrite ray_dist by auto. ring.
Qed.
Lemma span_end_lemma : forall o d t u ts, fst d * fst d + snd d * snd d = 1 -> rising (t :: u :: ts) -> t < u -> forall loc,
  let ns := along_ray o d (t :: u :: ts) in
  span_to_global ns loc = Some (let s := t + loc * (last ts u - t) in (fst o + s * fst d, snd o + s * snd d)).
Proof.
  intros o d t u ts D H Ht loc ns. unfold ns, along_ray. cbn [map]. unfold span_to_global, span_length. cbn [bind].
  change ((fst o + t * fst d, snd o + t * snd d) :: (fst o + u * fst d, snd o + u * snd d) :: map (fun t0 => (fst o + t0 * fst d, snd o + t0 * snd d)) ts) with (along_ray o d (t :: u :: ts)).
  rewrite ray_last. rewrite ray_dist by (auto; apply rising_last; auto). rewrite ray_dist by (auto; lra). cbn [fst snd].
  rewrite last_cons2. assert (E : last (u :: ts) t = last ts u). { destruct ts; auto. rewrite last_cons2. apply last_dflt. } rewrite E.
  cbv zeta. f_equal. f_equal; field; lra.
Qed.
Lemma span_round_lemma : forall a b t loc L, a <> b -> span_length (a :: b :: t) = Some L -> L <> 0 ->
  bind (span_to_global (a :: b :: t) loc) (span_to_local (a :: b :: t)) = Some (Rabs loc).
Proof.
  intros a b t loc L Hab HL HL0. unfold span_to_global, span_to_local. rewrite HL. cbn [bind]. unfold pdiv.
  rewrite (proj2 (Reqb_false L 0)) by auto. f_equal.
  assert (P : 0 < sdist a b). { unfold sdist. apply sqrt_lt_R0. destruct a as [ax ay], b as [bx by_]. cbn [fst snd].
    destruct (Req_dec ax bx); [destruct (Req_dec ay by_); [subst; congruence|]|].
    assert (0 < (by_ - ay) * (by_ - ay)) by (apply Rsqr_pos_lt; lra). pose proof (Rle_0_sqr (bx - ax)) as W. unfold Rsqr in W. lra. assert (0 < (bx - ax) * (bx - ax)) by (apply Rsqr_pos_lt; lra). pose proof (Rle_0_sqr (by_ - ay)) as W. unfold Rsqr in W. lra. }
  assert (L0 : 0 <= L) by (apply (span_short_lemma _ _ HL)).
  unfold sdist at 1. cbn [fst snd].
  set (S := sdist a b) in *.
  replace (_ + _) with ((L * loc) * (L * loc) * (((fst b - fst a) * (fst b - fst a) + (snd b - snd a) * (snd b - snd a)) / (S * S))) by (field; lra).
  replace ((fst b - fst a) * (fst b - fst a) + (snd b - snd a) * (snd b - snd a)) with (S * S).
  2:{ unfold S, sdist. apply sqrt_sqrt. apply Rplus_le_le_0_compat; apply Rle_0_sqr. }
  replace (S * S / (S * S)) with 1 by (field; lra). rewrite Rmult_1_r. fold (Rsqr (L * loc)). rewrite sqrt_Rsqr_abs, Rabs_mult, (Rabs_pos_eq L) by auto. field; auto.
Qed.

(** Nodes of spans. *)
Lemma on_span_0 : forall a b n, on_span a b n 0 = a.
Proof. intros [x y] b n. unfold on_span. cbn [fst snd INR]. f_equal; unfold Rdiv; ring. Qed.
Lemma on_span_n : forall a b n, (0 < n)%nat -> on_span a b n n = b.
Proof. intros a [x y] n H. unfold on_span. cbn [fst snd]. assert (INR n <> 0) by (apply not_0_INR; lia). f_equal; field; auto. Qed.
Lemma span_nodes_lemma : forall t nel a b, length nel = S (length t) -> (forall n, In n nel -> (0 < n)%nat) ->
  let l := span_nodes (a :: b :: t) nel in
  length l = S (fold_right Nat.add 0%nat nel) /\ hd (0, 0) l = a /\ last l (0, 0) = last (b :: t) b /\
  (forall p, In p (a :: b :: t) -> In p l).
Proof.
  induction t as [|c t]; intros nel a b H Hn l; destruct nel as [|n nel]; try discriminate.
  - destruct nel; try discriminate. unfold l. cbn [span_nodes]. assert (0 < n)%nat by (apply Hn; simpl; auto).
    split; [|split; [|split]].
    + rewrite map_length, seq_length. cbn [fold_right]. lia.
    + cbn [seq map hd]. apply on_span_0.
    + rewrite seq_S, map_app. cbn [map]. rewrite last_last. cbn [last]. apply on_span_n; auto.
    + intros p [<-|[<-|[]]]; apply in_map_iff. exists 0%nat. split. apply on_span_0. apply in_seq; lia.
      exists n. split. apply on_span_n; auto. apply in_seq; lia.
  - injection H as H. assert (0 < n)%nat by (apply Hn; simpl; auto).
    destruct (IHt nel b c H ltac:(intros; apply Hn; simpl; auto)) as (I1&I2&I3&I4).
    unfold l. change (span_nodes (a :: b :: c :: t) (n :: nel)) with (match span_nodes (b :: c :: t) nel with [] => map (on_span a b n) (seq 0 (S n)) | l => map (on_span a b n) (seq 0 n) ++ l end).
    destruct (span_nodes (b :: c :: t) nel) as [|z l0] eqn:E. discriminate.
    split; [|split; [|split]].
    + rewrite app_length, map_length, seq_length, I1. cbn [fold_right]; lia.
    + destruct n; [lia|]. cbn [seq map app hd]. apply on_span_0.
    + rewrite last_cons2, (last_dflt _ t c b c), <- I3. clear. induction (map (on_span a b n) (seq 0 n)); auto. cbn [app]. rewrite <- IHl. destruct (l ++ z :: l0) eqn:Q; auto. destruct l; discriminate.
    + intros p [<-|Hp]. apply in_or_app; left. apply in_map_iff. exists 0%nat. split. apply on_span_0. apply in_seq; lia.
      apply in_or_app; right. apply I4; auto.
Qed.

(** Groups. *)
Lemma slender_id : forall lim sl go, slender_loop lim sl go = go.
Proof. intros lim. induction sl; intros; cbn [slender_loop]; auto. destruct (existsb _ _); auto. Qed.
Lemma group_limit_lemma : forall bmin bmax lim lim' maxu cls lids ps ut cur i,
  group_search bmin bmax lim maxu cls lids ut cur i ps = group_search bmin bmax lim' maxu cls lids ut cur i ps.
Proof.
  intros until ps. induction ps; intros; cbn [group_search]; auto. rewrite !slender_id. cbn [negb].
  destruct (_ || _); auto. destruct (_ <? _)%nat; auto. destruct (forallb _ _); auto.
Qed.
Lemma worst_acc : forall us m, m <= fold_left Rmax us m /\ (forall u, In u us -> u <= fold_left Rmax us m) /\ (fold_left Rmax us m = m \/ In (fold_left Rmax us m) us).
Proof.
  induction us; simpl; intros. repeat split; auto; lra || contradiction. destruct (IHus (Rmax m a)) as (H1&H2&H3). pose proof (Rmax_l m a). pose proof (Rmax_r m a).
  split; [lra|]. split. intros u [<-|Hu]; auto. lra. destruct H3 as [->|]; auto. unfold Rmax. destruct (Rle_dec m a); auto.
Qed.
Lemma worst_le : forall us m, 0 <= m -> (worst us <= m <-> forall u, In u us -> u <= m).
Proof.
  intros us m H. unfold worst. destruct (worst_acc us 0) as (H1&H2&H3). split; intros. specialize (H2 u H4). lra. destruct H3 as [->|]; auto.
Qed.
Lemma checked_lemma : forall us, checked us = true <-> forall u, In u us -> u <= 1.
Proof.
  intros. unfold checked. rewrite negb_true_iff, Rltb_false. rewrite <- worst_le by lra. tauto.
Qed.

Definition store (p : gprof) (lids : list nat) (ut : list (nat * R)) :=
  fold_left (fun d l => filter (fun e : nat * R => negb (Nat.eqb (fst e) l)) d ++ [(l, worst (gp_util p l))]) lids ut.
Lemma store_in : forall p lids ut l u, In (l, u) (store p lids ut) -> (In l lids /\ u = worst (gp_util p l)) \/ (~ In l lids /\ In (l, u) ut).
Proof.
  intros p. induction lids; unfold store; cbn [fold_left]; intros ut l u H. right; auto.
  apply IHlids in H. destruct H as [(?&?)|(H1&H2)]. left; simpl; auto. apply in_app_or in H2. destruct H2 as [H2|[H2|[]]].
  - apply filter_In in H2. destruct H2 as (H2&H3). cbn [fst] in H3. apply negb_true_iff, Nat.eqb_neq in H3. right. split; auto. intros [<-|]; auto.
  - injection H2 as <- <-. left. simpl; auto.
Qed.
Lemma store_has : forall p lids ut l, In l lids -> In (l, worst (gp_util p l)) (store p lids ut).
Proof.
  intros p. induction lids; intros ut l H. destruct H.
  unfold store in *. cbn [fold_left].
  assert (K : forall lids ut l, In (l, worst (gp_util p l)) ut -> In (l, worst (gp_util p l)) (store p lids ut)).
  { clear. induction lids; unfold store; cbn [fold_left]; intros; auto. apply IHlids. apply in_or_app.
    destruct (Nat.eqb_spec l a). subst; right; simpl; auto. left. apply filter_In. split; auto. cbn [fst]. apply negb_true_iff, Nat.eqb_neq; auto. }
  destruct H as [->|H]. apply K. apply in_or_app; right; simpl; auto. apply IHlids; auto.
Qed.
Lemma store_ok : forall p lids ut maxu, 0 <= maxu -> (forall l u, In (l, u) ut -> In l lids) ->
  (forallb (fun e : nat * R => Rleb (snd e) maxu) (store p lids ut) = true <-> forall l u, In l lids -> In u (gp_util p l) -> u <= maxu).
Proof.
  intros p lids ut maxu H0 Hc. rewrite forallb_forall. split.
  - intros H l u Hl. apply (worst_le _ maxu); auto. apply Rleb_true. apply (H (l, worst (gp_util p l))). apply store_has; auto.
  - intros H [l u] Hu. cbn [snd]. apply Rleb_true. apply store_in in Hu. destruct Hu as [(Hl&->)|(Hn&Hu)]. apply worst_le; eauto. exfalso; eapply Hn, Hc; eauto.
Qed.
Lemma store_keys : forall p lids ut, (forall l u, In (l, u) ut -> In l lids) -> forall l u, In (l, u) (store p lids ut) -> In l lids.
Proof. intros p lids ut H l u Hu. apply store_in in Hu. destruct Hu as [(?&?)|(?&?)]; auto. eauto. Qed.

Lemma group_search_gen : forall bmin bmax lim maxu cls lids ps ut cur i, 0 <= maxu -> (forall l u, In (l, u) ut -> In l lids) ->
  let k := fst (group_search bmin bmax lim maxu cls lids ut cur i ps) in
  (exists j p, nth_error ps j = Some p /\ k = (i + j)%nat /\ group_ok bmin bmax maxu cls lids p /\
     forall j' p', (j' < j)%nat -> nth_error ps j' = Some p' -> ~ group_ok bmin bmax maxu cls lids p') \/
  ((forall p, In p ps -> ~ group_ok bmin bmax maxu cls lids p) /\ k = match ps with [] => cur | _ => (i + length ps - 1)%nat end).
Proof.
  intros until ps. induction ps as [|p ps]; intros ut cur i H0 Hc k. right. split; auto.
  unfold k; clear k. cbn [group_search]. rewrite slender_id. cbn [negb].
  assert (Step : forall ut', (forall l u, In (l, u) ut' -> In l lids) -> ~ group_ok bmin bmax maxu cls lids p ->
    let k := fst (group_search bmin bmax lim maxu cls lids ut' i (S i) ps) in
    (exists j p0, nth_error (p :: ps) j = Some p0 /\ k = (i + j)%nat /\ group_ok bmin bmax maxu cls lids p0 /\
       forall j' p', (j' < j)%nat -> nth_error (p :: ps) j' = Some p' -> ~ group_ok bmin bmax maxu cls lids p') \/
    ((forall p0, In p0 (p :: ps) -> ~ group_ok bmin bmax maxu cls lids p0) /\ k = (i + length (p :: ps) - 1)%nat)).
  { intros ut' Hc' No k. destruct (IHps ut' i (S i) H0 Hc') as [(j&p0&E&K&G&M)|(M&K)].
    - left. exists (S j), p0. split; [auto|]. split; [unfold k; rewrite K; lia|]. split; auto. intros [|j'] p' Hj E'. injection E' as <-; auto. apply (M j'); auto; lia.
    - right. split. intros p0 [<-|Hp]; auto. unfold k; rewrite K. cbn [length]. destruct ps; cbn [length]; lia. }
  destruct (Rltb (gp_b p) bmin || Rltb bmax (gp_b p))%bool eqn:E1.
  { apply Step; auto. intros (Hb&_). apply orb_true_iff in E1. destruct E1 as [E1|E1]; apply Rltb_true in E1; lra. }
  apply orb_false_iff in E1. destruct E1 as (E1&E2). apply Rltb_false in E1, E2.
  destruct (Nat.ltb_spec cls (gp_class p)).
  { apply Step; auto. intros (_&Hk&_). lia. }
  cbv zeta. fold (store p lids ut). destruct (forallb (fun e : nat * R => Rleb (snd e) maxu) (store p lids ut)) eqn:E3.
  - left. exists 0%nat, p. split; auto. split. cbn [fst]; lia. split. split; [lra|]. split; auto. apply (store_ok p lids ut maxu H0 Hc); auto. intros; lia.
  - apply Step. apply store_keys; auto. intros (_&_&G). apply (proj2 (store_ok p lids ut maxu H0 Hc)) in G. congruence.
Qed.
Lemma group_first_lemma : forall bmin bmax lim maxu cls lids ps cur, 0 <= maxu ->
  let k := fst (group_search bmin bmax lim maxu cls lids [] cur 0 ps) in
  (exists p, nth_error ps k = Some p /\ group_ok bmin bmax maxu cls lids p /\
     forall j q, (j < k)%nat -> nth_error ps j = Some q -> ~ group_ok bmin bmax maxu cls lids q) \/
  ((forall p, In p ps -> ~ group_ok bmin bmax maxu cls lids p) /\ k = match ps with [] => cur | _ => (length ps - 1)%nat end).
Proof.
  intros. destruct (group_search_gen bmin bmax lim maxu cls lids ps [] cur 0 H ltac:(intros l u [])) as [(j&p&E&K&G&M)|(M&K)].
  left. exists p. unfold k. rewrite K. cbn [Nat.add]. auto. right. split; auto.
Qed.
Lemma span_arg_lemma : forall allow maxu maxu' cls lids ps ut cur i,
  span_search allow maxu cls lids ut cur i ps = span_search allow maxu' cls lids ut cur i ps.
Proof. intros until ps. induction ps; intros; cbn [span_search]; auto. destruct (_ <? _)%nat; auto. cbv zeta. destruct (forallb _ _); auto. Qed.
Lemma span_group_lemma : forall allow maxu lim bmin bmax cls lids ps, (forall p, In p ps -> bmin <= gp_b p <= bmax) -> forall ut cur i,
  span_search allow maxu cls lids ut cur i ps = group_search bmin bmax lim allow cls lids ut cur i ps.
Proof.
  intros until ps. induction ps; intros Hb ut cur i; cbn [span_search group_search]; auto.
  rewrite slender_id. cbn [negb]. destruct (Hb a ltac:(simpl; auto)) as (B1&B2).
  rewrite (proj2 (Rltb_false _ _) B1), (proj2 (Rltb_false _ _) B2). cbn [orb].
  rewrite !IHps by (intros; apply Hb; simpl; auto). destruct (_ <? _)%nat; auto.
Qed.
Lemma section_same_lemma : forall A1 I1 A2 I2, is_section A1 I1 A2 I2 = true <->
  sqrt ((A1 - A2) * (A1 - A2) + (I1 - I2) * (I1 - I2)) < 1 / 1000.
Proof.
  intros. unfold is_section. rewrite Rltb_true. set (q := _ + _). assert (H : 0 <= q) by (apply Rplus_le_le_0_compat; apply Rle_0_sqr). pose proof (sqrt_sqrt q H). pose proof (sqrt_pos q). split; intro; nra.
Qed.

(** Moving nodes. *)
Lemma put_nth : forall A (l : list A) i v d j, nth j (put i v l) d = if (Nat.eqb j i && (i <? length l)%nat)%bool then v else nth j l d.
Proof.
  intros A l i v d j. destruct (Nat.eqb_spec j i) as [->|]. destruct (Nat.ltb_spec i (length l)); cbn [andb]. apply put_same; auto.
  revert l H. induction i; intros [|x l] H; cbn [put nth length] in *; auto; try lia. apply IHi; lia. cbn [andb]. apply put_other; auto.
Qed.
Lemma move_nodes_lemma : forall up i v f x y, nth_error (nf_nodes f) i = Some (Floats x y) ->
  at_node (move up i v f) i = (if up then (v, y) else (x, v)) /\
  (forall j, j <> i -> at_node (move up i v f) j = at_node f j) /\
  length (nf_nodes (move up i v f)) = length (nf_nodes f).
Proof.
  intros up i v f x y H. assert (Hl : (i < length (nf_nodes f))%nat) by (apply nth_error_Some; congruence).
  split; [|split].
  - unfold move, at_node. cbn [nf_nodes]. rewrite put_same by auto. rewrite (nth_error_nth _ _ _ H). destruct up; reflexivity.
  - intros j Hj. unfold move, at_node. cbn [nf_nodes]. rewrite put_other by auto. reflexivity.
  - unfold move. cbn [nf_nodes]. apply put_len.
Qed.
Lemma move_members_lemma : forall up i v f k m, nth_error (nf_mem f) k = Some m ->
  exists m', nth_error (nf_mem (move up i v f)) k = Some m' /\ nm_a m' = nm_a m /\ nm_b m' = nm_b m /\ nm_n m' = nm_n m /\
  let a := at_node (move up i v f) (nm_a m) in let b := at_node (move up i v f) (nm_b m) in
  ((nm_a m = i \/ nm_b m = i) -> length (nm_pts m') = S (nm_n m) /\
     (forall j, (j <= nm_n m)%nat -> nth j (nm_pts m') (0, 0) = (fst a + INR j / INR (nm_n m) * (fst b - fst a), snd a + INR j / INR (nm_n m) * (snd b - snd a))) /\
     nm_len m' = sqrt (Rsqr (fst b - fst a) + Rsqr (snd b - snd a))) /\
  ((nm_a m <> i /\ nm_b m <> i) -> m' = m).
Proof.
  intros up i v f k m H. unfold move. cbn [nf_mem]. eexists. split. rewrite nth_error_map. rewrite H. reflexivity.
  cbv zeta. destruct (Nat.eqb (nm_a m) i || Nat.eqb (nm_b m) i)%bool eqn:E.
  - unfold refresh. cbn [nm_a nm_b nm_n nm_pts nm_len]. split; [auto|]. split; [auto|]. split; [auto|]. split.
    + intros _. split. rewrite map_length, seq_length; auto. split.
      intros j Hj. set (f1 := on_span _ _ _). rewrite (nth_indep _ _ (f1 0%nat)) by (rewrite map_length, seq_length; lia). rewrite map_nth, seq_nth by lia. reflexivity.
      reflexivity.
    + intros (H1&H2). apply orb_true_iff in E. destruct E as [E|E]; apply Nat.eqb_eq in E; congruence.
  - split; [auto|]. split; [auto|]. split; [auto|]. split; auto. intros [H1|H1]; apply orb_false_iff in E; destruct E as (E1&E2); apply Nat.eqb_neq in E1, E2; congruence.
Qed.
Lemma toint_lemma : forall v, Rabs (IZR (toint v)) <= Rabs v /\ Rabs v < Rabs (IZR (toint v)) + 1 /\ 0 <= v * IZR (toint v).
Proof.
  assert (P : forall v, 0 <= v -> 0 <= IZR (floorZ v) <= v /\ v < IZR (floorZ v) + 1).
  { intros v H. pose proof (floorZ_spec v) as (F1&F2). split; [|lra]. split; [|lra]. apply IZR_le. assert (-1 < floorZ v)%Z; [|lia]. apply lt_IZR. lra. }
  intro v. unfold toint. destruct (Rleb 0 v) eqn:E.
  - apply Rleb_true in E. destruct (P v E) as (F1&F2). rewrite (Rabs_pos_eq v), (Rabs_pos_eq (IZR _)) by lra. split; [lra|]. split; [lra|]. nra.
  - apply Rleb_false in E. destruct (P (- v) ltac:(lra)) as (F1&F2). rewrite opp_IZR, Rabs_Ropp, (Rabs_left v), (Rabs_pos_eq (IZR _)) by lra. split; [lra|]. split; [lra|]. nra.
Qed.
Lemma move_fe_lemma : forall up i v f p, nth_error (nf_fe f) i = Some (Some p) ->
  nth i (nf_fe (move up i v f)) None = Some (if up then (v, snd p) else (fst p, v)) /\
  forall j, j <> i -> nth j (nf_fe (move up i v f)) None = nth j (nf_fe f) None.
Proof.
  intros up i v f p H. assert (Hl : (i < length (nf_fe f))%nat) by (apply nth_error_Some; congruence).
  unfold move. cbn [nf_fe]. rewrite (nth_error_nth _ _ None H). split. apply put_same; auto. intros; apply put_other; auto.
Qed.
Lemma move_fe_none_lemma : forall up i v f, nth i (nf_fe f) None = None -> nf_fe (move up i v f) = nf_fe f.
Proof. intros up i v f H. unfold move. cbn [nf_fe]. rewrite H. auto. Qed.
