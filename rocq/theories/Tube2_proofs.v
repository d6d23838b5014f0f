(** Proofs about the constraints and variables of structural problems. *)
From Verif Require Import Base EC3_model Bool_tac Plate_proofs Sections_proofs Sizing4_proofs F2d_proofs.
From Verif Require Import F2d_model Tube_model Tube_spec.
Require Import Reals List Bool Lra Lia Psatz PeanoNat.
Import ListNotations.
Local Open Scope R_scope.

Lemma met_ratio : forall a b, 0 < b -> (met (bind (pdiv a b) (fun q => Some (q - 1))) = true <-> a <= b).
Proof.
  intros a b H. rewrite (pdiv_ok a b) by lra. cbn [bind met]. rewrite Rleb_true. apply ratio_le. exact H.
Qed.
Lemma met_quot : forall a b, 0 < b -> (met (pdiv a b) = true <-> a <= 0).
Proof.
  intros a b H. rewrite (pdiv_ok a b) by lra. cbn [met]. rewrite Rleb_true. rewrite (div_le_iff a b 0) by lra. rewrite Rmult_0_l. tauto.
Qed.
Lemma y_geometry_lemma : forall c w th, 0 < b_B c -> 0 < b_B w -> 0 < th ->
  (forallb met (y_geometry c w th) = true <-> 35/100 * b_B c <= b_B w <= b_B c /\ 30 <= degrees th).
Proof.
  intros c w th H1 H2 H3. unfold y_geometry. cbn [forallb]. rewrite !andb_true_iff.
  assert (D : 0 < degrees th) by (unfold degrees; apply Rdiv_lt_0_compat; [lra|apply PI_RGT_0]).
  rewrite (met_ratio (b_B w) (b_B c)), (met_ratio (35/100 * b_B c) (b_B w)), (met_ratio 30 (degrees th)) by auto. tauto.
Qed.
Lemma k_geometry_lemma : forall c w1 w2 g e th1 th2, 0 < b_B c -> 0 < b_T c -> 0 < b_H c -> 0 < b_B w1 -> 0 < b_B w2 -> 0 < b_T w1 -> 0 < b_T w2 ->
  0 < th1 -> 0 < th2 -> g <> 0 -> b_B w1 + b_B w2 + b_H w1 + b_H w2 < 4 * b_B c ->
  (forallb met (k_geometry c w1 w2 g e th1 th2) = true <-> k_valid c w1 w2 g e (degrees th1) (degrees th2)).
Proof.
  intros c w1 w2 g e th1 th2 H1 H2 H3 H4 H5 H6 H7 H8 H9 Hg Hb. unfold k_geometry, k_valid.
  assert (D1 : 0 < degrees th1) by (unfold degrees; apply Rdiv_lt_0_compat; [lra|apply PI_RGT_0]).
  assert (D2 : 0 < degrees th2) by (unfold degrees; apply Rdiv_lt_0_compat; [lra|apply PI_RGT_0]).
  assert (G : 0 < Rabs g) by (apply Rabs_pos_lt; exact Hg).
  assert (TB : tk_beta c w1 w2 = Some ((b_B w1 + b_B w2 + b_H w1 + b_H w2) / (4 * b_B c))) by (unfold tk_beta; apply pdiv_ok; lra).
  rewrite TB. set (beta := (b_B w1 + b_B w2 + b_H w1 + b_H w2) / (4 * b_B c)) in *.
  assert (B : beta < 1) by (unfold beta; apply (Rmult_lt_reg_r (4 * b_B c)); [lra|]; replace ((b_B w1 + b_B w2 + b_H w1 + b_H w2) / (4 * b_B c) * (4 * b_B c)) with (b_B w1 + b_B w2 + b_H w1 + b_H w2) by (field; lra); lra).
  cbn [bind]. cbv zeta.
  assert (SL : forall w, 0 < b_B w -> (met (bind (pdiv (1/100 * b_B c) (b_T c)) (fun q => bind (pdiv (b_B w) (b_B c)) (fun r => bind (pdiv (1/10 + q) r) (fun v => Some (v - 1))))) = true <-> b_B w / b_B c >= 1/10 + 1/100 * b_B c / b_T c)).
  { intros w Hw. rewrite (pdiv_ok _ (b_T c)) by lra. cbn [bind]. rewrite (pdiv_ok _ (b_B c)) by lra. cbn [bind]. rewrite met_ratio by (apply Rdiv_lt_0_compat; lra). lra. }
  assert (HI : forall w, 0 < b_B w -> (met (bind (pdiv (- (85/100) * b_B c) (b_B w)) (fun q => Some (q + 1))) = true <-> b_B w / b_B c <= 85/100)).
  { intros w Hw. rewrite (pdiv_ok _ (b_B w)) by lra. cbn [bind met]. rewrite Rleb_true. rewrite (div_le_iff (b_B w) (b_B c) (85/100)) by lra.
    replace (- (85/100) * b_B c / b_B w + 1) with ((b_B w - 85/100 * b_B c) / b_B w) by (field; lra). rewrite (div_le_iff _ (b_B w) 0) by lra. lra. }
  assert (LO : forall w, 0 < b_B w -> (met (bind (pdiv (35/100 * b_B c) (b_B w)) (fun q => Some (q - 1))) = true <-> 35/100 <= b_B w / b_B c)).
  { intros w Hw. rewrite met_ratio by auto. rewrite (le_div_iff (b_B w) (b_B c) (35/100)) by lra. tauto. }
  assert (TX : forall d, met (Some (d / 90 - 1)) = true <-> d <= 90) by (intros d; cbn [met]; rewrite Rleb_true; lra).
  assert (GM : met (pdiv (b_T w1 + b_T w2 - g) (Rabs g)) = true <-> b_T w1 + b_T w2 <= g) by (rewrite met_quot by auto; lra).
  assert (GX : met (bind (pdiv g (15/10 * (1 - beta) * b_B c)) (fun v => Some (v - 1))) = true <-> g / b_B c <= 15/10 * (1 - beta)).
  { rewrite met_ratio by (apply Rmult_lt_0_compat; lra). rewrite (div_le_iff g (b_B c)) by lra. tauto. }
  assert (GN : met (bind (pdiv (1/2 * (1 - beta) * b_B c) (Rabs g)) (fun v => Some (v - 1))) = true <-> 1/2 * (1 - beta) * b_B c <= Rabs g) by (apply met_ratio; exact G).
  assert (EP : met (bind (pdiv e (25/100 * b_H c)) (fun v => Some (v - 1))) = true <-> e <= 25/100 * b_H c) by (apply met_ratio; lra).
  assert (EN : met (bind (pdiv e (55/100 * b_H c)) (fun v => Some (-1 - v))) = true <-> - (55/100) * b_H c <= e).
  { rewrite (pdiv_ok e) by lra. cbn [bind met]. rewrite Rleb_true. replace (-1 - e / (55/100 * b_H c)) with ((- (55/100) * b_H c - e) / (55/100 * b_H c)) by (field; lra). rewrite (div_le_iff _ (55/100 * b_H c) 0) by lra. lra. }
  assert (BM : met (Some (beta - 1)) = true <-> beta <= 1) by (cbn [met]; rewrite Rleb_true; lra).
  cbn [forallb]. rewrite !andb_true_iff. rewrite BM, (SL w1), (SL w2), GM, GN, GX, (LO w1), (LO w2), (HI w1), (HI w2), (met_ratio 30 (degrees th1)), (met_ratio 30 (degrees th2)), (TX (degrees th1)), (TX (degrees th2)), EP, EN by auto.
  assert (X : b_T w1 + b_T w2 <= g -> (1/2 * (1 - beta) * b_B c <= Rabs g <-> 1/2 * (1 - beta) <= g / b_B c)).
  { intros K. rewrite (Rabs_pos_eq g) by lra. rewrite (le_div_iff g (b_B c)) by lra. tauto. }
  tauto.
Qed.

(** ---- strength. *)
Lemma y_strength_lemma : forall N f w b, 0 < f -> 0 < w -> 0 < b -> (forallb met (y_strength N f w b) = true <-> N <= f /\ - N <= w /\ Rabs N <= b).
Proof.
  intros N f w b H1 H2 H3. unfold y_strength. cbn [forallb]. rewrite !andb_true_iff. rewrite (met_ratio N f), (met_ratio (- N) w), (met_ratio (Rabs N) b) by auto. tauto.
Qed.
(** A compressed brace may exceed the chord face resistance. *)
Lemma y_face_lemma : exists N f w b, 0 < f /\ 0 < w /\ 0 < b /\ forallb met (y_strength N f w b) = true /\ f < Rabs N.
Proof.
  exists (-2), 1, 3, 3. assert (A : Rabs (-2) = 2) by (rewrite Rabs_left; lra). rewrite (y_strength_lemma (-2) 1 3 3) by lra. rewrite A. lra.
Qed.
Lemma k_strength_lemma : forall res w1 w2, 0 < res w1 -> 0 < res w2 -> w_loc w1 <= w_loc w2 ->
  (forallb met (k_strength res w1 w2) = true <-> Rabs (w_N w1) <= res w1 /\ Rabs (w_N w2) <= res w2).
Proof.
  intros res w1 w2 H1 H2 H. unfold k_strength, sort2. rewrite ltb_f by lra. cbn [forallb]. rewrite !andb_true_iff, !met_ratio by auto. tauto.
Qed.
(** Webs added in the other order: each force is compared with the other web's resistance. *)
Lemma k_swap_lemma : forall res w1 w2, 0 < res w1 -> 0 < res w2 -> w_loc w2 < w_loc w1 ->
  (forallb met (k_strength res w1 w2) = true <-> Rabs (w_N w1) <= res w2 /\ Rabs (w_N w2) <= res w1).
Proof.
  intros res w1 w2 H1 H2 H. unfold k_strength, sort2. rewrite ltb_t by lra. cbn [forallb]. rewrite !andb_true_iff, !met_ratio by auto. tauto.
Qed.

(** ---- members. *)
Lemma section_lemma : forall N V M f, 0 < N -> 0 < V -> 0 < M ->
  (forallb met (section_cons N V M f) = true <-> Rabs (fst (f_N f)) <= N /\ Rabs (fst (f_V f)) <= V /\ Rabs (fst (f_M f)) <= M).
Proof.
  intros N V M f H1 H2 H3. unfold section_cons. cbn [forallb]. rewrite !andb_true_iff, !met_ratio by auto.
  assert (A : Rabs (fst (f_N f)) <= N <-> - fst (f_N f) <= N /\ fst (f_N f) <= N) by (unfold Rabs; destruct (Rcase_abs _); lra). rewrite A. tauto.
Qed.
(** When the elements share the forces at their common nodes, all nodes of the member but the last
    are covered. *)
Lemma member_nodes_lemma : forall N V M fs d, 0 < N -> 0 < V -> 0 < M ->
  (forall i, (S i < List.length fs)%nat -> f_N (nth i fs d) = (fst (f_N (nth i fs d)), fst (f_N (nth (S i) fs d))) /\
     f_V (nth i fs d) = (fst (f_V (nth i fs d)), fst (f_V (nth (S i) fs d))) /\ f_M (nth i fs d) = (fst (f_M (nth i fs d)), fst (f_M (nth (S i) fs d)))) ->
  forallb (fun f => forallb met (section_cons N V M f)) fs = true ->
  forall i, (i < List.length fs)%nat -> (Rabs (fst (f_N (nth i fs d))) <= N /\ Rabs (fst (f_V (nth i fs d))) <= V /\ Rabs (fst (f_M (nth i fs d))) <= M) /\
    ((S i < List.length fs)%nat -> Rabs (snd (f_N (nth i fs d))) <= N /\ Rabs (snd (f_V (nth i fs d))) <= V /\ Rabs (snd (f_M (nth i fs d))) <= M).
Proof.
  intros N V M fs d H1 H2 H3 C A i Hi. rewrite forallb_forall in A.
  assert (P : forall k, (k < List.length fs)%nat -> Rabs (fst (f_N (nth k fs d))) <= N /\ Rabs (fst (f_V (nth k fs d))) <= V /\ Rabs (fst (f_M (nth k fs d))) <= M).
  { intros k Hk. apply (section_lemma N V M); auto. apply A. apply nth_In. exact Hk. }
  split; [apply P; exact Hi|]. intros Hs. destruct (C i Hs) as (E1 & E2 & E3). rewrite E1, E2, E3. cbn [snd]. apply P. exact Hs.
Qed.
(** The far end of the last element is never looked at: any force there passes. *)
Lemma last_node_lemma : forall N V M n v m, 0 < N -> 0 < V -> 0 < M -> N < Rabs n ->
  let f := mkEF (0, n) (0, v) (0, m) in forallb met (section_cons N V M f) = true /\ N < Rabs (snd (f_N f)).
Proof.
  intros N V M n v m H1 H2 H3 H f. split; [|exact H]. apply section_lemma; auto. cbn [f f_N f_V f_M fst]. rewrite Rabs_R0. lra.
Qed.
Lemma tube_min_spec : forall l m, list_min l = Some m -> In m l /\ (forall x, In x l -> m <= x).
Proof.
  intros [|a l] m H; [discriminate H|]. cbn in H. injection H as H. subst m. split.
  - destruct (fold_Rmin_in l a) as [E|E]; [rewrite E; left; reflexivity|right; exact E].
  - intros x [->|Hx]; [apply (proj1 (fold_Rmin_le l x))|apply (proj2 (fold_Rmin_le l a)); exact Hx].
Qed.
Lemma tube_max_spec : forall l m, Base.list_max l = Some m -> In m l /\ (forall x, In x l -> x <= m).
Proof.
  intros [|a l] m H; [discriminate H|]. cbn in H. injection H as H. subst m. split.
  - destruct (fold_Rmax_in l a) as [E|E]; [rewrite E; left; reflexivity|right; exact E].
  - intros x [->|Hx]; [apply (proj1 (fold_Rmax_ge l x))|apply (proj2 (fold_Rmax_ge l a)); exact Hx].
Qed.
Lemma tube_buckling_lemma : forall neds Nb, neds <> [] -> 0 < Nb -> (met (buckling_con neds Nb) = true <-> forall n, In n neds -> - n <= Nb).
Proof.
  intros neds Nb HN H. unfold buckling_con. destruct (list_min neds) as [m|] eqn:E; [|destruct neds; [congruence|discriminate E]].
  destruct (tube_min_spec _ _ E) as [I L]. cbn [bind]. rewrite met_ratio by exact H. split.
  - intros K n Hn. specialize (L n Hn). lra.
  - intros K. apply K. exact I.
Qed.
Lemma lt_con_lemma : forall meds Mb, meds <> [] -> 0 < Mb -> (forall m, In m meds -> 0 <= m) -> (met (lt_con meds Mb) = true <-> forall m, In m meds -> Rabs m <= Mb).
Proof.
  intros meds Mb HN H P. unfold lt_con. destruct (Base.list_max meds) as [m|] eqn:E; [|destruct meds; [congruence|discriminate E]].
  destruct (tube_max_spec _ _ E) as [I L]. cbn [bind]. rewrite met_ratio by exact H. split.
  - intros K n Hn. rewrite Rabs_pos_eq in * by auto. specialize (L n Hn). lra.
  - intros K. apply K. exact I.
Qed.
(** A hogging moment, however large, passes when some moment of the member is zero. *)
Lemma lt_hogging_lemma : forall M Mb, 0 < M -> 0 < Mb -> met (lt_con [0; - M; 0] Mb) = true.
Proof.
  intros M Mb H1 H2. unfold lt_con.
  assert (E : Base.list_max [0; - M; 0] = Some 0).
  { destruct (Base.list_max [0; - M; 0]) as [m|] eqn:E; [|discriminate E]. destruct (tube_max_spec _ _ E) as [I L]. pose proof (L 0 ltac:(left; reflexivity)). destruct I as [<-|[<-|[<-|[]]]]; auto. lra. }
  rewrite E. cbn [bind]. rewrite met_ratio by exact H2. rewrite Rabs_R0. lra.
Qed.
Lemma deflection_con_lemma : forall ds l, ds <> [] -> 0 < l -> exists v, deflection_con ds (Some l) = Some v /\ (met v = true <-> forall d, In d ds -> Rabs d <= l).
Proof.
  intros ds l HN H. unfold deflection_con. rewrite eqb_f by lra. eexists. split; [reflexivity|].
  destruct (Base.list_max (map Rabs ds)) as [m|] eqn:E; [|destruct ds; [congruence|discriminate E]].
  destruct (tube_max_spec _ _ E) as [I L]. cbn [bind]. rewrite met_ratio by exact H. split.
  - intros K d Hd. specialize (L (Rabs d) (in_map Rabs ds d Hd)). lra.
  - intros K. apply in_map_iff in I. destruct I as (d & <- & Hd). apply K. exact Hd.
Qed.
Lemma deflection_off_lemma : forall ds l, deflection_con ds l = None <-> l = None \/ l = Some 0.
Proof.
  intros ds [l|]; unfold deflection_con; [|tauto]. destruct (Reqb l 0) eqn:E.
  - apply Reqb_true in E. subst. split; auto.
  - apply Reqb_false in E. split; [discriminate|]. intros [K|K]; [discriminate K|]. injection K as K. congruence.
Qed.
Lemma class_con_lemma : forall k web c t eps, 0 < t ->
  (met (class_con k web c t eps) = true <-> c / t <= (match k, web with Ikind, true => 42 | Ikind, false => 14 | Tubekind, _ => 38 end) * eps).
Proof.
  intros k web c t eps H. unfold class_con. destruct k, web; cbn [class_limit bind]; rewrite (pdiv_ok c t) by lra; cbn [bind met]; rewrite Rleb_true; lra.
Qed.

(** ---- groups. *)
Lemma remove_iter_keeps : forall A (f g : A -> bool) l, (forall x, f x = true -> g x = false) -> List.length (filter g (remove_iter f l)) = List.length (filter g l).
Proof.
  intros A f g l H. remember (List.length l) as n eqn:En. assert (Le : (List.length l <= n)%nat) by lia. clear En. revert l Le.
  induction n as [|n IH]; intros [|x l] Le; cbn in Le; try lia; try reflexivity. cbn [remove_iter]. destruct (f x) eqn:F.
  - cbn [filter]. rewrite (H x F). destruct l as [|y l]; [reflexivity|]. cbn [filter]. cbn in Le. destruct (g y); cbn [List.length]; rewrite IH by lia; reflexivity.
  - cbn [filter]. destruct (g x); cbn [List.length]; rewrite IH by lia; reflexivity.
Qed.
Lemma remove_iter_none : forall A (f : A -> bool) l, (forall x, In x l -> f x = false) -> remove_iter f l = l.
Proof.
  intros A f. induction l as [|x l IH]; intros H; [reflexivity|]. cbn [remove_iter]. rewrite (H x) by (left; auto). rewrite IH; auto. intros y Hy. apply H. right. exact Hy.
Qed.
Lemma remove_iter_pre : forall A (f : A -> bool) pre l, (forall x, In x pre -> f x = false) -> remove_iter f (pre ++ l) = pre ++ remove_iter f l.
Proof.
  intros A f. induction pre as [|x l IH]; intros l0 H; [reflexivity|]. cbn [remove_iter app]. rewrite (H x) by (left; auto). rewrite IH; auto. intros y Hy. apply H. right. exact Hy.
Qed.
Lemma remove_iter_block : forall A (f : A -> bool) blk post, (forall x, In x blk -> f x = true) -> (forall x, In x post -> f x = false) ->
  List.length (filter f (remove_iter f (blk ++ post))) = (List.length blk / 2)%nat.
Proof.
  intros A f blk post HB HP. assert (Z : forall l, (forall x, In x l -> f x = false) -> filter f l = []).
  { induction l as [|x l IH]; intros H; [reflexivity|]. cbn. rewrite (H x) by (left; auto). apply IH. intros y Hy. apply H. right. exact Hy. }
  remember (List.length blk) as n eqn:En. revert blk En HB. induction n as [n IH] using lt_wf_ind. intros [|x [|y b]] En HB; cbn in En; subst n.
  - cbn [app]. rewrite remove_iter_none by exact HP. rewrite (Z post HP). reflexivity.
  - cbn [app remove_iter]. rewrite (HB x) by (left; auto). destruct post as [|y p]; [reflexivity|]. rewrite (remove_iter_none _ f p) by (intros z Hz; apply HP; right; exact Hz). rewrite (Z (y :: p) HP). reflexivity.
  - cbn [app remove_iter]. rewrite (HB x) by (left; auto). cbn [filter]. rewrite (HB y) by (right; left; auto). cbn [List.length].
    rewrite (IH (List.length b)) with (blk := b); [|lia|reflexivity|intros z Hz; apply HB; right; right; exact Hz].
    replace (S (S (List.length b))) with (List.length b + 1 * 2)%nat by lia. rewrite Nat.div_add by lia. lia.
Qed.
(** The removal is complete for a single constraint of a member. *)
Lemma remove_single_lemma : forall A (f : A -> bool) pre x post, (forall y, In y pre -> f y = false) -> (forall y, In y post -> f y = false) -> f x = true ->
  remove_iter f (pre ++ x :: post) = pre ++ post.
Proof.
  intros A f pre x post H1 H2 H. rewrite remove_iter_pre by exact H1. cbn [remove_iter]. rewrite H. destruct post as [|y p]; [reflexivity|]. rewrite remove_iter_none; [reflexivity|]. intros z Hz. apply H2. right. exact Hz.
Qed.
Lemma joint_count_app : forall j a b, joint_count j (a ++ b) = (joint_count j a + joint_count j b)%nat.
Proof. intros. unfold joint_count. rewrite filter_app, app_length. reflexivity. Qed.
Lemma joint_count_created : forall j keys joints members, joint_count j (created keys joints members) = count_occ Nat.eq_dec joints j.
Proof.
  intros. unfold created. rewrite joint_count_app. assert (A : joint_count j (flat_map (fun m => map (MemC m) (keys m)) members) = 0%nat).
  { induction members as [|m l IH]; [reflexivity|]. cbn [flat_map]. rewrite joint_count_app, IH. assert (B : joint_count j (map (MemC m) (keys m)) = 0%nat) by (induction (keys m) as [|k ks IK]; [reflexivity|exact IK]). rewrite B. reflexivity. }
  rewrite A. cbn. induction joints as [|k l IH]; [reflexivity|]. unfold joint_count in *. cbn [map filter count_occ]. destruct (Nat.eq_dec k j) as [->|Nk].
  - rewrite Nat.eqb_refl. cbn [List.length]. rewrite IH. reflexivity.
  - destruct (Nat.eqb_spec j k) as [E|E]; [congruence|]. exact IH.
Qed.
(** Every object of a group adds the constraints of every joint once more. *)
Lemma group_joints_lemma : forall keys joints objs cons j,
  joint_count j (group_con keys joints objs cons) = (joint_count j cons + List.length objs * count_occ Nat.eq_dec joints j)%nat.
Proof.
  intros keys joints objs cons j. unfold group_con. generalize objs at 1 as os. intros os. revert cons. induction objs as [|o l IH]; intros cons; cbn [fold_left List.length]; [lia|].
  rewrite IH. rewrite joint_count_app, joint_count_created. unfold joint_count at 1. rewrite remove_iter_keeps; [unfold joint_count; lia|]. intros [m k|j'] H; [reflexivity|discriminate H].
Qed.
(** Half of the constraints a member had stay beside the new ones. *)
Lemma group_half_lemma : forall keys joints pre m post, ~ In m pre -> ~ In m post -> forall old,
  List.length (filter (of_member m) (group_con keys joints [m] (created (fun x => if Nat.eqb x m then old else keys x) joints (pre ++ m :: post)))) = (List.length old / 2 + List.length (keys m))%nat.
Proof.
  intros keys joints pre m post N1 N2 old. unfold group_con. cbn [fold_left]. rewrite filter_app, app_length.
  assert (Q : forall ks l, ~ In m l -> forall x, In x (flat_map (fun a => map (MemC a) (ks a)) l) -> of_member m x = false).
  { intros ks l Hl x Hx. apply in_flat_map in Hx. destruct Hx as (a & Ha & Hx). apply in_map_iff in Hx. destruct Hx as (k & <- & _). cbn. destruct (Nat.eqb_spec m a) as [E|E]; [subst; contradiction|reflexivity]. }
  assert (J : forall x, In x (map JointC joints) -> of_member m x = false) by (intros x Hx; apply in_map_iff in Hx; destruct Hx as (k & <- & _); reflexivity).
  f_equal.
  - unfold created. rewrite flat_map_app. cbn [flat_map]. rewrite Nat.eqb_refl. rewrite <- !app_assoc. rewrite remove_iter_pre by (apply Q; exact N1). rewrite filter_app, app_length.
    assert (Z : forall l, (forall x, In x l -> of_member m x = false) -> filter (of_member m) l = []).
    { induction l as [|x l IH]; intros H; [reflexivity|]. cbn. rewrite (H x) by (left; auto). apply IH. intros y Hy. apply H. right. exact Hy. }
    rewrite (Z _ (Q _ pre N1)). cbn [List.length Nat.add]. rewrite remove_iter_block.
    + rewrite map_length. reflexivity.
    + intros x Hx. apply in_map_iff in Hx. destruct Hx as (k & <- & _). cbn. apply Nat.eqb_refl.
    + intros x Hx. apply in_app_or in Hx. destruct Hx as [Hx|Hx]; [apply (Q _ post N2 x Hx)|apply J; exact Hx].
  - unfold created. cbn [flat_map]. rewrite app_nil_r, filter_app, app_length.
    assert (Z : filter (of_member m) (map JointC joints) = []) by (induction joints as [|a l IH]; [reflexivity|apply IH; intros x Hx; apply J; right; exact Hx]).
    rewrite Z. cbn [List.length]. rewrite Nat.add_0_r. clear Q J Z. induction (keys m) as [|k ks IH]; [reflexivity|]. cbn [map filter of_member]. rewrite Nat.eqb_refl. cbn [List.length]. rewrite IH. reflexivity.
Qed.

(** ---- variables. *)
Lemma vars_acc : forall gs acc, fold_left (fun a g => bind a (fun n => bind (group_vars g) (fun k => Some (n + k)%nat))) gs acc =
  bind acc (fun n => bind (fold_right (fun g a => bind (group_vars g) (fun k => bind a (fun m => Some (k + m)%nat))) (Some 0%nat) gs) (fun m => Some (n + m)%nat)).
Proof.
  induction gs as [|g gs IH]; intros acc; cbn [fold_left fold_right].
  - destruct acc; cbn [bind]; [rewrite Nat.add_0_r|]; reflexivity.
  - rewrite IH. destruct acc as [n|]; [|reflexivity]. cbn [bind]. destruct (group_vars g) as [k|]; [|reflexivity]. cbn [bind]. destruct (fold_right _ _ gs) as [m|]; [|reflexivity]. cbn [bind]. f_equal. lia.
Qed.
Lemma variables_default_lemma : forall n, create_variables None n <> None <-> n = 0%nat.
Proof.
  intros [|n]; unfold create_variables; [split; [auto|intros _; discriminate]|]. cbn [repeat]. rewrite vars_acc. cbn. split; [congruence|discriminate].
Qed.
Lemma variables_count_lemma : forall gs n N, create_variables (Some gs) n = Some N ->
  Forall (fun g => group_vars g <> None) gs /\ N = fold_right (fun g a => ((match group_vars g with Some k => k | None => 0 end) + a)%nat) 0%nat gs.
Proof.
  intros gs n N H. unfold create_variables in H. rewrite vars_acc in H. cbn [bind] in H. revert N H. induction gs as [|g gs IH]; intros N H; cbn [fold_right] in *.
  - cbn in H. injection H as <-. split; [constructor|reflexivity].
  - destruct (group_vars g) as [k|] eqn:E; [|discriminate H]. cbn [bind] in H. destruct (fold_right _ (Some 0%nat) gs) as [m|] eqn:E2; [|discriminate H]. cbn [bind] in H. injection H as <-.
    destruct (IH m eq_refl) as [F S0]. split; [constructor; [rewrite E; discriminate|exact F]|]. rewrite <- S0. reflexivity.
Qed.
Lemma multi_lemma : forall bs n vs k, group_vars (Gmulti bs n vs) = Some k -> List.length bs = n /\ k = Nat.min n (List.length vs).
Proof.
  intros bs n vs k H. cbn in H. destruct (Nat.eqb_spec (List.length bs) n) as [E|E]; [|discriminate H]. injection H as <-. split; [exact E|]. lia.
Qed.
(** After the conversion each profile can still be chosen, position by position. *)
Lemma split_complete_lemma : forall t params prof web col chord own k i p x, 
  nth_error params k = Some p ->
  nth_error (match t with Tweb => web | Tcolumn => col | Tchord => chord | _ => [] end) i = Some x ->
  exists vs, nth_error (split_var t params prof web col chord own) k = Some vs /\ nth_error vs i = Some (prof x p).
Proof.
  intros t params prof web col chord own k i p x Hp Hx.
  assert (G : forall ps, nth_error ps i = Some x -> exists vs, nth_error (map (fun p => map (fun x => prof x p) ps) params) k = Some vs /\ nth_error vs i = Some (prof x p)).
  { intros ps Hps. exists (map (fun x => prof x p) ps). split; [rewrite nth_error_map, Hp; reflexivity|rewrite nth_error_map, Hps; reflexivity]. }
  destruct t; cbn in Hx |- *; try (destruct i; discriminate Hx); apply G; exact Hx.
Qed.
(** Combinations that belong to no profile become possible. *)
Lemma split_mixed_lemma : exists prof web, forall col chord own, exists vs1 vs2 a b,
  split_var Tweb [0%nat; 1%nat] prof web col chord own = [vs1; vs2] /\ In a vs1 /\ In b vs2 /\ ~ (exists x, In x web /\ prof x 0%nat = a /\ prof x 1%nat = b).
Proof.
  exists (fun x p => INR x * 100 + INR p * 4), [1%nat; 2%nat]. intros col chord own. eexists _, _, _, _. split; [reflexivity|]. cbn [map].
  split; [left; reflexivity|]. split; [right; left; reflexivity|]. intros (x & Hx & E1 & E2). destruct Hx as [<-|[<-|[]]]; cbn [INR] in *; lra.
Qed.
