(** Proofs on the results of the load combiners. *)
Require Import Reals List Bool Lra Lia Psatz PeanoNat.
Import ListNotations.
From Verif Require Import Base EC3_model Bool_tac EC3_proofs Plate_proofs Loads_spec Loads_proofs.
From Verif Require Import Loads_model Lres_model Lres_spec.
Local Open Scope R_scope.

Definition ext (e : option floads) (l : floads) : option floads := match l with [] => e | _ => Some (match e with None => l | Some s => s ++ l end) end.
Lemma ext_app : forall e a b, ext (ext e a) b = ext e (a ++ b).
Proof. intros e a b. destruct a; auto. destruct b as [|y b]. rewrite app_nil_r; auto. cbn. destruct e; f_equal. rewrite <- app_assoc. reflexivity. Qed.
Lemma put_spec : forall A (l : list A) i x, (i < length l)%nat -> exists l', put i x l = Some l' /\ length l' = length l /\ forall j, nth_error l' j = if Nat.eqb j i then Some x else nth_error l j.
Proof.
  induction l as [|y l IH]; intros i x H; cbn in H. lia. destruct i.
  - exists (x :: l). split; auto. split; auto. intros [|j]; auto.
  - destruct (IH i x ltac:(lia)) as (l'&E&N&G). exists (y :: l'). cbn [put]. rewrite E. split; auto. split; [cbn; lia|]. intros [|j]; auto. apply G.
Qed.
Lemma file_id_spec : forall lf b i, (i < length b)%nat -> exists b', file_id lf b i = Some b' /\ length b' = length b /\
  forall j, nth_error b' j = option_map (fun e => if Nat.eqb j i then ext e [lf] else e) (nth_error b j).
Proof.
  intros lf b i H. unfold file_id. destruct (nth_error b i) as [e|] eqn:E. 2: apply nth_error_None in E; lia. cbn [bind].
  destruct (put_spec _ b i (match e with None => Some [lf] | Some ls => Some (ls ++ [lf]) end) H) as (b'&P&N&G). exists b'. split; auto. split; auto.
  intro j. rewrite G. destruct (Nat.eqb j i) eqn:Q. apply Nat.eqb_eq in Q. subst. rewrite E. cbn. destruct e; auto. destruct (nth_error b j); auto.
Qed.
Lemma file_ids_spec : forall lf ids b, Forall (fun i => (i < length b)%nat) ids -> exists b', file_ids lf ids b = Some b' /\ length b' = length b /\
  forall j, nth_error b' j = option_map (fun e => ext e (repeat lf (count_occ Nat.eq_dec ids j))) (nth_error b j).
Proof.
  induction ids as [|i ids IH]; intros b H.
  - exists b. split; auto. split; auto. intro j. destruct (nth_error b j); auto.
  - inversion H as [|? ? H1 H2]. subst. destruct (file_id_spec lf b i H1) as (b1&E1&N1&G1). cbn [file_ids]. rewrite E1. cbn [bind].
    destruct (IH b1) as (b2&E2&N2&G2). rewrite N1; auto. exists b2. split; auto. split; [congruence|]. intro j. rewrite G2, G1. destruct (nth_error b j) as [e|]; auto. cbn [option_map]. f_equal.
    destruct (Nat.eqb j i) eqn:Q. apply Nat.eqb_eq in Q. subst. rewrite count_occ_cons_eq by auto. cbn [repeat]. rewrite ext_app. reflexivity.
    apply Nat.eqb_neq in Q. rewrite count_occ_cons_neq by auto. reflexivity.
Qed.
Definition gathered (j : nat) (ls : floads) : floads := flat_map (fun lf => repeat lf (count_occ Nat.eq_dec (l_ids (fst lf)) j)) ls.
Lemma file_all_spec : forall ls b, (forall lf i, In lf ls -> In i (l_ids (fst lf)) -> (i < length b)%nat) -> exists b', file_all ls b = Some b' /\ length b' = length b /\
  forall j, nth_error b' j = option_map (fun e => ext e (gathered j ls)) (nth_error b j).
Proof.
  induction ls as [|lf ls IH]; intros b H.
  - exists b. split; auto. split; auto. intro j. destruct (nth_error b j); auto.
  - destruct (file_ids_spec lf (l_ids (fst lf)) b) as (b1&E1&N1&G1). apply Forall_forall. intros i I. apply (H lf i); auto; left; auto.
    cbn [file_all]. rewrite E1. cbn [bind]. destruct (IH b1) as (b2&E2&N2&G2). intros lf' i I1 I2. rewrite N1. apply (H lf' i); auto; right; auto.
    exists b2. split; auto. split; [congruence|]. intro j. rewrite G2, G1. destruct (nth_error b j); auto. cbn [option_map gathered flat_map]. f_equal. apply ext_app.
Qed.
Lemma gathered_nil : forall j ls, gathered j ls = [] <-> ~ acts j ls.
Proof.
  intros j ls. unfold acts. induction ls as [|lf ls IH]; cbn [gathered flat_map]. split; auto. intros _ (x&[]&_).
  fold (gathered j ls). split.
  - intros E (x&[->|I]&K). apply app_eq_nil in E. destruct E as (E&_). apply (count_occ_In Nat.eq_dec) in K. destruct (count_occ Nat.eq_dec (l_ids (fst x)) j); [lia|discriminate]. apply app_eq_nil in E. apply (proj1 IH (proj2 E)). exists x; auto.
  - intro N. rewrite (proj2 IH). 2: intros (x&I&K); apply N; exists x; split; auto; right; auto. rewrite app_nil_r. rewrite (proj1 (count_occ_not_In Nat.eq_dec _ _)). auto. intro K. apply N. exists lf. split; auto. left; auto.
Qed.
Lemma fold_shift : forall rnd d ls q, fold_left (fun q lf => if along d (fst lf) then q + rnd (l_val (fst lf) * snd lf) else q) ls q = q + bucket rnd d ls.
Proof.
  intros rnd d. unfold bucket. induction ls as [|lf ls IH]; intro q; cbn [fold_left]. ring. rewrite IH. rewrite (IH (if along d (fst lf) then _ else 0)). destruct (along d (fst lf)); ring.
Qed.
Lemma bucket_app : forall rnd d a b, bucket rnd d (a ++ b) = bucket rnd d a + bucket rnd d b.
Proof. intros. unfold bucket at 1. rewrite fold_left_app. rewrite fold_shift. reflexivity. Qed.
Lemma along_eq : forall d l, d <> dz -> along d l = ldir_eq (l_dir l) d.
Proof. intros d l H. unfold along, ldir_eq. destruct (l_dir l), d; auto; congruence. Qed.
Lemma bucket_repeat : forall rnd d lf n, d <> dz -> bucket rnd d (repeat lf n) = if ldir_eq (l_dir (fst lf)) d then INR n * rnd (l_val (fst lf) * snd lf) else 0.
Proof.
  intros rnd d lf n D. rewrite <- along_eq by auto. induction n as [|n IH]. cbn. destruct (along d (fst lf)); ring.
  change (repeat lf (S n)) with ([lf] ++ repeat lf n). rewrite bucket_app, IH, S_INR. unfold bucket. cbn [fold_left]. destruct (along d (fst lf)); ring.
Qed.
Lemma bucket_gathered : forall rnd d i ls, d <> dz -> bucket rnd d (gathered i ls) = value_on rnd d i ls.
Proof.
  intros rnd d i ls D. induction ls as [|(l,f) ls IH]. reflexivity. cbn [gathered flat_map value_on]. fold (gathered i ls). rewrite bucket_app, IH, bucket_repeat by auto. reflexivity.
Qed.
Lemma value_none : forall rnd d i ls, ~ acts i ls -> value_on rnd d i ls = 0.
Proof.
  intros rnd d i ls. induction ls as [|(l,f) ls IH]; intro N. reflexivity. cbn [value_on]. rewrite IH. 2: intros (x&I&K); apply N; exists x; split; auto; right; auto.
  rewrite (proj1 (count_occ_not_In Nat.eq_dec (l_ids l) i)). destruct (ldir_eq _ _); cbn; ring. intro K. apply N. exists (l, f). split; auto. left; auto.
Qed.
Lemma value_app : forall rnd d i a b, value_on rnd d i (a ++ b) = value_on rnd d i a + value_on rnd d i b.
Proof. intros. induction a as [|(l,f) a IH]; cbn [app value_on]. ring. rewrite IH. ring. Qed.

Lemma fold_max : forall r i, (i <= fold_left Nat.max r i)%nat /\ (forall j, In j r -> (j <= fold_left Nat.max r i)%nat) /\ (fold_left Nat.max r i = i \/ In (fold_left Nat.max r i) r).
Proof.
  induction r as [|a r IH]; intro i; cbn [fold_left]. repeat split; auto. intros j []. destruct (IH (Nat.max i a)) as (A&B&C). split; [lia|]. split.
  intros j [<-|J]. lia. auto. destruct C as [C|C]. rewrite C. destruct (Nat.max_dec i a) as [->| ->]; auto. right; left; auto. right; right; auto.
Qed.
Lemma top_id_spec : forall l t, top_id l = Some t -> In t (l_ids l) /\ forall j, In j (l_ids l) -> (j <= t)%nat.
Proof.
  intros l t H. unfold top_id in H. destruct (l_ids l) as [|i r]; [discriminate|]. injection H as <-. destruct (fold_max r i) as (A&B&C). split. destruct C as [C|C]; [rewrite C; left; auto|right; auto]. intros j [<-|J]; auto.
Qed.
Lemma top_id_none : forall l, top_id l = None <-> l_ids l = [].
Proof. intro l. unfold top_id. destruct (l_ids l); split; congruence. Qed.
Lemma max_id_none : forall ls m, max_id m ls = None <-> exists lf, In lf ls /\ l_ids (fst lf) = [].
Proof.
  induction ls as [|lf ls IH]; intro m; cbn [max_id]. split; [discriminate|]. intros (x&[]&_). destruct (top_id (fst lf)) as [t|] eqn:E; cbn [bind].
  - rewrite IH. split; intros (x&I&K). exists x; split; auto; right; auto. destruct I as [->|I]. apply top_id_none in K. congruence. exists x; auto.
  - split; auto. intros _. exists lf. split; [left; auto|]. apply top_id_none; auto.
Qed.
Lemma max_id_some : forall ls m r, max_id (Some m) ls = Some r -> exists k, r = Some k /\ (m <= k)%nat /\ (forall i, acts i ls -> (i <= k)%nat) /\ (k = m \/ acts k ls).
Proof.
  induction ls as [|lf ls IH]; intros m r H; cbn [max_id] in H.
  - injection H as <-. exists m. split; auto. split; auto. split; auto. intros i (x&[]&_).
  - destruct (top_id (fst lf)) as [t|] eqn:E; [|discriminate]. cbn [bind] in H. destruct (top_id_spec _ _ E) as (T1&T2). destruct (IH _ _ H) as (k&->&K1&K2&K3). exists k. split; auto.
    assert (K4 : (m <= k /\ t <= k)%nat) by (destruct (Nat.ltb m t) eqn:Q; [apply Nat.ltb_lt in Q|apply Nat.ltb_ge in Q]; lia). split; [lia|]. split.
    + intros i (x&[->|I]&J). specialize (T2 i J). lia. apply K2. exists x; auto.
    + destruct K3 as [->|(x&I&J)]. destruct (Nat.ltb m t); auto. right. exists lf. split; auto. left; auto. right. exists x. split; auto. right; auto.
Qed.
Lemma max_id_lemma : forall ls r, max_id None ls = Some r -> (r = None /\ ls = []) \/ exists k, r = Some k /\ (forall i, acts i ls -> (i <= k)%nat) /\ acts k ls.
Proof.
  intros ls r H. destruct ls as [|lf ls]; cbn [max_id] in H. injection H as <-; auto. right. destruct (top_id (fst lf)) as [t|] eqn:E; [|discriminate]. cbn [bind] in H.
  destruct (top_id_spec _ _ E) as (T1&T2). destruct (max_id_some _ _ _ H) as (k&->&K1&K2&K3). exists k. split; auto. split.
  - intros i (x&[->|I]&J). specialize (T2 i J). lia. apply K2. exists x; auto.
  - destruct K3 as [->|(x&I&J)]. exists lf. split; auto. left; auto. exists x. split; auto. right; auto.
Qed.
Lemma by_id_raises_lemma : forall rnd ls, by_id rnd ls = None <-> ls = [] \/ exists lf, In lf ls /\ l_ids (fst lf) = [].
Proof.
  intros rnd ls. unfold by_id. destruct (max_id None ls) as [r|] eqn:E; cbn [bind].
  - assert (N : ~ exists lf, In lf ls /\ l_ids (fst lf) = []) by (intro X; apply (max_id_none ls None) in X; congruence).
    destruct (max_id_lemma _ _ E) as [(->&->)|(k&->&K1&K2)]; cbn [bind]. split; auto.
    destruct (file_all_spec ls (repeat None (S k))) as (b&G&_&_). rewrite repeat_length. intros lf i I J. assert (i <= k)%nat by (apply K1; exists lf; auto). lia.
    rewrite G. cbn [bind]. split; [discriminate|]. intros [->|X]; [destruct K2 as (x&[]&_)|contradiction].
  - split; auto. intros _. right. apply (max_id_none ls None); auto.
Qed.
Lemma nth_option_nth : forall A (l : list (option A)) i, nth i l None = match nth_error l i with Some x => x | None => None end.
Proof. induction l; intros [|i]; cbn; auto. Qed.
Lemma by_id_lemma : forall rnd ls X Y, by_id rnd ls = Some (X, Y) ->
  length X = length Y /\ acts (length X - 1) ls /\ (forall i, acts i ls -> (i < length X)%nat) /\
  (forall i, nth i X None = None <-> ~ acts i ls) /\ (forall i, nth i Y None = None <-> ~ acts i ls) /\
  (forall i, acts i ls -> nth i X None = Some (value_on rnd dx i ls) /\ nth i Y None = Some (value_on rnd dy i ls)).
Proof.
  intros rnd ls X Y H. unfold by_id in H. destruct (max_id None ls) as [r|] eqn:E; [|discriminate]. cbn [bind] in H.
  destruct (max_id_lemma _ _ E) as [(->&->)|(k&->&K1&K2)]; cbn [bind] in H. discriminate.
  destruct (file_all_spec ls (repeat None (S k))) as (b&G&N&F). rewrite repeat_length. intros lf i I J. assert (i <= k)%nat by (apply K1; exists lf; auto). lia.
  rewrite G in H. cbn [bind] in H. injection H as <- <-. rewrite repeat_length in N. rewrite !map_length, N. split; auto. split. replace (S k - 1)%nat with k by lia; auto. split. intros i A. specialize (K1 i A). lia.
  assert (V : forall d i, nth i (map (option_map (bucket rnd d)) b) None = match gathered i ls with [] => None | _ => Some (bucket rnd d (gathered i ls)) end).
  { intros d i. rewrite nth_option_nth, nth_error_map, F. destruct (le_lt_dec (S k) i) as [L|L].
    - rewrite (proj2 (nth_error_None _ _)) by (rewrite repeat_length; auto). cbn. assert (gathered i ls = []) as ->; auto. apply gathered_nil. intro A. specialize (K1 i A). lia.
    - rewrite nth_error_repeat by auto. cbn [option_map]. unfold ext. destruct (gathered i ls); auto. }
  assert (W : forall d i, nth i (map (option_map (bucket rnd d)) b) None = None <-> ~ acts i ls).
  { intros d i. rewrite V, <- gathered_nil. destruct (gathered i ls); split; congruence. }
  split; [intro; apply W|]. split; [intro; apply W|]. intros i A. rewrite !V. destruct (gathered i ls) as [|z g] eqn:Q. apply gathered_nil in Q. contradiction. rewrite <- Q, !bucket_gathered by discriminate. auto.
Qed.
Lemma acts_dec : forall i ls, {acts i ls} + {~ acts i ls}.
Proof. intros i ls. destruct (gathered i ls) eqn:Q. right. apply gathered_nil; auto. left. destruct (in_dec Nat.eq_dec i (flat_map (fun lf => l_ids (fst lf)) ls)) as [P|P]. apply in_flat_map in P. exact P. exfalso. assert (gathered i ls = []). apply gathered_nil. intro X. apply P. apply in_flat_map. exact X. congruence. Qed.
Lemma by_id_num : forall rnd ls X Y i, by_id rnd ls = Some (X, Y) -> num X i = value_on rnd dx i ls /\ num Y i = value_on rnd dy i ls.
Proof.
  intros rnd ls X Y i H. destruct (by_id_lemma rnd ls X Y H) as (_&_&_&A&B&C). unfold num. destruct (acts_dec i ls) as [P|Q].
  - destruct (C i P) as (-> & ->). auto.
  - rewrite (proj2 (A i) Q), (proj2 (B i) Q), !value_none; auto.
Qed.

(** Combinations. *)
Definition flat (p : parts) : floads := of_part (p_G p) ++ of_part (p_Q1 p) ++ of_part (p_Qi p).
Definition to_cand (p : parts) : cand := mkCand (p_val p) (flat p).
Lemma of_popped : forall p, of_part (popped p) = of_part p.
Proof. intros [[|x l]|]; reflexivity. Qed.
Lemma to_cand_pop : forall p, to_cand (pop p) = to_cand p.
Proof. intro p. unfold to_cand, flat, pop. cbn. rewrite !of_popped. reflexivity. Qed.
Lemma first_max_cand : forall l x, py_max (to_cand x) (map to_cand l) = to_cand (first_max x l).
Proof.
  unfold py_max, first_max. induction l as [|y l IH]; intro x. reflexivity. cbn [map fold_left].
  replace (if Rltb (k_value (to_cand x)) (k_value (to_cand y)) then to_cand y else to_cand x) with (to_cand (if Rltb (p_val x) (p_val y) then y else x)) by (cbn; destruct (Rltb (p_val x) (p_val y)); auto). apply IH.
Qed.
Lemma uls_link : forall c kfi, c_kfi c = Some kfi -> uls_combine c = Some (to_cand (uls_parts kfi c)).
Proof.
  intros c kfi H. unfold uls_combine. rewrite H. cbn [bind]. unfold uls_cands, uls_parts. rewrite <- first_max_cand. f_equal. f_equal. unfold to_cand, flat. cbn. rewrite app_nil_r. reflexivity.
  rewrite map_map. apply map_ext. intros (i&l). reflexivity.
Qed.
Lemma best_link : forall c (f : combiner -> nat * load -> parts) (g : combiner -> nat * load -> cand) l, (forall il, g c il = to_cand (f c il)) -> best c (map (g c) l) = to_cand (best_parts c (map (f c) l)).
Proof.
  intros c f g l H. unfold best, best_parts. destruct l as [|a l]; cbn [map]. rewrite to_cand_pop. unfold to_cand, flat; cbn. rewrite app_nil_r. reflexivity.
  rewrite H, <- first_max_cand, map_map. f_equal. apply map_ext. auto.
Qed.
Lemma sls_link : forall c, sls_combine c = (to_cand (fst (fst (sls_parts c))), to_cand (snd (fst (sls_parts c))), to_cand (snd (sls_parts c))).
Proof.
  intro c. unfold sls_combine, sls_parts. cbn [fst snd]. rewrite (best_link c char_parts char_cand), (best_link c freq_parts freq_cand).
  - unfold quasi_parts. rewrite to_cand_pop. reflexivity.
  - intros (i&l). unfold freq_parts. rewrite to_cand_pop. reflexivity.
  - intros (i&l). unfold char_parts. rewrite to_cand_pop. reflexivity.
Qed.
Lemma acc_link : forall c, acc_combine c = to_cand (acc_parts c).
Proof.
  intro c. unfold acc_combine, acc_parts.
  set (F := fun il : nat * load => let '(i, l) := il in mkCand (sum_G c + l_val l * acc_psi l + sum_Q_excl i 2 c) (perm c ++ [(l, acc_psi l)] ++ map (fun lo => (lo, psi 2 lo)) (drop_nth i (c_Q c)))).
  set (P := fun il : nat * load => let '(i, l) := il in pop (mkParts (sum_G c + l_val l * acc_psi l + sum_Q_excl i 2 c) (Some (perm c)) (Some [(l, acc_psi l)]) (Some (map (fun lo => (lo, psi 2 lo)) (drop_nth i (c_Q c)))))).
  assert (FP : forall il, F il = to_cand (P il)) by (intros (i&l); unfold F, P; rewrite to_cand_pop; reflexivity).
  assert (LP : mkCand (sum_G c) (perm c) = to_cand (pop (mkParts (sum_G c) (Some (perm c)) None None))) by (rewrite to_cand_pop; unfold to_cand, flat; cbn; rewrite app_nil_r; reflexivity).
  rewrite LP. destruct (indexed (c_Q c)) as [|a r]; cbn [map app]. reflexivity. rewrite FP, <- first_max_cand. f_equal. rewrite map_app, map_map. f_equal. apply map_ext; auto.
Qed.
Lemma single_flat : forall rnd p, single_result rnd p = by_id rnd (k_loads (to_cand p)).
Proof. reflexivity. Qed.
Lemma results_lemma : forall rnd c, (c_G c <> [] \/ c_Q c <> []) ->
  uls_result rnd c = bind (uls_combine c) (fun k => by_id rnd (k_loads k)) /\
  (let '(a, b, d) := sls_combine c in sls_result rnd c = bind (by_id rnd (k_loads a)) (fun ra => bind (by_id rnd (k_loads b)) (fun rb => bind (by_id rnd (k_loads d)) (fun rd => Some (ra, rb, rd))))) /\
  acc_result rnd c = by_id rnd (k_loads (acc_combine c)).
Proof.
  intros rnd c H. assert (N : no_loads c = false) by (unfold no_loads; destruct (c_Q c), (c_G c); auto; destruct H; congruence).
  unfold uls_result, sls_result, acc_result. rewrite N, sls_link, acc_link. split; [|split; auto].
  - destruct (c_kfi c) as [kfi|] eqn:K. rewrite (uls_link c kfi K). reflexivity. unfold uls_combine. rewrite K. reflexivity.
Qed.
Lemma nothing_lemma : forall rnd c, c_G c = [] -> c_Q c = [] -> uls_result rnd c = None /\ sls_result rnd c = None /\ acc_result rnd c = None.
Proof. intros rnd c G Q. unfold uls_result, sls_result, acc_result, no_loads. rewrite G, Q. auto. Qed.

(** Split results. *)
Lemma split_part_lemma : forall rnd p r i y, split_part rnd p = Some r -> key_num y r i = value_on rnd (if y then dy else dx) i (of_part p).
Proof.
  intros rnd [ls|] r i y H; unfold split_part in H. 2: injection H as <-; reflexivity. destruct (by_id rnd ls) as [(X,Y)|] eqn:E; [|discriminate]. injection H as <-. cbn [key_num of_part].
  destruct (by_id_num rnd ls X Y i E). destruct y; auto.
Qed.
Lemma split_sum_lemma : forall rnd p g q r X Y i, split_result rnd p = Some (g, q, r) -> single_result rnd p = Some (X, Y) ->
  num X i = key_num false g i + key_num false q i + key_num false r i /\ num Y i = key_num true g i + key_num true q i + key_num true r i.
Proof.
  intros rnd p g q r X Y i H S. unfold split_result in H. destruct (split_part rnd (p_G p)) as [g'|] eqn:E1; [|discriminate]. destruct (split_part rnd (p_Q1 p)) as [q'|] eqn:E2; [|discriminate]. destruct (split_part rnd (p_Qi p)) as [r'|] eqn:E3; [|discriminate].
  cbn [bind] in H. injection H as <- <- <-. destruct (by_id_num rnd _ X Y i S) as (-> & ->). rewrite (split_part_lemma _ _ _ i false E1), (split_part_lemma _ _ _ i false E2), (split_part_lemma _ _ _ i false E3), (split_part_lemma _ _ _ i true E1), (split_part_lemma _ _ _ i true E2), (split_part_lemma _ _ _ i true E3).
  rewrite !value_app. cbn. split; ring.
Qed.
Lemma split_none : forall rnd p, popped p = p -> (split_part rnd p = None <-> exists lf, In lf (of_part p) /\ l_ids (fst lf) = []).
Proof.
  intros rnd [ls|] P; unfold split_part; cbn [of_part]. 2: split; [discriminate|intros (x&[]&_)].
  transitivity (by_id rnd ls = None). destruct (by_id rnd ls); cbn; split; congruence. rewrite by_id_raises_lemma. split; auto. intros [->|X]; auto. discriminate.
Qed.
Lemma popped_twice : forall p, popped (popped p) = popped p.
Proof. intros [[|x l]|]; reflexivity. Qed.
Definition trim (p : parts) : Prop := popped (p_G p) = p_G p /\ popped (p_Q1 p) = p_Q1 p /\ popped (p_Qi p) = p_Qi p.
Lemma trim_pop : forall p, trim (pop p).
Proof. intro p. unfold trim, pop. cbn. rewrite !popped_twice. auto. Qed.
Lemma first_max_in : forall l x, In (first_max x l) (x :: l).
Proof.
  unfold first_max. induction l as [|y l IH]; intro x. left; auto. cbn [fold_left]. destruct (IH (if Rltb (p_val x) (p_val y) then y else x)) as [E|E].
  rewrite <- E. destruct (Rltb (p_val x) (p_val y)); [right; left; auto|left; auto]. right; right; auto.
Qed.
Lemma best_in : forall c (f : nat * load -> parts) l, In (best_parts c (map f l)) (map f l) \/ (l = [] /\ best_parts c (map f l) = pop (mkParts (sum_G c) (Some (perm c)) None None)).
Proof. intros c f [|a l]; cbn [map best_parts]. right; auto. left. apply (first_max_in (map f l) (f a)). Qed.
Lemma sls_trim : forall c p, (p = fst (fst (sls_parts c)) \/ p = snd (fst (sls_parts c)) \/ p = snd (sls_parts c)) -> trim p.
Proof.
  intros c p H. unfold sls_parts in H. cbn [fst snd] in H. destruct H as [->|[->| ->]].
  - destruct (best_in c (char_parts c) (indexed (c_Q c))) as [I|(_&->)]. 2: apply trim_pop. apply in_map_iff in I. destruct I as ((i&l)&<-&_). unfold char_parts. apply trim_pop.
  - destruct (best_in c (freq_parts c) (indexed (c_Q c))) as [I|(_&->)]. 2: apply trim_pop. apply in_map_iff in I. destruct I as ((i&l)&<-&_). unfold freq_parts. apply trim_pop.
  - apply trim_pop.
Qed.
Lemma first_max_ge : forall l x y, In y (x :: l) -> p_val y <= p_val (first_max x l).
Proof.
  intros l x y H. change (k_value (to_cand y) <= k_value (to_cand (first_max x l))). rewrite <- first_max_cand. apply py_max_ge. change (to_cand x :: map to_cand l) with (map to_cand (x :: l)). apply in_map; auto.
Qed.
Lemma flat_some : forall c p, (c_G c <> [] \/ c_Q c <> []) -> (p = fst (fst (sls_parts c)) \/ p = snd (fst (sls_parts c)) \/ p = snd (sls_parts c)) -> flat p <> [].
Proof.
  intros c p N H E. unfold sls_parts in H. cbn [fst snd] in H.
  assert (A : forall f (p := best_parts c (map f (indexed (c_Q c)))), (forall il, In (snd il) (c_Q c) -> flat (f il) <> []) -> flat p <> []).
  { intros f q F Z. destruct (best_in c f (indexed (c_Q c))) as [I|(I&J)].
    - apply in_map_iff in I. destruct I as ((i&l)&I&J). unfold q in Z. rewrite <- I in Z. apply (F (i, l)); auto. unfold indexed in J. apply in_combine_r in J. exact J.
    - unfold q in Z. rewrite J in Z. assert (Q : c_Q c = []) by (unfold indexed in I; destruct (c_Q c); auto; discriminate). destruct N as [N|N]; [|congruence]. unfold flat, pop, popped, perm in Z. cbn in Z. destruct (c_G c); [congruence|discriminate]. }
  destruct H as [->|[->| ->]].
  - apply (A (char_parts c)); auto. intros (i&l) _ Z. unfold char_parts, flat, pop in Z. cbn [p_G p_Q1 p_Qi] in Z. rewrite !of_popped in Z. cbn [of_part] in Z. apply app_eq_nil in Z. destruct Z as (_&Z). discriminate.
  - apply (A (freq_parts c)); auto. intros (i&l) _ Z. unfold freq_parts, flat, pop in Z. cbn [p_G p_Q1 p_Qi] in Z. rewrite !of_popped in Z. cbn [of_part] in Z. apply app_eq_nil in Z. destruct Z as (_&Z). discriminate.
  - unfold quasi_parts, flat, pop in E. cbn [p_G p_Q1 p_Qi] in E. rewrite !of_popped in E. cbn [of_part] in E. apply app_eq_nil in E. destruct E as (E1&E2). cbn [app] in E2. apply map_eq_nil in E1. apply map_eq_nil in E2. destruct N; congruence.
Qed.
Lemma split_defined_lemma : forall rnd c p, (c_G c <> [] \/ c_Q c <> []) -> (p = fst (fst (sls_parts c)) \/ p = snd (fst (sls_parts c)) \/ p = snd (sls_parts c)) ->
  (split_result rnd p = None <-> single_result rnd p = None).
Proof.
  intros rnd c p N H. pose proof (flat_some c p N H) as F. destruct (sls_trim c p H) as (T1&T2&T3). rewrite single_flat. change (k_loads (to_cand p)) with (flat p). rewrite by_id_raises_lemma.
  transitivity (split_part rnd (p_G p) = None \/ split_part rnd (p_Q1 p) = None \/ split_part rnd (p_Qi p) = None).
  - unfold split_result. destruct (split_part rnd (p_G p)); cbn [bind]; [|tauto]. destruct (split_part rnd (p_Q1 p)); cbn [bind]; [|tauto]. destruct (split_part rnd (p_Qi p)); cbn [bind]; [|tauto]. split; [discriminate|intros [|[|]]; discriminate].
  - rewrite !split_none by auto. unfold flat. split.
    + intros [(x&I&J)|[(x&I&J)|(x&I&J)]]; right; exists x; rewrite !in_app_iff; auto.
    + intros [Z|(x&I&J)]. contradiction. rewrite !in_app_iff in I. destruct I as [I|[I|I]]; [left|right; left|right; right]; exists x; auto.
Qed.

(** When the results exist. *)
Lemma flat_ids : forall c p, (forall l, In l (c_G c) \/ In l (c_Q c) -> l_ids l <> []) -> (forall lf, In lf (flat p) -> In (fst lf) (c_G c) \/ In (fst lf) (c_Q c)) -> flat p <> [] ->
  forall rnd, exists r, single_result rnd p = Some r.
Proof.
  intros c p I S N rnd. destruct (single_result rnd p) as [r|] eqn:E; eauto. rewrite single_flat in E. apply by_id_raises_lemma in E. destruct E as [E|(lf&J&K)]. contradiction. exfalso. apply (I (fst lf)); auto.
Qed.
Lemma drop_in : forall A (l : list A) i x, In x (drop_nth i l) -> In x l.
Proof. induction l as [|y l IH]; intros [|i] x H; cbn in *; auto. destruct H as [->|H]; auto. right. eapply IH; eauto. Qed.
Lemma indexed_in : forall A (l : list A) i x, In (i, x) (indexed l) -> In x l.
Proof. intros A l i x H. unfold indexed in H. apply in_combine_r in H. exact H. Qed.
Ltac tri c l i L := intros lf H; rewrite !in_app_iff in H; destruct H as [H|[[<-|[]]|H]]; [apply in_map_iff in H; destruct H as (x&<-&H); auto|right; exact L|apply in_map_iff in H; destruct H as (x&<-&H); right; eapply drop_in; eauto].
Lemma sls_in : forall c p, (p = fst (fst (sls_parts c)) \/ p = snd (fst (sls_parts c)) \/ p = snd (sls_parts c)) -> forall lf, In lf (flat p) -> In (fst lf) (c_G c) \/ In (fst lf) (c_Q c).
Proof.
  intros c p H. unfold sls_parts in H. cbn [fst snd] in H.
  assert (P0 : forall lf, In lf (flat (pop (mkParts (sum_G c) (Some (perm c)) None None))) -> In (fst lf) (c_G c) \/ In (fst lf) (c_Q c)).
  { intros lf I. unfold flat, pop in I. cbn [p_G p_Q1 p_Qi] in I. rewrite !of_popped in I. cbn in I. rewrite app_nil_r in I. apply in_map_iff in I. destruct I as (x&<-&I). auto. }
  destruct H as [->|[->| ->]].
  - destruct (best_in c (char_parts c) (indexed (c_Q c))) as [I|(_&->)]; auto. apply in_map_iff in I. destruct I as ((i&l)&<-&I). apply indexed_in in I. unfold char_parts, flat, pop. cbn [p_G p_Q1 p_Qi]. rewrite !of_popped. cbn [of_part]. tri c l i I.
  - destruct (best_in c (freq_parts c) (indexed (c_Q c))) as [I|(_&->)]; auto. apply in_map_iff in I. destruct I as ((i&l)&<-&I). apply indexed_in in I. unfold freq_parts, flat, pop. cbn [p_G p_Q1 p_Qi]. rewrite !of_popped. cbn [of_part]. tri c l i I.
  - unfold quasi_parts, flat, pop. cbn [p_G p_Q1 p_Qi]. rewrite !of_popped. cbn [of_part app]. intros lf I. rewrite in_app_iff in I. destruct I as [I|I]; apply in_map_iff in I; destruct I as (x&<-&I); auto.
Qed.
Lemma sls_defined_lemma : forall rnd c, (c_G c <> [] \/ c_Q c <> []) -> (forall l, In l (c_G c) \/ In l (c_Q c) -> l_ids l <> []) -> exists r, sls_result rnd c = Some r.
Proof.
  intros rnd c N I. unfold sls_result. assert (Z : no_loads c = false) by (unfold no_loads; destruct (c_Q c), (c_G c); auto; destruct N; congruence). rewrite Z.
  pose proof (sls_in c) as S. pose proof (flat_some c) as F. destruct (sls_parts c) as ((a&b)&d). cbn [fst snd] in S, F.
  destruct (flat_ids c a I (S a (or_introl eq_refl)) (F a N (or_introl eq_refl)) rnd) as (ra&->).
  destruct (flat_ids c b I (S b (or_intror (or_introl eq_refl))) (F b N (or_intror (or_introl eq_refl))) rnd) as (rb&->).
  destruct (flat_ids c d I (S d (or_intror (or_intror eq_refl))) (F d N (or_intror (or_intror eq_refl))) rnd) as (rd&->). cbn. eauto.
Qed.
Lemma permanent_lemma : forall rnd c kfi, c_kfi c = Some kfi -> c_G c <> [] -> (forall l, In l (c_G c) \/ In l (c_Q c) -> l_ids l <> []) ->
  (exists r, uls_result rnd c = Some r) /\ (exists r, sls_result rnd c = Some r) /\ (exists r, acc_result rnd c = Some r).
Proof.
  intros rnd c kfi K G I. assert (Z : no_loads c = false) by (unfold no_loads; destruct (c_Q c), (c_G c); auto; congruence). split; [|split].
  - unfold uls_result. rewrite Z, K. cbn [bind]. unfold uls_parts. match goal with |- context [first_max ?x ?l] => pose proof (first_max_in l x) as M; set (p := first_max x l) in * end.
    apply (flat_ids c p I).
    + destruct M as [<-|M]. unfold flat. cbn. rewrite app_nil_r. intros lf H. apply in_map_iff in H. destruct H as (x&<-&H). auto.
      apply in_map_iff in M. destruct M as ((i&l)&<-&M). apply indexed_in in M. unfold flat. cbn [p_G p_Q1 p_Qi of_part]. tri c l i M.
    + intro E. destruct M as [M|M]. rewrite <- M in E. unfold flat in E. cbn in E. rewrite app_nil_r in E. apply map_eq_nil in E. contradiction.
      apply in_map_iff in M. destruct M as ((i&l)&M&_). rewrite <- M in E. unfold flat in E. cbn [p_G p_Q1 p_Qi of_part] in E. apply app_eq_nil in E. destruct E as (_&E). discriminate.
  - apply sls_defined_lemma; auto.
  - unfold acc_result. rewrite Z. unfold acc_parts.
    match goal with |- context [match ?v with [] => ?e | x :: l => first_max x l end] => set (vals := v); set (p := match v with [] => e | x :: l => first_max x l end) end.
    assert (M : In p vals). { unfold p. fold vals. destruct vals as [|x l] eqn:V. destruct (indexed (c_Q c)); discriminate V. apply first_max_in. }
    apply (flat_ids c p I).
    + unfold vals in M. apply in_app_iff in M. destruct M as [M|[<-|[]]].
      * apply in_map_iff in M. destruct M as ((i&l)&<-&M). apply indexed_in in M. unfold flat, pop. cbn [p_G p_Q1 p_Qi]. rewrite !of_popped. cbn [of_part]. tri c l i M.
      * unfold flat, pop. cbn [p_G p_Q1 p_Qi]. rewrite !of_popped. cbn [of_part]. cbn [app]. rewrite app_nil_r. intros lf H. apply in_map_iff in H. destruct H as (x&<-&H). auto.
    + intro E. unfold vals in M. apply in_app_iff in M. destruct M as [M|[M|[]]].
      * apply in_map_iff in M. destruct M as ((i&l)&M&_). rewrite <- M in E. unfold flat, pop in E. cbn [p_G p_Q1 p_Qi] in E. rewrite !of_popped in E. cbn [of_part] in E. apply app_eq_nil in E. destruct E as (_&E). discriminate.
      * rewrite <- M in E. unfold flat, pop in E. cbn [p_G p_Q1 p_Qi] in E. rewrite !of_popped in E. cbn in E. rewrite app_nil_r in E. apply map_eq_nil in E. contradiction.
Qed.
Lemma rsum_nonpos : forall A (f : A -> R) l, (forall x, In x l -> f x <= 0) -> fold_right Rplus 0 (map f l) <= 0.
Proof. intros A f. induction l as [|x l IH]; intro H; cbn. lra. assert (f x <= 0) by (apply H; left; auto). assert (fold_right Rplus 0 (map f l) <= 0) by (apply IH; intros; apply H; right; auto). lra. Qed.
Lemma first_max_stay : forall l x, (forall y, In y l -> p_val y <= p_val x) -> first_max x l = x.
Proof. unfold first_max. induction l as [|y l IH]; intros x H. reflexivity. cbn [fold_left]. rewrite (proj2 (Rltb_false _ _)) by (apply H; left; auto). apply IH. intros; apply H; right; auto. Qed.
Lemma uplift_lemma : forall rnd c kfi, c_kfi c = Some kfi -> 0 <= kfi -> c_G c = [] -> (forall l, In l (c_Q c) -> l_val l <= 0 /\ 0 <= psi 0 l) -> uls_result rnd c = None.
Proof.
  intros rnd c kfi K P G Q. unfold uls_result. destruct (no_loads c); auto. rewrite K. cbn [bind]. unfold uls_parts. rewrite first_max_stay.
  - unfold single_result. cbn. rewrite G. reflexivity.
  - intros y H. apply in_map_iff in H. destruct H as ((i&l)&<-&H). apply indexed_in in H. cbn [p_val]. unfold sum_G. rewrite G. cbn [map fold_right]. destruct (Q l H) as (Q1&Q2).
    assert (sum_Q_excl i 0 c <= 0). { unfold sum_Q_excl. apply rsum_nonpos. intros x X. apply drop_in in X. destruct (Q x X). unfold combined. nra. } nra.
Qed.
Lemma acc_uplift_lemma : forall rnd c, c_G c = [] -> (forall l, In l (c_Q c) -> l_val l < 0 /\ 0 < psi 1 l /\ 0 < psi 2 l) -> acc_result rnd c = None.
Proof.
  intros rnd c G Q. unfold acc_result. destruct (no_loads c); auto. rewrite single_flat, <- acc_link. change (k_loads (acc_combine c)) with (k_loads (acc_combine c)).
  assert (E : k_loads (acc_combine c) = []). 
  { rewrite acc_link. unfold acc_parts.
    match goal with |- context [match ?v with [] => ?e | x :: l => first_max x l end] => set (vals := v); set (p := match v with [] => e | x :: l => first_max x l end) end.
    assert (M : In p vals). { unfold p. fold vals. destruct vals as [|x l] eqn:V. destruct (indexed (c_Q c)); discriminate V. apply first_max_in. }
    assert (GE : 0 <= p_val p). { unfold p. fold vals. destruct vals as [|x l] eqn:V. cbn. lra. replace 0 with (p_val (pop (mkParts (sum_G c) (Some (perm c)) None None))) by (cbn; unfold sum_G; rewrite G; reflexivity).
      apply first_max_ge. rewrite <- V. unfold vals. apply in_app_iff. right; left; auto. }
    unfold vals in M. apply in_app_iff in M. destruct M as [M|[M|[]]].
    - exfalso. apply in_map_iff in M. destruct M as ((i&l)&M&I). apply indexed_in in I. rewrite <- M in GE. unfold pop in GE. cbn [p_val] in GE. unfold sum_G in GE. rewrite G in GE. cbn [map fold_right] in GE. destruct (Q l I) as (Q1&Q2&Q3).
      assert (sum_Q_excl i 2 c <= 0). { unfold sum_Q_excl. apply rsum_nonpos. intros x X. apply drop_in in X. destruct (Q x X) as (?&?&?). unfold combined. nra. }
      assert (0 < acc_psi l) by (unfold acc_psi; destruct (l_kind l); auto). nra.
    - change (k_loads (to_cand p) = []). rewrite <- M. unfold to_cand, k_loads, flat, pop. cbn [p_G p_Q1 p_Qi]. rewrite !of_popped. unfold perm. rewrite G. reflexivity. }
  rewrite E. reflexivity.
Qed.

(** MultiCombiner. *)
Lemma multi_add_lemma : forall ls c, multi_adds ls (mkMulti c c c) = option_map (fun c => mkMulti c c c) (adds ls c).
Proof.
  induction ls as [|l ls IH]; intro c. reflexivity. cbn [multi_adds adds]. unfold multi_add. cbn [m_uls m_sls m_acc]. destruct (add_load l c) as [c'|]; cbn [bind]; auto.
Qed.
Lemma lres_multi_lemma : forall rnd ls L cls CC kk m, multi_adds ls (new_multi cls CC kk) = Some m -> exists c, adds ls (new_combiner cls CC kk) = Some c /\ m_uls m = c /\ m_sls m = c /\ m_acc m = c /\
  multi_reduce L m = mkMulti (use_reduction L c) (use_reduction L c) (use_reduction L c) /\
  forall r, multi_result rnd m = Some r <-> uls_result rnd c = Some (fst (fst r)) /\ sls_result rnd c = Some (snd (fst r)) /\ acc_result rnd c = Some (snd r).
Proof.
  intros rnd ls L cls CC kk m H. unfold new_multi in H. rewrite multi_add_lemma in H. destruct (adds ls (new_combiner cls CC kk)) as [c|] eqn:E; [|discriminate]. injection H as <-. exists c. do 5 (split; [reflexivity|]).
  intros ((u&s)&a). unfold multi_result. cbn [m_uls m_sls m_acc fst snd]. destruct (uls_result rnd c) as [u'|]; cbn [bind]; [|split; [discriminate|intros (?&_); discriminate]].
  destruct (sls_result rnd c) as [s'|]; cbn [bind]; [|split; [discriminate|intros (_&?&_); discriminate]]. destruct (acc_result rnd c) as [a'|]; cbn [bind]; [|split; [discriminate|intros (_&_&?); discriminate]].
  split. intro X. injection X as -> -> ->. auto. intros (X&Y&Z). congruence.
Qed.
