From Verif Require Import Sections_proofs Plate_proofs.
From Verif Require Import Raami_spec Raami_proofs.
Require Import Psatz.
Open Scope R_scope.

Lemma sumn_ext' n f g : (forall i, (i < n)%nat -> f i = g i) -> sumn n f = sumn n g.
Proof. induction n; cbn; intros H; auto. rewrite IHn by auto. rewrite H by lia. reflexivity. Qed.
Lemma sumn_mul n k f : sumn n (fun i => k * f i) = k * sumn n f.
Proof. induction n; cbn; [ring|]. rewrite IHn. ring. Qed.

(* ------------------------------------------------------------ line loads *)
Lemma line_ends_lemma f v0 v1 n : (0 < n)%nat ->
  fst (element_load f v0 v1 n 0) = f * v0 /\ snd (element_load f v0 v1 n (n - 1)) = f * v1 /\
  (forall i, snd (element_load f v0 v1 n i) = fst (element_load f v0 v1 n (S i))).
Proof.
  intros N. assert (0 < INR n) by (apply lt_0_INR; auto). unfold element_load, linspace. cbn [fst snd]. repeat split.
  - cbn. field. lra.
  - replace (S (n - 1)) with n by lia. field. lra.
Qed.
Lemma line_total_lemma f v0 v1 L n : (0 < n)%nat ->
  sumn n (fun i => resultant (L / INR n) (fst (element_load f v0 v1 n i)) (snd (element_load f v0 v1 n i))) = resultant L (f * v0) (f * v1) /\
  sumn n (fun i => moment (INR i * (L / INR n)) (L / INR n) (fst (element_load f v0 v1 n i)) (snd (element_load f v0 v1 n i))) = moment 0 L (f * v0) (f * v1).
Proof.
  intros N. assert (P : 0 < INR n) by (apply lt_0_INR; auto).
  set (h := L / INR n). set (d := (v1 - v0) / INR n).
  assert (A : forall m, sumn m (fun i => resultant h (fst (element_load f v0 v1 n i)) (snd (element_load f v0 v1 n i))) = f * h * (INR m * v0 + (INR m) ^ 2 * d / 2)).
  { induction m; [cbn; field|]. rewrite S_INR. cbn [sumn]. rewrite IHm. unfold resultant, element_load, linspace. cbn [fst snd]. rewrite S_INR. fold d. field. }
  assert (B : forall m, sumn m (fun i => moment (INR i * h) h (fst (element_load f v0 v1 n i)) (snd (element_load f v0 v1 n i))) =
     f * (v0 * (INR m * h) ^ 2 / 2 + d * h ^ 2 * (INR m) ^ 3 / 3)).
  { induction m; [cbn; field|]. rewrite S_INR. cbn [sumn]. rewrite IHm. unfold moment, resultant, element_load, linspace. cbn [fst snd]. rewrite S_INR. fold d. field. }
  rewrite A, B. unfold h, d, moment, resultant. split; field; lra.
Qed.
Lemma pw_lemma f v0 v1 xdiv xa xb x : xa < x < xb ->
  Rabs (pw_at f v0 v1 xdiv x) <= Rabs (pw_element f v0 v1 xdiv xa xb) /\
  (xb <= xdiv \/ xdiv <= xa -> pw_element f v0 v1 xdiv xa xb = pw_at f v0 v1 xdiv x) /\
  (pw_element f v0 v1 xdiv xa xb = f * v0 \/ pw_element f v0 v1 xdiv xa xb = f * v1).
Proof.
  intros X. unfold pw_element, pw_at. rewrite Rmax_right, Rmin_left by lra.
  destruct (Rltb x xdiv) eqn:E; [apply Rltb_true in E|apply Rltb_false in E];
  (destruct (Rleb xb xdiv) eqn:A; [apply Rleb_true in A|apply Rleb_false in A]);
  (destruct (Rleb xdiv xa) eqn:B; [apply Rleb_true in B|apply Rleb_false in B]); try (exfalso; lra);
  try (destruct (Rltb (Rabs (f * v0)) (Rabs (f * v1))) eqn:C; [apply Rltb_true in C|apply Rltb_false in C]);
  repeat split; try lra; try (intros [Q|Q]; try (exfalso; lra); reflexivity); auto.
Qed.
Lemma pw_vertical_lemma f v0 v1 X : pw_element f v0 v1 X X X = f * v0.
Proof. unfold pw_element. rewrite Rmax_left by lra. destruct (Rleb X X) eqn:E; [auto|apply Rleb_false in E; lra]. Qed.
(** A member from x = 10 to x = 0 with the step in the middle: the first element runs from 10 to 5. *)
Lemma pw_reversed_lemma v0 v1 : pw_element 1 v0 v1 5 10 5 = v1 /\ pw_element 1 v0 v1 5 5 0 = v0.
Proof.
  unfold pw_element. rewrite (Rmax_left 10 5), (Rmin_right 10 5), (Rmax_left 5 0) by lra. split.
  - destruct (Rleb 10 5) eqn:E; [apply Rleb_true in E; lra|]. destruct (Rleb 5 5) eqn:F; [ring|apply Rleb_false in F; lra].
  - destruct (Rleb 5 5) eqn:F; [ring|apply Rleb_false in F; lra].
Qed.

(* ------------------------------------------------------------ geometry *)
Lemma length_sq d x y : mlength d x y ^ 2 = sumn d (fun i => (y i - x i) ^ 2).
Proof.
  unfold mlength. rewrite pow2_sqrt; auto. induction d; cbn [sumn]; [lra|]. pose proof (pow2_ge_0 (y d - x d)). lra.
Qed.
Lemma dir_unit_lemma d x y : 0 < mlength d x y -> sumn d (fun i => dir_vector d x y i ^ 2) = 1.
Proof.
  intros P. erewrite sumn_ext' with (g := fun i => / (mlength d x y ^ 2) * (y i - x i) ^ 2).
  - rewrite sumn_mul, <- length_sq. field. lra.
  - intros i _. unfold dir_vector. field. lra.
Qed.
Lemma local_global_lemma d x y loc : 0 < mlength d x y ->
  global_to_local d x y (local_to_global d x y loc) = loc /\
  (forall i, local_to_global d x y loc i = (1 - loc) * x i + loc * y i).
Proof.
  intros P. split.
  - unfold global_to_local. erewrite sumn_ext' with (g := fun i => (mlength d x y * loc) * (dir_vector d x y i ^ 2)).
    + rewrite sumn_mul, dir_unit_lemma by auto. field. lra.
    + intros i _. unfold local_to_global. ring.
  - intros i. unfold local_to_global, dir_vector. field. lra.
Qed.
Lemma nodes_coord_lemma d x y n : 0 < mlength d x y -> (0 < n)%nat ->
  (forall i, node_coord d x y n 0 i = x i /\ node_coord d x y n n i = y i) /\
  (forall k i, node_coord d x y n (S k) i - node_coord d x y n k i = (y i - x i) / INR n) /\
  (forall k, global_to_local d x y (node_coord d x y n k) = INR k / INR n).
Proof.
  intros P N. assert (0 < INR n) by (apply lt_0_INR; auto). repeat split.
  - unfold node_coord. rewrite (proj2 (local_global_lemma d x y _ P)). unfold linspace. cbn. field. lra.
  - unfold node_coord. rewrite (proj2 (local_global_lemma d x y _ P)). unfold linspace. field. lra.
  - intros k i. unfold node_coord. rewrite !(proj2 (local_global_lemma d x y _ P)). unfold linspace. rewrite S_INR. field. lra.
  - intros k. unfold node_coord. rewrite (proj1 (local_global_lemma d x y _ P)). unfold linspace. field. lra.
Qed.
Lemma mlength_node_lemma d x y n k : 0 < mlength d x y -> (0 < n)%nat ->
  mlength d (node_coord d x y n k) (node_coord d x y n (S k)) = mlength d x y / INR n.
Proof.
  intros P N. assert (H : 0 < INR n) by (apply lt_0_INR; auto). destruct (nodes_coord_lemma d x y n P N) as (_ & S_ & _).
  assert (Q : 0 <= mlength d x y / INR n) by (unfold Rdiv; apply Rmult_le_pos; [lra|left; apply Rinv_0_lt_compat; auto]).
  rewrite <- (sqrt_pow2 (mlength d x y / INR n) Q). unfold mlength at 1. f_equal.
  erewrite sumn_ext' with (g := fun i => / (INR n ^ 2) * (y i - x i) ^ 2).
  - rewrite sumn_mul, <- length_sq. field. lra.
  - intros i _. rewrite S_. field. lra.
Qed.
Lemma perpendicular_lemma x y : 0 < mlength 2 x y ->
  sumn 2 (fun i => perpendicular x y i * dir_vector 2 x y i) = 0 /\ sumn 2 (fun i => perpendicular x y i ^ 2) = 1.
Proof. intros P. pose proof (dir_unit_lemma 2 x y P) as D. cbn [sumn perpendicular] in *. split; lra. Qed.
Lemma mangle_lemma x0 y0 x1 y1 : 0 <= mangle x0 y0 x1 y1 < PI /\ mangle x1 y1 x0 y0 = mangle x0 y0 x1 y1 /\
  (1/1000000 <= Rabs (x1 - x0) -> tan (mangle x0 y0 x1 y1) = (y1 - y0) / (x1 - x0)).
Proof.
  pose proof PI_RGT_0. unfold mangle. rewrite (Rabs_minus_sym x0 x1).
  destruct (Rltb (Rabs (x1 - x0)) (1 / 1000000)) eqn:E; [apply Rltb_true in E; repeat split; lra|apply Rltb_false in E].
  assert (NZ : x1 - x0 <> 0) by (intros Z; rewrite Z, Rabs_R0 in E; lra).
  replace ((y0 - y1) / (x0 - x1)) with ((y1 - y0) / (x1 - x0)) by (field; lra).
  pose proof (atan_bound ((y1 - y0) / (x1 - x0))) as B. cbn zeta.
  destruct (Rltb (atan ((y1 - y0) / (x1 - x0))) 0) eqn:N; [apply Rltb_true in N|apply Rltb_false in N]; repeat split; try lra.
  - intros _. transitivity (tan (atan ((y1 - y0) / (x1 - x0)))); [|apply tan_atan].
    set (a := atan ((y1 - y0) / (x1 - x0))) in *. unfold tan. rewrite (Rplus_comm PI), neg_sin, neg_cos. 
    assert (cos a <> 0) by (apply Rgt_not_eq, cos_gt_0; lra). field. auto.
  - intros _. apply tan_atan.
Qed.

Lemma pairs_nth {A} (l : list A) d : forall k, (S k < List.length l)%nat -> nth k (pairs l) (d, d) = (nth k l d, nth (S k) l d).
Proof.
  induction l as [|a l IH]; intros k H; cbn in H; [lia|]. unfold pairs in *. cbn [tl]. destruct l as [|b l]; [cbn in H; lia|].
  destruct k; [reflexivity|]. cbn [combine]. cbn [nth tl] in *. cbn [nth] in IH. apply (IH k). cbn in *; lia.
Qed.
Lemma pairs_length {A} (l : list A) : List.length (pairs l) = pred (List.length l).
Proof. unfold pairs. rewrite combine_length. destruct l; cbn [List.length tl pred]; [auto|lia]. Qed.
Lemma chain_lemma first last next n : (0 < n)%nat ->
  let es := pairs (chain first last next n) in
  List.length es = n /\ fst (nth 0 es (0, 0)%nat) = first /\ snd (nth (n - 1) es (0, 0)%nat) = last /\
  (forall k, (S k < n)%nat -> snd (nth k es (0, 0)%nat) = fst (nth (S k) es (0, 0)%nat)) /\
  (first <> last -> (first < next)%nat -> (last < next)%nat -> NoDup (chain first last next n)).
Proof.
  intros N. cbn zeta. assert (L : List.length (chain first last next n) = S n).
  { unfold chain. rewrite !app_length, seq_length. cbn. lia. }
  repeat split.
  - rewrite pairs_length, L. reflexivity.
  - rewrite pairs_nth by lia. reflexivity.
  - rewrite pairs_nth by lia. cbn [snd]. replace (S (n - 1)) with n by lia. unfold chain. rewrite app_nth2 by (cbn; lia). cbn [List.length].
    rewrite app_nth2 by (rewrite seq_length; lia). rewrite seq_length. replace (n - 1 - (n - 1))%nat with 0%nat by lia. reflexivity.
  - intros k K. rewrite !pairs_nth by lia. reflexivity.
  - intros D F M. unfold chain. cbn [app]. constructor.
    + rewrite in_app_iff, in_seq. cbn. intuition lia.
    + assert (G : NoDup (last :: seq next (n - 1))) by (constructor; [rewrite in_seq; lia|apply seq_NoDup]).
      apply NoDup_rev in G. cbn [rev] in G. rewrite <- (rev_involutive (seq next (n - 1))). 
      apply NoDup_rev in G. rewrite rev_app_distr in G. cbn in G. rewrite rev_involutive in *.
      inversion G; subst. apply NoDup_Add with (a := last) (l := seq next (n - 1)); [|split; auto].
      rewrite <- (app_nil_r (seq next (n - 1))) at 1. apply Add_app.
Qed.

(* ------------------------------------------------------------ forces *)
Lemma absmax_lemma l m : absmax l = Some m -> In m l /\ forall x, In x l -> Rabs x <= Rabs m.
Proof.
  unfold absmax. destruct (list_min l) as [mn|] eqn:EM; [|discriminate]. cbn [bind]. destruct (list_max l) as [mx|] eqn:EX; [|discriminate]. cbn [bind].
  apply list_min_spec in EM. apply list_max_spec in EX. destruct EM as [I1 M1]. destruct EX as [I2 M2].
  assert (K : forall x, In x l -> Rabs x <= Rmax (Rabs mn) (Rabs mx)).
  { intros x H. specialize (M1 x H). specialize (M2 x H). apply Rabs_le. 
    pose proof (Rmax_l (Rabs mn) (Rabs mx)). pose proof (Rmax_r (Rabs mn) (Rabs mx)). pose proof (Rle_abs mx). pose proof (Rle_abs (- mn)). rewrite Rabs_Ropp in *. lra. }
  destruct (Reqb (Rmax (Rabs mn) (Rabs mx)) (Rabs mn)) eqn:E; intros Q; injection Q as <-.
  - apply Reqb_true in E. rewrite E in K. auto.
  - apply Reqb_false in E. split; auto. intros x H. specialize (K x H). unfold Rmax in *. destruct (Rle_dec (Rabs mn) (Rabs mx)); [auto|congruence].
Qed.
Lemma absmax_defined l : l <> [] -> exists m, absmax l = Some m.
Proof.
  intros H. unfold absmax. destruct (list_min l) eqn:A; [|apply list_min_none in A; congruence]. destruct (list_max l) eqn:B; [|apply list_max_none in B; congruence].
  cbn. destruct (Reqb _ _); eauto.
Qed.
Lemma node_values_in es vs : node_values es = Some vs -> forall e, In e es -> In (fst e) vs.
Proof.
  unfold node_values. destruct (rev es); [discriminate|]. intros Q e H. injection Q as <-. apply in_or_app. left. apply in_map; auto.
Qed.
Lemma node_values_last es e vs : node_values (es ++ [e]) = Some vs -> vs = map fst (es ++ [e]) ++ [snd e].
Proof. unfold node_values. rewrite rev_app_distr. cbn. intros Q. injection Q as <-. reflexivity. Qed.
Lemma design_force_lemma es : es <> [] -> exists r, design_force es = Some r /\
  (exists e, In e es /\ (r = fst e \/ r = snd e)) /\ (forall e, In e es -> Rabs (fst e) <= Rabs r) /\
  ((forall k, (S k < List.length es)%nat -> snd (nth k es (0, 0)) = fst (nth (S k) es (0, 0))) -> forall e, In e es -> Rabs (snd e) <= Rabs r).
Proof.
  intros NE. destruct (exists_last NE) as (pre & e & ->).
  unfold design_force, node_values. rewrite rev_app_distr. cbn [rev app bind].
  destruct (absmax_defined (map fst (pre ++ [e]) ++ [snd e])) as (r & E); [intros Z; apply app_eq_nil in Z; destruct Z; discriminate|].
  exists r. split; [exact E|]. destruct (absmax_lemma _ _ E) as [I1 M]. split; [|split].
  - apply in_app_or in I1. destruct I1 as [I1|[<-|[]]].
    + apply in_map_iff in I1. destruct I1 as (x & <- & H). exists x. auto.
    + exists e. split; [apply in_or_app; right; left; auto|auto].
  - intros x H. apply M. apply in_or_app. left. apply in_map. auto.
  - intros C x H. apply In_nth with (d := (0, 0)) in H. destruct H as (k & L & <-).
    destruct (Nat.eq_dec (S k) (List.length (pre ++ [e]))) as [Z|Z].
    + rewrite app_length in Z. cbn in Z. rewrite app_nth2 by lia. replace (k - List.length pre)%nat with 0%nat by lia. cbn [nth]. apply M. apply in_or_app. right. left. auto.
    + rewrite C by lia. apply M. apply in_or_app. left. apply in_map. apply nth_In. lia.
Qed.
Lemma design_force_refuted_lemma : design_force [(1, 5); (-2, 1)] = Some (-2).
Proof.
  unfold design_force, node_values. cbn [rev app map fst snd bind]. unfold absmax. cbn [list_min list_max fold_left bind].
  rewrite (Rmin_right 1 (-2)), (Rmin_left (-2) 1), (Rmax_left 1 (-2)), (Rmax_left 1 1) by lra.
  rewrite (Rabs_left (-2)), (Rabs_right 1) by lra. rewrite Rmax_left by lra. destruct (Reqb (- -2) (- -2)) eqn:E; [reflexivity|apply Reqb_false in E; lra].
Qed.

(** Extremes over the load cases. *)
Lemma extreme_gen (pick : list R -> option R) (cs : list (list R)) : forall acc, (forall l, In l cs -> pick l <> None) ->
  let r := fold_left (fun acc l => match pick l with
    | None => acc
    | Some v => match acc with None => Some v | Some a => if Rltb (Rabs a) (Rabs v) then Some v else Some a end end) cs acc in
  (forall a, acc = Some a -> exists m, r = Some m /\ Rabs a <= Rabs m /\ (m = a \/ exists l, In l cs /\ pick l = Some m)) /\
  (forall l v, In l cs -> pick l = Some v -> exists m, r = Some m /\ Rabs v <= Rabs m) /\
  (acc = None -> cs <> [] -> exists m l, r = Some m /\ In l cs /\ pick l = Some m).
Proof.
  induction cs as [|c cs IH]; intros acc D; cbn zeta; cbn [fold_left].
  - split; [intros a ->; exists a; split; [auto|split; [lra|auto]]|]. split; [intros l v []|intros _ H; congruence].
  - destruct (pick c) as [v|] eqn:EC; [|exfalso; apply (D c); [left; auto|auto]].
    set (acc2 := match acc with None => Some v | Some a => if Rltb (Rabs a) (Rabs v) then Some v else Some a end).
    destruct (IH acc2) as (A & B & C); [intros; apply D; right; auto|].
    assert (A2 : exists b, acc2 = Some b /\ Rabs v <= Rabs b /\ (forall a, acc = Some a -> Rabs a <= Rabs b /\ (b = a \/ b = v)) /\ (acc = None -> b = v)).
    { unfold acc2. destruct acc as [a|].
      - destruct (Rltb (Rabs a) (Rabs v)) eqn:L; [apply Rltb_true in L|apply Rltb_false in L].
        + exists v. split; [auto|split; [lra|split; [intros x Q; injection Q as <-; split; [lra|auto]|discriminate]]].
        + exists a. split; [auto|split; [lra|split; [intros x Q; injection Q as <-; split; [lra|auto]|discriminate]]].
      - exists v. split; [auto|split; [lra|split; [discriminate|auto]]]. }
    destruct A2 as (b & E2 & VB & AB & NB). destruct (A b E2) as (m & EM & BM & W). split; [|split].
    + intros a Ea. exists m. split; [auto|]. destruct (AB a Ea) as [Q1 Q2]. split; [lra|]. 
      destruct W as [->|(l & Hl & Pl)]; [destruct Q2 as [->| ->]; [auto|right; exists c; split; [left; auto|auto]]|right; exists l; split; [right; auto|auto]].
    + intros l w [<-|H] P; [|apply (B l w H P)]. rewrite EC in P. injection P as <-. exists m. split; auto. lra.
    + intros -> _. rewrite (NB eq_refl) in *. exists m. destruct W as [->|(l & Hl & Pl)]; [exists c; split; [auto|split; [left; auto|auto]]|exists l; split; [auto|split; [right; auto|auto]]].
Qed.
Lemma extreme_lemma cs : cs <> [] -> (forall l, In l cs -> l <> []) ->
  ((forall l x, In l cs -> In x l -> 0 <= x) -> exists m, extreme list_max cs = Some m /\ (exists l, In l cs /\ In m l) /\ forall l x, In l cs -> In x l -> x <= m) /\
  ((forall l x, In l cs -> In x l -> x <= 0) -> exists m, extreme list_min cs = Some m /\ (exists l, In l cs /\ In m l) /\ forall l x, In l cs -> In x l -> m <= x).
Proof.
  intros NE NN. split; intros SG.
  - destruct (extreme_gen list_max cs None) as (_ & B & C); [intros l H E; apply list_max_none in E; exact (NN l H E)|].
    destruct (C eq_refl NE) as (m & l0 & E & H0 & P0). exists m. split; [exact E|]. apply list_max_spec in P0. destruct P0 as [I0 M0].
    split; [exists l0; auto|]. intros l x Hl Hx. destruct (list_max l) as [v|] eqn:EV; [|apply list_max_none in EV; exfalso; exact (NN l Hl EV)].
    destruct (B l v Hl EV) as (m' & E' & V). rewrite E in E'. injection E' as <-. apply list_max_spec in EV. destruct EV as [IV MV].
    pose proof (SG l v Hl IV). pose proof (SG l0 m H0 I0). rewrite (Rabs_right v), (Rabs_right m) in V by lra. specialize (MV x Hx). lra.
  - destruct (extreme_gen list_min cs None) as (_ & B & C); [intros l H E; apply list_min_none in E; exact (NN l H E)|].
    destruct (C eq_refl NE) as (m & l0 & E & H0 & P0). exists m. split; [exact E|]. apply list_min_spec in P0. destruct P0 as [I0 M0].
    split; [exists l0; auto|]. intros l x Hl Hx. destruct (list_min l) as [v|] eqn:EV; [|apply list_min_none in EV; exfalso; exact (NN l Hl EV)].
    destruct (B l v Hl EV) as (m' & E' & V). rewrite E in E'. injection E' as <-. apply list_min_spec in EV. destruct EV as [IV MV].
    pose proof (SG l v Hl IV). pose proof (SG l0 m H0 I0). rewrite (Rabs_left1 v), (Rabs_left1 m) in V by lra. specialize (MV x Hx). lra.
Qed.
Lemma extreme_refuted_lemma : extreme list_max [[5]; [-100]] = Some (-100).
Proof.
  unfold extreme. cbn [fold_left list_max]. rewrite (Rabs_right 5), (Rabs_left (-100)) by lra. destruct (Rltb 5 (- -100)) eqn:E; [reflexivity|apply Rltb_false in E; lra].
Qed.

(* ------------------------------------------------------------ checks and profile search *)
Lemma dset_in {V} i (v : V) d : NoDup (map fst d) -> NoDup (map fst (dset Nat.eqb i v d)) /\
  forall k w, In (k, w) (dset Nat.eqb i v d) <-> (k = i /\ w = v) \/ (k <> i /\ In (k, w) d).
Proof.
  induction d as [|[j x] d IH]; intros ND.
  - cbn. split; [constructor; auto; constructor|]. intros k w. split; [intros [E|[]]; injection E as <- <-; auto|intros [[-> ->]|[_ []]]; auto].
  - cbn in ND. inversion ND as [|? ? NI ND']; subst. cbn [dset]. destruct (Nat.eqb i j) eqn:E.
    + apply Nat.eqb_eq in E. subst j. split; [cbn; constructor; auto|]. intros k w. split.
      * intros [Q|Q]; [injection Q as <- <-; auto|right; split; [intros ->; apply NI; apply (in_map fst) in Q; exact Q|right; auto]].
      * intros [[-> ->]|[K [Q|Q]]]; [left; auto|injection Q as <- <-; congruence|right; auto].
    + destruct (IH ND') as [A B]. apply Nat.eqb_neq in E. split.
      * cbn [map fst]. constructor; auto. intros H. apply in_map_iff in H. destruct H as ([k w] & <- & H). apply B in H. cbn in *. destruct H as [[-> _]|[_ H]]; [congruence|].
        apply NI. apply (in_map fst) in H. exact H.
      * intros k w. cbn [In]. rewrite B. split.
        -- intros [Q|[Q|[Q1 Q2]]]; [injection Q as <- <-; right; split; [auto|left; auto]|left; auto|right; split; [auto|right; auto]].
        -- intros [Q|[Q1 [Q|Q]]]; [right; left; auto|left; auto|right; right; auto].
Qed.
Lemma fold_dset_in (u : nat -> R) ls : forall d, NoDup (map fst d) ->
  let d' := fold_left (fun d l => dset Nat.eqb l (u l) d) ls d in
  NoDup (map fst d') /\ forall k w, In (k, w) d' <-> (In k ls /\ w = u k) \/ (~ In k ls /\ In (k, w) d).
Proof.
  induction ls as [|l ls IH]; intros d ND; cbn zeta; cbn [fold_left]; [split; auto; intros k w; split; [intros H; right; split; [intros []|auto]|intros [[[] _]|[_ H]]; auto]|].
  destruct (dset_in l (u l) d ND) as [N1 I1]. destruct (IH _ N1) as [N2 I2]. split; auto. intros k w. rewrite I2, I1. cbn [In]. split.
  - intros [[A B]|[A [[B C]|[B C]]]]; [left; auto|left; subst; auto|right; split; [intros [Q|Q]; [congruence|auto]|auto]].
  - intros [[[A|A] B]|[A B]]; [subst; destruct (in_dec Nat.eq_dec k ls); [left; auto|right; auto]|left; auto|].
    right. split; [auto|]. right. split; auto.
Qed.
Lemma util_ok (u : nat -> R) maxu ls d : NoDup (map fst d) -> (forall k w, In (k, w) d -> In k ls) ->
  forallb (fun e : nat * R => Rleb (snd e) maxu) (fold_left (fun d l => dset Nat.eqb l (u l) d) ls d) = true <-> (forall l, In l ls -> u l <= maxu).
Proof.
  intros ND IK. destruct (fold_dset_in u ls d ND) as [_ I1]. rewrite forallb_forall. split.
  - intros H l L. apply Rleb_true. apply (H (l, u l)). apply I1. auto.
  - intros H [k w] I2. apply I1 in I2. destruct I2 as [[A ->]|[A B]]; [apply Rleb_true; apply H; auto|exfalso; apply A; eapply IK; eauto].
Qed.
Lemma optimum_gen {P} (skip : P -> bool) (u : P -> nat -> R) maxu ls : forall ps d cur, NoDup (map fst d) -> (forall k w, In (k, w) d -> In k ls) ->
  (forall pre p post, ps = pre ++ p :: post -> passes skip u maxu ls p -> (forall q, In q pre -> ~ passes skip u maxu ls q) -> optimum skip u maxu ls d cur ps = p) /\
  ((forall q, In q ps -> ~ passes skip u maxu ls q) -> optimum skip u maxu ls d cur ps = List.last ps cur).
Proof.
  induction ps as [|q ps IH]; intros d cur ND IK.
  - split; [intros [|] ? ? E; discriminate|reflexivity].
  - cbn [optimum].
    assert (IK2 : forall k w, In (k, w) (fold_left (fun d l => dset Nat.eqb l (u q l) d) ls d) -> In k ls).
    { intros k w H. apply (proj2 (fold_dset_in (u q) ls d ND)) in H. destruct H as [[A _]|[_ B]]; [auto|eapply IK; eauto]. }
    pose proof (proj1 (fold_dset_in (u q) ls d ND)) as ND2.
    assert (LQ : forall c, List.last (q :: ps) c = List.last ps q) by (intros; destruct ps as [|a ps']; [reflexivity|]; cbn [List.last]; clear; revert a; induction ps' as [|b ps' IHp]; intros a; cbn [List.last]; auto).
    split.
    + intros pre p post E PS NP. destruct pre as [|x pre]; cbn in E; injection E as -> ->.
      * destruct PS as [SK UP]. rewrite SK. cbn zeta. rewrite (proj2 (util_ok (u p) maxu ls d ND IK) UP). reflexivity.
      * assert (NX : ~ passes skip u maxu ls x) by (apply NP; left; auto).
        destruct (skip x) eqn:SK; [apply (IH d x ND IK) with (pre := pre) (post := post); auto; intros; apply NP; right; auto|]. cbn zeta.
        destruct (forallb _ _) eqn:FB; [exfalso; apply NX; split; auto; apply (proj1 (util_ok (u x) maxu ls d ND IK) FB)|].
        apply (IH _ x ND2 IK2) with (pre := pre) (post := post); auto. intros; apply NP; right; auto.
    + intros NP. rewrite LQ. assert (NX : ~ passes skip u maxu ls q) by (apply NP; left; auto).
      destruct (skip q) eqn:SK; [apply (IH d q ND IK); intros; apply NP; right; auto|]. cbn zeta.
      destruct (forallb _ _) eqn:FB; [exfalso; apply NX; split; auto; apply (proj1 (util_ok (u q) maxu ls d ND IK) FB)|].
      apply (IH _ q ND2 IK2). intros; apply NP; right; auto.
Qed.
Lemma optimum_first_lemma (P : Type) (skip : P -> bool) (u : P -> nat -> R) maxu ls cur pre p post :
  passes skip u maxu ls p -> (forall q, In q pre -> ~ passes skip u maxu ls q) -> optimum skip u maxu ls [] cur (pre ++ p :: post) = p.
Proof. intros A B. apply (proj1 (optimum_gen skip u maxu ls (pre ++ p :: post) [] cur (NoDup_nil _) (fun _ _ H => match H with end))) with (pre := pre) (post := post); auto. Qed.
Lemma optimum_none_lemma (P : Type) (skip : P -> bool) (u : P -> nat -> R) maxu ls cur ps :
  (forall q, In q ps -> ~ passes skip u maxu ls q) -> optimum skip u maxu ls [] cur ps = List.last ps cur.
Proof. intros A. apply (optimum_gen skip u maxu ls ps [] cur); auto; [constructor|intros ? ? []]. Qed.

Lemma design_all_lemma allow rs s : NoDup (map fst rs) -> util s = [] ->
  (forall l r, In (l, r) (util (design_all allow rs s)) <-> In (l, r) rs) /\
  (forall l r rs', rs = rs' ++ [(l, r)] -> ok_flag (design_all allow rs s) = Rleb r allow).
Proof.
  intros ND U. split.
  - assert (G : forall rs s, NoDup (map fst (util s)) -> NoDup (map fst rs) ->
      NoDup (map fst (util (design_all allow rs s))) /\ forall l r, In (l, r) (util (design_all allow rs s)) <-> In (l, r) rs \/ (~ In l (map fst rs) /\ In (l, r) (util s))).
    { clear. induction rs as [|[l r] rs IH]; intros s NS ND; [cbn; split; auto; intros; split; [intros; right; auto|intros [[]|[_ H]]; auto]|].
      unfold design_all. cbn [fold_left]. fold (design_all allow rs (design allow (fst (l, r)) (snd (l, r)) s)). cbn [fst snd].
      inversion ND as [|? ? NI ND']; subst. destruct (dset_in l r (util s) NS) as [N1 I1].
      destruct (IH (design allow l r s)) as [A B]; [exact N1|auto|]. split; auto. intros l0 r0. rewrite B. cbn [util design]. rewrite I1. cbn [In map fst]. split.
      - intros [H|[H [[-> ->]|[H1 H2]]]]; [left; right; auto|left; left; auto|right; split; auto]. intros [Q|Q]; [congruence|auto].
      - intros [[H|H]|[H1 H2]]; [injection H as <- <-; right; split; auto|left; auto|]. right. split; [auto|]. right. split; auto. }
    destruct (G rs s) as [_ B]; [rewrite U; constructor|auto|]. intros l r. rewrite B, U. cbn. intuition.
  - intros l r rs' ->. unfold design_all. rewrite fold_left_app. cbn. unfold Rltb, Rleb. destruct (Rlt_dec allow r), (Rle_dec r allow); auto; lra.
Qed.
Lemma flag_refuted_lemma : ok_flag (design_all 1 [(0%nat, 2); (1%nat, 1/2)] (mkCheck true [])) = true.
Proof. cbn. unfold Rltb. destruct (Rlt_dec 1 (1/2)); [lra|reflexivity]. Qed.

Lemma optimize_members_lemma bestg bestm k s :
  let '(r, n) := optimize_members bestg bestm k s in (n <= k)%nat /\
  ((n < k)%nat -> exists s0, sweep bestg bestm s0 = (r, false) /\ snd r = snd s0 /\ (fst s0 = [] -> r = s0 /\ fst (sweep bestg bestm r) = r)).
Proof.
  revert s. induction k as [|k IH]; intros s; cbn [optimize_members]; [split; [lia|lia]|].
  destruct (sweep bestg bestm s) as [s' ch] eqn:E. destruct ch.
  - specialize (IH s'). destruct (optimize_members bestg bestm k s') as [r n]. destruct IH as [A B]. split; [lia|]. intros L. apply B. lia.
  - split; [lia|]. intros _. exists s. split; [auto|]. unfold sweep in E. injection E as E1 E2.
    destruct (list_eq_dec Nat.eq_dec _ (snd s)) as [Q|Q]; [|discriminate]. split; [subst s'; auto|].
    intros F. destruct s as [gs ms]. cbn [fst snd] in *. subst gs. assert (s' = ([], ms)) by (rewrite <- E1, Q; reflexivity). subst s'. split; [auto|].
    rewrite H. unfold sweep. cbn [fst snd]. rewrite Q. reflexivity.
Qed.
Lemma optimize_groups_lemma :
  let bestg := fun s : list nat * list nat => fun _ : nat => S (hd 0%nat (fst s)) in
  let '(r, n) := optimize_members bestg (fun _ _ => 0%nat) 9 ([0%nat], []) in n = 1%nat /\ fst (sweep bestg (fun _ _ => 0%nat) r) <> r.
Proof. cbn. split; [reflexivity|]. intros E. discriminate. Qed.

(* ------------------------------------------------------------ groups, hinges, self-weight *)
Lemma group_set_lemma v g sec : let '(g', sec') := set_section v g sec in
  g_sec g' = v /\ (forall m, In m (g_mem g') -> sec' m = v) /\ (forall m, ~ In m (g_mem g) -> sec' m = sec m) /\ g_mem g' = g_mem g.
Proof.
  cbn. repeat split; intros m H; destruct (existsb (Nat.eqb m) (g_mem g)) eqn:E; auto.
  - assert (existsb (Nat.eqb m) (g_mem g) = true); [|congruence]. apply existsb_exists. exists m. split; auto. apply Nat.eqb_refl.
  - exfalso. apply H. apply existsb_exists in E. destruct E as (x & A & B). apply Nat.eqb_eq in B. subst. auto.
Qed.
Lemma group_make_lemma ms sec : ms <> [] -> let '(g, sec') := make_group ms sec in g_mem g = ms /\ forall m, In m ms -> sec' m = g_sec g.
Proof.
  intros NE. destruct ms as [|m ms]; [congruence|]. unfold make_group. pose proof (group_set_lemma (sec m) (mkGroup None (m :: ms)) sec) as G.
  destruct (set_section (sec m) (mkGroup None (m :: ms)) sec) as [g' sec']. destruct G as (A & B & _ & C). rewrite C in *. split; auto. intros x H. rewrite A. auto.
Qed.
Lemma group_add_partial_lemma m g sec : g_sec g = None \/ g_sec g = sec m -> (forall x, In x (g_mem g) -> sec x = g_sec g) ->
  let '(g', sec') := group_add m g sec in forall x, In x (g_mem g') -> sec' x = g_sec g'.
Proof.
  intros H K. destruct g as [[v|] gm]; unfold group_add; cbn [g_sec g_mem] in *.
  - intros x Hx. apply in_app_or in Hx. destruct Hx as [Hx|[<-|[]]]; auto. destruct H; [discriminate|auto].
  - pose proof (group_set_lemma (sec m) (mkGroup None (gm ++ [m])) sec) as G. destruct (set_section _ _ _) as [g' sec']. destruct G as (A & B & _). intros x Hx. rewrite A. auto.
Qed.
Lemma group_add_refuted_lemma : let '(g, sec) := group_add 1 (mkGroup (Some 7%nat) [0%nat]) (fun m => Some (7 + m)%nat) in
  In 1%nat (g_mem g) /\ sec 1%nat = Some 8%nat /\ g_sec g = Some 7%nat.
Proof. cbn. auto. Qed.

Definition own_ok (ms : list nat) (s : hinges) : Prop :=
  (forall m, In m ms -> (0 < href s m < hnext s)%nat) /\ (forall m m', In m ms -> In m' ms -> m <> m' -> href s m <> href s m') /\ (0 < hnext s)%nat.
Lemma own_run os : no_default os -> own_ok (owners os) (hrun os).
Proof.
  unfold hrun. intros ND.
  assert (G : forall os ms s, no_default os -> own_ok ms s -> own_ok (ms ++ owners os) (fold_left hstep os s)).
  { clear. induction os as [|o os IH]; intros ms s ND K; [cbn; rewrite app_nil_r; auto|]. inversion ND; subst. cbn [fold_left].
    destruct o as [m [h|]|m b]; cbn [owners flat_map]; [|contradiction|].
    - change (flat_map _ os) with (owners os). rewrite app_assoc. apply IH; auto. destruct K as (A & B & C). unfold own_ok. cbn [hstep new_member href hnext]. repeat split.
      + destruct (Nat.eqb m0 m) eqn:E; [lia|]. apply Nat.eqb_neq in E. apply in_app_or in H. destruct H as [H|[H|[]]]; [apply A in H; lia|congruence].
      + destruct (Nat.eqb m0 m) eqn:E; [lia|]. apply Nat.eqb_neq in E. apply in_app_or in H. destruct H as [H|[H|[]]]; [apply A in H; lia|congruence].
      + intros x y Hx Hy NE. assert (IN : forall z, In z (ms ++ [m]) -> z <> m -> In z ms) by (intros z H Z; apply in_app_or in H; destruct H as [H|[H|[]]]; [auto|congruence]).
        destruct (Nat.eqb_spec x m) as [E1|E1], (Nat.eqb_spec y m) as [E2|E2].
        * congruence.
        * apply IN in Hy; auto. apply A in Hy. lia.
        * apply IN in Hx; auto. apply A in Hx. lia.
        * auto.
      + lia.
    - change (flat_map _ os) with (owners os). apply IH; auto. }
  apply (G os [] no_hinges ND). unfold own_ok. cbn. repeat split; try (intros m []); try lia; intros; contradiction.
Qed.
Lemma hinge_lemma os m m' b : no_default os -> In m (owners os) -> In m' (owners os) -> m <> m' ->
  hinges_of (add_hinge m b (hrun os)) m' = hinges_of (hrun os) m' /\
  hinges_of (add_hinge m b (hrun os)) m = (if b then (true, snd (hinges_of (hrun os) m)) else (fst (hinges_of (hrun os) m), true)).
Proof.
  intros ND M M' NE. destruct (own_run os ND) as (_ & B & _). specialize (B m m' M M' NE). unfold hinges_of, add_hinge. cbn [hval href].
  rewrite Nat.eqb_refl. destruct (Nat.eqb (href (hrun os) m') (href (hrun os) m)) eqn:E; [apply Nat.eqb_eq in E; congruence|]. auto.
Qed.
Lemma hinge_refuted_lemma : let s := hrun [Hnew 1 None; Hnew 2 None; Hhinge 1 true] in hinges_of s 2 = (true, false).
Proof. reflexivity. Qed.

Lemma sw_map1 n v : map (fun p : bool * nat => if fst p then snd p else S (snd p)) (combine (repeat false n) (repeat v n)) = repeat (S v) n.
Proof. induction n; cbn; [reflexivity|]. rewrite IHn. reflexivity. Qed.
Lemma sw_map2 n (b c : bool) : map (fun _ : bool => b) (repeat c n) = repeat b n.
Proof. induction n; cbn; [reflexivity|]. rewrite IHn. reflexivity. Qed.
Lemma selfweight_lemma n : let s := mkSelfw false (repeat false n) (repeat 0%nat n) in
  sw_loads (add_self_weight s) = repeat 1%nat n /\
  forall k, sw_loads (Nat.iter (S k) add_self_weight s) = repeat (S k) n.
Proof.
  cbn zeta. assert (G : forall k, Nat.iter (S k) add_self_weight (mkSelfw false (repeat false n) (repeat 0%nat n)) = mkSelfw true (repeat true n) (repeat (S k) n)).
  {
    induction k as [|k IH].
    - cbn [Nat.iter nat_rect]. unfold add_self_weight, add_sw_members. cbn [sw_on sw_flag sw_loads]. rewrite sw_map2, sw_map1. reflexivity.
    - change (Nat.iter (S (S k)) add_self_weight (mkSelfw false (repeat false n) (repeat 0%nat n))) with (add_self_weight (Nat.iter (S k) add_self_weight (mkSelfw false (repeat false n) (repeat 0%nat n)))).
      rewrite IH. unfold add_self_weight, add_sw_members, remove_self_weight. cbn [sw_on sw_flag sw_loads]. rewrite !sw_map2, sw_map1. reflexivity. }
  split; [apply (f_equal sw_loads (G 0%nat))|intros k; rewrite G; reflexivity].
Qed.

(* ------------------------------------------------------------ combinations, written out *)
Lemma combined_factor c lead cid l x : same_load x (factored_copy c lead cid l) -> combined_load c lead cid l x.
Proof.
  intros (A & B & C & D & E). unfold combined_load, factored_copy, set_lid, set_f in *. cbn in *. repeat split; auto.
  rewrite C. unfold comb_factor, gamma_of, psi0_of. destruct (o_type l), c, lead; lra.
Qed.
(** The copies in order: case [k] contributes its loads, factored as leading iff [k] is the first
    case that is not dead. *)
Lemma combine_written_lemma cid c cs f : tidy f -> Forall (fun l => o_lid l <> cid) (applied f) ->
  Forall (Forall (fun o => (o < List.length (heap f))%nat /\ plain (o_name (obj f o)))) cs ->
  exists f' xss, combine_loads cid c cs f = Some f' /\ applied f' = applied f ++ List.concat xss /\
    Forall2 (fun kc xs => Forall2 (fun o x => combined_load c (match lead_case f cs with Some i => Nat.eqb i (fst kc) | None => false end) cid (obj f o) x) (snd kc) xs)
      (combine (seq 0 (List.length cs)) cs) xss.
Proof.
  intros T NL FO. destruct (combine_lemma cid c cs f T NL FO) as (f' & xs & E & _ & A & F & _). exists f'.
  unfold comb_loads in F. set (ld := lead_case f cs) in *. clearbody ld.
  enough (G : exists xss, xs = List.concat xss /\ Forall2 (fun kc xs => Forall2 (fun o x => combined_load c (match ld with Some i => Nat.eqb i (fst kc) | None => false end) cid (obj f o) x) (snd kc) xs)
      (combine (seq 0 (List.length cs)) cs) xss) by (destruct G as (xss & -> & H); exists xss; auto).
  clear E A. revert xs F. induction (combine (seq 0 (List.length cs)) cs) as [|kc l IH]; cbn [flat_map]; intros xs F.
  - inversion F; subst. exists []. split; [reflexivity|constructor].
  - apply Forall2_app_inv_r in F. destruct F as (x1 & x2 & F1 & F2 & ->). destruct (IH _ F2) as (xss & -> & H). exists (x1 :: xss). split; [reflexivity|].
    constructor; [|exact H]. clear - F1. revert x1 F1. induction (snd kc) as [|o os IHo]; cbn [map]; intros x1 F1; inversion F1; subst; [constructor|].
    constructor; [apply combined_factor; auto|apply IHo; auto].
Qed.
