From Coq Require Import Psatz.
From Verif Require Import Base Tac Problem_proofs Solvers_proofs Solvers2_proofs Heur_proofs.
From Verif Require Import Heur_model Heur_spec.

(* ---------------- ant colony ---------------- *)
Lemma Rsum_div w c : Rsum (map (fun a => a / c) w) = Rsum w / c.
Proof. induction w as [|a w IH]; unfold Rsum in *; simpl; [unfold Rdiv; ring|]. rewrite IH. unfold Rdiv. ring. Qed.
Lemma Rsum_pos l : l <> [] -> Forall (fun a => 0 < a) l -> 0 < Rsum l.
Proof.
  intros N F. destruct F as [|a l A F]; [congruence|]. rewrite Rsum_cons.
  assert (0 <= Rsum l) by (apply Rsum_nonneg; eapply Forall_impl; [|exact F]; intros; simpl in *; lra). lra.
Qed.
Lemma aco_weights_lemma alpha beta pher heur i : length heur = length pher -> (i < length pher)%nat ->
  nth i (aco_weights alpha beta pher heur) 0 = Rpower (nth i pher 0) alpha * Rpower (nth i heur 0) beta /\
  0 < nth i (aco_weights alpha beta pher heur) 0.
Proof.
  intros L I. unfold aco_weights.
  rewrite (nth_indep _ 0 (Rpower (fst (0,0)) alpha * Rpower (snd (0,0)) beta)) by (rewrite map_length, combine_length; lia).
  rewrite (map_nth (fun ph => Rpower (fst ph) alpha * Rpower (snd ph) beta)). rewrite combine_nth by auto. simpl. split; auto.
  apply Rmult_lt_0_compat; unfold Rpower; apply exp_pos.
Qed.
Lemma aco_probs_lemma w : w <> [] -> Forall (fun a => 0 < a) w ->
  Rsum (aco_probs w) = 1 /\ Forall (fun p => 0 < p <= 1) (aco_probs w) /\
  (forall i, (i < length w)%nat -> nth i (aco_probs w) 0 * Rsum w = nth i w 0).
Proof.
  intros N F. pose proof (Rsum_pos w N F) as P. unfold aco_probs. split; [|split].
  - rewrite Rsum_div. field. lra.
  - rewrite Forall_map. rewrite Forall_forall in *. intros a A. pose proof (F a A) as Pa.
    split; [apply Rdiv_lt_0_compat; auto|].
    assert (a <= Rsum w).
    { pose proof (Rsum_map_ge (fun x => x) w a) as G. rewrite map_id in G. apply G; auto. intros b B. left. auto. }
    apply Rmult_le_reg_r with (Rsum w); auto. unfold Rdiv. rewrite Rmult_assoc, Rinv_l; lra.
  - intros i I. rewrite (nth_indep _ 0 (0 / Rsum w)) by (rewrite map_length; auto). rewrite (map_nth (fun wi => wi / Rsum w)). field. lra.
Qed.
Lemma aco_local_lemma xi : forall m c i j, fits m c -> (i < length m)%nat ->
  ent (aco_local xi m c) i j = if Nat.eqb (nth i c 0%nat) j then xi * ent m i j else ent m i j.
Proof.
  intros m c i j F; revert i. induction F as [|row k m c K F IH]; intros i I; simpl in *; [lia|].
  destruct i as [|i]; unfold ent in *; simpl.
  - rewrite nth_set_nth by auto. rewrite (Nat.eqb_sym j k). destruct (Nat.eqb_spec k j) as [->|N]; auto. ring.
  - apply IH. lia.
Qed.
Lemma aco_add_ent d : forall m c i j, fits m c -> (i < length m)%nat ->
  ent (aco_add d m c) i j = ent m i j + if Nat.eqb (nth i c 0%nat) j then d else 0.
Proof.
  intros m c i j F; revert i. induction F as [|row k m c K F IH]; intros i I; simpl in *; [lia|].
  destruct i as [|i]; unfold ent in *; simpl.
  - rewrite nth_set_nth by auto. rewrite (Nat.eqb_sym j k). destruct (Nat.eqb_spec k j) as [->|N]; ring.
  - apply IH. lia.
Qed.
Lemma aco_add_shape d : forall m c, map (@length R) (aco_add d m c) = map (@length R) m.
Proof. induction m as [|row m IH]; intros [|k c]; simpl; auto. rewrite set_nth_length, IH. auto. Qed.
Lemma fits_shape m m' c : map (@length R) m = map (@length R) m' -> fits m c -> fits m' c.
Proof.
  revert m' c; induction m as [|row m IH]; intros [|row' m'] c E F; simpl in *; try discriminate; auto.
  injection E as E1 E2. inversion F; subst. constructor; [lia|]. apply IH; auto.
Qed.
Lemma ins_ant_perm a l : Permutation (ins_ant a l) (a :: l).
Proof.
  induction l as [|b l IH]; simpl; auto. destruct (Rleb _ _); auto.
  rewrite IH. apply perm_swap.
Qed.
Lemma sort_ants_perm l : Permutation (sort_ants l) l.
Proof. induction l as [|a l IH]; simpl; auto. rewrite ins_ant_perm. auto. Qed.
Lemma ins_ant_ranked a l : ranked l -> ranked (ins_ant a l).
Proof.
  induction l as [|b l IH]; simpl; [intros _; auto|]. intros [F R'].
  destruct (Rleb (a_fit a) (a_fit b)) eqn:E; [apply Rleb_true in E|apply Rleb_false in E]; simpl.
  - split; auto. constructor; auto. eapply Forall_impl; [|exact F]. simpl; intros; lra.
  - split; auto. eapply Permutation_Forall; [symmetry; apply ins_ant_perm|]. constructor; auto. lra.
Qed.
Lemma sort_ants_ranked l : ranked (sort_ants l).
Proof. induction l; simpl; auto. apply ins_ant_ranked; auto. Qed.
Lemma aco_global_from_ok rho top : forall n rank l m, (n <= length l)%nat -> Forall (fun a => fits m (a_choice a)) l ->
  exists m', aco_global_from rho top rank n l m = Some m' /\ map (@length R) m' = map (@length R) m /\
  forall i j, (i < length m)%nat -> ent m' i j = ent m i j + Rsum (map (fun k => adds i j (nth k l (mkAnt [] [] 0)) (aco_deposit rho top (rank + k) (a_fit (nth k l (mkAnt [] [] 0))))) (seq 0 n)).
Proof.
  induction n as [|n IH]; intros rank l m L F.
  - exists m. simpl. repeat split; auto. intros. unfold Rsum. simpl. ring.
  - destruct F as [|a l A F]; simpl in L; [lia|]. cbn [aco_global_from].
    set (m1 := aco_add _ m (a_choice a)).
    assert (SH : map (@length R) m1 = map (@length R) m) by apply aco_add_shape.
    destruct (IH (S rank) l m1) as (m' & E & SH' & V); [lia| |].
    + eapply Forall_impl; [|exact F]. intros b B. eapply fits_shape; [symmetry; exact SH|exact B].
    + exists m'. split; auto. split; [congruence|]. intros i j I. rewrite V.
      2:{ assert (length m1 = length m) by (rewrite <- (map_length (@length R)), SH, map_length; auto). lia. }
      unfold m1. rewrite aco_add_ent by auto. rewrite <- cons_seq, <- seq_shift. cbn [map]. rewrite Rsum_cons, map_map. cbn [nth].
      unfold adds at 2. rewrite Nat.add_0_r. rewrite Rplus_assoc. f_equal. f_equal. f_equal. apply map_ext. intros k. rewrite <- plus_n_Sm. auto.
Qed.
Lemma aco_global_lemma rho top ants m : Forall (fun a => fits m (a_choice a)) ants ->
  ((top <= length ants)%nat -> exists m' order, aco_global rho top ants m = Some m' /\
     Permutation order ants /\ ranked order /\ map (@length R) m' = map (@length R) m /\
     forall i j, (i < length m)%nat -> ent m' i j = ent m i j +
       Rsum (map (fun k => adds i j (nth k order (mkAnt [] [] 0)) (rho * (INR top - INR k) / a_fit (nth k order (mkAnt [] [] 0)))) (seq 0 top))) /\
  ((length ants < top)%nat -> aco_global rho top ants m = None).
Proof.
  intros F. pose proof (sort_ants_perm ants) as P. pose proof (Permutation_length P) as PL. split.
  - intros T. destruct (aco_global_from_ok rho top top 0 (sort_ants ants) m) as (m' & E & SH & V); [lia| |].
    + eapply Permutation_Forall; [symmetry; exact P|exact F].
    + exists m', (sort_ants ants). repeat split; auto using sort_ants_ranked.
  - intros T. unfold aco_global. rewrite <- PL in T. clear - T.
    assert (H : forall n rank l mm, (length l < n)%nat -> aco_global_from rho top rank n l mm = None).
    { induction n as [|n IH]; intros rank l mm L; [lia|]. destruct l as [|a l]; auto. simpl in *. apply IH. lia. }
    apply H. auto.
Qed.
Lemma aco_deposit_lemma rho top r1 r2 f1 f2 : 0 < rho -> 0 < f1 -> f1 <= f2 -> (r1 < r2 < top)%nat ->
  0 < aco_deposit rho top r2 f2 < aco_deposit rho top r1 f1.
Proof.
  intros P F1 F2 [R1 R2]. unfold aco_deposit. apply lt_INR in R1. apply lt_INR in R2. split.
  - apply Rdiv_lt_0_compat; [apply Rmult_lt_0_compat; lra|lra].
  - apply Rlt_le_trans with (rho * (INR top - INR r1) / f2).
    + apply Rmult_lt_compat_r; [apply Rinv_0_lt_compat; lra|]. apply Rmult_lt_compat_l; lra.
    + apply Rmult_le_compat_l; [apply Rmult_le_pos; lra|]. apply Rinv_le_contravar; lra.
Qed.
Lemma aco_positive_lemma rho top ants m m' : 0 <= rho -> Forall (fun a => fits m (a_choice a) /\ 0 < a_fit a) ants ->
  aco_global rho top ants m = Some m' -> forall i j, (i < length m)%nat -> 0 < ent m i j -> 0 < ent m' i j.
Proof.
  intros P F E i j I Q. destruct (aco_global_lemma rho top ants m) as [A B].
  { eapply Forall_impl; [|exact F]. simpl; tauto. }
  destruct (le_lt_dec top (length ants)) as [T|T]; [|rewrite B in E by auto; discriminate].
  destruct (A T) as (m2 & order & E2 & PM & _ & _ & V). rewrite E in E2. injection E2 as <-. rewrite V by auto.
  apply Rplus_lt_le_0_compat; auto. apply Rsum_map_nonneg. intros k K. apply in_seq in K. unfold adds. destruct (Nat.eqb _ _); [|lra].
  assert (O : 0 < a_fit (nth k order (mkAnt [] [] 0))).
  { rewrite Forall_forall in F. apply F. eapply Permutation_in; [exact PM|]. apply nth_In. rewrite (Permutation_length PM). lia. }
  assert (INR k <= INR top) by (apply le_INR; lia).
  apply Rmult_le_pos; [apply Rmult_le_pos; lra|]. left. apply Rinv_0_lt_compat; auto.
Qed.
(* best of the ants, best of the run *)
Definition is_best (seen : list ant) (b : option (R * list R)) : Prop :=
  match b with
  | None => seen = []
  | Some (f, x) => (exists a, In a seen /\ a_fit a = f /\ a_x a = x) /\ Forall (fun a => f <= a_fit a) seen
  end.
Lemma aco_best_from : forall l seen b, is_best seen b ->
  is_best (seen ++ l) (fold_left (fun b a => match b with None => Some (a_fit a, a_x a) | Some (f, _) => if Rltb (a_fit a) f then Some (a_fit a, a_x a) else b end) l b).
Proof.
  induction l as [|a l IH]; intros seen b H; simpl; [rewrite app_nil_r; auto|].
  replace (seen ++ a :: l) with ((seen ++ [a]) ++ l) by (rewrite <- app_assoc; auto). apply IH.
  destruct b as [[f x]|]; simpl in *.
  - destruct H as [(c & C1 & C2 & C3) H]. destruct (Rltb (a_fit a) f) eqn:E; [apply Rltb_true in E|apply Rltb_false in E]; simpl.
    + split; [exists a; rewrite in_app_iff; simpl; auto|]. apply Forall_app. split; [|repeat constructor; lra].
      eapply Forall_impl; [|exact H]. simpl; intros; lra.
    + split; [exists c; rewrite in_app_iff; auto|]. apply Forall_app. auto.
  - subst seen. simpl. split; [exists a; auto|]. repeat constructor; lra.
Qed.
Lemma aco_best_ok l : is_best l (aco_best l).
Proof. apply (aco_best_from l [] None). reflexivity. Qed.
Lemma aco_loop_ok nmax : forall gens seen best N b N', is_best seen best -> aco_loop nmax gens best N = (b, N') ->
  exists k, (k <= length gens)%nat /\ is_best (seen ++ concat (firstn k gens)) b /\ (k = length gens \/ (nmax < N')%nat) /\
    (N' <= N + k)%nat.
Proof.
  induction gens as [|g gens IH]; intros seen best N b N' H E.
  - simpl in E. injection E as <- <-. exists 0%nat. simpl. rewrite app_nil_r. repeat split; auto; lia.
  - cbn [aco_loop] in E.
    destruct (match aco_best g with Some b0 => match best with Some c => if Rltb (fst b0) (fst c) then (Some b0, 0%nat) else (best, S N) | None => (Some b0, 0%nat) end | None => (best, S N) end) as [best' N1] eqn:E1.
    pose proof (aco_best_ok g) as G.
    assert (H1 : is_best (seen ++ g) best' /\ (N1 <= S N)%nat).
    { destruct (aco_best g) as [[f x]|]; simpl in G.
      - destruct best as [[f0 x0]|]; simpl in *.
        + destruct (Rltb f f0) eqn:L; [apply Rltb_true in L|apply Rltb_false in L]; injection E1 as <- <-; simpl.
          * split; [|lia]. destruct G as [(a & A1 & A2 & A3) G], H as [_ H]. split; [exists a; rewrite in_app_iff; auto|].
            apply Forall_app; split; auto. eapply Forall_impl; [|exact H]. simpl; intros; lra.
          * split; [|lia]. destruct H as [(a & A1 & A2 & A3) H], G as [_ G]. split; [exists a; rewrite in_app_iff; auto|].
            apply Forall_app; split; auto. eapply Forall_impl; [|exact G]. simpl; intros; lra.
        + injection E1 as <- <-. subst seen. simpl. split; [auto|lia].
      - injection E1 as <- <-. subst g. rewrite app_nil_r. split; [auto|lia]. }
    destruct H1 as [H1 H2].
    destruct (Nat.ltb nmax N1) eqn:L.
    + apply Nat.ltb_lt in L. injection E as <- <-. exists 1%nat. simpl. rewrite app_nil_r. repeat split; auto; lia.
    + destruct (IH _ _ _ _ _ H1 E) as (k & K1 & K2 & K3 & K4). exists (S k). simpl. rewrite app_assoc. repeat split; auto; try lia.
Qed.
Lemma aco_loop_lemma nmax gens b N' : aco_loop nmax gens None 0 = (b, N') ->
  exists k, (k <= length gens)%nat /\ (k = length gens \/ (nmax < N')%nat) /\ (N' <= k)%nat /\
  match b with
  | None => concat (firstn k gens) = []
  | Some (f, x) => (exists a, In a (concat (firstn k gens)) /\ a_fit a = f /\ a_x a = x) /\
                   Forall (fun a => f <= a_fit a) (concat (firstn k gens))
  end.
Proof.
  intros E. destruct (aco_loop_ok nmax gens [] None 0 b N' eq_refl E) as (k & K1 & K2 & K3 & K4). exists k. repeat split; auto.
Qed.

(* ---------------- genetic algorithm ---------------- *)
Lemma sq_clip v : 0 <= (Rmin (Rmax v 0) 100) ^ 2 /\ ((Rmin (Rmax v 0) 100) ^ 2 = 0 <-> v <= 0).
Proof.
  split; [apply pow2_ge_0|]. split; intros H.
  - assert (Rmin (Rmax v 0) 100 = 0) by (simpl in H; rewrite Rmult_1_r in H; apply Rmult_integral in H; tauto). rmx; lra.
  - replace (Rmin (Rmax v 0) 100) with 0 by (rmx; lra). ring.
Qed.
Lemma viol100_lemma g : 0 <= viol100 g /\ (viol100 g = 0 <-> Forall (fun v => v <= 0) g).
Proof.
  unfold viol100. induction g as [|v g IH]; cbn [map]; rewrite ?Rsum_cons.
  - unfold Rsum; simpl. split; [lra|]. split; auto.
  - destruct (sq_clip v) as [A B], IH as [C D]. rewrite Forall_cons_iff, <- B, <- D. split; [lra|]. split; intros; lra.
Qed.
Lemma ga_penalty_lemma g : 0 <= ga_penalty g /\ (ga_penalty g = 0 <-> Forall (fun v => v <= 0) g).
Proof.
  destruct (viol100_lemma g) as [A B]. rewrite <- B. unfold ga_penalty, viol100 in *. split; [lra|]. split; intros; lra.
Qed.
Lemma ga_gt_refuted_lemma : (exists g, demands sGt g /\ 0 < ga_penalty [g]) /\ (exists g, ~ demands sGt g /\ ga_penalty [g] = 0) /\
  (exists g, ~ demands sEq g /\ ga_penalty [g] = 0).
Proof.
  assert (Z : forall v, v <= 0 -> ga_penalty [v] = 0) by (intros v V; apply ga_penalty_lemma; constructor; [auto|constructor]).
  repeat split.
  - exists 1. split; [simpl; lra|]. destruct (ga_penalty_lemma [1]) as [[A|A] B]; auto. symmetry in A. apply B in A. inversion A; lra.
  - exists (-1). split; [simpl; lra|apply Z; lra].
  - exists (-1). split; [simpl; lra|apply Z; lra].
Qed.
Lemma ga_run_lemma f g bounds : forall inds s,
  ga_f (ga_run f g bounds inds s) = fold_left Rmin (ga_values f g bounds inds) (ga_f s) /\
  (ga_run f g bounds inds s = s \/ exists ind, In ind inds /\ ga_value f g bounds ind = ga_f (ga_run f g bounds inds s) /\
     ga_x (ga_run f g bounds inds s) = Some (map (fun xb => clamp (fst (snd xb)) (snd (snd xb)) (fst xb)) (combine ind bounds))).
Proof.
  induction inds as [|i inds IH]; intros s; simpl; [auto|].
  unfold ga_eval. destruct (Rltb (ga_value f g bounds i) (ga_f s)) eqn:E; cbv zeta; [apply Rltb_true in E|apply Rltb_false in E]; cbn [fst snd].
  - destruct (IH (mkGa (ga_value f g bounds i) (Some (map (fun xb => clamp (fst (snd xb)) (snd (snd xb)) (fst xb)) (combine i bounds))) (ga_f s) 0)) as [A B].
    split.
    + rewrite A. simpl. rewrite Rmin_right by lra. auto.
    + right. destruct B as [B|(k & K1 & K2 & K3)].
      * exists i. rewrite B. simpl. auto.
      * exists k. auto.
  - destruct (IH s) as [A B]. split.
    + rewrite A, Rmin_left by lra. auto.
    + destruct B as [B|(k & K1 & K2 & K3)]; [auto|]. right. exists k. auto.
Qed.
Lemma ga_best_lemma f g bounds inds s : let t := ga_run f g bounds inds s in
  ga_f t <= ga_f s /\ Forall (fun v => ga_f t <= v) (ga_values f g bounds inds) /\
  (t = s \/ exists ind, In ind inds /\ ga_value f g bounds ind = ga_f t /\ ga_f t < ga_f s /\
    ga_x t = Some (map (fun xb => clamp (fst (snd xb)) (snd (snd xb)) (fst xb)) (combine ind bounds))).
Proof.
  intros t. subst t. destruct (ga_run_lemma f g bounds inds s) as [A B].
  destruct (fold_Rmin_le (ga_values f g bounds inds) (ga_f s)) as [C D]. rewrite <- A in *.
  split; [auto|]. split; [apply Forall_forall; auto|]. destruct B as [B|(k & K1 & K2 & K3)]; auto.
  destruct C as [C|C].
  - right. exists k. auto.
  - left. clear K1 K2 K3 k A D. revert s C. induction inds as [|i inds IH]; intros s C; simpl in *; auto.
    unfold ga_eval in *. destruct (Rltb (ga_value f g bounds i) (ga_f s)) eqn:E; cbn [fst snd] in *; [|auto].
    apply Rltb_true in E. exfalso.
    destruct (ga_run_lemma f g bounds inds (mkGa (ga_value f g bounds i) (Some (map (fun xb => clamp (fst (snd xb)) (snd (snd xb)) (fst xb)) (combine i bounds))) (ga_f s) 0)) as [A _].
    destruct (fold_Rmin_le (ga_values f g bounds inds) (ga_value f g bounds i)) as [C' _]. simpl in A. rewrite A in C. lra.
Qed.
Lemma roundZ_mono x y : x <= y -> (roundZ x <= roundZ y)%Z.
Proof.
  intros [L| ->]; [|lia]. destruct (Z_le_gt_dec (roundZ x) (roundZ y)) as [|G]; auto. exfalso.
  assert (IZR (roundZ y) + 1 <= IZR (roundZ x)) by (rewrite <- plus_IZR; apply IZR_le; lia).
  pose proof (roundZ_err x) as A. pose proof (roundZ_err y) as B. revert A B. unfold Rabs. repeat destruct (Rcase_abs _); lra.
Qed.
Lemma roundn3_mono x y : x <= y -> roundn 3 x <= roundn 3 y.
Proof.
  intros L. unfold roundn. apply Rmult_le_compat_r; [left; apply Rinv_0_lt_compat; lra|]. apply IZR_le, roundZ_mono. apply Rmult_le_compat_r; lra.
Qed.
Lemma roundn3_idem x : roundn 3 (roundn 3 x) = roundn 3 x.
Proof.
  unfold roundn at 2 3. replace (10 ^ 3) with 1000 by ring. apply roundn3_exact.
Qed.
Lemma round_clamp_idem l u x : l <= u -> roundn 3 (clamp l u (roundn 3 (clamp l u x))) = roundn 3 (clamp l u x).
Proof.
  intros O. pose proof (clamp_range l u x O) as [A B]. set (c := clamp l u x) in *. clearbody c.
  set (r := roundn 3 c) in *. pose proof (roundn3_idem c) as I. fold r in I.
  pose proof (roundn3_mono l c A) as M1. pose proof (roundn3_mono c u B) as M2. fold r in M1, M2.
  destruct (Rle_dec l r) as [C1|C1]; [destruct (Rle_dec r u) as [C2|C2]|].
  - rewrite clamp_id by lra. auto.
  - rewrite clamp_high by lra. pose proof (roundn3_mono u r ltac:(lra)). lra.
  - rewrite clamp_low by lra. pose proof (roundn3_mono r l ltac:(lra)). lra.
Qed.
Lemma ga_point_idem : forall bounds ind, ordered bounds -> ga_point bounds (ga_point bounds ind) = ga_point bounds ind.
Proof.
  unfold ga_point. intros bounds ind O; revert ind. induction O as [|[l u] bounds P O IH]; intros [|x ind]; simpl in *; auto.
  rewrite round_clamp_idem by auto. f_equal. auto.
Qed.
Lemma eq_list_ok : forall a b, eq_list a b = true <-> a = b.
Proof.
  induction a as [|x a IH]; intros [|y b]; simpl; split; intros H; try discriminate; auto.
  - destruct (Req_EM_T x y); [|discriminate]. apply IH in H. congruence.
  - injection H as -> ->. destruct (Req_EM_T y y); [apply IH; auto|congruence].
Qed.
Lemma ga_cached_lemma f g bounds d s ind d' s' v : ordered bounds ->
  Forall (fun e => snd e = ga_value f g bounds (fst e)) d -> ga_cached f g bounds d s ind = (d', s', v) ->
  v = ga_value f g bounds ind /\ Forall (fun e => snd e = ga_value f g bounds (fst e)) d'.
Proof.
  intros O D E. unfold ga_cached in E. destruct (find _ d) as [e|] eqn:F.
  - injection E as <- <- <-. apply find_some in F as [F1 F2]. apply eq_list_ok in F2. rewrite Forall_forall in D. split; [rewrite <- F2; auto|]. apply Forall_forall; auto.
  - unfold ga_eval in E. destruct (Rltb _ _); injection E as <- <- <-; split; auto; constructor; auto. simpl.
    unfold ga_value. rewrite ga_point_idem; auto.
Qed.
Lemma ga_unrounded_refuted_lemma : exists f g bounds inds s x, ga_x (ga_run f g bounds inds s) = Some x /\
  f x + ga_penalty (g x) <> ga_f (ga_run f g bounds inds s).
Proof.
  exists (fun x => hd 0 x), (fun _ => []), [(0, 1)], [[2/10000]], (mkGa 10 None 10 0), [2/10000].
  assert (V : ga_value (fun x => hd 0 x) (fun _ => []) [(0, 1)] [2/10000] = 0).
  { unfold ga_value, ga_point, ga_penalty, Rsum. simpl. rewrite clamp_id by lra. rewrite (roundn3_of 0) by (rewrite Rabs_pos_eq; lra). lra. }
  cbn [ga_run]. unfold ga_eval. rewrite V. cbn [ga_f]. destruct (Rltb 0 10) eqn:E; [|apply Rltb_false in E; lra]. simpl.
  rewrite clamp_id by lra. split; auto. unfold ga_penalty, Rsum. simpl. lra.
Qed.
