(** Timber members: buckling checks, verdict, apex factors, bracing and bearing. *)
From Verif Require Import Base EC3_model Sections_proofs Sections3_proofs Plate_proofs Timber_proofs Timber2_proofs Timber4_proofs Timber5_proofs.
From Verif Require Import Loads_model Timber_model Timber_spec.
Require Import Psatz.

(* ---------------------------------------------------------------- buckling *)
Lemma max_abs_spec l m : max_abs l = Some m -> In m l /\ forall x, In x l -> Rabs x <= Rabs m.
Proof.
  revert m. induction l as [|a l IH]; intros m E; [discriminate|]. cbn [max_abs] in E. destruct (max_abs l) as [y|] eqn:Q.
  - destruct (IH y eq_refl) as [I1 I2]. destruct (Rltb (Rabs a) (Rabs y)) eqn:T; injection E as <-; [apply Rltb_true in T|apply Rltb_false in T].
    + split; [right; auto|]. intros x [<-|X]; [lra|auto].
    + split; [left; auto|]. intros x [<-|X]; [lra|]. specialize (I2 x X). lra.
  - injection E as <-. destruct l; [|cbn in Q; destruct (max_abs l); [destruct (Rltb _ _)|]; discriminate]. split; [left; auto|]. intros x [<-|[]]; lra.
Qed.
Lemma max_abs_some l : l <> [] -> exists m, max_abs l = Some m.
Proof. destruct l; [congruence|]. cbn. destruct (max_abs l); [destruct (Rltb _ _)|]; eauto. Qed.
Lemma seg_lemma m z secs kc : tmem_ok m -> 0 < kc -> secs <> [] ->
  exists u, seg_buckling m z secs kc = Some u /\
  ((forall f, In f secs -> 0 <= f_N f) -> u = 0) /\
  ((forall f, In f secs -> 0 <= f_Mz f) -> 0 <= u /\
     forall f, In f secs -> f_N f < 0 -> en_buck z (t_B m) (t_H m (f_loc f)) kc (t_fc m) (t_fm m) (f_N f) (f_My f) (f_Mz f) <= u) /\
  ((exists f, In f secs /\ f_N f < 0) -> (forall f, In f secs -> 0 <= f_Mz f) -> exists f g h, In f secs /\ In g secs /\ In h secs /\
     u = ax (t_B m) (t_H m (f_loc f)) (f_N f) / (kc * t_fc m) + if z then 7/10 * (by_ (t_B m) (t_H m (f_loc g)) (f_My g) / t_fm m) + bz_ (t_B m) (t_H m (f_loc h)) (f_Mz h) / t_fm m
         else by_ (t_B m) (t_H m (f_loc g)) (f_My g) / t_fm m + 7/10 * (bz_ (t_B m) (t_H m (f_loc h)) (f_Mz h) / t_fm m)).
Proof.
  intros OK K NE. pose proof OK as (B & H & Fm & _ & Fc & _). unfold seg_buckling.
  assert (M : forall g : tf -> R, map g secs <> []) by (intros g; destruct secs; [congruence|discriminate]).
  destruct (list_min (map (sigma_0d m) secs)) as [sc|] eqn:E1; [|apply list_min_none in E1; exfalso; eapply M; eauto]. apply list_min_spec in E1 as [I1 L1].
  destruct (max_abs_some _ (M (sigma_my m))) as [my E2]. destruct (max_abs_some _ (M (sigma_mz m))) as [mz E3]. rewrite E2, E3. cbn [bind].
  apply max_abs_spec in E2 as [I2 L2]. apply max_abs_spec in E3 as [I3 L3].
  apply in_map_iff in I1 as (f1 & <- & I1). apply in_map_iff in I2 as (f2 & <- & I2). apply in_map_iff in I3 as (f3 & <- & I3).
  assert (D : 0 < kc * t_fc m) by (apply Rmult_lt_0_compat; auto).
  set (u := if z then Rabs (sigma_0d m f1) / (kc * t_fc m) + 7/10 * Rabs (sigma_my m f2) / t_fm m + sigma_mz m f3 / t_fm m else Rabs (sigma_0d m f1) / (kc * t_fc m) + Rabs (sigma_my m f2) / t_fm m + 7/10 * sigma_mz m f3 / t_fm m).
  exists (if Rltb (sigma_0d m f1) 0 then u else u * 0). split; [reflexivity|].
  assert (SGN : forall f, 0 <= f_N f -> 0 <= sigma_0d m f) by (intros; apply div_nn; [auto|apply ok_A; auto]).
  assert (SGN2 : forall f, f_N f < 0 -> sigma_0d m f < 0). { intros f Q. unfold sigma_0d, Rdiv. assert (0 < / A_at m (f_loc f)) by (apply Rinv_0_lt_compat, ok_A; auto). nra. }
  assert (EQ : 0 <= f_Mz f3 -> u = Rabs (sigma_0d m f1) / (kc * t_fc m) + if z then 7/10 * (Rabs (sigma_my m f2) / t_fm m) + Rabs (sigma_mz m f3) / t_fm m else Rabs (sigma_my m f2) / t_fm m + 7/10 * (Rabs (sigma_mz m f3) / t_fm m)).
  { intros Q. rewrite (Rabs_pos_eq (sigma_mz m f3)) by (apply sig_z_pos; auto). unfold u. destruct z; field; lra. }
  split; [|split].
  - intros P. destruct (Rltb (sigma_0d m f1) 0) eqn:T; [apply Rltb_true in T; specialize (SGN f1 (P _ I1)); lra|]. ring.
  - intros P. specialize (EQ (P _ I3)).
    assert (N1 : 0 <= Rabs (sigma_0d m f1) / (kc * t_fc m)) by (apply div_nn; [apply Rabs_pos|auto]).
    assert (N2 : 0 <= Rabs (sigma_my m f2) / t_fm m) by (apply div_nn; [apply Rabs_pos|auto]). assert (N3 : 0 <= Rabs (sigma_mz m f3) / t_fm m) by (apply div_nn; [apply Rabs_pos|auto]).
    split. { destruct (Rltb (sigma_0d m f1) 0); [rewrite EQ; destruct z; lra|lra]. }
    intros f F C. assert (S1 : sigma_0d m f1 <= sigma_0d m f) by (apply L1, in_map; auto). pose proof (SGN2 f C) as S2.
    destruct (Rltb (sigma_0d m f1) 0) eqn:T; [|apply Rltb_false in T; lra]. rewrite EQ. unfold en_buck. rewrite <- sig_ax, <- sig_y, <- sig_z by auto.
    assert (A1 : Rabs (sigma_0d m f) / (kc * t_fc m) <= Rabs (sigma_0d m f1) / (kc * t_fc m)) by (apply div_le; [auto|rewrite !Rabs_left by lra; lra]).
    assert (A2 : Rabs (sigma_my m f) / t_fm m <= Rabs (sigma_my m f2) / t_fm m) by (apply div_le; [auto|apply L2, in_map; auto]).
    assert (A3 : Rabs (sigma_mz m f) / t_fm m <= Rabs (sigma_mz m f3) / t_fm m) by (apply div_le; [auto|apply L3, in_map; auto]).
    destruct z; lra.
  - intros (f & F & C) P. exists f1, f2, f3. repeat split; auto. assert (S1 : sigma_0d m f1 <= sigma_0d m f) by (apply L1, in_map; auto). pose proof (SGN2 f C) as S2.
    destruct (Rltb (sigma_0d m f1) 0) eqn:T; [|apply Rltb_false in T; lra]. rewrite EQ by auto. rewrite sig_ax, sig_y, sig_z by auto. reflexivity.
Qed.
Lemma all_some_in {A} (l : list (option A)) r : all_some l = Some r -> forall o, In o l -> exists x, o = Some x /\ In x r.
Proof.
  revert r. induction l as [|o l IH]; intros r E o' I; [destruct I|]. cbn [all_some] in E. apply bind_inv in E as (x & -> & E). apply bind_inv in E as (r' & E & R). injection R as <-.
  destruct I as [<-|I]; [exists x; split; [auto|left; auto]|]. destruct (IH _ E _ I) as (y & -> & Y). exists y. split; [auto|right; auto].
Qed.
Lemma all_some_inv {A} (l : list (option A)) r : all_some l = Some r -> forall x, In x r -> In (Some x) l.
Proof.
  revert r. induction l as [|o l IH]; intros r E x I; cbn [all_some] in E; [injection E as <-; destruct I|]. apply bind_inv in E as (y & -> & E). apply bind_inv in E as (r' & E & R). injection R as <-.
  destruct I as [<-|I]; [left; auto|right; eauto].
Qed.
Lemma all_some_def {A} (l : list (option A)) : (forall o, In o l -> o <> None) -> exists r, all_some l = Some r.
Proof.
  induction l as [|o l IH]; intros H; [exists []; auto|]. destruct o as [x|]; [|exfalso; apply (H None); [left|]; auto].
  destruct IH as [r E]; [intros; apply H; right; auto|]. exists (x :: r). cbn [all_some bind]. rewrite E. reflexivity.
Qed.
Lemma buckling_lemma m z secs sup kc : tmem_ok m -> length kc = S (length sup) ->
  Forall (fun k => 0 < k) kc -> (forall ab, In ab (pairs (with_ends sup)) -> in_seg secs ab <> []) ->
  exists r, check_buckling m z secs sup kc = Some r /\
  ((forall f, In f secs -> 0 <= f_N f) -> r = 0) /\
  ((forall f, In f secs -> 0 <= f_Mz f) -> 0 <= r /\
    forall ab k f, In (ab, k) (combine (pairs (with_ends sup)) kc) -> In f secs -> fst ab <= f_loc f <= snd ab -> f_N f < 0 ->
    en_buck z (t_B m) (t_H m (f_loc f)) k (t_fc m) (t_fm m) (f_N f) (f_My f) (f_Mz f) <= r).
Proof.
  intros OK LEN POS NE. unfold check_buckling.
  assert (LP : length (pairs (with_ends sup)) = S (length sup)).
  { assert (L2 : length (with_ends sup) = S (S (length sup))) by (unfold with_ends; rewrite (Permutation.Permutation_length (rsort_perm _)), app_length; cbn; lia).
    destruct (with_ends sup) as [|p l]; [discriminate|]. rewrite pairs_length. cbn in L2. lia. }
  rewrite LP, LEN, Nat.eqb_refl. set (cmb := combine (pairs (with_ends sup)) kc).
  assert (INC : forall p, In p cmb -> In (fst p) (pairs (with_ends sup)) /\ 0 < snd p).
  { intros [ab k] I. split; [apply in_combine_l in I; auto|]. apply in_combine_r in I. rewrite Forall_forall in POS. auto. }
  assert (SEG : forall p, In p cmb -> in_seg secs (fst p) <> [] /\ 0 < snd p) by (intros p I; destruct (INC p I); auto).
  destruct (all_some_def (map (fun p => seg_buckling m z (in_seg secs (fst p)) (snd p)) cmb)) as [us E].
  { intros o I. apply in_map_iff in I as (p & <- & I). destruct (SEG p I) as [S1 S2]. destruct (seg_lemma m z _ _ OK S2 S1) as (u & -> & _). discriminate. }
  rewrite E. cbn [bind]. assert (CN : exists p, In p cmb). { unfold cmb. destruct (pairs (with_ends sup)) as [|a ps]; [discriminate|]. destruct kc as [|k ks]; [discriminate|]. exists (a, k). left. auto. }
  destruct CN as [p0 P0]. destruct (all_some_in _ _ E _ (in_map _ _ _ P0)) as (u0 & _ & U0).
  destruct (list_max us) as [r|] eqn:MX; [|apply list_max_none in MX; subst us; destruct U0]. apply list_max_spec in MX as [MI ML].
  exists r. split; [reflexivity|].
  assert (FROM : forall u, In u us -> exists p, In p cmb /\ seg_buckling m z (in_seg secs (fst p)) (snd p) = Some u).
  { intros u U. apply (all_some_inv _ _ E) in U. apply in_map_iff in U as (p & Q & I). eauto. }
  assert (SUB : forall ab f, In f (in_seg secs ab) -> In f secs) by (intros ab f I; apply filter_In in I; tauto).
  split.
  - intros P. destruct (FROM r MI) as (p & I & Q). destruct (SEG p I) as [S1 S2]. destruct (seg_lemma m z _ _ OK S2 S1) as (u & Q2 & Z & _). rewrite Q in Q2. injection Q2 as <-. apply Z. eauto.
  - intros P. split.
    + destruct (FROM r MI) as (p & I & Q). destruct (SEG p I) as [S1 S2]. destruct (seg_lemma m z _ _ OK S2 S1) as (u & Q2 & _ & Z & _). rewrite Q in Q2. injection Q2 as <-. apply Z. eauto.
    + intros ab k f I F L C. destruct (SEG _ I) as [S1 S2]. destruct (seg_lemma m z _ _ OK S2 S1) as (u & Q2 & _ & Z & _). cbn [fst snd] in *. destruct Z as [_ Z]; [eauto|].
      destruct (all_some_in _ _ E _ (in_map (fun p => seg_buckling m z (in_seg secs (fst p)) (snd p)) _ _ I)) as (u' & Q3 & U'). cbn [fst snd] in Q3. rewrite Q2 in Q3. injection Q3 as <-.
      apply Rle_trans with u; [|auto]. apply Z; auto. apply filter_In. split; [auto|]. apply andb_true_intro. split; apply Rleb_true; lra.
Qed.
(** A weak-axis moment of negative sign lowers the utilisation. *)
Lemma buckling_sign_lemma m z f kc : tmem_ok m -> 0 < kc -> f_N f < 0 -> f_Mz f < 0 ->
  exists u u', seg_buckling m z [f] kc = Some u /\ seg_buckling m z [with_Mz f (- f_Mz f)] kc = Some u' /\ u < u' /\
  u < en_buck z (t_B m) (t_H m (f_loc f)) kc (t_fc m) (t_fm m) (f_N f) (f_My f) (f_Mz f).
Proof.
  intros OK K N Z. pose proof OK as (B & H & Fm & _ & Fc & _). unfold seg_buckling. cbn [map list_min max_abs bind fold_left]. unfold with_Mz.
  assert (NEG : sigma_0d m f < 0). { unfold sigma_0d, Rdiv. assert (0 < / A_at m (f_loc f)) by (apply Rinv_0_lt_compat, ok_A; auto). nra. }
  assert (E0 : sigma_0d m (mkTF (f_N f) (f_My f) (- f_Mz f) (f_Vy f) (f_Vz f) (f_T f) (f_loc f)) = sigma_0d m f) by reflexivity.
  assert (E1 : sigma_my m (mkTF (f_N f) (f_My f) (- f_Mz f) (f_Vy f) (f_Vz f) (f_T f) (f_loc f)) = sigma_my m f) by reflexivity.
  assert (E2 : sigma_mz m (mkTF (f_N f) (f_My f) (- f_Mz f) (f_Vy f) (f_Vz f) (f_T f) (f_loc f)) = - sigma_mz m f) by (unfold sigma_mz, Rdiv; cbn [f_Mz f_loc]; ring).
  rewrite E0, E1, E2. destruct (Rltb (sigma_0d m f) 0) eqn:T; [|apply Rltb_false in T; lra].
  assert (ZN : sigma_mz m f < 0). { unfold sigma_mz, Rdiv. assert (0 < / Wz_at m (f_loc f)) by (apply Rinv_0_lt_compat, ok_Wz; auto). nra. }
  assert (Q : sigma_mz m f / t_fm m < 0). { unfold Rdiv. assert (0 < / t_fm m) by (apply Rinv_0_lt_compat; auto). nra. }
  do 2 eexists. split; [reflexivity|]. split; [reflexivity|]. unfold en_buck. rewrite <- sig_ax, <- sig_y, <- sig_z by auto. rewrite (Rabs_left (sigma_mz m f)) by lra.
  replace (7/10 * sigma_mz m f / t_fm m) with (7/10 * (sigma_mz m f / t_fm m)) by (field; lra). replace (7/10 * - sigma_mz m f / t_fm m) with (- (7/10 * (sigma_mz m f / t_fm m))) by (field; lra).
  replace (- sigma_mz m f / t_fm m) with (- (sigma_mz m f / t_fm m)) by (field; lra). replace (7/10 * Rabs (sigma_my m f) / t_fm m) with (7/10 * (Rabs (sigma_my m f) / t_fm m)) by (field; lra).
  destruct z; split; lra.
Qed.
(** Lateral-torsional buckling. *)
Lemma lt_lemma m kcrit kcz f : tmem_ok m -> 0 < kcrit -> 0 < kcz ->
  lt_ratio m false kcrit kcz f = (by_ (t_B m) (t_H m (f_loc f)) (f_My f) / (kcrit * t_fm m)) ^ 2 + ax (t_B m) (t_H m (f_loc f)) (f_N f) / (kcz * t_fc m) /\
  (0 <= f_My f -> lt_ratio m true kcrit kcz f = by_ (t_B m) (t_H m (f_loc f)) (f_My f) / (kcrit * t_fm m)) /\
  (f_My f < 0 -> lt_ratio m true kcrit kcz f = - (by_ (t_B m) (t_H m (f_loc f)) (f_My f) / (kcrit * t_fm m)) /\ lt_ratio m true kcrit kcz f < 0).
Proof.
  intros OK K1 K2. pose proof OK as (B & H & Fm & _ & Fc & _). assert (D : 0 < kcrit * t_fm m) by (apply Rmult_lt_0_compat; auto). unfold lt_ratio. rewrite <- sig_ax, <- sig_y by auto.
  pose proof (ok_Wy m (f_loc f) OK) as W. split; [|split].
  - f_equal. rewrite <- abs_div by auto. rewrite pow2_abs. reflexivity.
  - intros P. rewrite Rabs_pos_eq; [reflexivity|]. apply div_nn; auto.
  - intros P. assert (N : sigma_my m f < 0). { unfold sigma_my, Rdiv. assert (0 < / Wy_at m (f_loc f)) by (apply Rinv_0_lt_compat; auto). nra. }
    rewrite Rabs_left by auto. split; [unfold Rdiv; ring|]. unfold Rdiv. assert (0 < / (kcrit * t_fm m)) by (apply Rinv_0_lt_compat; auto). nra.
Qed.
(* ---------------------------------------------------------------- verdict *)
Lemma fold_max_ge l a : a <= fold_left Rmax l a /\ (forall x, In x l -> x <= fold_left Rmax l a) /\ (fold_left Rmax l a = a \/ In (fold_left Rmax l a) l).
Proof.
  revert a. induction l as [|y l IH]; intros a; cbn [fold_left]; [split; [lra|]; split; [intros x []|left; auto]|].
  destruct (IH (Rmax a y)) as (H1 & H2 & H3). pose proof (Rmax_l a y). pose proof (Rmax_r a y). split; [lra|]. split.
  - intros x [<-|X]; [lra|auto].
  - destruct H3 as [E|I]; [|right; right; auto]. rewrite E. unfold Rmax. destruct (Rle_dec a y); [right; left; auto|left; auto].
Qed.
Lemma sections_lemma_t m secs : (check_sections m secs = None <-> secs = []) /\
  forall r, check_sections m secs = Some r -> length r = 6%nat /\ forall j, (j < 6)%nat ->
  (forall f, In f secs -> nth j [check_normal m f; check_shear_at m f; check_bending m f; check_torsion m f; check_bt m f; check_bc m f] 0 <= nth j r 0) /\
  0 <= nth j r 0 /\
  (nth j r 0 = 0 \/ exists f, In f secs /\ nth j r 0 = nth j [check_normal m f; check_shear_at m f; check_bending m f; check_torsion m f; check_bt m f; check_bc m f] 0).
Proof.
  split; [destruct secs; cbn; split; intros; auto; discriminate|]. intros r E. destruct secs as [|f0 secs]; [discriminate|]. unfold check_sections in E. injection E as <-.
  split; [reflexivity|]. intros j J. set (l := f0 :: secs) in *.
  assert (N : nth j (map (fun j => fold_left Rmax (map (fun f => nth j (section_resistance m f) 0) l) 0) (seq 0 6)) 0 = fold_left Rmax (map (fun f => nth j (section_resistance m f) 0) l) 0).
  { do 6 (destruct j as [|j]; [reflexivity|]). lia. }
  change (map (fun j0 => fold_left Rmax (map (fun f => nth j0 (section_resistance m f) 0) l) 0) (seq 0 6)) with (map (fun j => fold_left Rmax (map (fun f => nth j (section_resistance m f) 0) l) 0) (seq 0 6)) in N.
  match goal with |- context [nth j ?L 0] => match L with context [fold_left] => change L with (map (fun j => fold_left Rmax (map (fun f => nth j (section_resistance m f) 0) l) 0) (seq 0 6)) end end.
  rewrite N. destruct (fold_max_ge (map (fun f => nth j (section_resistance m f) 0) l) 0) as (G1 & G2 & G3). split; [|split; [auto|]].
  - intros f F. apply G2. apply in_map_iff. exists f. split; [reflexivity|auto].
  - destruct G3 as [G3|G3]; [left; auto|right]. apply in_map_iff in G3 as (f & Q & F). exists f. split; auto.
Qed.
Lemma list_max_le1 l r : list_max l = Some r -> (r <= 1 <-> forall x, In x l -> x <= 1).
Proof. intros E. apply list_max_spec in E as [I L]. split; intros H; [intros x X; specialize (L x X); lra|auto]. Qed.
Lemma max_le_iff a b c : Rmax a b <= c <-> a <= c /\ b <= c.
Proof. split; intros H; [pose proof (Rmax_l a b); pose proof (Rmax_r a b); lra|apply Rmax_lub; tauto]. Qed.
Lemma design_lemma_t beam sections buckling lt90 perp r : design beam sections buckling lt90 perp = Some r ->
  (r <= 1 <-> (forall x, In x (sections ++ buckling) -> x <= 1) /\ (beam = true -> lt90 <= 1 /\ perp <= 1)).
Proof.
  unfold design. intros E. apply bind_inv in E as (a & A & E). apply bind_inv in E as (b & B & E). injection E as <-.
  pose proof (list_max_le1 _ _ A) as A1. pose proof (list_max_le1 _ _ B) as B1.
  assert (X : Rmax a b <= 1 <-> forall x, In x (sections ++ buckling) -> x <= 1).
  { rewrite max_le_iff, A1, B1. split; [intros [H1 H2] x X; apply in_app_or in X as [X|X]; auto|]. intros H. split; intros x X; apply H, in_or_app; auto. }
  rewrite <- X. destruct beam; [rewrite !max_le_iff; intuition|]. intuition discriminate.
Qed.
Lemma strong_lemma sections buckling lt90 v : strong_enough sections buckling lt90 = Some v ->
  (v = true <-> (forall x, In x (sections ++ buckling) -> x <= 1) /\ lt90 <= 1).
Proof.
  unfold strong_enough. intros E. apply bind_inv in E as (r & R & E). injection E as <-. pose proof (list_max_le1 _ _ R) as A.
  assert (Q : negb (Rltb 1 r) = true <-> r <= 1). { destruct (Rltb 1 r) eqn:T; [apply Rltb_true in T|apply Rltb_false in T]; cbn; split; intros; auto; try discriminate; lra. }
  rewrite Q, A. split.
  - intros H. split; [intros x X; apply H; apply in_app_or in X as [X|X]; apply in_or_app; [left|right; apply in_or_app; left]; auto|]. apply H. apply in_or_app. right. apply in_or_app. right. left. auto.
  - intros [H1 H2] x X. apply in_app_or in X as [X|X]; [apply H1, in_or_app; auto|]. apply in_app_or in X as [X|[<-|[]]]; [apply H1, in_or_app; auto|auto].
Qed.
Lemma verdict_lemma sections buckling lt90 perp r v : design true sections buckling lt90 perp = Some r -> strong_enough sections buckling lt90 = Some v ->
  (r <= 1 <-> v = true /\ perp <= 1).
Proof. intros D S0. rewrite (design_lemma_t _ _ _ _ _ _ D), (strong_lemma _ _ _ _ S0). intuition. Qed.
Lemma verdict_perp_lemma : exists sections buckling lt90 perp, strong_enough sections buckling lt90 = Some true /\ design true sections buckling lt90 perp = Some 2.
Proof.
  exists [1/2], [1/2], (1/2), 2. unfold strong_enough, design. cbn -[Rltb Rmax].
  rewrite !(Rmax_left (1/2) (1/2)) by lra. rewrite Rmax_right by lra. split; [|reflexivity]. destruct (Rltb 1 (1/2)) eqn:T; [apply Rltb_true in T; lra|reflexivity].
Qed.
Lemma verdict_column_lemma : exists sections buckling lt90 perp, strong_enough sections buckling lt90 = Some false /\ design false sections buckling lt90 perp = Some (1/2).
Proof.
  exists [1/2], [1/2], 2, 0. unfold strong_enough, design. cbn -[Rltb Rmax].
  rewrite !(Rmax_left (1/2) (1/2)) by lra. rewrite Rmax_right by lra. split; [|reflexivity]. destruct (Rltb 1 2) eqn:T; [reflexivity|apply Rltb_false in T; lra].
Qed.
(* ---------------------------------------------------------------- apex *)
Lemma k_r_lemma k r t : 0 < t -> (k = SKaareva \/ k = SKaarevaHarja) -> 0 <= r ->
  k_r k r t = Some (en_kr (1000 * r) t) /\ exists v, k_r k r t = Some v /\ 76/100 <= v <= 1.
Proof.
  intros T K P. assert (N : 0 <= r * 1000 / t) by (apply div_nn; lra).
  assert (E : k_r k r t = Some (if Rleb 240 (r * 1000 / t) then 1 else 76/100 + 1/1000 * (r * 1000 / t))).
  { destruct K as [->| ->]; cbn [k_r]; unfold pdiv; destruct (Reqb t 0) eqn:Z; try (apply Reqb_true in Z; lra); reflexivity. }
  rewrite E. split.
  - unfold en_kr. replace (1000 * r / t) with (r * 1000 / t) by (field; lra). destruct (Rleb 240 (r * 1000 / t)) eqn:Q; [apply Rleb_true in Q|apply Rleb_false in Q]; destruct (Rle_dec 240 (r * 1000 / t)); try lra; reflexivity.
  - eexists. split; [reflexivity|]. destruct (Rleb 240 (r * 1000 / t)) eqn:Q; [|apply Rleb_false in Q]; lra.
Qed.
(** Radius and thickness in the same unit: the reduction of EN 1995 is lost. *)
Lemma k_r_unit_lemma r t : 0 < t -> 24/100 * t <= r -> r < 240 * t -> k_r SKaareva r t = Some 1 /\ en_kr r t < 1.
Proof.
  intros T L U. destruct (k_r_lemma SKaareva r t T ltac:(auto) ltac:(lra)) as [-> _]. unfold en_kr. split.
  - destruct (Rle_dec 240 (1000 * r / t)) as [|N]; [auto|]. exfalso. apply N. apply le_div_iff; lra.
  - assert (r / t < 240). { apply Rmult_lt_reg_r with t; [auto|]. unfold Rdiv. rewrite Rmult_assoc, Rinv_l by lra. lra. } destruct (Rle_dec 240 (r / t)); lra.
Qed.
Lemma pdiv_some a b : b <> 0 -> pdiv a b = Some (a / b).
Proof. intros N. unfold pdiv. destruct (Reqb b 0) eqn:Z; [apply Reqb_true in Z; contradiction|reflexivity]. Qed.
Lemma k_p_lemma alfa r hap : 0 < r + 1/2 * hap ->
  k_p SHarja alfa r hap = Some (en_kp (tan alfa) 0) /\ k_p SMaha alfa r hap = Some (en_kp (tan alfa) 0) /\
  k_p SKaareva alfa r hap = Some (en_kp 0 (hap / (r + 1/2 * hap))) /\ k_p SKaarevaHarja alfa r hap = Some (en_kp (tan alfa) (hap / (r + 1/2 * hap))).
Proof. intros P. cbn [k_p]. rewrite pdiv_some by lra. cbn [bind]. unfold en_kp. repeat split; f_equal; ring. Qed.
Lemma k_l_lemma alfa r hap : 0 < r + 1/2 * hap ->
  k_l SHarja alfa r hap = Some (en_kl (tan alfa) 0) /\ k_l SMaha alfa r hap = Some (en_kl (tan alfa) 0) /\
  k_l SKaareva alfa r hap = Some (en_kl 0 (hap / (r + 1/2 * hap))) /\
  k_l SKaarevaHarja alfa r hap = Some (en_kl (tan alfa) (hap / (r + 1/2 * hap)) + (52/10 * tan alfa - 35/100) * (hap / (r + 1/2 * hap))).
Proof. intros P. cbn [k_l]. rewrite pdiv_some by lra. cbn [bind]. unfold en_kl. repeat split; f_equal; field; lra. Qed.
(** At small slopes the stress factor of a curved ridge beam is too small. *)
Lemma k_l_wrong_lemma alfa r hap : 0 < r -> 0 < hap -> tan alfa < 35/520 -> exists v, k_l SKaarevaHarja alfa r hap = Some v /\ v < en_kl (tan alfa) (hap / (r + 1/2 * hap)).
Proof.
  intros R0 P T. destruct (k_l_lemma alfa r hap ltac:(lra)) as (_ & _ & _ & ->). eexists. split; [reflexivity|].
  assert (Q : 0 < hap / (r + 1/2 * hap)) by (apply Rdiv_lt_0_compat; lra). assert ((52/10 * tan alfa - 35/100) * (hap / (r + 1/2 * hap)) < 0) by nra. lra.
Qed.
Lemma k_dis_lemma k v : k_dis k = Some v -> v = match k with SKaareva | SKaarevaHarja => 17/10 | _ => 14/10 end /\ k <> SPrismatic.
Proof. destruct k; cbn; intros E; try discriminate; injection E as <-; split; auto; discriminate. Qed.
Lemma V_tot_lemma B L h0 hap : 0 < L -> V_tot B L h0 hap = B * L * ((h0 + hap) / 2).
Proof. intros P. unfold V_tot. rewrite tan_atan. field. lra. Qed.
Lemma k_vol_lemma m V Vtot : 0 < V -> 0 < Vtot ->
  k_vol m None V Vtot = Rpower (10000000 / Rmin V (2/3 * Vtot)) (2/10) /\
  (Rmin V (2/3 * Vtot) = 10000000 -> k_vol m None V Vtot = 1) /\
  (forall V' Vtot', V <= V' -> Vtot <= Vtot' -> k_vol m None V' Vtot' <= k_vol m None V Vtot) /\ (forall f, k_vol m (Some f) V Vtot = f).
Proof.
  intros P Q.
  assert (E : forall V Vtot, k_vol m None V Vtot = Rpower (10000000 / Rmin V (2/3 * Vtot)) (2/10)).
  { intros v w. unfold k_vol. destruct (Rltb (2/3 * w) v) eqn:T; [apply Rltb_true in T; rewrite Rmin_right by lra|apply Rltb_false in T; rewrite Rmin_left by lra]; reflexivity. }
  split; [apply E|]. split; [|split; [|reflexivity]].
  - intros H. rewrite E, H. replace (10000000 / 10000000) with 1 by field. unfold Rpower. rewrite ln_1, Rmult_0_r, exp_0. reflexivity.
  - intros V' W' H1 H2. rewrite !E. assert (M : 0 < Rmin V (2/3 * Vtot)) by (apply Rmin_glb_lt; lra).
    assert (M2 : Rmin V (2/3 * Vtot) <= Rmin V' (2/3 * W')) by (apply Rmin_glb; [apply Rle_trans with (1 := Rmin_l _ _)|apply Rle_trans with (1 := Rmin_r _ _)]; lra).
    apply Rle_Rpower_l; [lra|]. split; [apply Rdiv_lt_0_compat; lra|]. unfold Rdiv. apply Rmult_le_compat_l; [lra|]. apply Rinv_le_contravar; auto.
Qed.
(** Solid timber has no volume effect in EN 1995 (6.51): k_vol = 1. *)
Lemma k_vol_solid_lemma V Vtot : 10000000 < V -> 15000000 < Vtot -> k_vol solid None V Vtot < 1.
Proof.
  intros P Q. destruct (k_vol_lemma solid V Vtot ltac:(lra) ltac:(lra)) as [-> _]. assert (M : 10000000 < Rmin V (2/3 * Vtot)) by (apply Rmin_glb_lt; lra).
  set (v := Rmin V (2/3 * Vtot)) in *. clearbody v. unfold Rpower. rewrite <- exp_0. apply exp_increasing.
  assert (ln (10000000 / v) < 0). { rewrite <- ln_1. apply ln_increasing; [apply Rdiv_lt_0_compat; lra|]. apply Rmult_lt_reg_r with v; [lra|]. unfold Rdiv. rewrite Rmult_assoc, Rinv_l by lra. lra. } lra.
Qed.
Lemma kma_body_pos a b : 0 < / sqrt (1 + a ^ 2 + b ^ 2) <= 1.
Proof.
  assert (1 <= 1 + a ^ 2 + b ^ 2) by (pose proof (pow2_ge_0 a); pose proof (pow2_ge_0 b); lra).
  assert (1 <= sqrt (1 + a ^ 2 + b ^ 2)) by (rewrite <- sqrt_1 at 1; apply sqrt_le_1_alt; auto).
  split; [apply Rinv_0_lt_compat; lra|]. apply Rle_trans with (/ 1); [apply Rinv_le_contravar; lra|rewrite Rinv_1; lra].
Qed.
Lemma k_m_alpha_lemma flipped s tn fm fv fc90 : 0 < fm -> 0 < fv -> 0 < fc90 ->
  0 < k_m_alpha flipped s tn fm fv fc90 <= 1 /\
  (s <> 0 -> k_m_alpha flipped s tn fm fv fc90 = if Rlt_dec 0 (if flipped then - s else s) then en_kma_tension tn fm fv fc90 else en_kma_compression tn fm fv fc90) /\
  k_m_alpha flipped 0 tn fm fv fc90 = en_kma_tension tn fm fv fc90.
Proof.
  intros P1 P2 P3. unfold k_m_alpha, en_kma_tension, en_kma_compression.
  replace (tn * (4/3) * fm / fv) with (fm / (75/100 * fv) * tn) by (field; lra). replace (tn * (2/3) * fm / fv) with (fm / (15/10 * fv) * tn) by (field; lra). replace (tn ^ 2 * fm / fc90) with (fm / fc90 * tn ^ 2) by (field; lra).
  split; [|split].
  - destruct flipped; cbn [negb]; [destruct (Rleb s 0)|destruct (Rleb 0 s)]; apply kma_body_pos.
  - intros N. destruct flipped; cbn [negb]; [destruct (Rleb s 0) eqn:E, (Rlt_dec 0 (- s))|destruct (Rleb 0 s) eqn:E, (Rlt_dec 0 s)]; auto; (apply Rleb_true in E || apply Rleb_false in E); lra.
  - destruct flipped; cbn [negb]; (destruct (Rleb 0 0) eqn:E; [auto|apply Rleb_false in E; lra]).
Qed.
(** Along a tapered edge in tension the strength perpendicular to the grain in compression is used. *)
Lemma k_m_alpha_tension_lemma s tn fm fv ft90 fc90 : 0 < s -> 0 < fm -> 0 < fv -> 0 < ft90 -> ft90 < fc90 -> tn <> 0 ->
  en_kma_tension tn fm fv ft90 < k_m_alpha false s tn fm fv fc90.
Proof.
  intros S0 P1 P2 P3 P4 N. destruct (k_m_alpha_lemma false s tn fm fv fc90 P1 P2 ltac:(lra)) as (_ & E & _). rewrite E by lra. destruct (Rlt_dec 0 s); [|lra].
  unfold en_kma_tension. set (a := fm / (75/100 * fv) * tn). assert (T2 : 0 < tn ^ 2) by (destruct (Rdichotomy _ _ N); nra).
  assert (Q : 0 < fm / fc90 * tn ^ 2) by (apply Rmult_lt_0_compat; [apply Rdiv_lt_0_compat|]; lra).
  assert (Q2 : fm / fc90 * tn ^ 2 < fm / ft90 * tn ^ 2). { apply Rmult_lt_compat_r; [auto|]. unfold Rdiv. apply Rmult_lt_compat_l; [auto|]. apply Rinv_lt_contravar; [apply Rmult_lt_0_compat; lra|auto]. }
  set (b := fm / fc90 * tn ^ 2) in *. set (c := fm / ft90 * tn ^ 2) in *. clearbody a b c. pose proof (pow2_ge_0 a).
  assert (0 < sqrt (1 + a ^ 2 + b ^ 2)) by (apply sqrt_lt_R0; nra).
  apply Rinv_lt_contravar; [apply Rmult_lt_0_compat; [auto|apply sqrt_lt_R0; nra]|]. apply sqrt_lt_1_alt. split; nra.
Qed.
(* ---------------------------------------------------------------- apex moment *)
Lemma below_fold xap ls : forall m, m <= xap -> let r := fold_left (fun m l => if andb (Rltb (xap - l) (xap - m)) (Rleb 0 (xap - l)) then l else m) ls m in
  r <= xap /\ m <= r /\ (r = m \/ In r ls) /\ forall l, In l ls -> l <= xap -> l <= r.
Proof.
  induction ls as [|l ls IH]; intros m M; cbn [fold_left]; [repeat split; try lra; auto; intros l []|].
  destruct (Rltb (xap - l) (xap - m)) eqn:E; [apply Rltb_true in E|apply Rltb_false in E]; cbn [andb].
  - destruct (Rleb 0 (xap - l)) eqn:F; [apply Rleb_true in F|apply Rleb_false in F].
    + destruct (IH l ltac:(lra)) as (H1 & H2 & H3 & H4). cbn zeta. split; [auto|]. split; [lra|]. split; [destruct H3 as [->|]; right; [left|right]; auto|]. intros x [<-|X] L; auto.
    + destruct (IH m M) as (H1 & H2 & H3 & H4). cbn zeta. split; [auto|]. split; [lra|]. split; [destruct H3; [left|right; right]; auto|]. intros x [<-|X] L; [lra|auto].
  - destruct (IH m M) as (H1 & H2 & H3 & H4). cbn zeta. split; [auto|]. split; [lra|]. split; [destruct H3; [left|right; right]; auto|]. intros x [<-|X] L; [lra|auto].
Qed.
Lemma above_fold xap ls : forall m, xap <= m -> let r := fold_left (fun m l => if andb (Rltb (l - xap) (m - xap)) (Rleb 0 (l - xap)) then l else m) ls m in
  xap <= r /\ r <= m /\ (r = m \/ In r ls) /\ forall l, In l ls -> xap <= l -> r <= l.
Proof.
  induction ls as [|l ls IH]; intros m M; cbn [fold_left]; [repeat split; try lra; auto; intros l []|].
  destruct (Rltb (l - xap) (m - xap)) eqn:E; [apply Rltb_true in E|apply Rltb_false in E]; cbn [andb].
  - destruct (Rleb 0 (l - xap)) eqn:F; [apply Rleb_true in F|apply Rleb_false in F].
    + destruct (IH l ltac:(lra)) as (H1 & H2 & H3 & H4). cbn zeta. split; [auto|]. split; [lra|]. split; [destruct H3 as [->|]; right; [left|right]; auto|]. intros x [<-|X] L; auto.
    + destruct (IH m M) as (H1 & H2 & H3 & H4). cbn zeta. split; [auto|]. split; [lra|]. split; [destruct H3; [left|right; right]; auto|]. intros x [<-|X] L; [lra|auto].
  - destruct (IH m M) as (H1 & H2 & H3 & H4). cbn zeta. split; [auto|]. split; [lra|]. split; [destruct H3; [left|right; right]; auto|]. intros x [<-|X] L; [lra|auto].
Qed.
Lemma moment_at_lemma secs f : NoDup (map f_loc secs) -> In f secs -> moment_at secs (f_loc f) = Some (f_My f).
Proof.
  intros ND I. unfold moment_at. induction secs as [|g secs IH]; [destruct I|]. inversion ND as [|? ? N1 N2]; subst. cbn [find].
  destruct (Reqb (f_loc g) (f_loc f)) eqn:E.
  - apply Reqb_true in E. destruct I as [->|I]; [reflexivity|]. exfalso. apply N1. rewrite E. apply in_map. auto.
  - apply Reqb_false in E. destruct I as [->|I]; [congruence|]. apply IH; auto.
Qed.
Lemma moment_at_none secs x : ~ In x (map f_loc secs) -> moment_at secs x = None.
Proof.
  intros N. unfold moment_at. destruct (find _ secs) as [f|] eqn:E; [|reflexivity]. apply find_some in E as [I Q]. apply Reqb_true in Q. exfalso. apply N. rewrite <- Q. apply in_map. auto.
Qed.
Lemma M_apd_lemma secs xap : NoDup (map f_loc secs) ->
  (forall f, In f secs -> f_loc f = xap -> M_apd secs xap = Some (f_My f)) /\
  (~ In xap (map f_loc secs) -> forall f0 fl, hd_error secs = Some f0 -> hd_error (rev secs) = Some fl -> f_loc f0 <= xap -> xap <= f_loc fl ->
     exists a b, In a secs /\ In b secs /\ M_apd secs xap = Some ((f_My a + f_My b) / 2) /\ f_loc a < xap < f_loc b /\
     forall g, In g secs -> f_loc g <= f_loc a \/ f_loc b <= f_loc g).
Proof.
  intros ND. split.
  - intros f I E. unfold M_apd. rewrite <- E, moment_at_lemma by auto. reflexivity.
  - intros NI f0 fl H0 Hl L0 Ll. unfold M_apd. rewrite moment_at_none by auto. unfold nearest_below, nearest_above. rewrite <- map_rev.
    destruct secs as [|g0 secs0]; [discriminate|]. cbn [hd_error] in H0. injection H0 as ->. set (secs := f0 :: secs0) in *.
    destruct (rev secs) as [|g1 secs1] eqn:RV; [discriminate|]. cbn [hd_error] in Hl. injection Hl as ->.
    change (map f_loc secs) with (f_loc f0 :: map f_loc secs0). cbn [map].
    destruct (below_fold xap (map f_loc secs0) (f_loc f0) L0) as (B1 & B2 & B3 & B4). destruct (above_fold xap (map f_loc secs1) (f_loc fl) Ll) as (A1 & A2 & A3 & A4). cbn [bind].
    set (va := fold_left _ (map f_loc secs0) (f_loc f0)) in *. set (vb := fold_left _ (map f_loc secs1) (f_loc fl)) in *. clearbody va vb.
    assert (RIN : forall g, In g secs <-> In g (fl :: secs1)) by (intros g; rewrite <- RV; apply in_rev).
    assert (XA : exists a, In a secs /\ f_loc a = va). { destruct B3 as [->|B3]; [exists f0; split; [left|]; auto|]. apply in_map_iff in B3 as (a & E & I). exists a. split; [right|]; auto. }
    assert (XB : exists b, In b secs /\ f_loc b = vb). { destruct A3 as [->|A3]; [exists fl; split; [apply RIN; left|]; auto|]. apply in_map_iff in A3 as (b & E & I). exists b. split; [apply RIN; right|]; auto. }
    destruct XA as (a & IA & EA). destruct XB as (b & IB & EB). exists a, b. split; [auto|]. split; [auto|]. rewrite <- EA, <- EB, !moment_at_lemma by auto. cbn [bind].
    split; [reflexivity|]. assert (NA : va <> xap) by (intros Q; apply NI; rewrite <- Q, <- EA; apply in_map; auto). assert (NB : vb <> xap) by (intros Q; apply NI; rewrite <- Q, <- EB; apply in_map; auto).
    split; [lra|]. intros g G. destruct (Rle_dec (f_loc g) xap) as [C|C].
    + left. destruct G as [<-|G]; [lra|]. rewrite EA. apply B4; [apply in_map; auto|auto].
    + right. apply RIN in G. destruct G as [<-|G]; [lra|]. rewrite EB. apply A4; [apply in_map; auto|lra].
Qed.
(* ---------------------------------------------------------------- bracing *)
Lemma bracing_lemma mat L m ks Nds n r : 0 < L -> (0 < m)%nat -> bracing mat L m ks Nds n = Some r ->
  exists Nd, In Nd Nds /\ (forall x, In x Nds -> x <= Nd) /\
  fst (fst r) = en_C 1 Nd (L / INR m) /\ snd (fst r) = (match mat with solid => Nd / 50 | _ => Nd / 80 end) /\
  snd r = Rmin 1 (sqrt (15 / L)) * (n * Nd / (50 * L)) /\ forall ks', bracing mat L m ks' Nds n = Some r.
Proof.
  intros PL PM E. unfold bracing in E. destruct (list_max Nds) as [Nd|] eqn:Q; [|discriminate]. cbn [bind] in E. injection E as <-. pose proof Q as Q'. apply list_max_spec in Q as [I M].
  exists Nd. split; [auto|]. split; [auto|]. cbn [fst snd]. split; [unfold en_C; rewrite Rmult_1_l; reflexivity|]. split; [destruct mat; reflexivity|]. split; [reflexivity|]. intros ks'. unfold bracing. rewrite Q'. reflexivity.
Qed.
(** Spring stiffness without the modification factor, line load with the span in millimetres. *)
Lemma bracing_wrong_lemma mat L m ks Nds n r : 15 < L -> (0 < m)%nat -> 1 < ks -> 0 < n -> (exists x, In x Nds /\ 0 < x) -> bracing mat L m ks Nds n = Some r ->
  exists Nd, list_max Nds = Some Nd /\ fst (fst r) < en_C ks Nd (L / INR m) /\ snd r < en_qd n Nd L.
Proof.
  intros PL PM K PN (x & X & PX) E. unfold bracing in E. destruct (list_max Nds) as [Nd|] eqn:Q; [|discriminate]. cbn [bind] in E. injection E as <-. apply list_max_spec in Q as [I M]. specialize (M x X).
  exists Nd. split; [auto|]. cbn [fst snd]. assert (PI0 : 0 < INR m) by (apply lt_0_INR; lia). assert (A : 0 < L / INR m) by (apply Rdiv_lt_0_compat; lra). split.
  - unfold en_C, Rdiv. apply Rmult_lt_compat_r; [apply Rinv_0_lt_compat; auto|]. nra.
  - unfold en_qd. apply Rmult_lt_compat_r. { apply Rdiv_lt_0_compat; [apply Rmult_lt_0_compat; lra|lra]. }
    assert (S1 : sqrt (15 / L) < 1). { rewrite <- sqrt_1. apply sqrt_lt_1_alt. split; [left; apply Rdiv_lt_0_compat; lra|]. apply Rmult_lt_reg_r with L; [lra|]. unfold Rdiv. rewrite Rmult_assoc, Rinv_l by lra. lra. }
    rewrite (Rmin_right 1 (sqrt (15 / L))) by lra. apply Rmin_glb_lt; [auto|]. apply sqrt_lt_1_alt. split; [left; apply Rdiv_lt_0_compat; lra|]. unfold Rdiv. apply Rmult_lt_compat_r; [apply Rinv_0_lt_compat; lra|lra].
Qed.
(* ---------------------------------------------------------------- bearing *)
Lemma isclose10_any a b : isclose10 a b = true.
Proof.
  unfold isclose10. apply Rleb_true. apply Rle_trans with (2 := Rmax_l _ _). pose proof (Rabs_triang a (- b)) as T. rewrite Rabs_Ropp in T. replace (a + - b) with (a - b) in T by ring.
  pose proof (Rmax_l (Rabs a) (Rabs b)). pose proof (Rmax_r (Rabs a) (Rabs b)). pose proof (Rabs_pos a). lra.
Qed.
Lemma last_match_any x y pts : forall i acc, pts <> [] -> last_match x y pts i acc = Some (i + length pts - 1)%nat.
Proof.
  induction pts as [|p pts IH]; intros i acc N; [congruence|]. cbn [last_match]. rewrite !isclose10_any. cbn [andb]. destruct pts as [|q pts]; [cbn; f_equal; lia|]. rewrite IH by discriminate. f_equal. cbn [length]. lia.
Qed.
(** Whatever the node, the axial force of the last section of the other member is used. *)
Lemma bearing_lemma x y pts ned at_end H B Bown : pts <> [] -> length ned = length pts -> 0 < H -> 0 < B -> 0 < Bown ->
  exists N, nth_error ned (length ned - 1) = Some N /\
  bearing x y pts ned at_end H B Bown = Some (if Rle_dec 0 N then 0 else N / ((H + (if at_end then 0 else Rmin 30 H) + Rmin 30 H) * Rmin B Bown)) /\
  forall x' y', bearing x' y' pts ned at_end H B Bown = bearing x y pts ned at_end H B Bown.
Proof.
  intros NE LEN PH PB PO. destruct (nth_error ned (length ned - 1)) as [N|] eqn:E; [|apply nth_error_None in E; destruct pts; [congruence|cbn in LEN; lia]].
  exists N. split; [auto|]. split; [|intros x' y'; unfold bearing; rewrite !last_match_any by auto; reflexivity]. unfold bearing. rewrite last_match_any by auto. cbn [bind]. replace (0 + length pts - 1)%nat with (length ned - 1)%nat by lia. rewrite E. cbn [bind]. f_equal.
  assert (LE : lc90ef at_end H = H + (if at_end then 0 else Rmin 30 H) + Rmin 30 H). { unfold lc90ef. destruct at_end; [|reflexivity]. rewrite (Rmin_left 0 H), (Rmin_right 30 0) by lra. reflexivity. }
  rewrite LE. destruct (Rleb 0 N) eqn:Q; [apply Rleb_true in Q|apply Rleb_false in Q]; destruct (Rle_dec 0 N); try lra; reflexivity.
Qed.
(** A column standing on the node at its first section: the force there is ignored. *)
Lemma bearing_wrong_lemma : exists pts ned, nth_error pts 0 = Some (0, 0) /\ nth_error ned 0 = Some (-100) /\ bearing 0 0 pts ned false 100 100 100 = Some 0.
Proof.
  exists [(0, 0); (0, 3000)], [-100; 5]. split; [auto|]. split; [auto|]. unfold bearing. rewrite last_match_any by discriminate. cbn. destruct (Rleb 0 5) eqn:E; [auto|apply Rleb_false in E; lra].
Qed.
Lemma k_c90_lemma m H l1 l : 1 <= k_c90 m H l1 l <= 25/10 /\ (l1 < 2 * H -> k_c90 m H l1 l = 1) /\
  (2 * H <= l1 -> k_c90 m H l1 l = match m with solid => 25/10 | glt => if Rle_dec l 400 then 175/100 else 1 | lvl => 1 end).
Proof.
  unfold k_c90. split; [|split].
  - destruct (Rleb (H * 2) l1), m; try destruct (Rleb l 400); lra.
  - intros Q. destruct (Rleb (H * 2) l1) eqn:E; [apply Rleb_true in E; lra|reflexivity].
  - intros Q. destruct (Rleb (H * 2) l1) eqn:E; [|apply Rleb_false in E; lra]. destruct m; auto. destruct (Rleb l 400) eqn:F, (Rle_dec l 400); auto; (apply Rleb_true in F || apply Rleb_false in F); lra.
Qed.
(** A glulam beam 140 x 600 for the examples. *)
Definition xtim : tmem := mkTM (fun _ => 600) 140 20 15 18 2 glt 1 false.
Lemma xtim_ok : tmem_ok xtim.
Proof. unfold tmem_ok, xtim; cbn. repeat split; intros; lra. Qed.
