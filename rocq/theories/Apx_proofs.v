Require Import Reals List Bool Lra Lia Psatz PeanoNat ZArith. Import ListNotations.
From Verif Require Import Base EC3_model Bool_tac Sections_proofs Sections3_proofs Plate_proofs Timber_proofs Timber2_proofs Timber4_proofs Timber5_proofs Timber6_proofs.
From Verif Require Import Loads_model Timber_model Timber_spec Apx_model Apx_spec.
Local Open Scope R_scope.

Lemma apx_sigma m f : sigma_my m f = bending_stress m f.
Proof. unfold sigma_my, bending_stress, Wy_at. unfold Rdiv. rewrite !Rinv_mult, Rinv_inv. ring. Qed.
(** the stresses in place of the moments *)
Definition with_stress (m : tmem) (f : tf) : tf := mkTF (f_N f) (sigma_my m f) (f_Mz f) (f_Vy f) (f_Vz f) (f_T f) (f_loc f).
Lemma apx_locs m secs : map f_loc (map (with_stress m) secs) = map f_loc secs.
Proof. rewrite map_map. apply map_ext. reflexivity. Qed.
Lemma apx_stress_at m secs l : stress_at m secs l = moment_at (map (with_stress m) secs) l.
Proof.
  unfold stress_at, moment_at. induction secs as [|f secs IH]; [reflexivity|]. cbn [map find]. cbn [with_stress f_loc].
  destruct (Reqb (f_loc f) l); [reflexivity|exact IH].
Qed.
Lemma apx_stress_eq m secs x : apex_stress m secs x = M_apd (map (with_stress m) secs) x.
Proof.
  unfold apex_stress, M_apd. rewrite apx_stress_at, apx_locs. destruct (moment_at _ x); [reflexivity|].
  destruct (nearest_below x _) as [a|]; [|reflexivity]. destruct (nearest_above x _) as [b|]; [|reflexivity]. cbn [bind]. rewrite !apx_stress_at. reflexivity.
Qed.
Lemma apx_hd {A B} (g : A -> B) l : hd_error (map g l) = option_map g (hd_error l).
Proof. destruct l; reflexivity. Qed.
Lemma apx_stress_lemma m secs x : NoDup (map f_loc secs) ->
  (forall f, In f secs -> f_loc f = x -> apex_stress m secs x = Some (bending_stress m f)) /\
  (~ In x (map f_loc secs) -> reaches secs x -> exists f g, neighbours secs x f g /\ apex_stress m secs x = Some ((bending_stress m f + bending_stress m g) / 2)).
Proof.
  intros ND. rewrite apx_stress_eq. destruct (M_apd_lemma (map (with_stress m) secs) x) as [P Q]; [rewrite apx_locs; exact ND|]. split.
  - intros f If Ef. rewrite <- apx_sigma. apply (P (with_stress m f)); [apply in_map, If|exact Ef].
  - intros NI (f0 & fl & H0 & Hl & L1 & L2).
    destruct (Q ltac:(rewrite apx_locs; exact NI) (with_stress m f0) (with_stress m fl)) as (a & b & Ia & Ib & E & Lab & Sep).
    + rewrite apx_hd, H0. reflexivity.
    + rewrite <- map_rev, apx_hd, Hl. reflexivity.
    + exact L1.
    + exact L2.
    + apply in_map_iff in Ia as (f & <- & If). apply in_map_iff in Ib as (g & <- & Ig). exists f, g. split.
      * split; [exact If|]. split; [exact Ig|]. split; [exact Lab|]. intros h Ih. apply (Sep (with_stress m h)), in_map, Ih.
      * rewrite <- !apx_sigma. exact E.
Qed.
Lemma apx_tapered_lemma m a secs kl kr s : k_l (ap_kind a) (ap_alfa a) (ap_r a) (ap_h a) = Some kl -> k_r (ap_kind a) (ap_r a) (ap_t a) = Some kr ->
  apex_stress m secs (ap_x a) = Some s -> kr * t_fm m <> 0 -> check_tapered m a secs = Some (kl * s / (kr * t_fm m)).
Proof. intros K1 K2 E D. unfold check_tapered. rewrite K1, K2, E. cbn [bind]. apply pdiv_ok, D. Qed.
Lemma apx_tapered_at_lemma m a secs kl kr f : NoDup (map f_loc secs) -> In f secs -> f_loc f = ap_x a ->
  k_l (ap_kind a) (ap_alfa a) (ap_r a) (ap_h a) = Some kl -> k_r (ap_kind a) (ap_r a) (ap_t a) = Some kr -> 0 < kr -> 0 < t_fm m ->
  exists u, check_tapered m a secs = Some u /\ (u <= 1 <-> kl * bending_stress m f <= kr * t_fm m).
Proof.
  intros ND If Ef K1 K2 P1 P2. destruct (apx_stress_lemma m secs (ap_x a) ND) as [Q _].
  pose proof (Rmult_lt_0_compat _ _ P1 P2) as P. exists (kl * bending_stress m f / (kr * t_fm m)). split.
  - apply apx_tapered_lemma; [exact K1|exact K2|apply Q; assumption|lra].
  - rewrite (div_le_iff _ _ 1) by exact P. rewrite Rmult_1_l. tauto.
Qed.
Lemma apx_tapered_between_lemma m a secs kl kr : NoDup (map f_loc secs) -> ~ In (ap_x a) (map f_loc secs) -> reaches secs (ap_x a) ->
  k_l (ap_kind a) (ap_alfa a) (ap_r a) (ap_h a) = Some kl -> k_r (ap_kind a) (ap_r a) (ap_t a) = Some kr -> 0 < kr -> 0 < t_fm m ->
  exists f g, neighbours secs (ap_x a) f g /\ check_tapered m a secs = Some (kl * ((bending_stress m f + bending_stress m g) / 2) / (kr * t_fm m)).
Proof.
  intros ND NI Re K1 K2 P1 P2. destruct (apx_stress_lemma m secs (ap_x a) ND) as [_ Q]. destruct (Q NI Re) as (f & g & N & E).
  exists f, g. split; [exact N|]. apply apx_tapered_lemma; try assumption. pose proof (Rmult_lt_0_compat _ _ P1 P2). lra.
Qed.
(** a beam with a ridge: the factor is that of EN 1995-1-1 (6.43), at least 1 *)
Lemma apx_hogging_lemma m a secs f : NoDup (map f_loc secs) -> In f secs -> f_loc f = ap_x a -> ap_kind a = SHarja -> 0 <= tan (ap_alfa a) ->
  0 < t_fm m -> 0 < t_B m -> 0 < t_H m (f_loc f) -> f_My f <= 0 -> exists u, check_tapered m a secs = Some u /\ u <= 0.
Proof.
  intros ND If Ef K T P PB PH My. set (t := tan (ap_alfa a)) in *.
  exists ((1 + 14/10 * t + 54/10 * t ^ 2) * bending_stress m f / (1 * t_fm m)). split.
  - apply apx_tapered_lemma; [rewrite K; reflexivity|rewrite K; reflexivity|apply apx_stress_lemma; assumption|lra].
  - assert (S : bending_stress m f <= 0).
    { unfold bending_stress. apply (div_le_iff _ _ 0); [apply Rmult_lt_0_compat; [exact PB|apply pow_lt, PH]|lra]. }
    apply (div_le_iff _ _ 0); [lra|]. rewrite Rmult_0_l.
    assert (0 <= 1 + 14/10 * t + 54/10 * t ^ 2) by (pose proof (pow2_ge_0 t); lra). nra.
Qed.
Lemma apx_load_lemma ls : last_uniform ls (load_655 true ls) /\ load_655 false ls = 0.
Proof.
  split.
  - unfold load_655. set (fn := fun p l => if andb (andb (tl_y l) (Reqb (tl_0 l) (tl_1 l))) true then tl_0 l else p).
    induction ls as [|l ls IH] using rev_ind; [right; split; [reflexivity|intros l' []]|].
    rewrite fold_left_app. cbn [fold_left]. unfold fn at 1. destruct (tl_y l) eqn:Y; [destruct (Reqb (tl_0 l) (tl_1 l)) eqn:Q|]; cbn [andb].
    + left. exists ls, l, []. apply Reqb_true in Q. split; [reflexivity|]. split; [exact Y|]. split; [reflexivity|]. split; [auto|intros l' []].
    + apply Reqb_false in Q. destruct IH as [(l1 & k & l2 & E & A & B & C & D)|[E D]].
      * left. exists l1, k, (l2 ++ [l]). split; [rewrite E at 1; rewrite <- app_assoc; reflexivity|]. split; [exact A|]. split; [exact B|]. split; [exact C|].
        intros l' I. apply in_app_iff in I as [I|[<-|[]]]; [apply D, I|right; exact Q].
      * right. split; [exact E|]. intros l' I. apply in_app_iff in I as [I|[<-|[]]]; [apply D, I|right; exact Q].
    + destruct IH as [(l1 & k & l2 & E & A & B & C & D)|[E D]].
      * left. exists l1, k, (l2 ++ [l]). split; [rewrite E at 1; rewrite <- app_assoc; reflexivity|]. split; [exact A|]. split; [exact B|]. split; [exact C|].
        intros l' I. apply in_app_iff in I as [I|[<-|[]]]; [apply D, I|left; exact Y].
      * right. split; [exact E|]. intros l' I. apply in_app_iff in I as [I|[<-|[]]]; [apply D, I|left; exact Y].
  - unfold load_655. induction ls as [|l ls IH]; [reflexivity|]. cbn [fold_left]. rewrite andb_false_r. exact IH.
Qed.
Lemma apx_t90_lemma m a secs kp M c ls : k_p (ap_kind a) (ap_alfa a) (ap_r a) (ap_h a) = Some kp -> M_apd secs (ap_x a) = Some M ->
  0 < t_B m -> 0 < t_H m (ap_x a) ->
  sigma_t90d m a secs None = Some (kp * (6 * M / (t_B m * t_H m (ap_x a) ^ 2))) /\
  exists p, sigma_t90d m a secs (Some (c, ls)) = Some (kp * (6 * M / (t_B m * t_H m (ap_x a) ^ 2)) - 6/10 * (p / t_B m)) /\
    (if c then last_uniform ls p else p = 0).
Proof.
  intros K Em PB PH. assert (W : 0 < Wy_at m (ap_x a)).
  { unfold Wy_at. pose proof (Rmult_lt_0_compat _ _ PB (pow_lt _ 2 PH)). lra. }
  assert (E : kp * M / Wy_at m (ap_x a) = kp * (6 * M / (t_B m * t_H m (ap_x a) ^ 2))).
  { unfold Wy_at, Rdiv. rewrite !Rinv_mult, Rinv_inv. ring. }
  unfold sigma_t90d. rewrite K, Em. cbn [bind]. rewrite pdiv_ok by lra. cbn [bind]. rewrite E. split; [reflexivity|].
  exists (load_655 c ls). rewrite pdiv_ok by lra. split; [reflexivity|]. destruct (apx_load_lemma ls) as [A B]. destruct c; assumption.
Qed.
Lemma apx_perp_lemma m a secs kv ft90 kp M kd : k_p (ap_kind a) (ap_alfa a) (ap_r a) (ap_h a) = Some kp -> M_apd secs (ap_x a) = Some M ->
  k_dis (ap_kind a) = Some kd -> 0 < t_B m -> 0 < t_H m (ap_x a) -> 0 < kv -> 0 < ft90 ->
  exists u, check_perp m a secs kv ft90 = Some u /\ (u <= 1 <-> kp * (6 * M / (t_B m * t_H m (ap_x a) ^ 2)) <= kd * kv * ft90).
Proof.
  intros K Em D PB PH PV PF. destruct (apx_t90_lemma m a secs kp M true [] K Em PB PH) as [E _].
  assert (PD : 0 < kd) by (destruct (ap_kind a); inversion D; lra).
  pose proof (Rmult_lt_0_compat _ _ (Rmult_lt_0_compat _ _ PD PV) PF) as P.
  unfold check_perp. rewrite E, D. cbn [bind]. rewrite pdiv_ok by lra. eexists. split; [reflexivity|].
  rewrite (div_le_iff _ _ 1) by exact P. rewrite Rmult_1_l. tauto.
Qed.
(** the sections used for shear *)
Lemma apx_start loc s : ascending loc -> loc <> [] -> exists k, sec_start loc s = Some (Z.of_nat k) /\ (k < length loc)%nat /\
  (s <= nth 0 loc 0 -> k = 0%nat) /\
  (nth 0 loc 0 < s -> nth k loc 0 <= s /\ ((S k < length loc)%nat /\ s < nth (S k) loc 0 \/ k = 0%nat /\ forall j, (j < length loc)%nat -> nth j loc 0 <= s)).
Proof.
  intros A N. assert (L : (0 < length loc)%nat) by (destruct loc; [congruence|cbn; lia]).
  unfold sec_start. rewrite nth_err by exact L. cbn [bind]. destruct (Rltb (nth 0 loc 0) s) eqn:E; [apply Rltb_true in E|apply Rltb_false in E].
  - destruct (shift_start_spec loc 0 s (length loc) A L ltac:(lra) 0%nat) as (k & EQ & K1 & K2 & K3); [intros j J JL; replace j with 0%nat by lia; lra|lia|].
    change (Z.of_nat 0) with 0%Z in EQ. rewrite EQ. exists k. split; [reflexivity|]. split; [lia|]. split; [lra|]. intros _. split; [exact K2|].
    destruct K3 as [K3|[K3 K4]]; [left; exact K3|right; split; [exact K3|intros j J; apply K4; lia]].
  - exists 0%nat. split; [reflexivity|]. split; [exact L|]. split; [auto|lra].
Qed.
Lemma apx_end loc e : ascending loc -> loc <> [] -> sec_end loc e = Some (Z.of_nat (length loc - 1)).
Proof.
  intros A N. assert (L : (0 < length loc)%nat) by (destruct loc; [congruence|cbn; lia]).
  unfold sec_end. rewrite nth_err by exact L. cbn [bind]. replace (Z.of_nat (length loc) - 1)%Z with (Z.of_nat (length loc - 1)) by lia.
  destruct (Rltb (1 - e) (nth 0 loc 0)) eqn:E; [apply Rltb_true in E|reflexivity].
  assert (All : forall j, (j < length loc)%nat -> 1 - e <= nth j loc 0) by (intros j J; pose proof (asc_nth loc 0 j A ltac:(lia) J); lra).
  destruct (shift_end_spec loc (length loc - 1) (1 - e) (length loc) A ltac:(lia) (All (length loc - 1)%nat ltac:(lia)) 0%nat) as (k & EQ & K1 & K2 & K3); [intros j J JL; apply All; lia|lia|lia|].
  change (Z.of_nat 0) with 0%Z in EQ. rewrite EQ. destruct K3 as [[K3 K4]|[-> _]]; [|reflexivity]. specialize (All (k - 1)%nat ltac:(lia)). lra.
Qed.
Lemma apx_tau m f : snd (tau_d m f) = shear_stress m (k_cr m) f.
Proof. unfold tau_d, shear_stress. cbn [snd]. unfold Rdiv. rewrite !Rinv_mult. ring. Qed.
Lemma apx_combined_lemma m a secs L hs he kv ft90 q kd st : ascending (map f_loc secs) -> secs <> [] -> 0 < L -> 0 < t_fv m -> 0 < kv -> 0 < ft90 ->
  k_dis (ap_kind a) = Some kd -> sigma_t90d m a secs q = Some st ->
  exists f1 f2 i, nth_error secs i = Some f1 /\ nth_error secs (length secs - 1) = Some f2 /\
  check_combined m a secs L hs he kv ft90 q = Some (Rmax (shear_stress m (k_cr m) f1) (shear_stress m (k_cr m) f2) / t_fv m + st / (kd * kv * ft90)) /\
  let s := ((match hs with Some h => h / 2 | None => 0 end) + t_H m 0) / L in
  (s <= nth 0 (map f_loc secs) 0 -> i = 0%nat) /\
  (nth 0 (map f_loc secs) 0 < s -> f_loc f1 <= s /\ ((exists f, nth_error secs (S i) = Some f /\ s < f_loc f) \/ i = 0%nat /\ forall f, In f secs -> f_loc f <= s)).
Proof.
  intros A N PL PF PV P9 D E. assert (NL : map f_loc secs <> []) by (destruct secs; [congruence|discriminate]).
  set (s := ((match hs with Some h => h / 2 | None => 0 end) + t_H m 0) / L).
  destruct (apx_start (map f_loc secs) s A NL) as (i & Ei & Li & Z1 & Z2). rewrite map_length in *.
  assert (Ls : (0 < length secs)%nat) by lia.
  destruct (nth_error secs i) as [f1|] eqn:F1; [|apply nth_error_None in F1; lia].
  destruct (nth_error secs (length secs - 1)) as [f2|] eqn:F2; [|apply nth_error_None in F2; lia].
  exists f1, f2, i. split; [exact F1|]. split; [reflexivity|]. split.
  - unfold check_combined, zone. rewrite !pdiv_ok by lra. fold s. cbn [bind]. rewrite Ei. cbn [bind]. rewrite pyget_nat, F1. cbn [bind].
    rewrite apx_end by assumption. rewrite map_length. cbn [bind]. rewrite pyget_nat, F2. cbn [bind]. rewrite pdiv_ok by lra. rewrite E, D. cbn [bind].
    assert (PD : 0 < kd) by (destruct (ap_kind a); inversion D; lra). pose proof (Rmult_lt_0_compat _ _ (Rmult_lt_0_compat _ _ PD PV) P9).
    rewrite pdiv_ok by lra. cbn [bind]. rewrite !apx_tau. reflexivity.
  - cbv zeta. split; [exact Z1|]. intros X. destruct (Z2 X) as [Y1 Y2].
    assert (G : forall j f, nth_error secs j = Some f -> nth j (map f_loc secs) 0 = f_loc f).
    { intros j f H. apply nth_error_nth. apply map_nth_error. exact H. }
    rewrite (G i f1 F1) in Y1. split; [exact Y1|]. destruct Y2 as [[Y2 Y3]|[Y2 Y3]].
    + left. destruct (nth_error secs (S i)) as [f|] eqn:F; [|apply nth_error_None in F; lia]. exists f. split; [reflexivity|]. rewrite (G _ f F) in Y3. exact Y3.
    + right. split; [exact Y2|]. intros f If. apply In_nth_error in If as (j & J). rewrite <- (G j f J). apply Y3.
      apply nth_error_Some. rewrite J. discriminate.
Qed.
(** the member met at the end has no effect *)
Lemma apx_no_end_lemma m a secs L hs he he' kv ft90 q : ascending (map f_loc secs) -> secs <> [] -> L <> 0 ->
  check_combined m a secs L hs he kv ft90 q = check_combined m a secs L hs he' kv ft90 q.
Proof.
  intros A N PL. assert (NL : map f_loc secs <> []) by (destruct secs; [congruence|discriminate]).
  unfold check_combined, zone. rewrite !pdiv_ok by exact PL. cbn [bind]. rewrite !apx_end by assumption. reflexivity.
Qed.
(** refutations *)
Definition apm (fv : R) : tmem := mkTM (fun _ => 600) 100 20 15 20 fv lvl 2 true.
Definition apk : apex := mkAP SHarja 0 0 0 600 (1/2).
Definition apsecs (v0 v1 : R) : list tf := [mkTF 0 0 0 0 v0 0 0; mkTF 0 0 0 0 0 0 (1/2); mkTF 0 0 0 0 v1 0 1].
Lemma apsecs_asc v0 v1 : ascending (map f_loc (apsecs v0 v1)).
Proof. cbn. lra. Qed.
Lemma apm_t90 fv v0 v1 : sigma_t90d (apm fv) apk (apsecs v0 v1) None = Some 0.
Proof.
  destruct (apx_t90_lemma (apm fv) apk (apsecs v0 v1) (2/10 * tan 0) 0 true []) as [E _]; [reflexivity| |cbn; lra|cbn; lra|].
  - destruct (M_apd_lemma (apsecs v0 v1) (1/2)) as [P _]; [cbn; repeat constructor; cbn; intros Q; lra|].
    apply (P (mkTF 0 0 0 0 0 0 (1/2))); [cbn; auto|reflexivity].
  - rewrite E. f_equal. rewrite tan_0. ring.
Qed.
Lemma apx_value fv v0 v1 : 0 < fv -> check_combined (apm fv) apk (apsecs v0 v1) 6000 None None 1 1 None = Some (Rmax (v0 / 40000) (v1 / 40000) / fv).
Proof.
  intros P. destruct (apx_combined_lemma (apm fv) apk (apsecs v0 v1) 6000 None None 1 1 None (14/10) 0 (apsecs_asc v0 v1) ltac:(discriminate) ltac:(lra) P ltac:(lra) ltac:(lra) eq_refl (apm_t90 fv v0 v1))
    as (f1 & f2 & i & F1 & F2 & E & Z1 & Z2). rewrite E. f_equal.
  cbn in F2. injection F2 as <-.
  assert (I0 : i = 0%nat).
  { destruct i as [|[|[|i]]]; [reflexivity| | |cbn in F1; destruct i; discriminate]; exfalso.
    - cbn in F1. injection F1 as <-. cbn in Z2. lra.
    - cbn in F1. injection F1 as <-. cbn in Z2. lra. }
  subst i. cbn in F1. injection F1 as <-. unfold shear_stress, k_cr. cbn.
  replace (3 * v0 / (2 * (1 * 100) * 600)) with (v0 / 40000) by field. replace (3 * v1 / (2 * (1 * 100) * 600)) with (v1 / 40000) by field.
  field. lra.
Qed.
Lemma apx_sign_lemma : exists m a secs L f, ascending (map f_loc secs) /\ nth_error secs (length secs - 1) = Some f /\ 0 < t_fv m /\
  10 * t_fv m < Rabs (shear_stress m (k_cr m) f) /\ exists u, check_combined m a secs L None None 1 1 None = Some u /\ u < 1.
Proof.
  exists (apm 2), apk, (apsecs 40000 (-1200000)), 6000, (mkTF 0 0 0 0 (-1200000) 0 1).
  split; [apply apsecs_asc|]. split; [reflexivity|]. split; [cbn; lra|]. split.
  - unfold shear_stress, k_cr. cbn. rewrite Rabs_left by lra. lra.
  - eexists. split; [apply apx_value; lra|]. rewrite Rmax_left by lra. lra.
Qed.
Lemma apx_mirror_lemma : exists m a secs L u u', ascending (map f_loc secs) /\ ap_x a = 1/2 /\ (forall x, t_H m x = t_H m (1 - x)) /\
  check_combined m a secs L None None 1 1 None = Some u /\ check_combined m a (mirrored secs) L None None 1 1 None = Some u' /\ u < 1 < u'.
Proof.
  exists (apm 2), apk, (apsecs 40000 (-1200000)), 6000, (Rmax (40000 / 40000) (-1200000 / 40000) / 2), (Rmax (- -1200000 / 40000) (- 40000 / 40000) / 2).
  split; [apply apsecs_asc|]. split; [reflexivity|]. split; [reflexivity|]. split; [apply apx_value; lra|]. split.
  - replace (mirrored (apsecs 40000 (-1200000))) with (apsecs (- -1200000) (-40000)); [apply apx_value; lra|].
    unfold mirrored, apsecs. cbn. replace (1 - 1) with 0 by ring. replace (1 - 1/2) with (1/2) by field. replace (1 - 0) with 1 by ring. replace (- 0) with 0 by ring. reflexivity.
  - rewrite !Rmax_left by lra. lra.
Qed.
Lemma apx_two_loads_lemma : exists l1 l2, tl_y l1 = true /\ tl_y l2 = true /\ tl_0 l1 = tl_1 l1 /\ tl_0 l2 = tl_1 l2 /\
  load_655 true [l1; l2] <> tl_0 l1 + tl_0 l2 /\ load_655 true [l1; l2] <> load_655 true [l2; l1].
Proof.
  exists (mkTL true (-5) (-5)), (mkTL true (-7) (-7)). do 4 (split; [reflexivity|]).
  unfold load_655. cbn [fold_left tl_y tl_0 tl_1 andb].
  rewrite (proj2 (Reqb_true (-5) (-5)) eq_refl), (proj2 (Reqb_true (-7) (-7)) eq_refl). cbn [andb]. lra.
Qed.
(** a downward load (negative) raises the tension *)
Lemma apx_downward_lemma m a secs kp M p : k_p (ap_kind a) (ap_alfa a) (ap_r a) (ap_h a) = Some kp -> M_apd secs (ap_x a) = Some M ->
  0 < t_B m -> 0 < t_H m (ap_x a) -> p < 0 ->
  exists s s', sigma_t90d m a secs None = Some s /\ sigma_t90d m a secs (Some (true, [mkTL true p p])) = Some s' /\ s < s'.
Proof.
  intros K Em PB PH Pp. destruct (apx_t90_lemma m a secs kp M true [mkTL true p p] K Em PB PH) as (E & p' & E' & Lu).
  eexists. eexists. split; [exact E|]. split; [exact E'|].
  assert (p' = p).
  { destruct Lu as [(l1 & l & l2 & Q & _ & X & _)|[_ X]].
    - destruct l1 as [|? [|? ?]]; inversion Q; subst; reflexivity.
    - destruct (X _ (or_introl eq_refl)) as [Y|Y]; [discriminate|]. cbn in Y. congruence. }
  subst p'. assert (p / t_B m < 0) by (unfold Rdiv; pose proof (Rinv_0_lt_compat _ PB); nra). lra.
Qed.
