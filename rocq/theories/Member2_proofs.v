From Verif Require Import EC3_spec EC3_proofs Sections_proofs Sections3_proofs Plate_proofs Loads2_proofs Member_proofs.
From Verif Require Import Member_model Member_spec.

(* ------------------------------------------------------------- lateral torsional buckling *)
Section Chi.
  Variables (al l0 be : R).
  Hypotheses (A : 0 <= al) (L0 : 0 <= l0) (B0 : 0 < be) (B1 : be <= 1).
  Definition ph (l : R) := 1/2 * (1 + al * (l - l0) + be * l ^ 2).
  Lemma ph_ge l : l0 <= l -> 1 + be * l ^ 2 <= 2 * ph l.
  Proof. intros. unfold ph. assert (0 <= al * (l - l0)) by (apply Rmult_le_pos; lra). lra. Qed.
  Lemma ph_disc l : l0 <= l -> 0 <= ph l ^ 2 - be * l ^ 2.
  Proof. intros H. pose proof (ph_ge l H) as P. assert (0 <= be * l ^ 2) by (apply Rmult_le_pos; [lra|apply pow2_ge_0]). set (q := be * l ^ 2) in *. assert ((1 + q) * (1 + q) <= (2 * ph l) * (2 * ph l)) by (apply Rmult_le_compat; lra). pose proof (pow2_ge_0 (1 - q)). simpl in *. lra. Qed.
  Definition rt (l : R) := ph l + sqrt (ph l ^ 2 - be * l ^ 2).
  Lemma rt_eq l : l0 <= l -> rt l ^ 2 - 2 * ph l * rt l + be * l ^ 2 = 0.
  Proof. intros H. unfold rt. pose proof (sqrt_sqrt _ (ph_disc l H)) as S. set (s := sqrt _) in *. replace ((ph l + s) ^ 2 - 2 * ph l * (ph l + s) + be * l ^ 2) with (s * s - (ph l ^ 2 - be * l ^ 2)) by ring. lra. Qed.
  Lemma rt_larger l x : l0 <= l -> x ^ 2 - 2 * ph l * x + be * l ^ 2 <= 0 -> x <= rt l.
  Proof.
    intros H Q. unfold rt. pose proof (sqrt_pos (ph l ^ 2 - be * l ^ 2)). destruct (Rle_dec x (ph l)); [lra|].
    assert (x - ph l <= sqrt (ph l ^ 2 - be * l ^ 2)); [|lra]. rewrite <- (sqrt_square (x - ph l)) by lra. apply sqrt_le_1; [nra|apply ph_disc; auto|]. simpl in *. nra.
  Qed.
  Lemma rt_ge1 l : l0 <= l -> 1 <= rt l.
  Proof. intros H. apply rt_larger; auto. pose proof (ph_ge l H). lra. Qed.
  Lemma rt_mono l l' : l0 <= l <= l' -> rt l <= rt l'.
  Proof.
    intros [H HH]. apply rt_larger; [lra|]. pose proof (rt_eq l H) as E. pose proof (rt_ge1 l H) as G. set (x := rt l) in *.
    replace (x ^ 2 - 2 * ph l' * x + be * l' ^ 2) with ((x ^ 2 - 2 * ph l * x + be * l ^ 2) - (al * (l' - l) * x + be * (l' ^ 2 - l ^ 2) * (x - 1))) by (unfold ph; clearbody x; field).
    rewrite E. assert (0 <= al * (l' - l) * x) by (repeat apply Rmult_le_pos; lra).
    assert (0 <= be * (l' ^ 2 - l ^ 2) * (x - 1)) by (repeat apply Rmult_le_pos; simpl; nra). lra.
  Qed.
  Lemma rt_sq l : l0 <= l -> be = 1 -> l ^ 2 <= rt l.
  Proof.
    intros H E. apply rt_larger; [auto|]. replace ((l ^ 2) ^ 2 - 2 * ph l * l ^ 2 + be * l ^ 2) with (- (al * (l - l0) * l ^ 2) + (1 - be) * (l ^ 2 * l ^ 2) - (1 - be) * l ^ 2) by (unfold ph; field).
    rewrite E. assert (0 <= al * (l - l0) * l ^ 2) by (apply Rmult_le_pos; [apply Rmult_le_pos; lra|apply pow2_ge_0]). lra.
  Qed.
End Chi.
(* the reduction factor of LT_strength *)
Definition lt0 (gen : bool) : R := if gen then 2/10 else 4/10.
Definition chi_LT (p : prof) (gen : bool) (l r : R) : R :=
  if orb (Rleb l (lt0 gen)) (Rleb r (lt0 gen ^ 2)) then 1
  else Rmin (1 / rt (if gen then p_aLTg p else p_aLT p) (lt0 gen) (if gen then 1 else 75/100) l) (if gen then 1 else Rmin 1 (1 / l ^ 2)).
Lemma LT_form m Mcr gen md : mem_ok m -> MEdY m = Some md ->
  LT_strength m Mcr gen = Some (chi_LT (m_p m) gen (LT_slend (p_MRd (m_p m) (m_f m)) Mcr) (md / Mcr) * p_MRd (m_p m) (m_f m)).
Proof.
  intros [P _] E. unfold LT_strength. cbv zeta. rewrite E. cbn [bind]. unfold chi_LT, lt0. set (l := LT_slend _ _).
  destruct (orb _ _) eqn:O. { reflexivity. } apply orb_false_iff in O. destruct O as [O _]. apply Rleb_false in O.
  assert (AL : 0 <= (if gen then p_aLTg (m_p m) else p_aLT (m_p m))) by (unfold prof_ok in P; destruct gen; tauto).
  set (al := if gen then p_aLTg _ else _) in *. set (l0 := if gen then 2/10 else 4/10) in *. set (be := if gen then 1 else 75/100).
  assert (BE : 0 < be <= 1) by (unfold be; destruct gen; lra). assert (L0 : 0 <= l0) by (unfold l0; destruct gen; lra).
  pose proof (ph_disc al l0 be AL (proj1 BE) l ltac:(lra)) as D. unfold ph in D. 
  unfold psqrt. destruct (Rltb _ 0) eqn:E1; [apply Rltb_true in E1; lra|]. cbn [bind].
  pose proof (rt_ge1 al l0 be AL (proj1 BE) l ltac:(lra)) as G. unfold rt, ph in G. unfold pdiv. destruct (Reqb _ 0) eqn:E2; [apply Reqb_true in E2; lra|]. reflexivity.
Qed.
Lemma chi_LT_lemma : forall p gen l r, prof_ok p -> 0 < l ->
  0 < chi_LT p gen l r <= 1 /\ (l <= lt0 gen -> chi_LT p gen l r = 1) /\ (lt0 gen ^ 2 < r -> chi_LT p gen l r * l ^ 2 <= 1) /\
  (forall l' r', 0 < l' <= l -> r' <= r -> chi_LT p gen l r <= chi_LT p gen l' r').
Proof.
  intros p gen l r P LP. assert (AL : 0 <= (if gen then p_aLTg p else p_aLT p)) by (unfold prof_ok in P; destruct gen; tauto).
  unfold chi_LT. set (al := if gen then p_aLTg _ else _) in *. set (be := if gen then 1 else 75/100).
  assert (BE : 0 < be <= 1) by (unfold be; destruct gen; lra). assert (L0 : 0 < lt0 gen < 1) by (unfold lt0; destruct gen; lra).
  assert (CM : forall x, 0 < x -> 0 < (if gen then 1 else Rmin 1 (1 / x ^ 2)) <= 1).
  { intros x X. destruct gen; [lra|]. split; [|apply Rmin_l]. apply Rmin_glb_lt; [lra|]. apply Rdiv_lt_0_compat; [lra|apply pow_lt; auto]. }
  assert (RP : forall x, lt0 gen <= x -> 0 < 1 / rt al (lt0 gen) be x <= 1).
  { intros x X. pose proof (rt_ge1 al (lt0 gen) be AL (proj1 BE) x X). split; [apply Rdiv_lt_0_compat; lra|apply div_le_iff; lra]. }
  split; [|split; [|split]].
  - destruct (orb _ _) eqn:O; [lra|]. apply orb_false_iff in O. destruct O as [O _]. apply Rleb_false in O. specialize (CM l LP). specialize (RP l ltac:(lra)).
    split; [apply Rmin_glb_lt; lra|]. eapply Rle_trans; [apply Rmin_r|lra].
  - intros H. destruct (Rleb l (lt0 gen)) eqn:E; [reflexivity|apply Rleb_false in E; lra].
  - intros H. destruct (Rleb r (lt0 gen ^ 2)) eqn:E; [apply Rleb_true in E; lra|]. destruct (Rleb l (lt0 gen)) eqn:E2; cbn [orb].
    + apply Rleb_true in E2. simpl. nra.
    + apply Rleb_false in E2. pose proof (pow_lt _ 2 LP) as L2. set (c := Rmin _ _). assert (C : c <= 1 / l ^ 2).
      { unfold c, be, lt0 in *. destruct gen.
        - eapply Rle_trans; [apply Rmin_l|]. apply div_anti; [lra|]. split; auto. apply rt_sq; try lra.
        - eapply Rle_trans; [apply Rmin_r|]. apply Rmin_r. }
      assert (c * l ^ 2 <= 1 / l ^ 2 * l ^ 2) by (apply Rmult_le_compat_r; lra). replace (1 / l ^ 2 * l ^ 2) with 1 in H0 by (field; lra). auto.
  - intros l' r' [LP' LL] RR. destruct (Rleb l' (lt0 gen)) eqn:E1; cbn [orb].
    + destruct (orb _ _) eqn:O; [lra|]. apply orb_false_iff in O. destruct O as [O _]. apply Rleb_false in O. eapply Rle_trans; [apply Rmin_r|]. apply CM; auto.
    + apply Rleb_false in E1. destruct (Rleb l (lt0 gen)) eqn:E2; [apply Rleb_true in E2; lra|]. cbn [orb].
      destruct (Rleb r (lt0 gen ^ 2)) eqn:E3.
      * apply Rleb_true in E3. destruct (Rleb r' (lt0 gen ^ 2)) eqn:E4; [lra|apply Rleb_false in E4; lra].
      * destruct (Rleb r' (lt0 gen ^ 2)) eqn:E4. { eapply Rle_trans; [apply Rmin_r|]. apply CM; auto. }
        apply Rle_trans with (Rmin (1 / rt al (lt0 gen) be l') (if gen then 1 else Rmin 1 (1 / l ^ 2))).
        -- apply Rle_min_compat_r. apply div_anti; [lra|]. pose proof (rt_ge1 al (lt0 gen) be AL (proj1 BE) l' ltac:(lra)). split; [lra|]. apply rt_mono; lra.
        -- destruct gen; [lra|]. apply Rle_min_compat_l. apply Rle_min_compat_l. apply div_anti; [lra|]. split; [apply pow_lt; auto|apply pow_incr; lra].
Qed.
Lemma LT_slend_sq MRd Mcr : 0 < MRd -> 0 < Mcr -> 0 < LT_slend MRd Mcr /\ LT_slend MRd Mcr ^ 2 = MRd / Mcr.
Proof. intros. assert (0 < MRd / Mcr) by (apply Rdiv_lt_0_compat; auto). unfold LT_slend. split; [apply sqrt_lt_R0; auto|]. rewrite pow2_sqrt; lra. Qed.
Lemma LT_lemma : forall m Mcr gen md, mem_ok m -> 0 < Mcr -> MEdY m = Some md ->
  exists b, LT_strength m Mcr gen = Some b /\ 0 < b <= p_MRd (m_p m) (m_f m) /\ (md <= b -> md <= Mcr) /\
    (LT_slend (p_MRd (m_p m) (m_f m)) Mcr <= (if gen then 2/10 else 4/10) -> b = p_MRd (m_p m) (m_f m)) /\
    (forall Mcr', Mcr <= Mcr' -> exists b', LT_strength m Mcr' gen = Some b' /\ b <= b') /\
    (forall m' md', m_p m' = m_p m -> m_f m' = m_f m -> mem_ok m' -> MEdY m' = Some md' -> md <= md' ->
       exists b', LT_strength m' Mcr gen = Some b' /\ b' <= b /\ md / b <= md' / b').
Proof.
  intros m Mcr gen md M C E. pose proof M as [P _]. assert (MP : 0 < p_MRd (m_p m) (m_f m)) by (unfold prof_ok in P; apply P).
  set (MRd := p_MRd (m_p m) (m_f m)) in *. destruct (LT_slend_sq MRd Mcr MP C) as [LP LQ].
  assert (MD : 0 <= md). { destruct (envelope_lemma m) as (_ & EV & _). apply EV in E. destruct E as [[e [_ ->]] _]. apply Rabs_pos. }
  destruct (chi_LT_lemma (m_p m) gen (LT_slend MRd Mcr) (md / Mcr) P LP) as (B & U & Q & MM).
  eexists; split; [apply LT_form; eauto|]. fold MRd. set (chi := chi_LT _ _ _ _) in *.
  split. { nra. }
  split. { intros H. destruct (Rle_dec (md / Mcr) (lt0 gen ^ 2)) as [R1|R1].
    - apply (proj1 (div_le_iff _ _ _ C)) in R1. assert (lt0 gen ^ 2 <= 1) by (unfold lt0; destruct gen; simpl; lra). nra.
    - specialize (Q ltac:(lra)). rewrite LQ in Q. apply Rle_trans with (chi * MRd); auto. 
      assert (chi * (MRd / Mcr) * Mcr <= 1 * Mcr) by (apply Rmult_le_compat_r; lra). replace (chi * (MRd / Mcr) * Mcr) with (chi * MRd) in H0 by (field; lra). lra. }
  split. { intros H. rewrite U; [ring|exact H]. }
  split.
  - intros Mcr' CC. assert (C' : 0 < Mcr') by lra. eexists; split; [apply LT_form; eauto|]. fold MRd. apply Rmult_le_compat_r; [lra|].
    destruct (LT_slend_sq MRd Mcr' MP C') as [LP' _]. apply MM.
    + split; auto. unfold LT_slend. apply sqrt_le_1; [apply div_nn; lra|apply div_nn; lra|apply div_anti; lra].
    + apply div_anti; lra.
  - intros m' md' EP EF M' E' DD. eexists; split; [apply LT_form; eauto|]. rewrite EP, EF. fold MRd.
    destruct (chi_LT_lemma (m_p m) gen (LT_slend MRd Mcr) (md' / Mcr) P LP) as (B' & _ & _ & MM').
    set (chi' := chi_LT (m_p m) gen (LT_slend MRd Mcr) (md' / Mcr)) in *. assert (chi' <= chi) by (apply MM'; [lra|apply div_le; lra]).
    split; [apply Rmult_le_compat_r; lra|]. apply Rle_trans with (md' / (chi * MRd)); [apply div_le; nra|apply div_anti; [lra|split; nra]].
Qed.

(* ------------------------------------------------------------- critical moment *)
Lemma mc_anti b x y : 0 <= b -> x <= y -> sqrt (b + y ^ 2) - y <= sqrt (b + x ^ 2) - x.
Proof.
  intros B L. pose proof (pow2_ge_0 x). pose proof (pow2_ge_0 y). assert (0 <= b + x ^ 2) by lra. pose proof (sqrt_pos (b + x ^ 2)) as P. pose proof (sqrt_sqrt (b + x ^ 2) H1) as S. set (s := sqrt (b + x ^ 2)) in *.
  assert (XS : x <= s). { destruct (Rle_dec x 0); [lra|]. apply Rsqr_incr_0_var; auto. unfold Rsqr. simpl in *. nra. }
  assert (sqrt (b + y ^ 2) <= s + (y - x)); [|lra]. rewrite <- (sqrt_square (s + (y - x))) by lra. apply sqrt_le_1; [lra|nra|].
  assert (0 <= (y - x) * (s - x)) by (apply Rmult_le_pos; lra). simpl in *. nra.
Qed.
Lemma mc_pos b x : 0 < b -> 0 < sqrt (b + x ^ 2) - x.
Proof.
  intros B. pose proof (pow2_ge_0 x). assert (0 < sqrt (b + x ^ 2)) by (apply sqrt_lt_R0; lra). destruct (Rle_dec x 0); [lra|].
  assert (x < sqrt (b + x ^ 2)); [|lra]. rewrite <- (sqrt_square x) at 1 by lra. apply sqrt_lt_1; simpl; nra.
Qed.
Lemma mc_long a b x u u' : 0 <= a -> 0 <= b -> 0 < u <= u' -> (sqrt (a + b * u' + x ^ 2) - x) / u' <= (sqrt (a + b * u + x ^ 2) - x) / u.
Proof.
  intros A B [U UU]. pose proof (pow2_ge_0 x) as X2. assert (N : 0 <= a + b * u + x ^ 2) by nra. pose proof (sqrt_pos (a + b * u + x ^ 2)) as P. pose proof (sqrt_sqrt _ N) as S. set (s := sqrt (a + b * u + x ^ 2)) in *.
  set (t := u' / u). assert (T : 1 <= t) by (unfold t; apply le_div_iff; lra). assert (TU : u' = t * u) by (unfold t; field; lra). clearbody t.
  assert (XS : 0 <= s - x). { destruct (Rle_dec x 0); [lra|]. assert (x <= s); [|lra]. apply Rsqr_incr_0_var; auto. unfold Rsqr. simpl in *. nra. }
  assert (K : sqrt (a + b * u' + x ^ 2) <= t * (s - x) + x).
  { assert (TS : 0 <= (t - 1) * (s - x)) by (apply Rmult_le_pos; lra). assert (T0 : 0 <= t * (s - x) + x) by lra. rewrite <- (sqrt_square (t * (s - x) + x)) by auto.
    assert (E : s * s - x ^ 2 = a + b * u) by lra. assert (TT : t * (a + b * u) <= t * (s - x) * (t * (s - x)) + 2 * t * (s - x) * x).
    { rewrite <- E. replace (s * s - x ^ 2) with ((s - x) * (s - x) + 2 * (s - x) * x) by ring. assert (0 <= t * (t - 1) * ((s - x) * (s - x))) by (repeat apply Rmult_le_pos; lra). lra. }
    assert (AT : 0 <= a * (t - 1)) by (apply Rmult_le_pos; lra). assert (0 <= b * u') by (apply Rmult_le_pos; lra).
    apply sqrt_le_1; [lra|apply Rmult_le_pos; auto|]. rewrite TU. replace (a + b * (t * u)) with (t * (a + b * u) - a * (t - 1)) by ring. simpl in *. lra. }
  apply Rle_trans with (t * (s - x) / u'). { apply div_le; lra. } right. rewrite TU. field. split; lra.
Qed.
Definition mbase (m : member) (kz kw : R) : R := let p := m_p m in
  (kz / kw) ^ 2 * p_Iw p / p_Iz p + (kz * m_L m) ^ 2 * cG * p_It p / (PI ^ 2 * cE * p_Iz p).
Lemma mbase_pos m kz kw : mem_ok m -> 0 < kz -> 0 < kw -> 0 < mbase m kz kw.
Proof.
  intros [P [L _]] KZ KW. destruct P as (A & IY & IZ & E & G & IT & IW & _). unfold mbase, cG, cE. cbv zeta. pose proof PI2_pos as P2.
  assert (0 <= (kz / kw) ^ 2 * p_Iw (m_p m) / p_Iz (m_p m)) by (apply div_nn; auto; apply Rmult_le_pos; [apply pow2_ge_0|auto]).
  assert (0 < (kz * m_L m) ^ 2 * 81000 * p_It (m_p m) / (PI ^ 2 * 210000 * p_Iz (m_p m))).
  { assert (0 < (kz * m_L m) ^ 2) by (apply pow_lt; nra). apply Rdiv_lt_0_compat; apply Rmult_lt_0_compat; lra. }
  lra.
Qed.
Lemma part1_pos m C1 kz : mem_ok m -> 0 < C1 -> 0 < kz -> 0 < C1 * (PI ^ 2 * cE * p_Iz (m_p m)) / (kz * m_L m) ^ 2.
Proof.
  intros [P [L _]] C K. destruct P as (A & IY & IZ & _). unfold cE. pose proof PI2_pos as P2. apply Rdiv_lt_0_compat; [|apply pow_lt; nra].
  apply Rmult_lt_0_compat; auto. apply Rmult_lt_0_compat; [lra|auto].
Qed.
Lemma mcrit_lemma : forall m C1 C2 C3 kz kw za, mem_ok m -> m_sym m = Dual -> 0 < C1 -> 0 <= C2 -> 0 < kz -> 0 < kw ->
  exists M, mcrit m C1 C2 C3 kz kw za = Some M /\ 0 < M /\
   (za = 0 -> M ^ 2 = C1 ^ 2 * (PI ^ 2 * 210000 * p_Iz (m_p m) / (kz * m_L m) ^ 2) * (81000 * p_It (m_p m) + PI ^ 2 * 210000 * p_Iw (m_p m) / (kw * m_L m) ^ 2)) /\
   M ^ 2 + 2 * (C1 * (PI ^ 2 * 210000 * p_Iz (m_p m)) / (kz * m_L m) ^ 2) * (C2 * za) * M =
     C1 ^ 2 * (PI ^ 2 * 210000 * p_Iz (m_p m) / (kz * m_L m) ^ 2) * (81000 * p_It (m_p m) + PI ^ 2 * 210000 * p_Iw (m_p m) / (kw * m_L m) ^ 2) /\
   (forall L', m_L m <= L' -> exists M', mcrit (with_L m L') C1 C2 C3 kz kw za = Some M' /\ M' <= M) /\
   (forall za', za <= za' -> exists M', mcrit m C1 C2 C3 kz kw za' = Some M' /\ M' <= M).
Proof.
  intros m C1 C2 C3 kz kw za M SY C1P C2P KZ KW. pose proof (mbase_pos m kz kw M KZ KW) as BP. pose proof (part1_pos m C1 kz M C1P KZ) as PP.
  pose proof M as [P [L _]]. destruct P as (A & IY & IZ & E & G & IT & IW & _). pose proof PI2_pos as P2.
  unfold mcrit. cbv zeta. rewrite SY. fold (mbase m kz kw). eexists; split; [reflexivity|].
  set (q := C1 * (PI ^ 2 * cE * p_Iz (m_p m)) / (kz * m_L m) ^ 2) in *. set (b := mbase m kz kw) in *. set (x := C2 * za).
  pose proof (mc_pos b x BP) as DP. split; [apply Rmult_lt_0_compat; auto|].
  assert (QB : q ^ 2 * b = C1 ^ 2 * (PI ^ 2 * 210000 * p_Iz (m_p m) / (kz * m_L m) ^ 2) * (81000 * p_It (m_p m) + PI ^ 2 * 210000 * p_Iw (m_p m) / (kw * m_L m) ^ 2)).
  { unfold q, b, mbase, cE, cG. cbv zeta. pose proof PI3. field. repeat split; lra. }
  assert (SS : sqrt (b + x ^ 2) * sqrt (b + x ^ 2) = b + x ^ 2) by (apply sqrt_sqrt; pose proof (pow2_ge_0 x); lra).
  set (s := sqrt (b + x ^ 2)) in *.
  assert (EQ : (q * (s - x)) ^ 2 + 2 * q * x * (q * (s - x)) = q ^ 2 * b).
  { replace ((q * (s - x)) ^ 2 + 2 * q * x * (q * (s - x))) with (q ^ 2 * (s * s - x ^ 2)) by ring. rewrite SS. ring. }
  split. { intros Z. rewrite <- QB, <- EQ. unfold x. rewrite Z. ring. }
  split. { rewrite <- QB, <- EQ. unfold q, cE, x. ring. }
  split.
  - intros L' LL. cbn [with_L m_p m_L m_sym]. rewrite SY. eexists; split; [reflexivity|]. fold x.
    set (a0 := (kz / kw) ^ 2 * p_Iw (m_p m) / p_Iz (m_p m)). set (b0 := kz ^ 2 * cG * p_It (m_p m) / (PI ^ 2 * cE * p_Iz (m_p m))).
    assert (A0 : 0 <= a0) by (unfold a0; apply div_nn; auto; apply Rmult_le_pos; [apply pow2_ge_0|auto]).
    assert (B0 : 0 <= b0). { unfold b0, cG, cE. pose proof (pow_lt _ 2 KZ). apply div_nn; [apply Rmult_le_pos; lra|]. apply Rmult_lt_0_compat; lra. }
    assert (FB : forall z, (kz * z) ^ 2 * cG * p_It (m_p m) / (PI ^ 2 * cE * p_Iz (m_p m)) = b0 * z ^ 2). { intros z. unfold b0, Rdiv. ring. }
    rewrite FB. unfold s, b, mbase, q. cbv zeta. fold a0. rewrite FB.
    assert (FQ : forall z y, 0 < z -> C1 * (PI ^ 2 * cE * p_Iz (m_p m)) / (kz * z) ^ 2 * y = (C1 * (PI ^ 2 * cE * p_Iz (m_p m)) / kz ^ 2) * (y / z ^ 2)) by (intros z y Z; field; lra).
    rewrite (FQ L') by lra. rewrite (FQ (m_L m)) by lra. apply Rmult_le_compat_l.
    + unfold cE. pose proof (pow_lt _ 2 KZ). apply div_nn; auto. apply Rmult_le_pos; [lra|]. apply Rmult_le_pos; lra.
    + apply mc_long; auto. split; [apply pow_lt; auto|apply pow_incr; lra].
  - intros za' ZZ. eexists; split; [reflexivity|]. apply Rmult_le_compat_l; [lra|]. unfold s. apply mc_anti; [lra|]. unfold x. apply Rmult_le_compat_l; auto.
Qed.
Lemma mcrit_mono_lemma : forall m C1 C2 C3 kz kw za za', 
  (m_sym m = Mono -> mcrit m C1 C2 C3 kz kw za = mcrit m C1 C2 C3 kz kw za') /\
  (m_sym m = Mono -> p_zs (m_p m) = 0 -> p_zj (m_p m) = 0 -> mcrit m C1 C2 C3 kz kw za =
     mcrit (mkM (m_p m) (m_L m) (m_ly m) (m_lz m) (m_LTB m) Dual (m_secs m) (m_f m) (m_cmy m)) C1 C2 C3 kz kw 0) /\
  (m_sym m = OtherSym -> mcrit m C1 C2 C3 kz kw za = None).
Proof.
  intros. unfold mcrit. cbv zeta. cbn [m_sym m_p m_L]. split; [|split].
  - intros ->. reflexivity.
  - intros -> ZS ZJ. rewrite ZS, ZJ. f_equal. f_equal. rewrite !Rmult_0_r. replace (0 - C2 * (0 - 0)) with 0 by ring. replace (C2 * (0 - 0) - 0) with 0 by ring. unfold Rminus. rewrite Ropp_0, Rplus_0_r, Rplus_0_l. reflexivity.
  - intros ->. reflexivity.
Qed.
Lemma cantilever_lemma : forall m point free, mem_ok m -> m_sym m = Dual -> 1/10 <= cant_K m <= 5/2 ->
  exists t c b, mcrit_cantilever m point free Top = Some t /\ mcrit_cantilever m point free Middle = Some c /\ mcrit_cantilever m point free Bottom = Some b /\
  0 < t <= c /\ c <= b /\
  c ^ 2 = cant_C1 (cant_K m) point free ^ 2 * (PI ^ 2 * 210000 * p_Iz (m_p m) / (2 * m_L m) ^ 2) * (81000 * p_It (m_p m) + PI ^ 2 * 210000 * p_Iw (m_p m) / (1 * m_L m) ^ 2).
Proof.
  intros m point free M SY K. set (k := cant_K m) in *.
  assert (D : 0 < sqrt (1 + k ^ 2)) by (apply sqrt_lt_R0; simpl; nra).
  assert (C1P : 0 < cant_C1 k point free).
  { unfold cant_C1. cbv zeta. set (d := sqrt _) in *.
    assert (Q : forall a b c, 0 < a + b * k + c * k ^ 2 -> 0 < a / d + b * k / d + c * k ^ 2 / d).
    { intros a b c H. replace (a / d + b * k / d + c * k ^ 2 / d) with ((a + b * k + c * k ^ 2) / d) by (field; lra). apply Rdiv_lt_0_compat; auto. }
    destruct free, point.
    - specialize (Q (2437/1000) (613/1000) (- (105/1000))). replace (2437/1000 / d + 613/1000 * k / d - 105/1000 * k ^ 2 / d) with (2437/1000 / d + 613/1000 * k / d + - (105/1000) * k ^ 2 / d) by (field; lra). apply Q. simpl; nra.
    - specialize (Q (3840/1000) (1496/1000) (- (247/1000))). replace (3840/1000 / d + 1496/1000 * k / d - 247/1000 * k ^ 2 / d) with (3840/1000 / d + 1496/1000 * k / d + - (247/1000) * k ^ 2 / d) by (field; lra). apply Q. simpl; nra.
    - specialize (Q (2462/1000) (2383/1000) 0). replace (2462/1000 / d + 2383/1000 * k / d) with (2462/1000 / d + 2383/1000 * k / d + 0 * k ^ 2 / d) by (field; lra). apply Q. simpl; nra.
    - specialize (Q (3962/1000) (5531/1000) 0). replace (3962/1000 / d + 5531/1000 * k / d) with (3962/1000 / d + 5531/1000 * k / d + 0 * k ^ 2 / d) by (field; lra). apply Q. simpl; nra. }
  assert (C2P : forall l, 0 <= cant_C2 k point free l). { intros l. destruct l; cbn [cant_C2]; try lra; destruct free, point; simpl; nra. }
  unfold mcrit_cantilever. cbv zeta. fold k. set (C1 := cant_C1 k point free) in *.
  pose proof M as [P _]. assert (H0 : 0 < p_h (m_p m)) by (unfold prof_ok in P; tauto).
  destruct (mcrit_lemma m C1 (cant_C2 k point free Top) 0 2 1 (1/2 * p_h (m_p m)) M SY C1P (C2P Top) ltac:(lra) ltac:(lra)) as (t & ET & TP & _).
  destruct (mcrit_lemma m C1 (cant_C2 k point free Middle) 0 2 1 0 M SY C1P (C2P Middle) ltac:(lra) ltac:(lra)) as (c & EC & CP & CV & _).
  destruct (mcrit_lemma m C1 (cant_C2 k point free Bottom) 0 2 1 (- (1/2) * p_h (m_p m)) M SY C1P (C2P Bottom) ltac:(lra) ltac:(lra)) as (b & EB & BP & _ & _ & _ & BZ).
  exists t, c, b. split; auto. split; auto. split; auto.
  assert (Z : forall C2, mcrit m C1 C2 0 2 1 0 = Some c). { intros C2. rewrite <- EC. unfold mcrit. rewrite SY. cbv zeta. rewrite !Rmult_0_r. reflexivity. }
  destruct (mcrit_lemma m C1 (cant_C2 k point free Top) 0 2 1 0 M SY C1P (C2P Top) ltac:(lra) ltac:(lra)) as (c2 & EC2 & _ & _ & _ & _ & CZ).
  rewrite Z in EC2. apply some_inj in EC2. subst c2. destruct (CZ (1/2 * p_h (m_p m)) ltac:(lra)) as (t2 & ET2 & TL). rewrite ET in ET2. apply some_inj in ET2. subst t2.
  destruct (BZ 0 ltac:(lra)) as (c3 & EC3 & BL). rewrite Z in EC3. apply some_inj in EC3. subst c3. split; [lra|]. split; [lra|]. apply CV. auto.
Qed.

(* ------------------------------------------------------------- equivalent moment factor *)
Lemma Cmy_lemma : forall m uni a b, dget 0 (m_secs m) = Some a -> dget 1 (m_secs m) = Some b ->
  fst (Cmy m true uni) = 9/10 /\ 4/10 <= fst (Cmy m false uni) <= 1 /\
  (dget (1/2) (m_secs m) = None -> fst (Cmy m false uni) = equivalent_moment_factor (s_My a) (s_My b) None uni) /\
  (forall c, dget (1/2) (m_secs m) = Some c -> fst (Cmy m false uni) = equivalent_moment_factor (s_My a) (s_My b) (Some (s_My c)) uni) /\
  (forall c, fst (Cmy (with_cmy m c) false uni) = fst (Cmy m false uni)).
Proof.
  intros m uni a b A B. unfold Cmy, with_cmy; cbn [m_secs]. rewrite A, B. cbn [fst].
  split; auto. split; [apply cm_range_lemma|]. split; [intros ->; auto|]. split; [intros c ->; auto|]. auto.
Qed.
Lemma Cmy_stale_lemma : forall m uni a b, dget 0 (m_secs m) = Some a -> dget 1 (m_secs m) = Some b ->
  fst (Cmy (clear_sections (snd (Cmy m false uni))) false uni) = fst (Cmy m false uni).
Proof. intros m uni a b A B. unfold Cmy. rewrite A, B. reflexivity. Qed.
