From Verif Require Import EC3_spec EC3_proofs Sections_proofs Sections3_proofs Plate_proofs Loads2_proofs.
From Verif Require Import Member_model Member_spec.

(* ------------------------------------------------------------- dictionary of sections *)
Lemma dget_dset k v l j : dget j (dset k v l) = if Req_EM_T k j then Some v else dget j l.
Proof.
  induction l as [|[k' v'] l IH]; cbn.
  - unfold Reqb. destruct (Req_EM_T k j); auto.
  - unfold Reqb in *. destruct (Req_EM_T k' k) as [->|N]; cbn; unfold Reqb.
    + destruct (Req_EM_T k j); auto.
    + rewrite IH. destruct (Req_EM_T k' j), (Req_EM_T k j); auto. congruence.
Qed.
Lemma dset_keys k v l : map fst (dset k v l) = if in_dec Req_EM_T k (map fst l) then map fst l else map fst l ++ [k].
Proof.
  induction l as [|[k' v'] l IH]; auto. cbn [dset map fst]. unfold Reqb. destruct (Req_EM_T k' k) as [->|N]; cbn [map fst].
  - destruct (in_dec Req_EM_T k (k :: map fst l)) as [I1|I1]; auto. exfalso; apply I1; left; auto.
  - rewrite IH. destruct (in_dec Req_EM_T k (map fst l)) as [I1|I1]; destruct (in_dec Req_EM_T k (k' :: map fst l)) as [I2|I2]; auto.
    + exfalso; apply I2; right; auto.
    + exfalso. destruct I2; [auto|]. auto.
Qed.
Lemma NoDup_snoc {A} (l : list A) x : NoDup l -> ~ In x l -> NoDup (l ++ [x]).
Proof.
  induction l as [|y l IH]; cbn; intros N NI. { constructor; auto. }
  inversion N; subst. constructor. { rewrite in_app_iff. intros [H|[->|[]]]; auto. } apply IH; auto.
Qed.
Lemma add_all_secs ops m : m_secs (add_all ops m) = fold_left (fun l e => dset (fst e) (snd e) l) ops (m_secs m).
Proof. revert m. induction ops as [|e ops IH]; intros m; cbn; auto. unfold add_all in *. cbn. rewrite IH. reflexivity. Qed.
Lemma sections_lemma : forall p L ly lz b s ops,
  let m := add_all ops (new_member p L ly lz b s) in
  (forall loc, dget loc (m_secs m) = last_at loc ops None) /\
  NoDup (map fst (m_secs m)) /\ (forall loc, In loc (map fst (m_secs m)) <-> In loc (map fst ops)) /\
  nsect m = length (nodup Req_EM_T (map fst ops)) /\ m_secs (clear_sections m) = [].
Proof.
  intros p L ly lz b s ops m. unfold nsect, m. rewrite add_all_secs. cbn [new_member m_secs].
  assert (A : forall ops l loc, dget loc (fold_left (fun l e => dset (fst e) (snd e) l) ops l) = last_at loc ops (dget loc l)).
  { clear. induction ops as [|[k v] ops IH]; intros l loc; cbn; auto. rewrite IH, dget_dset. destruct (Req_EM_T k loc); auto. }
  assert (B : forall ops l, NoDup (map fst l) -> NoDup (map fst (fold_left (fun l e => dset (fst e) (snd e) l) ops l)) /\
     forall loc, In loc (map fst (fold_left (fun l e => dset (fst e) (snd e) l) ops l)) <-> In loc (map fst l) \/ In loc (map fst ops)).
  { clear. induction ops as [|[k v] ops IH]; intros l N; cbn [fold_left fst snd map].
    - split; auto. intros; split; [auto|]. intros [H|[]]; auto.
    - assert (N' : NoDup (map fst (dset k v l))). { rewrite dset_keys. destruct in_dec; auto. apply NoDup_snoc; auto. }
      destruct (IH _ N') as [P Q]. split; auto. intros loc. rewrite Q, dset_keys. destruct (in_dec Req_EM_T k (map fst l)) as [I1|I1]; cbn.
      + split; [tauto|]. intros [H|[->|H]]; auto.
      + rewrite in_app_iff; cbn. tauto. }
  destruct (B ops [] (NoDup_nil _)) as [P Q]. split; [intros; apply A|]. split; auto.
  assert (Q' : forall loc, In loc (map fst (fold_left (fun l e => dset (fst e) (snd e) l) ops [])) <-> In loc (map fst ops)).
  { intros loc. rewrite Q. cbn. tauto. }
  split; auto. split; auto.
  rewrite <- (map_length fst). apply Nat.le_antisymm.
  - apply NoDup_incl_length; auto. intros x X. apply nodup_In. apply Q'. auto.
  - apply NoDup_incl_length; [apply NoDup_nodup|]. intros x X. apply nodup_In in X. apply Q'. auto.
Qed.
Lemma setter_lemma : forall m v,
  (forall x, In x (ned (set_ned m v)) -> x = v) /\ nsect (set_ned m v) = nsect m /\ myed (set_ned m v) = myed m /\ mzed (set_ned m v) = mzed m /\
  (forall x, In x (myed (set_myed m v)) -> x = v) /\ nsect (set_myed m v) = nsect m /\ ned (set_myed m v) = ned m /\ mzed (set_myed m v) = mzed m /\
  (m_secs m <> [] -> MEdY (set_myed m v) = Some (Rabs v) /\ NEd (set_ned m v) = Some (Rabs v) /\ NcEd (set_ned m v) = Some (Rmin v 0)).
Proof.
  intros m v. unfold set_ned, set_myed, nsect, ned, myed, mzed, MEdY, NEd, NcEd, ned, myed; cbn [with_secs m_secs]. rewrite !map_map; cbn. rewrite !map_length.
  repeat split; auto; try (intros x X; apply in_map_iff in X; destruct X as [e [<- _]]; auto);
    rewrite ?map_map; cbn; try apply list_max_spec; try apply list_min_spec; split;
    try (intros x X; apply in_map_iff in X; destruct X as [e [<- _]]; lra); destruct (m_secs m); try congruence; cbn; auto.
Qed.
Lemma envelope_lemma : forall m,
  (forall n, NEd m = Some n -> (exists e, In e (m_secs m) /\ n = Rabs (s_N (snd e))) /\ forall e, In e (m_secs m) -> Rabs (s_N (snd e)) <= n) /\
  (forall n, MEdY m = Some n -> (exists e, In e (m_secs m) /\ n = Rabs (s_My (snd e))) /\ forall e, In e (m_secs m) -> Rabs (s_My (snd e)) <= n) /\
  (forall n, NcEd m = Some n -> n <= 0 /\ (forall e, In e (m_secs m) -> n <= s_N (snd e)) /\ (n < 0 -> exists e, In e (m_secs m) /\ n = s_N (snd e)) /\
      (n = 0 <-> forall e, In e (m_secs m) -> 0 <= s_N (snd e))) /\
  (forall a b, NcEd m = Some a -> NEd m = Some b -> - a <= b) /\
  (NEd m = None <-> m_secs m = []) /\ (MEdY m = None <-> m_secs m = []) /\ (NcEd m = None <-> m_secs m = []).
Proof.
  intros m. unfold NEd, MEdY, NcEd, ned, myed. rewrite !map_map.
  assert (MX : forall (f : R * sec -> R) n, list_max (map f (m_secs m)) = Some n -> (exists e, In e (m_secs m) /\ n = f e) /\ forall e, In e (m_secs m) -> f e <= n).
  { intros f n E. apply list_max_spec in E. destruct E as [I1 I2]. apply in_map_iff in I1. destruct I1 as [e [E1 E2]]. split; [exists e; auto|].
    intros e' E'. apply I2. apply in_map; auto. }
  assert (NC : forall n, list_min (map (fun e => Rmin (s_N (snd e)) 0) (m_secs m)) = Some n -> n <= 0 /\ (forall e, In e (m_secs m) -> n <= s_N (snd e)) /\ (n < 0 -> exists e, In e (m_secs m) /\ n = s_N (snd e)) /\
      (n = 0 <-> forall e, In e (m_secs m) -> 0 <= s_N (snd e))).
  { intros n E. apply list_min_spec in E. destruct E as [I1 I2]. apply in_map_iff in I1. destruct I1 as [e [E1 E2]]. 
    assert (I3 : forall e, In e (m_secs m) -> n <= Rmin (s_N (snd e)) 0) by (intros e' E'; apply I2; apply (in_map (fun e => Rmin (s_N (snd e)) 0)); auto).
    assert (n <= 0) by (rewrite <- E1; apply Rmin_r).
    assert (I4 : forall e, In e (m_secs m) -> n <= s_N (snd e)) by (intros e' E'; apply Rle_trans with (Rmin (s_N (snd e')) 0); [auto|apply Rmin_l]).
    split; auto. split; auto. split. { intros N. exists e. split; auto. unfold Rmin in E1; destruct Rle_dec; lra. }
    split. { intros -> e' E'. auto. } intros N. specialize (N e E2). rewrite Rmin_right in E1 by lra. lra. }
  assert (NN : forall (f : R * sec -> R), (list_max (map f (m_secs m)) = None <-> m_secs m = []) /\ (list_min (map f (m_secs m)) = None <-> m_secs m = [])).
  { intros f. rewrite list_max_none, list_min_none. destruct (m_secs m); cbn; split; split; congruence. }
  split; [apply MX|]. split; [apply MX|]. split; [apply NC|]. split.
  - intros a b A B. apply NC in A. destruct A as [A1 [_ [A2 _]]]. apply MX in B. destruct B as [B1 B2]. destruct A1 as [A1| ->].
    + destruct (A2 A1) as [e [E1 E2]]. specialize (B2 e E1). rewrite E2. rewrite Rabs_left in B2 by lra. auto.
    + destruct B1 as [e [_ ->]]. pose proof (Rabs_pos (s_N (snd e))). lra.
  - split; [apply NN|]. split; apply NN.
Qed.

(* ------------------------------------------------------------- flexural buckling *)
Lemma strength_chi m sl al : strength m sl al = bind (buckling_reduction_factor sl al) (fun c => Some (p_A (m_p m) * p_fy (m_p m) * c)).
Proof. unfold strength, buckling_reduction_factor. cbv zeta. destruct (psqrt _); cbn; auto. destruct (pdiv _ _); auto. Qed.
Lemma NRd_pos m : mem_ok m -> 0 < p_A (m_p m) * p_fy (m_p m).
Proof. intros [P _]. unfold prof_ok in P. apply Rmult_lt_0_compat; tauto. Qed.
Lemma slend_sq m n : mem_ok m -> 0 < n -> 0 < slend_of m n /\ slend_of m n ^ 2 = p_A (m_p m) * p_fy (m_p m) / n.
Proof.
  intros M N. pose proof (NRd_pos m M). assert (0 < p_A (m_p m) * p_fy (m_p m) / n) by (apply Rdiv_lt_0_compat; auto).
  unfold slend_of. split; [apply sqrt_lt_R0; auto|]. rewrite pow2_sqrt; lra.
Qed.
Lemma mstrength_lemma : forall m n al, mem_ok m -> 0 < n -> 0 <= al <= 1 ->
  exists b, strength m (slend_of m n) al = Some b /\ 0 < b <= p_A (m_p m) * p_fy (m_p m) /\ b <= n /\
    (25 * (p_A (m_p m) * p_fy (m_p m)) <= n -> b = p_A (m_p m) * p_fy (m_p m)) /\
    (forall n' al', n <= n' -> 0 <= al' <= al -> exists b', strength m (slend_of m n') al' = Some b' /\ b <= b').
Proof.
  intros m n al M N A. pose proof (NRd_pos m M) as NP. destruct (slend_sq m n M N) as [SP SQ].
  destruct (chi_proper_lemma al (slend_of m n) A ltac:(lra)) as [chi [E [B [L02 [EU _]]]]]. rewrite strength_chi, E. cbn [bind].
  eexists; split; [reflexivity|]. set (Q := p_A (m_p m) * p_fy (m_p m)) in *. split; [nra|].
  split. { rewrite SQ in EU. assert (E2 : n * (Q / n) = Q) by (field; lra). assert (chi * (Q / n) * n <= 1 * n) by (apply Rmult_le_compat_r; lra). nra. }
  split. { intros L. rewrite L02; [ring|]. apply Rsqr_incr_0_var; [|lra]. rewrite !Rsqr_pow2, SQ. apply div_le_iff; [auto|]. nra. }
  intros n' al' L A'. assert (N' : 0 < n') by lra. destruct (slend_sq m n' M N') as [SP' SQ'].
  destruct (chi_proper_lemma al' (slend_of m n') ltac:(lra) ltac:(lra)) as [chi' [E' [B' _]]]. rewrite strength_chi, E'. cbn [bind].
  eexists; split; [reflexivity|]. fold Q. apply Rmult_le_compat_l; [lra|]. apply (chi_mono_lemma al' al (slend_of m n') (slend_of m n) chi' chi); auto; [lra|].
  split; [lra|]. unfold slend_of. fold Q. apply sqrt_le_1; [apply div_nn; lra|apply div_nn; lra|apply div_anti; lra].
Qed.
Lemma PI2_pos : 0 < PI ^ 2. Proof. apply pow_lt. pose proof PI3. lra. Qed.
Lemma ncrit_pos m : mem_ok m -> 0 < ncrit_y m /\ 0 < ncrit_z m /\ 0 < ncrit_T m.
Proof.
  intros [P [L [LY LZ]]]. destruct P as (A & IY & IZ & E & G & IT & IW & H & FY & _ & _ & _ & _ & I0 & _). pose proof PI2_pos as P2.
  unfold ncrit_y, ncrit_z, ncrit_T. cbv zeta. repeat split.
  - apply Rdiv_lt_0_compat; [apply Rmult_lt_0_compat; [apply Rmult_lt_0_compat; auto|auto]|apply pow_lt; nra].
  - apply Rdiv_lt_0_compat; [apply Rmult_lt_0_compat; [apply Rmult_lt_0_compat; auto|auto]|apply pow_lt; nra].
  - pose proof (pow_lt _ 2 I0). apply Rmult_lt_0_compat; [apply Rdiv_lt_0_compat; lra|].
    assert (0 <= PI ^ 2 * p_E (m_p m) * p_Iw (m_p m) / m_L m ^ 2) by (apply div_nn; [apply Rmult_le_pos; [apply Rmult_le_pos; lra|auto]|apply pow_lt; auto]). nra.
Qed.
Lemma ncrit_lemma : forall m, mem_ok m ->
  ncrit_y m * (m_L m * m_ly m) ^ 2 = PI ^ 2 * p_E (m_p m) * p_Iy (m_p m) /\ ncrit_z m * (m_L m * m_lz m) ^ 2 = PI ^ 2 * p_E (m_p m) * p_Iz (m_p m) /\
  (forall k, 0 < k -> ncrit_y (with_L m (k * m_L m)) = ncrit_y m / k ^ 2 /\ ncrit_z (with_L m (k * m_L m)) = ncrit_z m / k ^ 2 /\
     slend_y (with_L m (k * m_L m)) = k * slend_y m /\ slend_z (with_L m (k * m_L m)) = k * slend_z m) /\
  p_G (m_p m) * p_It (m_p m) / p_i0 (m_p m) ^ 2 <= ncrit_T m /\
  (forall L', m_L m <= L' -> ncrit_T (with_L m L') <= ncrit_T m).
Proof.
  intros m M. destruct (ncrit_pos m M) as [NY [NZ NT]]. pose proof (NRd_pos m M) as NP. pose proof M as [P [L [LY LZ]]].
  destruct P as (A & IY & IZ & E & G & IT & IW & H & FY & _ & _ & _ & _ & I0 & _). pose proof PI2_pos as P2.
  split. { unfold ncrit_y. field. repeat split; lra. } split. { unfold ncrit_z. field. lra. }
  assert (SC : forall n k, 0 < n -> 0 < k -> slend_of m (n / k ^ 2) = k * slend_of m n).
  { intros n k N K. unfold slend_of. rewrite <- (sqrt_square k) at 2 by lra. rewrite <- sqrt_mult_alt by nra. f_equal. field. repeat split; lra. }
  split.
  { intros k K. assert (QY : ncrit_y (with_L m (k * m_L m)) = ncrit_y m / k ^ 2) by (unfold ncrit_y, with_L; cbn [m_p m_L m_ly]; field; lra).
    assert (QZ : ncrit_z (with_L m (k * m_L m)) = ncrit_z m / k ^ 2) by (unfold ncrit_z, with_L; cbn [m_p m_L m_lz]; field; lra).
    split; auto. split; auto. unfold slend_y, slend_z. change (slend_of (with_L m (k * m_L m))) with (slend_of m). rewrite QY, QZ. split; apply SC; auto. }
  pose proof (pow_lt _ 2 I0) as I2. assert (W0 : 0 <= PI ^ 2 * p_E (m_p m) * p_Iw (m_p m)) by (apply Rmult_le_pos; [apply Rmult_le_pos; lra|auto]).
  split.
  - unfold ncrit_T. cbv zeta. assert (0 <= PI ^ 2 * p_E (m_p m) * p_Iw (m_p m) / m_L m ^ 2) by (apply div_nn; [auto|apply pow_lt; auto]).
    replace (p_G (m_p m) * p_It (m_p m) / p_i0 (m_p m) ^ 2) with (1 / p_i0 (m_p m) ^ 2 * (p_G (m_p m) * p_It (m_p m))) by (field; lra).
    apply Rmult_le_compat_l; [|lra]. apply div_nn; lra.
  - intros L' LL. unfold ncrit_T, with_L; cbn [m_p m_L]. cbv zeta. apply Rmult_le_compat_l; [apply div_nn; lra|].
    apply Rplus_le_compat_l. apply div_anti; auto. split; [apply pow_lt; auto|]. apply pow_incr. lra.
Qed.
Lemma member_strength_lemma : forall m, mem_ok m -> exists a b t, member_strength m = Some (a, b) /\ torsional_strength m = Some t /\
  0 < a <= p_A (m_p m) * p_fy (m_p m) /\ 0 < b <= p_A (m_p m) * p_fy (m_p m) /\ 0 < t <= p_A (m_p m) * p_fy (m_p m) /\
  a <= ncrit_y m /\ b <= ncrit_z m /\ t <= ncrit_T m /\
  (slend_y m <= 2/10 -> a = p_A (m_p m) * p_fy (m_p m)) /\ (slend_z m <= 2/10 -> b = p_A (m_p m) * p_fy (m_p m)) /\
  (forall L', m_L m <= L' -> exists a' b' t', member_strength (with_L m L') = Some (a', b') /\ torsional_strength (with_L m L') = Some t' /\
     a' <= a /\ b' <= b /\ t' <= t).
Proof.
  intros m M. destruct (ncrit_pos m M) as [NY [NZ NT]]. pose proof M as [P [L [LY LZ]]].
  assert (AY : 0 <= p_ay (m_p m) <= 1) by (unfold prof_ok in P; tauto). assert (AZ : 0 <= p_az (m_p m) <= 1) by (unfold prof_ok in P; tauto).
  destruct (mstrength_lemma m _ _ M NY AY) as (a & EA & BA & LA & SA & MA). destruct (mstrength_lemma m _ _ M NZ AZ) as (b & EB & BB & LB & SB & MB).
  destruct (mstrength_lemma m _ _ M NT AZ) as (t & ET & BT & LT & ST & MT).
  exists a, b, t. unfold member_strength, torsional_strength, slend_y, slend_z, slend_T. rewrite EA, EB, ET. cbn [bind].
  assert (S0 : forall n x, 0 < n -> (25 * (p_A (m_p m) * p_fy (m_p m)) <= n -> x = p_A (m_p m) * p_fy (m_p m)) -> slend_of m n <= 2/10 -> x = p_A (m_p m) * p_fy (m_p m)).
  { intros n x N F S1. apply F. destruct (slend_sq m n M N) as [SP SQ]. assert (slend_of m n ^ 2 <= 4/100) by (simpl; nra). rewrite SQ in H.
    apply (proj1 (div_le_iff _ _ _ N)) in H. lra. }
  repeat (split; [solve [auto|apply S0; auto]|]). intros L' LL.
  assert (M' : mem_ok (with_L m L')) by (repeat split; try apply P; cbn; lra).
  destruct (ncrit_pos _ M') as [NY' [NZ' NT']]. destruct (ncrit_lemma m M) as (_ & _ & SC & _ & TT).
  assert (K : 0 < L' / m_L m) by (apply Rdiv_lt_0_compat; lra). destruct (SC _ K) as (QY & QZ & _ & _). replace (L' / m_L m * m_L m) with L' in QY, QZ by (field; lra).
  assert (K2 : 1 <= (L' / m_L m) ^ 2). { assert (1 <= L' / m_L m) by (apply le_div_iff; lra). simpl; nra. }
  assert (LE : forall x, 0 < x -> x / (L' / m_L m) ^ 2 <= x) by (intros x X; apply div_le_iff; nra).
  assert (G : forall n n' al x, 0 < n' -> n' <= n -> 0 <= al <= 1 -> strength m (slend_of m n) al = Some x -> exists x', strength (with_L m L') (slend_of (with_L m L') n') al = Some x' /\ x' <= x).
  { intros n n' al x N' NN AL EX. change (strength (with_L m L') (slend_of (with_L m L') n') al) with (strength m (slend_of m n') al).
    destruct (mstrength_lemma m n' al M N' AL) as (x' & E' & _ & _ & _ & MM). destruct (MM n al NN ltac:(lra)) as (x2 & E2 & LE2).
    exists x'. split; auto. rewrite EX in E2. apply some_inj in E2. lra. }
  destruct (G _ (ncrit_y (with_L m L')) _ _ NY' ltac:(rewrite QY; auto) AY EA) as (a' & EA' & LA').
  destruct (G _ (ncrit_z (with_L m L')) _ _ NZ' ltac:(rewrite QZ; auto) AZ EB) as (b' & EB' & LB').
  destruct (G _ (ncrit_T (with_L m L')) _ _ NT' ltac:(auto) AZ ET) as (t' & ET' & LT').
  exists a', b', t'. change (m_p (with_L m L')) with (m_p m). rewrite EA', EB', ET'. cbn [bind]. auto.
Qed.
