From Coq Require Import Permutation.
From Verif Require Import EC3_spec EC3_proofs Sections_proofs Sections3_proofs Plate_proofs Loads2_proofs Member_proofs Member2_proofs.
From Verif Require Import Member_model Member_spec.

Lemma dget_in l : NoDup (map fst l) -> forall e, In e l -> dget (fst e) l = Some (snd e).
Proof.
  induction l as [|[k s] l IH]; intros N e E; [inversion E|]. cbn in *. apply NoDup_cons_iff in N. destruct N as [N1 N2]. destruct E as [<-|E].
  - cbn. destruct (Reqb k k) eqn:Q; auto. apply Reqb_false in Q. congruence.
  - destruct (Reqb k (fst e)) eqn:Q; [|apply IH; auto]. apply Reqb_true in Q. subst k. exfalso. apply N1. apply in_map. auto.
Qed.
Lemma check_keys_lemma : forall es m r, mem_ok m -> (forall e, In e es -> dget (fst e) (m_secs m) = Some (snd e)) ->
  exists r' f', check_keys m (map fst es) r = Some (r', with_f m f') /\
   r <= r' /\ (forall e x, In e es -> In x (p_res (m_p m) (sec_forces (snd e))) -> x <= r') /\
   (r' = r \/ exists e x, In e es /\ In x (p_res (m_p m) (sec_forces (snd e))) /\ x = r') /\
   f' = match rev es with [] => m_f m | e :: _ => sec_forces (snd e) end.
Proof.
  induction es as [|e es IH]; intros m r M H.
  - cbn. exists r, (m_f m). split; [destruct m; reflexivity|]. split; [lra|]. split; [intros ? ? []|]. split; auto.
  - cbn [map check_keys]. unfold check_section. rewrite (H e) by (left; auto). cbn [bind fst snd].
    fold (sec_forces (snd e)). pose proof M as [P _]. destruct P as (_ & _ & _ & _ & _ & _ & _ & _ & _ & _ & _ & _ & _ & _ & _ & PR).
    destruct (PR (sec_forces (snd e))) as [NE PN]. destruct (list_max (p_res (m_p m) (sec_forces (snd e)))) as [x|] eqn:EX; [|apply list_max_none in EX; congruence].
    cbn [bind]. apply list_max_spec in EX. destruct EX as [XI XM].
    destruct (IH (with_f m (sec_forces (snd e))) (Rmax r x)) as (r' & f' & E & L1 & L2 & L3 & L4); [exact M|intros; apply H; right; auto|].
    exists r', f'. split; [exact E|]. pose proof (Rmax_l r x). pose proof (Rmax_r r x). split; [lra|]. split.
    + intros e' y [<-|I1] Y; [specialize (XM _ Y); lra|]. eapply L2; eauto.
    + split.
      * destruct L3 as [->|(e' & y & I1 & I2 & I3)]; [|right; exists e', y; split; [right|]; auto].
        unfold Rmax. destruct (Rle_dec r x); [right; exists e, x; split; [left|]; auto|left; auto].
      * rewrite L4. cbn [rev m_f with_f]. destruct (rev es); reflexivity.
Qed.
(* check_sections is the largest utilisation over all sections *)
Definition is_max_util (m : member) (r : R) : Prop :=
  0 <= r /\ (forall e x, In e (m_secs m) -> In x (p_res (m_p m) (sec_forces (snd e))) -> x <= r) /\
  (r = 0 \/ exists e x, In e (m_secs m) /\ In x (p_res (m_p m) (sec_forces (snd e))) /\ x = r).
Lemma check_sections_full : forall m, mem_ok m -> NoDup (map fst (m_secs m)) ->
  exists r f, check_sections m = Some (r, with_f m f) /\ is_max_util m r /\ (m_secs m <> [] -> exists e, In e (m_secs m) /\ f = sec_forces (snd e)) /\ (m_secs m <> [] -> forall f0, check_sections (with_f m f0) = Some (r, with_f m f)).
Proof.
  intros m M N. destruct (check_keys_lemma (m_secs m) m 0 M (dget_in _ N)) as (r & f & E & L1 & L2 & L3 & L4).
  exists r, f. split; [exact E|]. split; [split; [auto|split; [auto|]]|].
  - auto.
  - split.
    + intros NE. assert (rev (m_secs m) <> []) by (intros Q; apply NE; rewrite <- (rev_involutive (m_secs m)), Q; auto). destruct (rev (m_secs m)) as [|e l] eqn:Q; [congruence|].
      exists e. split; auto. apply in_rev. rewrite Q. left; auto.
    + intros NE f0. destruct (check_keys_lemma (m_secs m) (with_f m f0) 0 M (dget_in _ N)) as (r2 & f2 & E2 & K1 & K2 & K3 & K4).
      unfold check_sections. cbn [with_f m_secs]. cbn [with_f m_secs] in E2. rewrite E2. assert (FE : f2 = f). { rewrite K4, L4. cbn [with_f m_f m_secs]. assert (rev (m_secs m) <> []) by (intros Q; apply NE; rewrite <- (rev_involutive (m_secs m)), Q; auto). destruct (rev (m_secs m)); congruence. }
      assert (RE : r2 = r). { cbn [with_f m_p] in *. apply Rle_antisym.
        - destruct K3 as [->|(e & x & A & B & <-)]; [lra|eauto].
        - destruct L3 as [->|(e & x & A & B & <-)]; [lra|eauto]. }
      rewrite FE, RE. reflexivity.
Qed.
Lemma max_util_unique m m' r r' : is_max_util m r -> is_max_util m' r' -> m_p m = m_p m' ->
  (forall e, In e (m_secs m) -> exists e', In e' (m_secs m') /\ sec_forces (snd e) = sec_forces (snd e')) ->
  (forall e, In e (m_secs m') -> exists e', In e' (m_secs m) /\ sec_forces (snd e) = sec_forces (snd e')) -> r = r'.
Proof.
  intros (A & B & C) (A' & B' & C') EP F G. apply Rle_antisym.
  - destruct C as [->|(e & x & I1 & I2 & <-)]; auto. destruct (F e I1) as (e' & J & Q). apply (B' e'); auto. rewrite <- EP, <- Q. auto.
  - destruct C' as [->|(e & x & I1 & I2 & <-)]; auto. destruct (G e I1) as (e' & J & Q). apply (B e'); auto. rewrite EP, <- Q. auto.
Qed.
Lemma check_sections_lemma : forall m, mem_ok m -> NoDup (map fst (m_secs m)) ->
  exists r m', check_sections m = Some (r, m') /\ m_secs m' = m_secs m /\ m_p m' = m_p m /\
    (forall e x, In e (m_secs m) -> In x (p_res (m_p m) (sec_forces (snd e))) -> x <= r) /\
    (m_secs m <> [] -> exists e x, In e (m_secs m) /\ In x (p_res (m_p m) (sec_forces (snd e))) /\ x = r) /\
    (m_secs m = [] -> r = 0) /\
    (forall l, Permutation l (m_secs m) -> exists m2, check_sections (with_secs m l) = Some (r, m2)).
Proof.
  intros m M N. destruct (check_sections_full m M N) as (r & f & E & U & _). exists r, (with_f m f). split; auto. split; [reflexivity|]. split; [reflexivity|].
  pose proof U as (U1 & U2 & U3). split; auto. split; [|split].
  - intros NE. destruct U3 as [Z|]; auto. destruct (m_secs m) as [|e l] eqn:EL; [congruence|]. pose proof M as [P _]. destruct P as (_ & _ & _ & _ & _ & _ & _ & _ & _ & _ & _ & _ & _ & _ & _ & PR).
    destruct (PR (sec_forces (snd e))) as [NN PN]. destruct (p_res (m_p m) (sec_forces (snd e))) as [|x xs] eqn:EX; [congruence|].
    exists e, x. split; [left; auto|]. split; [rewrite EX; left; auto|]. apply Rle_antisym; [|rewrite Z; apply PN; left; auto].
    apply (U2 e); [left; auto|rewrite EX; left; auto].
  - intros Z. rewrite Z in *. destruct U3 as [|(e & _ & [] & _)]; auto.
  - intros l PL. assert (N2 : NoDup (map fst (m_secs (with_secs m l)))) by (cbn [with_secs m_secs]; eapply Permutation_NoDup; [|exact N]; apply Permutation_map; symmetry; auto).
    destruct (check_sections_full (with_secs m l) M N2) as (r2 & f2 & E2 & U' & _). exists (with_f (with_secs m l) f2). rewrite E2. f_equal. f_equal. symmetry.
    apply (max_util_unique m (with_secs m l)); auto; cbn [with_secs m_secs]; intros e I1; exists e; split; auto; [apply Permutation_sym in PL|]; eapply Permutation_in; eauto.
Qed.
Lemma F2_plane_keys l l' : Forall2 same_plane l l' -> map fst l = map fst l'.
Proof. induction 1; cbn; auto. destruct H as [-> _]. f_equal. auto. Qed.
Lemma F2_ex l l' : Forall2 same_plane l l' -> forall e, In e l -> exists e', In e' l' /\ same_plane e e'.
Proof. induction 1; intros e E; [inversion E|]. destruct E as [<-|E]; [exists y; split; [left|]; auto|]. destruct (IHForall2 e E) as (e' & A & B). exists e'. split; [right|]; auto. Qed.
Lemma F2_ex2 l l' : Forall2 same_plane l l' -> forall e, In e l' -> exists e', In e' l /\ same_plane e' e.
Proof. induction 1; intros e E; [inversion E|]. destruct E as [<-|E]; [exists x; split; [left|]; auto|]. destruct (IHForall2 e E) as (e' & A & B). exists e'. split; [right|]; auto. Qed.
Lemma plane_lemma : forall m l, mem_ok m -> NoDup (map fst (m_secs m)) -> Forall2 same_plane (m_secs m) l ->
  exists r m1 m2, check_sections m = Some (r, m1) /\ check_sections (with_secs m l) = Some (r, m2).
Proof.
  intros m l M N F. assert (N2 : NoDup (map fst (m_secs (with_secs m l)))) by (cbn [with_secs m_secs]; rewrite <- (F2_plane_keys _ _ F); auto).
  destruct (check_sections_full m M N) as (r & f & E & U & _). destruct (check_sections_full (with_secs m l) M N2) as (r2 & f2 & E2 & U' & _).
  exists r, (with_f m f), (with_f (with_secs m l) f2). split; auto. rewrite E2. f_equal. f_equal. symmetry.
  apply (max_util_unique m (with_secs m l)); auto; cbn [with_secs m_secs]; intros e I1.
  - destruct (F2_ex _ _ F e I1) as (e' & A & _ & B & C & D & _). exists e'. split; auto. unfold sec_forces. congruence.
  - destruct (F2_ex2 _ _ F e I1) as (e' & A & _ & B & C & D & _). exists e'. split; auto. unfold sec_forces. congruence.
Qed.

(* ------------------------------------------------------------- buckling *)
Lemma check_buckling_lemma : forall m n, mem_ok m -> NcEd m = Some n ->
  exists a b, member_strength m = Some (a, b) /\
  (n = 0 -> check_buckling m = Some (0, 0)) /\
  (n < 0 -> exists u v, check_buckling m = Some (u, v) /\ u * a = - n /\ v * b = - n /\ (u <= 1 <-> - n <= a) /\ (v <= 1 <-> - n <= b)).
Proof.
  intros m n M E. destruct (member_strength_lemma m M) as (a & b & t & S & _ & A & B & _). exists a, b. split; auto. unfold check_buckling. rewrite E. cbn [bind]. split.
  - intros ->. destruct (Rleb 0 0) eqn:Q; auto. apply Rleb_false in Q. lra.
  - intros N. destruct (Rleb 0 n) eqn:Q; [apply Rleb_true in Q; lra|]. rewrite S. cbn [bind fst snd]. rewrite Rabs_left by auto.
    exists (- n / a), (- n / b). split; auto. split; [field; lra|]. split; [field; lra|]. split; [rewrite div_le_iff|rewrite div_le_iff]; lra.
Qed.
Lemma mcrit_default_pos m : mem_ok m -> m_sym m <> OtherSym -> exists M, mcrit_default m = Some M /\ 0 < M.
Proof.
  intros M S. assert (0 < 112/100) by lra. assert (0 < 1) by lra. pose proof (mbase_pos m 1 1 M H0 H0) as BP. pose proof (part1_pos m (112/100) 1 M H H0) as PP.
  unfold mcrit_default, mcrit. cbv zeta. fold (mbase m 1 1). destruct (m_sym m); [| |congruence].
  - eexists; split; [reflexivity|]. apply Rmult_lt_0_compat; auto. apply mc_pos; auto.
  - eexists; split; [reflexivity|]. apply Rmult_lt_0_compat; auto. set (y := 45 / 100 * (0 - p_zs (m_p m)) - 525 / 1000 * p_zj (m_p m)).
    pose proof (mc_pos (mbase m 1 1) y BP) as Q. unfold y in *. lra.
Qed.
Lemma check_LT_lemma : forall m md, mem_ok m -> m_sym m <> OtherSym -> MEdY m = Some md ->
  exists u Mcr b, check_LT m = Some u /\ mcrit_default m = Some Mcr /\ LT_strength m Mcr false = Some b /\ 0 <= u /\ u * b = md /\ (u <= 1 <-> md <= b) /\ (u <= 1 -> md <= Mcr /\ md <= p_MRd (m_p m) (m_f m)).
Proof.
  intros m md M S E. destruct (mcrit_default_pos m M S) as (Mcr & EM & MP). destruct (LT_lemma m Mcr false md M MP E) as (b & EB & B & C & _).
  assert (MD : 0 <= md). { destruct (envelope_lemma m) as (_ & EV & _). apply EV in E. destruct E as [[e [_ ->]] _]. apply Rabs_pos. }
  unfold check_LT. rewrite E, EM. cbn [bind]. rewrite EB. cbn [bind]. rewrite (Rabs_pos_eq md MD).
  exists (md / b), Mcr, b. split; auto. split; auto. split; auto. split; [apply div_nn; lra|]. split; [field; lra|]. split; [rewrite div_le_iff; lra|].
  intros U. apply (proj1 (div_le_iff _ _ _ (proj1 B))) in U. split; [apply C; lra|lra].
Qed.

(* ------------------------------------------------------------- beam-columns *)
Lemma kyy_pos UN sl Cm cls : 0 <= Cm -> 0 <= UN -> 0 <= sl -> 2/10 <= sl \/ UN <= 5 -> 0 <= kyy UN sl Cm cls.
Proof.
  intros C U S1 D. unfold kyy, gammaM1. destruct (Nat.ltb cls 3); apply Rmult_le_pos; auto.
  - unfold Rdiv. rewrite Rinv_1, Rmult_1_r. destruct D as [D|D].
    + assert (0 <= Rmin (sl - 2/10) (8/10)) by (apply Rmin_glb; lra). nra.
    + assert (-2/10 <= Rmin (sl - 2/10) (8/10)) by (apply Rmin_glb; lra). nra.
  - unfold Rdiv. rewrite Rinv_1, Rmult_1_r. assert (0 <= Rmin sl (6/10)) by (apply Rmin_glb; lra). nra.
Qed.
Lemma Cmy_nn m sway uni : 0 <= m_cmy m -> 0 <= fst (Cmy m sway uni).
Proof.
  intros H. unfold Cmy. destruct sway; cbn; [lra|]. destruct (dget 0 (m_secs m)) as [a|]; [|exact H]. destruct (dget 1 (m_secs m)) as [b|]; [|exact H]. cbn [fst].
  pose proof (cm_range_lemma (s_My a) (s_My b) (match dget (1/2) (m_secs m) with Some s => Some (s_My s) | None => None end) uni). lra.
Qed.
Lemma MEdY_nn m md : MEdY m = Some md -> 0 <= md.
Proof. intros E. destruct (envelope_lemma m) as (_ & EV & _). apply EV in E. destruct E as [[e [_ ->]] _]. apply Rabs_pos. Qed.
Lemma slend_nn m n : 0 <= slend_of m n.
Proof. apply sqrt_pos. Qed.
Lemma beamcolumn_lemma : forall m sway uni md n a b, mem_ok m -> m_LTB m = false -> 0 <= m_cmy m ->
  MEdY m = Some md -> NcEd m = Some n -> member_strength m = Some (a, b) -> 1/1000000 <= md ->
  2/10 <= slend_y m \/ - n <= 5 * a ->
  exists u v m', check_beamcolumn m sway uni = Some ((u, v), m') /\ - n / a <= u /\ - n / b <= v /\ v - - n / b <= 8/10 * (u - - n / a) /\
    m_secs m' = m_secs m /\ fst (fst (m_f m')) = n.
Proof.
  intros m sway uni md n a b M LT CM EM EN ES MD D. destruct (member_strength_lemma m M) as (a' & b' & t & S & _ & A & B & _). rewrite ES in S. injection S as <- <-.
  unfold check_beamcolumn. rewrite EM. cbn [bind]. pose proof (MEdY_nn _ _ EM) as M0. rewrite Rabs_pos_eq by auto. destruct (Rltb md (1/1000000)) eqn:Q; [apply Rltb_true in Q; lra|].
  rewrite EN. cbn [bind]. destruct (m_f m) as [[n0 my] vz] eqn:EF. change (member_strength (with_f m (n, my, vz))) with (member_strength m). rewrite ES. cbn [bind fst snd].
  assert (N0 : n <= 0) by (destruct (envelope_lemma m) as (_ & _ & EV & _); apply EV in EN; tauto).
  destruct (Cmy (with_f m (n, my, vz)) sway uni) as [c m2] eqn:EC.
  assert (CN : 0 <= c) by (change c with (fst (c, m2)); rewrite <- EC; apply Cmy_nn; auto).
  assert (MM : m_p m2 = m_p m /\ m_LTB m2 = m_LTB m /\ m_secs m2 = m_secs m /\ m_f m2 = (n, my, vz) /\ slend_y m2 = slend_y m /\ MEdZ m2 = MEdZ m).
  { unfold Cmy in EC. destruct sway; [injection EC as <- <-; repeat split|]. destruct (dget 0 _); [|injection EC as <- <-; repeat split]. destruct (dget 1 _); injection EC as <- <-; repeat split. }
  destruct MM as (M1 & M2 & M3 & M4 & M5 & M6). rewrite M2, LT, M5, M6. 
  assert (UA : 0 <= Rabs n / a) by (apply div_nn; [apply Rabs_pos|lra]). rewrite Rabs_left1 in * by auto.
  set (cls := p_class _ _). set (ky := kyy _ _ _ _). assert (KY : 0 <= ky).
  { unfold ky. apply kyy_pos; auto; [apply slend_nn|]. destruct D as [D|D]; [left; auto|right]. apply div_le_iff; lra. }
  assert (Z : exists mz, MEdZ m = Some mz).
  { destruct (MEdZ m) eqn:EZ; [eauto|]. unfold MEdZ in EZ. apply list_max_none in EZ. unfold MEdY, myed in EM. unfold mzed in EZ. destruct (m_secs m); [discriminate EM|discriminate EZ]. }
  destruct Z as [mz EZ]. rewrite EZ. cbn [bind]. set (kz := if Reqb mz 0 then 0 else _). assert (KZ : 0 <= kz <= 8/10 * ky).
  { unfold kz. destruct (Reqb mz 0); [lra|]. destruct (Nat.ltb cls 3); lra. }
  rewrite M1, M4. set (MRd := p_MRd _ _). assert (MP : 0 < MRd) by (destruct M as [P _]; unfold prof_ok in P; apply P).
  eexists _, _, m2. split; [reflexivity|]. assert (T1 : 0 <= md / MRd) by (apply div_nn; lra).
  assert (K1 : ky * md / MRd = ky * (md / MRd)) by (unfold Rdiv; ring). assert (K2 : kz * md / MRd = kz * (md / MRd)) by (unfold Rdiv; ring). rewrite K1, K2.
  assert (0 <= ky * (md / MRd)) by (apply Rmult_le_pos; lra). assert (0 <= kz * (md / MRd)) by (apply Rmult_le_pos; lra). assert (kz * (md / MRd) <= 8/10 * ky * (md / MRd)) by (apply Rmult_le_compat_r; lra).
  split; [lra|]. split; [lra|]. split; [lra|]. split; auto. rewrite M4. reflexivity.
Qed.
Lemma beamcolumn_value_lemma : forall m sway uni md n a b, mem_ok m -> m_LTB m = false ->
  MEdY m = Some md -> NcEd m = Some n -> member_strength m = Some (a, b) -> 1/1000000 <= md ->
  (exists mz, MEdZ m = Some mz /\ mz <> 0) ->
  let f := (n, snd (fst (m_f m)), snd (m_f m)) in
  let c := fst (Cmy m sway uni) in let un := - n / a in
  let ky := if Nat.leb (p_class (m_p m) f) 2 then c * (1 + Rmin (slend_y m - 2/10) (8/10) * un) else c * (1 + Rmin (slend_y m) (6/10) * un) in
  exists m', check_beamcolumn m sway uni =
    Some ((un + ky * (md / p_MRd (m_p m) f), - n / b + (if Nat.leb (p_class (m_p m) f) 2 then 6/10 else 8/10) * ky * (md / p_MRd (m_p m) f)), m').
Proof.
  intros m sway uni md n a b M LT EM EN ES MD (mz & EZ & NZ). cbv zeta.
  unfold check_beamcolumn. rewrite EM. cbn [bind]. pose proof (MEdY_nn _ _ EM) as M0. rewrite Rabs_pos_eq by auto. destruct (Rltb md (1/1000000)) eqn:Q; [apply Rltb_true in Q; lra|].
  rewrite EN. cbn [bind]. destruct (m_f m) as [[n0 my] vz] eqn:EF. cbn [fst snd]. change (member_strength (with_f m (n, my, vz))) with (member_strength m). rewrite ES. cbn [bind fst snd].
  assert (N0 : n <= 0) by (destruct (envelope_lemma m) as (_ & _ & EV & _); apply EV in EN; tauto). rewrite Rabs_left1 by auto.
  destruct (Cmy (with_f m (n, my, vz)) sway uni) as [c m2] eqn:EC.
  assert (MM : m_p m2 = m_p m /\ m_LTB m2 = m_LTB m /\ m_secs m2 = m_secs m /\ m_f m2 = (n, my, vz) /\ slend_y m2 = slend_y m /\ MEdZ m2 = MEdZ m /\ c = fst (Cmy m sway uni)).
  { unfold Cmy in *. cbn [with_f m_secs m_cmy] in EC. destruct sway; [injection EC as <- <-; repeat split|]. destruct (dget 0 _); [|injection EC as <- <-; repeat split]. destruct (dget 1 _); injection EC as <- <-; repeat split. }
  destruct MM as (M1 & M2 & M3 & M4 & M5 & M6 & M7). rewrite M2, LT, M5, M6, EZ, <- M7, M1, M4. cbn [bind with_f m_p m_f]. destruct (Reqb mz 0) eqn:QZ; [apply Reqb_true in QZ; congruence|].
  exists m2. unfold kyy, gammaM1. change (Nat.leb (p_class (m_p m) (n, my, vz)) 2) with (Nat.ltb (p_class (m_p m) (n, my, vz)) 3). destruct (Nat.ltb (p_class (m_p m) (n, my, vz)) 3); f_equal; f_equal; f_equal; unfold Rdiv; rewrite Rinv_1; ring.
Qed.
Lemma beamcolumn_ltb_lemma : forall m sway uni md n, mem_ok m -> m_LTB m = true ->
  MEdY m = Some md -> NcEd m = Some n -> 1/1000000 <= md -> check_beamcolumn m sway uni = None.
Proof.
  intros m sway uni md n M LT EM EN MD. destruct (member_strength_lemma m M) as (a & b & t & S & _).
  unfold check_beamcolumn. rewrite EM. cbn [bind]. pose proof (MEdY_nn _ _ EM) as M0. rewrite Rabs_pos_eq by auto. destruct (Rltb md (1/1000000)) eqn:Q; [apply Rltb_true in Q; lra|].
  rewrite EN. cbn [bind]. destruct (m_f m) as [[n0 my] vz]. change (member_strength (with_f m (n, my, vz))) with (member_strength m). rewrite S. cbn [bind fst snd].
  destruct (Cmy (with_f m (n, my, vz)) sway uni) as [c m2] eqn:EC.
  assert (M2 : m_LTB m2 = true). { unfold Cmy in EC. destruct sway; [injection EC as <- <-; auto|]. destruct (dget 0 _); [|injection EC as <- <-; auto]. destruct (dget 1 _); injection EC as <- <-; auto. }
  rewrite M2. reflexivity.
Qed.

(* ------------------------------------------------------------- design *)
Lemma design_lemma : forall m sway md n, mem_ok m -> NoDup (map fst (m_secs m)) -> 0 <= m_cmy m ->
  MEdY m = Some md -> NcEd m = Some n -> m_LTB m = false \/ (m_sym m <> OtherSym /\ (n = 0 \/ md < 1/1000000)) ->
  exists r m', design m sway = Some (r, m') /\
    (forall e x, In e (m_secs m) -> In x (p_res (m_p m) (sec_forces (snd e))) -> x <= r) /\
    (forall a b, member_strength m = Some (a, b) -> - n <= r * a /\ - n <= r * b) /\
    (r <= 1 -> - n <= ncrit_y m /\ - n <= ncrit_z m) /\
    (m_LTB m = true -> r <= 1 -> exists Mcr, mcrit_default m = Some Mcr /\ md <= Mcr) /\
    (n = 0 -> m_LTB m = false -> exists e x, In e (m_secs m) /\ In x (p_res (m_p m) (sec_forces (snd e))) /\ x = r) /\
    m_secs m' = m_secs m.
Proof.
  intros m sway md n M ND CM EM EN D. destruct (check_sections_full m M ND) as (r0 & f & E0 & U & _). destruct U as (U1 & U2 & U3).
  assert (NE : m_secs m <> []). { intros Z. unfold MEdY, myed in EM. rewrite Z in EM. discriminate. }
  destruct (check_sections_lemma m M ND) as (r0' & m0' & E0' & _ & _ & _ & UX & _). rewrite E0 in E0'. injection E0' as <- <-. specialize (UX NE).
  destruct (member_strength_lemma m M) as (a & b & t & S & _ & A & B & _ & CA & CB & _).
  assert (N0 : n <= 0) by (destruct (envelope_lemma m) as (_ & _ & EV & _); apply EV in EN; tauto).
  unfold design. rewrite E0. cbn [bind]. set (m1 := with_f m f). assert (M1 : mem_ok m1) by exact M.
  assert (EM1 : MEdY m1 = Some md) by exact EM. assert (EN1 : NcEd m1 = Some n) by exact EN.
  assert (STEP : exists r1, (if m_LTB m1 then bind (check_LT m1) (fun x => Some (Rmax r0 x)) else Some r0) = Some r1 /\ r0 <= r1 /\ (m_LTB m = false -> r1 = r0) /\ (m_LTB m = true -> r1 <= 1 -> exists Mcr, mcrit_default m = Some Mcr /\ md <= Mcr)).
  { change (m_LTB m1) with (m_LTB m). destruct (m_LTB m) eqn:LT.
    - destruct D as [D|[D1 D2]]; [discriminate|]. destruct (check_LT_lemma m1 md M1 D1 EM1) as (u & Mcr & bb & EL & EC & _ & _ & _ & _ & UU). rewrite EL. cbn [bind].
      exists (Rmax r0 u). split; auto. split; [apply Rmax_l|]. split; [discriminate|]. intros _ R1. exists Mcr. split; auto. apply UU. pose proof (Rmax_r r0 u). lra.
    - exists r0. split; auto. split; [lra|]. split; [auto|discriminate]. }
  destruct STEP as (r1 & ER1 & LR1 & FR1 & TR1). rewrite ER1. cbn [bind]. rewrite EN1. cbn [bind].
  assert (FIN : forall r m', r1 <= r -> - n <= r * a -> - n <= r * b -> m_secs m' = m_secs m -> (n = 0 -> r = r1) -> 
     (forall e x, In e (m_secs m) -> In x (p_res (m_p m) (sec_forces (snd e))) -> x <= r) /\
     (forall a b, member_strength m = Some (a, b) -> - n <= r * a /\ - n <= r * b) /\
     (r <= 1 -> - n <= ncrit_y m /\ - n <= ncrit_z m) /\
     (m_LTB m = true -> r <= 1 -> exists Mcr, mcrit_default m = Some Mcr /\ md <= Mcr) /\
     (n = 0 -> m_LTB m = false -> exists e x, In e (m_secs m) /\ In x (p_res (m_p m) (sec_forces (snd e))) /\ x = r) /\ m_secs m' = m_secs m).
  { intros r m' R1 R2 R3 R4 R5. split; [intros e x I1 I2; specialize (U2 e x I1 I2); lra|].
    split; [intros a' b' S'; rewrite S in S'; injection S' as <- <-; auto|]. split; [intros R6; split; nra|]. split; [intros T R6; apply TR1; auto; lra|].
    split; [|auto]. intros N T. rewrite (R5 N), (FR1 T). auto. }
  destruct (Rltb n 0) eqn:QN.
  - apply Rltb_true in QN. destruct (check_buckling_lemma m1 n M1 EN1) as (a1 & b1 & S1 & _ & BK). change (member_strength m1) with (member_strength m) in S1. rewrite S in S1. injection S1 as <- <-.
    destruct (BK QN) as (u & v & EB & UA & VB & _ & _). rewrite EB. cbn [bind].
    assert (BC : exists bc, check_beamcolumn m1 sway true = Some bc /\ m_secs (snd bc) = m_secs m).
    { destruct (Rlt_dec md (1/1000000)) as [Q|Q].
      - unfold check_beamcolumn. rewrite EM1. cbn [bind]. rewrite Rabs_pos_eq by (eapply MEdY_nn; eauto). destruct (Rltb md (1/1000000)) eqn:QQ; [|apply Rltb_false in QQ; lra]. eexists; split; [reflexivity|reflexivity].
      - destruct D as [D|[_ [D|D]]]; [|lra|lra].
        unfold check_beamcolumn. rewrite EM1. cbn [bind]. rewrite Rabs_pos_eq by (eapply MEdY_nn; eauto). destruct (Rltb md (1/1000000)) eqn:QQ; [apply Rltb_true in QQ; lra|]. rewrite EN1. cbn [bind].
        destruct (m_f m1) as [[n0 my] vz]. change (member_strength (with_f m1 (n, my, vz))) with (member_strength m). rewrite S. cbn [bind fst snd].
        destruct (Cmy (with_f m1 (n, my, vz)) sway true) as [c m2] eqn:EC.
        assert (MM : m_LTB m2 = m_LTB m /\ m_secs m2 = m_secs m). { unfold Cmy in EC. destruct sway; [injection EC as <- <-; auto|]. destruct (dget 0 _); [|injection EC as <- <-; auto]. destruct (dget 1 _); injection EC as <- <-; auto. }
        destruct MM as [MM1 MM2]. rewrite MM1, D. unfold MEdZ, mzed. rewrite MM2. destruct (list_max (map Rabs (map (fun e => s_Mz (snd e)) (m_secs m)))) as [mz|] eqn:EZ.
        + cbn [bind]. eexists; split; [reflexivity|]. exact MM2.
        + apply list_max_none in EZ. destruct (m_secs m); [congruence|discriminate]. }
    destruct BC as (bc & EBC & SB). rewrite EBC. cbn [bind fst snd]. set (w := Rmax (fst (fst bc)) _). eexists _, (snd bc). split; [reflexivity|].
    pose proof (Rmax_l (Rmax r1 (Rmax u v)) w). pose proof (Rmax_l r1 (Rmax u v)). pose proof (Rmax_r r1 (Rmax u v)). pose proof (Rmax_l u v). pose proof (Rmax_r u v).
    apply FIN; auto; try nra; try lra.
  - apply Rltb_false in QN. assert (n = 0) by lra. subst n. exists r1, m1. split; auto. apply FIN; auto; try nra; lra.
Qed.
Lemma design_history_lemma : forall m sway c f, mem_ok m -> NoDup (map fst (m_secs m)) -> m_secs m <> [] ->
  sway = true \/ (exists a b, dget 0 (m_secs m) = Some a /\ dget 1 (m_secs m) = Some b) ->
  option_map fst (design (with_f (with_cmy m c) f) sway) = option_map fst (design m sway).
Proof.
  intros m sway c f M ND NE D. destruct (check_sections_full m M ND) as (r0 & f0 & E0 & _ & _ & _).
  destruct (check_sections_full (with_cmy m c) M ND) as (r1 & f1 & E1 & _ & _ & X1). specialize (X1 NE f).
  assert (EQ : r1 = r0 /\ f1 = f0).
  { assert (G : forall ks m r, check_keys (with_cmy m c) ks r = option_map (fun q => (fst q, with_cmy (snd q) c)) (check_keys m ks r)).
    { clear. induction ks as [|k ks IH]; intros; [reflexivity|]. cbn [check_keys]. unfold check_section. cbn [with_cmy m_secs m_p]. destruct (dget k (m_secs m)); [|reflexivity]. cbn [bind fst snd].
      destruct (list_max _); [|reflexivity]. cbn [bind]. exact (IH (with_f m (s_N s, s_My s, s_Vz s)) _). }
    unfold check_sections in E0, E1. cbn [with_cmy m_secs] in E1. rewrite (G (map fst (m_secs m)) m 0), E0 in E1. cbn in E1. injection E1 as -> E1. auto. }
  destruct EQ as [-> ->]. unfold design. rewrite E0, X1. cbn [bind].
  change (m_LTB (with_f (with_cmy m c) f0)) with (m_LTB m). change (m_LTB (with_f m f0)) with (m_LTB m).
  change (check_LT (with_f (with_cmy m c) f0)) with (check_LT (with_f m f0)). destruct (if m_LTB m then _ else _) as [r|]; [|reflexivity]. cbn [bind].
  change (NcEd (with_f (with_cmy m c) f0)) with (NcEd (with_f m f0)). destruct (NcEd (with_f m f0)) as [n|] eqn:EN; [|reflexivity]. cbn [bind]. destruct (Rltb n 0); [|reflexivity].
  change (check_buckling (with_f (with_cmy m c) f0)) with (check_buckling (with_f m f0)). destruct (check_buckling _) as [bk|]; [|reflexivity]. cbn [bind].
  assert (BC : option_map fst (check_beamcolumn (with_f (with_cmy m c) f0) sway true) = option_map fst (check_beamcolumn (with_f m f0) sway true)).
  { unfold check_beamcolumn. change (MEdY (with_f (with_cmy m c) f0)) with (MEdY (with_f m f0)). destruct (MEdY _) as [md|]; [|reflexivity]. cbn [bind]. destruct (Rltb _ _); [reflexivity|].
    change (NcEd (with_f (with_cmy m c) f0)) with (NcEd (with_f m f0)). rewrite EN. cbn [bind]. destruct f0 as [[n0 my] vz]. change (m_f (with_f (with_cmy m c) (n0, my, vz))) with (n0, my, vz). change (m_f (with_f m (n0, my, vz))) with (n0, my, vz). cbv iota beta zeta.
    assert (CC : forall st, (st = with_f (with_f (with_cmy m c) (n0, my, vz)) (n, my, vz) \/ st = with_f (with_f m (n0, my, vz)) (n, my, vz)) ->
       option_map fst (bind (member_strength st) (fun b => let (c0, m3) := Cmy st sway true in
         bind (if m_LTB m3 then None else bind (MEdZ m3) (fun mz => Some (if Reqb mz 0 then 0 else if Nat.ltb (p_class (m_p st) (m_f st)) 3 then 6/10 * kyy (Rabs n / fst b) (slend_y m3) c0 (p_class (m_p st) (m_f st)) else 8/10 * kyy (Rabs n / fst b) (slend_y m3) c0 (p_class (m_p st) (m_f st)))))
           (fun kz => Some ((- n / fst b + kyy (Rabs n / fst b) (slend_y m3) c0 (p_class (m_p st) (m_f st)) * md / p_MRd (m_p m3) (m_f m3), - n / snd b + kz * md / p_MRd (m_p m3) (m_f m3)), m3))))
       = bind (member_strength m) (fun b => let c0 := fst (Cmy m sway true) in
         bind (if m_LTB m then None else bind (MEdZ m) (fun mz => Some (if Reqb mz 0 then 0 else if Nat.ltb (p_class (m_p m) (n, my, vz)) 3 then 6/10 * kyy (Rabs n / fst b) (slend_y m) c0 (p_class (m_p m) (n, my, vz)) else 8/10 * kyy (Rabs n / fst b) (slend_y m) c0 (p_class (m_p m) (n, my, vz)))))
           (fun kz => Some (- n / fst b + kyy (Rabs n / fst b) (slend_y m) c0 (p_class (m_p m) (n, my, vz)) * md / p_MRd (m_p m) (n, my, vz), - n / snd b + kz * md / p_MRd (m_p m) (n, my, vz))))).
    { intros st SQ. assert (SS : member_strength st = member_strength m) by (destruct SQ as [-> | ->]; reflexivity). rewrite SS. destruct (member_strength m) as [b|]; [|reflexivity]. cbn [bind].
      assert (EC : exists m3, Cmy st sway true = (fst (Cmy m sway true), m3) /\ m_LTB m3 = m_LTB m /\ MEdZ m3 = MEdZ m /\ slend_y m3 = slend_y m /\ m_p m3 = m_p m /\ m_f m3 = (n, my, vz)).
      { unfold Cmy. assert (SE : m_secs st = m_secs m) by (destruct SQ as [-> | ->]; reflexivity). rewrite SE. destruct sway; [exists st; destruct SQ as [-> | ->]; repeat split|].
        destruct D as [D|(a & b0 & DA & DB)]; [discriminate|]. rewrite DA, DB. eexists; split; [reflexivity|]. destruct SQ as [-> | ->]; repeat split. }
      destruct EC as (m3 & -> & -> & -> & -> & -> & ->). assert (SP : m_p st = m_p m) by (destruct SQ as [-> | ->]; reflexivity). assert (SF : m_f st = (n, my, vz)) by (destruct SQ as [-> | ->]; reflexivity). rewrite SP, SF.
      destruct (m_LTB m); [reflexivity|]. destruct (MEdZ m); reflexivity. }
    etransitivity; [apply (CC (with_f (with_f (with_cmy m c) (n0, my, vz)) (n, my, vz))); left; reflexivity|symmetry; apply (CC (with_f (with_f m (n0, my, vz)) (n, my, vz))); right; reflexivity]. }
  destruct (check_beamcolumn (with_f (with_cmy m c) f0) sway true) as [[[u v] m2]|], (check_beamcolumn (with_f m f0) sway true) as [[[u' v'] m2']|]; cbn in BC |- *; try discriminate; auto.
  injection BC as <- <-. reflexivity.
Qed.

(* ------------------------------------------------------------- shear stiffness, weight, cost *)
Lemma stiffness_lemma : forall m, mem_ok m -> 0 < required_shear_stiffness m /\
  70 * (p_G (m_p m) * p_It (m_p m)) <= required_shear_stiffness m * p_h (m_p m) ^ 2 /\
  (forall L', m_L m <= L' -> required_shear_stiffness (with_L m L') <= required_shear_stiffness m) /\
  required_shear_stiffness m * p_h (m_p m) ^ 2 = 70 * (p_G (m_p m) * p_It (m_p m)) +
     70 * (PI ^ 2 * p_E (m_p m) / m_L m ^ 2) * (p_Iw (m_p m) + p_Iz (m_p m) * (p_h (m_p m) / 2) ^ 2) /\
  (forall L1 L2, weight (with_L m (L1 + L2)) = weight (with_L m L1) + weight (with_L m L2) /\ cost (with_L m (L1 + L2)) = cost (with_L m L1) + cost (with_L m L2)) /\
  weight (with_L m 1) = p_w (m_p m) /\ cost (with_L m 1) = p_cost (m_p m).
Proof.
  intros m M. pose proof M as [P [L _]]. destruct P as (A & IY & IZ & E & G & IT & IW & H & _). pose proof PI2_pos as P2. pose proof (pow_lt _ 2 H) as H2. pose proof (pow_lt _ 2 L) as L2.
  assert (V : required_shear_stiffness m * p_h (m_p m) ^ 2 = 70 * (p_G (m_p m) * p_It (m_p m)) +
     70 * (PI ^ 2 * p_E (m_p m) / m_L m ^ 2) * (p_Iw (m_p m) + p_Iz (m_p m) * (p_h (m_p m) / 2) ^ 2)) by (unfold required_shear_stiffness; cbv zeta; field; lra).
  assert (Q : 0 <= PI ^ 2 * p_E (m_p m) / m_L m ^ 2) by (apply div_nn; auto; apply Rmult_le_pos; lra).
  assert (W : 0 <= p_Iw (m_p m) + p_Iz (m_p m) * (p_h (m_p m) / 2) ^ 2). { assert (0 <= p_Iz (m_p m) * (p_h (m_p m) / 2) ^ 2) by (apply Rmult_le_pos; [lra|apply pow2_ge_0]). lra. }
  assert (T : 0 < p_G (m_p m) * p_It (m_p m)) by (apply Rmult_lt_0_compat; auto). pose proof (Rmult_le_pos _ _ Q W) as QW.
  split. { apply Rmult_lt_reg_r with (p_h (m_p m) ^ 2); auto. rewrite V. lra. }
  split; [rewrite V; lra|]. split; [|split; [auto|]].
  - intros L' LL. unfold required_shear_stiffness, with_L. cbv zeta. cbn [m_p m_L]. apply div_le; auto. apply Rmult_le_compat_r; [lra|].
    assert (LS : 0 < m_L m ^ 2 <= L' ^ 2) by (split; auto; apply pow_incr; lra).
    assert (D1 : p_E (m_p m) * p_Iw (m_p m) * PI ^ 2 / L' ^ 2 <= p_E (m_p m) * p_Iw (m_p m) * PI ^ 2 / m_L m ^ 2) by (apply div_anti; auto; apply Rmult_le_pos; [apply Rmult_le_pos|]; lra).
    assert (D2 : p_E (m_p m) * p_Iz (m_p m) * PI ^ 2 / L' ^ 2 <= p_E (m_p m) * p_Iz (m_p m) * PI ^ 2 / m_L m ^ 2) by (apply div_anti; auto; apply Rmult_le_pos; [apply Rmult_le_pos|]; lra).
    assert (p_E (m_p m) * p_Iz (m_p m) * PI ^ 2 / L' ^ 2 * (25/100) * p_h (m_p m) ^ 2 <= p_E (m_p m) * p_Iz (m_p m) * PI ^ 2 / m_L m ^ 2 * (25/100) * p_h (m_p m) ^ 2) by (apply Rmult_le_compat_r; lra). lra.
  - unfold weight, cost, with_L; cbn [m_p m_L]. repeat split; intros; ring.
Qed.
