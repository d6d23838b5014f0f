(** Proofs about end plate joints. *)
From Verif Require Import Base EC3_model Bool_tac EC3_proofs Plate_proofs Sections_proofs Cold_proofs Joint_model Joint_proofs.
From Verif Require Import Epj_model Epj_spec.
Require Import Reals List Bool Lra Lia Psatz PeanoNat.
Import ListNotations.
Local Open Scope R_scope.

(* ---------------------------------------------------------------- clipping of a list of forces *)

Lemma f2_len {A B} {P : A -> B -> Prop} {l l'} : Forall2 P l l' -> length l = length l'.
Proof. induction 1; cbn; auto. Qed.
Fixpoint clip (k : nat) (C tot : R) (f : list R) : list R :=
  match k, f with
  | S k, x :: t => let y := Rmin x (C - tot) in y :: clip k C (tot + y) t
  | _, _ => f
  end.
Lemma psum_0 f : psum 0 f = 0. Proof. reflexivity. Qed.
Lemma psum_nil k : psum k [] = 0. Proof. unfold psum; rewrite firstn_nil; reflexivity. Qed.
Lemma psum_S k x f : psum (S k) (x :: f) = x + psum k f.
Proof. unfold psum; cbn [firstn]; rewrite Rsum_cons; reflexivity. Qed.
Lemma psum_nonneg k f : Forall (fun x => 0 <= x) f -> 0 <= psum k f.
Proof.
  intros H; revert k; induction H; intros [|k]; rewrite ?psum_nil, ?psum_0; try lra.
  rewrite psum_S; specialize (IHForall k); lra.
Qed.
Lemma psum_mono k i f : Forall (fun x => 0 <= x) f -> (i <= k)%nat -> psum i f <= psum k f.
Proof.
  intros H; revert k i; induction H; intros k i Hi; rewrite ?psum_nil; try lra.
  destruct i; [rewrite psum_0; apply psum_nonneg; constructor; assumption|].
  destruct k; [lia|]; rewrite !psum_S; specialize (IHForall k i ltac:(lia)); lra.
Qed.
Lemma psum_all k f : (length f <= k)%nat -> psum k f = Rsum f.
Proof. intros H; unfold psum; rewrite firstn_all2; auto. Qed.
Lemma clip_psum k C : forall f tot i, Forall (fun x => 0 <= x) f -> tot <= C ->
  tot + psum i (clip k C tot f) = Rmin (tot + psum (Nat.min i k) f) C + (psum i f - psum (Nat.min i k) f).
Proof.
  induction k as [|k IH]; intros f tot i Hf Ht.
  - rewrite Nat.min_0_r, psum_0; cbn [clip]; rewrite Rplus_0_r, Rmin_left by lra; lra.
  - destruct f as [|x t]; cbn [clip]; rewrite ?psum_nil.
    { rewrite Rplus_0_r, Rmin_left by lra; lra. }
    destruct i; [cbn [Nat.min]; rewrite !psum_0, Rplus_0_r, Rmin_left by lra; lra|].
    cbn [Nat.min]; rewrite !psum_S.
    inversion Hf as [|? ? Hx Ht']; subst.
    pose proof (psum_nonneg (Nat.min i k) t Ht') as Hs.
    set (y := Rmin x (C - tot)).
    assert (Hy : y <= C - tot) by apply Rmin_r.
    specialize (IH t (tot + y) i Ht' ltac:(lra)).
    assert (E : Rmin (tot + y + psum (Nat.min i k) t) C = Rmin (tot + (x + psum (Nat.min i k) t)) C).
    { unfold y; destruct (Rle_dec x (C - tot)).
      - rewrite (Rmin_left x) by lra; f_equal; lra.
      - rewrite (Rmin_right x) by lra; rewrite !Rmin_right by lra; reflexivity. }
    lra.
Qed.
Lemma clip_nonneg k C : forall f tot, Forall (fun x => 0 <= x) f -> tot <= C -> Forall (fun x => 0 <= x) (clip k C tot f).
Proof.
  induction k as [|k IH]; intros f tot Hf Ht; [exact Hf|].
  destruct f as [|x t]; [constructor|]; inversion Hf; subst; cbn [clip].
  constructor; [apply Rmin_glb; lra|apply IH; auto].
  pose proof (Rmin_r x (C - tot)); lra.
Qed.
Lemma clip_le k C : forall f tot, Forall2 Rle (clip k C tot f) f.
Proof.
  induction k as [|k IH]; intros f tot; cbn [clip].
  - induction f; constructor; auto; lra.
  - destruct f; constructor; auto; apply Rmin_l.
Qed.
Lemma clip_length k C f tot : length (clip k C tot f) = length f.
Proof. exact (f2_len (clip_le k C f tot)). Qed.

(* ---------------------------------------------------------------- Abel summation *)

Lemma abel : forall (f g h : list R) s H, length f = length h -> length g = length h -> falling h ->
  (match h with [] => 0 <= H | a :: _ => a <= H end) -> 0 <= s ->
  (forall i, psum i g <= s + psum i f) -> moment_of g h <= s * H + moment_of f h.
Proof.
  unfold moment_of; induction f as [|x f IH]; intros g h s H Lf Lg Hh HH Hs Hp.
  - destruct h; [|discriminate]; destruct g; [|discriminate]; cbn; nra.
  - destruct h as [|a h]; [discriminate|]; destruct g as [|y g]; [discriminate|].
    cbn [combine map fst snd]; rewrite !Rsum_cons.
    destruct Hh as (Ha & Hb & Hh).
    pose proof (Hp 1%nat) as H1; rewrite !psum_S, !psum_0 in H1.
    assert (Hq : forall i, psum i g <= (s + x - y) + psum i f) by (intros i; specialize (Hp (S i)); rewrite !psum_S in Hp; lra).
    specialize (IH g h (s + x - y) a ltac:(cbn in Lf; lia) ltac:(cbn in Lg; lia) Hh ltac:(destruct h; [exact Ha|exact Hb]) ltac:(lra) Hq).
    nra.
Qed.

(* ---------------------------------------------------------------- the loops on the rows *)

Fixpoint clipr (k : nat) (C tot : R) (l : list erow) : list erow :=
  match k, l with
  | S k, r :: t => let y := Rmin (er_F r) (C - tot) in set_F y r :: clipr k C (tot + y) t
  | _, _ => l
  end.
Lemma clipr_F k C : forall l tot, map er_F (clipr k C tot l) = clip k C tot (map er_F l).
Proof. induction k; intros [|r t] tot; cbn; auto; rewrite IHk; reflexivity. Qed.
Lemma upd_app pre f l : upd_row (length pre) f (pre ++ l) = pre ++ upd_row 0 f l.
Proof. induction pre; cbn; [destruct l; reflexivity|rewrite IHpre; reflexivity]. Qed.
Lemma group_clip Fg k : forall pre l tot, (k <= length l)%nat ->
  group_loop (seq (length pre) k) Fg tot (pre ++ l) = pre ++ clipr k Fg tot l.
Proof.
  induction k as [|k IH]; intros pre l tot Hk; [cbn; destruct l; reflexivity|].
  destruct l as [|r t]; [cbn in Hk; lia|].
  cbn [seq group_loop clipr]; unfold F_at; rewrite nth_error_app2, Nat.sub_diag by lia; cbn [nth_error].
  rewrite upd_app; cbn [upd_row].
  change (pre ++ set_F (Rmin (er_F r) (Fg - tot)) r :: t) with (pre ++ ([set_F (Rmin (er_F r) (Fg - tot)) r] ++ t)).
  rewrite app_assoc.
  replace (S (length pre)) with (length (pre ++ [set_F (Rmin (er_F r) (Fg - tot)) r])) by (rewrite app_length; cbn; lia).
  rewrite IH by (cbn in Hk; lia); rewrite <- app_assoc; reflexivity.
Qed.
Lemma comp_clip C : forall l tot, Forall (fun r => er_shear r = false) l -> comp_loop C tot l = clipr (length l) C tot l.
Proof. induction l; intros tot H; cbn; auto; inversion H; subst; rewrite H2, IHl; auto. Qed.
Lemma clipr_shear k C : forall l tot, Forall (fun r => er_shear r = false) l -> Forall (fun r => er_shear r = false) (clipr k C tot l).
Proof. induction k; intros [|r t] tot H; cbn; auto; inversion H; subst; constructor; auto. Qed.
Lemma clipr_h k C : forall l tot, map er_h (clipr k C tot l) = map er_h l.
Proof. induction k; intros [|r t] tot; cbn; auto; rewrite IHk; reflexivity. Qed.
Lemma clipr_len k C : forall l tot, length (clipr k C tot l) = length l.
Proof. intros; rewrite <- (map_length er_h), clipr_h, map_length; reflexivity. Qed.
Lemma moment_rows l : row_moment l = moment_of (map er_F l) (map er_h l).
Proof. unfold row_moment, moment_of; induction l; cbn [map combine fst snd]; rewrite ?Rsum_cons; [reflexivity|rewrite IHl; reflexivity]. Qed.

Lemma row_loop_tension : forall l res, Forall (fun r => er_shear r = false) l -> map er_res l = map Some res ->
  exists l1, row_loop l = Some l1 /\ map er_F l1 = res /\ map er_h l1 = map er_h l /\ Forall (fun r => er_shear r = false) l1.
Proof.
  induction l as [|r t IH]; intros res Hs Hr; destruct res as [|x res]; try discriminate.
  - exists []; repeat split; constructor.
  - injection Hr as E1 E2; inversion Hs; subst.
    destruct (IH res H2 E2) as (l1 & A & B & D & E).
    exists (set_F x r :: l1); cbn [row_loop]; rewrite H1, E1, A; cbn.
    rewrite B, D; repeat split; constructor; auto.
Qed.

(* ---------------------------------------------------------------- optimality *)

Definition good (res f : list R) (K : nat) (caps : list (nat * R)) : Prop :=
  Forall2 (fun x r => 0 <= x <= r) f res /\
  Forall (fun kc => psum (fst kc) f <= snd kc) caps /\
  (forall i, (K <= i)%nat -> psum i f - psum K f = psum i res - psum K res) /\
  (forall g, Forall2 (fun x r => 0 <= x <= r) g res -> Forall (fun kc => psum (fst kc) g <= snd kc) caps ->
     forall i, psum i g <= psum i f).
Lemma adm_nonneg g res : Forall2 (fun x r => 0 <= x <= r) g res -> Forall (fun x => 0 <= x) g.
Proof. induction 1; constructor; auto; lra. Qed.
Lemma adm_psum g res : Forall2 (fun x r => 0 <= x <= r) g res -> forall k i, (k <= i)%nat -> psum i g - psum k g <= psum i res - psum k res.
Proof.
  induction 1; intros k i Hi; rewrite ?psum_nil; try lra.
  destruct i; [replace k with 0%nat by lia; lra|].
  destruct k; rewrite ?psum_S, ?psum_0.
  - specialize (IHForall2 0%nat i ltac:(lia)); rewrite !psum_0 in IHForall2; lra.
  - specialize (IHForall2 k i ltac:(lia)); lra.
Qed.
Lemma good_step res f K k c caps : good res f K caps -> (K <= k)%nat -> 0 <= c -> good res (clip k c 0 f) k ((k, c) :: caps).
Proof.
  intros (Ha & Hc & Ht & Ho) HK Hc0.
  pose proof (adm_nonneg _ _ Ha) as Hn.
  assert (P : forall i, psum i (clip k c 0 f) = Rmin (psum (Nat.min i k) f) c + (psum i f - psum (Nat.min i k) f)).
  { intros i; pose proof (clip_psum k c f 0 i Hn Hc0) as E; rewrite !Rplus_0_l in E; exact E. }
  assert (Pk : psum k (clip k c 0 f) = Rmin (psum k f) c) by (rewrite P, Nat.min_id; lra).
  assert (Ple : forall i, psum i (clip k c 0 f) <= psum i f).
  { intros i; rewrite P; pose proof (Rmin_l (psum (Nat.min i k) f) c); lra. }
  repeat split.
  - pose proof (clip_le k c f 0) as L; pose proof (clip_nonneg k c f 0 Hn Hc0) as N0.
    revert L N0 Ha; generalize (clip k c 0 f); clear; intros f' L; revert res; induction L; intros res N0 Ha; inversion Ha; subst; constructor.
    + inversion N0; subst; lra.
    + apply IHL; auto; inversion N0; auto.
  - constructor; [cbn [fst snd]; rewrite Pk; apply Rmin_r|].
    eapply Forall_impl; [|exact Hc]; intros kc Hkc; pose proof (Ple (fst kc)); lra.
  - intros i Hi; rewrite Pk, P, Nat.min_r by lia.
    pose proof (Ht i ltac:(lia)); pose proof (Ht k HK); lra.
  - intros g Hg Hgc i.
    inversion Hgc as [|? ? Hk Hgc']; subst; cbn [fst snd] in Hk.
    pose proof (adm_nonneg _ _ Hg) as Hgn.
    rewrite P; destruct (Nat.le_gt_cases i k) as [Hi|Hi].
    + rewrite Nat.min_l by lia.
      pose proof (psum_mono k i g Hgn Hi); pose proof (Ho g Hg Hgc' i).
      pose proof (Rmin_glb (psum i f) c (psum i g) ltac:(lra) ltac:(lra)); lra.
    + rewrite Nat.min_r by lia.
      pose proof (adm_psum g res Hg k i ltac:(lia)); pose proof (Ht i ltac:(lia)); pose proof (Ht k HK).
      pose proof (Rmin_glb (psum k f) c (psum k g) (Ho g Hg Hgc' k) Hk); lra.
Qed.

Lemma groups_good res : forall caps l K done, Forall (fun r => er_shear r = false) l ->
  good res (map er_F l) K done -> chain K caps (length l) -> (K <= length l)%nat ->
  exists l2 K', groups_loop (map (fun kc => (seq 0 (fst kc), Some (snd kc))) caps) l = Some l2 /\
    Forall (fun r => er_shear r = false) l2 /\ map er_h l2 = map er_h l /\ (K' <= length l2)%nat /\
    good res (map er_F l2) K' (rev caps ++ done).
Proof.
  induction caps as [|[k c] t IH]; intros l K done Hs Hg Hc HK.
  - exists l, K; repeat split; auto; apply Hg.
  - destruct Hc as (H1 & H2 & H3 & H4).
    cbn [map fst snd groups_loop bind].
    pose proof (group_clip c k [] l 0 H2) as E; cbn [length app] in E; rewrite E.
    destruct (IH (clipr k c 0 l) k ((k, c) :: done)) as (l2 & K' & A & B & D & F & G).
    + apply clipr_shear; auto.
    + rewrite clipr_F; eapply good_step; eauto.
    + rewrite clipr_len; auto.
    + rewrite clipr_len; auto.
    + exists l2, K'; split; [exact A|split; [exact B|split; [rewrite D, clipr_h; reflexivity|split; [exact F|]]]].
      cbn [rev]; rewrite <- app_assoc; exact G.
Qed.

Lemma greedy_opt_lemma l res h caps Fcom :
  tension_joint l res h -> falling h -> Forall (fun r => 0 <= r) res -> chain 0 caps (length l) -> 0 <= Fcom ->
  exists l' M f, bend Fcom (map (fun kc => (seq 0 (fst kc), Some (snd kc))) caps) l = Some (l', M) /\
    map er_F l' = f /\ admissible res caps Fcom f /\ M = moment_of f h /\
    (forall g, admissible res caps Fcom g -> moment_of g h <= M) /\
    (forall g, admissible res caps Fcom g -> Rsum g <= Rsum f).
Proof.
  intros (Hs & Hr & Hh) Hf Hp Hc HF.
  destruct (row_loop_tension l res Hs Hr) as (l1 & A & B & D & E).
  assert (L1 : length l1 = length l) by (rewrite <- (map_length er_h), D, map_length; reflexivity).
  assert (G0 : good res (map er_F l1) 0 []).
  { rewrite B; repeat split; auto.
    - clear -Hp; induction Hp; constructor; auto; lra.
    - intros g Hg _ i; pose proof (adm_psum g res Hg 0%nat i ltac:(lia)) as Q; rewrite !psum_0 in Q; lra. }
  rewrite <- L1 in Hc.
  destruct (groups_good res caps l1 0%nat [] E G0 Hc ltac:(lia)) as (l2 & K' & A2 & B2 & D2 & F2 & G2).
  rewrite app_nil_r in G2.
  pose proof (good_step res (map er_F l2) K' (length l2) Fcom (rev caps) G2 F2 HF) as G3.
  rewrite <- clipr_F in G3.
  unfold bend; rewrite A; cbn [bind]; rewrite A2; cbn [bind]; rewrite comp_clip by exact B2.
  set (l3 := clipr (length l2) Fcom 0 l2) in *.
  exists l3, (row_moment l3), (map er_F l3); split; [reflexivity|split; [reflexivity|]].
  assert (H3 : map er_h l3 = h) by (unfold l3; rewrite clipr_h, D2, D, Hh; reflexivity).
  assert (Len : length (map er_F l3) = length h) by (rewrite <- H3, !map_length; reflexivity).
  destruct G3 as (Ga & Gc & _ & Go).
  pose proof (Forall_inv Gc) as Gk; pose proof (Forall_inv_tail Gc) as Gc'; cbn [fst snd] in Gk.
  rewrite psum_all in Gk by (rewrite map_length; unfold l3; rewrite clipr_len; lia).
  assert (Best : forall g, admissible res caps Fcom g -> forall i, psum i g <= psum i (map er_F l3)).
  { intros g (G1 & Gs & Gcap); apply Go; auto; constructor.
    - cbn [fst snd]; apply Rle_trans with (2 := Gs); unfold psum.
      rewrite firstn_all2; [lra|].
      rewrite (f2_len G1), <- (f2_len Ga), map_length; unfold l3; rewrite clipr_len; lia.
    - apply Forall_forall; intros x Hx; rewrite <- in_rev in Hx; rewrite Forall_forall in Gcap; auto. }
  split; [|split; [|split]].
  - repeat split; auto.
    apply Forall_forall; intros x Hx; rewrite in_rev in Hx; rewrite Forall_forall in Gc'; auto.
  - rewrite moment_rows, H3; reflexivity.
  - intros g Hg; rewrite moment_rows, H3.
    assert (Lg : length g = length h).
    { destruct Hg as (G1 & _); rewrite (f2_len G1), <- (f2_len Ga); exact Len. }
    pose proof (abel (map er_F l3) g h 0 (match h with [] => 0 | a :: _ => a end) Len Lg Hf ltac:(destruct h; lra) ltac:(lra)) as Ab.
    assert (Q : forall i, psum i g <= 0 + psum i (map er_F l3)) by (intros i; pose proof (Best g Hg i); lra).
    specialize (Ab Q); lra.
  - intros g Hg; pose proof (Best g Hg (length g + length l3)%nat) as Q.
    rewrite !psum_all in Q; [exact Q| |]; rewrite ?map_length; lia.
Qed.
