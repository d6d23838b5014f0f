(** Profiles: splitting, scaling, torsion, integrals. *)
From Verif Require Import Tac EC3_proofs Sections_proofs Loads2_proofs Prof_proofs Prof2_proofs Prof3_proofs Prof4_proofs.
From Verif Require Import Prof_model Prof_spec.
Require Import Psatz.
Open Scope R_scope.
Notation C2 p f g := (Cc (dAs p) f g (Np p)).

Lemma chain_mid L1 A B L2 m : chain (L1 ++ A :: B :: L2) ->
  ww m = ww A + cross (fst A) (fst m) -> ww B = ww m + cross (fst m) (fst B) -> chain (L1 ++ A :: m :: B :: L2).
Proof.
  intros C E F. induction L1 as [|x L1 IH]; cbn [app] in *.
  - apply chain_cons in C. apply chain_cons. split; [exact E|]. apply chain_cons. split; [exact F|exact (proj2 C)].
  - destruct L1 as [|y L1]; cbn [app] in *; apply chain_cons in C; destruct C as (C1 & C3); apply chain_cons; (split; [exact C1|]); apply IH; exact C3.
Qed.
Lemma map_split {X Y} (f : X -> Y) : forall l a b r n, map f l = a ++ b :: r -> length a = n -> exists l1 x l2, l = l1 ++ x :: l2 /\ map f l1 = a /\ f x = b /\ map f l2 = r.
Proof.
  induction l as [|x l IH]; intros a b r n E L; destruct a as [|y a]; try discriminate.
  - injection E as E1 E2. exists [], x, l. auto.
  - injection E as E1 E2. destruct (IH a b r (length a) E2 eq_refl) as (l1 & x1 & l2 & -> & E3 & E4 & E5). exists (x :: l1), x1, l2. cbn. rewrite E1, E3. auto.
Qed.
Lemma sqrt_scale s x : 0 <= s -> 0 <= x -> sqrt (s ^ 2 * x) = s * sqrt x.
Proof. intros H X. rewrite sqrt_mult by nra. replace (s ^ 2) with (s * s) by ring. rewrite sqrt_square by auto. reflexivity. Qed.
Lemma split_lemma n s p q : wf p -> 0 <= s <= 1 -> split_segment n s p = Some q ->
  wf q /\ same_api p q.
Proof.
  intros W SS E. unfold split_segment in E. destruct (nth_error (segs p) n) as [[[a b] t]|] eqn:NE; [|discriminate].
  set (m := (fst a + s * (fst b - fst a), snd a + s * (snd b - snd a))) in *.
  destruct (segs_nth _ _ _ _ _ _ NE) as (E1 & E2 & L1 & L2).
  set (l1 := firstn n (pn p)) in *. set (l2 := skipn (S (S n)) (pn p)) in *. set (t1 := firstn n (pst p)) in *. set (t2 := skipn (S n) (pst p)) in *.
  assert (F1 : firstn (S n) (pn p) = l1 ++ [a]).
  { rewrite E1. rewrite firstn_app, L1. replace (S n - n)%nat with 1%nat by lia. rewrite firstn_all2 by (rewrite L1; lia). reflexivity. }
  assert (F2 : skipn (S n) (pn p) = b :: l2).
  { rewrite E1 at 1. rewrite skipn_app, L1. replace (S n - n)%nat with 1%nat by lia. rewrite skipn_all2 by (rewrite L1; lia). reflexivity. }
  rewrite F1, F2 in E. rewrite <- app_assoc in E. cbn [app] in E. injection E as <-.
  set (q := mkProf (l1 ++ a :: m :: b :: l2) (t1 ++ t :: t :: t2) (parr p)).
  assert (Wq : wf q). { unfold wf in *. cbn. rewrite E1, E2 in W. rewrite !app_length in *. cbn in *. lia. }
  split; [exact Wq|].
  (* areas *)
  assert (LL : length l1 = length t1) by lia.
  assert (Dp : dAs p = map seg_area (segs_of (l1 ++ [a]) t1) ++ seg_area (a, b, t) :: map seg_area (segs_of (b :: l2) t2)).
  { unfold dAs, segs. rewrite E1, E2. rewrite segs_app by exact LL. rewrite map_app, segs_cons. reflexivity. }
  assert (Dq : dAs q = map seg_area (segs_of (l1 ++ [a]) t1) ++ seg_area (a, m, t) :: seg_area (m, b, t) :: map seg_area (segs_of (b :: l2) t2)).
  { unfold dAs, segs. cbn [pn pst q]. rewrite segs_app by exact LL. rewrite map_app, !segs_cons. reflexivity. }
  assert (X0 : 0 <= (fst b - fst a) ^ 2 + (snd b - snd a) ^ 2) by (apply Rplus_le_le_0_compat; apply pow2_ge_0).
  assert (A1 : seg_area (a, m, t) = s * seg_area (a, b, t)).
  { unfold seg_area, seg_len. subst m. cbn [fst snd]. replace ((fst a + s * (fst b - fst a) - fst a) ^ 2 + (snd a + s * (snd b - snd a) - snd a) ^ 2) with (s ^ 2 * ((fst b - fst a) ^ 2 + (snd b - snd a) ^ 2)) by ring.
    rewrite sqrt_scale by lra. ring. }
  assert (A2 : seg_area (m, b, t) = (1 - s) * seg_area (a, b, t)).
  { unfold seg_area, seg_len. subst m. cbn [fst snd]. replace ((fst b - (fst a + s * (fst b - fst a))) ^ 2 + (snd b - (snd a + s * (snd b - snd a))) ^ 2) with ((1 - s) ^ 2 * ((fst b - fst a) ^ 2 + (snd b - snd a) ^ 2)) by ring.
    rewrite sqrt_scale by lra. ring. }
  rewrite A1, A2 in Dq.
  (* sectorial coordinates *)
  pose proof (N_fst (pn p) 0) as NF. fold (Np p) in NF. rewrite E1 in NF.
  destruct (map_split fst (Np p) l1 a (b :: l2) n NF L1) as (P1 & A & P2 & EP & M1 & M2 & M3).
  destruct P2 as [|B P2]; [discriminate|]. cbn [map] in M3. injection M3 as M3 M4.
  pose proof (chain_N (pn p) 0) as CH. fold (Np p) in CH. rewrite EP in CH.
  set (mid := (m, ww A + s * (ww B - ww A)) : pt2 * R).
  assert (STEP : ww B = ww A + cross (fst A) (fst B)).
  { clear -CH. induction P1 as [|x P1 IH]; cbn [app] in CH; [apply chain_cons in CH; exact (proj1 CH)|]. destruct P1; cbn [app] in CH; apply chain_cons in CH; apply IH; exact (proj2 CH). }
  assert (CH' : chain (P1 ++ A :: mid :: B :: P2)).
  { apply chain_mid; [exact CH| |].
    - unfold mid, ww at 1. cbn [snd fst]. rewrite STEP. rewrite M2, M3. unfold m, cross. cbn [fst snd]. ring.
    - unfold mid at 1 2, ww at 2. cbn [snd fst]. rewrite STEP. rewrite M2, M3. unfold m, cross. cbn [fst snd]. ring. }
  destruct (Nw_from (pn q) 0 (P1 ++ A :: mid :: B :: P2) CH') as (k & K).
  { rewrite map_app. cbn [map pn q]. rewrite M1, M2, M3, M4. reflexivity. }
  { apply wf_ne; exact Wq. }
  assert (K0 : k = 0).
  { assert (H0 : exists x r, P1 ++ A :: mid :: B :: P2 = x :: r /\ ww x = 0).
    { pose proof (N_length (pn p) 0). destruct (pn p) as [|x0 r0] eqn:PN; [destruct l1; discriminate|]. destruct (N_hd x0 r0 0) as (tl & TL). unfold Np in EP. rewrite PN in EP. rewrite TL in EP.
      destruct P1 as [|x P1]; cbn [app] in EP |- *; injection EP as <- _; do 2 eexists; (split; [reflexivity|reflexivity]). }
    destruct H0 as (x & r & X1 & X2). rewrite X1 in K. pose proof (wf_ne q Wq) as NEq. destruct (pn q) as [|y0 r0] eqn:PN; [congruence|]. destruct (N_hd y0 r0 0) as (tl & TL). rewrite TL in K. cbn [map] in K. injection K as _ K _. lra. }
  assert (NQ : Np q = P1 ++ A :: mid :: B :: P2).
  { unfold Np. rewrite K, K0. transitivity (map (fun x : pt2 * R => x) (P1 ++ A :: mid :: B :: P2)); [|apply map_id]. apply map_ext. intros [u v]. unfold ww. cbn. f_equal. ring. }
  assert (MM : forall f g, basic f -> basic g -> M (dAs q) f g (Np q) = M (dAs p) f g (Np p)).
  { intros f g F G. rewrite Dp, Dq, NQ, EP. apply M_split.
    - destruct F as [-> | [-> | [-> | ->]]]; unfold one, yy, zz; try ring.
      + unfold mid. cbn [fst]. rewrite M2, M3. unfold m. cbn. reflexivity.
      + unfold mid. cbn [fst]. rewrite M2, M3. unfold m. cbn. reflexivity.
      + reflexivity.
    - destruct G as [-> | [-> | [-> | ->]]]; unfold one, yy, zz; try ring.
      + unfold mid. cbn [fst]. rewrite M2, M3. unfold m. cbn. reflexivity.
      + unfold mid. cbn [fst]. rewrite M2, M3. unfold m. cbn. reflexivity.
      + reflexivity.
    - rewrite map_length, segs_len by (rewrite app_length; cbn; lia). assert (length P1 = length l1) by (rewrite <- M1, map_length; reflexivity). lia. }
  assert (BB : basic one /\ basic yy /\ basic zz /\ basic ww) by (unfold basic; tauto). destruct BB as (B1 & B2 & B3 & B4).
  apply api_eq; auto.
  - rewrite !area_M. apply MM; auto.
  - intros _. apply Cc_same. exact MM.
Qed.
Lemma split_torsion_lemma n s p q : wf p -> length (parr p) = length (pst p) -> (2 <= length (pst p))%nat -> split_segment n s p = Some q ->
  torsion_constant p <> None /\ torsion_constant q = None.
Proof.
  intros W L2 L E. unfold torsion_constant.
  assert (Lp : length (map seg_area (segs p)) = length (pst p)) by (rewrite map_length; apply segs_len; exact W).
  assert (Lq : length (map seg_area (segs q)) = S (length (pst p))).
  { unfold split_segment in E. destruct (nth_error (segs p) n) as [[[a b] t]|] eqn:NE; [|discriminate]. injection E as <-.
    destruct (segs_nth _ _ _ _ _ _ NE) as (E1 & E2 & L3 & L4). rewrite map_length. unfold segs. cbn [pn pst].
    assert (Q : (length (firstn n (pst p) ++ t :: t :: skipn (S n) (pst p)) = S (length (pst p)))%nat) by (rewrite E2 at 3; rewrite !app_length; cbn [length]; lia).
    rewrite segs_len; [exact Q|]. change (length (firstn (S n) (pn p) ++ (fst a + s * (fst b - fst a), snd a + s * (snd b - snd a)) :: skipn (S n) (pn p)) = S (length (firstn n (pst p) ++ t :: t :: skipn (S n) (pst p)))). rewrite Q. pose proof (firstn_skipn (S n) (pn p)) as FS. apply (f_equal (@length pt2)) in FS. rewrite app_length in *. cbn [length]. unfold wf in W. lia. }
  assert (Pq : parr q = parr p).
  { unfold split_segment in E. destruct (nth_error (segs p) n) as [[[a b] t]|]; [|discriminate]. injection E as <-. reflexivity. }
  split.
  - unfold bcast. rewrite !map_length in *. rewrite Lp, L2, Nat.eqb_refl. discriminate.
  - rewrite Pq. unfold bcast. rewrite !map_length in *. rewrite Lq, L2. replace (Nat.eqb (S (length (pst p))) (length (pst p))) with false by (symmetry; apply Nat.eqb_neq; lia).
    destruct (map seg_area (segs q)) as [|x [|y l]] eqn:MQ.
    + apply (f_equal (@length R)) in MQ. rewrite map_length in MQ. cbn in MQ. lia.
    + apply (f_equal (@length R)) in MQ. rewrite map_length in MQ. cbn in MQ. lia.
    + destruct (map (fun t => t ^ 2) (parr p)) as [|u [|v w]] eqn:MP; try reflexivity. apply (f_equal (@length R)) in MP. rewrite map_length in MP. cbn in MP. lia.
Qed.
