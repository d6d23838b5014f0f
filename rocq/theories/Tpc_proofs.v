Require Import Reals List Bool Lra Lia Psatz PeanoNat. Import ListNotations.
From Verif Require Import Base EC3_model Bool_tac EC3_proofs Plate_proofs Sections_proofs.
From Verif Require Import Tpc_model Tpc_spec.
Local Open Scope R_scope.

Lemma tpc_close a b : close10 a b = true.
Proof.
  unfold close10. apply Rleb_true. pose proof (Rabs_triang a (- b)) as H. rewrite Rabs_Ropp in H.
  pose proof (Rmax_l (10 * Rabs a) (10 * Rabs b)). pose proof (Rmax_r (10 * Rabs a) (10 * Rabs b)).
  pose proof (Rabs_pos a). pose proof (Rabs_pos b). unfold Rminus. lra.
Qed.
Lemma tpc_idx x y pts : forall i acc, pts <> [] -> close_idx x y pts i acc = Some (i + length pts - 1)%nat.
Proof.
  induction pts as [|p pts IH]; intros i acc N; [congruence|]. cbn [close_idx]. rewrite !tpc_close. cbn [andb].
  destruct pts as [|q pts]; [cbn; f_equal; lia|]. rewrite IH by discriminate. cbn [length]. f_equal. lia.
Qed.
Lemma tpc_last (l : list R) : l <> [] -> nth_error l (length l - 1) = Some (last l 0).
Proof.
  induction l as [|x l IH]; [congruence|]. intros _. destruct l as [|y l]; [reflexivity|].
  replace (length (x :: y :: l) - 1)%nat with (S (length (y :: l) - 1)) by (cbn; lia). cbn [nth_error]. rewrite IH by discriminate. reflexivity.
Qed.
Definition tpc_os (m : tmem) : bool := orb (Nat.eqb (length (t_pts m) - 1) 0) (Reqb (INR (length (t_pts m) - 1)) (t_last m)).
Lemma tpc_os_iff m : t_pts m <> [] -> (tpc_os m = true <-> one_sided m).
Proof.
  intros N. unfold tpc_os, one_sided. rewrite Bool.orb_true_iff, Nat.eqb_eq, Reqb_true.
  destruct (t_pts m); [congruence|]. cbn [length]. split; (intros [H|H]; [left; lia|right; exact H]).
Qed.
Lemma tpc_leff m x y H : t_pts m <> [] -> 0 < H -> lc90ef m (close_idx x y (t_pts m) 0 None) H = eff_length (tpc_os m) H.
Proof.
  intros N P. rewrite tpc_idx by auto. cbn [Nat.add]. unfold lc90ef, eff_length. fold (tpc_os m).
  destruct (tpc_os m); [|lra]. rewrite (Rmin_right 30 0) by lra. rewrite (Rmin_left 0 H) by lra. lra.
Qed.
Lemma tpc_eff_pos os H : 0 < H -> 0 < eff_length os H.
Proof. intros P. assert (0 < Rmin 30 H) by (apply Rmin_glb_lt; lra). unfold eff_length. destruct os; lra. Qed.
Lemma tpc_sigma m n c : 0 < t_B m -> t_pts m <> [] -> complete c -> get_sigma m n c = Some (- contact_stress m (tpc_os m) c (last (c_ned c) 0)).
Proof.
  intros B N (H & W & P & L). unfold get_sigma. rewrite tpc_idx by auto. cbn [bind Nat.add].
  assert (NE : c_ned c <> []). { intros E. rewrite E in L. destruct (c_pts c); [congruence|discriminate]. }
  rewrite <- L, tpc_last by auto. cbn [bind].
  set (Nl := last (c_ned c) 0). unfold contact_stress. fold Nl.
  pose proof (tpc_eff_pos (tpc_os m) _ H) as EP. assert (BP : 0 < Rmin (c_B c) (t_B m)) by (apply Rmin_glb_lt; auto).
  destruct (Rleb 0 Nl) eqn:Z.
  - apply Rleb_true in Z. rewrite Rmax_left by lra. f_equal. unfold Rdiv. ring.
  - apply Rleb_false in Z. rewrite tpc_leff by auto. rewrite Rmax_right by lra.
    assert (0 < eff_length (tpc_os m) (c_H c) * Rmin (c_B c) (t_B m)) by (apply Rmult_lt_0_compat; auto).
    rewrite pdiv_ok by lra. f_equal. unfold Rdiv. ring.
Qed.
Lemma tpc_sigmas m n cs : 0 < t_B m -> t_pts m <> [] -> Forall complete cs ->
  sigmas m n cs = Some (map (fun c => - contact_stress m (tpc_os m) c (last (c_ned c) 0)) cs).
Proof.
  intros B N. induction 1 as [|c cs H F IH]; [reflexivity|]. cbn [sigmas]. rewrite tpc_sigma by auto. cbn [bind]. rewrite IH. reflexivity.
Qed.
Lemma tpc_fold_min l : forall x, In (fold_left Rmin l x) (x :: l) /\ forall y, In y (x :: l) -> fold_left Rmin l x <= y.
Proof.
  induction l as [|a l IH]; intros x; cbn [fold_left].
  - split; [left; auto|]. intros y [<-|[]]; lra.
  - destruct (IH (Rmin x a)) as (A & B). split.
    + destruct A as [A|A]; [|right; right; exact A]. rewrite <- A. unfold Rmin. destruct (Rle_dec x a); [left; auto|right; left; auto].
    + assert (M := B (Rmin x a) (or_introl eq_refl)). pose proof (Rmin_l x a). pose proof (Rmin_r x a).
      intros y [<-|[<-|Hy]]; [lra|lra|apply B; right; auto].
Qed.
Lemma tpc_stress_pos m os c N : complete c -> 0 < t_B m -> 0 <= contact_stress m os c N.
Proof.
  intros (H & W & _) B. unfold contact_stress. apply Rmult_le_pos; [apply Rmax_l|]. left. apply Rinv_0_lt_compat, Rmult_lt_0_compat; [apply tpc_eff_pos; auto|apply Rmin_glb_lt; auto].
Qed.
Lemma tpc_node m n : 0 < t_B m -> t_pts m <> [] -> Forall complete (others n) ->
  exists v, node_sigma m n = Some (- v) /\ governs m n (tpc_os m) v /\ 0 <= v.
Proof.
  intros B N F. unfold node_sigma, governs. destruct (alone n) eqn:A.
  - exists 0. split; [f_equal; ring|]. split; [auto|lra].
  - rewrite tpc_sigmas by auto. cbn [option_map]. destruct (others n) as [|c cs] eqn:O; [exfalso; unfold alone in A; rewrite O in A; rewrite Bool.orb_true_r in A; discriminate|].
    cbn [map pmin]. set (g := fun c => - contact_stress m (tpc_os m) c (last (c_ned c) 0)) in *.
    destruct (tpc_fold_min (map g cs) (g c)) as (I & L). exists (- fold_left Rmin (map g cs) (g c)).
    split; [change (Some (fold_left Rmin (map g cs) (g c)) = Some (- - fold_left Rmin (map g cs) (g c))); f_equal; ring|]. change (g c :: map g cs) with (map g (c :: cs)) in I, L. apply in_map_iff in I. destruct I as (d & D & ID).
    split; [split|].
    + exists d. split; [auto|]. rewrite <- D. unfold g. ring.
    + intros e He. assert (X := L (g e) (in_map g _ _ He)). unfold g at 3 in X. lra.
    + rewrite <- D. unfold g. rewrite Ropp_involutive. rewrite Forall_forall in F. apply tpc_stress_pos; auto.
Qed.

Lemma tpc_find m (sg : tnode -> R) ns : (forall n, In n ns -> node_sigma m n = Some (sg n)) -> forall i b a,
  exists b' a', find_max m ns i b a = Some (b', a') /\
  ((b' = b /\ a' = a /\ forall n, In n ns -> Rabs (sg n) <= Rabs b) \/
   (exists j n, a' = Some (i + j)%nat /\ nth_error ns j = Some n /\ b' = sg n /\ Rabs b < Rabs b' /\
     (forall q, In q ns -> Rabs (sg q) <= Rabs b') /\
     forall j' q, (j' < j)%nat -> nth_error ns j' = Some q -> Rabs (sg q) < Rabs b')).
Proof.
  induction ns as [|n ns IH]; intros HS i b a.
  - exists b, a. split; [reflexivity|]. left. split; [auto|]. split; [auto|]. intros x [].
  - cbn [find_max]. rewrite (HS n) by (left; auto). cbn [bind].
    assert (HS' : forall q, In q ns -> node_sigma m q = Some (sg q)) by (intros q Hq; apply HS; right; auto).
    destruct (Rltb (Rabs b) (Rabs (sg n))) eqn:C.
    + apply Rltb_true in C. destruct (IH HS' (S i) (sg n) (Some i)) as (b' & a' & E & [(B & A & L)|(j & q & A & Q & B & G & L & FST)]); exists b', a'; (split; [exact E|]); right.
      * exists 0%nat, n. subst. rewrite Nat.add_0_r. split; [auto|]. split; [auto|]. split; [auto|]. split; [auto|]. split; [intros q [<-|Hq]; [lra|auto]|]. intros j' q J. lia.
      * exists (S j), q. split; [rewrite A; f_equal; lia|]. split; [auto|]. split; [auto|]. split; [lra|]. split; [intros p [<-|Hp]; [lra|auto]|].
        intros [|j'] p J E'; cbn in E'; [injection E' as <-; lra|]. apply (FST j' p); [lia|auto].
    + apply Rltb_false in C. destruct (IH HS' (S i) b a) as (b' & a' & E & [(B & A & L)|(j & q & A & Q & B & G & L & FST)]); exists b', a'; (split; [exact E|]).
      * left. subst. split; [auto|]. split; [auto|]. intros q [<-|Hq]; [lra|auto].
      * right. exists (S j), q. split; [rewrite A; f_equal; lia|]. split; [auto|]. split; [auto|]. split; [lra|]. split; [intros p [<-|Hp]; [lra|auto]|].
        intros [|j'] p J E'; cbn in E'; [injection E' as <-; lra|]. apply (FST j' p); [lia|auto].
Qed.

(* the loop for the factor *)
Fixpoint tpc_kf (m : tmem) (c : tnode) (F : list tnode) (l1 k : option R) : option R :=
  match F with
  | [] => k
  | n :: F => let l := match l1 with None => dist_n c n | Some v => Rmin v (dist_n c n) end in tpc_kf m c F (Some l) (Some (kc90 m l (depth_at n)))
  end.
Lemma tpc_loop m c ci ns : forall i l1 k, kc_loop m c ci ns i l1 k =
  tpc_kf m c (map snd (filter (fun p => andb (negb (Nat.eqb (fst p) ci)) (negb (alone (snd p)))) (combine (seq i (length ns)) ns))) l1 k.
Proof.
  induction ns as [|n ns IH]; intros i l1 k; [reflexivity|]. cbn [kc_loop length seq combine filter fst snd].
  destruct (alone n); cbn [orb negb andb]; [rewrite Bool.andb_false_r; apply IH|].
  destruct (Nat.eqb i ci); cbn [negb andb]; [apply IH|]. cbn [map snd tpc_kf]. rewrite IH.
  assert (E : match l1 with Some v => if Rltb (dist_n c n) v then dist_n c n else v | None => dist_n c n end = match l1 with Some v => Rmin v (dist_n c n) | None => dist_n c n end).
  { destruct l1 as [v|]; [|auto]. destruct (Rltb (dist_n c n) v) eqn:C; [apply Rltb_true in C; rewrite Rmin_right; lra|apply Rltb_false in C; rewrite Rmin_left; lra]. }
  rewrite E. reflexivity.
Qed.
Lemma tpc_kf_some m c F : forall l k n0, F <> [] -> exists d, tpc_kf m c F l k = Some (kc90 m d (depth_at (last F n0))) /\
  (In d (map (dist_n c) F) \/ l = Some d) /\ (forall n, In n F -> d <= dist_n c n) /\ (forall v, l = Some v -> d <= v).
Proof.
  induction F as [|n F IH]; intros l k n0 NE; [congruence|]. cbn [tpc_kf]. set (l' := match l with None => _ | Some v => _ end).
  assert (L1 : l' = dist_n c n \/ l = Some l'). { unfold l'. destruct l as [v|]; [|auto]. unfold Rmin. destruct (Rle_dec v (dist_n c n)); auto. }
  assert (L2 : l' <= dist_n c n). { unfold l'. destruct l as [v|]; [apply Rmin_r|lra]. }
  assert (L3 : forall v, l = Some v -> l' <= v). { intros v ->. apply Rmin_l. }
  destruct F as [|n1 F].
  - exists l'. cbn [tpc_kf last map In]. split; [reflexivity|]. split; [destruct L1; [left; left; auto|right; auto]|]. split; [intros q [<-|[]]; auto|auto].
  - destruct (IH (Some l') (Some (kc90 m l' (depth_at n))) n0 ltac:(discriminate)) as (d & E & I & A & B). exists d.
    split; [rewrite E; reflexivity|]. specialize (B l' eq_refl). split.
    + destruct I as [I|I]; [left; right; exact I|]. injection I as <-. destruct L1 as [->|L1]; [left; left; reflexivity|right; auto].
    + split; [intros q [<-|Hq]; [lra|auto]|]. intros v Hv. specialize (L3 v Hv). lra.
Qed.
Lemma tpc_kpos m l h : 1 <= kc90 m l h <= 25/10.
Proof. unfold kc90. destruct (Rleb _ _); [|lra]. destruct (t_mat m); [lra| |lra]. destruct (Rleb h 400); lra. Qed.

Lemma tpc_main m ns k : well m ns -> (forall v, k = Some v -> 0 < v) ->
  exists os r k', (os = true <-> one_sided m) /\ check_perp m ns k = Some (r, k') /\
  ((r = 0 /\ k' = k /\ forall n v, In n ns -> governs m n os v -> v = 0) \/
   exists ci c v n0, nth_error ns ci = Some c /\ governs m c os v /\ 0 < v /\
     (forall n w, In n ns -> governs m n os w -> w <= v) /\
     (forall j n w, (j < ci)%nat -> nth_error ns j = Some n -> governs m n os w -> w < v) /\
     match other_contacts ci ns with
     | [] => k' = k /\ r = match k with Some f => v / (f * t_f m) | None => 0 end
     | F => exists d, In d (map (dist_n c) F) /\ (forall n, In n F -> d <= dist_n c n) /\
              k' = Some (kc90 m d (depth_at (last F n0))) /\ r = v / (kc90 m d (depth_at (last F n0)) * t_f m)
     end).
Proof.
  intros (B & FP & P & W) KP. exists (tpc_os m).
  assert (UG : forall n v w, governs m n (tpc_os m) v -> governs m n (tpc_os m) w -> v = w).
  { intros n v w. unfold governs. destruct (alone n); [congruence|]. intros ((c & C & ->) & X) ((d & D & ->) & Y). apply Rle_antisym; auto. }
  set (sg := fun n => match node_sigma m n with Some s => s | None => 0 end).
  assert (HS : forall n, In n ns -> node_sigma m n = Some (sg n)).
  { intros n Hn. unfold sg. destruct (tpc_node m n B P (W n Hn)) as (v & E & _). rewrite E. reflexivity. }
  assert (HG : forall n w, In n ns -> governs m n (tpc_os m) w -> Rabs (sg n) = w /\ sg n = - w /\ 0 <= w).
  { intros n w Hn G. unfold sg. destruct (tpc_node m n B P (W n Hn)) as (v & E & G' & Q). rewrite E. rewrite (UG n w v G G'). rewrite Rabs_Ropp, Rabs_right by lra. auto. }
  assert (HE : forall n, In n ns -> exists v, governs m n (tpc_os m) v).
  { intros n Hn. destruct (tpc_node m n B P (W n Hn)) as (v & _ & G & _). eauto. }
  destruct (tpc_find m sg ns HS 0 0 None) as (b & a & E & C). unfold check_perp. rewrite E. cbn [bind fst snd].
  destruct C as [(-> & -> & L)|(j & c & -> & NJ & -> & G & L & FST)].
  - exists 0, k. split; [apply tpc_os_iff; auto|]. split.
    + destruct k as [v|]; [|reflexivity]. specialize (KP v eq_refl). assert (0 < v * t_f m) by (apply Rmult_lt_0_compat; auto).
      rewrite pdiv_ok by lra. cbn [bind]. unfold Rdiv. rewrite Rmult_0_l, Rabs_R0. reflexivity.
    + left. split; [auto|]. split; [auto|]. intros n v Hn Gv. destruct (HG n v Hn Gv) as (A1 & _ & A2). specialize (L n Hn). rewrite Rabs_R0 in L. lra.
  - cbn [Nat.add]. rewrite NJ. rewrite Rabs_R0 in G. assert (Hc : In c ns) by (eapply nth_error_In; eauto).
    destruct (HE c Hc) as (v & Gv). destruct (HG c v Hc Gv) as (A1 & A2 & A3).
    rewrite tpc_loop. fold (other_contacts j ns).
    assert (FIN : forall kk, 0 < kk -> bind (pdiv (sg c) (kk * t_f m)) (fun q => Some (Rabs q, Some kk)) = Some (v / (kk * t_f m), Some kk)).
    { intros kk K. assert (0 < kk * t_f m) by (apply Rmult_lt_0_compat; auto). rewrite pdiv_ok by lra. cbn [bind]. f_equal. f_equal.
      unfold Rdiv. rewrite Rabs_mult, A1. f_equal. apply Rabs_right. apply Rle_ge. left. apply Rinv_0_lt_compat; auto. }
    assert (COMMON : nth_error ns j = Some c /\ governs m c (tpc_os m) v /\ 0 < v /\
     (forall n w, In n ns -> governs m n (tpc_os m) w -> w <= v) /\
     (forall j' n w, (j' < j)%nat -> nth_error ns j' = Some n -> governs m n (tpc_os m) w -> w < v)).
    { split; [auto|]. split; [auto|]. split; [lra|]. split.
      - intros n w Hn Gw. destruct (HG n w Hn Gw) as (C1 & _ & _). specialize (L n Hn). lra.
      - intros j' n w J E' Gw. assert (Hn : In n ns) by (eapply nth_error_In; eauto). destruct (HG n w Hn Gw) as (C1 & _ & _). specialize (FST j' n J E'). lra. }
    destruct COMMON as (K1 & K2 & K3 & K4 & K5).
    destruct (other_contacts j ns) as [|f F] eqn:OC.
    + cbn [tpc_kf]. exists (match k with Some f => v / (f * t_f m) | None => 0 end), k. split; [apply tpc_os_iff; auto|]. split.
      * destruct k as [kk|]; [apply FIN; auto|reflexivity].
      * right. exists j, c, v, c. rewrite OC. auto 10.
    + destruct (tpc_kf_some m c (f :: F) None k c ltac:(discriminate)) as (d & KE & I & A & _). rewrite KE.
      set (kk := kc90 m d (depth_at (last (f :: F) c))) in *. assert (KK : 1 <= kk) by apply tpc_kpos.
      exists (v / (kk * t_f m)), (Some kk). split; [apply tpc_os_iff; auto|]. split; [apply FIN; lra|].
      right. exists j, c, v, c. rewrite OC. split; [auto|]. split; [auto|]. split; [auto|]. split; [auto|]. split; [auto|].
      exists d. split; [destruct I as [I|I]; [exact I|discriminate]|]. auto.
Qed.

Lemma tpc_two_lemma m n0 n1 n2 v w1 w2 os : well m [n0; n1; n2] -> (os = true <-> one_sided m) ->
  alone n0 = false -> alone n1 = false -> alone n2 = false ->
  governs m n0 os v -> governs m n1 os w1 -> governs m n2 os w2 -> w1 < v -> w2 < v -> 0 < v ->
  t_mat m = Mglt -> t_H m * 2 <= dist_n n0 n1 -> t_H m * 2 <= dist_n n0 n2 ->
  check_perp m [n0; n1; n2] None = Some (v / (kc90 m (t_H m * 2) (depth_at n2) * t_f m), Some (kc90 m (t_H m * 2) (depth_at n2))).
Proof.
  intros W OS A0 A1 A2 G0 G1 G2 L1 L2 VP MG D1 D2.
  destruct (tpc_main m [n0; n1; n2] None W ltac:(discriminate)) as (os' & r & k' & OS' & E & C).
  assert (os' = os) by (destruct os, os'; intuition congruence). subst os'. rewrite E.
  assert (UG : forall n v w, governs m n os v -> governs m n os w -> v = w).
  { intros n a b. unfold governs. destruct (alone n); [congruence|]. intros ((c & C1 & ->) & X) ((d & D & ->) & Y). apply Rle_antisym; auto. }
  destruct C as [(_ & _ & Z)|(ci & c & u & n00 & NC & GC & UP & MX & _ & M)].
  { specialize (Z n0 v (or_introl eq_refl) G0). lra. }
  assert (X := MX n0 v (or_introl eq_refl) G0).
  assert (ci = 0%nat /\ c = n0).
  { destruct ci as [|[|[|ci]]]; cbn in NC.
    - injection NC as <-. auto.
    - injection NC as <-. rewrite (UG n1 u w1 GC G1) in X. lra.
    - injection NC as <-. rewrite (UG n2 u w2 GC G2) in X. lra.
    - destruct ci; discriminate. }
  destruct H as (-> & ->). rewrite (UG n0 u v GC G0) in *.
  unfold other_contacts in M. cbn [length seq combine filter map fst snd Nat.eqb negb andb] in M. rewrite A1, A2 in M. cbn [negb map snd last] in M.
  destruct M as (d & I & _ & -> & ->).
  assert (DD : t_H m * 2 <= d). { cbn in I. destruct I as [<-|[<-|[]]]; auto. }
  assert (K : kc90 m d (depth_at n2) = kc90 m (t_H m * 2) (depth_at n2)).
  { unfold kc90. rewrite (proj2 (Rleb_true _ _) DD), (proj2 (Rleb_true (t_H m * 2) (t_H m * 2)) (Rle_refl _)). reflexivity. }
  rewrite K. reflexivity.
Qed.
