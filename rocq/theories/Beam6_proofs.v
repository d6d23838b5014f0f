(** Proofs: properties of the semi-rigid beam, releases and the matrix cache. *)
From Verif Require Import Tac Beam_spec Fem2_proofs Beam_proofs Beam4_proofs.

Definition stiff_ok (r : R) : Prop := 0 < r <= kRigid.
Lemma clamp_ok r : stiff_ok (rot_clamp r).
Proof.
  pose proof kHR. pose proof kHinge_pos. unfold rot_clamp, stiff_ok. destruct r as [v|]; [|lra].
  unfold Rleb. destruct (Rle_dec v kHinge); [lra|]. destruct (Rle_dec kRigid v); lra.
Qed.
Lemma gamma_nonneg E I L r : 0 < E -> 0 < I -> 0 < L -> stiff_ok r -> 0 <= sr_gamma E I L r.
Proof. intros A B C D. destruct (gamma_cases E I L r A B C D) as [(_ & -> & _)|(_ & H & _)]; lra. Qed.

(** all entries of the 6x6 matrix *)
Definition sr_full (E A I L c1 c2 : R) : mat :=
  let r := E * A / L in let g := E * I / L in
  let d := sr_delta c1 c2 in
  let vv := 12 * g * (1 + c1 + c2) / (L ^ 2 * d) in
  let v1 := 6 * g * (1 + 2 * c2) / (L * d) in
  let v2 := 6 * g * (1 + 2 * c1) / (L * d) in
  let t1 := 4 * g * (1 + 3 * c2) / d in
  let t2 := 4 * g * (1 + 3 * c1) / d in
  let t12 := 2 * g / d in
  mrows [[r; 0; 0; - r; 0; 0]; [0; vv; v1; 0; - vv; v2]; [0; v1; t1; 0; - v1; t12];
         [- r; 0; 0; r; 0; 0]; [0; - vv; - v1; 0; vv; - v2]; [0; v2; t12; 0; - v2; t2]].
Lemma sr_full_eq E A I L r1 r2 i j : 0 < E -> 0 < I -> 0 < L -> stiff_ok r1 -> stiff_ok r2 -> (i < 6)%nat -> (j < 6)%nat ->
  sr_k E A I L r1 r2 i j = sr_full E A I L (sr_gamma E I L r1) (sr_gamma E I L r2) i j.
Proof.
  intros HE HI HL H1 H2 Hi Hj. unfold sr_k, put, place. set (B := sr_bend E I L r1 r2).
  assert (EQ : forall a b, (a < 4)%nat -> (b < 4)%nat -> B a b = sr_closed (E * I / L) L (sr_gamma E I L r1) (sr_gamma E I L r2) a b)
    by (intros; apply sr_bend_closed; auto).
  clearbody B.
  six i; try lia; six j; try lia; cbn [existsb fst snd Nat.eqb andb orb pos]; try rewrite EQ by lia; reflexivity.
Qed.
Lemma sr_sym_lemma E A I L r1 r2 i j : 0 < E -> 0 < I -> 0 < L -> stiff_ok r1 -> stiff_ok r2 -> (i < 6)%nat -> (j < 6)%nat ->
  sr_k E A I L r1 r2 i j = sr_k E A I L r1 r2 j i.
Proof. intros HE HI HL H1 H2 Hi Hj. rewrite !sr_full_eq by auto. six i; try lia; six j; try lia; reflexivity. Qed.
Lemma quad_ext n A B u : (forall i j, (i < n)%nat -> (j < n)%nat -> A i j = B i j) -> quad n A u = quad n B u.
Proof. intros H. unfold quad. apply sumn_ext. intros i Hi. f_equal. apply sumn_ext. intros j Hj. rewrite H; auto. Qed.
Lemma sr_psd_lemma E A I L r1 r2 : 0 < E -> 0 <= A -> 0 < I -> 0 < L -> stiff_ok r1 -> stiff_ok r2 -> psd 6 (sr_k E A I L r1 r2).
Proof.
  intros HE HA HI HL H1 H2 u.
  pose proof (gamma_nonneg E I L r1 HE HI HL H1) as G1. pose proof (gamma_nonneg E I L r2 HE HI HL H2) as G2.
  rewrite (quad_ext 6 _ (sr_full E A I L (sr_gamma E I L r1) (sr_gamma E I L r2))) by (intros; apply sr_full_eq; auto).
  set (c := sr_gamma E I L r1) in *. set (e := sr_gamma E I L r2) in *. clearbody c e.
  pose proof (delta_pos c e G1 G2) as DP.
  assert (Q : quad 6 (sr_full E A I L c e) u =
    E * A / L * (u 0%nat - u 3%nat) ^ 2 + E * I / L / sr_delta c e *
     (2 * ((u 2%nat - (u 4%nat - u 1%nat) / L) + (u 5%nat - (u 4%nat - u 1%nat) / L)) ^ 2
      + (2 + 12 * e) * (u 2%nat - (u 4%nat - u 1%nat) / L) ^ 2 + (2 + 12 * c) * (u 5%nat - (u 4%nat - u 1%nat) / L) ^ 2)).
  { unfold quad, sr_full. mx. field. lra. }
  rewrite Q. assert (IV : 0 < / L) by (apply Rinv_0_lt_compat; auto). assert (ID : 0 < / sr_delta c e) by (apply Rinv_0_lt_compat; lra).
  apply Rplus_le_le_0_compat.
  - apply Rmult_le_pos; [|apply pow2_ge_0]. apply Rmult_le_pos; [nra|lra].
  - apply Rmult_le_pos.
    + apply Rmult_le_pos; [apply Rmult_le_pos; nra|lra].
    + repeat apply Rplus_le_le_0_compat; apply Rmult_le_pos; try apply pow2_ge_0; lra.
Qed.
Lemma sr_rigid_motion_lemma E A I L r1 r2 a b th i : 0 < E -> 0 < I -> 0 < L -> stiff_ok r1 -> stiff_ok r2 -> (i < 6)%nat ->
  mvec 6 (sr_k E A I L r1 r2) (rigid_local L a b th) i = 0.
Proof.
  intros HE HI HL H1 H2 Hi.
  pose proof (gamma_nonneg E I L r1 HE HI HL H1) as G1. pose proof (gamma_nonneg E I L r2 HE HI HL H2) as G2.
  unfold mvec. rewrite (sumn_ext 6 _ (fun j => sr_full E A I L (sr_gamma E I L r1) (sr_gamma E I L r2) i j * rigid_local L a b th j))
    by (intros; rewrite sr_full_eq by auto; reflexivity).
  set (c := sr_gamma E I L r1) in *. set (e := sr_gamma E I L r2) in *. clearbody c e.
  pose proof (delta_pos c e G1 G2) as DP. unfold sr_full, rigid_local, sr_delta in *.
  six i; try lia; mx; field; repeat split; lra.
Qed.
Lemma sr_equals_rigid_lemma E A I L i j : 0 < E -> 0 < I -> 0 < L -> (i < 6)%nat -> (j < 6)%nat ->
  sr_k E A I L (rot_clamp None) (rot_clamp None) i j = k_local E A I L i j.
Proof.
  intros HE HI HL Hi Hj. pose proof kRigid_pos. rewrite sr_full_eq by (auto; apply clamp_ok).
  assert (G : sr_gamma E I L (rot_clamp None) = 0). { unfold sr_gamma, rot_clamp. replace (Reqb kRigid kRigid) with true by (symmetry; apply Reqb_true; auto). auto. }
  rewrite G. unfold sr_full, sr_delta, k_local, put.
  six i; try lia; six j; try lia; mx; field; lra.
Qed.
(** the moments at end 1 are limited by the stiffness of joint 1 *)
Lemma sr_joint_bound_lemma E A I L r1 r2 : 0 < E -> 0 < I -> 0 < L -> stiff_ok r1 -> stiff_ok r2 -> r1 < kRigid ->
  0 < sr_k E A I L r1 r2 2%nat 2%nat <= r1 /\ 0 < sr_k E A I L r1 r2 2%nat 5%nat <= r1 / 2 /\
  0 < sr_k E A I L r1 r2 2%nat 1%nat <= 3 / 2 * r1 / L.
Proof.
  intros HE HI HL H1 H2 HR. rewrite !sr_full_eq by (auto; lia).
  pose proof (gamma_nonneg E I L r2 HE HI HL H2) as G2.
  destruct (gamma_cases E I L r1 HE HI HL H1) as [(A1 & _)|(A1 & G1 & Q1 & _)]; [lra|].
  set (c := sr_gamma E I L r1) in *. set (e := sr_gamma E I L r2) in *. clearbody e.
  assert (Hg : E * I / L = r1 * c). { rewrite Q1 at 1. field. split; lra. }
  pose proof (delta_pos c e ltac:(lra) G2) as DP.
  unfold sr_full. unfold mrows; cbn [nth]. rewrite Hg. clearbody c. clear Q1 Hg.
  destruct H1 as [H1 _]. assert (DI : 0 < sr_delta c e) by lra.
  assert (RC : 0 < r1 * c) by (apply Rmult_lt_0_compat; auto).
  assert (K : forall x y, 0 < x -> x <= y * sr_delta c e -> 0 < x / sr_delta c e <= y).
  { intros x y X Y. split; [apply Rmult_lt_0_compat; auto; apply Rinv_0_lt_compat; auto|].
    apply (Rmult_le_reg_r (sr_delta c e)); auto. unfold Rdiv. rewrite Rmult_assoc, Rinv_l by lra. lra. }
  split; [|split].
  - apply K; [nra|]. unfold sr_delta. assert (0 <= r1 * c * e) by (apply Rmult_le_pos; lra). nra.
  - apply K; [nra|]. unfold sr_delta. assert (0 <= r1 * c * e) by (apply Rmult_le_pos; lra). nra.
  - replace (6 * (r1 * c) * (1 + 2 * e) / (L * sr_delta c e)) with (6 * (r1 * c) * (1 + 2 * e) / L / sr_delta c e) by (field; split; lra).
    assert (IL : 0 < / L) by (apply Rinv_0_lt_compat; auto).
    apply K.
    + unfold Rdiv. apply Rmult_lt_0_compat; [apply Rmult_lt_0_compat; lra|exact IL].
    + replace (3 / 2 * r1 / L * sr_delta c e) with (3 / 2 * r1 * sr_delta c e / L) by (field; lra).
      apply (Rmult_le_compat_r (/ L)); [lra|]. unfold sr_delta. assert (0 <= r1 * c * e) by (apply Rmult_le_pos; lra). assert (0 <= r1 * e) by (apply Rmult_le_pos; lra). nra.
Qed.
(** distance from the rigid beam, every entry *)
Lemma sr_approach_lemma E A I L r1 r2 i j : 0 < E -> 0 < I -> 0 < L -> stiff_ok r1 -> stiff_ok r2 -> (i < 6)%nat -> (j < 6)%nat ->
  let g1 := E * I / L / r1 in let g2 := E * I / L / r2 in
  Rabs (k_local E A I L i j - sr_k E A I L r1 r2 i j) <= Rabs (k_local E A I L i j) * (4 * g1 + 4 * g2 + 12 * g1 * g2).
Proof.
  intros HE HI HL H1 H2 Hi Hj. rewrite sr_full_eq by auto. cbv zeta.
  pose proof (gamma_nonneg E I L r1 HE HI HL H1) as G1. pose proof (gamma_nonneg E I L r2 HE HI HL H2) as G2.
  assert (GL : forall r, stiff_ok r -> sr_gamma E I L r <= E * I / L / r).
  { intros r Hr. unfold sr_gamma. destruct Hr. assert (0 < E * I / L / r) by (repeat apply Rmult_lt_0_compat; auto; apply Rinv_0_lt_compat; auto).
    unfold Reqb. destruct (Req_EM_T r kRigid); lra. }
  pose proof (GL r1 H1) as B1. pose proof (GL r2 H2) as B2.
  set (c := sr_gamma E I L r1) in *. set (e := sr_gamma E I L r2) in *. set (c' := E * I / L / r1) in *. set (e' := E * I / L / r2) in *. clearbody c e c' e'.
  pose proof (delta_pos c e G1 G2) as DP.
  assert (CE : 0 <= c * e) by (apply Rmult_le_pos; auto). assert (c * e <= c' * e') by (apply Rmult_le_compat; auto).
  assert (DV : sr_delta c e = 1 + 4 * c + 4 * e + 12 * (c * e)) by (unfold sr_delta; ring).
  set (B := 4 * c' + 4 * e' + 12 * c' * e'). assert (DB : sr_delta c e - 1 <= B) by (unfold B; rewrite DV; nra). assert (0 <= B) by lra.
  assert (R0 : forall K, Rabs (K - K) <= Rabs K * B).
  { intros K. rewrite Rminus_eq_0, Rabs_R0. apply Rmult_le_pos; [apply Rabs_pos|auto]. }
  assert (RN : forall K N, 1 <= N <= sr_delta c e -> Rabs (K - K * (N / sr_delta c e)) <= Rabs K * B).
  { intros K N [N1 N2]. replace (K - K * (N / sr_delta c e)) with (K * ((sr_delta c e - N) / sr_delta c e)) by (field; lra).
    rewrite Rabs_mult. apply Rmult_le_compat_l; [apply Rabs_pos|].
    assert (0 <= (sr_delta c e - N) / sr_delta c e <= sr_delta c e - N).
    { split; [apply Rmult_le_pos; [lra|left; apply Rinv_0_lt_compat; lra]|].
      apply (Rmult_le_reg_r (sr_delta c e)); [lra|]. unfold Rdiv. rewrite Rmult_assoc, Rinv_l by lra. nra. }
    rewrite Rabs_right by lra. lra. }
  clearbody B. set (d := sr_delta c e) in *.
  assert (Kd : d <> 0) by lra. assert (NL : L <> 0) by lra.
  unfold sr_full, mrows. fold d.
  six i; try lia; six j; try lia; unfold k_local, put; mx; try apply R0;
  first [ match goal with |- Rabs (?K - ?X) <= _ => replace X with (K * ((1 + c + e) / d)) by (field; auto) end; apply RN; lra
        | match goal with |- Rabs (?K - ?X) <= _ => replace X with (K * ((1 + 2 * e) / d)) by (field; auto) end; apply RN; lra
        | match goal with |- Rabs (?K - ?X) <= _ => replace X with (K * ((1 + 2 * c) / d)) by (field; auto) end; apply RN; lra
        | match goal with |- Rabs (?K - ?X) <= _ => replace X with (K * ((1 + 3 * e) / d)) by (field; auto) end; apply RN; lra
        | match goal with |- Rabs (?K - ?X) <= _ => replace X with (K * ((1 + 3 * c) / d)) by (field; auto) end; apply RN; lra
        | match goal with |- Rabs (?K - ?X) <= _ => replace X with (K * (1 / d)) by (field; auto) end; apply RN; lra ].
Qed.

(** ---------- cache ---------- *)
Lemma key_eqb_true k k' : key_eqb k k' = true <-> k = k'.
Proof.
  destruct k as [[[a b] c] d], k' as [[[a' b'] c'] d']. unfold key_eqb. rewrite !andb_true_iff, !Reqb_true. split.
  - intros [[-> ->] [-> ->]]. auto.
  - intros [= -> -> -> ->]. auto.
Qed.
(** every entry holds the present attribute *)
Definition coherent {H} (s : celem H) : Prop := forall k r, In (k, r) (ce_cache s) -> r = ce_h s.
Lemma lookup_in {H} (c : list (_ * H)) k r : lookup c k = Some r -> In (k, r) c.
Proof.
  induction c as [|[k' r'] c IH]; simpl; [discriminate|]. destruct (key_eqb k' k) eqn:E.
  - intros [= ->]. left. f_equal. now apply key_eqb_true.
  - auto.
Qed.
Lemma eval_coherent {H} (s : celem H) : coherent s -> fst (eval_cached s) = ce_h s /\ coherent (snd (eval_cached s)) /\ ce_h (snd (eval_cached s)) = ce_h s.
Proof.
  intros C. unfold eval_cached. destruct (lookup (ce_cache s) (ce_key s)) eqn:E; simpl.
  - apply lookup_in in E. repeat split; auto. eapply C; eauto.
  - repeat split; auto. intros k r [[= <- <-]|I]; auto. simpl. eapply C; eauto.
Qed.
Definition no_set {H} (o : cop H) : Prop := match o with SetH _ => False | _ => True end.
Lemma cache_coherent_lemma {H} (h0 : H) k0 ops : Forall no_set ops ->
  let s := fold_left cstep ops (mkCe h0 k0 []) in fst (eval_cached s) = ce_h s.
Proof.
  intros F s. assert (C : coherent s).
  { unfold s. assert (C0 : coherent (mkCe h0 k0 [])) by (intros k r []). revert C0. generalize (mkCe h0 k0 []) as t.
    induction F as [|o ops Ho F IH]; intros t C0; simpl; auto. apply IH. destruct o; simpl in *; try contradiction; auto.
    - intros ? ? [].
    - apply (eval_coherent t C0). }
  apply (eval_coherent s C).
Qed.
(** also when the attribute is set before the first evaluation, or the cache was dropped since *)
Lemma set_before_eval_lemma {H} (h0 : H) k0 ops1 ops2 :
  Forall no_set ops2 ->
  let s := fold_left cstep (ops1 ++ EvictAll :: ops2) (mkCe h0 k0 []) in fst (eval_cached s) = ce_h s.
Proof.
  intros F s. unfold s. rewrite fold_left_app. cbn [fold_left cstep].
  set (t := fold_left cstep ops1 (mkCe h0 k0 [])).
  apply (cache_coherent_lemma (ce_h t) (ce_key t) ops2 F).
Qed.
Lemma cache_stale_lemma {H} (h h' : H) k0 : 
  let s := fold_left cstep [Eval; SetH h'] (mkCe h k0 []) in ce_h s = h' /\ fst (eval_cached s) = h.
Proof.
  simpl. unfold eval_cached; simpl. split; auto. replace (key_eqb k0 k0) with true by (symmetry; now apply key_eqb_true). auto.
Qed.
(** a hinge set after an analysis is not seen *)
Lemma release_refuted_lemma inv : exists s ops, s = mkCe [] (1, 1, 1, 1) [] /\
  let s' := fold_left cstep ops s in ce_h s' = [2%nat] /\
  k_cached inv s' 2%nat 2%nat <> k_rel inv (ce_h s') 1 1 1 1 2%nat 2%nat.
Proof.
  exists (mkCe [] (1, 1, 1, 1) []), [Eval; SetH [2%nat]]. split; auto.
  destruct (cache_stale_lemma [] [2%nat] (1, 1, 1, 1)) as [A B]. set (s' := fold_left cstep _ _) in *. split; auto.
  unfold k_cached. replace (ce_key s') with (1, 1, 1, 1) by reflexivity. rewrite B, A.
  unfold k_rel. unfold condense, unreleased. cbn [filter existsb seq Nat.eqb negb orb pos].
  unfold k_local, put. mx. lra.
Qed.
(** a joint stiffness set after an analysis is not seen *)
Lemma rot_stale_refuted_lemma : exists s ops, 
  let s' := fold_left cstep ops s in ce_cache s = [] /\ ce_h s' = (1, kRigid) /\
  sr_cached s' 2%nat 2%nat <> sr_k 1 1 1 1 (fst (ce_h s')) (snd (ce_h s')) 2%nat 2%nat.
Proof.
  exists (mkCe (kRigid, kRigid) (1, 1, 1, 1) []), [Eval; SetH (1, kRigid)].
  destruct (cache_stale_lemma (kRigid, kRigid) (1, kRigid) (1, 1, 1, 1)) as [A B]. set (s' := fold_left cstep _ _) in *. split; [auto|]. split; auto.
  unfold sr_cached. replace (ce_key s') with (1, 1, 1, 1) by reflexivity. rewrite B, A. cbn [fst snd].
  pose proof kRigid_pos. assert (KR : 1 < kRigid) by (unfold kRigid; simpl; lra).
  assert (S1 : stiff_ok 1) by (unfold stiff_ok; lra). assert (S2 : stiff_ok kRigid) by (unfold stiff_ok; lra).
  rewrite !sr_full_eq by (auto; try lra; lia).
  assert (G : sr_gamma 1 1 1 kRigid = 0) by (unfold sr_gamma; replace (Reqb kRigid kRigid) with true by (symmetry; apply Reqb_true; auto); auto).
  assert (G1 : sr_gamma 1 1 1 1 = 1) by (unfold sr_gamma; replace (Reqb 1 kRigid) with false by (symmetry; apply Reqb_false; intros Q; lra); field).
  rewrite G, G1. unfold sr_full, mrows, sr_delta. cbn [nth]. lra.
Qed.

(** ---------- static condensation ---------- *)
Lemma pos_some q a i b : pos q a i = Some b -> (a <= b)%nat /\ nth_error q (b - a) = Some i.
Proof.
  revert a. induction q as [|d q IH]; intros a H; simpl in H; [discriminate|].
  destruct (Nat.eqb_spec d i).
  - injection H as <-. split; [lia|]. rewrite Nat.sub_diag. simpl. congruence.
  - apply IH in H. destruct H as [H1 H2]. split; [lia|]. replace (b - a)%nat with (S (b - S a)) by lia. auto.
Qed.
Lemma pos_none q a i : pos q a i = None -> ~ In i q.
Proof.
  revert a. induction q as [|d q IH]; intros a H; simpl in *; auto. destruct (Nat.eqb_spec d i); [discriminate|].
  intros [E|E]; [congruence|]. eapply IH; eauto.
Qed.
Lemma pos_nth q a b : NoDup q -> (b < length q)%nat -> pos q a (nth b q 0%nat) = Some (a + b)%nat.
Proof.
  revert a b. induction q as [|d q IH]; intros a b N H; simpl in H; [lia|]. inversion N; subst. destruct b as [|b]; simpl.
  - rewrite Nat.eqb_refl. f_equal. lia.
  - destruct (Nat.eqb_spec d (nth b q 0%nat)) as [E|E].
    + exfalso. apply H2. rewrite E. apply nth_In. lia.
    + rewrite IH by (auto; lia). f_equal. lia.
Qed.
Lemma sumn_list (l : list nat) g : Rsum (map g l) = sumn (length l) (fun a => g (nth a l 0%nat)).
Proof.
  rewrite sumn_Rsum. f_equal. rewrite <- (map_map (fun a => nth a l 0%nat) g). f_equal.
  symmetry. apply (nth_ext _ _ 0%nat 0%nat).
  - rewrite map_length, seq_length. auto.
  - intros n Hn. rewrite map_length, seq_length in Hn. rewrite (nth_indep _ 0%nat (nth 0 l 0%nat)) by (rewrite map_length, seq_length; auto).
    rewrite (map_nth (fun a => nth a l 0%nat)). rewrite seq_nth by auto. auto.
Qed.
Lemma NoDup_app_intro {A} (l l' : list A) : NoDup l -> NoDup l' -> (forall x, In x l -> ~ In x l') -> NoDup (l ++ l').
Proof.
  induction l as [|a l IH]; simpl; intros N N' D; auto. inversion N; subst. constructor.
  - rewrite in_app_iff. intros [H|H]; auto. eapply D; eauto. 
  - apply IH; auto.
Qed.
Lemma split_sum rel g : NoDup rel -> Forall (fun i => (i < 6)%nat) rel ->
  sumn 6 g = sumn (length (unreleased rel)) (fun a => g (nth a (unreleased rel) 0%nat)) + sumn (length rel) (fun b => g (nth b rel 0%nat)).
Proof.
  intros N F. rewrite <- !sumn_list, <- Rsum_app, <- map_app. rewrite sumn_Rsum. apply Rsum_perm, Permutation_map.
  apply NoDup_Permutation.
  - apply seq_NoDup.
  - apply NoDup_app_intro; auto.
    + unfold unreleased. apply NoDup_filter, seq_NoDup.
    + intros x Hx Hr. unfold unreleased in Hx. apply filter_In in Hx. destruct Hx as [_ Hx].
      apply negb_true_iff in Hx. rewrite <- not_true_iff_false in Hx. apply Hx. apply existsb_exists. exists x. split; auto. apply Nat.eqb_refl.
  - intros x. rewrite in_app_iff, in_seq. unfold unreleased. rewrite filter_In, in_seq. rewrite Forall_forall in F. split.
    + intros Hx. destruct (existsb (Nat.eqb x) rel) eqn:E.
      * right. apply existsb_exists in E. destruct E as (y & Hy & Ey). apply Nat.eqb_eq in Ey. congruence.
      * left. split; auto.
    + intros [[H _]|H]; auto. apply F in H. lia.
Qed.

(** The condensed element behaves as the original one with the released displacements
    q_r = K22^-1 (f_r - K21 q_n): all end forces agree, and the released ones vanish. *)
Lemma condense_lemma (inv : mat -> mat) (rel : list nat) (k0 : mat) (f q : vec) : NoDup rel -> Forall (fun i => (i < 6)%nat) rel ->
  right_inverse (length rel) (fun i j => k0 (nth i rel 0%nat) (nth j rel 0%nat))
     (inv (fun i j => k0 (nth i rel 0%nat) (nth j rel 0%nat))) ->
  exists q' : vec, (forall i, (i < 6)%nat -> ~ In i rel -> q' i = q i) /\
  forall i, (i < 6)%nat ->
    mvec 6 (condense inv (unreleased rel) rel k0) q i - condense_v inv (unreleased rel) rel k0 f i = mvec 6 k0 q' i - f i /\
    (In i rel -> mvec 6 k0 q' i - f i = 0).
Proof.
  intros N F RI. set (n := unreleased rel) in *. set (m := length rel) in *.
  set (X := inv (fun i j => k0 (nth i rel 0%nat) (nth j rel 0%nat))) in *.
  assert (Nn : NoDup n) by (apply NoDup_filter, seq_NoDup).
  (* residual of the released rows *)
  set (g := fun b => f (nth b rel 0%nat) - sumn (length n) (fun a => k0 (nth b rel 0%nat) (nth a n 0%nat) * q (nth a n 0%nat))).
  set (q' := fun i => match pos rel 0 i with Some b => mvec m X g b | None => q i end).
  assert (Qn : forall a, (a < length n)%nat -> q' (nth a n 0%nat) = q (nth a n 0%nat)).
  { intros a Ha. unfold q'. destruct (pos rel 0 (nth a n 0%nat)) as [b|] eqn:E; auto. exfalso.
    apply pos_some in E. destruct E as [_ E]. apply nth_error_In in E.
    pose proof (nth_In n 0%nat Ha) as I1. unfold n in I1 at 2. unfold unreleased in I1. apply filter_In in I1. destruct I1 as [_ I1].
    apply negb_true_iff in I1. rewrite <- not_true_iff_false in I1. apply I1. apply existsb_exists. eexists; split; eauto. apply Nat.eqb_refl. }
  assert (Qr : forall b, (b < m)%nat -> q' (nth b rel 0%nat) = mvec m X g b).
  { intros b Hb. unfold q'. rewrite (pos_nth rel 0 b N Hb). reflexivity. }
  assert (ROW : forall i, mvec 6 k0 q' i = sumn (length n) (fun a => k0 i (nth a n 0%nat) * q (nth a n 0%nat)) + sumn m (fun b => k0 i (nth b rel 0%nat) * mvec m X g b)).
  { intros i. unfold mvec at 1. rewrite (split_sum rel _ N F). fold n m. f_equal; apply sumn_ext; intros a Ha; f_equal; auto. }
  assert (REL : forall b, (b < m)%nat -> mvec 6 k0 q' (nth b rel 0%nat) - f (nth b rel 0%nat) = 0).
  { intros b Hb. rewrite ROW. 
    assert (S1 : sumn m (fun b' => k0 (nth b rel 0%nat) (nth b' rel 0%nat) * mvec m X g b') = g b).
    { unfold mvec. rewrite (sumn_ext m _ (fun b' => sumn m (fun c => k0 (nth b rel 0%nat) (nth b' rel 0%nat) * X b' c * g c))).
      2:{ intros b' _. rewrite <- sumn_scale. apply sumn_ext. intros; ring. }
      rewrite sumn_swap. rewrite (sumn_ext m _ (fun c => if (c =? b)%nat then g c else 0)); [apply sumn_delta; auto|].
      intros c Hc. rewrite sumn_scale_r. pose proof (RI b c Hb Hc) as Q. unfold mmul in Q. rewrite Q.
      rewrite (Nat.eqb_sym b c). destruct (c =? b)%nat; ring. }
    rewrite S1. unfold g. ring. }
  exists q'. split.
  - intros i Hi NI. unfold q'. destruct (pos rel 0 i) as [b|] eqn:E; auto. apply pos_some in E. destruct E as [_ E]. apply nth_error_In in E. contradiction.
  - intros i Hi.
    assert (RI2 : In i rel -> mvec 6 k0 q' i - f i = 0).
    { intros I1. apply (In_nth _ _ 0%nat) in I1. destruct I1 as (b & Hb & <-). apply REL; auto. }
    split; [|auto].
    destruct (pos n 0 i) as [a|] eqn:E.
    + pose proof (pos_some _ _ _ _ E) as [_ E']. rewrite Nat.sub_0_r in E'.
      assert (Ha : (a < length n)%nat) by (apply nth_error_Some; congruence).
      assert (Ei : nth a n 0%nat = i) by (now apply nth_error_nth).
      rewrite ROW. unfold condense_v, condense. fold m. cbv zeta.
      unfold mvec at 1. rewrite E. fold X. cbv beta.
      (* left sum over kept columns *)
      rewrite (split_sum rel _ N F). fold n m.
      rewrite (sumn_zero m (fun b => match pos n 0 (nth b rel 0%nat) with Some b0 => _ | None => 0 end * _)).
      2:{ intros b Hb. destruct (pos n 0 (nth b rel 0%nat)) as [c|] eqn:E2; [|ring]. exfalso.
          apply pos_some in E2. destruct E2 as [_ E2]. apply nth_error_In in E2. unfold n, unreleased in E2. apply filter_In in E2. destruct E2 as [_ E2].
          apply negb_true_iff in E2. rewrite <- not_true_iff_false in E2. apply E2. apply existsb_exists. exists (nth b rel 0%nat). split; [apply nth_In; auto|apply Nat.eqb_refl]. }
      rewrite (sumn_ext (length n) _ (fun c => k0 i (nth c n 0%nat) * q (nth c n 0%nat)
          - mmul m (fun i j => k0 (nth i n 0%nat) (nth j rel 0%nat)) (mmul m X (fun i j => k0 (nth i rel 0%nat) (nth j n 0%nat))) a c * q (nth c n 0%nat))).
      2:{ intros c Hc. rewrite (pos_nth n 0 c Nn Hc). simpl (0 + c)%nat. rewrite Ei. ring. }
      rewrite sumn_minus.
      assert (M1 : sumn (length n) (fun c => mmul m (fun i j => k0 (nth i n 0%nat) (nth j rel 0%nat)) (mmul m X (fun i j => k0 (nth i rel 0%nat) (nth j n 0%nat))) a c * q (nth c n 0%nat))
         = mvec m (fun i j => k0 (nth i n 0%nat) (nth j rel 0%nat)) (mvec m X (fun b => sumn (length n) (fun c => k0 (nth b rel 0%nat) (nth c n 0%nat) * q (nth c n 0%nat)))) a).
      { change (mvec (length n) (mmul m (fun i j => k0 (nth i n 0%nat) (nth j rel 0%nat)) (mmul m X (fun i j => k0 (nth i rel 0%nat) (nth j n 0%nat)))) (fun c => q (nth c n 0%nat)) a = 
          mvec m (fun i j => k0 (nth i n 0%nat) (nth j rel 0%nat)) (mvec m X (fun b => sumn (length n) (fun c => k0 (nth b rel 0%nat) (nth c n 0%nat) * q (nth c n 0%nat)))) a).
        rewrite mvec_mmul. apply mvec_ext. intros j Hj. rewrite mvec_mmul. reflexivity. }
      rewrite M1.
      assert (M2 : sumn m (fun b => k0 i (nth b rel 0%nat) * mvec m X g b) =
         mvec m (fun i j => k0 (nth i n 0%nat) (nth j rel 0%nat)) (mvec m X (fun b => f (nth b rel 0%nat))) a
         - mvec m (fun i j => k0 (nth i n 0%nat) (nth j rel 0%nat)) (mvec m X (fun b => sumn (length n) (fun c => k0 (nth b rel 0%nat) (nth c n 0%nat) * q (nth c n 0%nat)))) a).
      { unfold mvec at 2 4. rewrite <- sumn_minus. apply sumn_ext. intros b Hb. rewrite Ei.
        replace (mvec m X g b) with (mvec m X (fun b => f (nth b rel 0%nat)) b - mvec m X (fun b => sumn (length n) (fun c => k0 (nth b rel 0%nat) (nth c n 0%nat) * q (nth c n 0%nat))) b); [ring|].
        unfold mvec. rewrite <- sumn_minus. apply sumn_ext. intros; unfold g; ring. }
      rewrite M2. ring.
    + assert (I1 : In i rel).
      { destruct (in_dec Nat.eq_dec i rel); auto. exfalso. apply pos_none in E. apply E. unfold n, unreleased. apply filter_In. split; [apply in_seq; lia|].
        apply negb_true_iff. apply not_true_iff_false. intros B. apply existsb_exists in B. destruct B as (y & Hy & Ey). apply Nat.eqb_eq in Ey. subst. contradiction. }
      rewrite (RI2 I1). unfold condense_v. rewrite E. unfold mvec. rewrite sumn_zero; [ring|].
      intros j Hj. unfold condense. rewrite E. ring.
Qed.
