(** Timber members: segment lengths, buckling and lateral-torsional factors, torsion. *)
From Coq Require Import Permutation.
From Verif Require Import Base EC3_model Sections_proofs Sections3_proofs Plate_proofs Timber_proofs Timber2_proofs.
From Verif Require Import Loads_model Timber_model Timber_spec.
Require Import Psatz.

(* ---------------------------------------------------------------- segments *)
Lemma rinsert_perm x l : Permutation (rinsert x l) (x :: l).
Proof.
  induction l as [|y l IH]; cbn [rinsert]; [reflexivity|]. destruct (Rleb x y); [reflexivity|].
  rewrite IH. constructor.
Qed.
Lemma rsort_perm l : Permutation (rsort l) l.
Proof. induction l as [|x l IH]; cbn [rsort]; [constructor|]. rewrite rinsert_perm, IH. reflexivity. Qed.
Lemma rinsert_asc x l : ascending l -> ascending (rinsert x l).
Proof.
  induction l as [|y l IH]; cbn [rinsert]; intros A; [exact I|].
  destruct (Rleb x y) eqn:E; [apply Rleb_true in E; split; auto|apply Rleb_false in E].
  destruct l as [|z l]; cbn [rinsert] in *; [split; [lra|exact I]|]. destruct A as [A1 A2]. specialize (IH A2).
  destruct (Rleb x z) eqn:F; cbn; cbn in IH; [apply Rleb_true in F|]; split; try lra; auto.
Qed.
Lemma rsort_asc l : ascending (rsort l).
Proof. induction l as [|x l IH]; [exact I|]. cbn [rsort]. apply rinsert_asc. exact IH. Qed.
Lemma l_c_from_gaps L p s : l_c_from L p s = map (fun ab => L * (snd ab - fst ab)) (pairs (p :: s ++ [1])).
Proof. revert p. induction s as [|x s IH]; intros p; [reflexivity|]. cbn [l_c_from]. rewrite IH. reflexivity. Qed.
Lemma l_c_gaps L sup : l_c L sup = map (fun ab => L * (snd ab - fst ab)) (pairs (0 :: rsort sup ++ [1])).
Proof.
  unfold l_c. destruct (rsort sup) as [|x s]; cbn [pairs app map fst snd]; [f_equal; ring|].
  rewrite l_c_from_gaps. f_equal. ring.
Qed.
Lemma pairs_length p l : length (pairs (p :: l)) = length l.
Proof. revert p. induction l as [|x l IH]; intros p; [reflexivity|]. change (pairs (p :: x :: l)) with ((p, x) :: pairs (x :: l)). cbn [length]. rewrite IH. reflexivity. Qed.
Lemma l_c_total L p s : total (l_c_from L p s) = L * (1 - p).
Proof. revert p. induction s as [|x s IH]; intros p; cbn [l_c_from total]; [ring|]. rewrite IH. ring. Qed.
Lemma asc_snoc l b : ascending l -> Forall (fun x => x <= b) l -> ascending (l ++ [b]).
Proof.
  induction l as [|x l IH]; intros A F; [exact I|]. apply Forall_inv in F as F0. apply Forall_inv_tail in F.
  destruct l as [|y l]; [cbn; auto|]. destruct A as [A1 A2]. specialize (IH A2 F). cbn. split; auto.
Qed.
Lemma asc_pairs l : ascending l -> Forall (fun ab => fst ab <= snd ab) (pairs l).
Proof.
  induction l as [|x l IH]; intros A; [constructor|]. destruct l as [|y l]; [constructor|]. destruct A as [A1 A2].
  change (pairs (x :: y :: l)) with ((x, y) :: pairs (y :: l)). constructor; auto.
Qed.
Lemma asc_unique l1 l2 : ascending l1 -> ascending l2 -> Permutation l1 l2 -> l1 = l2.
Proof.
  assert (HD : forall x l, ascending (x :: l) -> forall y, In y l -> x <= y).
  { intros x l; revert x. induction l as [|z l IH]; intros x A y Y; [destruct Y|]. destruct A as [A1 A2]. destruct Y as [<-|Y]; [auto|]. specialize (IH z A2 y Y). lra. }
  assert (TL : forall x l, ascending (x :: l) -> ascending l) by (intros x [|z l] A; [exact I|apply A]).
  revert l2. induction l1 as [|x l1 IH]; intros l2 A1 A2 P.
  - apply Permutation_nil in P. auto.
  - destruct l2 as [|y l2]; [apply Permutation_sym, Permutation_nil in P; discriminate|].
    assert (x = y).
    { assert (X : In x (y :: l2)) by (eapply Permutation_in; [exact P|left; auto]).
      assert (Y : In y (x :: l1)) by (eapply Permutation_in; [apply Permutation_sym; exact P|left; auto]).
      destruct X as [->|X]; [auto|]. destruct Y as [->|Y]; [auto|]. specialize (HD _ _ A1 _ Y) as H1. specialize (HD _ _ A2 _ X) as H2. lra. }
    subst y. f_equal. apply IH; eauto. eapply Permutation_cons_inv; eauto.
Qed.
Lemma with_ends_eq sup : Forall (fun x => 0 <= x <= 1) sup -> with_ends sup = 0 :: rsort sup ++ [1].
Proof.
  intros F. unfold with_ends. apply asc_unique; [apply rsort_asc| |].
  - assert (G : Forall (fun x => 0 <= x <= 1) (rsort sup)) by (eapply Permutation_Forall; [apply Permutation_sym, rsort_perm|exact F]).
    assert (A : ascending (rsort sup ++ [1])) by (apply asc_snoc; [apply rsort_asc|eapply Forall_impl; [|exact G]; intros; lra]).
    destruct (rsort sup) as [|x s]; [cbn; split; [lra|exact I]|]. apply Forall_inv in G. cbn. cbn in A. split; [lra|exact A].
  - rewrite rsort_perm. rewrite <- (rsort_perm sup) at 1. replace (rsort sup ++ [0; 1]) with ((rsort sup ++ [0]) ++ [1]) by (rewrite <- app_assoc; reflexivity).
    rewrite (Permutation_app_comm (rsort sup) [0]). reflexivity.
Qed.
Lemma l_c_lemma L sup :
  length (l_c L sup) = S (length sup) /\ total (l_c L sup) = L /\
  (0 <= L -> Forall (fun x => 0 <= x <= 1) sup -> Forall (fun d => 0 <= d <= L) (l_c L sup)) /\
  (exists s, Permutation s sup /\ ascending s /\ l_c L sup = map (fun ab => L * (snd ab - fst ab)) (pairs (0 :: s ++ [1]))).
Proof.
  split; [|split; [|split]].
  - rewrite l_c_gaps, map_length, pairs_length, app_length. cbn. rewrite (Permutation_length (rsort_perm sup)). lia.
  - unfold l_c. destruct (rsort sup); cbn [total]; [ring|]. rewrite l_c_total. ring.
  - intros PL F. assert (G : Forall (fun d => 0 <= d) (l_c L sup)).
    { rewrite l_c_gaps, <- with_ends_eq by auto. apply Forall_map. eapply Forall_impl; [|apply asc_pairs, rsort_asc].
      intros [a b] H; cbn in *. apply Rmult_le_pos; lra. }
    assert (T : total (l_c L sup) = L). { unfold l_c. destruct (rsort sup); cbn [total]; [ring|]. rewrite l_c_total. ring. }
    assert (K : forall l, Forall (fun d => 0 <= d) l -> 0 <= total l /\ Forall (fun d => d <= total l) l).
    { induction l as [|x l IH]; intros H; [split; [cbn; lra|constructor]|]. inversion H as [|? ? H1 H2]; subst. destruct (IH H2) as [I1 I2]. cbn [total].
      split; [lra|]. constructor; [lra|]. eapply Forall_impl; [|exact I2]. cbn; intros; lra. }
    destruct (K _ G) as [_ K2]. rewrite T in K2. rewrite Forall_forall in *. intros d D. split; auto.
  - exists (rsort sup). split; [apply rsort_perm|]. split; [apply rsort_asc|apply l_c_gaps].
Qed.
(** The buckling check sees the same segments as the lengths. *)
Lemma l_c_segments_lemma L sup : Forall (fun x => 0 <= x <= 1) sup ->
  l_c L sup = map (fun ab => L * (snd ab - fst ab)) (pairs (with_ends sup)).
Proof. intros F. rewrite with_ends_eq by auto. apply l_c_gaps. Qed.

(* ---------------------------------------------------------------- k_c *)
Lemma k_buck_gt bc l : 0 < bc <= 2/10 -> 0 <= l -> l < k_buck bc l.
Proof.
  intros B Hl. unfold k_buck. destruct (Rle_dec (3/10) l).
  - assert (0 <= bc * (l - 3/10)) by (apply Rmult_le_pos; lra). assert (0 <= (l - 1) ^ 2) by apply pow2_ge_0.
    destruct (Req_dec l 1) as [->|]; [nra|]. nra.
  - assert (bc * (3/10 - l) <= 2/10 * (3/10)) by nra. nra.
Qed.
Definition s_of bc l := k_buck bc l + sqrt (k_buck bc l ^ 2 - l ^ 2).
Lemma s_quadratic bc l : 0 < bc <= 2/10 -> 0 <= l ->
  0 < s_of bc l /\ l < s_of bc l /\ (s_of bc l) ^ 2 - 2 * k_buck bc l * s_of bc l + l ^ 2 = 0 /\ k_buck bc l <= s_of bc l.
Proof.
  intros B Hl. pose proof (k_buck_gt bc l B Hl) as G. unfold s_of. set (K := k_buck bc l) in *.
  assert (D : 0 <= K ^ 2 - l ^ 2) by nra. pose proof (sqrt_pos (K ^ 2 - l ^ 2)) as P. pose proof (sqrt_sqrt _ D) as Q.
  set (w := sqrt (K ^ 2 - l ^ 2)) in *. clearbody w. repeat split; try lra; nra.
Qed.
(** A number at which the quadratic is negative lies below the larger root. *)
Lemma s_above bc l t : 0 < bc <= 2/10 -> 0 <= l -> t ^ 2 - 2 * k_buck bc l * t + l ^ 2 < 0 -> t < s_of bc l.
Proof.
  intros B Hl N. destruct (s_quadratic bc l B Hl) as (P & Pl & Q & KS). set (s := s_of bc l) in *. set (K := k_buck bc l) in *.
  destruct (Rlt_dec t s); [auto|]. exfalso. assert (0 <= (t - s) * (t + s - 2 * K)) by (apply Rmult_le_pos; lra). nra.
Qed.
Lemma s_above_le bc l t : 0 < bc <= 2/10 -> 0 <= l -> t ^ 2 - 2 * k_buck bc l * t + l ^ 2 <= 0 -> t <= s_of bc l.
Proof.
  intros B Hl N. destruct (s_quadratic bc l B Hl) as (P & Pl & Q & KS). set (s := s_of bc l) in *. set (K := k_buck bc l) in *.
  destruct (Rle_dec t s); [auto|]. exfalso. assert (0 < (t - s) * (t + s - 2 * K)) by (apply Rmult_lt_0_compat; lra). nra.
Qed.
Lemma s_ge1 bc l : 0 < bc <= 2/10 -> 0 <= l -> (1 <= s_of bc l <-> 3/10 <= l).
Proof.
  intros B Hl. split; intros H.
  - destruct (Rle_dec (3/10) l); [auto|]. exfalso. destruct (s_quadratic bc l B Hl) as (P & Pl & Q & KS).
    unfold k_buck in Q. set (s := s_of bc l) in *. assert (N : bc * (l - 3/10) < 0) by nra.
    assert (E : (s - 1) * (s - l ^ 2) = bc * (l - 3/10) * s) by lra.
    assert (0 <= (s - 1) * (s - l ^ 2)) by (apply Rmult_le_pos; nra). nra.
  - apply s_above_le; auto. unfold k_buck. assert (0 <= bc * (l - 3/10)) by (apply Rmult_le_pos; lra). nra.
Qed.
Lemma s_mono1 bc l1 l2 : 0 < bc <= 2/10 -> 3/10 <= l1 -> l1 < l2 -> s_of bc l1 < s_of bc l2.
Proof.
  intros B H1 H2. apply s_above; auto; try lra. destruct (s_quadratic bc l1 B ltac:(lra)) as (P & Pl & Q & KS).
  assert (G : 1 <= s_of bc l1) by (apply s_ge1; auto; lra). unfold k_buck in *. set (s := s_of bc l1) in *.
  replace (s ^ 2 - 2 * (1/2 * (1 + bc * (l2 - 3/10) + l2 ^ 2)) * s + l2 ^ 2) with ((s ^ 2 - 2 * (1/2 * (1 + bc * (l1 - 3/10) + l1 ^ 2)) * s + l1 ^ 2) - (l2 - l1) * (bc * s + (l1 + l2) * (s - 1))) by field.
  rewrite Q. assert (0 < bc * s) by (apply Rmult_lt_0_compat; lra). assert (0 <= (l1 + l2) * (s - 1)) by (apply Rmult_le_pos; lra).
  assert (0 < (l2 - l1) * (bc * s + (l1 + l2) * (s - 1))) by (apply Rmult_lt_0_compat; lra). lra.
Qed.
Lemma s_low bc l : 0 < bc <= 2/10 -> 0 <= l -> 1 - 3/10 * bc <= s_of bc l.
Proof.
  intros B Hl. destruct (Rle_dec (3/10) l) as [H|H].
  - apply (s_ge1 bc l B Hl) in H. lra.
  - apply s_above_le; auto. unfold k_buck.
    replace ((1 - 3/10 * bc) ^ 2 - 2 * (1/2 * (1 + bc * (l - 3/10) + l ^ 2)) * (1 - 3/10 * bc) + l ^ 2) with (- (bc * l * (1 - 3/10 * bc - 3/10 * l))) by field.
    assert (0 <= bc * l * (1 - 3/10 * bc - 3/10 * l)) by (apply Rmult_le_pos; [apply Rmult_le_pos|]; lra). lra.
Qed.
Lemma s_mono0 bc l1 l2 : 0 < bc <= 2/10 -> 0 <= l1 -> l1 < l2 -> l2 <= 3/10 -> s_of bc l1 < s_of bc l2.
Proof.
  intros B H1 H2 H3. apply s_above; auto; try lra. destruct (s_quadratic bc l1 B ltac:(lra)) as (P & Pl & Q & KS).
  pose proof (s_low bc l1 B H1) as G. unfold k_buck in *. set (s := s_of bc l1) in *.
  replace (s ^ 2 - 2 * (1/2 * (1 + bc * (l2 - 3/10) + l2 ^ 2)) * s + l2 ^ 2) with ((s ^ 2 - 2 * (1/2 * (1 + bc * (l1 - 3/10) + l1 ^ 2)) * s + l1 ^ 2) - (l2 - l1) * (bc * s + (l1 + l2) * (s - 1))) by field.
  rewrite Q. assert (94/100 * bc <= bc * s) by nra. assert (- (18/100 * bc) <= (l1 + l2) * (s - 1)).
  { assert ((l1 + l2) * (1 - s) <= 6/10 * (3/10 * bc)). { destruct (Rle_dec s 1); [apply Rmult_le_compat; lra|]. assert ((l1 + l2) * (1 - s) <= 0) by nra. lra. } lra. }
  assert (0 < (l2 - l1) * (bc * s + (l1 + l2) * (s - 1))) by (apply Rmult_lt_0_compat; lra). lra.
Qed.
Lemma s_mono bc l1 l2 : 0 < bc <= 2/10 -> 0 <= l1 -> l1 < l2 -> s_of bc l1 < s_of bc l2.
Proof.
  intros B H1 H2. destruct (Rle_dec l2 (3/10)); [apply s_mono0; auto|]. destruct (Rle_dec (3/10) l1); [apply s_mono1; auto|].
  apply Rlt_trans with (s_of bc (3/10)); [apply s_mono0|apply s_mono1]; auto; lra.
Qed.
Lemma s_euler bc l : 0 < bc <= 2/10 -> 0 <= l -> l ^ 2 <= s_of bc l.
Proof.
  intros B Hl. destruct (Rle_dec l 1).
  - destruct (s_quadratic bc l B Hl) as (_ & Pl & _). nra.
  - apply s_above_le; auto. unfold k_buck. assert (0 <= bc * (l - 3/10)) by (apply Rmult_le_pos; lra). assert (0 <= l ^ 2) by nra. nra.
Qed.
Lemma beta_ok m : 0 < beta_c m <= 2/10.
Proof. destruct m; cbn; lra. Qed.
Lemma k_c_lemma m l : 0 <= l ->
  0 < k_c (beta_c m) l /\
  (1 - k_c (beta_c m) l) * (1 - l ^ 2 * k_c (beta_c m) l) = (match m with solid => 2/10 | _ => 1/10 end) * (l - 3/10) * k_c (beta_c m) l /\
  l ^ 2 * k_c (beta_c m) l <= 1 /\ k_c (beta_c m) l <= 50/47 /\
  (k_c (beta_c m) l <= 1 <-> 3/10 <= l) /\
  (forall l', l < l' -> k_c (beta_c m) l' < k_c (beta_c m) l).
Proof.
  intros Hl. pose proof (beta_ok m) as B. change (match m with solid => 2/10 | _ => 1/10 end) with (beta_c m). set (bc := beta_c m) in *. clearbody bc.
  change (k_c bc l) with (/ s_of bc l). destruct (s_quadratic bc l B Hl) as (P & Pl & Q & KS).
  pose proof (s_euler bc l B Hl) as E. pose proof (s_low bc l B Hl) as G. pose proof (s_ge1 bc l B Hl) as O.
  assert (I0 : 0 < / s_of bc l) by (apply Rinv_0_lt_compat; auto).
  split; [auto|]. split; [|split; [|split; [|split]]].
  - unfold k_buck in Q. set (s := s_of bc l) in *. apply Rmult_eq_reg_r with (s ^ 2); [|nra].
    replace ((1 - / s) * (1 - l ^ 2 * / s) * s ^ 2) with (s ^ 2 - (1 + l ^ 2) * s + l ^ 2) by (field; lra).
    replace (bc * (l - 3/10) * / s * s ^ 2) with (bc * (l - 3/10) * s) by (field; lra). lra.
  - apply Rmult_le_reg_r with (s_of bc l); [auto|]. rewrite Rmult_assoc, Rinv_l by lra. lra.
  - apply Rmult_le_reg_r with (s_of bc l); [auto|]. rewrite Rinv_l by lra. lra.
  - rewrite <- O. split; intros H.
    + apply Rmult_le_compat_r with (r := s_of bc l) in H; [|lra]. rewrite Rinv_l in H by lra. lra.
    + apply Rmult_le_reg_r with (s_of bc l); [auto|]. rewrite Rinv_l by lra. lra.
  - intros l' H. change (k_c bc l') with (/ s_of bc l'). pose proof (s_mono bc l l' B Hl H). apply Rinv_lt_contravar; [apply Rmult_lt_0_compat; lra|auto].
Qed.
(** The reduction of a longer segment. *)
Lemma k_c_length_lemma m i fc E l1 l2 : 0 < i -> 0 < fc -> 0 < E -> 0 <= l1 -> l1 < l2 ->
  k_c (beta_c m) (lamda_rel l2 i fc E) < k_c (beta_c m) (lamda_rel l1 i fc E) /\
  k_c (beta_c m) (lamda_rel l1 i fc E) * fc * l1 ^ 2 <= PI ^ 2 * E * i ^ 2.
Proof.
  intros Pi0 Pf PE H1 H2. pose proof PI_RGT_0 as PP.
  assert (Q : 0 < sqrt (fc / E)) by (apply sqrt_lt_R0, Rdiv_lt_0_compat; auto).
  assert (L1 : 0 <= lamda_rel l1 i fc E). { unfold lamda_rel. apply Rmult_le_pos; [|lra]. apply div_nn; [apply div_nn; lra|lra]. }
  destruct (k_c_lemma m _ L1) as (P & _ & Eu & _ & _ & M). split.
  - apply M. unfold lamda_rel. apply Rmult_lt_compat_r; [auto|]. unfold Rdiv. apply Rmult_lt_compat_r; [apply Rinv_0_lt_compat; auto|].
    apply Rmult_lt_compat_r; [apply Rinv_0_lt_compat; auto|auto].
  - set (k := k_c (beta_c m) (lamda_rel l1 i fc E)) in *. clearbody k. unfold lamda_rel in Eu.
    assert (S2 : sqrt (fc / E) ^ 2 = fc / E). { rewrite <- Rsqr_pow2. apply Rsqr_sqrt. left. apply Rdiv_lt_0_compat; auto. }
    assert (X : (l1 / i / PI * sqrt (fc / E)) ^ 2 = l1 ^ 2 * fc / (PI ^ 2 * E * i ^ 2)).
    { rewrite Rpow_mult_distr, S2. field. repeat split; lra. }
    rewrite X in Eu. assert (D : 0 < PI ^ 2 * E * i ^ 2) by (apply Rmult_lt_0_compat; [apply Rmult_lt_0_compat; [apply pow_lt|]|apply pow_lt]; auto).
    apply Rmult_le_compat_r with (r := PI ^ 2 * E * i ^ 2) in Eu; [|lra].
    replace (l1 ^ 2 * fc / (PI ^ 2 * E * i ^ 2) * k * (PI ^ 2 * E * i ^ 2)) with (k * fc * l1 ^ 2) in Eu by (field; repeat split; lra). lra.
Qed.

(* ---------------------------------------------------------------- k_crit *)
Lemma k_crit_lemma l : 0 <= l -> 0 < k_crit l <= 1 /\ l ^ 2 * k_crit l <= 1 /\
  (l <= 75/100 -> k_crit l = 1) /\ (75/100 < l <= 14/10 -> k_crit l = 156/100 - 75/100 * l) /\ (14/10 < l -> l ^ 2 * k_crit l = 1) /\
  (forall l', l <= l' -> k_crit l' <= k_crit l + 3/10000).
Proof.
  intros Hl. unfold k_crit.
  assert (BIG : forall z, 14/10 < z -> 0 < 1 / z ^ 2 < 5103/10000 /\ z ^ 2 * (1 / z ^ 2) = 1).
  { intros z Z. assert (196/100 < z ^ 2) by nra. split; [split|]; [apply Rdiv_lt_0_compat; lra| |field; nra].
    apply Rmult_lt_reg_r with (z ^ 2); [lra|]. replace (1 / z ^ 2 * z ^ 2) with 1 by (field; nra). lra. }
  repeat split; intros.
  all: repeat match goal with |- context [Rleb ?a ?b] => let E := fresh "E" in destruct (Rleb a b) eqn:E; [apply Rleb_true in E|apply Rleb_false in E] end; try lra; try nra.
  all: try (destruct (BIG l ltac:(lra)); lra).
  all: try (destruct (BIG l' ltac:(lra)); lra).
  - assert (0 <= (l - 104/75) ^ 2 * (l + 52/75)) by (apply Rmult_le_pos; [apply pow2_ge_0|lra]). nra.
  - assert (1 / l' ^ 2 <= 1 / l ^ 2). { unfold Rdiv. rewrite !Rmult_1_l. apply Rinv_le_contravar; nra. } lra.
Qed.
Lemma k_crit_jump_lemma : exists l1 l2, l1 < l2 /\ k_crit l1 < k_crit l2.
Proof.
  exists (14/10), (14001/10000). split; [lra|]. unfold k_crit.
  repeat match goal with |- context [Rleb ?a ?b] => let E := fresh "E" in destruct (Rleb a b) eqn:E; [apply Rleb_true in E|apply Rleb_false in E] end; try lra.
Qed.
Lemma l_ef_lemma Lc h : 0 < Lc -> 0 < h ->
  l_ef Compression Lc h = 9/10 * Lc + 2 * h /\ l_ef Tension Lc h = 9/10 * Lc - h / 2 /\ l_ef OtherEdge Lc h = 9/10 * Lc /\
  (0 < l_ef Tension Lc h <-> h < 18/10 * Lc).
Proof. intros. unfold l_ef. repeat split; intros; lra. Qed.
Lemma tor_alpha_pos q : 1 <= q -> 0 < tor_alpha q.
Proof. intros Q. unfold tor_alpha, btw. rleb; cbn [andb]; try lra; nra. Qed.
Lemma tor_beta_range q : 1 <= q -> 2/10 <= tor_beta q <= 1/3.
Proof. intros Q. unfold tor_beta, btw. rleb; cbn [andb]; try lra; nra. Qed.
Lemma side_ratio_ge1 h b : 0 < h -> 0 < b -> 1 <= side_ratio h b /\ side_ratio h b = Rmax h b / Rmin h b.
Proof.
  intros Hh Hb. unfold side_ratio. destruct (Rltb (h / b) 1) eqn:E; [apply Rltb_true in E|apply Rltb_false in E].
  - assert (h < b). { apply Rmult_lt_compat_r with (r := b) in E; [|auto]. unfold Rdiv in E. rewrite Rmult_assoc, Rinv_l in E by lra. lra. }
    replace (1 / (h / b)) with (b / h) by (field; lra). rewrite Rmax_right, Rmin_left by lra. split; [|reflexivity]. apply le_div_iff; lra.
  - assert (b <= h). { apply Rmult_le_compat_r with (r := b) in E; [|lra]. unfold Rdiv in E. rewrite Rmult_assoc, Rinv_l in E by lra. lra. }
    rewrite Rmax_left, Rmin_right by lra. auto.
Qed.
Lemma sigma_mcrit_lemma E G h b fmk l1 l2 : 0 < E -> 0 < G -> 0 < h -> 0 < b -> 0 < fmk -> 0 < l1 -> l1 < l2 ->
  0 < sigma_mcrit E G h b l2 < sigma_mcrit E G h b l1 /\
  sigma_mcrit E G h b l1 * l1 = sigma_mcrit E G h b l2 * l2 /\
  k_crit (lamda_relm fmk (sigma_mcrit E G h b l2)) <= k_crit (lamda_relm fmk (sigma_mcrit E G h b l1)) + 3/10000 /\
  k_crit (lamda_relm fmk (sigma_mcrit E G h b l1)) * fmk <= sigma_mcrit E G h b l1.
Proof.
  intros PE PG Ph Pb Pf P1 P12. destruct (side_ratio_ge1 h b Ph Pb) as [SR _]. pose proof (tor_alpha_pos _ SR) as TA. pose proof PI_RGT_0 as PP.
  assert (PI0 : 0 < I_tor h b). { unfold I_tor. apply Rmult_lt_0_compat; [apply Rmult_lt_0_compat|apply pow_lt]; auto. }
  unfold sigma_mcrit. assert (h * b ^ 3 / 12 > 0). { apply Rdiv_lt_0_compat; [apply Rmult_lt_0_compat; [auto|apply pow_lt; auto]|lra]. }
  assert (NUM : 0 < PI * sqrt (E * (h * b ^ 3 / 12) * G * I_tor h b)). { apply Rmult_lt_0_compat; [auto|]. apply sqrt_lt_R0. repeat apply Rmult_lt_0_compat; lra. }
  set (X := PI * sqrt (E * (h * b ^ 3 / 12) * G * I_tor h b)) in *. clearbody X.
  assert (W : 0 < b * h ^ 2 / 6). { apply Rdiv_lt_0_compat; [apply Rmult_lt_0_compat; [auto|apply pow_lt; auto]|lra]. }
  set (w := b * h ^ 2 / 6) in *. clearbody w. assert (D1 : 0 < l1 * w) by (apply Rmult_lt_0_compat; auto). assert (D2 : 0 < l2 * w) by (apply Rmult_lt_0_compat; lra).
  assert (A : 0 < X / (l2 * w) < X / (l1 * w)).
  { split; [apply Rdiv_lt_0_compat; auto|]. unfold Rdiv. apply Rmult_lt_compat_l; [auto|]. apply Rinv_lt_contravar; [apply Rmult_lt_0_compat; auto|]. apply Rmult_lt_compat_r; auto. }
  split; [exact A|]. split; [field; split; [lra|split; lra]|].
  set (s1 := X / (l1 * w)) in *. set (s2 := X / (l2 * w)) in *. clearbody s1 s2.
  assert (S1 : 0 < fmk / s1) by (apply Rdiv_lt_0_compat; lra).
  split.
  - apply k_crit_lemma; [unfold lamda_relm; apply sqrt_pos|]. unfold lamda_relm. apply sqrt_le_1_alt. unfold Rdiv. apply Rmult_le_compat_l; [lra|]. apply Rinv_le_contravar; lra.
  - destruct (k_crit_lemma (lamda_relm fmk s1)) as (_ & K & _); [apply sqrt_pos|]. unfold lamda_relm in *.
    replace (sqrt (fmk / s1) ^ 2) with (fmk / s1) in K by (rewrite <- Rsqr_pow2, Rsqr_sqrt; lra).
    apply Rmult_le_compat_r with (r := s1) in K; [|lra]. replace (fmk / s1 * k_crit (sqrt (fmk / s1)) * s1) with (k_crit (sqrt (fmk / s1)) * fmk) in K by (field; lra). lra.
Qed.
(** The effective length of a deep beam loaded on the tension edge is not positive. *)
Lemma l_ef_negative_lemma : exists Lc h, 0 < Lc /\ 0 < h /\ l_ef Tension Lc h < 0 /\ forall E G b, 0 < E -> 0 < G -> 0 < b -> sigma_mcrit E G h b (l_ef Tension Lc h) < 0.
Proof.
  exists 1, 2. repeat split; try (cbn; lra). intros E G b PE PG Pb. destruct (side_ratio_ge1 2 b ltac:(lra) Pb) as [SR _]. pose proof (tor_alpha_pos _ SR) as TA. pose proof PI_RGT_0 as PP.
  assert (B3 : 0 < b ^ 3) by (apply pow_lt; auto). assert (PI0 : 0 < I_tor 2 b). { unfold I_tor. apply Rmult_lt_0_compat; [apply Rmult_lt_0_compat|]; auto; lra. }
  unfold sigma_mcrit. assert (NUM : 0 < PI * sqrt (E * (2 * b ^ 3 / 12) * G * I_tor 2 b)). { apply Rmult_lt_0_compat; [auto|]. apply sqrt_lt_R0. repeat apply Rmult_lt_0_compat; lra. }
  set (X := PI * sqrt (E * (2 * b ^ 3 / 12) * G * I_tor 2 b)) in *. clearbody X. cbn [l_ef].
  replace (X / ((1 * (9/10) - 1/2 * 2) * (b * 2 ^ 2 / 6))) with (- (X * (15 / b))) by (field; lra).
  assert (0 < X * (15 / b)) by (apply Rmult_lt_0_compat; [auto|apply Rdiv_lt_0_compat; lra]). lra.
Qed.
(* ---------------------------------------------------------------- torsion *)
Lemma tau_tor_lemma T h b : 0 < b -> b <= h ->
  3 * Rabs T / (h * b ^ 2) <= Rabs (tau_tor T h b) <= 5 * Rabs T / (h * b ^ 2).
Proof.
  intros Pb H. assert (Ph : 0 < h) by lra. destruct (side_ratio_ge1 h b Ph Pb) as [SR _]. pose proof (tor_beta_range _ SR) as TB.
  unfold tau_tor. set (q := tor_beta (side_ratio h b)) in *. clearbody q. assert (D : 0 < h * b ^ 2) by (apply Rmult_lt_0_compat; [auto|apply pow_lt; auto]).
  pose proof (Rabs_pos T).
  assert (E : Rabs (T / (q * h * b ^ 2)) = / q * (Rabs T / (h * b ^ 2))).
  { unfold Rdiv. rewrite Rabs_mult, Rabs_inv, (Rabs_pos_eq (q * h * b ^ 2)) by (rewrite Rmult_assoc; apply Rmult_le_pos; lra). field. repeat split; lra. }
  rewrite E. set (d := h * b ^ 2) in *. clearbody d. unfold Rdiv. rewrite !Rmult_assoc.
  assert (0 <= Rabs T * / d) by (apply Rmult_le_pos; [auto|left; apply Rinv_0_lt_compat; auto]).
  split; apply Rmult_le_compat_r; auto.
  - apply Rmult_le_reg_r with q; [lra|]. rewrite Rinv_l by lra. lra.
  - apply Rmult_le_reg_r with q; [lra|]. rewrite Rinv_l by lra. lra.
Qed.
(** A section wider than high: the stress is not that of the same section turned by 90 degrees. *)
Lemma tau_tor_rotate_lemma T h b : 0 < T -> 0 < h -> h < b -> tau_tor T h b < tau_tor T b h /\ tau_tor T h b * b = tau_tor T b h * h.
Proof.
  intros PT Ph H. assert (Pb : 0 < b) by lra. destruct (side_ratio_ge1 h b Ph Pb) as [SR EQ]. destruct (side_ratio_ge1 b h Pb Ph) as [_ EQ'].
  rewrite Rmax_comm, Rmin_comm, <- EQ in EQ'. unfold tau_tor. rewrite EQ'. pose proof (tor_beta_range _ SR) as TB. set (q := tor_beta (side_ratio h b)) in *. clearbody q.
  assert (E : T / (q * h * b ^ 2) * b = T / (q * b * h ^ 2) * h) by (field; repeat split; lra). split; [|exact E].
  assert (P : 0 < T / (q * b * h ^ 2)). { apply Rdiv_lt_0_compat; [auto|]. apply Rmult_lt_0_compat; [apply Rmult_lt_0_compat; lra|apply pow_lt; auto]. }
  set (u := T / (q * h * b ^ 2)) in *. set (v := T / (q * b * h ^ 2)) in *. clearbody u v.
  apply Rmult_lt_reg_r with b; [auto|]. rewrite E. apply Rmult_lt_compat_l; auto.
Qed.
(** The coefficient falls when the section gets slenderer just past a tabulated ratio. *)
Lemma tor_beta_jump_lemma : tor_beta 5 = 299/1000 /\ tor_beta (51/10) < 28/100 /\ tor_beta (51/10) < tor_beta 5.
Proof. unfold tor_beta, btw. rleb; cbn [andb]; lra. Qed.
(** The torsional constant of a rectangle never exceeds a third of h b^3; the code's value for a square is 0.5344 h b^3. *)
Lemma I_tor_square_lemma a : 0 < a -> I_tor a a = 5344/10000 * a ^ 4.
Proof.
  intros P. unfold I_tor, side_ratio. replace (a / a) with 1 by (field; lra). destruct (Rltb 1 1) eqn:E; [apply Rltb_true in E; lra|].
  unfold tor_alpha, btw. rleb; cbn [andb]; lra.
Qed.
Lemma tor_alpha_fallback_lemma q : 1 <= q <= 9 ->
  (tor_alpha q <= 1/3 <-> (1 < q < 105/100 \/ 145/100 < q < 155/100 \/ 195/100 < q < 205/100 \/ 245/100 < q < 255/100 \/ 295/100 < q < 305/100 \/
    395/100 < q < 405/100 \/ 495/100 < q < 505/100 \/ 595/100 < q < 605/100 \/ 795/100 < q < 805/100)).
Proof. intros Q. unfold tor_alpha, btw. rleb; cbn [andb]; split; intros; try lra; nra. Qed.
Lemma k_shape_lemma h b : 0 < h -> 0 < b -> 1 < k_shape h b <= 13/10 /\ (h <= 6 * b -> k_shape h b = 1 + h / (20 * b)).
Proof.
  intros Ph Pb. unfold k_shape. assert (0 < h / b) by (apply Rdiv_lt_0_compat; auto). replace (1 + 5/100 * h / b) with (1 + 1/20 * (h / b)) by (field; lra).
  split; [split; [apply Rmin_glb_lt; lra|apply Rmin_l]|]. intros H6. assert (h / b <= 6) by (apply div_le_iff; lra). rewrite Rmin_right by lra. field. lra.
Qed.
