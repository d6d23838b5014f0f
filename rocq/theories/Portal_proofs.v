From Verif Require Import Raami_model Raami_spec Raami_proofs.
From Verif Require Import Base EC3_model Bool_tac EC3_proofs Plate_proofs Sections_proofs Rhs_model Truss_model Truss_proofs Portal_model Portal_spec.
Require Import Reals String List Bool Arith Permutation Lra Lia Psatz.
Import ListNotations.
Local Open Scope R_scope.

Lemma pl_INR n : (1 <= n)%nat -> 1 <= INR n.
Proof. intros H. apply le_INR in H. cbn in H. lra. Qed.

Lemma chord_len v y : length (chord_nodes v y) = (v_n v + 1)%nat.
Proof. unfold chord_nodes. rewrite along_length, linspace_length. reflexivity. Qed.
Lemma chord_nth v y i : (1 <= v_n v)%nat -> (i <= v_n v)%nat -> nth i (chord_nodes v y) (0, 0) = (v_x0 v + INR i * (v_span v / INR (v_n v)), y).
Proof.
  intros P H. unfold chord_nodes. rewrite along_nth by (rewrite linspace_length; lia). rewrite linspace_nth by lia.
  replace (v_n v + 1 - 1)%nat with (v_n v) by lia. pose proof (pl_INR _ P). unfold vadd, vscale, vminus. cbn [fst snd].
  f_equal; field; lra.
Qed.
Lemma combine_diag n : forall a, combine (seq a n) (seq a n) = map (fun i => (i, i)) (seq a n).
Proof. induction n; intros; cbn; f_equal; auto. Qed.

Lemma v_topology_eq v : (1 <= v_n v)%nat -> v_topology v = Some (mkVT (chord_nodes v (v_y0 v + v_H v)) (chord_nodes v (v_y0 v))
  (map (fun i => (i, i + 1)%nat) (seq 0 (v_n v))) (map (fun i => (i, i + 1)%nat) (seq 0 (v_n v)))
  (map (fun i => (i, i)) (seq 0 (v_n v + 1))) (map (fun _ => (false, false)) (seq 0 (v_n v + 1)))).
Proof.
  intros P. pose proof (pl_INR _ P). unfold v_topology. rewrite pdiv_ok by lra. cbn [bind]. unfold consecutive. rewrite !chord_len.
  rewrite combine_diag, map_map. replace (v_n v + 1 - 1)%nat with (v_n v) by lia. reflexivity.
Qed.

(** C313 *)
Lemma v_geometry_lemma v : (1 <= v_n v)%nat -> exists t, v_topology v = Some t /\
  length (vtop t) = (v_n v + 1)%nat /\ length (vbot t) = (v_n v + 1)%nat /\
  length (vtc t) = v_n v /\ length (vbc t) = v_n v /\ length (vbr t) = (v_n v + 1)%nat /\
  (forall i, (i <= v_n v)%nat ->
     nth i (vbot t) (0, 0) = (v_x0 v + INR i * (v_span v / INR (v_n v)), v_y0 v) /\
     nth i (vtop t) (0, 0) = (v_x0 v + INR i * (v_span v / INR (v_n v)), v_y0 v + v_H v)) /\
  (forall i j, In (i, j) (vbr t) <-> i = j /\ (i <= v_n v)%nat) /\
  (forall i j, In (i, j) (vtc t) <-> j = S i /\ (i < v_n v)%nat) /\
  (forall i j, In (i, j) (vbc t) <-> j = S i /\ (i < v_n v)%nat).
Proof.
  intros P. rewrite (v_topology_eq v P). eexists. split; [reflexivity|]. cbn [vtop vbot vtc vbc vbr].
  rewrite !chord_len, !map_length, !seq_length. do 5 (split; [reflexivity|]).
  split; [intros i H; rewrite !chord_nth by auto; auto|].
  assert (C : forall i j, In (i, j) (map (fun i => (i, (i + 1)%nat)) (seq 0 (v_n v))) <-> j = S i /\ (i < v_n v)%nat).
  { intros i j. rewrite in_map_iff. split.
    - intros (x & E & H). injection E as <- <-. apply in_seq in H. lia.
    - intros [-> H]. exists i. split; [f_equal; lia|apply in_seq; lia]. }
  split; [|split; exact C]. intros i j. rewrite in_map_iff. split.
  - intros (x & E & H). injection E as <- <-. apply in_seq in H. split; [auto|lia].
  - intros [-> H]. exists j. split; [reflexivity|apply in_seq; lia].
Qed.
Lemma v_no_panels_lemma v : v_n v = 0%nat -> v_topology v = None.
Proof. intros E. unfold v_topology, pdiv. rewrite E. cbn [INR]. rewrite eqb_t by reflexivity. reflexivity. Qed.

(** C314 *)
Lemma v_members v t : (1 <= v_n v)%nat -> v_topology v = Some t ->
  (forall i, (i < v_n v)%nat -> v_member t (Top i) (Top (S i)) (false, false) /\ v_member t (Bot i) (Bot (S i)) (false, false)) /\
  (forall i, (i <= v_n v)%nat -> v_member t (Top i) (Bot i) (false, false)).
Proof.
  intros P E. rewrite (v_topology_eq v P) in E. injection E as <-. split.
  - intros i H. assert (I1 : In (i, S i) (map (fun i => (i, (i + 1)%nat)) (seq 0 (v_n v)))).
    { apply in_map_iff. exists i. split; [f_equal; lia|apply in_seq; lia]. }
    split; [left|right; left]; exists i, (S i); auto.
  - intros i H. right; right. exists i, i. split; [auto|]. split; [auto|]. cbn [vbr vhinge].
    assert (K : forall l : list nat, combine (map (fun i => (i, i)) l) (map (fun _ => (false, false)) l) = map (fun i => ((i, i), (false, false))) l)
      by (induction l; cbn; f_equal; auto).
    rewrite K. apply in_map_iff. exists i. split; [auto|]. apply in_seq. lia.
Qed.
Lemma v_stable_lemma v : (1 <= v_n v)%nat -> v_span v <> 0 -> exists t, v_topology v = Some t /\
  v_stable t (fst (v_supports t)) (snd (v_supports t)).
Proof.
  intros P SP. destruct (v_geometry_lemma v P) as (t & E & LT & LB & _ & _ & _ & G & _). exists t. split; [exact E|].
  destruct (v_members v t P E) as [MC MB]. unfold v_supports. cbn [fst snd]. rewrite LB. replace (v_n v + 1 - 1)%nat with (v_n v) by lia.
  intros u rot M U0 UN. pose proof (pl_INR _ P) as PI1. set (d := v_span v / INR (v_n v)) in *.
  assert (HB : forall i, (i <= v_n v)%nat -> rot (Bot i) = rot (Bot 0) /\ u (Bot i) = (0, rot (Bot 0) * (INR i * d))).
  { induction i; intros H.
    - split; [auto|]. rewrite U0. cbn [INR]. f_equal; lra.
    - destruct IHi as [R1 U1]; [lia|]. destruct (M _ _ _ (proj2 (MC i ltac:(lia)))) as (phi & A & B & C & D).
      cbn [v_place] in A, B. rewrite (proj1 (G i ltac:(lia))), (proj1 (G (S i) ltac:(lia))) in A, B. rewrite U1 in A, B. cbn [fst snd] in A, B, C, D.
      specialize (C eq_refl). specialize (D eq_refl). rewrite D, <- C, R1. split; [auto|]. rewrite <- C, R1 in B. rewrite S_INR in B |- *.
      rewrite (surjective_pairing (u (Bot (S i)))). f_equal; lra. }
  assert (Z : rot (Bot 0) = 0).
  { destruct (HB (v_n v) (le_n _)) as [_ K]. rewrite K in UN. cbn [snd] in UN.
    assert (INR (v_n v) * d = v_span v) by (unfold d; field; lra). rewrite H in UN.
    apply Rmult_integral in UN. destruct UN; [auto|contradiction]. }
  intros w W. destruct w as [i|i]; cbn in W.
  - rewrite LT in W. destruct (HB i ltac:(lia)) as [R1 U1]. rewrite Z in R1, U1.
    destruct (M _ _ _ (MB i ltac:(lia))) as (phi & A & B & C & D). cbn [v_place] in A, B.
    rewrite (proj1 (G i ltac:(lia))), (proj2 (G i ltac:(lia))), U1 in A, B. cbn [fst snd] in A, B, C, D.
    specialize (C eq_refl). specialize (D eq_refl). rewrite R1 in D. subst phi. split; [|lra].
    rewrite (surjective_pairing (u (Top i))). f_equal; nra.
  - rewrite LB in W. destruct (HB i ltac:(lia)) as [R1 U1]. rewrite Z in R1, U1. split; [rewrite U1; f_equal; lra|auto].
Qed.

(** C315 *)
Lemma chord_at_app i a b : forall acc k, (length acc <= 1)%nat ->
  (forall m, In m a -> fst m <> i /\ snd m <> i) -> chord_at i (a ++ b) acc k = chord_at i b acc (k + length a).
Proof.
  induction a as [|[x y] a IH]; intros acc k L H; cbn [app chord_at length].
  - f_equal. lia.
  - destruct (H (x, y) (or_introl eq_refl)) as [H1 H2]. cbn in H1, H2.
    replace (Nat.eqb i x) with false by (symmetry; apply Nat.eqb_neq; auto). replace (Nat.eqb i y) with false by (symmetry; apply Nat.eqb_neq; auto).
    cbn [orb]. rewrite IH; [f_equal; lia|auto|]. intros m Hm. apply H. right; auto.
Qed.
Lemma chord_at_chain n i : (i <= n)%nat -> (1 <= n)%nat ->
  chord_at i (map (fun i => (i, i + 1)%nat) (seq 0 n)) [] 0 =
  (if Nat.eqb i 0 then [0%nat] else if Nat.eqb i n then [(i - 1)%nat] else [(i - 1)%nat; i]).
Proof.
  intros H P. assert (NI : forall a k, (forall m, In m (map (fun i => (i, i + 1)%nat) (seq a k)) -> (a <= fst m < a + k)%nat /\ snd m = S (fst m))).
  { intros a k m Hm. apply in_map_iff in Hm. destruct Hm as (x & <- & Hx). apply in_seq in Hx. cbn. lia. }
  assert (TAIL : forall acc k a c, (length acc <= 1)%nat -> (i < a)%nat -> chord_at i (map (fun i => (i, i + 1)%nat) (seq a c)) acc k = acc).
  { intros acc k a c L Ha. rewrite <- (app_nil_r (map _ _)). rewrite chord_at_app; [reflexivity|auto|].
    intros m Hm. apply NI in Hm. lia. }
  destruct (Nat.eqb_spec i 0) as [->|Z].
  - destruct n as [|n]; [lia|]. cbn [seq map chord_at]. cbn [Nat.eqb orb app length]. apply TAIL; cbn; lia.
  - assert (SP : seq 0 n = seq 0 (i - 1) ++ seq (i - 1) (n - (i - 1))) by (rewrite <- seq_app; f_equal; lia).
    rewrite SP, map_app, chord_at_app.
    2:{ cbn; lia. }
    2:{ intros m Hm. apply NI in Hm. lia. }
    rewrite map_length, seq_length. destruct (n - (i - 1))%nat as [|c] eqn:EC; [lia|]. cbn [seq map chord_at].
    replace (Nat.eqb i (i - 1)) with false by (symmetry; apply Nat.eqb_neq; lia). replace (Nat.eqb i (i - 1 + 1)) with true by (symmetry; apply Nat.eqb_eq; lia).
    cbn [orb app length Nat.eqb]. destruct c as [|c].
    + cbn. replace (Nat.eqb i n) with true by (symmetry; apply Nat.eqb_eq; lia). reflexivity.
    + cbn [seq map chord_at]. replace (S (i - 1)) with i by lia. rewrite Nat.eqb_refl. cbn [orb app length Nat.eqb].
      replace (Nat.eqb i n) with false by (symmetry; apply Nat.eqb_neq; lia). f_equal. f_equal. lia.
Qed.
Lemma filter_one n i : (i < n)%nat -> filter (fun b : nat * nat => Nat.eqb i (fst b)) (map (fun i => (i, i)) (seq 0 n)) = [(i, i)] /\
  filter (fun b : nat * nat => Nat.eqb i (snd b)) (map (fun i => (i, i)) (seq 0 n)) = [(i, i)].
Proof.
  assert (K : forall (g : nat * nat -> nat), (forall x, g (x, x) = x) -> forall n a, (a <= i < a + n)%nat -> filter (fun b => Nat.eqb i (g b)) (map (fun i => (i, i)) (seq a n)) = [(i, i)]).
  { intros g G. induction n0; intros a H; [lia|]. cbn. rewrite G. destruct (Nat.eqb_spec i a) as [->|Z].
    - f_equal. clear -G. assert (forall n b, (a < b)%nat -> filter (fun b => Nat.eqb a (g b)) (map (fun i => (i, i)) (seq b n)) = []).
      { induction n; intros b H; [auto|]. cbn. rewrite G. destruct (Nat.eqb_spec a b); [lia|]. apply IHn. lia. }
      apply H. lia.
    - apply IHn0. lia. }
  intros H. split; apply K; auto; lia.
Qed.
Lemma v_joints_lemma v : (1 <= v_n v)%nat -> exists t js, v_topology v = Some t /\ v_joints t = Some js /\
  map y_node js = map Top (seq 0 (v_n v + 1)) ++ map Bot (seq 0 (v_n v + 1)) /\
  (forall j, In j js -> exists i, (i <= v_n v)%nat /\ (y_node j = Top i \/ y_node j = Bot i) /\ y_braces j = [(i, i)] /\
    NoDup (y_chord j) /\
    (forall k, In k (y_chord j) <-> (k < v_n v)%nat /\ (i = k \/ i = S k))).
Proof.
  intros P. rewrite (v_topology_eq v P). set (t := mkVT _ _ _ _ _ _). exists t.
  set (ch := fun i => if Nat.eqb i 0 then [0%nat] else if Nat.eqb i (v_n v) then [(i - 1)%nat] else [(i - 1)%nat; i]).
  assert (LOOP : forall vs, (forall w, In w vs -> match w with Top i => (i <= v_n v)%nat | Bot i => (i <= v_n v)%nat end) ->
    v_joint_loop t vs = Some (map (fun w => match w with Top i => mkY (Top i) (ch i) [(i, i)] | Bot i => mkY (Bot i) (ch i) [(i, i)] end) vs)).
  { induction vs as [|w vs IH]; intros H; [reflexivity|]. cbn [v_joint_loop map]. specialize (IH (fun w H0 => H w (or_intror H0))).
    specialize (H w (or_introl eq_refl)). rewrite IH. unfold v_braces_at. cbn [vbr vtc vbc t].
    destruct w as [i|i]; rewrite chord_at_chain by auto; [rewrite (proj1 (filter_one (v_n v + 1) i ltac:(lia)))|rewrite (proj2 (filter_one (v_n v + 1) i ltac:(lia)))]; reflexivity. }
  eexists. split; [reflexivity|]. unfold v_joints. subst t. cbn [vtop vbot] in *. rewrite !chord_len.
  set (vs := map Top (seq 0 (v_n v + 1)) ++ map Bot (seq 0 (v_n v + 1))).
  assert (IN : forall w, In w vs -> match w with Top i => (i <= v_n v)%nat | Bot i => (i <= v_n v)%nat end).
  { intros w H. apply in_app_or in H. destruct H as [H|H]; apply in_map_iff in H; destruct H as (x & <- & H); apply in_seq in H; lia. }
  rewrite LOOP by exact IN. split; [reflexivity|]. split.
  - rewrite map_map. transitivity (map (fun w => w) vs); [|apply map_id]. apply map_ext. intros [i|i]; reflexivity.
  - intros j H. apply in_map_iff in H. destruct H as (w & <- & H). apply IN in H.
    assert (CH : forall i, (i <= v_n v)%nat -> NoDup (ch i) /\ forall k, In k (ch i) <-> (k < v_n v)%nat /\ (i = k \/ i = S k)).
    { intros i Hi. unfold ch. destruct (Nat.eqb_spec i 0) as [->|Z]; [|destruct (Nat.eqb_spec i (v_n v)) as [->|Z2]].
      - split; [repeat constructor; auto|]. intros k. cbn. lia.
      - split; [repeat constructor; auto|]. intros k. cbn. lia.
      - split; [repeat constructor; cbn; [lia|auto]|]. intros k. cbn. lia. }
    destruct w as [i|i]; cbn [y_node y_chord y_braces]; exists i; (split; [exact H|]); (split; [auto|]); (split; [reflexivity|]); apply CH; exact H.
Qed.

(** C316 *)
Lemma Rsum_same {A} (f : A -> R) c l : (forall x, In x l -> f x = c) -> Rsum (map f l) = INR (length l) * c.
Proof.
  induction l as [|a l IH]; intros H; [cbn; lra|]. cbn [map length]. rewrite Rsum_cons, IH, H by (intros; try apply H; cbn; auto).
  rewrite S_INR. lra.
Qed.
Lemma vlen_h x y x' : x <= x' -> mlen (x, y) (x', y) = x' - x.
Proof.
  intros H. unfold mlen, vlen, vdot, vminus. cbn [fst snd]. replace ((x' - x) * (x' - x) + (y - y) * (y - y)) with ((x' - x) * (x' - x)) by ring.
  apply sqrt_square. lra.
Qed.
Lemma vlen_v x y y' : y' <= y -> mlen (x, y) (x, y') = y - y'.
Proof.
  intros H. unfold mlen, vlen, vdot, vminus. cbn [fst snd]. replace ((x - x) * (x - x) + (y' - y) * (y' - y)) with ((y - y') * (y - y')) by ring.
  apply sqrt_square. lra.
Qed.
Lemma v_weight_lemma v rho At Ab Abr : (1 <= v_n v)%nat -> 0 <= v_span v -> 0 <= v_H v -> exists t, v_topology v = Some t /\
  v_weight rho At Ab Abr t = (rho * At * v_span v, rho * Ab * v_span v, rho * Abr * ((INR (v_n v) + 1) * v_H v)).
Proof.
  intros P S0 H0. rewrite (v_topology_eq v P). eexists. split; [reflexivity|]. pose proof (pl_INR _ P) as P1.
  assert (DN : 0 <= v_span v / INR (v_n v)) by (apply Rmult_le_pos; [auto|left; apply Rinv_0_lt_compat; lra]).
  assert (CW : forall A y, chord_weight rho A (chord_nodes v y) (map (fun i => (i, (i + 1)%nat)) (seq 0 (v_n v))) = rho * A * v_span v).
  { intros A y. unfold chord_weight. rewrite map_map. rewrite (Rsum_same _ (rho * A * (v_span v / INR (v_n v)))).
    - rewrite seq_length. field. lra.
    - intros i Hi. apply in_seq in Hi. cbn [fst snd]. rewrite !chord_nth by lia. rewrite plus_INR. cbn [INR]. rewrite vlen_h by nra. ring. }
  unfold v_weight. cbn [vtop vbot vtc vbc vbr]. rewrite !CW. f_equal. rewrite map_map.
  rewrite (Rsum_same _ (rho * Abr * v_H v)).
  - rewrite seq_length, plus_INR. cbn [INR]. ring.
  - intros i Hi. apply in_seq in Hi. cbn [fst snd]. rewrite !chord_nth by lia. rewrite vlen_v by lra. ring.
Qed.
