(** Properties C313-C321: Vierendeel trusses and portal trusses. *)
From Verif Require Import Raami_model Raami_spec.
From Verif Require Import Base EC3_model Bool_tac Sections_proofs Rhs_model Truss_model Truss_proofs Portal_model Portal_spec Portal_proofs Portal2_proofs Portal3_proofs Portal4_proofs.
Require Import Reals String List Bool Arith Permutation Lra Lia Psatz.
Import ListNotations.
Local Open Scope R_scope.

(** A Vierendeel truss of three panels. *)
Definition ex_v : vier := mkV 100 200 9000 1500 3.

(** C313 *)
Theorem C313_geometry : forall v, (1 <= v_n v)%nat -> exists t, v_topology v = Some t /\
  length (vtop t) = (v_n v + 1)%nat /\ length (vbot t) = (v_n v + 1)%nat /\
  length (vtc t) = v_n v /\ length (vbc t) = v_n v /\ length (vbr t) = (v_n v + 1)%nat /\
  (forall i, (i <= v_n v)%nat ->
     nth i (vbot t) (0, 0) = (v_x0 v + INR i * (v_span v / INR (v_n v)), v_y0 v) /\
     nth i (vtop t) (0, 0) = (v_x0 v + INR i * (v_span v / INR (v_n v)), v_y0 v + v_H v)) /\
  (forall i j, In (i, j) (vbr t) <-> i = j /\ (i <= v_n v)%nat) /\
  (forall i j, In (i, j) (vtc t) <-> j = S i /\ (i < v_n v)%nat) /\
  (forall i j, In (i, j) (vbc t) <-> j = S i /\ (i < v_n v)%nat).
Proof. exact v_geometry_lemma. Qed.
Print Assumptions C313_geometry.
Theorem C313_no_panels : forall v, v_n v = 0%nat -> v_topology v = None.
Proof. exact v_no_panels_lemma. Qed.
Print Assumptions C313_no_panels.
Example C313_ex : exists t, v_topology ex_v = Some t /\ nth 2 (vtop t) (0, 0) = (6100, 1700) /\ nth 3 (vbot t) (0, 0) = (9100, 200) /\ In (1, 1)%nat (vbr t).
Proof.
  destruct (v_geometry_lemma ex_v) as (t & E & _ & _ & _ & _ & _ & G & B & _); [cbn; lia|]. exists t. split; [exact E|].
  cbn [ex_v v_n v_x0 v_y0 v_span v_H] in G, B. rewrite (proj2 (G 2%nat ltac:(lia))), (proj1 (G 3%nat ltac:(lia))). cbn [INR].
  split; [f_equal; lra|]. split; [f_equal; lra|]. apply B. lia.
Qed.

(** C314 *)
Theorem C314_stable : forall v, (1 <= v_n v)%nat -> v_span v <> 0 -> exists t, v_topology v = Some t /\
  v_stable t (fst (v_supports t)) (snd (v_supports t)).
Proof. exact v_stable_lemma. Qed.
Print Assumptions C314_stable.
Example C314_ex : exists t, v_topology ex_v = Some t /\ v_stable t (Bot 0) (Bot 3).
Proof.
  destruct (v_stable_lemma ex_v) as (t & E & S1); [cbn; lia|cbn; lra|]. exists t. split; [exact E|].
  destruct (v_geometry_lemma ex_v) as (t' & E' & _ & L & _); [cbn; lia|]. rewrite E in E'. injection E' as <-.
  unfold v_supports in S1. cbn [fst snd] in S1. rewrite L in S1. exact S1.
Qed.
(** With hinged braces the same frame would move: the definition of stability tells the two apart. *)
Example C314_hinged_ex : let t := mkVT [(0, 1); (1, 1)] [(0, 0); (1, 0)] [(0, 1)%nat] [(0, 1)%nat] [(0, 0); (1, 1)]%nat [(true, true); (true, true)] in
  ~ v_stable t (Bot 0) (Bot 1).
Proof.
  intros t S1. assert (K : (1, 0) = (0, 0) /\ 0 = 0 :> R); [|destruct K as [K _]; injection K; lra].
  apply (S1 (fun v => match v with Top _ => (1, 0) | Bot _ => (0, 0) end) (fun _ => 0)) with (v := Top 0).
  - intros a b h [(i & j & -> & -> & H & ->)|[(i & j & -> & -> & H & ->)|(i & j & -> & -> & H)]].
    + exists 0. cbn [fst snd]. repeat split; lra.
    + exists 0. cbn [fst snd]. repeat split; lra.
    + exists (-1). cbn in H. destruct H as [H|[H|[]]]; injection H as <- <- <-; cbn; repeat split; intros; try discriminate; lra.
  - reflexivity.
  - reflexivity.
  - cbn. lia.
Qed.

(** C315 *)
Theorem C315_joints : forall v, (1 <= v_n v)%nat -> exists t js, v_topology v = Some t /\ v_joints t = Some js /\
  map y_node js = map Top (seq 0 (v_n v + 1)) ++ map Bot (seq 0 (v_n v + 1)) /\
  (forall j, In j js -> exists i, (i <= v_n v)%nat /\ (y_node j = Top i \/ y_node j = Bot i) /\ y_braces j = [(i, i)] /\
    NoDup (y_chord j) /\
    (forall k, In k (y_chord j) <-> (k < v_n v)%nat /\ (i = k \/ i = S k))).
Proof. exact v_joints_lemma. Qed.
Print Assumptions C315_joints.
Example C315_ex : exists t js, v_topology ex_v = Some t /\ v_joints t = Some js /\ map y_node js = [Top 0; Top 1; Top 2; Top 3; Bot 0; Bot 1; Bot 2; Bot 3].
Proof. destruct (v_joints_lemma ex_v) as (t & js & E & J & M & _); [cbn; lia|]. exists t, js. auto. Qed.

(** C316 *)
Theorem C316_weight : forall v rho At Ab Abr, (1 <= v_n v)%nat -> 0 <= v_span v -> 0 <= v_H v -> exists t, v_topology v = Some t /\
  v_weight rho At Ab Abr t = (rho * At * v_span v, rho * Ab * v_span v, rho * Abr * ((INR (v_n v) + 1) * v_H v)).
Proof. exact v_weight_lemma. Qed.
Print Assumptions C316_weight.
Example C316_ex : exists t, v_topology ex_v = Some t /\ snd (v_weight (785/100000000) 3000 2500 1600 t) = 785/100000000 * 1600 * 6000.
Proof.
  destruct (v_weight_lemma ex_v (785/100000000) 3000 2500 1600) as (t & E & W); [cbn; lia|cbn; lra|cbn; lra|]. exists t. split; [exact E|].
  rewrite W. cbn [snd ex_v v_n v_H INR]. lra.
Qed.

(** C317 *)
Theorem C317_no_load_lost : forall v os, (1 <= v_n v)%nat -> exists t f, v_topology v = Some t /\ v_run t os no_loads = Some f /\
  NoDup (map fst (ls f)) /\ map what (map snd (ls f)) = flat_map (v_given (v_n v)) os.
Proof. exact v_loads_lemma. Qed.
Print Assumptions C317_no_load_lost.
Theorem C317_total : forall v os, (1 <= v_n v)%nat -> exists t f, v_topology v = Some t /\ v_run t os no_loads = Some f /\
  Rsum (map (v_force t) (map snd (ls f))) = Rsum (map (v_total (v_span v) (v_n v)) os).
Proof. exact v_total_lemma. Qed.
Print Assumptions C317_total.
Example C317_ex : exists t f, v_topology ex_v = Some t /\ v_run t [VPoint true 5 10 2 "live"; VPoint true 5 10 2 "live"; VUni false 3 2 "live"] no_loads = Some f /\
  Rsum (map (v_force t) (map snd (ls f))) = 27060.
Proof.
  destruct (v_total_lemma ex_v [VPoint true 5 10 2 "live"; VPoint true 5 10 2 "live"; VUni false 3 2 "live"]) as (t & f & E & R1 & T1); [cbn; lia|].
  exists t, f. split; [exact E|]. split; [exact R1|]. rewrite T1. cbn [map v_total ex_v v_n v_span INR]. rewrite !Rsum_cons. cbn [Rsum fold_right]. unfold Rsum. cbn. lra.
Qed.

(** C318 *)
Theorem C318_applied_partial : forall tops nb os s, p_run tops nb os (no_loads, no_loads) = Some s ->
  Permutation (map what (fem_loads s)) (p_applied tops nb [] os).
Proof. exact p_applied_lemma. Qed.
Print Assumptions C318_applied_partial.
Theorem C318_once_refuted : forall tops nb q i lt, tops <> [] -> exists s, p_run tops nb [PUni true q i lt] (no_loads, no_loads) = Some s /\
  forall k, (k < length tops)%nat -> length (filter (fun l => match on l with OnTop j => Nat.eqb j k | _ => false end) (fem_loads s)) = 2%nat.
Proof. exact p_twice_lemma. Qed.
Print Assumptions C318_once_refuted.
Example C318_ex : exists s, p_run [(0, 5); (5, 10)] 1 [PUni true (-20) 2 "live"; PUni true (-5) 2 "dead"; PCol true 3 2 "wind"] (no_loads, no_loads) = Some s /\
  Permutation (map what (fem_loads s))
   [(2%nat, OnTop 0, Uni (-20)); (2%nat, OnTop 1, Uni (-20)); (2%nat, OnTop 0, Uni (-20)); (2%nat, OnTop 1, Uni (-20));
    (2%nat, OnTop 0, Uni (-5)); (2%nat, OnTop 1, Uni (-5)); (2%nat, OnCol true, Uni 3)].
Proof.
  destruct (p_orderly_lemma [(0, 5); (5, 10)] 1 [PUni true (-20) 2 "live"; PUni true (-5) 2 "dead"; PCol true 3 2 "wind"]) as (s & E & P).
  - cbn. repeat split; auto; discriminate.
  - exists s. split; [exact E|exact P].
Qed.

(** C319 *)
Theorem C319_column_first_raises : forall tops nb a b q i lt c, ~ In i (map pop_id a) -> p_run tops nb (a ++ PCol b q i lt :: c) (no_loads, no_loads) = None.
Proof. exact p_column_first_lemma. Qed.
Print Assumptions C319_column_first_raises.
Theorem C319_orderly_runs_partial : forall tops nb os, orderly tops nb [] os -> exists s, p_run tops nb os (no_loads, no_loads) = Some s /\
  Permutation (map what (fem_loads s)) (p_applied tops nb [] os).
Proof. exact p_orderly_lemma. Qed.
Print Assumptions C319_orderly_runs_partial.
Example C319_ex : p_run [(0, 5); (5, 10)] 1 [PUni true (-20) 2 "live"; PCol true 3 4 "wind"] (no_loads, no_loads) = None.
Proof. apply (p_column_first_lemma _ _ [PUni true (-20) 2 "live"] true 3 4 "wind" []). cbn. lia. Qed.

(** C320 *)
Theorem C320_ridge : forall L height dx h1 h2 slope s sl, sloped_truss (5/10 * L) (5/10 * L) dx dx h1 h2 slope = Some s ->
  sloped_slope (5/10 * L) h1 h2 slope = Some sl ->
  ridge_height L height sl = snd (moved height (xmid s)) /\ fst (moved height (xmid s)) = L / 2 /\ height <= ridge_height L height sl.
Proof. exact ridge_lemma. Qed.
Print Assumptions C320_ridge.
Example C320_ex : exists s sl, sloped_truss (5/10 * 20) (5/10 * 20) 1 1 1 2 0 = Some s /\ sloped_slope (5/10 * 20) 1 2 0 = Some sl /\ ridge_height 20 10 sl = 11.
Proof.
  assert (E1 : sloped_truss (5/10 * 20) (5/10 * 20) 1 1 1 2 0 = Some (mkSl (5/10 * 20) (5/10 * 20) 1 1 1 2)).
  { unfold sloped_truss. rewrite (eqb_f 1 0), (eqb_f 2 0), ltb_f by lra. reflexivity. }
  assert (E2 : sloped_slope (5/10 * 20) 1 2 0 = Some (atan ((2 - 1) / (5/10 * 20)) * 180 / PI)).
  { unfold sloped_slope. rewrite (eqb_f 1 0), (eqb_f 2 0), pdiv_ok by lra. reflexivity. }
  eexists _, _. split; [exact E1|]. split; [exact E2|]. rewrite (proj1 (ridge_lemma 20 10 1 1 2 0 _ _ E1 E2)). unfold moved, xmid. cbn. lra.
Qed.

(** C321 *)
Theorem C321_face_partial : forall hc a b, 0 <= hc -> fst a + 1 / 1000000 <= fst b ->
  (snd a <= snd b -> on_line a b (face_node true hc a b a) /\ on_line a b (brace_node true hc a b a)) /\
  (snd b <= snd a -> on_line a b (face_node false hc a b b) /\ on_line a b (brace_node false hc a b b)).
Proof. exact face_on_chord_lemma. Qed.
Print Assumptions C321_face_partial.
Theorem C321_new_node : forall (left : bool) hc a b n, 0 <= hc -> fst a + 1 / 1000000 <= fst b ->
  let c := (fst b - fst a) / mlen a b in
  exists p, new_brace_node left hc a b n = Some p /\
    fst p = fst n + (if left then 1 else -1) * (hc / 2 * c ^ 2 + 30 * c) /\
    (fst p - fst n) * (snd b - snd a) = (snd p - snd n) * (fst b - fst a) /\
    (snd a <> snd b -> Rabs (fst p - fst n) < hc / 2 + 30) /\
    (30 * c < hc / 2 * (1 - c ^ 2) -> Rabs (fst p - fst n) < hc / 2).
Proof. exact new_node_lemma. Qed.
Print Assumptions C321_new_node.
Theorem C321_falling_refuted : forall hc a b, 0 < hc -> fst a + 1 / 1000000 <= fst b -> snd b < snd a -> ~ on_line a b (face_node true hc a b a).
Proof. exact face_off_chord_lemma. Qed.
Print Assumptions C321_falling_refuted.
Theorem C321_distance_refuted : ~ (forall left hc a b n, 0 < hc -> fst a + 1 / 1000000 <= fst b ->
  exists p, new_brace_node left hc a b n = Some p /\ fst p = fst (brace_node left hc a b n)).
Proof.
  intros H. destruct (H true 200 (0, 0) (4, 3) (0, 0)) as (p & E & F); [lra|cbn; lra|].
  destruct (new_node_lemma true 200 (0, 0) (4, 3) (0, 0)) as (p' & E' & _ & _ & L & _); [lra|cbn; lra|].
  rewrite E in E'. injection E' as <-. rewrite update_node_lemma in F by lra. cbn [fst snd] in F, L. rewrite F in L.
  replace (0 + 1 * (200 / 2 + 30) - 0) with 130 in L by lra. rewrite Rabs_right in L by lra. specialize (L ltac:(lra)). lra.
Qed.
Print Assumptions C321_distance_refuted.
(** On a chord with slope 3:4 the new node of a column of depth 300 is inside the column. *)
Example C321_ex : exists p, new_brace_node true 300 (0, 0) (4, 3) (0, 0) = Some p /\ fst p < 150.
Proof.
  destruct (new_node_lemma true 300 (0, 0) (4, 3) (0, 0)) as (p & E & X & _ & _ & L); [lra|cbn; lra|]. exists p. split; [exact E|].
  assert (M : mlen (0, 0) (4, 3) = 5).
  { unfold mlen, vlen, vdot, vminus. cbn [fst snd]. replace ((4 - 0) * (4 - 0) + (3 - 0) * (3 - 0)) with (5 * 5) by lra. apply sqrt_square. lra. }
  rewrite M in X, L. cbn [fst] in X, L. rewrite X. lra.
Qed.
