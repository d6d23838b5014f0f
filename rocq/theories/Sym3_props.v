(** Properties C343-C344: profile search of groups, moving nodes. *)
From Verif Require Import Base EC3_model Bool_tac EC3_proofs Plate_proofs Sym_proofs Sym2_proofs Sym3_proofs.
From Verif Require Import Sym_model Sym_spec.
Require Import Reals List Bool Lra Lia Psatz PeanoNat.
Import ListNotations.
Local Open Scope R_scope.

(** C343 *)
Theorem C343_first : forall bmin bmax lim maxu cls lids ps cur, 0 <= maxu ->
  let k := fst (group_search bmin bmax lim maxu cls lids [] cur 0 ps) in
  (exists p, nth_error ps k = Some p /\ group_ok bmin bmax maxu cls lids p /\
     forall j q, (j < k)%nat -> nth_error ps j = Some q -> ~ group_ok bmin bmax maxu cls lids q) \/
  ((forall p, In p ps -> ~ group_ok bmin bmax maxu cls lids p) /\ k = match ps with [] => cur | _ => (length ps - 1)%nat end).
Proof. exact group_first_lemma. Qed.
Print Assumptions C343_first.
Theorem C343_no_slenderness : forall bmin bmax lim lim' maxu cls lids ps ut cur i,
  group_search bmin bmax lim maxu cls lids ut cur i ps = group_search bmin bmax lim' maxu cls lids ut cur i ps.
Proof. exact group_limit_lemma. Qed.
Print Assumptions C343_no_slenderness.
Theorem C343_spans_argument : forall allow maxu maxu' cls lids ps ut cur i,
  span_search allow maxu cls lids ut cur i ps = span_search allow maxu' cls lids ut cur i ps.
Proof. exact span_arg_lemma. Qed.
Print Assumptions C343_spans_argument.
Theorem C343_spans_as_group : forall allow maxu lim bmin bmax cls lids ps, (forall p, In p ps -> bmin <= gp_b p <= bmax) -> forall ut cur i,
  span_search allow maxu cls lids ut cur i ps = group_search bmin bmax lim allow cls lids ut cur i ps.
Proof. exact span_group_lemma. Qed.
Print Assumptions C343_spans_as_group.
Theorem C343_check : forall us, checked us = true <-> forall u, In u us -> u <= 1.
Proof. exact checked_lemma. Qed.
Print Assumptions C343_check.
Theorem C343_same_section : forall A1 I1 A2 I2, is_section A1 I1 A2 I2 = true <->
  sqrt ((A1 - A2) * (A1 - A2) + (I1 - I2) * (I1 - I2)) < 1 / 1000.
Proof. exact section_same_lemma. Qed.
Print Assumptions C343_same_section.
Theorem C343_slender_refuted : exists bmin bmax lim maxu cls lids ps p, 0 < lim /\
  nth_error ps (fst (group_search bmin bmax lim maxu cls lids [] 0 0 ps)) = Some p /\ (exists l x, In l (gp_slend p) /\ In x l /\ lim < x) /\
  exists q, In q ps /\ group_ok bmin bmax maxu cls lids q /\ forall l x, In l (gp_slend q) -> In x l -> x <= lim.
Proof.
  set (p := mkGprof 100 1 [[7; 2]] (fun _ => [1 / 2])). set (q := mkGprof 100 1 [[4; 2]] (fun _ => [1 / 2])).
  exists 10, 100000, 5, 1, 3%nat, [0%nat], [p; q], p. split; [lra|].
  assert (G : forall r, gp_b r = 100 -> gp_class r = 1%nat -> gp_util r = (fun _ => [1 / 2]) -> group_ok 10 100000 1 3 [0%nat] r).
  { intros r H1 H2 H3. unfold group_ok. rewrite H1, H2, H3. split; [lra|]. split; [lia|]. intros l u _ [<-|[]]. lra. }
  split; [|split].
  - destruct (group_first_lemma 10 100000 5 1 3 [0%nat] [p; q] 0 ltac:(lra)) as [(r&E&_&M)|(M&_)].
    + set (k := fst _) in *. destruct k as [|k]. reflexivity. exfalso. apply (M 0%nat p); [lia|reflexivity|]. apply G; reflexivity.
    + exfalso. apply (M p); [simpl; auto|]. apply G; reflexivity.
  - exists [7; 2], 7. simpl. split; [auto|]. split; [auto|lra].
  - exists q. split; [simpl; auto|]. split. apply G; reflexivity. intros l x [<-|[]] [<-|[<-|[]]]; lra.
Qed.
Print Assumptions C343_slender_refuted.
Example C343_ex : group_ok 10 100000 1 3 [0; 1]%nat (mkGprof 100 2 [[1]] (fun l => [INR l / 2; 1 / 4])).
Proof.
  unfold group_ok; cbn [gp_b gp_class gp_util]. split; [lra|]. split; [lia|]. intros l u [<-|[<-|[]]] [<-|[<-|[]]]; cbn [INR]; lra.
Qed.

(** C344 *)
Theorem C344_nodes : forall up i v f x y, nth_error (nf_nodes f) i = Some (Floats x y) ->
  at_node (move up i v f) i = (if up then (v, y) else (x, v)) /\
  (forall j, j <> i -> at_node (move up i v f) j = at_node f j) /\
  length (nf_nodes (move up i v f)) = length (nf_nodes f).
Proof. exact move_nodes_lemma. Qed.
Print Assumptions C344_nodes.
Theorem C344_members : forall up i v f k m, nth_error (nf_mem f) k = Some m ->
  exists m', nth_error (nf_mem (move up i v f)) k = Some m' /\ nm_a m' = nm_a m /\ nm_b m' = nm_b m /\ nm_n m' = nm_n m /\
  let a := at_node (move up i v f) (nm_a m) in let b := at_node (move up i v f) (nm_b m) in
  ((nm_a m = i \/ nm_b m = i) -> length (nm_pts m') = S (nm_n m) /\
     (forall j, (j <= nm_n m)%nat -> nth j (nm_pts m') (0, 0) = (fst a + INR j / INR (nm_n m) * (fst b - fst a), snd a + INR j / INR (nm_n m) * (snd b - snd a))) /\
     nm_len m' = sqrt (Rsqr (fst b - fst a) + Rsqr (snd b - snd a))) /\
  ((nm_a m <> i /\ nm_b m <> i) -> m' = m).
Proof. exact move_members_lemma. Qed.
Print Assumptions C344_members.
Theorem C344_fe_node : forall up i v f p, nth_error (nf_fe f) i = Some (Some p) ->
  nth i (nf_fe (move up i v f)) None = Some (if up then (v, snd p) else (fst p, v)) /\
  forall j, j <> i -> nth j (nf_fe (move up i v f)) None = nth j (nf_fe f) None.
Proof. exact move_fe_lemma. Qed.
Print Assumptions C344_fe_node.
Theorem C344_no_fe_node : forall up i v f, nth i (nf_fe f) None = None -> nf_fe (move up i v f) = nf_fe f.
Proof. exact move_fe_none_lemma. Qed.
Print Assumptions C344_no_fe_node.
Theorem C344_whole_numbers : forall v, Rabs (IZR (toint v)) <= Rabs v /\ Rabs v < Rabs (IZR (toint v)) + 1 /\ 0 <= v * IZR (toint v).
Proof. exact toint_lemma. Qed.
Print Assumptions C344_whole_numbers.
Theorem C344_whole_numbers_refuted : forall x y v f i, nth_error (nf_nodes f) i = Some (Ints x y) ->
  at_node (move true i v f) i = (IZR (toint v), IZR y) /\ ((forall z, v <> IZR z) -> fst (at_node (move true i v f) i) <> v) /\
  forall p, nth_error (nf_fe f) i = Some (Some p) -> exists q, nth i (nf_fe (move true i v f)) None = Some q /\ fst q = v.
Proof.
  intros x y v f i H. assert (Hl : (i < length (nf_nodes f))%nat) by (apply nth_error_Some; congruence).
  assert (E : at_node (move true i v f) i = (IZR (toint v), IZR y)).
  { unfold move, at_node. cbn [nf_nodes]. rewrite put_same by auto. rewrite (nth_error_nth _ _ _ H). reflexivity. }
  split; [exact E|]. split. rewrite E. cbn [fst]. intros N Q. symmetry in Q. exact (N _ Q).
  intros p Hp. destruct (move_fe_lemma true i v f p Hp) as (F&_). rewrite F. eexists. split; reflexivity.
Qed.
Print Assumptions C344_whole_numbers_refuted.
Example C344_ex : let f := mkNframe [Floats 0 0; Floats 4 0] [None; None] [mkNmem 0 1 2 [] 0] in
  exists m, nth_error (nf_mem (move false 1 3 f)) 0 = Some m /\ nm_len m = 5 /\ nth 1 (nm_pts m) (0, 0) = (2, 3 / 2).
Proof.
  intro f. eexists. split. reflexivity. split.
  - cbn. unfold sdist; cbn. replace (_ + _) with (5 * 5) by ring. apply sqrt_square; lra.
  - cbn. unfold on_span; cbn. f_equal; lra.
Qed.
