(** C78 to C80, C119 to C131: the frame container, its loads, combinations, members and design. *)
From Verif Require Import Raami_spec Raami_proofs Raami2_proofs.
Open Scope string_scope. Open Scope list_scope. Open Scope nat_scope.

(** C78, for names that do not end in a digit; arbitrary names: see the finding. *)
Theorem C78_loads_kept_partial : forall ls, Forall (fun l => plain (o_name l)) ls ->
  exists f, add_all ls new_frame = Some f /\
    Forall2 same_load (applied f) ls /\ NoDup (map fst (loads f)) /\ List.length (loads f) = List.length ls /\
    (forall k l, nth_error ls k = Some l -> in_case f (o_lid l) k) /\
    (forall i, In i (lids f) <-> exists l, In l ls /\ o_lid l = i).
Proof. exact add_all_lemma. Qed.
Print Assumptions C78_loads_kept_partial.
(** Finding: loads named P, P2, P: the third is stored as P2 and replaces the second. *)
Theorem C78_loads_kept_refuted : option_map (fun f => map o_what (applied f)) (add_all [ld "P" 1; ld "P2" 2; ld "P" 3] new_frame) = Some [1; 3].
Proof. exact name_clash_lemma. Qed.
Print Assumptions C78_loads_kept_refuted.
(** Finding: a load case with two loads of the same (default) name loses the second. *)
Theorem C78_case_refuted : option_map (fun f => map o_what (applied f)) (add_loadcase 7 [0; 1] (mkFrame [ld "LineLoad" 1; ld "LineLoad" 2] [] [] [])) = Some [1].
Proof. exact case_clash_lemma. Qed.
Print Assumptions C78_case_refuted.
(** Findings: load_ids gets every new id twice, and adding a line load object twice applies it twice. *)
Theorem C78_ids_twice : option_map lids (add_all [ld "P" 1] new_frame) = Some [0; 0].
Proof. exact lids_twice_lemma. Qed.
Print Assumptions C78_ids_twice.
Theorem C78_line_twice : option_map (fun f => map o_what (applied f)) (bind (add_load 0 (mkFrame [ld "P" 1] [] [] [])) (add_load 0)) = Some [1; 1].
Proof. exact line_twice_lemma. Qed.
Print Assumptions C78_line_twice.
Example C78_ex : Forall (fun l => plain (o_name l)) [ld "P" 1; ld "P" 2; ld "Q" 3].
Proof.
  assert (G : forall c, ~ digit c -> plain (String c EmptyString)).
  { intros c D p x E. destruct p as [|y p]; cbn in E; [injection E as ->; auto|injection E as _ E; destruct p; discriminate]. }
  repeat constructor; cbn; apply G; unfold digit; cbn; lia.
Qed.

(** C79 *)
Theorem C79_nodes : forall os, NoDup os ->
  let s := fold_left (fun s o => add_node o s) os (mkNodes (fun _ => None) []) in
  nlist s = os /\ forall k o, nth_error os k = Some o -> nid s o = Some k.
Proof. exact nodes_lemma. Qed.
Print Assumptions C79_nodes.
Theorem C79_members : forall os, NoDup os ->
  let s := fold_left (fun s o => add_member o s) os (mkMembers (fun _ => None) []) in
  mdict s = combine (seq 0 (List.length os)) os /\ forall k o, nth_error os k = Some o -> mid s o = Some k.
Proof. exact members_lemma. Qed.
Print Assumptions C79_members.
(** Finding: adding the same node object twice gives it two positions. *)
Theorem C79_node_twice : exists s, s = add_node 5 (add_node 5 (mkNodes (fun _ => None) [])) /\ nlist s = [5; 5] /\ nid s 5 = Some 1.
Proof. exact node_twice_lemma. Qed.
Print Assumptions C79_node_twice.
Example C79_ex : nid (fold_left (fun s o => add_node o s) [7; 3; 9] (mkNodes (fun _ => None) [])) 9 = Some 2.
Proof. reflexivity. Qed.

(** C119 *)
Theorem C119_combination : forall cid c cs f, tidy f -> Forall (fun l => o_lid l <> cid) (applied f) ->
  Forall (Forall (fun o => (o < List.length (heap f))%nat /\ plain (o_name (obj f o)))) cs ->
  exists f' xss, combine_loads cid c cs f = Some f' /\ applied f' = applied f ++ List.concat xss /\
    Forall2 (fun kc xs => Forall2 (fun o x => combined_load c (match lead_case f cs with Some i => Nat.eqb i (fst kc) | None => false end) cid (obj f o) x) (snd kc) xs)
      (combine (seq 0 (List.length cs)) cs) xss.
Proof. exact combine_written_lemma. Qed.
Print Assumptions C119_combination.
Theorem C119_leading_case : forall f cs k, lead_case f cs = Some k <->
  exists pre os post, cs = pre ++ os :: post /\ List.length pre = k /\ case_type f os <> Some DEAD /\ Forall (fun os => case_type f os = Some DEAD) pre.
Proof. exact lead_case_lemma. Qed.
Print Assumptions C119_leading_case.
Theorem C119_factors : forall t c lead l cid, o_f (factored_copy c lead cid l) = comb_factor (o_type l) c lead /\ o_lid (factored_copy c lead cid l) = cid /\
  o_what (factored_copy c lead cid l) = o_what l /\ o_type (factored_copy c lead cid l) = o_type l /\
  (0 < comb_factor t c false <= comb_factor t c true)%R.
Proof. exact factor_lemma. Qed.
Print Assumptions C119_factors.
(** Finding: a scaling factor given by the user is replaced by the combination factor. *)
Theorem C119_user_factor_refuted : option_map (fun f => map o_f (applied f)) (bind (add_all [mkLobj "A" 0 LIVE 3%R true 1] new_frame) (combine_loads 1 ULS [[0]])) = Some [3; 15/10]%R.
Proof. exact user_factor_lemma. Qed.
Print Assumptions C119_user_factor_refuted.
Example C119_ex : exists f, add_all [ld "A" 1] new_frame = Some f /\ tidy f /\ Forall (fun l => o_lid l <> 5) (applied f) /\
  Forall (Forall (fun o => (o < List.length (heap f))%nat /\ plain (o_name (obj f o)))) [[0]].
Proof.
  assert (P : plain "A") by (intros p x E; destruct p as [|y p]; cbn in E; [injection E as <-; unfold digit; cbn; lia|injection E as _ E; destruct p; discriminate]).
  destruct (add_all_gen [ld "A" 1] new_frame tidy_new) as (f & xs & E & T & _); [repeat constructor; exact P|].
  exists f. split; [auto|]. split; [auto|]. vm_compute in E. injection E as <-. cbn. repeat constructor; cbn; auto.
Qed.

(** C120 *)
Theorem C120_clear_partial : forall cid f, applied (clear_loads cid f) = filter (fun l => negb (Nat.eqb (o_lid l) cid)) (applied f).
Proof. exact clear_lemma. Qed.
Print Assumptions C120_clear_partial.
(** Finding: combining case 1 again removes the loads of combination 2 when a numbered name is
    given out twice. *)
Theorem C120_recombine_refuted : let f2 := bind (bind (add_all [ld "A" 1] new_frame) (combine_loads 1 ULS [[0]])) (combine_loads 2 SLS [[0]]) in
  option_map (fun f => map o_lid (applied f)) f2 = Some [0; 1; 2] /\
  option_map (fun f => map o_lid (applied f)) (bind f2 (combine_loads 1 ULS [[0]])) = Some [0; 1].
Proof. exact recombine_lemma. Qed.
Print Assumptions C120_recombine_refuted.

Open Scope R_scope.
(** C80 *)
Theorem C80_ends_continuous : forall f v0 v1 n, (0 < n)%nat ->
  fst (element_load f v0 v1 n 0) = f * v0 /\ snd (element_load f v0 v1 n (n - 1)) = f * v1 /\
  (forall i, snd (element_load f v0 v1 n i) = fst (element_load f v0 v1 n (S i))).
Proof. exact line_ends_lemma. Qed.
Print Assumptions C80_ends_continuous.
Theorem C80_total : forall f v0 v1 L n, (0 < n)%nat ->
  sumn n (fun i => resultant (L / INR n) (fst (element_load f v0 v1 n i)) (snd (element_load f v0 v1 n i))) = resultant L (f * v0) (f * v1) /\
  sumn n (fun i => moment (INR i * (L / INR n)) (L / INR n) (fst (element_load f v0 v1 n i)) (snd (element_load f v0 v1 n i))) = moment 0 L (f * v0) (f * v1).
Proof. exact line_total_lemma. Qed.
Print Assumptions C80_total.
Example C80_ex : resultant 6 (2 * 1) (2 * 3) = 24.
Proof. unfold resultant. lra. Qed.

(** C121 *)
Theorem C121_direction_unit : forall d x y, 0 < mlength d x y -> sumn d (fun i => dir_vector d x y i ^ 2) = 1.
Proof. exact dir_unit_lemma. Qed.
Print Assumptions C121_direction_unit.
Theorem C121_local_global : forall d x y loc, 0 < mlength d x y ->
  global_to_local d x y (local_to_global d x y loc) = loc /\
  (forall i, local_to_global d x y loc i = (1 - loc) * x i + loc * y i).
Proof. exact local_global_lemma. Qed.
Print Assumptions C121_local_global.
Theorem C121_nodes : forall d x y n, 0 < mlength d x y -> (0 < n)%nat ->
  (forall i, node_coord d x y n 0 i = x i /\ node_coord d x y n n i = y i) /\
  (forall k i, node_coord d x y n (S k) i - node_coord d x y n k i = (y i - x i) / INR n) /\
  (forall k, global_to_local d x y (node_coord d x y n k) = INR k / INR n).
Proof. exact nodes_coord_lemma. Qed.
Print Assumptions C121_nodes.
Theorem C121_element_length : forall d x y n k, 0 < mlength d x y -> (0 < n)%nat ->
  mlength d (node_coord d x y n k) (node_coord d x y n (S k)) = mlength d x y / INR n.
Proof. exact mlength_node_lemma. Qed.
Print Assumptions C121_element_length.
Theorem C121_perpendicular : forall x y, 0 < mlength 2 x y ->
  sumn 2 (fun i => perpendicular x y i * dir_vector 2 x y i) = 0 /\ sumn 2 (fun i => perpendicular x y i ^ 2) = 1.
Proof. exact perpendicular_lemma. Qed.
Print Assumptions C121_perpendicular.
Example C121_ex : mlength 2 (fun _ => 0) (fun i => match i with 0%nat => 3 | _ => 4 end) = 5.
Proof. unfold mlength. cbn [sumn]. replace (0 + (3 - 0) ^ 2 + (4 - 0) ^ 2) with (5 ^ 2) by ring. apply sqrt_pow2. lra. Qed.

(** C122 *)
Theorem C122_angle : forall x0 y0 x1 y1, 0 <= mangle x0 y0 x1 y1 < PI /\ mangle x1 y1 x0 y0 = mangle x0 y0 x1 y1 /\
  (1/1000000 <= Rabs (x1 - x0) -> tan (mangle x0 y0 x1 y1) = (y1 - y0) / (x1 - x0)).
Proof. exact mangle_lemma. Qed.
Print Assumptions C122_angle.
Example C122_ex : mangle 0 0 1 (-1) = PI + atan (-1).
Proof.
  unfold mangle. rewrite Rabs_right by lra. unfold Rltb. destruct (Rlt_dec (1 - 0) (1 / 1000000)); [lra|]. replace ((-1 - 0) / (1 - 0)) with (-1) by lra.
  assert (atan (-1) < 0) by (replace (-1) with (- (1)) by lra; rewrite atan_opp, atan_1; pose proof PI_RGT_0; lra).
  destruct (Rlt_dec (atan (-1)) 0); [reflexivity|contradiction].
Qed.

(** C123 *)
Theorem C123_mesh : forall first last next n, (0 < n)%nat ->
  let es := pairs (chain first last next n) in
  List.length es = n /\ fst (nth 0 es (0, 0)%nat) = first /\ snd (nth (n - 1) es (0, 0)%nat) = last /\
  (forall k, (S k < n)%nat -> snd (nth k es (0, 0)%nat) = fst (nth (S k) es (0, 0)%nat)) /\
  (first <> last -> (first < next)%nat -> (last < next)%nat -> NoDup (chain first last next n)).
Proof. exact chain_lemma. Qed.
Print Assumptions C123_mesh.
Example C123_ex : pairs (chain 0 1 7 4) = [(0, 7); (7, 8); (8, 9); (9, 1)]%nat.
Proof. reflexivity. Qed.

(** C124: the value of greatest magnitude when the forces are continuous between elements. *)
Theorem C124_design_force_partial : forall es, es <> [] -> exists r, design_force es = Some r /\
  (exists e, In e es /\ (r = fst e \/ r = snd e)) /\ (forall e, In e es -> Rabs (fst e) <= Rabs r) /\
  ((forall k, (S k < List.length es)%nat -> snd (nth k es (0, 0)) = fst (nth (S k) es (0, 0))) -> forall e, In e es -> Rabs (snd e) <= Rabs r).
Proof. exact design_force_lemma. Qed.
Print Assumptions C124_design_force_partial.
(** Finding: the end value of an element other than the last one is never seen. *)
Theorem C124_jump_refuted : design_force [(1, 5); (-2, 1)] = Some (-2).
Proof. exact design_force_refuted_lemma. Qed.
Print Assumptions C124_jump_refuted.
Example C124_ex : [(1, 5); (5, 1)] <> @nil (R * R).
Proof. discriminate. Qed.

(** C125: holds when all values have one sign. *)
Theorem C125_extreme_partial : forall cs, cs <> [] -> (forall l, In l cs -> l <> []) ->
  ((forall l x, In l cs -> In x l -> 0 <= x) -> exists m, extreme list_max cs = Some m /\ (exists l, In l cs /\ In m l) /\ forall l x, In l cs -> In x l -> x <= m) /\
  ((forall l x, In l cs -> In x l -> x <= 0) -> exists m, extreme list_min cs = Some m /\ (exists l, In l cs /\ In m l) /\ forall l x, In l cs -> In x l -> m <= x).
Proof. exact extreme_lemma. Qed.
Print Assumptions C125_extreme_partial.
(** Finding: the maximum over two cases with values 5 and -100 is reported as -100. *)
Theorem C125_extreme_refuted : extreme list_max [[5]; [-100]] = Some (-100).
Proof. exact extreme_refuted_lemma. Qed.
Print Assumptions C125_extreme_refuted.
Example C125_ex : forall l x, In l [[1; 2]; [3]] -> In x l -> 0 <= x.
Proof. intros l x [<-|[<-|[]]] H; cbn in H; intuition lra. Qed.

(** C126: members that are given their own hinge list. *)
Theorem C126_own_hinges_partial : forall os m m' b, no_default os -> In m (owners os) -> In m' (owners os) -> m <> m' ->
  hinges_of (add_hinge m b (hrun os)) m' = hinges_of (hrun os) m' /\
  hinges_of (add_hinge m b (hrun os)) m = (if b then (true, snd (hinges_of (hrun os) m)) else (fst (hinges_of (hrun os) m), true)).
Proof. exact hinge_lemma. Qed.
Print Assumptions C126_own_hinges_partial.
(** Finding: members created without hinges share one list. *)
Theorem C126_shared_hinges_refuted : let s := hrun [Hnew 1 None; Hnew 2 None; Hhinge 1 true] in hinges_of s 2 = (true, false).
Proof. exact hinge_refuted_lemma. Qed.
Print Assumptions C126_shared_hinges_refuted.
Example C126_ex : owners [Hnew 1 (Some (false, false)); Hnew 2 (Some (false, true)); Hhinge 2 true] = [1; 2]%nat.
Proof. reflexivity. Qed.

(** C127: the first call adds one load per member; the k-th call adds another. *)
Theorem C127_self_weight_refuted : forall n, let s := mkSelfw false (repeat false n) (repeat 0%nat n) in
  sw_loads (add_self_weight s) = repeat 1%nat n /\
  forall k, sw_loads (Nat.iter (S k) add_self_weight s) = repeat (S k) n.
Proof. exact selfweight_lemma. Qed.
Print Assumptions C127_self_weight_refuted.
Example C127_ex : sw_loads (add_self_weight (add_self_weight (mkSelfw false [false; false] [0; 0]%nat))) = [2; 2]%nat.
Proof. reflexivity. Qed.

(** C128 *)
Theorem C128_first_passing_profile_partial : forall (P : Type) (skip : P -> bool) (u : P -> nat -> R) maxu ls cur pre p post, passes skip u maxu ls p -> (forall q, In q pre -> ~ passes skip u maxu ls q) -> optimum skip u maxu ls [] cur (pre ++ p :: post) = p.
Proof. exact optimum_first_lemma. Qed.
Print Assumptions C128_first_passing_profile_partial.
(** Finding: when no profile passes the last one tried is kept without notice, even one that was
    skipped for its class or slenderness. *)
Theorem C128_no_profile_refuted : forall (P : Type) (skip : P -> bool) (u : P -> nat -> R) maxu ls cur ps, (forall q, In q ps -> ~ passes skip u maxu ls q) -> optimum skip u maxu ls [] cur ps = List.last ps cur.
Proof. exact optimum_none_lemma. Qed.
Print Assumptions C128_no_profile_refuted.
Theorem C128_sweeps : forall bestg bestm k s, let '(r, n) := optimize_members bestg bestm k s in (n <= k)%nat /\
  ((n < k)%nat -> exists s0, sweep bestg bestm s0 = (r, false) /\ snd r = snd s0 /\ (fst s0 = [] -> r = s0 /\ fst (sweep bestg bestm r) = r)).
Proof. exact optimize_members_lemma. Qed.
Print Assumptions C128_sweeps.
(** Finding: changes of groups are not counted, so the iteration stops before it has settled. *)
Theorem C128_groups_refuted : let bestg := fun s : list nat * list nat => fun _ : nat => S (hd 0%nat (fst s)) in
  let '(r, n) := optimize_members bestg (fun _ _ => 0%nat) 9 ([0%nat], []) in n = 1%nat /\ fst (sweep bestg (fun _ _ => 0%nat) r) <> r.
Proof. exact optimize_groups_lemma. Qed.
Print Assumptions C128_groups_refuted.
Example C128_ex : passes (fun p => Nat.eqb p 0) (fun p l => INR (l + 1) / INR p) 1 [0; 1; 2]%nat 3%nat.
Proof. split; [reflexivity|]. intros l [<-|[<-|[<-|[]]]]; cbn; lra. Qed.

(** C129 *)
Theorem C129_set_section : forall v g sec, let '(g', sec') := set_section v g sec in
  g_sec g' = v /\ (forall m, In m (g_mem g') -> sec' m = v) /\ (forall m, ~ In m (g_mem g) -> sec' m = sec m) /\ g_mem g' = g_mem g.
Proof. exact group_set_lemma. Qed.
Print Assumptions C129_set_section.
Theorem C129_make_group : forall ms sec, ms <> [] -> let '(g, sec') := make_group ms sec in g_mem g = ms /\ forall m, In m ms -> sec' m = g_sec g.
Proof. exact group_make_lemma. Qed.
Print Assumptions C129_make_group.
Theorem C129_add_partial : forall m g sec, g_sec g = None \/ g_sec g = sec m -> (forall x, In x (g_mem g) -> sec x = g_sec g) ->
  let '(g', sec') := group_add m g sec in forall x, In x (g_mem g') -> sec' x = g_sec g'.
Proof. exact group_add_partial_lemma. Qed.
Print Assumptions C129_add_partial.
(** Finding: a member added to a group that already has a profile keeps its own. *)
Theorem C129_add_refuted : let '(g, sec) := group_add 1 (mkGroup (Some 7%nat) [0%nat]) (fun m => Some (7 + m)%nat) in
  In 1%nat (g_mem g) /\ sec 1%nat = Some 8%nat /\ g_sec g = Some 7%nat.
Proof. exact group_add_refuted_lemma. Qed.
Print Assumptions C129_add_refuted.
Example C129_ex : snd (make_group [1; 2]%nat (fun m => Some m)) 2%nat = Some 1%nat.
Proof. reflexivity. Qed.

(** C130: the utilizations are those of all load cases; the flag is that of the last one. *)
Theorem C130_utilizations_partial : forall allow rs s, NoDup (map fst rs) -> util s = [] ->
  (forall l r, In (l, r) (util (design_all allow rs s)) <-> In (l, r) rs) /\
  (forall l r rs', rs = rs' ++ [(l, r)] -> ok_flag (design_all allow rs s) = Rleb r allow).
Proof. exact design_all_lemma. Qed.
Print Assumptions C130_utilizations_partial.
Theorem C130_flag_refuted : ok_flag (design_all 1 [(0%nat, 2); (1%nat, 1/2)] (mkCheck true [])) = true.
Proof. exact flag_refuted_lemma. Qed.
Print Assumptions C130_flag_refuted.
Example C130_ex : NoDup (map fst [(0%nat, 2); (1%nat, 1/2)]).
Proof. repeat constructor; cbn; intuition lia. Qed.

(** C131: members running from left to right. *)
Theorem C131_piecewise_partial : forall f v0 v1 xdiv xa xb x, xa < x < xb ->
  Rabs (pw_at f v0 v1 xdiv x) <= Rabs (pw_element f v0 v1 xdiv xa xb) /\
  (xb <= xdiv \/ xdiv <= xa -> pw_element f v0 v1 xdiv xa xb = pw_at f v0 v1 xdiv x) /\
  (pw_element f v0 v1 xdiv xa xb = f * v0 \/ pw_element f v0 v1 xdiv xa xb = f * v1).
Proof. exact pw_lemma. Qed.
Print Assumptions C131_piecewise_partial.
(** Findings: a vertical member gets the first value everywhere, and on a member running from
    right to left the first value acts at its end. *)
Theorem C131_vertical_refuted : forall f v0 v1 X, pw_element f v0 v1 X X X = f * v0.
Proof. exact pw_vertical_lemma. Qed.
Print Assumptions C131_vertical_refuted.
Theorem C131_reversed_refuted : forall v0 v1, pw_element 1 v0 v1 5 10 5 = v1 /\ pw_element 1 v0 v1 5 5 0 = v0.
Proof. exact pw_reversed_lemma. Qed.
Print Assumptions C131_reversed_refuted.
Example C131_ex : pw_element 1 2 3 5 0 4 = 2.
Proof. unfold pw_element. rewrite Rmax_right by lra. unfold Rleb. destruct (Rle_dec 4 5); lra. Qed.
