(** Model of the class TrussMILP: the layout of the variables, the rows of the sizing and of
    the topology problem, member groups and scaling.
    Covers metku/optimization/problems/truss_milp.py:35-580.
    Arrays are functions from the position to the entry, as in Sizing_model. Members and
    nodes are numbered 0,1,...; the statics matrix, the load vectors, the lengths, the
    moduli and the resistances of members and profiles are data. create_milp is called
    once; its last line returns a name that only exists when the file is run as a script,
    after the problem has been built, and is left out. The argument `constraints` of
    create_milp is never read. *)
From Verif Require Export Sizing_model.
Open Scope R_scope.

(** truss_milp.py:39-57: the data. ends i lists the nodes of member i (line 364); supp lists
    the supports as node and number of supported degrees of freedom (lines 367-368); groups
    lists members and profiles of each group, the empty list standing for None; only lists
    the member_profiles argument. *)
Record tm_data := mkTm {
  tm_nmem : nat; tm_nprof : nat; tm_nnodes : nat; tm_nlc : nat; tm_ndof : nat;
  tm_groups : list (list nat * list nat); tm_only : list (nat * list nat);
  tm_A : vec; tm_w : vec; tm_NRd : vec; tm_NbRd : nat -> vec;
  tm_L : vec; tm_E : vec; tm_B : mat; tm_p : nat -> vec;
  tm_ulb : R; tm_uub : R; tm_sN : R; tm_su : R;
  tm_ends : nat -> list nat; tm_supp : list (nat * nat) }.

(** ---------------- member profiles ---------------- *)
(** Python: d[k] = v for the list of profile lists. *)
Definition set_prof (f : nat -> list nat) (k : nat) (v : list nat) : nat -> list nat :=
  fun i => if (i =? k)%nat then v else f i.
(** truss_milp.py:92-108: the profiles of every member, first all, then the ones of the
    groups in order, then member_profiles in order. *)
Definition tm_prof (q : tm_data) : nat -> list nat :=
  let all := fun _ => seq 0 (tm_nprof q) in
  let grp := fold_left (fun f g => fold_left (fun f m => set_prof f m (snd g)) (fst g) f) (tm_groups q) all in
  fold_left (fun f mp => set_prof f (fst mp) (snd mp)) (tm_only q) grp.
(** truss_milp.py:125-130: the number of profiles of member i. *)
Definition tm_np (q : tm_data) (i : nat) : nat := length (tm_prof q i).
(** truss_milp.py:126: profile j of member i, as a number in the list of profiles. *)
Definition tm_pr (q : tm_data) (i j : nat) : nat := nth j (tm_prof q i) 0%nat.

(** ---------------- scaled member data ---------------- *)
(** truss_milp.py:66. *)
Definition tm_sA (q : tm_data) : R := tm_su q ^ 2.
(** truss_milp.py:67. *)
Definition tm_sE (q : tm_data) : R := tm_sN q / tm_su q ^ 2.
(** truss_milp.py:79,129: tension resistance of profile j of member i, rounded down. *)
Definition t_NRd (q : tm_data) (i j : nat) : R := IZR (floorZ (tm_NRd q (tm_pr q i j))) * tm_sA q.
(** truss_milp.py:138: scaled length. *)
Definition t_L (q : tm_data) (i : nat) : R := tm_L q i * tm_su q.
(** truss_milp.py:139: axial stiffness over area. *)
Definition t_k0 (q : tm_data) (i : nat) : R := tm_E q i / t_L q i * tm_sE q.
(** truss_milp.py:144: least elongation, with the bounds as given. *)
Definition t_nlb (q : tm_data) (i : nat) : R :=
  sumn (tm_ndof q) (fun d => Rmax (tm_B q d i) 0 * tm_ulb q) + sumn (tm_ndof q) (fun d => Rmin (tm_B q d i) 0 * tm_uub q).
(** truss_milp.py:145: greatest elongation. *)
Definition t_nub (q : tm_data) (i : nat) : R :=
  sumn (tm_ndof q) (fun d => Rmin (tm_B q d i) 0 * tm_ulb q) + sumn (tm_ndof q) (fun d => Rmax (tm_B q d i) 0 * tm_uub q).
(** truss_milp.py:149: buckling resistance, rounded down. *)
Definition t_NbRd (q : tm_data) (i j : nat) : R := IZR (floorZ (tm_NbRd q i (tm_pr q i j))) * tm_sN q.
(** truss_milp.py:157: lower bound of the force variables. *)
Definition t_Nlb (q : tm_data) (i j : nat) : R := t_k0 q i * tm_A q (tm_pr q i j) * t_nlb q i * tm_sA q.
(** truss_milp.py:158: upper bound of the force variables. *)
Definition t_Nub (q : tm_data) (i j : nat) : R := t_k0 q i * tm_A q (tm_pr q i j) * t_nub q i * tm_sA q.
(** truss_milp.py:161: weight of member i with its profile j. *)
Definition t_w (q : tm_data) (i j : nat) : R := tm_w q (tm_pr q i j) / tm_su q * t_L q i.

(** ---------------- variables ---------------- *)
(** truss_milp.py:152,172,184,341,346,354: the variables by name: selection y(i,j), force
    N(i,j,k), displacement u(d,k), member Y(i), node z(j), group w(g,j). *)
Inductive tvar := Vy (i j : nat) | VN (i j k : nat) | Vu (d k : nat) | VY (i : nat) | Vz (j : nat) | Vw (g j : nat).
(** truss_milp.py:485-505: the vector of variables, in order; top is
    problem_type == 'topology'. *)
Definition tm_vars (q : tm_data) (top : bool) : list tvar :=
  flat_map (fun i => map (Vy i) (seq 0 (tm_np q i))) (seq 0 (tm_nmem q))
  ++ flat_map (fun k =>
       flat_map (fun i => map (fun j => VN i j k) (seq 0 (tm_np q i))) (seq 0 (tm_nmem q))
       ++ map (fun d => Vu d k) (seq 0 (tm_ndof q))) (seq 0 (tm_nlc q))
  ++ (if top then
        map VY (seq 0 (tm_nmem q)) ++ map Vz (seq 0 (tm_nnodes q))
        ++ flat_map (fun z => map (Vw (fst z)) (seq 0 (length (snd (snd z)))))
             (combine (seq 0 (length (tm_groups q))) (tm_groups q))
      else []).
(** truss_milp.py:172-186,152, variables.py:277-290: lower bound of a variable; the
    displacements have the bounds as given. *)
Definition tv_lb (q : tm_data) (t : tvar) : R :=
  match t with VN i j _ => t_Nlb q i j | Vu _ _ => tm_ulb q | _ => 0 end.
(** truss_milp.py:172-186,152, variables.py:277-290: upper bound of a variable. *)
Definition tv_ub (q : tm_data) (t : tvar) : R :=
  match t with VN i j _ => t_Nub q i j | Vu _ _ => tm_uub q | _ => 1 end.
(** truss_milp.py:152,341,346,354: the binary variables. *)
Definition tv_bin (t : tvar) : bool := match t with VN _ _ _ | Vu _ _ => false | _ => true end.
(** truss_milp.py:155,177,186,343,348,355: the number of variables, counted as they are
    made. *)
Definition tm_nvars (q : tm_data) (top : bool) : nat := length (tm_vars q top).
(** truss_milp.py:223-225: number of selection variables. *)
Definition tm_ny (q : tm_data) : nat := list_sum (map (tm_np q) (seq 0 (tm_nmem q))).
(** truss_milp.py:228-240: number of force and displacement variables. *)
Definition tm_nstate (q : tm_data) : nat :=
  (list_sum (map (fun _ => tm_ndof q) (seq 0 (tm_nlc q)))
   + list_sum (flat_map (fun i => map (fun _ => tm_np q i) (seq 0 (tm_nlc q))) (seq 0 (tm_nmem q))))%nat.
(** truss_milp.py:247-260: start of the member variables. *)
Definition Ystart (q : tm_data) : nat := (tm_ny q + tm_nstate q)%nat.
(** truss_milp.py:247-260: start of the node variables. *)
Definition Zstart (q : tm_data) : nat := (tm_ny q + tm_nstate q + tm_nmem q)%nat.
(** truss_milp.py:247-260: start of the group variables. *)
Definition Wstart (q : tm_data) : nat := (tm_ny q + tm_nstate q + tm_nmem q + tm_nnodes q)%nat.

(** ---------------- objective ---------------- *)
(** truss_milp.py:262-275: c[start:end] = mem['w'] for the members in turn. *)
Fixpoint weight_loop (q : tm_data) (is : list nat) (start : nat) (c : vec) : vec :=
  match is with
  | [] => c
  | i :: r => weight_loop q r (start + tm_np q i) (set_slice c start (start + tm_np q i) (t_w q i))
  end.
(** truss_milp.py:262-275,514: the objective. *)
Definition tm_obj (q : tm_data) (top : bool) (x : vec) : R :=
  vdot (tm_nvars q top) (weight_loop q (seq 0 (tm_nmem q)) 0 zeros) x.

(** ---------------- selection rows ---------------- *)
(** truss_milp.py:521-530: the leading variables whose name starts with y. *)
Fixpoint lead_y (l : list tvar) : list tvar :=
  match l with Vy i j :: r => Vy i j :: lead_y r | _ => [] end.
(** truss_milp.py:530: row i of Aeq; the member is the first number in the name. *)
Definition Aeq (q : tm_data) (top : bool) (i : nat) : vec :=
  fun v => match nth_error (lead_y (tm_vars q top)) v with
           | Some (Vy i' _) => if (i' =? i)%nat then 1 else 0 | _ => 0 end.
(** truss_milp.py:532-544. *)
Definition tm_sel_rows (q : tm_data) (top : bool) : list lin :=
  map (fun i => mkLin (if top then set_at (Aeq q top i) (Ystart q + i) (-1) else Aeq q top i)
                      (if top then 0 else 1) true) (seq 0 (tm_nmem q)).

(** ---------------- topology rows ---------------- *)
(** truss_milp.py:363-365: the members at node j. *)
Definition node_members (q : tm_data) (j : nat) : list nat :=
  flat_map (fun i => map (fun _ => i) (filter (Nat.eqb j) (tm_ends q i))) (seq 0 (tm_nmem q)).
(** truss_milp.py:88,367-368: number of supported degrees of freedom of node j. *)
Definition supported (q : tm_data) (j : nat) : nat :=
  fold_left (fun a s => if (fst s =? j)%nat then snd s else a) (tm_supp q) 0%nat.
(** numpy: a[l] = v for a list l of positions. *)
Definition set_all (a : vec) (l : list nat) (v : R) : vec := fold_left (fun a k => set_at a k v) l a.
(** truss_milp.py:383-389: one row per node and member at the node. *)
Definition top_rows1 (q : tm_data) : list lin :=
  flat_map (fun j => map (fun m => mkLin (set_at (set_at zeros (Zstart q + j) 1) (Ystart q + m) (-1)) 0 false)
    (node_members q j)) (seq 0 (tm_nnodes q)).
(** truss_milp.py:392-402. *)
Definition top_rows2 (q : tm_data) : list lin :=
  map (fun j => mkLin (set_at (set_all zeros (map (fun m => (m + Ystart q)%nat) (node_members q j)) (-1))
                        (Zstart q + j) (if (supported q j =? 0)%nat then 2 else 1)) 0 false)
    (seq 0 (tm_nnodes q)).
(** truss_milp.py:405-415. *)
Definition top_row3 (q : tm_data) : lin :=
  let a := set_all zeros (map (fun i => (Ystart q + i)%nat) (seq 0 (tm_nmem q))) (-1) in
  let a := set_all a (map (fun j => (Zstart q + j)%nat) (seq 0 (tm_nnodes q))) 2 in
  let a := fold_left (fun a j => if (supported q j =? 0)%nat then a
                                 else set_at a (Zstart q + j) (a (Zstart q + j)%nat - INR (supported q j)))
             (seq 0 (tm_nnodes q)) a in
  mkLin a 0 false.
(** truss_milp.py:418-424. *)
Definition top_row4 (q : tm_data) : lin :=
  mkLin (fold_left (fun a j => if (supported q j =? 0)%nat then a else set_at a (Zstart q + j) (-1))
           (seq 0 (tm_nnodes q)) zeros) (-2) false.
(** truss_milp.py:443,460, list.index: the position of a variable; 0 if it is not there
    (the code raises). *)
Fixpoint index_of (t : tvar) (l : list tvar) : nat :=
  match l with
  | [] => 0%nat
  | Vy i j :: r => match t with Vy i' j' => if (i =? i')%nat && (j =? j')%nat then 0%nat else S (index_of t r)
                   | _ => S (index_of t r) end
  | _ :: r => S (index_of t r)
  end.
(** truss_milp.py:431-464: the rows of one group whose first variable is at Wstart + dW. *)
Definition group_rows (q : tm_data) (dW : nat) (g : list nat * list nat) : list lin :=
  let n := length (snd g) in
  let yndx := fun m j => index_of (Vy m j) (tm_vars q true) in
  mkLin (set_all zeros (map (fun i => (Wstart q + dW + i)%nat) (seq 0 n)) 1) 1 false
  :: flat_map (fun m => map (fun j =>
        mkLin (set_at (set_at zeros (Wstart q + dW + j) (-1)) (yndx m 0%nat + j) 1) 0 false) (seq 0 n)) (fst g)
  ++ map (fun j => mkLin (fold_left (fun a m => set_at a (yndx m j) (-1)) (fst g)
                            (set_at zeros (Wstart q + dW + j) 1)) 0 false) (seq 0 n).
(** truss_milp.py:427-467: the groups in turn. *)
Fixpoint groups_rows (q : tm_data) (dW : nat) (gs : list (list nat * list nat)) : list lin :=
  match gs with
  | [] => []
  | g :: r => group_rows q dW g ++ groups_rows q (dW + length (snd g)) r
  end.
(** truss_milp.py:370-467. *)
Definition top_rows (q : tm_data) : list lin :=
  top_rows1 q ++ top_rows2 q ++ [top_row3 q] ++ [top_row4 q] ++ groups_rows q 0 (tm_groups q).

(** ---------------- equilibrium rows ---------------- *)
(** truss_milp.py:558-562: row d of the augmented statics matrix, from position start on. *)
Fixpoint B0_loop (q : tm_data) (d : nat) (is : list nat) (start : nat) (a : vec) : vec :=
  match is with
  | [] => a
  | i :: r => let e := (start + tm_np q i)%nat in
      B0_loop q d r e (fun v => if (start <=? v)%nat && (v <? e)%nat then a v + tm_B q d i else a v)
  end.
(** truss_milp.py:554-562. *)
Definition tm_B0 (q : tm_data) (d : nat) : vec := B0_loop q d (seq 0 (tm_nmem q)) (tm_ny q) zeros.
(** truss_milp.py:564-573: the rows of load case k. *)
Definition tm_eq_rows (q : tm_data) (k : nat) : list lin :=
  map (fun d => mkLin (tm_B0 q d) (tm_p q k d * tm_sN q) true) (seq 0 (tm_ndof q)).

(** ---------------- compatibility and strength rows ---------------- *)
(** truss_milp.py:291-303: the two rows of member i, profile j; yndx and Nndx are the
    counters. *)
Definition tm_comp2 (q : tm_data) (ustart yndx Nndx i j : nat) : list lin :=
  let uend := (ustart + tm_ndof q)%nat in
  let a := set_at zeros yndx (t_Nub q i j) in
  let a := set_at a Nndx (-1) in
  let a := set_slice a ustart uend (fun d => t_k0 q i * tm_A q (tm_pr q i j) * tm_B q d i * tm_sA q) in
  let b := set_at a Nndx 1 in
  let b := set_at b yndx (- t_Nlb q i j) in
  let b := neg_slice b ustart uend in
  [mkLin a (t_Nub q i j) false; mkLin b (- t_Nlb q i j) false].
(** truss_milp.py:320-330: the two rows of member i, profile j. *)
Definition tm_str2 (q : tm_data) (yndx Nndx i j : nat) : list lin :=
  let a := set_at zeros yndx (- t_NRd q i j) in
  let a := set_at a Nndx 1 in
  let b := set_at a Nndx (-1) in
  let b := set_at b yndx (- Rmin (t_NRd q i j) (t_NbRd q i j)) in
  [mkLin a 0 false; mkLin b 0 false].
(** truss_milp.py:289-306,318-333: the loops over members and profiles of one load case
    with the two counters. *)
Fixpoint pair_loop (f : nat -> nat -> nat -> nat -> list lin) (ps : list (nat * nat)) (yndx Nndx : nat) : list lin :=
  match ps with
  | [] => []
  | (i, j) :: r => f yndx Nndx i j ++ pair_loop f r (yndx + 1) (Nndx + 1)
  end.
(** truss_milp.py:289-290: members and profiles in the order of the loops. *)
Definition tm_pairs (q : tm_data) : list (nat * nat) :=
  flat_map (fun i => map (fun j => (i, j)) (seq 0 (tm_np q i))) (seq 0 (tm_nmem q)).
(** truss_milp.py:277-306: the load cases in turn; Nndx goes on by one for each pair. *)
Fixpoint comp_loop (q : tm_data) (ks : list nat) (Nndx : nat) : list lin :=
  match ks with
  | [] => []
  | k :: r =>
      pair_loop (tm_comp2 q (tm_ny q + (k + 1) * tm_ny q + k * tm_ndof q)) (tm_pairs q) 0 Nndx
      ++ comp_loop q r (Nndx + length (tm_pairs q))
  end.
(** truss_milp.py:308-335: the load cases in turn; Nndx also skips the displacements. *)
Fixpoint str_loop (q : tm_data) (ks : list nat) (Nndx : nat) : list lin :=
  match ks with
  | [] => []
  | k :: r =>
      pair_loop (tm_str2 q) (tm_pairs q) 0 Nndx ++ str_loop q r (Nndx + length (tm_pairs q) + tm_ndof q)
  end.

(** ---------------- problem ---------------- *)
(** truss_milp.py:473-578: all rows. *)
Definition tm_rows (q : tm_data) (top : bool) : list lin :=
  tm_sel_rows q top ++ (if top then top_rows q else [])
  ++ flat_map (tm_eq_rows q) (seq 0 (tm_nlc q))
  ++ comp_loop q (seq 0 (tm_nlc q)) (tm_ny q) ++ str_loop q (seq 0 (tm_nlc q)) (tm_ny q).
(** milp.py:47-57 (modelled in Solvers): a point the MILP solver may return. *)
Definition tm_feasible (q : tm_data) (top : bool) (x : vec) : Prop :=
  (forall v t, nth_error (tm_vars q top) v = Some t ->
     tv_lb q t <= x v <= tv_ub q t /\ (tv_bin t = true -> x v = 0 \/ x v = 1))
  /\ Forall (lin_holds (tm_nvars q top) x) (tm_rows q top).
