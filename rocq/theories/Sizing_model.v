(** Model of truss sizing: the statics matrix, the LP and MILP formulations of truss
    optimisation, the member and displacement constraints, the scaling of a design and the
    fully stressed design iteration.
    Covers metku/framefem/framefem.py:906-923 and metku/optimization/problems/
    truss_optimization.py:368-904 (raami_truss_optimization.py holds the
    same functions at lines 368-880).
    Arrays are functions from the index to the entry, used together with their length.
    Members are numbered 0,1,... as simple_truss.py:66-71 numbers them; one finite element
    per member. *)
From Verif Require Export Mat.
Open Scope R_scope.

(** ---------------- arrays ---------------- *)
(** numpy: np.zeros(n). *)
Definition zeros : vec := fun _ => 0.
(** numpy: a[k] = v. *)
Definition set_at (a : vec) (k : nat) (v : R) : vec := fun i => if (i =? k)%nat then v else a i.
(** numpy: a[s:e] = b with len(b) = e - s. *)
Definition set_slice (a : vec) (s e : nat) (b : vec) : vec :=
  fun i => if (s <=? i)%nat && (i <? e)%nat then b (i - s)%nat else a i.
(** numpy: a[s:e] *= -1. *)
Definition neg_slice (a : vec) (s e : nat) : vec :=
  fun i => if (s <=? i)%nat && (i <? e)%nat then a i * -1 else a i.

(** optimization/constraints.py:111-135: a linear constraint a'x (< or =) b; the array is
    copied when the constraint is made. *)
Record lin := mkLin { l_a : vec; l_b : R; l_eq : bool }.
(** optimization/constraints.py:137-163, optimization/structopt.py:205-224: the constraint
    holds at x when a'x - b is zero, or at most zero (the tolerance con_tol is not
    modelled). *)
Definition lin_holds (n : nat) (x : vec) (c : lin) : Prop :=
  let g := vdot n (l_a c) x - l_b c in if l_eq c then g = 0 else g <= 0.

(** ---------------- statics matrix ---------------- *)
(** framefem.py:918-919, elements/rod.py:32-45: a rod has the direction cosines c (d of
    them) and the global degrees of freedom g of its two ends (2 d of them). *)
Record rod := mkRod { r_cos : vec; r_dofs : nat -> nat }.
(** framefem.py:918: transformation_matrix().transpose().dot([-1, 1]). *)
Definition rod_b (d : nat) (r : rod) : vec :=
  fun k => if (k <? d)%nat then - r_cos r k else r_cos r (k - d)%nat.
(** framefem.py:920: B[ix_(d), i] = b; the entries are written in order. *)
Fixpoint write_col (n : nat) (g : nat -> nat) (b : vec) (col : vec) : vec :=
  match n with O => col | S m => set_at (write_col m g b col) (g m) (b m) end.
(** framefem.py:914-920: the full statics matrix, row = degree of freedom, column = element. *)
Definition statics_full (d : nat) (els : nat -> rod) : mat :=
  fun r i => write_col (2 * d) (r_dofs (els i)) (rod_b d (els i)) zeros r.
(** framefem.py:923, numpy.delete: the rows that are kept, n rows in all. *)
Definition free_rows (n : nat) (supp : list nat) : list nat :=
  filter (fun r => negb (existsb (Nat.eqb r) supp)) (seq 0 n).
(** framefem.py:923: the statics matrix of the free degrees of freedom. *)
Definition statics (d n : nat) (supp : list nat) (els : nat -> rod) : mat :=
  fun r i => statics_full d els (nth r (free_rows n supp) 0%nat) i.

(** ---------------- LP ---------------- *)
(** truss_optimization.py:640-664: data of the LP: bounds of the areas, stress limits,
    member lengths, statics matrix and the load vectors of the load cases. *)
Record lp_data := mkLp {
  lp_nmem : nat; lp_nlc : nat; lp_ndof : nat;
  lp_Alb : vec; lp_Aub : vec; lp_slb : vec; lp_sub : vec; lp_L : vec;
  lp_B : mat; lp_p : nat -> vec }.
(** truss_optimization.py:673-686: number of variables, areas first, then the forces of
    every load case. *)
Definition lp_nvars (q : lp_data) : nat := (lp_nmem q + lp_nlc q * lp_nmem q)%nat.
(** truss_optimization.py:674,682: lower bounds of the variables. *)
Definition lp_lb (q : lp_data) : vec := fun k => if (k <? lp_nmem q)%nat then lp_Alb q k else - 1000000000.
(** truss_optimization.py:674,682: upper bounds of the variables. *)
Definition lp_ub (q : lp_data) : vec := fun k => if (k <? lp_nmem q)%nat then lp_Aub q k else 1000000000.
(** truss_optimization.py:677,685,692, objective.py:87-105: the objective, lengths for the
    areas and zero for the forces. *)
Definition lp_obj (q : lp_data) (x : vec) : R :=
  vdot (lp_nvars q) (fun k => if (k <? lp_nmem q)%nat then lp_L q k else 0) x.
(** truss_optimization.py:699-711: equilibrium rows of load case j. *)
Definition lp_eq_rows (q : lp_data) (j : nat) : list lin :=
  let m := lp_nmem q in
  map (fun i => mkLin (set_slice zeros ((j + 1) * m) ((j + 2) * m) (lp_B q i)) (lp_p q j i) true)
    (seq 0 (lp_ndof q)).
(** truss_optimization.py:717-726: the two stress rows of member i in load case j; the
    second row is made from the array of the first. *)
Definition lp_str_rows (q : lp_data) (j i : nat) : list lin :=
  let m := lp_nmem q in
  let a := set_at zeros i (- lp_sub q i) in
  let a := set_at a ((j + 1) * m + i) 1 in
  let a2 := set_at a i (- lp_slb q i) in
  let a2 := set_at a2 ((j + 1) * m + i) (-1) in
  [mkLin a 0 false; mkLin a2 0 false].
(** truss_optimization.py:699-726: all rows. *)
Definition lp_rows (q : lp_data) : list lin :=
  flat_map (lp_eq_rows q) (seq 0 (lp_nlc q))
  ++ flat_map (fun j => flat_map (lp_str_rows q j) (seq 0 (lp_nmem q))) (seq 0 (lp_nlc q)).
(** lp.py:57-102 (modelled in Solvers): a point the LP solver may return. *)
Definition lp_feasible (q : lp_data) (x : vec) : Prop :=
  (forall k, (k < lp_nvars q)%nat -> lp_lb q k <= x k <= lp_ub q k)
  /\ Forall (lin_holds (lp_nvars q) x) (lp_rows q).

(** ---------------- MILP ---------------- *)
(** truss_optimization.py:740-773: data of the MILP in N and mm: areas, weights per length
    and tension resistances of the profiles, buckling resistance NbRd[0] of member i with
    profile j, lengths and moduli of the members, displacement bounds. *)
Record mi_data := mkMi {
  mi_nmem : nat; mi_nprof : nat; mi_nlc : nat; mi_ndof : nat;
  mi_A : vec; mi_w : vec; mi_NRd : vec; mi_NbRd : nat -> vec;
  mi_L : vec; mi_E : vec; mi_B : mat; mi_p : nat -> vec;
  mi_ulb : R; mi_uub : R }.
(** truss_optimization.py:743. *)
Definition Nscale : R := 1 / 1000.
(** truss_optimization.py:744. *)
Definition uscale : R := 1 / 10.
(** truss_optimization.py:745. *)
Definition Escale : R := Nscale / uscale ^ 2.
(** truss_optimization.py:746. *)
Definition Ascale : R := uscale ^ 2.
(** truss_optimization.py:748: scaled lower bound of the displacements. *)
Definition s_ulb (q : mi_data) : R := mi_ulb q * uscale.
(** truss_optimization.py:749: scaled upper bound of the displacements. *)
Definition s_uub (q : mi_data) : R := mi_uub q * uscale.
(** truss_optimization.py:766: rounded tension resistance. *)
Definition s_NRd (q : mi_data) (j : nat) : R := IZR (floorZ (mi_NRd q j)) * Nscale.
(** truss_optimization.py:792: rounded buckling resistance of member i with profile j. *)
Definition s_NbRd (q : mi_data) (i j : nat) : R := IZR (floorZ (mi_NbRd q i j)) * Nscale.
(** truss_optimization.py:782: scaled length. *)
Definition s_L (q : mi_data) (i : nat) : R := mi_L q i * uscale.
(** truss_optimization.py:783: axial stiffness over area. *)
Definition s_k0 (q : mi_data) (i : nat) : R := mi_E q i / s_L q i * Escale.
(** truss_optimization.py:784: least elongation for displacements in their bounds. *)
Definition s_nlb (q : mi_data) (i : nat) : R :=
  sumn (mi_ndof q) (fun d => Rmax (mi_B q d i) 0 * s_ulb q) + sumn (mi_ndof q) (fun d => Rmin (mi_B q d i) 0 * s_uub q).
(** truss_optimization.py:785: greatest elongation. *)
Definition s_nub (q : mi_data) (i : nat) : R :=
  sumn (mi_ndof q) (fun d => Rmin (mi_B q d i) 0 * s_ulb q) + sumn (mi_ndof q) (fun d => Rmax (mi_B q d i) 0 * s_uub q).
(** truss_optimization.py:793: lower bound of the force variable. *)
Definition s_Nlb (q : mi_data) (i j : nat) : R := s_k0 q i * mi_A q j * s_nlb q i * Ascale.
(** truss_optimization.py:794: upper bound of the force variable. *)
Definition s_Nub (q : mi_data) (i j : nat) : R := s_k0 q i * mi_A q j * s_nub q i * Ascale.
(** truss_optimization.py:781-795: number of selection variables. *)
Definition mi_ny (q : mi_data) : nat := (mi_nmem q * mi_nprof q)%nat.
(** truss_optimization.py:781-816: number of variables: selections, forces of every load
    case, displacements of every load case. *)
Definition mi_nvars (q : mi_data) : nat := (mi_ny q + mi_nlc q * mi_ny q + mi_nlc q * mi_ndof q)%nat.
(** truss_optimization.py:787,805,814, variables.py:277-290: lower bounds. *)
Definition mi_lb (q : mi_data) : vec := fun v =>
  if (v <? mi_ny q)%nat then 0
  else if (v <? mi_ny q + mi_nlc q * mi_ny q)%nat then
    let r := ((v - mi_ny q) mod mi_ny q)%nat in s_Nlb q (r / mi_nprof q)%nat (r mod mi_nprof q)%nat
  else s_ulb q.
(** truss_optimization.py:787,805,814, variables.py:277-290: upper bounds. *)
Definition mi_ub (q : mi_data) : vec := fun v =>
  if (v <? mi_ny q)%nat then 1
  else if (v <? mi_ny q + mi_nlc q * mi_ny q)%nat then
    let r := ((v - mi_ny q) mod mi_ny q)%nat in s_Nub q (r / mi_nprof q)%nat (r mod mi_nprof q)%nat
  else s_uub q.
(** truss_optimization.py:795,807,816,822: the objective, weights for the selections. *)
Definition mi_obj (q : mi_data) (x : vec) : R :=
  vdot (mi_nvars q)
    (fun v => if (v <? mi_ny q)%nat then mi_w q (v mod mi_nprof q)%nat / uscale * s_L q (v / mi_nprof q)%nat else 0) x.
(** truss_optimization.py:825-838: one selection per member; the member number is read from
    the name of the variable, which is y(i,j). *)
Definition mi_sel_rows (q : mi_data) : list lin :=
  map (fun i => mkLin (fun v => if (v <? mi_ny q)%nat && (v / mi_nprof q =? i)%nat then 1 else 0) 1 true)
    (seq 0 (mi_nmem q)).
(** truss_optimization.py:841-844: the augmented statics matrix, row d. *)
Definition mi_B0 (q : mi_data) (d : nat) : vec :=
  fold_left (fun a i =>
      let s := (mi_nmem q * mi_nprof q + i * mi_nprof q)%nat in
      let e := (mi_nmem q * mi_nprof q + (i + 1) * mi_nprof q)%nat in
      fun v => if (s <=? v)%nat && (v <? e)%nat then a v + mi_B q d i else a v)
    (seq 0 (mi_nmem q)) zeros.
(** truss_optimization.py:847-857: equilibrium rows of load case k. *)
Definition mi_eq_rows (q : mi_data) (k : nat) : list lin :=
  map (fun d => mkLin (mi_B0 q d) (mi_p q k d * Nscale) true) (seq 0 (mi_ndof q)).
(** truss_optimization.py:861-865: the loops over load case, member and profile; the
    position in this list is the counter Nndx minus nmem*nprof. *)
Definition mi_triples (q : mi_data) : list (nat * nat * nat) :=
  flat_map (fun k => flat_map (fun i => map (fun j => (k, i, j)) (seq 0 (mi_nprof q)))
    (seq 0 (mi_nmem q))) (seq 0 (mi_nlc q)).
(** truss_optimization.py:864: stiffness in the compatibility rows. *)
Definition c_k0 (q : mi_data) (i : nat) : R := mi_E q i / mi_L q i * Escale / uscale.
(** truss_optimization.py:866-879: the two compatibility rows; Nndx is the counter. *)
Definition mi_comp_rows (q : mi_data) (Nndx : nat) (t : nat * nat * nat) : list lin :=
  let '(k, i, j) := t in
  let ustart := (mi_nmem q * mi_nprof q + mi_nlc q * mi_nmem q * mi_nprof q + k * mi_ndof q)%nat in
  let uend := (ustart + mi_ndof q)%nat in
  let a := set_at zeros (i * mi_nprof q + j) (s_Nub q i j) in
  let a := set_at a Nndx (-1) in
  let a := set_slice a ustart uend (fun d => c_k0 q i * mi_A q j * mi_B q d i * Ascale) in
  let b := set_at a Nndx 1 in
  let b := set_at b (i * mi_nprof q + j) (- s_Nlb q i j) in
  let b := neg_slice b ustart uend in
  [mkLin a (s_Nub q i j) false; mkLin b (- s_Nlb q i j) false].
(** truss_optimization.py:889-900: the two strength rows. *)
Definition mi_str_rows (q : mi_data) (Nndx : nat) (t : nat * nat * nat) : list lin :=
  let '(k, i, j) := t in
  let a := set_at zeros (i * mi_nprof q + j) (- s_NRd q j) in
  let a := set_at a Nndx 1 in
  let b := set_at a Nndx (-1) in
  let b := set_at b (i * mi_nprof q + j) (- Rmin (s_NRd q j) (s_NbRd q i j)) in
  [mkLin a 0 false; mkLin b 0 false].
(** truss_optimization.py:861,881,886,902: the counter runs along the loops. *)
Definition mi_counted (q : mi_data) (f : nat -> nat * nat * nat -> list lin) : list lin :=
  flat_map (fun z => f (fst z) (snd z)) (combine (seq (mi_ny q) (length (mi_triples q))) (mi_triples q)).
(** truss_optimization.py:825-904: all rows. *)
Definition mi_rows (q : mi_data) : list lin :=
  mi_sel_rows q ++ flat_map (mi_eq_rows q) (seq 0 (mi_nlc q))
  ++ mi_counted q (mi_comp_rows q) ++ mi_counted q (mi_str_rows q).
(** milp.py:47-57 (modelled in Solvers): a point the MILP solver may return. *)
Definition mi_feasible (q : mi_data) (x : vec) : Prop :=
  (forall v, (v < mi_nvars q)%nat -> mi_lb q v <= x v <= mi_ub q v)
  /\ (forall v, (v < mi_ny q)%nat -> x v = 0 \/ x v = 1)
  /\ Forall (lin_holds (mi_nvars q) x) (mi_rows q).

(** ---------------- constraints on the response ---------------- *)
(** truss_optimization.py:384-385: stress, compression; N is the force of the load case
    with the greatest magnitude, tension positive. *)
Definition stress_compression (N s A : R) : R := - N / (s * A) - 1.
(** truss_optimization.py:387-388. *)
Definition stress_tension (N s A : R) : R := N / (s * A) - 1.
(** truss_optimization.py:409-411. *)
Definition strength_compression (N NRd : R) : R := - N / NRd - 1.
(** truss_optimization.py:413-415. *)
Definition strength_tension (N NRd : R) : R := N / NRd - 1.
(** truss_optimization.py:439-442: the accepted kinds of buckling strength; any other value
    leaves NRd unbound. *)
Inductive buck_kind := BuckEC3 | BuckEuler | BuckOther.
(** truss_optimization.py:437-444: NbRd and Ncr are given about the y axis and the z axis. *)
Definition buckling_con (k : buck_kind) (N : R) (NbRd Ncr : R * R) : option R :=
  match k with
  | BuckEC3 => Some (- N / fst NbRd - 1)
  | BuckEuler => Some (- N / fst Ncr - 1)
  | BuckOther => None
  end.
(** truss_optimization.py:378-379,406-407,434-435: the load case a constraint of a member
    looks at when none is given: the first one. *)
Definition con_force (forces : list R) : option R := nth_error forces 0.
(** truss_optimization.py:479-493. *)
Definition disp_upper (uub u : R) : R :=
  if Rltb 0 uub then u / uub - 1 else if Rltb uub 0 then 1 - u / uub else u.
(** truss_optimization.py:495-508. *)
Definition disp_lower (ulb u : R) : R :=
  if Rltb ulb 0 then u / ulb - 1 else if Rltb 0 ulb then 1 - u / ulb else - u.

(** ---------------- scaling a design ---------------- *)
(** truss_optimization.py:597-603: least upper bound over size; vs lists (lb, ub, x). The
    start value numpy.inf is None. *)
Definition mu_U (vs : list (R * R * R)) : option R :=
  fold_left (fun m v => let '(_, ub, x) := v in
      match m with None => Some (ub / x) | Some m => Some (if Rltb (ub / x) m then ub / x else m) end) vs None.
(** truss_optimization.py:606-616: greatest of the lower bounds over size and of the
    constraint values plus one; -numpy.inf is None. *)
Definition mu_L (vs : list (R * R * R)) (gs : list R) : option R :=
  fold_left (fun m b => match m with None => Some b | Some m => Some (if Rltb m b then b else m) end)
    (map (fun v => let '(lb, _, x) := v in lb / x) vs ++ map (fun g => g + 1) gs) None.
(** truss_optimization.py:597-624: the scaled design; gs are the values of the displacement
    and stress constraints at x. *)
Definition scale_design (vs : list (R * R * R)) (gs : list R) : option (list R) :=
  match mu_L vs gs, mu_U vs with
  | Some l, Some u => let m := if Rltb u l then 1 else l in Some (map (fun v => m * snd v) vs)
  | Some l, None => Some (map (fun v => l * snd v) vs)
  | None, _ => None
  end.

(** ---------------- fully stressed design ---------------- *)
(** truss_optimization.py:561-577: a variable: bounds, and the members it sets. *)
Record avar := mkAvar { v_lb : R; v_ub : R; v_mems : list nat }.
(** truss_optimization.py:568-571. *)
Definition fsd_val (v : avar) (N fy : R) : R := Rmin (Rmax (N / fy) (v_lb v)) (v_ub v).
(** truss_optimization.py:577, variables.py:154-176: substituting a value sets the area of
    every member of the variable. *)
Definition set_areas (ms : list nat) (a : R) (A : vec) : vec :=
  fun i => if existsb (Nat.eqb i) ms then a else A i.
(** truss_optimization.py:561-577: all variables with the forces N of one analysis; N is the
    greatest magnitude of the axial force of a member. *)
Definition fsd_case (vars : list avar) (fy N : vec) (A : vec) : vec :=
  fold_left (fun A v => fold_left (fun A m => set_areas (v_mems v) (fsd_val v (N m) (fy m)) A) (v_mems v) A) vars A.
(** truss_optimization.py:553-577: one iteration over the load cases; each is analysed with
    the areas left by the previous one. *)
Definition fsd_iter (vars : list avar) (fy : vec) (ana : nat -> vec -> vec) (nlc : nat) (A : vec) : vec :=
  fold_left (fun A k => fsd_case vars fy (ana k A) A) (seq 0 nlc) A.
(** truss_optimization.py:544-552: ten iterations. *)
Definition fsd (vars : list avar) (fy : vec) (ana : nat -> vec -> vec) (nlc : nat) (A : vec) : vec :=
  Nat.iter 10 (fsd_iter vars fy ana nlc) A.
