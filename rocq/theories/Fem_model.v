(** Model of the frame analysis core: numbering of degrees of freedom, assembly,
    load vector, linear statics with removed supports. Lines refer to
    /repo/metku/framefem/framefem.py unless a file is named. *)
From Verif Require Export Mat.

(** The degrees of freedom of a node: framefem.py:1471-1482; -1 means none. *)
Definition node := list Z.

(** An element as far as the assembly sees it: its two nodes, the number of
    leading degrees of freedom it uses at each node (elements/ebbeam.py:77-92 three,
    ebbeam.py:702-709 and 769-777 six, elements/rod.py:41-57 and elements/springs.py:48-61
    the dimension), and its matrix in global coordinates. For beams the code takes
    all dofs of the node, which are as many as the beam activates in a 2D (3D) model. *)
Record elem := mkEl { el_n1 : nat; el_n2 : nat; el_d : nat; el_k : mat }.

(** ebbeam.py:77-82, rod.py:48-57, springs.py:55-61: n.dofs[:d] = 0. *)
Definition activate (d : nat) (nd : node) : node := map (fun _ => 0%Z) (firstn d nd) ++ skipn d nd.
(** Applying a change to one node of the list (mutation through a reference,
    framefem.py:1570 self.nodes). *)
Definition upd_node (i : nat) (f : node -> node) (ns : list node) : list node :=
  match nth_error ns i with Some nd => set_nth i (f nd) ns | None => ns end.
(** framefem.py:348-349 with the elements' init_dofs. *)
Definition init_dofs (els : list elem) (ns : list node) : list node :=
  fold_left (fun acc e => upd_node (el_n2 e) (activate (el_d e)) (upd_node (el_n1 e) (activate (el_d e)) acc)) els ns.
(** framefem.py:354-365: running numbers for the entries that are not negative. *)
Fixpoint number_node (nd : node) (next : Z) : node * Z :=
  match nd with
  | [] => ([], next)
  | d :: r => if (0 <=? d)%Z then let '(r', n') := number_node r (next + 1)%Z in (next :: r', n')
              else let '(r', n') := number_node r next in (d :: r', n')
  end.
(** framefem.py:354: all nodes in order. *)
Fixpoint number_all (ns : list node) (next : Z) : list node * Z :=
  match ns with
  | [] => ([], next)
  | nd :: r => let '(nd', n1) := number_node nd next in
               let '(r', n2) := number_all r n1 in (nd' :: r', n2)
  end.
(** framefem.py:336-365 (nodal_dofs): renumbered nodes and self.dofs. *)
Definition nodal_dofs (els : list elem) (ns : list node) : list node * Z :=
  number_all (init_dofs els ns) 0.

(** ebbeam.py:85-93, rod.py:41-45: degrees of freedom of the element's ends. *)
Definition global_dofs (ns : list node) (e : elem) : list Z :=
  firstn (el_d e) (nth (el_n1 e) ns []) ++ firstn (el_d e) (nth (el_n2 e) ns []).

(** framefem.py:417-419: position of a global number among the non-negative entries of
    ve; numpy's fancy += with repeated numbers keeps the last one. *)
Fixpoint find_last (ve : list Z) (a : nat) (i : nat) : option nat :=
  match ve with
  | [] => None
  | d :: r => match find_last r (S a) i with
              | Some b => Some b
              | None => if (d =? Z.of_nat i)%Z then Some a else None
              end
  end.
(** framefem.py:429 K[np.ix_(q, q)] += ke[np.ix_(nz, nz)]. *)
Definition scatter (ve : list Z) (ke : mat) (K : mat) : mat :=
  fun i j => match find_last ve 0 i, find_last ve 0 j with
             | Some a, Some b => K i j + ke a b
             | _, _ => K i j
             end.
(** framefem.py:396-431 (global_stiffness_matrix), and 433-463 for the geometric
    matrices when el_k is the geometric matrix. *)
Definition assemble (ns : list node) (els : list elem) : mat :=
  fold_left (fun K e => scatter (global_dofs ns e) (el_k e) K) els mzero.

(** A load that acts: its load id and, for every degree of freedom listed in ve,
    the force (framefem.py:1290-1320 PointLoad, 1356-1393 LineLoad). *)
Record nload := mkLoad { l_sid : nat; l_dofs : list Z; l_F : vec }.
(** framefem.py:523 global_load[vdofs] += v. *)
Definition scatter_v (ve : list Z) (F : vec) (p : vec) : vec :=
  fun i => match find_last ve 0 i with Some a => p i + F a | None => p i end.
(** framefem.py:498-526 (global_load_vector). *)
Definition load_vector (loads : list nload) (sid : nat) : vec :=
  fold_left (fun p l => if (l_sid l =? sid)%nat then scatter_v (l_dofs l) (l_F l) p else p) loads (fun _ => 0).
(** framefem.py:1280-1320: a point load with vector v and factor f at node nd. *)
Definition point_load (sid : nat) (nd : node) (v : list R) (f : R) : nload :=
  mkLoad sid nd (fun a => f * nth a v 0).

(** framefem.py:603-609: a support holds its id, its node and the positions held. *)
Record support := mkSup { s_sid : nat; s_node : nat; s_dof : list nat }.
(** framefem.py:598-619 with 'REM': numbers of the removed degrees of freedom. *)
Definition rem_dofs (ns : list node) (sups : list support) (sid : nat) : list nat :=
  flat_map (fun s => if (s_sid s =? sid)%nat
    then flat_map (fun k => let i := nth k (nth (s_node s) ns []) (-1)%Z in
                            if (-1 <? i)%Z then [Z.to_nat i] else []) (s_dof s)
    else []) sups.
(** framefem.py:600, 633: numbers that remain (numpy.delete of the positions). *)
Definition glob_dofs (n : nat) (rem : list nat) : list nat :=
  filter (fun i => negb (existsb (Nat.eqb i) rem)) (seq 0 n).
(** framefem.py:627-628: reduced matrix. *)
Definition reduce (g : list nat) (K : mat) : mat := fun a b => K (nth a g O) (nth b g O).
(** framefem.py:629: reduced load vector. *)
Definition reduce_v (g : list nat) (p : vec) : vec := fun a => p (nth a g O).
(** framefem.py:674-678: writing one solved value into the node's displacements. *)
Fixpoint write_u (nd : node) (d : nat) (ui : R) (u : list R) : list R :=
  match nd, u with
  | k :: nd', v :: u' => (if (k =? Z.of_nat d)%Z then ui else v) :: write_u nd' d ui u'
  | _, _ => u
  end.
(** framefem.py:673-678: all solved values, for one node and one load case. *)
Definition write_all (nd : node) (g : list nat) (x : vec) (u : list R) : list R :=
  fst (fold_left (fun '(acc, a) d => (write_u nd d (x a) acc, S a)) g (u, O)).

(** framefem.py:540-688 (linear_statics, support_method='REM') for one load case.
    [solve] stands for numpy.linalg.solve of the reduced system; the result is the
    displacements of all nodes, given the displacements us they had before. The
    numbering made on the first call (framefem.py:557-558) is an input. *)
Definition linear_statics (ns : list node) (n : nat) (els : list elem) (loads : list nload)
  (sups : list support) (supp_id load_id : nat) (solve : nat -> mat -> vec -> vec) (us : list (list R))
  : list (list R) :=
  let g := glob_dofs n (rem_dofs ns sups supp_id) in
  let x := solve (length g) (reduce g (assemble ns els)) (reduce_v g (load_vector loads load_id)) in
  map (fun nu => write_all (fst nu) g x (snd nu)) (combine ns us).

(** framefem.py:540-666 (linear_statics with the default support_method 'ZERO').
    [stored] is the attribute p left by an earlier 'REM' analysis (None: the
    attribute does not exist and line 651 raises AttributeError). After the solve the
    displacements are written through node.u[lcase] where lcase has been turned
    into a list (line 564), an unhashable key (TypeError) for every node with a
    number. Result None: raised. *)
Definition linear_statics_zero (ns : list node) (n : nat) (K : mat) (stored : option vec)
  (solve : nat -> mat -> vec -> vec) (us : list (list R)) : option (list (list R)) :=
  match stored with
  | None => None
  | Some p =>
      let _ := solve n K p in
      if existsb (existsb (fun d => (0 <=? d)%Z)) ns then None else Some us
  end.

(** framefem.py:557-558 ([if not self.dofs: self.nodal_dofs()]): the numbering used by an
    analysis of a model whose attribute dofs is n. *)
Definition analysis_dofs (els : list elem) (ns : list node) (n : Z) : list node * Z :=
  if (n =? 0)%Z then nodal_dofs els ns else (ns, n).
