(** Model of the branch-and-bound solver.
    Source: metku/optimization/solvers/bnb.py, variables.py. *)
From Verif Require Export Tac Problem_model.

(** The variable classes distinguished by bnb.py; variables.py:16, 213, 343.
    IndexVariable and BinaryVariable are IntegerVariables here. *)
Inductive bkind := BCont | BInt | BDisc (values : list R).
(** variables.py:74-107, the fields used by bnb.py; bounds live in the box. *)
Record bv := mkBv { b_kind : bkind; b_prio : Z }.

(** Variable bounds of the problem (var.lb, var.ub for each variable). *)
Definition box := list (R * R).

(** bnb.py:36-55 the data of a node.  treelib's path to the root is stored in the
    node ([n_path], the node's own branching first): (variable index, true for
    sense '<', limit).  [n_lb = None] is -inf.  x0 and tags are omitted. *)
Record node := mkNode { n_path : list (nat * bool * R); n_lb : option R }.

(** bnb.py:301-304 one branching applied to the current bounds. *)
Definition apply_branch (bx : box) (br : nat * bool * R) : box :=
  let '(i, lt, lim) := br in
  let '(l, u) := nth i bx (0, 0) in
  set_nth i (if lt then (l, Rmin u lim) else (Rmax l lim, u)) bx.

(** bnb.py:286, 298-304: original bounds, then all branchings from the node to
    the root. *)
Definition node_box (orig : box) (path : list (nat * bool * R)) : box :=
  fold_left apply_branch path orig.

(** bnb.py:240-249: the open nodes of maximal depth (depth = length of the path). *)
Definition deepest (nodes : list node) : list node :=
  snd (fold_left (fun acc nd =>
         let '(md, l) := acc in
         let d := length (n_path nd) in
         if Nat.ltb md d then (d, [nd])
         else if Nat.eqb d md then (md, l ++ [nd]) else (md, l)) nodes (0%nat, [])).

(** Comparison lb < fmin where None is -inf for lb, and None is +inf for fmin. *)
Definition lb_less (lb fmin : option (option R)) : bool :=
  match lb, fmin with
  | None, _ => false
  | _, None => true
  | Some None, Some None => false
  | Some None, Some (Some _) => true
  | Some (Some _), Some None => false
  | Some (Some a), Some (Some b) => Rltb a b
  end.

(** bnb.py:269-273: the first node with the smallest lower bound; [None] is the
    UnboundLocalError when there is none. *)
Definition min_lb (nodes : list node) : option node :=
  snd (fold_left (fun acc nd =>
         let '(fmin, s) := acc in
         if lb_less (Some (n_lb nd)) fmin then (Some (n_lb nd), Some nd) else (fmin, s))
       nodes (None, None)).

(** bnb.py:228-315 select_node with strategy 'depth_first'. *)
Definition depth_first (nodes : list node) : option node := min_lb (deepest nodes).

(** variables.py:154-163, 229-240, 205-211: var.discrete_violation(x). *)
Definition violation (v : bv) (x : R) : option R :=
  match b_kind v with
  | BCont => Some 0
  | BInt => Some (int_violation x)
  | BDisc vals => disc_violation vals x
  end.

(** variables.py:234-246 (integer), 372-392 (discrete): var.is_allowed_value(x)
    with the current bounds of the problem.  The base class Variable has no such
    method: AttributeError ([None]) for continuous variables. *)
Definition allowed (v : bv) (b : R * R) (x : R) : option bool :=
  match b_kind v with
  | BCont => None
  | BInt => Some (int_allowed (fst b) (snd b) x)
  | BDisc vals =>
      if Rleb (fst b) x && Rleb x (snd b) then
        match list_min (map (fun v => Rabs (v - x)) vals) with
        | None => None
        | Some m => Some (Rltb m INT_TOL)
        end
      else Some false
  end.

(** bnb.py:473-492: the branching variable so far: index, priority, xr and the
    largest violation. *)
Definition choice := (option (nat * Z * R) * R)%type.

(** bnb.py:475-492, one variable. *)
Definition choose_step (acc : choice) (i : nat) (v : bv) (x viol : R) : choice :=
  let '(cur, mx) := acc in
  match cur with
  | None => if Rltb mx viol then (Some (i, b_prio v, x), viol) else acc
  | Some (_, p, _) =>
      if (p <? b_prio v)%Z then (if Rltb 0 viol then (Some (i, b_prio v, x), viol) else acc)
      else if (b_prio v =? p)%Z then (if Rltb mx viol then (Some (i, b_prio v, x), viol) else acc)
      else acc
  end.

(** bnb.py:475-492, the loop; [None] is an exception (empty catalogue). *)
Fixpoint choose_loop (i : nat) (vs : list bv) (xR : list R) (acc : choice) : option choice :=
  match vs with
  | [] => Some acc
  | v :: vs' =>
      match xR with
      | [] => None
      | x :: xR' =>
          match violation v x with
          | None => None
          | Some viol => choose_loop (S i) vs' xR' (choose_step acc i v x viol)
          end
      end
  end.

(** bnb.py:497-498 branching limits.  Only DiscreteVariable has the methods
    smaller_discrete_value / larger_discrete_value (variables.py:405-415): other
    kinds raise AttributeError. *)
Definition branch_limits (v : bv) (xr : R) : option (R * R) :=
  match b_kind v with
  | BDisc vals =>
      match smaller_value vals xr, larger_value vals xr with
      | Some lo, Some hi => Some (lo, hi)
      | _, _ => None
      end
  | _ => None
  end.

(** bnb.py:466-517 branch: the two children; [None] is an exception (no variable
    to branch on, line 494, or no limits, lines 497-498). *)
Definition branch (vs : list bv) (xR : list R) (nd : node) : option (node * node) :=
  match choose_loop 0 vs xR (None, 0) with
  | Some (Some (i, _, xr), _) =>
      match nth_error vs i with
      | None => None
      | Some v =>
          match branch_limits v xr with
          | None => None
          | Some (lo, hi) =>
              Some (mkNode ((i, true, lo) :: n_path nd) (n_lb nd),
                    mkNode ((i, false, hi) :: n_path nd) (n_lb nd))
          end
      end
  | _ => None
  end.

(** bnb.py:414-437 upper_bound: scan of the neighbourhood [N]; the constraint
    type is ignored ([gxi <= con_tol]). *)
Fixpoint upper_bound (tol : R) (cons : list (ctype * (list R -> R))) (f : list R -> R)
         (N : list (list R)) (best : option (R * list R)) : option (R * list R) :=
  match N with
  | [] => best
  | x :: N' =>
      let ok := forallb (fun c => Rleb (snd c x) tol) cons in
      let best' :=
        if ok then
          match best with
          | None => Some (f x, x)
          | Some (fb, _) => if Rltb (f x) fb then Some (f x, x) else best
          end
        else best in
      upper_bound tol cons f N' best'
  end.

(** ceil(x), numpy.ceil in bnb.py:547. *)
Definition ceilZ (x : R) : Z := (- floorZ (- x))%Z.

(** bnb.py:539-542: rounding of a tightened upper bound; [None] is the
    ValueError of max() of an empty array. *)
Definition round_ub (v : bv) (ub : R) : option R :=
  match b_kind v with
  | BCont => Some ub
  | BInt => Some (IZR (floorZ ub))
  | BDisc vals => list_max (filter (fun w => Rleb w ub) vals)
  end.
(** bnb.py:546-549: rounding of a tightened lower bound. *)
Definition round_lb (v : bv) (lb : R) : option R :=
  match b_kind v with
  | BCont => Some lb
  | BInt => Some (IZR (ceilZ lb))
  | BDisc vals => list_min (filter (fun w => Rleb lb w) vals)
  end.

(** bnb.py:530 ax_min = minimum(a*xub, a*xlb). *)
Fixpoint ax_min (a : list R) (bx : box) : list R :=
  match a, bx with
  | ai :: a', (l, u) :: bx' => Rmin (ai * u) (ai * l) :: ax_min a' bx'
  | _, _ => []
  end.

(** bnb.py:532-549, the inner loop over variables for one linear constraint.
    [am] is ax_min, [S] its sum (both computed before the loop from the bounds
    at entry), [bnd] the Python local of that name, which survives from variable
    to variable; reading it unset is an UnboundLocalError. *)
Fixpoint tighten_vars (vs : list bv) (a am : list R) (b S : R) (bx : box) (bnd : option R)
  : option (box * option R) :=
  match vs, a, am, bx with
  | v :: vs', ai :: a', ami :: am', (l, u) :: bx' =>
      let bnd' := if Rlt_dec (1 / 1000000000) (Rabs ai) then Some (1 / ai * (b - (S - ami))) else bnd in
      match (if Rlt_dec 0 ai then
               match bnd' with
               | None => None
               | Some bd => match round_ub v (Rmin u bd) with None => None | Some u' => Some (l, u') end
               end
             else if Rlt_dec ai 0 then
               match bnd' with
               | None => None
               | Some bd => match round_lb v (Rmax l bd) with None => None | Some l' => Some (l', u) end
               end
             else Some (l, u)) with
      | None => None
      | Some lu =>
          match tighten_vars vs' a' am' b S bx' bnd' with
          | None => None
          | Some (r, bn) => Some (lu :: r, bn)
          end
      end
  | [], _, _, _ => Some (bx, bnd)
  | _, _, _, _ => None
  end.

(** bnb.py:520-549 feasibility_tightening over the linear constraints
    (type, a, b); xlb, xub are read once at entry ([bx0]).  The type is ignored.
    Right-hand sides that are Variables are not modelled. *)
Fixpoint tighten_cons (vs : list bv) (bx0 : box) (lcons : list (ctype * list R * R)) (bx : box)
         (bnd : option R) : option box :=
  match lcons with
  | [] => Some bx
  | (_, a, b) :: r =>
      let am := ax_min a bx0 in
      match tighten_vars vs a am b (Rsum am) bx bnd with
      | None => None
      | Some (bx', bnd') => tighten_cons vs bx0 r bx' bnd'
      end
  end.
(** bnb.py:520-549. *)
Definition feasibility_tightening (vs : list bv) (lcons : list (ctype * list R * R)) (bx : box) : option box :=
  tighten_cons vs bx lcons bx None.

(** What the code delegates: [o_choose] the selection (select_node; any index),
    [o_obt] optimality_tightening (bnb.py:554, needs an LP solver), [o_relax]
    lb_solver.solve (None: not feasible; Some (flb, xR)) and [o_nbhd]
    discrete_neighborhood (any list of points).  All may depend on the iteration
    number, hence on anything that happened before. *)
Record oracles := mkOr {
  o_choose : nat -> list node -> nat;
  o_obt : nat -> box -> box;
  o_relax : nat -> box -> option (R * list R);
  o_nbhd : nat -> list R -> list (list R) }.

(** The optimisation problem handed to BnB.solve (no locked variables). *)
Record bprob := mkBp {
  p_vs : list bv;
  p_box : box;
  p_lin : list (ctype * list R * R);
  p_cons : list (ctype * (list R -> R));
  p_f : list R -> R;
  p_tol : R }.

(** Solver state: open nodes (self.nodes) and incumbent (None is best_f = inf). *)
Record bstate := mkBs { s_open : list node; s_best : option (R * list R) }.

(** lb > best_f, bnb.py:673. *)
Definition fathomed (lb : R) (best : option (R * list R)) : bool :=
  match best with None => false | Some (fb, _) => Rltb fb lb end.

(** bnb.py:696, lb < best_f. *)
Definition improves (lb : R) (best : option (R * list R)) : bool :=
  match best with None => true | Some (fb, _) => Rltb lb fb end.

(** bnb.py:450-463 variables_at_discrete_values followed by all(disc). *)
Fixpoint all_allowed (vs : list bv) (bx : box) (xR : list R) : option bool :=
  match vs, bx, xR with
  | [], _, _ => Some true
  | v :: vs', b :: bx', x :: xR' =>
      match allowed v b x with
      | None => None
      | Some r => match all_allowed vs' bx' xR' with None => None | Some r' => Some (andb r r') end
      end
  | _, _, _ => None
  end.

(** list.remove of one element by position. *)
Fixpoint remove_at {A} (i : nat) (l : list A) : list A :=
  match l, i with
  | [], _ => []
  | _ :: r, O => r
  | a :: r, S i' => a :: remove_at i' r
  end.

(** bnb.py:651-717, one iteration on the selected node [nd]; [rest] are the
    other open nodes.  Removing a fathomed node from the tree (remove_node) has no
    effect on the open list, since select_node already took it out. *)
Definition process (P : bprob) (O : oracles) (k : nat) (nd : node) (rest : list node)
           (best : option (R * list R)) : option bstate :=
  match feasibility_tightening (p_vs P) (p_lin P) (node_box (p_box P) (n_path nd)) with
  | None => None
  | Some bx1 =>
      let bx := o_obt O k bx1 in
      if existsb (fun b => Rltb (snd b) (fst b)) bx then Some (mkBs rest best)
      else
        match o_relax O k bx with
        | None => Some (mkBs rest best)
        | Some (flb, xR) =>
            if fathomed flb best then Some (mkBs rest best)
            else
              let best1 := upper_bound (p_tol P) (p_cons P) (p_f P) (o_nbhd O k xR) best in
              match all_allowed (p_vs P) bx xR with
              | None => None
              | Some true =>
                  Some (mkBs rest (if improves flb best1 then Some (flb, xR) else best1))
              | Some false =>
                  match branch (p_vs P) xR (mkNode (n_path nd) (Some flb)) with
                  | None => None
                  | Some (c1, c2) => Some (mkBs (rest ++ [c1; c2]) best1)
                  end
              end
        end
  end.

(** bnb.py:639-724 the loop of solve; [fuel] is max_iters + 1. *)
Fixpoint bnb_loop (P : bprob) (O : oracles) (fuel k : nat) (s : bstate) : option bstate :=
  match fuel with
  | O => Some s
  | S fuel' =>
      match s_open s with
      | [] => Some s
      | _ =>
          let i := o_choose O k (s_open s) in
          match nth_error (s_open s) i with
          | None => None
          | Some nd =>
              match process P O k nd (remove_at i (s_open s)) (s_best s) with
              | None => None
              | Some s' => bnb_loop P O fuel' (S k) s'
              end
          end
      end
  end.

(** bnb.py:634-637 the root. *)
Definition bnb_start : bstate := mkBs [mkNode [] None] None.

(** bnb.py:625-724 solve. *)
Definition bnb_solve (P : bprob) (O : oracles) (maxiter : nat) : option bstate :=
  bnb_loop P O (S maxiter) 0 bnb_start.
