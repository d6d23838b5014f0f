(** Model of the incremental second order analysis and of the distribution of buckling modes to nodes
    (metku/framefem/framefem.py:391-394, 760-794, 886-902). *)
From Verif Require Export EC3_model Base Mat.
Require Import List Bool PeanoNat. Import ListNotations.
Local Open Scope R_scope.

(** A load (framefem.py:1225-1236): load id, scaling factor, and its load vector for the factor 1 (lines 1303, 1374). *)
Record sload := mkSl { sl_id : nat; sl_f : R; sl_p : vec }.
(** The model: loads and current coordinates of the nodes, numbered like the displacements (framefem.py:1469-1481). *)
Record smodel := mkSm { sm_loads : list sload; sm_X : vec }.
(** framefem.py:1303: the load vector of a load case. *)
Fixpoint load_vec (lc : nat) (ls : list sload) (j : nat) : R :=
  match ls with [] => 0 | l :: ls => (if Nat.eqb (sl_id l) lc then sl_f l * sl_p l j else 0) + load_vec lc ls j end.
(** framefem.py:540-650 linear_statics: the displacements of the translations. The inverse of the stiffness matrix is
    the input [S] with [n] columns: stiffness, lengths and directions are those of the initial coordinates
    (lines 1594-1610, 1648), so it is the same in every increment. *)
Definition statics_u (n : nat) (S : nat -> nat -> R) (lc : nat) (ls : list sload) : vec :=
  fun i => sumn n (fun j => S i j * load_vec lc ls j).
(** framefem.py:772-775 set_load_increment. *)
Definition set_increment (lc : nat) (f : R) (ls : list sload) : list sload :=
  map (fun l => if Nat.eqb (sl_id l) lc then mkSl (sl_id l) f (sl_p l) else l) ls.
(** framefem.py:787-791: one increment. Simplified: the vector du of line 790 is printed and not kept. *)
Definition increment (n : nat) (S : nat -> nat -> R) (lc : nat) (d : R) (i : nat) (s : smodel) : smodel :=
  let ls := set_increment lc (INR i * d) (sm_loads s) in
  mkSm ls (fun k => sm_X s k + statics_u n S lc ls k).
(** framefem.py:760-791 second_order_elastic; [None]: ZeroDivisionError for no increments. *)
Definition second_order_elastic (n : nat) (S : nat -> nat -> R) (lc ninc : nat) (s : smodel) : option smodel :=
  bind (pdiv 1 (INR ninc)) (fun d => Some (fold_left (fun s i => increment n S lc d i s) (seq 0 ninc) s)).

(** Position of the first occurrence (list.index, framefem.py:900); [None]: ValueError. *)
Fixpoint index_of (d : nat) (l : list nat) : option nat :=
  match l with [] => None | x :: l => if Nat.eqb x d then Some O else option_map Datatypes.S (index_of d l) end.
(** framefem.py:898-902: one value goes to the node that has the degree of freedom. Simplified: degrees of freedom are natural
    numbers (after support_method REM none is numbered -1, lines 1200-1208). *)
Definition put_value (d : nat) (v : R) (nd : list nat * list R) : list nat * list R :=
  match index_of d (fst nd) with Some j => (fst nd, set_nth j v (snd nd)) | None => nd end.
(** framefem.py:391-394: the free degrees of freedom, when the set of line 394 is listed in ascending order. *)
Definition free_dofs (total : nat) (supp : list nat) : list nat :=
  filter (fun d => negb (existsb (Nat.eqb d) supp)) (seq 0 total).
(** framefem.py:887-902: the displacements of the nodes of one buckling mode; [dofs]: the degrees of freedom of the nodes,
    [glob]: the free degrees of freedom in the order in which they are listed (line 394). *)
Definition mode_to_nodes (v : list R) (glob : list nat) (dofs : list (list nat)) : list (list R) :=
  map snd (fold_left (fun nds p => map (put_value (snd p) (fst p)) nds) (combine v glob)
    (map (fun ds => (ds, repeat 0 (length ds))) dofs)).
