(** Model of metku/raami: raami.py (the frame container), frame_loads.py (loads, load cases and
    combinations), frame_member.py (members, groups) and frame_node.py. *)
From Verif Require Export EC3_model Mat.
Require Export String Ascii DecimalString DecimalNat.

(* ---------------------------------------------------------------- loads *)

(** Load types (frame_loads.py:182, 190-205), upper case; anything else is [OTHER]. *)
Inductive ltype := LIVE | WIND | SNOW | DEAD | OTHER.
(** Combination types (frame_loads.py:101-105). *)
Inductive ctype := ULS | SLS | ACC.

(** A load object (frame_loads.py:156-183, 212-286): name, load id, type, scaling factor, point or
    line load. The values, the direction and the place of application are abstracted to one
    identifier [o_what], which copying preserves. *)
Record lobj := mkLobj { o_name : string; o_lid : nat; o_type : ltype; o_f : R; o_line : bool; o_what : nat }.

(** The frame (raami.py:57-74) as far as loads are concerned: the heap of load objects (an object
    is its index), the dictionary of loads in insertion order, load_ids, and the dictionary of
    load cases. *)
Record frame := mkFrame { heap : list lobj; loads : list (string * nat); lids : list nat; cases : list (nat * list nat) }.
(** raami.py:57-74. *)
Definition new_frame : frame := mkFrame [] [] [] [].

(** Python's str of a non-negative integer (raami.py:161, 190). *)
Definition str (n : nat) : string := NilEmpty.string_of_uint (Nat.to_uint n).
(** Python dictionaries in insertion order (raami.py:62-68): assignment replaces the value of an
    existing key or appends. *)
Fixpoint dset {K V} (eqb : K -> K -> bool) (k : K) (v : V) (d : list (K * V)) : list (K * V) :=
  match d with [] => [(k, v)] | (k', v') :: d => if eqb k k' then (k', v) :: d else (k', v') :: dset eqb k v d end.
(** Lookup in a dictionary (raami.py:175); [None]: KeyError. *)
Fixpoint dget {K V} (eqb : K -> K -> bool) (k : K) (d : list (K * V)) : option V :=
  match d with [] => None | (k', v) :: d => if eqb k k' then Some v else dget eqb k d end.
(** Membership test [name in self.loads] (raami.py:160). *)
Definition has_name (n : string) (f : frame) : bool := existsb (fun p => String.eqb n (fst p)) (loads f).
(** Attribute access of an object (raami.py:160). *)
Definition obj (f : frame) (o : nat) : lobj := nth o (heap f) (mkLobj EmptyString 0 OTHER 0 false 0).
(** Assignment to attributes of a load object (raami.py:161, frame_loads.py:76). *)
Definition set_name (n : string) (l : lobj) : lobj := mkLobj n (o_lid l) (o_type l) (o_f l) (o_line l) (o_what l).
(** frame_loads.py:76, 152. *)
Definition set_lid (i : nat) (l : lobj) : lobj := mkLobj (o_name l) i (o_type l) (o_f l) (o_line l) (o_what l).
(** frame_loads.py:209. *)
Definition set_f (x : R) (l : lobj) : lobj := mkLobj (o_name l) (o_lid l) (o_type l) x (o_line l) (o_what l).
(** Creating a load object (frame_loads.py:215-286). *)
Definition new_load (l : lobj) (f : frame) : frame * nat :=
  (mkFrame (heap f ++ [l]) (loads f) (lids f) (cases f), List.length (heap f)).

(** raami.py:160-161, 189-190: the name under which a load is stored. *)
Definition stored_name (o : nat) (f : frame) : string :=
  let n := o_name (obj f o) in if has_name n f then append n (str (List.length (loads f))) else n.
(** frame_loads.py:73-77 LoadCase.add on the case with the given id; [None]: KeyError. *)
Definition case_add (i o : nat) (f : frame) : option frame :=
  bind (dget Nat.eqb i (cases f)) (fun l =>
  if existsb (Nat.eqb o) l then Some f
  else Some (mkFrame (set_nth o (set_lid i (obj f o)) (heap f)) (loads f) (lids f) (dset Nat.eqb i (l ++ [o]) (cases f)))).
(** raami.py:148-175 add_pointload and 187-206 add_lineload. A point load object already stored is
    not stored again, a line load object is. A load with a new load id creates a load case; adding
    that case appends the id to load_ids, and the caller appends it once more (raami.py:170-171). *)
Definition add_load (o : nat) (f : frame) : option frame :=
  let n := stored_name o f in
  let lid := o_lid (obj f o) in
  let h := set_nth o (set_name n (obj f o)) (heap f) in
  let ls := if andb (negb (o_line (obj f o))) (existsb (fun p => Nat.eqb o (snd p)) (loads f)) then loads f
            else dset String.eqb n o (loads f) in
  let f' := mkFrame h ls (lids f) (cases f) in
  if existsb (Nat.eqb lid) (lids f) then case_add lid o f'
  else Some (mkFrame h ls (lids f ++ [lid; lid]) (dset Nat.eqb lid [o] (cases f))).
(** raami.py:138-140: the loop of add_loadcase; a load whose name is already in use is skipped. *)
Fixpoint add_new_names (os : list nat) (f : frame) : option frame :=
  match os with
  | [] => Some f
  | o :: os => if has_name (o_name (obj f o)) f then add_new_names os f else bind (add_load o f) (add_new_names os)
  end.
(** frame_loads.py:53-57, 73-77: constructing a load case sets the load ids of distinct loads. *)
Definition make_case (i : nat) (os : list nat) (f : frame) : frame :=
  mkFrame (fold_left (fun h o => set_nth o (set_lid i (nth o h (mkLobj EmptyString 0 OTHER 0 false 0))) h) os (heap f)) (loads f) (lids f) (cases f).
(** raami.py:124-140 add_loadcase. *)
Definition add_loadcase (i : nat) (os : list nat) (f : frame) : option frame :=
  let f := make_case i os f in
  add_new_names os (mkFrame (heap f) (loads f) (if existsb (Nat.eqb i) (lids f) then lids f else lids f ++ [i]) (dset Nat.eqb i os (cases f))).
(** frame_loads.py:185-209 Load.factored. *)
Definition comb_factor (t : ltype) (c : ctype) (lead : bool) : R :=
  match t with
  | LIVE | WIND | SNOW =>
    let f := match c with ULS => 15/10 | _ => 1 end in
    if lead then f else match t with LIVE => f * (7/10) | SNOW => f * (7/10) | _ => f * (6/10) end
  | DEAD => match c with ULS => 115/100 | _ => 1 end
  | OTHER => 1
  end.
(** frame_loads.py:79-89: a factored copy, with the load id of the combination (line 152). *)
Definition factored_copy (c : ctype) (lead : bool) (cid : nat) (l : lobj) : lobj :=
  set_lid cid (set_f (comb_factor (o_type l) c lead) l).
(** frame_loads.py:65-71: the type of the first load of a case. *)
Definition case_type (f : frame) (os : list nat) : option ltype :=
  match os with [] => None | o :: _ => Some (o_type (obj f o)) end.
(** frame_loads.py:120-124: position of the first case that is not dead. *)
Fixpoint lead_case (f : frame) (cs : list (list nat)) : option nat :=
  match cs with
  | [] => None
  | os :: cs => match case_type f os with Some DEAD => option_map S (lead_case f cs) | _ => Some 0%nat end
  end.
(** frame_loads.py:128-135 clear_loads. *)
Definition clear_loads (cid : nat) (f : frame) : frame :=
  mkFrame (heap f) (filter (fun p => negb (Nat.eqb (o_lid (obj f (snd p))) cid)) (loads f)) (lids f) (cases f).
(** frame_loads.py:84-87, 151-153: copy, factor and add one load. *)
Definition add_copy (c : ctype) (lead : bool) (cid o : nat) (f : frame) : option frame :=
  let '(f', o') := new_load (factored_copy c lead cid (obj f o)) f in add_load o' f'.
(** frame_loads.py:151-153 for a list of loads. *)
Fixpoint add_copies (c : ctype) (lead : bool) (cid : nat) (os : list nat) (f : frame) : option frame :=
  match os with [] => Some f | o :: os => bind (add_copy c lead cid o f) (add_copies c lead cid os) end.
(** frame_loads.py:144-153 for the load cases from position [k] on; [ld]: the leading position. *)
Fixpoint add_cases (c : ctype) (cid : nat) (ld : option nat) (k : nat) (cs : list (list nat)) (f : frame) : option frame :=
  match cs with
  | [] => Some f
  | os :: cs => bind (add_copies c (match ld with Some i => Nat.eqb i k | None => false end) cid os f) (add_cases c cid ld (S k) cs)
  end.
(** raami.py:142-146, frame_loads.py:137-153: adding a load combination of the given cases. The
    leading case is determined when the combination is created; here at the same time. Cases are
    told apart by their position (distinct case objects). *)
Definition combine_loads (cid : nat) (c : ctype) (cs : list (list nat)) (f : frame) : option frame :=
  add_cases c cid (lead_case f cs) 0 cs (clear_loads cid f).
(** What generate_fem applies (raami.py:303-305): every stored load with its load id and factor. *)
Definition applied (f : frame) : list lobj := map (fun p => obj f (snd p)) (loads f).

(* ---------------------------------------------------------------- nodes, members, supports *)

(** Nodes as objects with an id attribute (frame_node.py:36): object index to id, and the list of
    node objects of the frame (raami.py:61). *)
Record nodes := mkNodes { nid : nat -> option nat; nlist : list nat }.
(** raami.py:96-106 add_node. *)
Definition add_node (o : nat) (s : nodes) : nodes :=
  mkNodes (fun x => if Nat.eqb x o then Some (List.length (nlist s)) else nid s x) (nlist s ++ [o]).
(** raami.py:108-122 add_member: members is a dictionary keyed by the id. *)
Record members := mkMembers { mid : nat -> option nat; mdict : list (nat * nat) }.
(** raami.py:108-122. *)
Definition add_member (o : nat) (s : members) : members :=
  let i := List.length (mdict s) in
  mkMembers (fun x => if Nat.eqb x o then Some i else mid s x) (dset Nat.eqb i o (mdict s)).

(* ---------------------------------------------------------------- member geometry *)

(** numpy's linspace(a, b, n + 1) (frame_loads.py:305, frame_member.py:350). *)
Definition linspace (a b : R) (n : nat) (i : nat) : R := a + INR i * ((b - a) / INR n).
(** Length of a member in any dimension (frame_member.py:229-232). *)
Definition mlength (d : nat) (x y : vec) : R := sqrt (sumn d (fun i => (y i - x i) ^ 2)).
(** frame_member.py:255-263; the length is not zero. *)
Definition dir_vector (d : nat) (x y : vec) : vec := fun i => (y i - x i) / mlength d x y.
(** frame_member.py:265-272. *)
Definition local_to_global (d : nat) (x y : vec) (loc : R) : vec := fun i => x i + mlength d x y * loc * dir_vector d x y i.
(** frame_member.py:274-285. *)
Definition global_to_local (d : nat) (x y : vec) (g : vec) : R :=
  sumn d (fun i => (g i - x i) * dir_vector d x y i) / mlength d x y.
(** frame_member.py:287-298, two dimensions. *)
Definition perpendicular (x y : vec) : vec := fun i => match i with 0%nat => dir_vector 2 x y 1%nat | _ => - dir_vector 2 x y 0%nat end.
(** frame_member.py:300-315, two dimensions. *)
Definition mangle (x0 y0 x1 y1 : R) : R :=
  if Rltb (Rabs (x1 - x0)) (1/1000000) then 1/2 * PI
  else let a := atan ((y1 - y0) / (x1 - x0)) in if Rltb a 0 then PI + a else a.
(** frame_member.py:340-354: coordinates of node [k] of a member divided into [n] elements. *)
Definition node_coord (d : nat) (x y : vec) (n k : nat) : vec := local_to_global d x y (linspace 0 1 n k).
(** frame_member.py:577-597: the end node, the internal nodes (numbered as they are added to the
    finite element model), the other end node; elements are consecutive pairs. *)
Definition chain (first last next n : nat) : list nat := [first] ++ seq next (n - 1) ++ [last].
(** frame_member.py:602: zip of a list with its tail. *)
Definition pairs {A} (l : list A) : list (A * A) := combine l (tl l).

(** frame_loads.py:300-314 LineLoad.add_load: end values of the load on element [i] of [n]. *)
Definition element_load (f v0 v1 : R) (n i : nat) : R * R := (f * linspace v0 v1 n i, f * linspace v0 v1 n (S i)).
(** frame_loads.py:365-387 PWLineLoad.add_load on an element with the node coordinates [xa], [xb]. *)
Definition pw_element (f v0 v1 xdiv xa xb : R) : R :=
  let q0 := f * v0 in let q1 := f * v1 in
  if Rleb (Rmax xa xb) xdiv then q0
  else if Rleb xdiv (Rmin xa xb) then q1
  else if Rltb (Rabs q0) (Rabs q1) then q1 else q0.

(* ---------------------------------------------------------------- member forces *)

(** frame_member.py:378-385 absmax; [None]: ValueError for an empty list. *)
Definition absmax (l : list R) : option R :=
  bind (list_min l) (fun mn => bind (list_max l) (fun mx =>
  if Reqb (Rmax (Rabs mn) (Rabs mx)) (Rabs mn) then Some mn else Some mx)).
(** frame_member.py:395-407: first node of every element and the last node of the last one;
    an element is the pair of its end values. [None]: IndexError without elements. *)
Definition node_values (es : list (R * R)) : option (list R) :=
  match rev es with [] => None | e :: _ => Some (map fst es ++ [snd e]) end.
(** frame_member.py:410-412 the design force. *)
Definition design_force (es : list (R * R)) : option R := bind (node_values es) absmax.
(** frame_member.py:505-516, one force and one of min and max: the values over the load cases are
    compared by absolute value. *)
Definition extreme (pick : list R -> option R) (cs : list (list R)) : option R :=
  fold_left (fun acc l => match pick l with
    | None => acc
    | Some v => match acc with None => Some v | Some a => if Rltb (Rabs a) (Rabs v) then Some v else Some a end end) cs None.

(** frame_member.py:521-536, 1179-1203: checking one load case sets the flag and stores the
    utilization. *)
Record check := mkCheck { ok_flag : bool; util : list (nat * R) }.
(** frame_member.py:1196-1203. *)
Definition design (allow : R) (lid : nat) (r : R) (s : check) : check :=
  mkCheck (negb (Rltb allow r)) (dset Nat.eqb lid r (util s)).
(** raami.py:391-396 over the load cases of structural_analysis with load_id ALL. *)
Definition design_all (allow : R) (rs : list (nat * R)) (s : check) : check :=
  fold_left (fun s p => design allow (fst p) (snd p) s) rs s.

(* ---------------------------------------------------------------- profile search *)

(** frame_member.py:1205-1259 optimum_design: profiles in the order of the catalogue; [skip]: the
    width, class and slenderness filters, [u p l]: the utilization in load case [l]. Utilizations
    stored for other load cases ([old]) stay. The result is the profile left in place. *)
Fixpoint optimum {P} (skip : P -> bool) (u : P -> nat -> R) (maxu : R) (lids : list nat) (old : list (nat * R)) (cur : P) (ps : list P) : P :=
  match ps with
  | [] => cur
  | p :: ps =>
    if skip p then optimum skip u maxu lids old p ps
    else let ut := fold_left (fun d l => dset Nat.eqb l (u p l) d) lids old in
      if forallb (fun e => Rleb (snd e) maxu) ut then p else optimum skip u maxu lids ut p ps
  end.
(** raami.py:422-447: one sweep. The state holds the profiles of the groups and of the members
    outside groups; [bestg] and [bestm] give the profile the search of optimum_design ends with for
    the forces of the analysis of the given state (one analysis per sweep). Only changes of members
    are recorded. Symmetry pairs, which are redesigned with their partner, are left out. *)
Definition sweep (bestg bestm : list nat * list nat -> nat -> nat) (s : list nat * list nat) : (list nat * list nat) * bool :=
  let gs := map (bestg s) (seq 0 (List.length (fst s))) in
  let ms := map (bestm s) (seq 0 (List.length (snd s))) in
  ((gs, ms), negb (if list_eq_dec Nat.eq_dec ms (snd s) then true else false)).
(** raami.py:413-453 optimize_members with at most [k] sweeps (9 in the code), stopping after a
    sweep that recorded no change; also returns the number of sweeps. *)
Fixpoint optimize_members (bestg bestm : list nat * list nat -> nat -> nat) (k : nat) (s : list nat * list nat) : (list nat * list nat) * nat :=
  match k with
  | 0%nat => (s, 0%nat)
  | S k => let '(s', ch) := sweep bestg bestm s in
    if ch then let '(r, n) := optimize_members bestg bestm k s' in (r, S n) else (s', 1%nat)
  end.

(* ---------------------------------------------------------------- groups *)

(** Member groups (frame_member.py:1375-1421): the sections of all members, the group's own
    section ([None]: Python None) and the positions of the members of the group. *)
Record group := mkGroup { g_sec : option nat; g_mem : list nat }.
(** frame_member.py:1413-1421 cross_section setter. *)
Definition set_section (v : option nat) (g : group) (sec : nat -> option nat) : group * (nat -> option nat) :=
  (mkGroup v (g_mem g), fun m => if existsb (Nat.eqb m) (g_mem g) then v else sec m).
(** frame_member.py:1380-1405 constructor with a list of members. *)
Definition make_group (ms : list nat) (sec : nat -> option nat) : group * (nat -> option nat) :=
  match ms with [] => (mkGroup None [], sec) | m :: _ => set_section (sec m) (mkGroup None ms) sec end.
(** frame_member.py:1436-1444 add_member. *)
Definition group_add (m : nat) (g : group) (sec : nat -> option nat) : group * (nat -> option nat) :=
  let g := mkGroup (g_sec g) (g_mem g ++ [m]) in
  match g_sec g with None => set_section (sec m) g sec | Some _ => (g, sec) end.

(* ---------------------------------------------------------------- hinges, self-weight *)

(** Hinges (frame_member.py:103-104, 170, 814-822): a member refers to a list object; members
    created without hinges share the list object of the default argument, object 0. *)
Record hinges := mkHinges { href : nat -> nat; hval : nat -> bool * bool; hnext : nat }.
(** frame_member.py:103-104 before any member exists. *)
Definition no_hinges : hinges := mkHinges (fun _ => 0%nat) (fun _ => (false, false)) 1.
(** frame_member.py:103-170: a member created with ([Some]) or without ([None]) its own list. *)
Definition new_member (m : nat) (own : option (bool * bool)) (s : hinges) : hinges :=
  match own with
  | None => mkHinges (fun x => if Nat.eqb x m then 0%nat else href s x) (hval s) (hnext s)
  | Some h => mkHinges (fun x => if Nat.eqb x m then hnext s else href s x) (fun r => if Nat.eqb r (hnext s) then h else hval s r) (S (hnext s))
  end.
(** frame_member.py:814-822 add_hinge. *)
Definition add_hinge (m : nat) (first : bool) (s : hinges) : hinges :=
  let h := hval s (href s m) in
  mkHinges (href s) (fun r => if Nat.eqb r (href s m) then (if first then (true, snd h) else (fst h, true)) else hval s r) (hnext s).
(** The hinges a member has (frame_member.py:624-631). *)
Definition hinges_of (s : hinges) (m : nat) : bool * bool := hval s (href s m).

(** Self-weight (raami.py:254-273, frame_member.py:317-333): the frame's flag, a flag per member
    and the number of self-weight loads per member in the frame. *)
Record selfw := mkSelfw { sw_on : bool; sw_flag : list bool; sw_loads : list nat }.
(** frame_member.py:317-327 for every member. *)
Definition add_sw_members (s : selfw) : selfw :=
  mkSelfw true (map (fun _ => true) (sw_flag s)) (map (fun p : bool * nat => if fst p then snd p else S (snd p)) (combine (sw_flag s) (sw_loads s))).
(** raami.py:267-273 remove_self_weight, frame_member.py:329-333: the loads stay. *)
Definition remove_self_weight (s : selfw) : selfw := mkSelfw false (map (fun _ => false) (sw_flag s)) (sw_loads s).
(** raami.py:254-265 add_self_weight. *)
Definition add_self_weight (s : selfw) : selfw :=
  if sw_on s then add_sw_members (remove_self_weight s) else add_sw_members s.
