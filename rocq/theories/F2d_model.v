(** Model of the two-dimensional frame program metku/frame2d/frame2d.py: geometry of a member,
    finite element nodes and elements, force envelopes, line loads, generated frames and the profile
    sweep. Coordinates are exact reals. *)
From Verif Require Import Base EC3_model.
Require Import Reals List Bool PeanoNat.
Import ListNotations.
Local Open Scope R_scope.

(** A point of the plane (frame2d.py:1524, a list of two numbers). *)
Definition pt := (R * R)%type.
(** The end coordinates and the flag [reverse] of a member (frame2d.py:1524, 1548). *)
Record mem := mkMem { m_a : pt; m_b : pt; m_rev : bool }.
(** np.linalg.norm of a difference (frame2d.py:2041, 2141). *)
Definition pdist (p q : pt) : R := sqrt ((fst q - fst p) ^ 2 + (snd q - snd p) ^ 2).
(** frame2d.py:2038-2041. *)
Definition mlen (m : mem) : R := pdist (m_a m) (m_b m).
(** frame2d.py:1613-1620; the length is not zero. *)
Definition unitv (m : mem) : pt :=
  ((fst (m_b m) - fst (m_a m)) / mlen m, (snd (m_b m) - snd (m_a m)) / mlen m).
(** frame2d.py:1592-1599. *)
Definition to_global (m : mem) (loc : R) : pt :=
  let Lx := mlen m * loc in (fst (m_a m) + Lx * fst (unitv m), snd (m_a m) + Lx * snd (unitv m)).
(** frame2d.py:1601-1611. *)
Definition perp (m : mem) : pt :=
  if m_rev m then (- snd (unitv m), fst (unitv m)) else (snd (unitv m), - fst (unitv m)).
(** frame2d.py:1703-1718. *)
Definition angle (m : mem) : R :=
  let dx := fst (m_b m) - fst (m_a m) in let dy := snd (m_b m) - snd (m_a m) in
  if Rltb (Rabs dx) (1/1000000) then 1/2 * PI
  else let a := atan (dy / dx) in if Rltb a 0 then PI + a else a.
(** frame2d.py:2023-2036; Python numbers, so that a vertical member takes the except branch. *)
Definition shape (m : mem) (x : R) : R :=
  let Lx := fst (m_b m) - fst (m_a m) in let Ly := snd (m_b m) - snd (m_a m) in
  (if Reqb Lx 0 then 0 else Ly / Lx) * (x - fst (m_a m)) + snd (m_a m).

(** The determinant of line_intersection (frame2d.py:2691). *)
Definition det4 (m : mem) (p q : pt) : R :=
  (fst (m_a m) - fst (m_b m)) * (snd p - snd q) - (snd (m_a m) - snd (m_b m)) * (fst p - fst q).
(** The quotients of line_intersection before rounding (frame2d.py:2694-2699). *)
Definition raw_intersection (m : mem) (p q : pt) : pt :=
  let '(x1, y1) := m_a m in let '(x2, y2) := m_b m in let '(x3, y3) := p in let '(x4, y4) := q in
  (((x1 * y2 - y1 * x2) * (x3 - x4) - (x1 - x2) * (x3 * y4 - y3 * x4)) / det4 m p q,
   ((x1 * y2 - y1 * x2) * (y3 - y4) - (y1 - y2) * (x3 * y4 - y3 * x4)) / det4 m p q).
(** frame2d.py:2676-2701 line_intersection; [None]: Python None for parallel lines. *)
Definition line_intersection (m : mem) (p q : pt) : option pt :=
  if Reqb (det4 m p q) 0 then None
  else Some (roundn 5 (fst (raw_intersection m p q)), roundn 5 (snd (raw_intersection m p q))).
(** frame2d.py:2703-2735 point_intersection; [None]: ZeroDivisionError for a member without length. *)
Definition point_intersection (m : mem) (c : pt) : option bool :=
  let '(x1, y1) := m_a m in let '(x2, y2) := m_b m in let '(x, y) := c in
  if Rltb (1/100000000) (Rabs (x2 - x1)) then
    let t := (x - x1) / (x2 - x1) in
    Some (andb (andb (Rleb 0 t) (Rleb t 1)) (Rltb (Rabs (y1 + t * (y2 - y1) - y)) (1/100000000)))
  else bind (pdiv (y - y1) (y2 - y1)) (fun t =>
    Some (andb (andb (Rleb 0 t) (Rleb t 1)) (Rltb (Rabs (x1 - x)) (1/100000000)))).

(** Equality of coordinate lists (frame2d.py:2156, 2184). *)
Definition peqb (p q : pt) : bool := andb (Reqb (fst p) (fst q)) (Reqb (snd p) (snd q)).
(** Python's stable sort by a key: insertion of one element (frame2d.py:2140-2141). *)
Fixpoint insert_by (key : pt -> R) (p : pt) (l : list pt) : list pt :=
  match l with [] => [p] | q :: l' => if Rleb (key p) (key q) then p :: l else q :: insert_by key p l' end.
(** Python's stable sort by a key (frame2d.py:2140-2141). *)
Definition sort_by (key : pt -> R) (l : list pt) : list pt := fold_right (insert_by key) [] l.
(** Local coordinate of node [k] of [n] elements, rounded to three decimals (frame2d.py:2125-2127). *)
Definition loc (n k : nat) : R := roundn 3 (INR k / INR n).
(** frame2d.py:2070-2140 calc_nodal_coordinates: the added coordinates and the [n]+1 regular ones,
    sorted by the distance from the first end; [None]: division by zero for [n] = 0. *)
Definition nodal_coordinates (m : mem) (added : list pt) (n : nat) : option (list pt) :=
  match n with
  | 0%nat => None
  | _ => Some (sort_by (pdist (m_a m)) (added ++ map (fun k => to_global m (loc n k)) (seq 0 (n + 1))))
  end.
(** frame2d.py:2147-2176 add_node_coord: the list of added coordinates; the list of locations is
    left out. [None]: point_intersection raised. *)
Definition add_node_coord (m : mem) (added : list pt) (c : pt) : option (list pt) :=
  if existsb (peqb c) added then Some added
  else bind (point_intersection m c) (fun b => Some (if b then added ++ [c] else added)).
(** frame2d.py:2967-2973 round_coordinates. *)
Definition round_pt (p : pt) : pt := (roundn 3 (fst p), roundn 3 (snd p)).
(** frame2d.py:238-262 the crossing nodes when a member is added to a frame with one other member:
    the lists of added coordinates of the new and of the old member. *)
Definition connect (new old : mem) (an ao : list pt) : option (list pt * list pt) :=
  match line_intersection new (m_a old) (m_b old) with
  | None => Some (an, ao)
  | Some c => bind (add_node_coord new an c) (fun an => bind (add_node_coord old ao c) (fun ao => Some (an, ao)))
  end.

(* ---------------------------------------------------------------- finite element nodes *)

(** list.index (frame2d.py:2185). *)
Fixpoint find_pt (c : pt) (l : list pt) : option nat :=
  match l with [] => None | q :: l => if peqb c q then Some 0%nat else option_map S (find_pt c l) end.
(** frame2d.py:2183-2192 one coordinate of a member: the nodes of the finite element model and the
    index of the node of this coordinate. *)
Definition add_fe_node (fe : list pt) (c : pt) : list pt * nat :=
  match find_pt c fe with Some i => (fe, i) | None => (fe ++ [c], List.length fe) end.
(** frame2d.py:2183-2192 all coordinates of a member, in order. *)
Fixpoint add_nodes (fe : list pt) (cs : list pt) : list pt * list nat :=
  match cs with
  | [] => (fe, [])
  | c :: cs => let '(fe, i) := add_fe_node fe c in let '(fe, is) := add_nodes fe cs in (fe, i :: is)
  end.
(** The keys of the dictionary [nodes] in insertion order (frame2d.py:2186, 2191). *)
Fixpoint keys (l : list nat) : list nat :=
  match l with [] => [] | i :: l => i :: filter (fun j => negb (Nat.eqb i j)) (keys l) end.
(** frame2d.py:2193-2197 the end nodes n1 and n2 of a member generated for the first time; index 0
    is false in Python. *)
Definition end_nodes (ids : list nat) : option nat * option nat :=
  (match ids with [] => None | i :: _ => Some i end,
   match List.last ids 0%nat with 0%nat => None | i => Some i end).
(** frame2d.py:680-690 Frame2D.generate: the members one after the other, each given by its rounded
    coordinates. *)
Fixpoint gen_nodes (fe : list pt) (ms : list (list pt)) : list pt * list (list nat) :=
  match ms with
  | [] => (fe, [])
  | cs :: ms => let '(fe, is) := add_nodes fe cs in let '(fe, iss) := gen_nodes fe ms in (fe, is :: iss)
  end.

(** The member types generate_elements tells apart (frame2d.py:2208, 2230, 2240, 2312). *)
Inductive mtype := Column | Bar | Beam | Other.
(** End stiffness of an element: np.inf or a spring (frame2d.py:2271, 2285). *)
Inductive stiff := Rigid | Spring (k : R).
(** The element kinds (frame2d.py:2221, 2250, 2269). *)
Inductive ekind := EB | RodE | Semi (s1 s2 : stiff).
(** Consecutive pairs of nodes (frame2d.py:2210-2212). *)
Definition pairs {A} (l : list A) : list (A * A) := combine l (tl l).
(** frame2d.py:2265-2304 the kind of element [i] of a beam with [nn] nodes. *)
Definition beam_kind (nn i : nat) (s1 s2 : stiff) : ekind :=
  if Nat.eqb nn 2 then Semi s1 s2
  else if Nat.eqb i 0 then Semi s1 Rigid
  else if Nat.eqb i (nn - 2) then Semi Rigid s2 else EB.
(** frame2d.py:2199-2340 generate_elements for a section that is not tapered; [None]: IndexError of a
    bar with fewer than two nodes. Releases of hinges are left out. *)
Definition gen_elements (t : mtype) (nodes : list nat) (s1 s2 : stiff) : option (list (ekind * (nat * nat))) :=
  match t with
  | Column | Other => Some (map (fun p => (EB, p)) (pairs nodes))
  | Bar => match nodes with a :: b :: _ => Some [(RodE, (a, b))] | _ => None end
  | Beam => Some (map (fun ip => (beam_kind (List.length nodes) (fst ip) s1 s2, snd ip))
                      (combine (seq 0 (List.length nodes - 1)) (pairs nodes)))
  end.

(* ---------------------------------------------------------------- forces *)

(** End values of one force component of an element (frame2d.py:2404). *)
Definition ends := (R * R)%type.
(** frame2d.py:2378-2385 absmax of the two end values. *)
Definition absmax (e : ends) : R :=
  let lo := Rmin (fst e) (snd e) in let hi := Rmax (fst e) (snd e) in
  if Reqb (Rmax (Rabs lo) (Rabs hi)) (Rabs lo) then lo else hi.
(** frame2d.py:2388-2454 calc_nodal_forces, one component: the stored maximum. *)
Definition max_force (es : list ends) : R :=
  fold_left (fun m e => if Rltb (Rabs m) (Rabs (absmax e)) then absmax e else m) es 0.
(** frame2d.py:2398-2448 calc_nodal_forces, one component: the values stored for the nodes. *)
Definition nodal_forces (es : list ends) : list R :=
  match es with [] => [] | _ => map absmax es ++ [absmax (List.last es (0, 0))] end.
(** frame2d.py:1623-1635 get_absmax_force_value; [None]: IndexError for a member without elements. *)
Definition absmax_force_value (es : list ends) : option R :=
  match es with
  | [] => None
  | e0 :: _ =>
    let F := map snd es ++ [fst e0] in
    let lo := fold_left Rmin F (fst e0) in let hi := fold_left Rmax F (fst e0) in
    Some (if Rltb (Rabs lo) hi then hi else lo)
  end.
(** frame2d.py:2519-2541 assign_forces, one component: values at the sections of the member. *)
Definition section_forces (es : list ends) : list R :=
  match es with [] => [] | _ => map fst es ++ [snd (List.last es (0, 0))] end.
(** frame2d.py:1744-1771 dx and dy for one load case: the displacement of greatest magnitude. *)
Definition max_disp (ds : list R) : R :=
  fold_left (fun m d => if Rltb (Rabs m) (Rabs d) then d else m) ds 0.

(** frame2d.py:3655-3672 LineLoad.add_load: end values on element [i] of [n]; the factor [f] of the
    load is not used. *)
Definition line_values (f v0 v1 : R) (n i : nat) : R * R :=
  let q k := v0 + INR k * ((v1 - v0) / INR n) in (q i, q (S i)).
(** Resultant of the element loads on elements of the given lengths (framefem LineLoad acts with
    the mean of its end values; frame2d.py:3665). *)
Definition line_total (f v0 v1 : R) (ls : list R) : R :=
  Rsum (map (fun il => (fst (line_values f v0 v1 (List.length ls) (fst il)) + snd (line_values f v0 v1 (List.length ls) (fst il))) / 2 * snd il)
            (combine (seq 0 (List.length ls)) ls)).
(** frame2d.py:3600-3606 PointLoad.add_load: the node index the load acts on; [None]: the load is not
    added to the finite element model. *)
Definition point_load_node (fe : list pt) (c : pt) : option nat := find_pt c fe.

(* ---------------------------------------------------------------- generated frames *)

(** frame2d.py:600-624 generate_columns: [k] more columns from the running coordinates. *)
Fixpoint gen_columns (k : nat) (storeys : nat) (h L x y1 y2 : R) : list (pt * pt) :=
  match k with
  | 0%nat => []
  | S k => ((x, y1), (x, y2)) ::
    (if Reqb y2 (INR storeys * h) then gen_columns k storeys h L (x + L) 0 h
     else gen_columns k storeys h L x y2 (y2 + h))
  end.
(** frame2d.py:600-624. *)
Definition columns (storeys bays : nat) (h L : R) : list (pt * pt) := gen_columns ((bays + 1) * storeys) storeys h L 0 0 h.
(** frame2d.py:626-647 generate_beams: [k] more beams from the running coordinates. *)
Fixpoint gen_beams (k : nat) (storeys : nat) (h L x1 x2 y : R) : list (pt * pt) :=
  match k with
  | 0%nat => []
  | S k => ((x1, y), (x2, y)) ::
    (if Reqb y (INR storeys * h) then gen_beams k storeys h L x2 (x2 + L) h
     else gen_beams k storeys h L x1 x2 (y + h))
  end.
(** frame2d.py:626-647. *)
Definition beams (storeys bays : nat) (h L : R) : list (pt * pt) := gen_beams (bays * storeys) storeys h L 0 L h.
(** frame2d.py:164-173 the span L; [None]: ValueError without members. *)
Definition span (ms : list (pt * pt)) : option R :=
  match map (fun m => fst (fst m)) ms ++ map (fun m => fst (snd m)) ms with
  | [] => None
  | x :: xs => Some (fold_left Rmax xs x - fold_left Rmin xs x)
  end.
(** frame2d.py:176-187 the height H; [None]: ValueError without members. *)
Definition height (ms : list (pt * pt)) : option R :=
  match map (fun m => snd (fst m)) ms ++ map (fun m => snd (snd m)) ms with
  | [] => None
  | y :: ys => Some (fold_left Rmax ys y - fold_left Rmin ys y)
  end.

(* ---------------------------------------------------------------- joint stiffness, profiles *)

(** frame2d.py:1991-2021 the setters Sj1 and Sj2. *)
Definition set_Sj (v : R) : R :=
  if Rltb v (1/10000) then 1/10000 else if Rltb (10 ^ 20) v then 10 ^ 20 else v.
(** frame2d.py:2043-2048 alpha_to_Sj for one end. *)
Definition alpha_to_Sj (alpha E I L : R) : R := set_Sj (alpha * E * I * / 10 ^ 12 / L).
(** frame2d.py:2050-2055 Sj_to_alpha for one end. *)
Definition Sj_to_alpha (Sj E I L : R) : R := Sj * L / (E * I * / 10 ^ 12).

(** frame2d.py:2609-2669 optimum_design: the profiles are tried in order; [util p] gives the
    utilisations of all load cases; the profile left set and whether it changed. *)
Fixpoint try_profiles (util : nat -> list R) (cur : nat) (ps : list nat) : nat :=
  match ps with
  | [] => cur
  | p :: ps => if forallb (fun r => Rleb r 1) (util p) then p else try_profiles util p ps
  end.
(** frame2d.py:2609-2674 the profile and the returned flag. *)
Definition optimum_design (util : nat -> list R) (ps : list nat) (cur : nat) : nat * bool :=
  let p := try_profiles util cur ps in (p, negb (Nat.eqb p cur)).
(** frame2d.py:537-552 one sweep over the members: [util] gives the utilisations of member [i] with
    profile [p] for the forces of the last analysis; the flag is the one of the last member. *)
Definition sweep (util : list nat -> nat -> nat -> list R) (ps : list nat) (s : list nat) (flag : bool) : list nat * bool :=
  let rs := map (fun ip => optimum_design (util s (fst ip)) ps (snd ip)) (combine (seq 0 (List.length s)) s) in
  (map fst rs, List.last (map snd rs) flag).
(** frame2d.py:537-552 optimize_members: at most [k] sweeps (10 in the code); also their number. *)
Fixpoint optimize_members (util : list nat -> nat -> nat -> list R) (ps : list nat) (k : nat) (s : list nat) (flag : bool) : list nat * nat :=
  match k with
  | 0%nat => (s, 0%nat)
  | S k => if flag then let '(s', fl) := sweep util ps s flag in
             let '(r, c) := optimize_members util ps k s' fl in (r, S c)
           else (s, 0%nat)
  end.
