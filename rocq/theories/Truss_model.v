(** Model of raami/raami_plane_truss.py: the geometry, topology, supports, chord loads and joint types of
    SlopedTruss. *)
From Verif Require Import Base EC3_model Rhs_model.
Require Import Reals Lra List Bool Arith Lia.
Import ListNotations.
Local Open Scope R_scope.

(** Dimensions of a SlopedTruss after construction (raami_plane_truss.py:88-119, 503-519): the two horizontal
    lengths, the distances of the outermost bottom chord nodes from the ends, and the heights at the ends and
    at the middle. The origin is (0, 0), which is what SlopedTruss passes at line 505. *)
Record sloped := mkSl { s_L1 : R; s_L2 : R; s_dx1 : R; s_dx2 : R; s_H0 : R; s_H1 : R }.

(** raami_plane_truss.py:489-519 with 98-101: the missing height is found from the slope in degrees;
    ValueError when the middle is lower than the ends. *)
Definition sloped_truss (L1 L2 dx1 dx2 h1 h2 slope : R) : option sloped :=
  let dy := L1 * tan (rad slope) in
  let h1' := if Reqb h1 0 then h2 - dy else h1 in
  let h2' := if Reqb h1 0 then h2 else if Reqb h2 0 then h1 + dy else h2 in
  if Rltb h2' h1' then None else Some (mkSl L1 L2 dx1 dx2 h1' h2').

(** raami_plane_truss.py:489-502: the slope in degrees stored by the constructor. *)
Definition sloped_slope (L1 h1 h2 slope : R) : option R :=
  if Reqb h1 0 then Some slope else if Reqb h2 0 then Some slope else
  bind (pdiv (h2 - h1) L1) (fun k => Some (atan k * 180 / PI)).

(** raami_plane_truss.py:504 span. *)
Definition span (s : sloped) : R := s_L1 s + s_L2 s.
(** raami_plane_truss.py:183-185 xmid. *)
Definition xmid (s : sloped) : pt := (/2 * span s, s_H1 s - s_H0 s).
(** raami_plane_truss.py:187-189 xend; both end heights are equal. *)
Definition xend (s : sloped) : pt := (span s, s_H0 s - s_H0 s).
(** raami_plane_truss.py:574, 743, 861 ycoord. *)
Definition ybot (s : sloped) : R := 0 - s_H0 s.

(** np.linspace(0, 1, n) (raami_plane_truss.py:585, 590). *)
Definition linspace (n : nat) : list R :=
  match n with
  | O => []
  | 1%nat => [0]
  | _ => map (fun i => INR i / INR (n - 1)) (seq 0 n)
  end.

(** The points X0 + s (X1 - X0) (raami_plane_truss.py:608, 613). *)
Definition along (p q : pt) (S : list R) : list pt := map (fun s => vadd p (vscale s (vminus q p))) S.

(** Intersection of a line with the vertical through a point (raami_plane_truss.py:639-641). *)
Definition above (l : line) (x : pt) : option pt :=
  bind (intersect l (line_pv x (0, 1))) (fun r => Some (snd r)).

(** A list of such intersections (raami_plane_truss.py:637-644). *)
Fixpoint all_above (l : line) (xs : list pt) : option (list pt) :=
  match xs with
  | [] => Some []
  | x :: r => bind (above l x) (fun p => bind (all_above l r) (fun ps => Some (p :: ps)))
  end.

(** v / norm(v) (raami_plane_truss.py:634, 646); a zero vector gives nan, here [None]. *)
Definition unit_vec (v : pt) : option pt :=
  bind (pdiv (fst v) (vlen v)) (fun a => bind (pdiv (snd v) (vlen v)) (fun b => Some (a, b))).

(** Top chord nodes (raami_plane_truss.py:633-658, 673-696, 784-804): [X0], the points of the first slope above
    the points [a], the points of a line of the second slope through the last of these above the points
    of [b], and [X2]. *)
Definition top_by_lines (X0 X1 X2 : pt) (a b : list pt) : option (list pt) :=
  bind (unit_vec (vminus X1 X0)) (fun v1 =>
  bind (all_above (line_pv X0 v1) a) (fun ta =>
  bind (unit_vec (vminus X2 X1)) (fun v2 =>
  bind (all_above (line_pv (last (X0 :: ta) X0) v2) b) (fun tb =>
  Some (X0 :: ta ++ tb ++ [X2]))))).

(** Top chord nodes by equal division of both slopes (raami_plane_truss.py:661-664, 780-782, 934-935). *)
Definition top_by_division (X0 X1 X2 : pt) (n : nat) : list pt :=
  along X0 X1 (linspace n) ++ along X1 X2 (tl (linspace n)).

(** Midpoints of zip(Xbot[:n], Xbot[1:n+1]) at the height of the chord (raami_plane_truss.py:637-638, 680-681):
    zip stops at the shorter list. *)
Definition mids (a b : list pt) : list pt :=
  map (fun p => (/2 * (fst (fst p) + fst (snd p)), snd (fst p))) (combine a b).

(** The list slice l[a:b] (raami_plane_truss.py:637, 649). *)
Definition slice {A} (a b : nat) (l : list A) : list A := firstn (b - a) (skipn a l).

(** A bottom chord made of two halves that leave out the middle (raami_plane_truss.py:592-617, 895-921). *)
Definition bottom_gap (s : sloped) (up : bool) (S : list R) (Dx : R) : list pt :=
  let y := ybot s in
  let ends := Reqb (s_dx1 s) 0 && negb up in
  let X0 := if ends then (0 + /2 * Dx, y) else (0 + s_dx1 s, y) in
  let X2 := if ends then (0 + span s - /2 * Dx, y) else (0 + span s - s_dx2 s, y) in
  let X1 := (0 + s_L1 s - /2 * Dx, y) in
  let X1' := (fst X1 + Dx, y) in
  let b := along X0 X1 S ++ along X1' X2 S in
  if ends then (0, y) :: b ++ [(0 + span s, y)] else b.

(** Bottom chord nodes of the 'K' topology (raami_plane_truss.py:571-617). *)
Definition K_bottom (s : sloped) (up : bool) (n : nat) : option (list pt) :=
  if Rltb 0 (s_dx1 s) then
    bind (pdiv (s_L1 s - s_dx1 s) (INR n - /2)) (fun Dx => Some (bottom_gap s up (linspace n) Dx))
  else if up then
    bind (pdiv (s_L1 s) (INR n)) (fun Dx => Some (bottom_gap s up (linspace (n + 1)) Dx))
  else
    bind (pdiv (s_L1 s) (INR n - /2)) (fun Dx => Some (bottom_gap s up (linspace n) Dx)).

(** Top chord nodes of the 'K' topology (raami_plane_truss.py:619-696). *)
Definition K_top (s : sloped) (up : bool) (n : nat) (Xbot : list pt) : option (list pt) :=
  let X0 := (0, 0) in let X2 := (0 + span s, 0) in
  if Reqb (s_dx1 s) 0 then
    if up then
      top_by_lines X0 (xmid s) X2 (mids (slice 0 (n + 1) Xbot) (slice 1 (n + 2) Xbot))
                                  (mids (skipn (n + 1) Xbot) (skipn (n + 2) Xbot))
    else Some (top_by_division X0 (xmid s) X2 (n + 1))
  else
    top_by_lines X0 (xmid s) X2 (mids (slice 0 n Xbot) (slice 1 (n + 1) Xbot))
                                (mids (skipn n Xbot) (skipn (n + 1) Xbot)).

(** Bottom chord nodes of the 'N' topology (raami_plane_truss.py:740-761). *)
Definition N_bottom (s : sloped) (n : nat) : list pt :=
  let y := ybot s in
  let S := if Rltb 0 (s_dx1 s) then linspace n else linspace (n + 1) in
  let X0 := (0 + s_dx1 s, y) in let X1 := (0 + /2 * span s, y) in
  let X2 := (0 + span s - s_dx2 s, y) in
  along X0 X1 S ++ along X1 X2 (tl S).

(** Top chord nodes of the 'N' topology (raami_plane_truss.py:764-804). *)
Definition N_top (s : sloped) (n : nat) (Xbot : list pt) : option (list pt) :=
  if Reqb (s_dx1 s) 0 then Some (top_by_division (0, 0) (xmid s) (xend s) (n + 1))
  else top_by_lines (0, 0) (xmid s) (xend s) (slice 0 n Xbot) (skipn n Xbot).

(** Bottom chord nodes of the 'KT' topology (raami_plane_truss.py:858-921). *)
Definition KT_bottom (s : sloped) (up : bool) (n : nat) : option (list pt) :=
  if Rltb 0 (s_dx1 s) then
    bind (pdiv (s_L1 s - s_dx1 s) (INR n - /2)) (fun Dx => Some (bottom_gap s up (linspace n) Dx))
  else if up then
    bind (pdiv (2 * s_L1 s) (INR (2 * n + 1))) (fun Dx => Some (bottom_gap s up (linspace (n + 1)) Dx))
  else
    bind (pdiv (s_L1 s) (INR n)) (fun Dx => Some (bottom_gap s up (linspace n) Dx)).

(** Every point followed by its right neighbour at half a division (raami_plane_truss.py:943-957, 962-973). *)
Definition with_half (Dx : R) (l : list pt) : list pt :=
  flat_map (fun p => [p; (fst p + /2 * Dx, snd p)]) l.

(** Top chord nodes of the 'KT' topology (raami_plane_truss.py:923-979); Xbot[-1] raises IndexError for an empty
    bottom chord. *)
Definition KT_top (s : sloped) (up : bool) (n : nat) (Xbot : list pt) : option (list pt) :=
  if Reqb (s_dx1 s) 0 then
    Some (top_by_division (0, 0) (xmid s) (xend s) (if up then 2 * n + 2 else 2 * n + 1))
  else
    bind (pdiv (s_L1 s - s_dx1 s) (INR n - /2)) (fun Dx =>
    match Xbot with
    | [] => None
    | p :: _ =>
      top_by_lines (0, 0) (xmid s) (xend s) (with_half Dx (slice 0 n Xbot))
        (with_half Dx (removelast (skipn n Xbot)) ++ [last Xbot p])
    end).

(* ---------------------------------------------------------------- members *)

(** A brace joins the top chord node with the first index to the bottom chord node with the second one. The order
    of the two end nodes in the member is not modelled. *)
Definition brace : Type := (nat * nat)%type.

(** zip of two lists of node indices (raami_plane_truss.py:827-853). *)
Definition zip_idx (a b : list nat) : list brace := combine a b.

(** Every second element, l[::2] (raami_plane_truss.py:1004). *)
Fixpoint evens {A} (l : list A) : list A :=
  match l with [] => [] | [x] => [x] | x :: _ :: r => x :: evens r end.

(** Braces of the 'K' topology (raami_plane_truss.py:713-735); [nt] and [nb] are len(Xtop) and len(Xbot). *)
Definition K_braces (dx1 : R) (up edge : bool) (n nt nb : nat) : list brace :=
  if Reqb dx1 0 then
    (if up then flat_map (fun i => [(i, i - 1); (i, i)])%nat (seq 1 (2 * n + 1))
     else flat_map (fun i => [(i - 1, i); (i, i)])%nat (seq 1 (2 * n))) ++
    (if edge then [(0, 0); (nt - 1, nb - 1)]%nat else [])
  else flat_map (fun i => [(i, i); (i + 1, i)])%nat (seq 0 (2 * n)).

(** Braces of the 'N' topology (raami_plane_truss.py:821-853). *)
Definition N_braces (dx1 : R) (up edge : bool) (n nt nb : nat) : list brace :=
  let T := seq 0 nt in let B := seq 0 nb in
  if Reqb dx1 0 then
    (if edge then zip_idx T B else zip_idx (removelast (tl T)) (removelast (tl B))) ++
    (if up then zip_idx (slice 1 (n + 1) T) (slice 0 n B) ++ zip_idx (removelast (skipn n T)) (skipn (n + 1) B)
     else zip_idx (slice 0 n T) (slice 1 (n + 1) B) ++ zip_idx (skipn (n + 1) T) (removelast (skipn n B)))
  else
    zip_idx (removelast (tl T)) B ++
    zip_idx (slice 0 n T) (slice 0 n B) ++ zip_idx (skipn (n + 1) T) (skipn (n - 1) B).

(** Braces of the 'KT' topology (raami_plane_truss.py:998-1056). *)
Definition KT_braces (dx1 : R) (up edge : bool) (nt nb : nat) : list brace :=
  let T := seq 0 nt in let B := seq 0 nb in
  if Reqb dx1 0 then
    if up then
      (if edge then zip_idx (evens T) B else zip_idx (evens (skipn 2 T)) (removelast (tl B))) ++
      [(1, 0)]%nat ++
      flat_map (fun i => [(2 * i - 1, i); (2 * i + 1, i)])%nat (seq 1 (nb - 2)) ++
      [(nt - 2, nb - 1)]%nat
    else
      (if edge then [(0, 0); (nt - 1, nb - 1)]%nat else []) ++
      flat_map (fun i => [(2 * i - 2, i); (2 * i - 1, i); (2 * i, i)])%nat (seq 1 (nb - 2))
  else flat_map (fun i => [(2 * i, i); (2 * i + 1, i); (2 * i + 2, i)])%nat (seq 0 nb).

(** The generated truss (raami_plane_truss.py:698-735, 1064-1065): nodes of both chords and braces; the chord
    members join consecutive nodes of a chord and are not listed. *)
Record truss := mkT { top_nodes : list pt; bottom_nodes : list pt; braces : list brace }.

(** The topologies accepted by generate_topology (raami_plane_truss.py:570, 737, 855); any other name
    raises a NameError at line 1064 and is not modelled. *)
Inductive topology := TK | TN | TKT.

(** Indexing a node beyond the end of its chord raises IndexError (raami_plane_truss.py:720-734, 1015-1056). *)
Definition in_range (nt nb : nat) (b : brace) : bool := (fst b <? nt)%nat && (snd b <? nb)%nat.

(** raami_plane_truss.py:554-1065 generate_topology. Profiles and element counts are not modelled. *)
Definition generate_topology (s : sloped) (tp : topology) (n : nat) (up edge : bool) : option truss :=
  bind (match tp with
        | TK => K_bottom s up n
        | TN => Some (N_bottom s n)
        | TKT => KT_bottom s up n
        end) (fun Xbot =>
  bind (match tp with
        | TK => K_top s up n Xbot
        | TN => N_top s n Xbot
        | TKT => KT_top s up n Xbot
        end) (fun Xtop =>
  let nt := length Xtop in let nb := length Xbot in
  let bs := match tp with
            | TK => K_braces (s_dx1 s) up edge n nt nb
            | TN => N_braces (s_dx1 s) up edge n nt nb
            | TKT => KT_braces (s_dx1 s) up edge nt nb
            end in
  if forallb (in_range nt nb) bs then Some (mkT Xtop Xbot bs) else None)).

(* ---------------------------------------------------------------- supports *)

(** A node of the truss by chord and index (raami_plane_truss.py:1064-1065). *)
Inductive node := Top (i : nat) | Bot (i : nat).

(** raami_plane_truss.py:1066-1080 generate_supports: the node held in both directions and the node held
    vertically. *)
Definition generate_supports (s : sloped) (t : truss) : node * node :=
  ((if Rltb 0 (s_dx1 s) then Top 0 else Bot 0),
   (if Rltb 0 (s_dx2 s) then Top (length (top_nodes t) - 1) else Bot (length (bottom_nodes t) - 1))).

(* ---------------------------------------------------------------- loads *)

(** A load on a chord member (raami_plane_truss.py:1091, 1127): uniform over the member, or with a step at the
    given fraction of its length. *)
Inductive mload := Uni (q : R) | Step (q1 q2 xdiv : R).

(** raami_plane_truss.py:1082-1094 generate_uniform_load on one chord of [m] members: the loads of each. *)
Definition generate_uniform_load (q : R) (m : nat) : list (list mload) := map (fun _ => [Uni q]) (seq 0 m).

(** raami_plane_truss.py:1114-1135: the loop over consecutive zone boundaries for a member from [xa] to [xb];
    IndexError when [q] is too short. *)
Fixpoint zone_loop (q : list R) (xa xb : R) (i : nat) (zs : list (R * R)) : option (list mload) :=
  match zs with
  | [] => Some []
  | (x1, x2) :: r =>
    bind (zone_loop q xa xb (i + 1) r) (fun rest =>
    if Rltb xa x1 && Rltb x1 xb then
      bind (nth_error q i) (fun a => bind (nth_error q (i + 1)) (fun b =>
      bind (pdiv (x1 - xa) (xb - xa)) (fun d => Some (Step a b d :: rest))))
    else if Rleb x1 xa && Rltb x2 xb then
      bind (nth_error q (i + 1)) (fun a => bind (nth_error q (i + 2)) (fun b =>
      bind (pdiv (x2 - xa) (xb - xa)) (fun d => Some (Step a b d :: rest))))
    else if Rleb x1 xa && Rleb xb x2 then
      bind (nth_error q (i + 1)) (fun a => Some (Uni a :: rest))
    else Some rest)
  end.

(** raami_plane_truss.py:1096-1135 generate_piecewise_uniform_load for one top chord member from [xa] to [xb]:
    the loads it receives. IndexError for an empty list of boundaries or values. *)
Definition member_zone_loads (q zones : list R) (xa xb : R) : option (list mload) :=
  match zones, q with
  | z0 :: _, q0 :: _ =>
    if Rleb xb z0 then Some [Uni q0]
    else if Rltb (last zones z0) xa then Some [Uni (last q q0)]
    else zone_loop q xa xb 0 (combine (removelast zones) (tl zones))
  | _, _ => None
  end.

(* ---------------------------------------------------------------- joints *)

(** Joint classes made by generate_joints (raami_plane_truss.py:1179, 1188, 1196). *)
Inductive jtype := JKT | JK | JY.

(** Braces that meet at a node (raami_plane_truss.py:1146-1149, 1189-1192). *)
Definition braces_at (bs : list brace) (v : node) : list brace :=
  filter (fun b => match v with Top i => Nat.eqb (fst b) i | Bot j => Nat.eqb (snd b) j end) bs.

(** All nodes in the order of self.nodes (raami_plane_truss.py:698-702, 1144). *)
Definition all_nodes (t : truss) : list node :=
  map Top (seq 0 (length (top_nodes t))) ++ map Bot (seq 0 (length (bottom_nodes t))).

(** raami_plane_truss.py:1173-1201: the joint variable after the branches on the number of braces; with more than
    three braces it keeps its former value ([old = None]: not yet assigned). The inner value is the class of the
    joint and the node it was made for, or [None] for no joint. *)
Definition next_joint (v : node) (nbraces : nat) (old : option (option (jtype * node))) : option (option (jtype * node)) :=
  match nbraces with
  | 3 => Some (Some (JKT, v))
  | 2 => Some (Some (JK, v))
  | 1 => Some (Some (JY, v))
  | 0 => Some None
  | _ => old
  end%nat.

(** raami_plane_truss.py:1175-1214: the loop over the nodes; the joint attached to the members at every node. An
    unassigned variable raises. *)
Fixpoint joint_loop (bs : list brace) (vs : list node) (old : option (option (jtype * node)))
  : option (list (node * option (jtype * node))) :=
  match vs with
  | [] => Some []
  | v :: r =>
    let cur := next_joint v (length (braces_at bs v)) old in
    bind cur (fun j => bind (joint_loop bs r cur) (fun l => Some ((v, j) :: l)))
  end.

(** raami_plane_truss.py:1137-1214 generate_joints: node, and joint attached to its members. The joint geometry
    is not modelled. *)
Definition generate_joints (t : truss) : option (list (node * option (jtype * node))) :=
  joint_loop (braces t) (all_nodes t) None.

(** raami_plane_truss.py:1183-1184, 1192-1193: the last top chord node at x = L1 with two or three braces gets the
    ridge joint. *)
Definition ridge_node (s : sloped) (t : truss) : option nat :=
  fold_left (fun r i =>
    let c := length (braces_at (braces t) (Top i)) in
    if ((c =? 2) || (c =? 3))%nat && Reqb (fst (nth i (top_nodes t) (0, 0))) (s_L1 s) then Some i else r)
    (seq 0 (length (top_nodes t))) None.
