(** Model of raami/raami_vierendeel.py (VierendeelTruss) and raami/raami_portal_truss.py (PortalTruss,
    Truss2ColumnJoint): topology, supports, joints, weight, loads and the nodes near the columns. *)
From Verif Require Import Raami_model.
From Verif Require Import Base EC3_model Rhs_model Truss_model.
Require Import Reals String List Bool Arith.
Local Open Scope string_scope.
Local Open Scope list_scope.
Import ListNotations.
Local Open Scope R_scope.

(* ---------------------------------------------------------------- Vierendeel truss *)

(** raami_vierendeel.py:46-93: origin, span, height and number of panels. *)
Record vier := mkV { v_x0 : R; v_y0 : R; v_span : R; v_H : R; v_n : nat }.

(** The result of generate_topology (raami_vierendeel.py:164-181): node coordinates, chord members and braces as
    pairs of positions in the node lists, and the hinges of every brace at its top and bottom end. *)
Record vtruss := mkVT { vtop : list pt; vbot : list pt; vtc : list (nat * nat); vbc : list (nat * nat);
  vbr : list (nat * nat); vhinge : list (bool * bool) }.

(** raami_vierendeel.py:139-156: the nodes of a chord at the level [y]. *)
Definition chord_nodes (v : vier) (y : R) : list pt :=
  along (v_x0 v, y) (v_x0 v + v_span v, y) (linspace (v_n v + 1)).

(** raami_vierendeel.py:167-172: consecutive nodes are joined. *)
Definition consecutive (l : list pt) : list (nat * nat) := map (fun i => (i, i + 1)%nat) (seq 0 (length l - 1)).

(** raami_vierendeel.py:123-181 generate_topology; line 139 divides by the number of panels. Line 178 gives every
    brace its own list without hinges. *)
Definition v_topology (v : vier) : option vtruss :=
  bind (pdiv (v_span v) (INR (v_n v))) (fun _ =>
  let t := chord_nodes v (v_y0 v + v_H v) in
  let b := chord_nodes v (v_y0 v) in
  let br := combine (seq 0 (length t)) (seq 0 (length b)) in
  Some (mkVT t b (consecutive t) (consecutive b) br (map (fun _ => (false, false)) br))).

(** raami_vierendeel.py:183-187 generate_supports: the node held in both directions and the one held vertically. *)
Definition v_supports (t : vtruss) : node * node := (Bot 0, Bot (length (vbot t) - 1)).

(** raami_vierendeel.py:197-208: the members of one chord that meet at position [i], added to [acc] until there
    are two. *)
Fixpoint chord_at (i : nat) (ms : list (nat * nat)) (acc : list nat) (k : nat) : list nat :=
  match ms with
  | [] => acc
  | (a, b) :: r =>
    if (Nat.eqb i a || Nat.eqb i b)%bool then
      if Nat.eqb (length (acc ++ [k])) 2 then acc ++ [k] else chord_at i r (acc ++ [k]) (S k)
    else chord_at i r acc (S k)
  end.

(** raami_vierendeel.py:210-217: the braces that meet at a node. *)
Definition v_braces_at (t : vtruss) (v : node) : list (nat * nat) :=
  filter (fun b => match v with Top i => Nat.eqb i (fst b) | Bot j => Nat.eqb j (snd b) end) (vbr t).

(** A Y joint (raami_vierendeel.py:235): its node, the positions of its chord members in the list of the chord of
    the node, and its braces. *)
Record yjoint := mkY { y_node : node; y_chord : list nat; y_braces : list (nat * nat) }.

(** raami_vierendeel.py:189-256 generate_joints: one Y joint for every node with one brace, none for nodes
    without; with two or more braces the variable of the previous node would be used, which [None] stands for.
    A node of one chord is never on a member of the other, so only its own chord is searched. The angles of
    lines 253-256 are not modelled. *)
Fixpoint v_joint_loop (t : vtruss) (vs : list node) : option (list yjoint) :=
  match vs with
  | [] => Some []
  | v :: r =>
    let ch := match v with Top i => chord_at i (vtc t) [] 0 | Bot i => chord_at i (vbc t) [] 0 end in
    match v_braces_at t v with
    | [] => v_joint_loop t r
    | [b] => bind (v_joint_loop t r) (fun l => Some (mkY v ch [b] :: l))
    | _ => None
    end
  end.
(** raami_vierendeel.py:196, 158-163: the nodes in the order of self.nodes. *)
Definition v_joints (t : vtruss) : option (list yjoint) :=
  v_joint_loop t (map Top (seq 0 (length (vtop t))) ++ map Bot (seq 0 (length (vbot t)))).

(** Length of a member between two points (frame_member.py:229-232). *)
Definition mlen (p q : pt) : R := vlen (vminus q p).
(** Weight of the chord members on the node list [l] (frame_member.py weight: area, density, length;
    raami_vierendeel.py:103-111). *)
Definition chord_weight (rho A : R) (l : list pt) (ms : list (nat * nat)) : R :=
  Rsum (map (fun m => rho * A * mlen (nth (fst m) l (0, 0)) (nth (snd m) l (0, 0))) ms).
(** raami_vierendeel.py:95-121 weight_detailed: top chord, bottom chord and braces. *)
Definition v_weight (rho At Ab Abr : R) (t : vtruss) : R * R * R :=
  (chord_weight rho At (vtop t) (vtc t), chord_weight rho Ab (vbot t) (vbc t),
   Rsum (map (fun m => rho * Abr * mlen (nth (fst m) (vtop t) (0, 0)) (nth (snd m) (vbot t) (0, 0))) (vbr t))).

(* ---------------------------------------------------------------- loads of a frame *)

(** What a load acts on (raami_vierendeel.py:267, 281; raami_portal_truss.py:612): a chord member or a column,
    whose line loads act in the y and in the x direction, or a node. *)
Inductive target := OnTop (k : nat) | OnBot (k : nat) | OnCol (lft : bool) | AtTop (k : nat) | AtBot (k : nat).
(** A load object (frame_loads.py:153-187): name, load id, what it acts on, and its values; the vertical force of a
    point load is kept as [Uni]. The load type is part of the name. *)
Record ld := mkLd { lname : string; lid : nat; on : target; lv : mload }.
(** The load tables of a frame (raami.py:57-72): loads by name, load ids, load cases by id. Every load object is
    created by one generator call and added once, so objects are represented by their values. *)
Record lf := mkF { ls : list (string * ld); ids : list nat; cs : list (nat * list ld) }.
(** raami.py:57-72. *)
Definition no_loads : lf := mkF [] [] [].

(** Membership of a name (raami.py:161, 189). *)
Definition named (n : string) (d : list (string * ld)) : bool := existsb (fun p => String.eqb n (fst p)) d.
(** raami.py:161-162, 189-190: a name in use is extended by the number of loads. *)
Definition rename (l : ld) (f : lf) : ld :=
  if named (lname l) (ls f) then mkLd (append (lname l) (str (length (ls f)))) (lid l) (on l) (lv l) else l.
(** raami.py:148-177 add_pointload, 187-203 add_lineload for a new load object. [None]: KeyError at line 176 or
    203. A new load id is appended by add_loadcase and by the caller. *)
Definition add_ld (l : ld) (f : lf) : option lf :=
  let l := rename l f in
  let d := dset String.eqb (lname l) l (ls f) in
  if existsb (Nat.eqb (lid l)) (ids f) then
    bind (dget Nat.eqb (lid l) (cs f)) (fun c => Some (mkF d (ids f) (dset Nat.eqb (lid l) (c ++ [l]) (cs f))))
  else Some (mkF d (ids f ++ [lid l; lid l]) (dset Nat.eqb (lid l) [l] (cs f))).
(** A sequence of such additions (raami_vierendeel.py:266-267). *)
Fixpoint add_lds (l : list ld) (f : lf) : option lf :=
  match l with [] => Some f | x :: r => bind (add_ld x f) (add_lds r) end.

(** raami_vierendeel.py:259-271, raami_plane_truss.py:1082-1094 generate_uniform_load on a chord of [m] members. *)
Definition uniform_lds (top : bool) (m : nat) (q : R) (i : nat) (lt : string) : list ld :=
  map (fun k => mkLd (append (if top then "TC_" else "BC_") (append lt "_line")) i (if top then OnTop k else OnBot k) (Uni q))
    (seq 0 m).
(** raami_vierendeel.py:273-290 generate_chord_point_load with values [p0] at the ends and [p1] inside, for [m]
    nodes of the chord; lines 281 and 282 raise for an empty list, which is not reachable. *)
Definition point_lds (top : bool) (m : nat) (p0 p1 : R) (i : nat) (lt : string) : list ld :=
  let nm := append (if top then "TC_" else "BC_") (append lt "_point") in
  (if top then [mkLd (append nm "_1") i (AtTop 0) (Uni p0); mkLd (append nm "_1") i (AtTop (m - 1)) (Uni p0)] else []) ++
  map (fun k => mkLd (append nm "_2") i (if top then AtTop k else AtBot k) (Uni p1)) (seq 1 (m - 2)).

(** A call of a load generator of the Vierendeel truss (raami_vierendeel.py:259, 273). *)
Inductive vop := VUni (top : bool) (q : R) (i : nat) (lt : string) | VPoint (top : bool) (p0 p1 : R) (i : nat) (lt : string).
(** raami_vierendeel.py:259-290: the loads a call adds. *)
Definition vop_lds (t : vtruss) (o : vop) : list ld :=
  match o with
  | VUni top q i lt => uniform_lds top (length (if top then vtc t else vbc t)) q i lt
  | VPoint top p0 p1 i lt => point_lds top (length (if top then vtop t else vbot t)) p0 p1 i lt
  end.
(** Successive calls (raami_vierendeel.py:259-290). *)
Fixpoint v_run (t : vtruss) (os : list vop) (f : lf) : option lf :=
  match os with [] => Some f | o :: r => bind (add_lds (vop_lds t o) f) (v_run t r) end.

(* ---------------------------------------------------------------- loads of a portal truss *)

(** A call of a load generator of the portal truss (raami_portal_truss.py:559, 614). The member of a truss load is
    the top or the bottom chord, that of a column load 'left' or anything else. *)
Inductive pop :=
  | PUni (top : bool) (q : R) (i : nat) (lt : string)
  | PPiece (q zones : list R) (i : nat) (lt : string)
  | PCol (lft : bool) (q : R) (i : nat) (lt : string).

(** raami_plane_truss.py:1096-1135 for all members of the top chord, given by their end abscissas, from position
    [k] on; the two kinds of load have different names. *)
Fixpoint piece_lds (q zones : list R) (i : nat) (lt : string) (k : nat) (tops : list (R * R)) : option (list ld) :=
  match tops with
  | [] => Some []
  | (xa, xb) :: r =>
    bind (member_zone_loads q zones xa xb) (fun ms => bind (piece_lds q zones i lt (S k) r) (fun l =>
    Some (map (fun m => mkLd (append "TC_" (append lt (match m with Uni _ => "_line" | Step _ _ _ => "_pw_line" end))) i (OnTop k) m) ms ++ l)))
  end.

(** raami.py:136-138: the loop of add_loadcase over the loads of a case that is also the case of the truss: a load
    whose name is free is stored under it; its id is known by then and the case already holds it. *)
Fixpoint adopt (c : list ld) (d : list (string * ld)) : list (string * ld) :=
  match c with
  | [] => d
  | l :: r => adopt r (if named (lname l) d then d else dset String.eqb (lname l) l d)
  end.

(** raami_portal_truss.py:576-580, 616-620: after the truss has got the loads, its load case is added to the portal
    truss if the id is new there. [None]: KeyError when the truss has no case with the id. *)
Definition take_case (i : nat) (t f : lf) : option lf :=
  if existsb (Nat.eqb i) (ids f) then Some f
  else bind (dget Nat.eqb i (cs t)) (fun c => Some (mkF (adopt c (ls f)) (ids f ++ [i]) (dset Nat.eqb i c (cs f)))).

(** raami_portal_truss.py:559-620: one call; the state is the load tables of the truss and of the portal truss. The
    id of a column load is put in load_ids before the load is added (lines 599-600). That the two frames share the
    case object is not represented: nothing modelled reads a case after it has been taken. *)
Definition p_step (tops : list (R * R)) (nb : nat) (o : pop) (s : lf * lf) : option (lf * lf) :=
  let '(t, f) := s in
  match o with
  | PUni top q i lt =>
    bind (add_lds (uniform_lds top (if top then length tops else nb) q i lt) t) (fun t =>
    bind (take_case i t f) (fun f => Some (t, f)))
  | PPiece q zones i lt =>
    bind (piece_lds q zones i lt 0 tops) (fun l => bind (add_lds l t) (fun t =>
    bind (take_case i t f) (fun f => Some (t, f))))
  | PCol lft q i lt =>
    let f := if existsb (Nat.eqb i) (ids f) then f else mkF (ls f) (ids f ++ [i]) (cs f) in
    bind (add_ld (mkLd (append "COL" (if lft then "_left" else "_right")) i (OnCol lft) (Uni q)) f) (fun f => Some (t, f))
  end.
(** Successive calls (raami_portal_truss.py:559-620). *)
Fixpoint p_run (tops : list (R * R)) (nb : nat) (os : list pop) (s : lf * lf) : option (lf * lf) :=
  match os with [] => Some s | o :: r => bind (p_step tops nb o s) (p_run tops nb r) end.
(** raami_portal_truss.py:377, 444 with raami_plane_truss.py:1350-1356 and raami_portal_truss.py:471-476: the loads added
    to the finite element model by generate_fem, those of the truss and then those of the portal truss. *)
Definition fem_loads (s : lf * lf) : list ld := map snd (ls (fst s)) ++ map snd (ls (snd s)).

(* ---------------------------------------------------------------- geometry of a portal truss *)

(** raami_portal_truss.py:131-133 ridge_height, for the slope in degrees kept by the truss, whose half span is
    half of the span [L] (line 215). *)
Definition ridge_height (L height slope : R) : R := height + (5/10 * L) * tan (rad slope).
(** raami_portal_truss.py:220 with raami_plane_truss.py:183-185: the ridge of the truss moved to the eaves. *)
Definition moved (height : R) (p : pt) : pt := (fst p, snd p + height).

(** raami_portal_truss.py:944 the gap of a joint between chord and column. *)
Definition col_gap : R := 30.
(** frame_member.py:301-315 angle of the chord from [a] to [b]. *)
Definition chord_angle (a b : pt) : R := mangle (fst a) (snd a) (fst b) (snd b).
(** raami_portal_truss.py:353-360, 420-427: the node at the face of a column of depth [hc] with axis through [n]. *)
Definition face_node (lft : bool) (hc : R) (a b n : pt) : pt :=
  (fst n + (if lft then 5/10 * hc else - (5/10) * hc), snd n + 5/10 * hc * Rabs (tan (chord_angle a b))).
(** raami_portal_truss.py:531-553: where update_fem_joint_nodes puts the node of the brace next to the column. *)
Definition brace_node (lft : bool) (hc : R) (a b n : pt) : pt :=
  (fst n + (if lft then 5/10 * hc else - (5/10) * hc) + (if lft then col_gap else - col_gap),
   snd n + 5/10 * hc * Rabs (tan (chord_angle a b)) + col_gap * Rabs (tan (chord_angle a b))).
(** raami_portal_truss.py:271-281: where create_truss_to_column_joints puts the same node; the direction vector of a
    chord of length zero is not defined. *)
Definition new_brace_node (lft : bool) (hc : R) (a b n : pt) : option pt :=
  let D := 5/10 * hc * Rabs (cos (chord_angle a b)) + col_gap in
  bind (pdiv (fst b - fst a) (mlen a b)) (fun ux => bind (pdiv (snd b - snd a) (mlen a b)) (fun uy =>
  Some (if lft then (fst n + D * ux, snd n + D * uy) else (fst n - D * ux, snd n - D * uy)))).
