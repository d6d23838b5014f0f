(** Model of the symmetry detection of frames (metku/raami/raami.py), of the sections of symmetry
    pairs and multi-span members and of the profile search of groups and multi-span members
    (metku/raami/frame_member.py), and of moving nodes (metku/raami/frame_node.py). *)
From Verif Require Import Base EC3_model.
Require Import Reals List Bool PeanoNat.
Import ListNotations.
Local Open Scope R_scope.

(* ---------------------------------------------------------------- nodes *)

(** A frame node by its x and y coordinate (frame_node.py:15-40). *)
Definition spt := (R * R)%type.
(** Assignment to one entry of a list of attributes (raami.py:820-821, 857-858). *)
Fixpoint put {A} (k : nat) (v : A) (l : list A) : list A :=
  match l, k with
  | [], _ => []
  | _ :: t, 0%nat => v :: t
  | h :: t, S k => h :: put k v t
  end.
(** raami.py:819, the test on two nodes for the axis x = s. *)
Definition near (s : R) (a b : spt) : bool :=
  Rltb (Rabs (snd b - snd a)) (1 / 1000000) &&
  Rltb (Rabs (Rabs (fst b - s) - Rabs (fst a - s))) (1 / 1000000).
(** raami.py:818-822: the first of the nodes [js] passing the test. *)
Fixpoint first_near (s : R) (ns : list spt) (a : spt) (js : list nat) : option nat :=
  match js with
  | [] => None
  | j :: js => if near s a (nth j ns (0, 0)) then Some j else first_near s ns a js
  end.
(** raami.py:815-822, the body of the loop for node [i]; [sy]: the attributes symmetry_node. *)
Definition pair_step (s : R) (ns : list spt) (sy : list (option nat)) (i : nat) : list (option nat) :=
  match nth i sy None with
  | Some _ => sy
  | None =>
    match first_near s ns (nth i ns (0, 0)) (seq (S i) (length ns - S i)) with
    | None => sy
    | Some j => put j (Some i) (put i (Some j) sy)
    end
  end.
(** raami.py:815-822: all nodes but the last one. *)
Definition pair_nodes (s : R) (ns : list spt) (sy : list (option nat)) : list (option nat) :=
  fold_left (pair_step s ns) (seq 0 (length ns - 1)) sy.
(** raami.py:777-781 xrange; [None]: ValueError for a frame without nodes. *)
Definition xrange (ns : list spt) : option (R * R) :=
  match map fst ns with
  | [] => None
  | x :: xs => Some (fold_left Rmin xs x, fold_left Rmax xs x)
  end.
(** raami.py:809-811 the position of the axis. *)
Definition axis_at (v : option R) (ns : list spt) : option R :=
  match v with Some s => Some s | None => option_map (fun r : R * R => 1 / 2 * (fst r + snd r)) (xrange ns) end.
(** raami.py:808-822 the symmetry nodes after symmetry('y', v). *)
Definition symmetry_nodes (v : option R) (ns : list spt) (sy : list (option nat)) : option (list (option nat)) :=
  option_map (fun s => pair_nodes s ns sy) (axis_at v ns).

(* ---------------------------------------------------------------- members *)

(** Membership of a key in a list of keys (raami.py:834, 855). *)
Definition isin (k : nat) (l : list nat) : bool := existsb (Nat.eqb k) l.
(** raami.py:847-851: the node a node should be mirrored to. *)
Definition image (sy : list (option nat)) (a : nat) : nat :=
  match nth a sy None with Some b => b | None => a end.
(** raami.py:856: all the mirrored nodes of one member are nodes of another one. *)
Definition matches (sy : list (option nat)) (a b : list nat) : bool :=
  forallb (fun x => isin x b) (map (image sy) a).
(** raami.py:855-859: member [q] tried as the mate of member [k]; the state holds the keys
    visited and the attributes symmetry_pair. *)
Definition try_mate (sy : list (option nat)) (ms : list (list nat)) (k : nat) (st : list nat * list (option nat)) (q : nat) : list nat * list (option nat) :=
  if isin q (fst st) then st
  else if matches sy (nth k ms []) (nth q ms [])
    then (fst st ++ [q], put q (Some k) (put k (Some q) (snd st)))
    else st.
(** raami.py:833-859, the body of the loop for member [k] with at least two nodes. *)
Definition mate_step (sy : list (option nat)) (ms : list (list nat)) (st : list nat * list (option nat)) (k : nat) : list nat * list (option nat) :=
  if isin k (fst st) then st
  else
    let st := (fst st ++ [k], snd st) in
    match nth (nth 0 (nth k ms []) 0%nat) sy None, nth (nth 1 (nth k ms []) 0%nat) sy None with
    | None, None => st
    | _, _ => fold_left (try_mate sy ms k) (seq 0 (length ms)) st
    end.
(** raami.py:831-859: the attributes symmetry_pair after the call, the members in the order of
    the dictionary given by their nodes. *)
Definition pair_members (sy : list (option nat)) (ms : list (list nat)) (pr : list (option nat)) : list (option nat) :=
  snd (fold_left (mate_step sy ms) (seq 0 (length ms)) ([], pr)).

(* ---------------------------------------------------------------- sections of pairs *)

(** Kinds of members (frame_member.py:88, 838): one span or several. *)
Inductive mkind := Single | Multi.
(** The cross_section setters (frame_member.py:188-201 and 927-935); [pr]: symmetry pairs, the
    profiles are numbered. A pair of several spans has no attribute member: [None]. *)
Definition set_profile (kd : nat -> mkind) (pr : nat -> option nat) (sec : nat -> nat) (k v : nat) : option (nat -> nat) :=
  match kd k, pr k with
  | Multi, _ | _, None => Some (fun m => if Nat.eqb m k then v else sec m)
  | Single, Some q =>
    match kd q with
    | Single => Some (fun m => if (Nat.eqb m k || Nat.eqb m q)%bool then v else sec m)
    | Multi => None
    end
  end.
(** A sequence of assignments (frame_member.py:188-201). *)
Fixpoint set_profiles (kd : nat -> mkind) (pr : nat -> option nat) (sec : nat -> nat) (l : list (nat * nat)) : option (nat -> nat) :=
  match l with
  | [] => Some sec
  | (k, v) :: l => bind (set_profile kd pr sec k v) (fun sec => set_profiles kd pr sec l)
  end.
(** raami.py:436-445: the members outside groups in one sweep of optimize_members; [best k]: the
    profile the search for member [k] ends with. Members explored are skipped. *)
Fixpoint pair_sweep (kd : nat -> mkind) (pr : nat -> option nat) (best : nat -> nat) (expl : list nat) (sec : nat -> nat) (ks : list nat) : option (nat -> nat) :=
  match ks with
  | [] => Some sec
  | k :: ks =>
    if isin k expl then pair_sweep kd pr best expl sec ks
    else bind (set_profile kd pr sec k (best k)) (fun sec =>
      pair_sweep kd pr best (match pr k with None => expl ++ [k] | Some q => expl ++ [k; q] end) sec ks)
  end.

(* ---------------------------------------------------------------- several spans *)

(** Distance of two points (frame_member.py:232, 984). *)
Definition sdist (a b : spt) : R := sqrt ((fst b - fst a) * (fst b - fst a) + (snd b - snd a) * (snd b - snd a)).
(** frame_member.py:981-984 length of a member of several spans: between the end nodes; [None]:
    IndexError without nodes. *)
Definition span_length (ns : list spt) : option R :=
  match ns with [] => None | a :: _ => Some (sdist a (last ns a)) end.
(** frame_member.py:986-991 weight. *)
Definition span_weight (A rho : R) (ns : list spt) : option R :=
  option_map (fun L => A * L * rho) (span_length ns).
(** frame_member.py:993-996 and 1010-1017: direction of the first span, point at [loc] times the
    length of the member; the first span has a length; [None]: IndexError with less than two nodes. *)
Definition span_to_global (ns : list spt) (loc : R) : option spt :=
  match ns with
  | a :: b :: _ =>
    bind (span_length ns) (fun L =>
      Some (fst a + L * loc * ((fst b - fst a) / sdist a b), snd a + L * loc * ((snd b - snd a) / sdist a b)))
  | _ => None
  end.
(** frame_member.py:1019-1033 global_to_local of one point. *)
Definition span_to_local (ns : list spt) (x : spt) : option R :=
  match ns with [] => None | a :: _ => bind (span_length ns) (fun L => pdiv (sdist a x) L) end.
(** Node [k] of a span divided into [n] elements (frame_member.py:340-354). *)
Definition on_span (a b : spt) (n k : nat) : spt :=
  (fst a + INR k / INR n * (fst b - fst a), snd a + INR k / INR n * (snd b - snd a)).
(** frame_member.py:1044-1050: the nodes of all spans, the last node of a span left out except
    for the last span; [nel]: the elements per span, zipped with the spans (1285). *)
Fixpoint span_nodes (ns : list spt) (nel : list nat) : list spt :=
  match ns, nel with
  | a :: ((b :: _) as t), n :: nel =>
    match span_nodes t nel with
    | [] => map (on_span a b n) (seq 0 (S n))
    | l => map (on_span a b n) (seq 0 n) ++ l
    end
  | _, _ => []
  end.

(* ---------------------------------------------------------------- groups *)

(** frame_member.py:1456-1467 and 1320-1331: the utilization of a group or of a member of several
    spans in one load case, from those of its members, and the flag resistance_check. *)
Definition worst (us : list R) : R := fold_left Rmax us 0.
(** frame_member.py:1462-1465. *)
Definition checked (us : list R) : bool := negb (Rltb 1 (worst us)).
(** What the search needs to know of a profile (frame_member.py:1498-1513): width, class,
    slendernesses of each member (of each span of a member of several spans). *)
Record gprof := mkGprof { gp_b : R; gp_class : nat; gp_slend : list (list R); gp_util : nat -> list R }.
(** frame_member.py:1504-1513: the loop over the members; [continue] only ends the inner
    iteration, so that nothing remains of it. *)
Fixpoint slender_loop (lim : R) (sl : list (list R)) (go : bool) : bool :=
  match sl with
  | [] => go
  | ls :: sl => if existsb (fun x => Rltb lim x) ls then slender_loop lim sl go else slender_loop lim sl go
  end.
(** frame_member.py:1487-1520: the group's profile after the search, by its position in the
    list ([cur] before); [ut]: the utilizations stored by load case. *)
Fixpoint group_search (bmin bmax lim maxu : R) (cls : nat) (lids : list nat) (ut : list (nat * R)) (cur i : nat) (ps : list gprof) : nat * list (nat * R) :=
  match ps with
  | [] => (cur, ut)
  | p :: ps =>
    if Rltb (gp_b p) bmin || Rltb bmax (gp_b p) then group_search bmin bmax lim maxu cls lids ut i (S i) ps
    else if (cls <? gp_class p)%nat then group_search bmin bmax lim maxu cls lids ut i (S i) ps
    else if negb (slender_loop lim (gp_slend p) true) then group_search bmin bmax lim maxu cls lids ut i (S i) ps
    else
      let ut := fold_left (fun d l => filter (fun e : nat * R => negb (Nat.eqb (fst e) l)) d ++ [(l, worst (gp_util p l))]) lids ut in
      if forallb (fun e : nat * R => Rleb (snd e) maxu) ut then (i, ut)
      else group_search bmin bmax lim maxu cls lids ut i (S i) ps
  end.
(** frame_member.py:1345-1363: the same search of a member of several spans: no limits of width
    and slenderness, and the limit is allowable_utilization ([allow], 1 unless changed), whatever the
    argument max_utility ([maxu]). *)
Fixpoint span_search (allow maxu : R) (cls : nat) (lids : list nat) (ut : list (nat * R)) (cur i : nat) (ps : list gprof) : nat * list (nat * R) :=
  match ps with
  | [] => (cur, ut)
  | p :: ps =>
    if (cls <? gp_class p)%nat then span_search allow maxu cls lids ut i (S i) ps
    else
      let ut := fold_left (fun d l => filter (fun e : nat * R => negb (Nat.eqb (fst e) l)) d ++ [(l, worst (gp_util p l))]) lids ut in
      if forallb (fun e : nat * R => Rleb (snd e) allow) ut then (i, ut)
      else span_search allow maxu cls lids ut i (S i) ps
  end.
(** frame_member.py:1291-1296 and 1446-1451 is_section, for area and second moment. *)
Definition is_section (A1 I1 A2 I2 : R) : bool :=
  Rltb ((A1 - A2) * (A1 - A2) + (I1 - I2) * (I1 - I2)) (1 / 1000000).

(* ---------------------------------------------------------------- moving nodes *)

(** The array holding the coordinates of a node (frame_node.py:32-36): of integers or of numbers. *)
Inductive carr := Ints (x y : Z) | Floats (x y : R).
(** Coordinates read from the array (frame_node.py:48-51, 66-69). *)
Definition cx (c : carr) : R := match c with Ints x _ => IZR x | Floats x _ => x end.
(** frame_node.py:66-69. *)
Definition cy (c : carr) : R := match c with Ints _ y => IZR y | Floats _ y => y end.
(** Truncation towards zero by numpy when a number is stored in an array of integers
    (frame_node.py:56). *)
Definition toint (v : R) : Z := if Rleb 0 v then floorZ v else (- floorZ (- v))%Z.
(** frame_node.py:56 coords[0] = val. *)
Definition setx (v : R) (c : carr) : carr := match c with Ints _ y => Ints (toint v) y | Floats _ y => Floats v y end.
(** frame_node.py:74 coords[1] = val. *)
Definition sety (v : R) (c : carr) : carr := match c with Ints x _ => Ints x (toint v) | Floats x _ => Floats x v end.
(** A member between two nodes as far as moving nodes is concerned (frame_member.py:103-170): its end
    nodes, the number of elements, the stored coordinates of its nodes and the length of the steel
    member. *)
Record nmem := mkNmem { nm_a : nat; nm_b : nat; nm_n : nat; nm_pts : list spt; nm_len : R }.
(** Nodes (arrays of coordinates) and members (frame_node.py:36-40). *)
Record nframe := mkNframe { nf_nodes : list carr; nf_fe : list (option spt); nf_mem : list nmem }.
(** Coordinates of node [i] (frame_node.py:36). *)
Definition at_node (f : nframe) (i : nat) : spt :=
  let c := nth i (nf_nodes f) (Floats 0 0) in (cx c, cy c).
(** frame_member.py:335-354 and frame_node.py:63-64: new coordinates and length of one member. *)
Definition refresh (f : nframe) (m : nmem) : nmem :=
  let a := at_node f (nm_a m) in let b := at_node f (nm_b m) in
  mkNmem (nm_a m) (nm_b m) (nm_n m) (map (on_span a b (nm_n m)) (seq 0 (S (nm_n m)))) (sdist a b).
(** frame_node.py:53-64 the setter of x for node [i] (and 71-82, with [up] = false, for y): the
    array, the node of the finite element model if there is one, and the (steel) members at the node. *)
Definition move (up : bool) (i : nat) (v : R) (f : nframe) : nframe :=
  let ns := put i ((if up then setx v else sety v) (nth i (nf_nodes f) (Floats 0 0))) (nf_nodes f) in
  let fe := match nth i (nf_fe f) None with
            | None => nf_fe f
            | Some p => put i (Some (if up then (v, snd p) else (fst p, v))) (nf_fe f)
            end in
  let f := mkNframe ns fe (nf_mem f) in
  mkNframe ns fe (map (fun m => if (Nat.eqb (nm_a m) i || Nat.eqb (nm_b m) i)%bool then refresh f m else m) (nf_mem f)).
