(** Model of the export of a frame to Abaqus (metku/raami/raami.py:996-1295, metku/raami/exports.py:13-43).
    The file is modelled as the sequence of its data: node lines, element lines, sets with their rows, releases,
    supports; the text around them (headers, formats of numbers) and the files of sections and materials are not.
    Nodes and elements are numbered by their position in the finite element model (the code finds the position of an
    element by list.index); names of members and of sets are numbers. *)
Require Import Reals List Bool PeanoNat. Import ListNotations.
From Verif Require Export Base.
Local Open Scope R_scope.

(** raami.py:1087: data of a node. *)
Record anode := mkAn { an_nid : nat; an_x : R; an_y : R }.
(** raami.py:1095, 1122-1125: data of an element: nid of its ends and its releases. *)
Record aelem := mkAe { ae_n1 : nat; ae_n2 : nat; ae_rel : list nat }.
(** raami.py:1101-1103: a member and the positions of its elements. *)
Record amember := mkAm { am_name : nat; am_els : list nat }.
(** raami.py:1238-1245: types of supports; the last is the base class. *)
Inductive akind := KHinged | KY | KX | KFixed | KGeneral.
(** exports.py:45-82, raami.py:1214-1218: options, elements by position; slave and master of a constraint as node numbers. *)
Record aopts := mkAo { ao_incl : list nat; ao_ecc : list nat; ao_top : list nat; ao_bottom : list nat;
  ao_sets : list (nat * list nat); ao_mpc : list (nat * nat); ao_x : R; ao_n : nat }.
(** Names of the sets in the file (raami.py:1111, 1129, 1142, 1149, 1154, 1159, 1161). *)
Inductive aname := NMember (m : nat) | NTop | NBottom | NSet (s : nat) | NS1 | NS2.
(** A set as written: its name and its rows. *)
Record aset := mkAs { as_name : aname; as_rows : list (list nat) }.

(** raami.py:1086-1087: node lines; number and coordinates in metres in the plane y = 0. *)
Definition node_lines (ns : list anode) : list (nat * (R * R * R)) :=
  map (fun n => ((an_nid n + 1)%nat, (an_x n * (1/1000), 0, an_y n * (1/1000)))) ns.
(** Python enumerate. *)
Definition enumerate {A} (l : list A) : list (nat * A) := combine (seq 0 (length l)) l.
(** raami.py:1093-1095: element lines without eccentricity elements. *)
Definition element_lines (els : list aelem) (ecc : list nat) : list (nat * (nat * nat)) :=
  map (fun p => (fst p + 1, (ae_n1 (snd p) + 1, ae_n2 (snd p) + 1)))%nat
    (filter (fun p => negb (existsb (Nat.eqb (fst p)) ecc)) (enumerate els)).

(** exports.py:23-27, 39-43, raami.py:1220-1224: the rows of a set, from position [i] on; [fuel] bounds the loop. *)
Fixpoint rows_loop (fuel i : nat) (l : list nat) : list (list nat) :=
  match fuel with
  | O => []
  | S fuel => if (i <? length l)%nat then firstn 16 (skipn i l) :: rows_loop fuel (i + 16) l else []
  end.
(** exports.py:13-27 write_elset, 29-43 write_nset. *)
Definition rows16 (l : list nat) : list (list nat) := rows_loop (S (length l)) 0 l.
(** raami.py:1113, 1130, 1139, 1146, 1153: numbers of elements (list.index, one added); [None]: ValueError. *)
Definition numbers (total : nat) (els : list nat) : option (list nat) :=
  if forallb (fun e => e <? total)%nat els then Some (map (fun e => e + 1)%nat els) else None.

(** raami.py:1122-1125: an element joins one of the release sets. *)
Definition add_release (els : list aelem) (r : list nat * list nat) (e : nat) : list nat * list nat :=
  let rel := ae_rel (nth e els (mkAe 0 0 [])) in
  if existsb (Nat.eqb 2) rel then (fst r ++ [e + 1], snd r)%nat
  else if existsb (Nat.eqb 5) rel then (fst r, snd r ++ [e + 1])%nat else r.
(** raami.py:1101-1131: the set of one member and the release sets; [None]: ValueError or IndexError. *)
Definition member_set (els : list aelem) (opt : aopts) (st : list aset * (list nat * list nat)) (m : amember)
  : option (list aset * (list nat * list nat)) :=
  if (0 <? length (ao_incl opt))%nat && existsb (Nat.eqb (am_name m)) (ao_incl opt) then
    match numbers (length els) (am_els m) with
    | None => None
    | Some ids =>
      if (1 <? length (am_els m))%nat then
        Some (fst st ++ [mkAs (NMember (am_name m)) [ids]], fold_left (add_release els) (am_els m) (snd st))
      else match ids with
           | [] => None
           | e1 :: _ => Some (fst st ++ [mkAs (NMember (am_name m)) [[e1]]], snd st)
           end
    end
  else Some st.
(** Python for-loop that may raise. *)
Fixpoint fold_opt {A B} (f : A -> B -> option A) (l : list B) (a : A) : option A :=
  match l with [] => Some a | b :: l => match f a b with Some a => fold_opt f l a | None => None end end.
(** raami.py:1137-1149: the set of gap elements. *)
Definition gap_set (total : nat) (nm : aname) (gaps : list nat) : option (list aset) :=
  match numbers total gaps with
  | None => None
  | Some ids => Some (if (1 <? length ids)%nat then [mkAs nm (rows16 ids)] else [])
  end.
(** raami.py:1060-1062, 1098-1161: the element sets of the part in the order in which they are written; a set given
    in the options without elements raises (els[0], line 1062). *)
Definition part_sets (els : list aelem) (mems : list amember) (opt : aopts) : option (list aset) :=
  match fold_opt (member_set els opt) mems ([], ([], [])) with
  | None => None
  | Some (ms, (s1, s2)) =>
    match gap_set (length els) NTop (ao_top opt), gap_set (length els) NBottom (ao_bottom opt),
      fold_opt (fun acc s => match numbers (length els) (snd s) with
                             | Some (i :: ids) => Some (acc ++ [mkAs (NSet (fst s)) (rows16 (i :: ids))]) | _ => None end) (ao_sets opt) [] with
    | Some t, Some b, Some o => Some (ms ++ t ++ b ++ o ++ [mkAs NS1 (rows16 s1); mkAs NS2 (rows16 s2)])
    | _, _, _ => None
    end
  end.

(** Python list.remove; [None]: ValueError. *)
Fixpoint list_remove (x : nat) (l : list nat) : option (list nat) :=
  match l with [] => None | y :: l => if Nat.eqb y x then Some l else option_map (cons y) (list_remove x l) end.
(** raami.py:1213-1224: nodes held in the plane. *)
Definition plane_nodes (ns : list anode) (mpc : list (nat * nat)) : option (list (list nat)) :=
  option_map rows16 (fold_opt (fun l c => list_remove (fst c) l) mpc (map (fun n => an_nid n + 1)%nat ns)).
(** Insertion by a key. *)
Fixpoint insert_by (key : nat -> R) (i : nat) (l : list nat) : list nat :=
  match l with [] => [i] | j :: l => if Rltb (key j) (key i) then j :: insert_by key i l else i :: j :: l end.
(** numpy.argsort (raami.py:1230). Simplified: equal keys in order of position (numpy leaves their order open). *)
Definition argsort (l : list R) : list nat :=
  fold_right (insert_by (fun i => nth i l 0)) [] (seq 0 (length l)).
(** raami.py:1226-1233: the numbers written for the monitored nodes. *)
Definition monitored (ns : list anode) (opt : aopts) : list nat :=
  firstn (ao_n opt) (argsort (map (fun n => Rabs (an_x n - ao_x opt)) ns)).

(** Supports: type and nid of the node (raami.py:1237-1245). *)
Definition asupport := (akind * nat)%type.
(** Equality of types of supports (isinstance of sibling classes, raami.py:1238-1245). *)
Definition kind_eqb (a b : akind) : bool :=
  match a, b with KHinged, KHinged | KY, KY | KX, KX | KFixed, KFixed | KGeneral, KGeneral => true | _, _ => false end.
(** Codes of boundary conditions (raami.py:1280-1287). *)
Inductive acode := PINNED | ENCASTRE | CODE3 | XSYMM.
(** raami.py:1236-1258, 1276-1288: per type with supports the node numbers and the code, in the order of the dict. *)
Definition support_sets (sup : list asupport) : list (list nat * acode) :=
  flat_map (fun kc => let nids := map snd (filter (fun s => kind_eqb (fst s) (fst kc)) sup) in
      if (0 <? length nids)%nat then [(map (fun n => n + 1)%nat nids, snd kc)] else [])
    [(KFixed, ENCASTRE); (KHinged, PINNED); (KY, CODE3); (KX, XSYMM)].
