(** Model of the way from the loads of a frame to the load cases that are analysed: Raami.generate_fem and
    Raami.structural_analysis (metku/raami/raami.py) with FrameFEM.add_loadcase and the load columns of
    FrameFEM.linear_statics (metku/framefem/framefem.py). The frame is that of Raami_model. *)
From Verif Require Export Raami_model.

(** The finite element model as far as loads are concerned (raami.py:303-309): the load cases in insertion order
    and the loads. Simplified: a load is the load object it was made from, as it was at that time (frame_loads.py:
    253-255, 300-317), not its nodal or element values. *)
Record femd := mkFemd { fe_cases : list nat; fe_loads : list lobj }.
(** framefem.py:287-300 add_loadcase for a load id that is not there yet (raami.py:307-309). *)
Definition fem_case (i : nat) (cs : list nat) : list nat := if existsb (Nat.eqb i) cs then cs else cs ++ [i].
(** raami.py:303-309: one step of the loop over the loads of the frame. *)
Definition fem_load (m : femd) (l : lobj) : femd := mkFemd (fem_case (o_lid l) (fe_cases m)) (fe_loads m ++ [l]).
(** raami.py:276-309 generate_fem, 314-320 clear_fem: an empty model, then the loads in the order of the dictionary.
    Simplified: nodes, members and supports are not part of this model. *)
Definition generate_fem (f : frame) : femd := fold_left fem_load (applied f) (mkFemd [] []).
(** framefem.py:576-578: the loads that make up the column of a load case; [None]: KeyError. *)
Definition column (m : femd) (lc : nat) : option (nat * list lobj) :=
  if existsb (Nat.eqb lc) (fe_cases m) then Some (lc, filter (fun l => Nat.eqb (o_lid l) lc) (fe_loads m)) else None.
(** framefem.py:576-578: the columns in the given order. *)
Fixpoint columns (m : femd) (lcs : list nat) : option (list (nat * list lobj)) :=
  match lcs with
  | [] => Some []
  | lc :: lcs => bind (column m lc) (fun c => bind (columns m lcs) (fun cs => Some (c :: cs)))
  end.
(** framefem.py:540-600 linear_statics up to the choice of the supports; [None]: KeyError, or IndexError of line 596
    for no load case. Simplified: the solution of the equations is not part of this model; the support method is
    'REM' (with 'ZERO' line 650 reads an attribute that is not set). *)
Definition statics (m : femd) (lcs : list nat) : option (list (nat * list lobj)) :=
  match lcs with [] => None | _ => columns m lcs end.
(** raami.py:346-356 structural_analysis with load_id 'ALL': the load cases of the frame. *)
Definition analyse_all (m : femd) (f : frame) : option (list (nat * list lobj)) := statics m (map fst (cases f)).
(** raami.py:332-334, 363-366 structural_analysis for one load id, by default the first one; [None]: IndexError or
    KeyError. *)
Definition analyse_one (m : femd) (f : frame) (lid : option nat) : option (list (nat * list lobj)) :=
  bind (match lid with Some i => Some i | None => nth_error (lids f) 0 end) (fun i => statics m [i]).
