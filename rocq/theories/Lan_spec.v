(** Specification vocabulary for the analysis of load cases. *)
From Verif Require Export Lan_model Raami_spec.
Require Export Permutation.

(** What a user's program does: create a load, create a load and add it, add an existing load, create and add a load case of existing loads, add a
    combination of lists of existing loads. *)
Inductive lop := ONew (l : lobj) | OPut (l : lobj) | OAdd (o : nat) | OCase (i : nat) (os : list nat) | OComb (cid : nat) (c : ctype) (cs : list (list nat)).
(** Only load objects that exist are used. *)
Definition exist (f : frame) (os : list nat) : bool := forallb (fun o => Nat.ltb o (List.length (heap f))) os.
Definition lstep (p : lop) (f : frame) : option frame :=
  match p with
  | ONew l => Some (fst (new_load l f))
  | OPut l => add_load (snd (new_load l f)) (fst (new_load l f))
  | OAdd o => if exist f [o] then add_load o f else None
  | OCase i os => if exist f os then add_loadcase i os f else None
  | OComb cid c cs => if exist f (List.concat cs) then combine_loads cid c cs f else None
  end.
Fixpoint lrun (ps : list lop) (f : frame) : option frame :=
  match ps with [] => Some f | p :: ps => bind (lstep p f) (lrun ps) end.
