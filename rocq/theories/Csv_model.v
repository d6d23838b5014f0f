(** Model of the creation of optimisation variables, of cross-section variables and of the property variables that the
    change from index variables to binary variables makes (metku/optimization/variables.py:16-202, 343-370, 418-458,
    metku/optimization/opt_functions.py:233-261). *)
From Verif Require Export EC3_model Base.
Require Import List Bool PeanoNat String. Import ListNotations.
Local Open Scope R_scope.

(** Values given as arguments (variables.py:20-32): nothing, a number, a text or a list. *)
Inductive arg := ANone | ANum (x : R) | AStr (s : string) | AList (l : list arg).
(** Truth value of an argument, as taken by [any] (variables.py:79-87). *)
Definition truthy (a : arg) : bool :=
  match a with ANone => false | ANum x => negb (Reqb x 0) | AStr s => negb (String.eqb s EmptyString) | AList [] => false | AList _ => true end.
(** Truth values of an object, always true, and of a list of objects (variables.py:79-87). *)
Definition has_obj (o : option nat) : bool := match o with Some _ => true | None => false end.
(** See above (variables.py:79-87). *)
Definition has_objs (l : option (list nat)) : bool := match l with Some (_ :: _) => true | _ => false end.
(** A target: property and objects (variables.py:44-50). *)
Definition target := (arg * list nat)%type.
(** Variables (variables.py:74-110); [v_fun]: functions by property name. Names, profiles, branching priority and
    multipliers are left out. *)
Record var := mkV { v_value : arg; v_lb : R; v_ub : R; v_target : option target; v_locked : bool; v_scaling : R;
                    v_fun : option (list (string * (R -> R))) }.
(** variables.py:79-96: the target of a new variable; [None] is the ValueError. *)
Definition init_target (t : option target) (tp tps : arg) (o : option nat) (os : option (list nat)) : option (option target) :=
  if truthy tp || truthy tps || has_objs os || has_obj o then
    if negb (truthy tps || truthy tp) then None
    else if negb (has_objs os || has_obj o) then None
    else let tps' := match tps, tp with ANone, ANone => ANone | ANone, _ => AList [tp] | _, _ => tps end in
         let os' := match os with Some l => l | None => match o with Some x => [x] | None => [] end end in
         Some (Some (tps', os'))
  else Some t.
(** variables.py:19-110 Variable: arguments in order: bounds, target, property, properties, object, objects, value,
    functions. *)
Definition new_variable (lb ub : R) (t : option target) (tp tps : arg) (o : option nat) (os : option (list nat)) (value : arg)
    (f : option (list (string * (R -> R)))) : option var :=
  bind (init_target t tp tps o os) (fun t' => Some (mkV value lb ub t' false 1 f)).
(** variables.py:421-423 CrossSectionVariable: the profiles and the value are passed by position, as the fifth and the
    sixth argument. *)
Definition new_csv (lb ub : R) (t : option target) (profiles value : arg) (f : option (list (string * (R -> R)))) : option var :=
  new_variable lb ub t profiles value None None ANone f.
(** Smallest and largest number of a list (variables.py:361-363, opt_functions.py:254-255). *)
Definition lmin (l : list R) : R := match l with [] => 0 | x :: l => fold_left Rmin l x end.
(** See above (variables.py:361-363, opt_functions.py:254-255). *)
Definition lmax (l : list R) : R := match l with [] => 0 | x :: l => fold_left Rmax l x end.
(** variables.py:346-370 DiscreteVariable with a list of values. *)
Definition new_discrete (values : list R) (t : option target) (value : arg) : option var :=
  new_variable (lmin values) (lmax values) t ANone ANone None None value None.
(** What members and sections hold (variables.py:425-458, opt_functions.py:243-244): the section of each member, the
    numbers in sections and the numbers in members by attribute name, and the next unused section. *)
Record heap := mkHp { h_sec : nat -> nat; h_sattr : nat -> string -> R; h_oattr : nat -> string -> R; h_next : nat }.
(** One attribute of one object set (variables.py:453, 456). *)
Definition upd (f : nat -> string -> R) (i : nat) (p : string) (x : R) : nat -> string -> R :=
  fun j q => if andb (Nat.eqb j i) (String.eqb q p) then x else f j q.
(** obj.cross_section.__setattr__ (variables.py:458). *)
Definition set_sattr (h : heap) (o : nat) (p : string) (x : R) : heap := mkHp (h_sec h) (upd (h_sattr h) (h_sec h o) p x) (h_oattr h) (h_next h).
(** obj.__setattr__ (variables.py:176, 178, 202, 453, 456). *)
Definition set_oattr (h : heap) (o : nat) (p : string) (x : R) : heap := mkHp (h_sec h) (h_sattr h) (upd (h_oattr h) o p x) (h_next h).
(** Function of a property (variables.py:448-451). *)
Fixpoint fun_of (p : string) (f : list (string * (R -> R))) : option (R -> R) :=
  match f with [] => None | (q, g) :: f => if String.eqb q p then Some g else fun_of p f end.
(** variables.py:441-456 (the same as 164-178): a list of properties of one object. *)
Fixpoint set_list (v : var) (x : R) (h : heap) (o : nat) (ps : list arg) : option heap :=
  match ps with
  | [] => Some h
  | AStr p :: ps =>
      let y := match v_fun v with
               | Some f => match fun_of p f with Some g => g (x * v_scaling v) | None => x * v_scaling v end
               | None => x end in
      set_list v x (set_oattr h o p y) o ps
  | _ => None
  end.
(** variables.py:434-458: all objects of a cross-section variable ([sec]) or of a plain or discrete one (159-202). *)
Fixpoint set_objs (sec : bool) (v : var) (x : R) (h : heap) (prop : arg) (os : list nat) : option heap :=
  match os with
  | [] => Some h
  | o :: os =>
      bind (match prop with
            | AList ps => set_list v x h o ps
            | AStr p => Some (if sec then set_sattr h o p (x * v_scaling v) else set_oattr h o p (x * v_scaling v))
            | _ => None end) (fun h' => set_objs sec v x h' prop os)
  end.
(** The variable with a new value (variables.py:157, 432). *)
Definition with_value (v : var) (x : R) : var := mkV (ANum x) (v_lb v) (v_ub v) (v_target v) (v_locked v) (v_scaling v) (v_fun v).
(** variables.py:425-458 CrossSectionVariable.substitute. *)
Definition csv_substitute (v : var) (x : R) (h : heap) : option (var * heap) :=
  if v_locked v then Some (v, h)
  else bind (v_target v) (fun t => bind (set_objs true v x h (fst t) (snd t)) (fun h' => Some (with_value v x, h'))).
(** variables.py:149-202 Variable.substitute of a plain or discrete variable. *)
Definition substitute (v : var) (x : R) (h : heap) : option (var * heap) :=
  if v_locked v then Some (v, h)
  else match v_target v with
       | None => Some (with_value v x, h)
       | Some t => bind (set_objs false v x h (fst t) (snd t)) (fun h' => Some (with_value v x, h')) end.
(** opt_functions.py:243-244: a member gets a copy of its section. *)
Definition copy_sec (h : heap) (o : nat) : heap :=
  mkHp (fun m => if Nat.eqb m o then h_next h else h_sec h m)
       (fun s => if Nat.eqb s (h_next h) then h_sattr h (h_sec h o) else h_sattr h s) (h_oattr h) (S (h_next h)).
(** opt_functions.py:233-261: the property variables made for one index variable with the members [os], the profiles
    [cat] and the current index [cur]. Simplified: [cat] holds the properties already rounded to three decimals. *)
Fixpoint make_props (cont : bool) (os : list nat) (cat : list (string -> R)) (cur : nat) (disc : list string) (h : heap) : option (list var * heap) :=
  match disc with
  | [] => Some ([], h)
  | p :: disc =>
      let props := map (fun s => s p) cat in
      let h' := fold_left copy_sec os h in
      bind (nth_error props cur) (fun x =>
      bind (if cont then new_csv (lmin props) (lmax props) (Some (AStr p, os)) ANone (ANum x) None
            else new_discrete props (Some (AStr p, os)) (ANum x)) (fun v =>
      bind (make_props cont os cat cur disc h') (fun r => Some (v :: fst r, snd r))))
  end.
