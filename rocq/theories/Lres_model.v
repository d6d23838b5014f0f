(** Model of the results of the load combiners (metku/eurocodes/en1991/en1991.py:208-302, 337-516): values per
    member id as lists padded with None.  [rnd] stands for round(x, 2). *)
Require Import List Bool.
Import ListNotations.
From Verif Require Export Loads_model.
Local Open Scope R_scope.

(** Loads with factors of one combination (en1991.py:211-222). *)
Definition floads := list (load * R).
(** max of the ids of a load (en1991.py:228): ValueError without ids.  Ids are natural numbers. *)
Definition top_id (l : load) : option nat := match l_ids l with [] => None | i :: r => Some (fold_left Nat.max r i) end.
(** en1991.py:225-230: the largest id, outer [None]: an error, inner: no load. *)
Fixpoint max_id (m : option nat) (ls : floads) : option (option nat) :=
  match ls with
  | [] => Some m
  | lf :: r => bind (top_id (fst lf)) (fun t =>
      max_id (Some (match m with None => t | Some m => if Nat.ltb m t then t else m end)) r)
  end.
(** A list with entry [i] replaced (en1991.py:238-240); [None]: IndexError. *)
Fixpoint put {A} (i : nat) (x : A) (l : list A) : option (list A) :=
  match l, i with
  | [], _ => None
  | _ :: l, O => Some (x :: l)
  | y :: l, S i => bind (put i x l) (fun l => Some (y :: l))
  end.
(** en1991.py:237-240 for one id. *)
Definition file_id (lf : load * R) (b : list (option floads)) (i : nat) : option (list (option floads)) :=
  bind (nth_error b i) (fun e => put i (match e with None => Some [lf] | Some ls => Some (ls ++ [lf]) end) b).
(** en1991.py:236-240: the loads filed under their ids. *)
Fixpoint file_ids (lf : load * R) (ids : list nat) (b : list (option floads)) : option (list (option floads)) :=
  match ids with [] => Some b | i :: r => bind (file_id lf b i) (file_ids lf r) end.
(** en1991.py:235-240. *)
Fixpoint file_all (ls : floads) (b : list (option floads)) : option (list (option floads)) :=
  match ls with [] => Some b | lf :: r => bind (file_ids lf (l_ids (fst lf)) b) (file_all r) end.
(** Direction of a load compared with 'x' or 'y' (en1991.py:248-251). *)
Definition along (d : ldir) (l : load) : bool := match l_dir l, d with dx, dx => true | dy, dy => true | _, _ => false end.
(** en1991.py:245-253: the value of direction [d] for the loads of one id. *)
Definition bucket (rnd : R -> R) (d : ldir) (ls : floads) : R :=
  fold_left (fun q lf => if along d (fst lf) then q + rnd (l_val (fst lf) * snd lf) else q) ls 0.
(** en1991.py:224-255 the lists of x and y values. *)
Definition by_id (rnd : R -> R) (ls : floads) : option (list (option R) * list (option R)) :=
  bind (max_id None ls) (fun m => bind m (fun m =>
  bind (file_all ls (repeat None (S m))) (fun b =>
  Some (map (option_map (bucket rnd dx)) b, map (option_map (bucket rnd dy)) b)))).

(** A combination with its parts as keys of a dictionary (en1991.py:320, 331, 375-381). *)
Record parts := mkParts { p_val : R; p_G : option floads; p_Q1 : option floads; p_Qi : option floads }.
(** en1991.py:384-412, 469-480: parts without loads are removed. *)
Definition popped (p : option floads) : option floads := match p with Some [] => None | _ => p end.
(** en1991.py:384-412, 469-480. *)
Definition pop (p : parts) : parts := mkParts (p_val p) (popped (p_G p)) (popped (p_Q1 p)) (popped (p_Qi p)).
(** Loads of a part, none without the key (en1991.py:211-222). *)
Definition of_part (p : option floads) : floads := match p with Some l => l | None => [] end.
(** Python's max with the key value: the first of the largest (en1991.py:335, 414-416, 482). *)
Definition first_max (x : parts) (l : list parts) : parts :=
  fold_left (fun m y => if Rltb (p_val m) (p_val y) then y else m) l x.
(** en1991.py:314-335 ULSCombiner.combine for a given kfi; parts are not removed. *)
Definition uls_parts (kfi : R) (c : combiner) : parts :=
  first_max (mkParts (135/100 * kfi * sum_G c) (Some (map (fun l => (l, 135/100 * kfi)) (c_G c))) None None)
    (map (fun il : nat * load => let '(i, l) := il in
      mkParts (115/100 * kfi * sum_G c + 15/10 * kfi * l_val l + 15/10 * kfi * sum_Q_excl i 0 c)
        (Some (map (fun l => (l, 115/100 * kfi)) (c_G c))) (Some [(l, 15/10 * kfi)])
        (Some (map (fun lo => (lo, 15/10 * kfi * psi 0 lo)) (drop_nth i (c_Q c))))) (indexed (c_Q c))).
(** en1991.py:375-376. *)
Definition char_parts (c : combiner) (il : nat * load) : parts :=
  let '(i, l) := il in
  pop (mkParts (sum_G c + l_val l + sum_Q_excl i 2 c) (Some (perm c)) (Some [(l, 1)]) (Some (map (fun lo => (lo, psi 0 lo)) (drop_nth i (c_Q c))))).
(** en1991.py:377-378. *)
Definition freq_parts (c : combiner) (il : nat * load) : parts :=
  let '(i, l) := il in
  pop (mkParts (sum_G c + combined 1 l + sum_Q_excl i 2 c) (Some (perm c)) (Some [(l, psi 1 l)]) (Some (map (fun lo => (lo, psi 2 lo)) (drop_nth i (c_Q c))))).
(** en1991.py:380-381. *)
Definition quasi_parts (c : combiner) : parts :=
  pop (mkParts (sum_G c + sum_Q 2 c) (Some (perm c)) None (Some (map (fun l => (l, psi 2 l)) (c_Q c)))).
(** en1991.py:357-361, 414-416: the permanent loads alone when there is no variable load. *)
Definition best_parts (c : combiner) (l : list parts) : parts :=
  match l with [] => pop (mkParts (sum_G c) (Some (perm c)) None None) | x :: l => first_max x l end.
(** en1991.py:349-416 SLSCombiner.combine. *)
Definition sls_parts (c : combiner) : parts * parts * parts :=
  (best_parts c (map (char_parts c) (indexed (c_Q c))), best_parts c (map (freq_parts c) (indexed (c_Q c))), quasi_parts c).
(** en1991.py:446-482 ACCCombiner.combine. *)
Definition acc_parts (c : combiner) : parts :=
  let vals := map (fun il : nat * load => let '(i, l) := il in
    pop (mkParts (sum_G c + l_val l * acc_psi l + sum_Q_excl i 2 c) (Some (perm c)) (Some [(l, acc_psi l)])
      (Some (map (fun lo => (lo, psi 2 lo)) (drop_nth i (c_Q c)))))) (indexed (c_Q c))
    ++ [pop (mkParts (sum_G c) (Some (perm c)) None None)] in
  match vals with [] => mkParts 0 None None None | x :: l => first_max x l end.

(** en1991.py:208-255 get_single_result. *)
Definition single_result (rnd : R -> R) (p : parts) := by_id rnd (of_part (p_G p) ++ of_part (p_Q1 p) ++ of_part (p_Qi p)).
(** A key of the split result (en1991.py:294-300); inner [None]: no key. *)
Definition split_part (rnd : R -> R) (p : option floads) : option (option (list (option R) * list (option R))) :=
  match p with None => Some None | Some ls => option_map Some (by_id rnd ls) end.
(** en1991.py:257-302 get_single_split_result: the parts G, Q1, Qi. *)
Definition split_result (rnd : R -> R) (p : parts) :=
  bind (split_part rnd (p_G p)) (fun g => bind (split_part rnd (p_Q1 p)) (fun q => bind (split_part rnd (p_Qi p)) (fun r => Some (g, q, r)))).
(** en1991.py:341-342: no load at all raises. *)
Definition no_loads (c : combiner) : bool := match c_Q c, c_G c with [], [] => true | _, _ => false end.
(** en1991.py:337-345 ULSCombiner.get_result. *)
Definition uls_result (rnd : R -> R) (c : combiner) :=
  if no_loads c then None else bind (c_kfi c) (fun kfi => single_result rnd (uls_parts kfi c)).
(** en1991.py:418-441 SLSCombiner.get_result without split. *)
Definition sls_result (rnd : R -> R) (c : combiner) :=
  if no_loads c then None else
  let '(a, b, d) := sls_parts c in
  bind (single_result rnd a) (fun ra => bind (single_result rnd b) (fun rb => bind (single_result rnd d) (fun rd => Some (ra, rb, rd)))).
(** en1991.py:484-492 ACCCombiner.get_result. *)
Definition acc_result (rnd : R -> R) (c : combiner) :=
  if no_loads c then None else single_result rnd (acc_parts c).

(** MultiCombiner (en1991.py:495-500): the three combiners. *)
Record multi := mkMulti { m_uls : combiner; m_sls : combiner; m_acc : combiner }.
(** en1991.py:496-499. *)
Definition new_multi (cls CC : nat) (kk : R) : multi := let c := new_combiner cls CC kk in mkMulti c c c.
(** en1991.py:501-505 add, for one load. *)
Definition multi_add (l : load) (m : multi) : option multi :=
  bind (add_load l (m_uls m)) (fun a => bind (add_load l (m_sls m)) (fun b => bind (add_load l (m_acc m)) (fun c => Some (mkMulti a b c)))).
(** en1991.py:501-505, several loads. *)
Fixpoint multi_adds (ls : list load) (m : multi) : option multi :=
  match ls with [] => Some m | l :: r => bind (multi_add l m) (multi_adds r) end.
(** en1991.py:507-510. *)
Definition multi_reduce (L : R) (m : multi) : multi := mkMulti (use_reduction L (m_uls m)) (use_reduction L (m_sls m)) (use_reduction L (m_acc m)).
(** en1991.py:512-516. *)
Definition multi_result (rnd : R -> R) (m : multi) :=
  bind (uls_result rnd (m_uls m)) (fun u => bind (sls_result rnd (m_sls m)) (fun s => bind (acc_result rnd (m_acc m)) (fun a => Some (u, s, a)))).
