(** Model of the check of compression perpendicular to the grain of a timber member where other members rest on it
    or it rests on them (metku/structures/timber/timber_member.py:481-566, 1013-1054). *)
From Verif Require Export EC3_model Base.
Require Import List Bool PeanoNat. Import ListNotations.
Local Open Scope R_scope.

(** Another member at a node (timber_member.py:500-531): height and width of its section, its axial forces and the
    places of its sections in the plane of the frame. Simplified: its section has the same height everywhere
    (lines 524 and 1044). *)
Record contact := mkCt { c_H : R; c_B : R; c_ned : list R; c_pts : list (R * R) }.
(** A node of the member (timber_member.py:492-498, 1028-1043): coordinates and the members that meet there; [None] is
    the member itself. *)
Record tnode := mkTn { n_x : R; n_y : R; n_parents : list (option contact) }.
(** Material types that matter (timber_member.py:563-566). *)
Inductive tmat := Msolid | Mglt | Mother.
(** The member (timber_member.py:60-100): height and width of its section, material, the places of its sections, the
    last of its relative locations, and its design strength across the grain. *)
Record tmem := mkTm { t_H : R; t_B : R; t_mat : tmat; t_pts : list (R * R); t_last : R; t_f : R }.

(** math.isclose with rel_tol=10 (timber_member.py:504, 512). *)
Definition close10 (a b : R) : bool := Rleb (Rabs (a - b)) (Rmax (10 * Rabs a) (10 * Rabs b)).
(** timber_member.py:502-508, 510-516: the last section whose place is close to the node. *)
Fixpoint close_idx (x y : R) (pts : list (R * R)) (i : nat) (acc : option nat) : option nat :=
  match pts with
  | [] => acc
  | p :: ps => close_idx x y ps (S i) (if andb (close10 x (fst p)) (close10 y (snd p)) then Some i else acc)
  end.
(** timber_member.py:521-526 effective length; [own = None]: the index was not found. *)
Definition lc90ef (m : tmem) (own : option nat) (H : R) : R :=
  if match own with Some i => orb (Nat.eqb i 0) (Reqb (INR i) (t_last m)) | None => false end
  then H + Rmin (Rmin 30 0) H + Rmin 30 H
  else H + Rmin 30 H + Rmin 30 H.
(** timber_member.py:500-531 get_sigma; [None]: TypeError, IndexError or ZeroDivisionError. *)
Definition get_sigma (m : tmem) (n : tnode) (c : contact) : option R :=
  bind (close_idx (n_x n) (n_y n) (c_pts c) 0 None) (fun i =>
  bind (nth_error (c_ned c) i) (fun N =>
  if Rleb 0 N then Some 0
  else pdiv N (lc90ef m (close_idx (n_x n) (n_y n) (t_pts m) 0 None) (c_H c) * Rmin (c_B c) (t_B m)))).
(** timber_member.py:495: the members at the node other than this one. *)
Definition others (n : tnode) : list contact := flat_map (fun p => match p with Some c => [c] | None => [] end) (n_parents n).
(** timber_member.py:492-498, 1029-1035: nothing to check at the node. *)
Definition alone (n : tnode) : bool := orb (Nat.eqb (length (n_parents n)) 1) (match others n with [] => true | _ => false end).
(** All stresses of a node, in order (timber_member.py:537). *)
Fixpoint sigmas (m : tmem) (n : tnode) (cs : list contact) : option (list R) :=
  match cs with [] => Some [] | c :: cs => bind (get_sigma m n c) (fun s => bind (sigmas m n cs) (fun r => Some (s :: r))) end.
(** Python's min of a list (timber_member.py:1023). *)
Definition pmin (l : list R) : R := match l with [] => 0 | x :: l => fold_left Rmin l x end.
(** timber_member.py:481-537 sigma_c90d with lines 1021-1023: the governing stress of a node. *)
Definition node_sigma (m : tmem) (n : tnode) : option R :=
  if alone n then Some 0 else option_map pmin (sigmas m n (others n)).
(** timber_member.py:1020-1026: the first node with the largest stress, as its index. *)
Fixpoint find_max (m : tmem) (ns : list tnode) (i : nat) (best : R) (at_ : option nat) : option (R * option nat) :=
  match ns with
  | [] => Some (best, at_)
  | n :: ns => bind (node_sigma m n) (fun s =>
      if Rltb (Rabs best) (Rabs s) then find_max m ns (S i) s (Some i) else find_max m ns (S i) best at_)
  end.
(** timber_member.py:551-566 update_kc90. *)
Definition kc90 (m : tmem) (l1 l : R) : R :=
  if Rleb (t_H m * 2) l1 then match t_mat m with Msolid => 25/10 | Mglt => if Rleb l 400 then 175/100 else 1 | Mother => 1 end else 1.
(** Distance of two nodes (timber_member.py:1037-1039). *)
Definition dist_n (a b : tnode) : R := sqrt ((n_x a - n_x b) ^ 2 + (n_y a - n_y b) ^ 2).
(** timber_member.py:1027-1044: the factor after the loop over the nodes; [c]: the critical node, index [ci]. *)
Fixpoint kc_loop (m : tmem) (c : tnode) (ci : nat) (ns : list tnode) (i : nat) (l1 : option R) (k : option R) : option R :=
  match ns with
  | [] => k
  | n :: ns =>
      if orb (alone n) (Nat.eqb i ci) then kc_loop m c ci ns (S i) l1 k
      else let l11 := dist_n c n in
           let l := match l1 with None => l11 | Some v => if Rltb l11 v then l11 else v end in
           let h := match others n with o :: _ => c_H o | [] => 0 end in
           kc_loop m c ci ns (S i) (Some l) (Some (kc90 m l h))
  end.
(** timber_member.py:1013-1054 check_perpendicular_compression: the utilisation and the factor the member keeps; [k] is
    the factor it had ([None]: not set). *)
Definition check_perp (m : tmem) (ns : list tnode) (k : option R) : option (R * option R) :=
  bind (find_max m ns 0 0 None) (fun ba =>
  let k' := match snd ba with
            | Some ci => match nth_error ns ci with Some c => kc_loop m c ci ns 0 None k | None => k end
            | None => k end in
  match k' with
  | None => Some (0, k')
  | Some v => bind (pdiv (fst ba) (v * t_f m)) (fun q => Some (Rabs q, k'))
  end).
