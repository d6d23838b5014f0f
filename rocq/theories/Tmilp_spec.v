(** Specification of TrussMILP, written without its rows. *)
From Verif Require Export Sizing_spec Tmilp_model.
Open Scope R_scope.

(** Sum of the first i lengths. *)
Definition offs (len : nat -> nat) (i : nat) : nat := list_sum (map len (seq 0 i)).
(** Number of profiles of group g. *)
Definition glen (q : tm_data) (g : nat) : nat := length (snd (nth g (tm_groups q) ([], []))).
(** Number of selection variables. *)
Definition nsel (q : tm_data) : nat := offs (tm_np q) (tm_nmem q).
(** The position of a variable in x = [y, N(0), u(0), N(1), u(1), ..., Y, z, w]. *)
Definition tpos (q : tm_data) (t : tvar) : nat :=
  let st := (nsel q + tm_nlc q * (nsel q + tm_ndof q))%nat in
  match t with
  | Vy i j => offs (tm_np q) i + j
  | VN i j k => nsel q + k * (nsel q + tm_ndof q) + offs (tm_np q) i + j
  | Vu d k => nsel q + k * (nsel q + tm_ndof q) + nsel q + d
  | VY i => st + i
  | Vz j => st + tm_nmem q + j
  | Vw g j => st + tm_nmem q + tm_nnodes q + offs (glen q) g + j
  end%nat.
(** The variables of a problem. *)
Definition tvalid (q : tm_data) (top : bool) (t : tvar) : Prop :=
  match t with
  | Vy i j => (i < tm_nmem q /\ j < tm_np q i)%nat
  | VN i j k => (i < tm_nmem q /\ j < tm_np q i /\ k < tm_nlc q)%nat
  | Vu d k => (d < tm_ndof q /\ k < tm_nlc q)%nat
  | VY i => top = true /\ (i < tm_nmem q)%nat
  | Vz j => top = true /\ (j < tm_nnodes q)%nat
  | Vw g j => top = true /\ (g < length (tm_groups q) /\ j < glen q g)%nat
  end.
(** The value of a variable. *)
Definition tval (q : tm_data) (x : vec) (t : tvar) : R := x (tpos q t).

(** A design: member i has its profile number j (s i = Some j) or is absent (s i = None).
    Area of member i. *)
Definition t_area (q : tm_data) (s : nat -> option nat) (i : nat) : R :=
  match s i with Some j => tm_A q (tm_pr q i j) | None => 0 end.
(** The truss s is at rest under the loads p with the displacements u (mm, N), the
    displacements lie in [lo, hi], and the member forces do not exceed f times the tension
    resistance and, in compression, not the buckling resistance either, both rounded down
    to whole newtons. *)
Definition tdesign (q : tm_data) (lo hi f : R) (p : vec) (s : nat -> option nat) (u : vec) : Prop :=
  (forall i j, (i < tm_nmem q)%nat -> s i = Some j -> (j < tm_np q i)%nat)
  /\ (forall d, (d < tm_ndof q)%nat ->
       sumn (tm_ndof q) (fun e => truss_K (tm_nmem q) (tm_E q) (tm_L q) (t_area q s) (tm_B q) d e * u e) = p d)
  /\ (forall d, (d < tm_ndof q)%nat -> lo <= u d <= hi)
  /\ (forall i j, (i < tm_nmem q)%nat -> s i = Some j ->
       let N := elastic_force (tm_ndof q) (tm_E q i) (tm_L q i) (tm_A q (tm_pr q i j)) (tm_B q) i u in
       N <= f * IZR (floorZ (tm_NRd q (tm_pr q i j)))
       /\ - N <= f * IZR (floorZ (tm_NRd q (tm_pr q i j)))
       /\ - N <= IZR (floorZ (tm_NbRd q i (tm_pr q i j)))).
(** Equality of an optional number with a number. *)
Definition is_some (o : option nat) (j : nat) : bool := match o with Some k => (k =? j)%nat | None => false end.
(** The selection variables say that the design is s. *)
Definition tselects (q : tm_data) (x : vec) (s : nat -> option nat) : Prop :=
  forall i j, (i < tm_nmem q)%nat -> (j < tm_np q i)%nat -> tval q x (Vy i j) = if is_some (s i) j then 1 else 0.
(** Weight of the design: weight per length of the profile times the length of the member. *)
Definition t_weight (q : tm_data) (s : nat -> option nat) : R :=
  sumn (tm_nmem q) (fun i => match s i with Some j => tm_w q (tm_pr q i j) * tm_L q i | None => 0 end).
(** Positive scaling factors, lengths; nonnegative moduli and areas. *)
Definition tgood (q : tm_data) : Prop :=
  0 < tm_sN q /\ 0 < tm_su q /\ (forall i, (i < tm_nmem q)%nat -> 0 < tm_L q i)
  /\ (forall i, (i < tm_nmem q)%nat -> 0 <= tm_E q i)
  /\ (forall i j, (i < tm_nmem q)%nat -> (j < tm_np q i)%nat -> 0 <= tm_A q (tm_pr q i j)).

(** Member i exists. *)
Definition present (s : nat -> option nat) (i : nat) : bool := match s i with Some _ => true | None => false end.
(** Node j is an end of member i. *)
Definition at_node (q : tm_data) (j i : nat) : Prop := (i < tm_nmem q)%nat /\ In j (tm_ends q i).
(** Number of the nodes or members below n with a property. *)
Definition count (n : nat) (P : nat -> bool) : nat := length (filter P (seq 0 n)).
(** Members of a group that exist have the same profile. *)
Definition same_profile (q : tm_data) (s : nat -> option nat) : Prop :=
  forall g a b j k, In g (tm_groups q) -> In a (fst g) -> In b (fst g) -> s a = Some j -> s b = Some k -> j = k.
(** What the topology problem asks of the members s and the nodes z: at a node that exists
    all members of the ground structure exist, and at least one (supported node) or two of
    them; twice the number of nodes minus the supported degrees of freedom is at most the
    number of members; two supported nodes exist; groups have one profile. *)
Definition topo_ok (q : tm_data) (s : nat -> option nat) (z : nat -> bool) : Prop :=
  (forall j i, (j < tm_nnodes q)%nat -> at_node q j i -> z j = true -> present s i = true)
  /\ (forall j, (j < tm_nnodes q)%nat -> z j = true ->
       ((if (supported q j =? 0) then 2 else 1)
        <= count (tm_nmem q) (fun i => existsb (Nat.eqb j) (tm_ends q i) && present s i))%nat)
  /\ (2 * count (tm_nnodes q) z
      <= count (tm_nmem q) (present s)
         + list_sum (map (fun j => if z j then supported q j else 0) (seq 0 (tm_nnodes q))))%nat
  /\ (2 <= count (tm_nnodes q) (fun j => z j && negb (supported q j =? 0)))%nat
  /\ same_profile q s.
(** The node variables say which nodes exist. *)
Definition node_values (q : tm_data) (x : vec) (z : nat -> bool) : Prop :=
  forall j, (j < tm_nnodes q)%nat -> tval q x (Vz j) = if z j then 1 else 0.
(** Every group lists its own members only, and each of them has the profiles of the group. *)
Definition groups_wf (q : tm_data) : Prop :=
  forall g, In g (tm_groups q) -> NoDup (fst g) /\ forall m, In m (fst g) -> (m < tm_nmem q)%nat /\ tm_prof q m = snd g.
(** What a user reads in the topology rules: the ends of an existing member exist, at least
    one (supported node) or two members meet at an existing node, and the counting rules. *)
Definition sensible_topology (q : tm_data) (s : nat -> option nat) (z : nat -> bool) : Prop :=
  (forall j i, (j < tm_nnodes q)%nat -> at_node q j i -> present s i = true -> z j = true)
  /\ (forall j, (j < tm_nnodes q)%nat -> z j = true ->
       ((if (supported q j =? 0) then 2 else 1)
        <= count (tm_nmem q) (fun i => existsb (Nat.eqb j) (tm_ends q i) && present s i))%nat)
  /\ (2 * count (tm_nnodes q) z
      <= count (tm_nmem q) (present s)
         + list_sum (map (fun j => if z j then supported q j else 0) (seq 0 (tm_nnodes q))))%nat
  /\ (2 <= count (tm_nnodes q) (fun j => z j && negb (supported q j =? 0)))%nat.

(** ---------------- examples ---------------- *)
(** One bar of stiffness 1 with one free degree of freedom and one profile of resistance 5. *)
Definition one_bar (sN su ulb uub : R) (nlc : nat) (load : R) : tm_data :=
  mkTm 1 1 2 nlc 1 [] [] (fun _ => 1) (fun _ => 1) (fun _ => 5) (fun _ _ => 5) (fun _ => 1) (fun _ => 1)
    (fun _ _ => 1) (fun _ _ => load) ulb uub sN su (fun _ => [0; 1]%nat) [].
(** Two bars from the supported nodes 0 and 1 to node 2, each holding one degree of freedom
    of node 2, with two profiles of area 1 and 2; for nmem = 3 also a bar between the two
    supports. *)
Definition two_bars (nmem : nat) (gs : list (list nat * list nat)) : tm_data :=
  mkTm nmem 2 3 1 2 gs [] (fun j => INR j + 1) (fun j => INR j + 1) (fun _ => 5) (fun _ _ => 5) (fun _ => 1) (fun _ => 1)
    (fun d i => if (d =? i)%nat then 1 else 0) (fun _ _ => 2) (-10) 10 1 1
    (fun i => match i with 0 => [0; 2] | 1 => [1; 2] | _ => [0; 1] end)%nat [(0, 2); (1, 2)]%nat.
(** Profiles of the first two members; every other member is left out. *)
Definition ab (a b : nat) : nat -> option nat := fun i => match i with 0%nat => Some a | 1%nat => Some b | _ => None end.
