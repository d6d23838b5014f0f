(** Specification of truss sizing, written without the rows of the LP and the MILP. *)
From Verif Require Export Sizing_model.
Open Scope R_scope.

(** Nodal equilibrium: the member forces N balance the loads p at the free degrees of
    freedom. *)
Definition equilibrium (nmem ndof : nat) (B : mat) (N p : vec) : Prop :=
  forall d, (d < ndof)%nat -> sumn nmem (fun i => B d i * N i) = p d.

(** What the LP is meant to ask of areas A and forces N k of the load cases. *)
Definition plastic_ok (q : lp_data) (A : vec) (N : nat -> vec) : Prop :=
  (forall i, (i < lp_nmem q)%nat -> lp_Alb q i <= A i <= lp_Aub q i)
  /\ forall k, (k < lp_nlc q)%nat ->
      equilibrium (lp_nmem q) (lp_ndof q) (lp_B q) (N k) (lp_p q k)
      /\ (forall i, (i < lp_nmem q)%nat -> Rabs (N k i) <= 1000000000
          /\ - (lp_slb q i * A i) <= N k i <= lp_sub q i * A i).
(** Volume of the truss. *)
Definition volume (n : nat) (L A : vec) : R := sumn n (fun i => L i * A i).

(** Axial force of member i of area a, with the displacements u of the free degrees of
    freedom: E a / L times the elongation. *)
Definition elastic_force (ndof : nat) (E L a : R) (B : mat) (i : nat) (u : vec) : R :=
  E * a / L * sumn ndof (fun d => B d i * u d).
(** Stiffness matrix of the truss. *)
Definition truss_K (nmem : nat) (E L A : vec) (B : mat) : mat :=
  fun d e => sumn nmem (fun i => B d i * (E i * A i / L i) * B e i).
(** The truss whose member i has profile s i is at rest under the loads p with the
    displacements u (mm, N), the displacements are in their bounds and the member forces do
    not exceed the resistances rounded down to whole newtons. *)
Definition design_ok (q : mi_data) (s : nat -> nat) (p u : vec) : Prop :=
  (forall i, (i < mi_nmem q)%nat -> (s i < mi_nprof q)%nat)
  /\ (forall d, (d < mi_ndof q)%nat ->
       sumn (mi_ndof q) (fun e => truss_K (mi_nmem q) (mi_E q) (mi_L q) (fun i => mi_A q (s i)) (mi_B q) d e * u e) = p d)
  /\ (forall d, (d < mi_ndof q)%nat -> mi_ulb q <= u d <= mi_uub q)
  /\ (forall i, (i < mi_nmem q)%nat ->
       let N := elastic_force (mi_ndof q) (mi_E q i) (mi_L q i) (mi_A q (s i)) (mi_B q) i u in
       N <= IZR (floorZ (mi_NRd q (s i)))
       /\ - N <= IZR (floorZ (mi_NRd q (s i))) /\ - N <= IZR (floorZ (mi_NbRd q i (s i)))).
(** Weight of the truss with the profiles s. *)
Definition truss_weight (q : mi_data) (s : nat -> nat) : R :=
  sumn (mi_nmem q) (fun i => mi_w q (s i) * mi_L q i).
(** The selection variables say that member i has profile s i. *)
Definition selects (q : mi_data) (x : vec) (s : nat -> nat) : Prop :=
  forall i j, (i < mi_nmem q)%nat -> (j < mi_nprof q)%nat ->
    x (i * mi_nprof q + j)%nat = if (j =? s i)%nat then 1 else 0.
(** Displacement variable d of load case k, in cm. *)
Definition disp_var (q : mi_data) (x : vec) (k d : nat) : R :=
  x (mi_nmem q * mi_nprof q + mi_nlc q * (mi_nmem q * mi_nprof q) + k * mi_ndof q + d)%nat.
(** Force variable of member i, profile j and load case k, in kN. *)
Definition force_var (q : mi_data) (x : vec) (k i j : nat) : R :=
  x (mi_nmem q * mi_nprof q + k * (mi_nmem q * mi_nprof q) + i * mi_nprof q + j)%nat.

(** Elongation of a rod with displacements u of all degrees of freedom. *)
Definition elongation (d : nat) (r : rod) (u : vec) : R :=
  sumn d (fun j => r_cos r j * (u (r_dofs r (d + j)%nat) - u (r_dofs r j))).
(** The degrees of freedom of the two ends are different and exist. *)
Definition rod_wf (d n : nat) (r : rod) : Prop :=
  (forall a, (a < 2 * d)%nat -> (r_dofs r a < n)%nat)
  /\ (forall a b, (a < 2 * d)%nat -> (b < 2 * d)%nat -> r_dofs r a = r_dofs r b -> a = b).
(** A number limited to an interval. *)
Definition clamp (lo hi v : R) : R := if Rle_dec v lo then (if Rle_dec lo hi then lo else hi) else if Rle_dec v hi then v else hi.
(** Scaling all sizes by t keeps them in their bounds (vs lists lower bound, upper bound and
    size) and satisfies the constraints of values gs whose ratio falls as 1/t. *)
Definition factor_ok (vs : list (R * R * R)) (gs : list R) (t : R) : Prop :=
  0 < t /\ (forall lb ub x, In (lb, ub, x) vs -> lb <= t * x <= ub) /\ forall g, In g gs -> (g + 1) / t - 1 <= 0.
