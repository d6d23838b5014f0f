(** Model of the finite elements: beams (2D, 3D, semi-rigid), rods and springs.
    Files are in /repo/metku/framefem. *)
From Verif Require Export Fem_model.

(** framefem.py:1638-1651 (length): distance of the nodes rounded to 3 decimals. *)
Definition elem_length (dx dy : R) : R := roundn 3 (sqrt (dx ^ 2 + dy ^ 2)).
(** framefem.py:1612-1631 (direction_cosines). *)
Definition cosines (dx dy : R) : R * R := (dx / elem_length dx dy, dy / elem_length dx dy).

(** The 3x3 block B repeated on the diagonal (elements/ebbeam.py:73 [L[3:6,3:6] = L[0:3,0:3]],
    ebbeam.py:762-766). *)
Definition blocks (m : nat) (B : mat) : mat :=
  fun i j => if andb (andb (i <? 3 * m) (j <? 3 * m))%nat (i / 3 =? j / 3)%nat then B (i mod 3) (j mod 3) else 0.
(** elements/ebbeam.py:58-74 (transformation_matrix) from the direction cosines. *)
Definition beam_T (c : R * R) : mat :=
  blocks 2 (mrows [[fst c; snd c; 0]; [- snd c; fst c; 0]; [0; 0; 1]]).

(** elements/ebbeam.py:107-125 (local_stiffness_matrix without releases). *)
Definition k_local (E A I L : R) : mat :=
  let rodc := E * A / L in
  let EI := E * I in
  let k0 := put [(0, 0); (3, 3)]%nat rodc mzero in
  let k0 := put [(0, 3); (3, 0)]%nat (- rodc) k0 in
  let bend1 := 12 * EI / L ^ 3 in
  let k0 := put [(1, 1); (4, 4)]%nat bend1 k0 in
  let k0 := put [(1, 4); (4, 1)]%nat (- bend1) k0 in
  let bend2 := 6 * EI / L ^ 2 in
  let k0 := put [(1, 2); (2, 1); (1, 5); (5, 1)]%nat bend2 k0 in
  let k0 := put [(2, 4); (4, 2); (4, 5); (5, 4)]%nat (- bend2) k0 in
  let k0 := put [(2, 5); (5, 2)]%nat (2 * EI / L) k0 in
  put [(2, 2); (5, 5)]%nat (4 * EI / L) k0.

(** elements/ebbeam.py:176-199 (stiffness_matrix): L'.k0.L with n rows. *)
Definition to_global (n : nat) (T k0 : mat) : mat := mmul n (mtr T) (mmul n k0 T).
(** elements/ebbeam.py:176-199 for a beam from (0,0) to (dx,dy), without releases. *)
Definition beam_k (E A I dx dy : R) : mat :=
  to_global 6 (beam_T (cosines dx dy)) (k_local E A I (elem_length dx dy)).

(** numpy.ix_ assignment K[ix_(q,q)] = M (elements/ebbeam.py:222). *)
Fixpoint pos (q : list nat) (a i : nat) : option nat :=
  match q with [] => None | d :: r => if (d =? i)%nat then Some a else pos r (S a) i end.
(** elements/ebbeam.py:220-222, eb_semi_rigid_beam.py:171 *)
Definition place (q : list nat) (M K : mat) : mat :=
  fun i j => match pos q 0 i, pos q 0 j with Some a, Some b => M a b | _, _ => K i j end.

(** elements/ebbeam.py:201-224 (local_geometric_stiffness_matrix) with axial force P. *)
Definition kg_local (P L : R) : mat :=
  let g0 := P / 30 / L in
  let keg := mrows [[36; 3 * L; -36; 3 * L];
                    [3 * L; 4 * L ^ 2; - (3 * L); - L ^ 2];
                    [-36; - (3 * L); 36; - (3 * L)];
                    [3 * L; - L ^ 2; - (3 * L); 4 * L ^ 2]] in
  place [1; 2; 4; 5]%nat (fun i j => g0 * keg i j) mzero.

(** elements/ebbeam.py:254-292: second order stiffness of a compressed member (P < 0),
    without releases; lam = L sqrt(|P|/(E I)). *)
Definition k_second (E A I L P : R) : mat :=
  let P := Rabs P in
  let rodc := E * A / L in
  let a := 4 * E * I / L in
  let b := 2 * E * I / L in
  let c := 6 * E * I / L ^ 2 in
  let d := 12 * E * I / L ^ 3 in
  let lam := sqrt (P / E / I) * L in
  let slam := sin lam in
  let clam := cos lam in
  let D := 2 - 2 * clam - lam * slam in
  let K := lam ^ 3 / 12 * slam / D in
  let H := lam ^ 2 / 6 * (1 - clam) / D in
  let PSI := lam / 4 * (slam - lam * clam) / D in
  let PHI := 1 / 2 * lam * (lam - slam) / D in
  let k0 := put [(0, 0); (3, 3)]%nat rodc mzero in
  let k0 := put [(0, 3); (3, 0)]%nat (- rodc) k0 in
  let k0 := put [(1, 1); (4, 4)]%nat (d * K) k0 in
  let k0 := put [(1, 4); (4, 1)]%nat (- (d * K)) k0 in
  let k0 := put [(1, 2); (2, 1); (1, 5); (5, 1)]%nat (c * H) k0 in
  let k0 := put [(2, 4); (4, 2); (4, 5); (5, 4)]%nat (- (c * H)) k0 in
  let k0 := put [(2, 5); (5, 2)]%nat (b * PHI) k0 in
  put [(2, 2); (5, 5)]%nat (a * PSI) k0.

(** A line load on an element (framefem.py:1340-1355): factor, end values, extent,
    direction x or not, local or global coordinates. *)
Record lload := mkLl { ll_f : R; ll_q1 : R; ll_q2 : R; ll_xloc : R * R; ll_dirx : bool; ll_local : bool }.

(** elements/ebbeam.py:389-393 (and 423-426): local forces of a transverse load. *)
Definition floc_perp (q1 q2 L : R) : list R :=
  [0; 7 / 20 * q1 * L + 3 / 20 * q2 * L; L ^ 2 * (1 / 20 * q1 + 1 / 30 * q2);
   0; 3 / 20 * q1 * L + 7 / 20 * q2 * L; - L ^ 2 * (1 / 30 * q1 + 1 / 20 * q2)].
(** elements/ebbeam.py:382-433 (equivalent_nodal_loads, first order, no releases): local
    force vector. The extent xloc is not read. A local load in direction x is dropped.
    Directions other than x and y in local coordinates are not modelled. *)
Definition beam_floc (T : mat) (L : R) (ld : lload) : list R :=
  let q1 := ll_f ld * ll_q1 ld in
  let q2 := ll_f ld * ll_q2 ld in
  if ll_local ld then
    if ll_dirx ld then [0; 0; 0; 0; 0; 0] else floc_perp q1 q2 L
  else
    let col := if ll_dirx ld then 0%nat else 1%nat in
    let qloc0 := ll_f ld * T 0%nat col in
    let qloc1 := ll_f ld * T 1%nat col in
    let p := floc_perp (q1 * qloc1) (q2 * qloc1) L in
    let qx1 := q1 * qloc0 in
    let qx2 := q2 * qloc0 in
    [1 / 2 * L * (1 / 2 * (qx1 + qx2) - 1 / 6 * (qx2 - qx1)); nth 1 p 0; nth 2 p 0;
     1 / 2 * L * (1 / 2 * (qx1 + qx2) + 1 / 6 * (qx2 - qx1)); nth 4 p 0; nth 5 p 0].
(** elements/ebbeam.py:516 fglob = T'.floc. *)
Definition beam_fglob (T : mat) (L : R) (ld : lload) : vec := mvec 6 (mtr T) (vlist (beam_floc T L ld)).

(** elements/ebbeam.py:521-538 (shape_fun). *)
Definition shape_fun (L x : R) : list R :=
  [1 - 3 * x ^ 2 / L ^ 2 + 2 * x ^ 3 / L ^ 3;
   x - 2 * x ^ 2 / L + x ^ 3 / L ^ 2;
   3 * x ^ 2 / L ^ 2 - 2 * x ^ 3 / L ^ 3;
   - x ^ 2 / L ^ 2 + x ^ 3 / L ^ 2].

(** elements/ebbeam.py:511-512: the dictionary floc after computing the nodal loads of
    the listed (load id, load) pairs in turn; each entry overwrites. *)
Fixpoint stored_floc (T : mat) (L : R) (lds : list (nat * lload)) (sid : nat) (acc : option (list R)) : option (list R) :=
  match lds with
  | [] => acc
  | (s, ld) :: r => stored_floc T L r sid (if (s =? sid)%nat then Some (beam_floc T L ld) else acc)
  end.
(** elements/ebbeam.py:558-563: end force vector R from local displacements q. *)
Definition end_forces (k : mat) (q : vec) (fl : option (list R)) : vec :=
  fun i => match fl with Some f => mvec 6 k q i - nth i f 0 | None => mvec 6 k q i end.
(** elements/ebbeam.py:582-584: reported axial force, moment and shear at the two ends. *)
Definition fint (Rv : vec) : (R * R) * (R * R) * (R * R) :=
  ((- Rv 0%nat, Rv 3%nat), (- Rv 2%nat, Rv 5%nat), (Rv 1%nat, - Rv 4%nat)).

(** elements/ebbeam.py:127-170: static condensation of the released forces; [inv] is
    numpy.linalg.inv of the released block. Positions n are kept, r released. *)
Definition condense (inv : mat -> mat) (n r : list nat) (k0 : mat) : mat :=
  let sub a b := fun i j => k0 (nth i a 0%nat) (nth j b 0%nat) in
  let K22 := sub r r in let K11 := sub n n in let K12 := sub n r in let K21 := sub r n in
  let kc := fun i j => K11 i j - mmul (length r) K12 (mmul (length r) (inv K22) K21) i j in
  fun i j => match pos n 0 i, pos n 0 j with Some a, Some b => kc a b | _, _ => 0 end.
(** numpy.setdiff1d(arange(6), rel) (elements/ebbeam.py:133). *)
Definition unreleased (rel : list nat) : list nat := filter (fun i => negb (existsb (Nat.eqb i) rel)) (seq 0 6).
(** elements/ebbeam.py:96-168 (local_stiffness_matrix, uncached). *)
Definition k_rel (inv : mat -> mat) (rel : list nat) (E A I L : R) : mat :=
  match rel with [] => k_local E A I L | _ => condense inv (unreleased rel) rel (k_local E A I L) end.

(** lru_cache (elements/ebbeam.py:96, elements/eb_semi_rigid_beam.py:130): the cache maps the
    arguments (self, E, A, I1, Le) to the matrix computed first. What else the matrix
    depends on, the releases (EBBeam) or the rotational stiffnesses (EBSemiRigidBeam), is
    an attribute of type H and not part of the key; the cached matrix is represented by the
    attribute it was computed with. *)
Record celem (H : Type) := mkCe { ce_h : H; ce_key : R * R * R * R; ce_cache : list ((R * R * R * R) * H) }.
Arguments mkCe {H}. Arguments ce_h {H}. Arguments ce_key {H}. Arguments ce_cache {H}.
(** What can happen to an element between evaluations: the attribute is set
    (framefem.py:326-334 add_release, frame2d/frame2d.py:1986-2021 Sj1 and Sj2), section, material or
    length changes, the cache drops its entries, or the matrix is evaluated. *)
Inductive cop (H : Type) := SetH (h : H) | SetKey (k : R * R * R * R) | EvictAll | Eval.
Arguments SetH {H}. Arguments SetKey {H}. Arguments EvictAll {H}. Arguments Eval {H}.
(** equality of the hashed arguments (elements/ebbeam.py:96). *)
Definition key_eqb (k k' : R * R * R * R) : bool :=
  let '(((a, b), c), d) := k in let '(((a', b'), c'), d') := k' in
  andb (andb (Reqb a a') (Reqb b b')) (andb (Reqb c c') (Reqb d d')).
(** functools.lru_cache lookup (elements/ebbeam.py:96). *)
Fixpoint lookup {H} (c : list ((R * R * R * R) * H)) (k : R * R * R * R) : option H :=
  match c with [] => None | (k', r) :: rest => if key_eqb k' k then Some r else lookup rest k end.
(** elements/ebbeam.py:96-97: one call; the attribute that the returned matrix contains. *)
Definition eval_cached {H} (s : celem H) : H * celem H :=
  match lookup (ce_cache s) (ce_key s) with
  | Some r => (r, s)
  | None => (ce_h s, mkCe (ce_h s) (ce_key s) ((ce_key s, ce_h s) :: ce_cache s))
  end.
(** elements/ebbeam.py:96-97, framefem.py:326-334: effect of one operation. *)
Definition cstep {H} (s : celem H) (o : cop H) : celem H :=
  match o with
  | SetH r => mkCe r (ce_key s) (ce_cache s)
  | SetKey k => mkCe (ce_h s) k (ce_cache s)
  | EvictAll => mkCe (ce_h s) (ce_key s) []
  | Eval => snd (eval_cached s)
  end.
(** elements/ebbeam.py:185-189: the local stiffness matrix returned in state s. *)
Definition k_cached (inv : mat -> mat) (s : celem (list nat)) : mat :=
  let '(((E, A), I1), L) := ce_key s in k_rel inv (fst (eval_cached s)) E A I1 L.

(** ---------------- rod and spring ---------------- *)
(** elements/rod.py:32-39, elements/springs.py:42-48: 2 x 2d transformation. *)
Definition rod_T (d : nat) (c : vec) : mat :=
  fun i j => match i with
             | O => if (j <? d)%nat then c j else 0
             | S O => if (j <? d)%nat then 0 else if (j <? 2 * d)%nat then c (j - d)%nat else 0
             | _ => 0 end.
(** elements/rod.py:70-78 (E A / L times the matrix), elements/springs.py:66-70 (constant k). *)
Definition axial_k (k : R) : mat := fun i j => k * mrows [[1; -1]; [-1; 1]] i j.
(** elements/rod.py:80-90, elements/springs.py:72-82. *)
Definition rod_k (d : nat) (k : R) (c : vec) : mat := mmul 2 (mtr (rod_T d c)) (mmul 2 (axial_k k) (rod_T d c)).
(** elements/rod.py:144-153: axial force from displacements. *)
Definition rod_force (d : nat) (k : R) (c : vec) (u : vec) : R :=
  let q := mvec (2 * d) (rod_T d c) u in k * (q 1%nat - q 0%nat).
(** ---------------- semi-rigid beam ---------------- *)
(** elements/eb_semi_rigid_beam.py:24-25 *)
Definition kRigid : R := 10 ^ 20.
(** elements/eb_semi_rigid_beam.py:25 *)
Definition kHinge : R := / 10 ^ 4.
(** elements/eb_semi_rigid_beam.py:62-67: stiffness kept in the element; None is numpy.inf. *)
Definition rot_clamp (r : option R) : R :=
  match r with
  | None => kRigid
  | Some v => if Rleb v kHinge then kHinge else if Rleb kRigid v then kRigid else v
  end.
(** elements/eb_semi_rigid_beam.py:86-104 (gamma) for one end; the stiffness is never 0 after
    the constructor. *)
Definition sr_gamma (E I L k : R) : R := if Reqb k kRigid then 0 else E * I / L / k.
(** elements/eb_semi_rigid_beam.py:106-110 (delta). *)
Definition sr_delta (g1 g2 : R) : R := (1 + 4 * g1) * (1 + 4 * g2) - 4 * g1 * g2.
(** elements/eb_semi_rigid_beam.py:112-123 (matrix_S). *)
Definition sr_S (g1 g2 L : R) : mat :=
  mrows [[0; 0; 0; 0];
         [-6 * g1 / L * (1 + 2 * g2); -4 * g1 * (1 + 3 * g2); 6 * g1 / L * (1 + 2 * g2); -2 * g1];
         [0; 0; 0; 0];
         [-6 * g2 / L * (1 + 2 * g1); -2 * g2; 6 * g2 / L * (1 + 2 * g1); -4 * g2 * (1 + 3 * g1)]].
(** elements/eb_semi_rigid_beam.py:130-177 (local_stiffness_matrix): bending part, 4x4. *)
Definition sr_bend (E I L r1 r2 : R) : mat :=
  let EI := E * I in
  let b1 := 12 * EI / L ^ 3 in let b2 := 6 * EI / L ^ 2 in
  let b3 := 4 * EI / L in let b4 := 2 * EI / L in
  let k00 := mrows [[b1; b2; - b1; b2]; [b2; b3; - b2; b4]; [- b1; - b2; b1; - b2]; [b2; b4; - b2; b3]] in
  let g1 := sr_gamma E I L r1 in let g2 := sr_gamma E I L r2 in
  let delta := sr_delta g1 g2 in
  let S := sr_S g1 g2 L in
  let k1 := fun i j => 1 / delta * mmul 4 k00 S i j + 1 / delta * mmul 4 (mtr S) k00 i j
                     + 1 / delta ^ 2 * mmul 4 (mmul 4 (mtr S) k00) S i j in
  let t r row := fun i j => if Rltb r kRigid then r / delta ^ 2 * (S row i * S row j) else 0 in
  fun i j => k00 i j + k1 i j + (t r1 1%nat i j + t r2 3%nat i j).
(** elements/eb_semi_rigid_beam.py:171-175: full 6x6 matrix. *)
Definition sr_k (E A I L r1 r2 : R) : mat :=
  let rodc := E * A / L in
  put [(0, 3); (3, 0)]%nat (- rodc) (put [(0, 0); (3, 3)]%nat rodc
    (place [1; 2; 4; 5]%nat (sr_bend E I L r1 r2) mzero)).

(** ---------------- 3D beam ---------------- *)
(** elements/ebbeam.py:781-838 (EBBeam3D.local_stiffness_matrix). *)
Definition k_local3 (E G A I1 I2 J L : R) : mat :=
  let rodc := E * A / L in
  let EI1 := E * I1 in
  let EI2 := E * I2 in
  let torc := G * J / L in
  let k0 := put [(0, 0); (6, 6)]%nat rodc mzero in
  let k0 := put [(0, 6); (6, 0)]%nat (- rodc) k0 in
  let k0 := put [(3, 3); (9, 9)]%nat torc k0 in
  let k0 := put [(3, 9); (9, 3)]%nat (- torc) k0 in
  let bend1y := 12 * EI2 / L ^ 3 in
  let k0 := put [(1, 1); (7, 7)]%nat bend1y k0 in
  let k0 := put [(1, 7); (7, 1)]%nat (- bend1y) k0 in
  let bend2y := 6 * EI2 / L ^ 2 in
  let k0 := put [(1, 5); (1, 11); (5, 1); (11, 1)]%nat bend2y k0 in
  let k0 := put [(5, 7); (7, 5); (7, 11); (11, 7)]%nat (- bend2y) k0 in
  let k0 := put [(5, 11); (11, 5)]%nat (2 * EI2 / L) k0 in
  let k0 := put [(5, 5); (11, 11)]%nat (4 * EI2 / L) k0 in
  let bend1z := 12 * EI1 / L ^ 3 in
  let k0 := put [(2, 2); (8, 8)]%nat bend1z k0 in
  let k0 := put [(8, 2); (2, 8)]%nat (- bend1z) k0 in
  let bend2z := 6 * EI1 / L ^ 2 in
  let k0 := put [(8, 4); (4, 8); (8, 10); (10, 8)]%nat bend2z k0 in
  let k0 := put [(2, 10); (10, 2); (2, 4); (4, 2)]%nat (- bend2z) k0 in
  let k0 := put [(4, 10); (10, 4)]%nat (2 * EI1 / L) k0 in
  put [(4, 4); (10, 10)]%nat (4 * EI1 / L) k0.

(** elements/eb_semi_rigid_beam.py:179-188: the semi-rigid matrix returned in state s. *)
Definition sr_cached (s : celem (R * R)) : mat :=
  let '(((E, A), I1), L) := ce_key s in let h := fst (eval_cached s) in sr_k E A I1 L (fst h) (snd h).

(** elements/ebbeam.py:499-509: the nodal loads when forces are released; [inv] as in condense,
    k0 the stiffness matrix without releases (attribute Krel). *)
Definition condense_v (inv : mat -> mat) (n r : list nat) (k0 : mat) (f : vec) : vec :=
  let sub a b := fun i j => k0 (nth i a 0%nat) (nth j b 0%nat) in
  fun i => match pos n 0 i with
           | Some a => f i - mvec (length r) (sub n r) (mvec (length r) (inv (sub r r)) (fun b => f (nth b r 0%nat))) a
           | None => 0
           end.

(** elements/ebbeam.py:896-915 (EBBeam3D.equivalent_nodal_loads), loads in local coordinates,
    direction z when [dirz], else y. The load factor is not read. Loads in global
    coordinates raise (a 3x3 matrix times a vector of 6, ebbeam.py:917-928). *)
Definition floc3 (L : R) (f q1 q2 : R) (dirz : bool) : list R :=
  let s1 := 7 / 20 * q1 * L + 3 / 20 * q2 * L in
  let s2 := 3 / 20 * q1 * L + 7 / 20 * q2 * L in
  let m1 := L ^ 2 * (1 / 20 * q1 + 1 / 30 * q2) in
  let m2 := - L ^ 2 * (1 / 30 * q1 + 1 / 20 * q2) in
  if dirz then [0; 0; s1; 0; m1; 0; 0; 0; s2; 0; m2; 0] else [0; s1; 0; 0; 0; m1; 0; s2; 0; 0; 0; m2].
