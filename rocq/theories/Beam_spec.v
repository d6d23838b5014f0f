(** Vocabulary of the statements about the finite elements. *)
From Verif Require Export Fem_spec Beam_model.

(** The distance of two points. *)
Definition dist2 (dx dy : R) : R := sqrt (dx * dx + dy * dy).
(** The distance is a whole number of thousandths. *)
Definition on_grid (d : R) : Prop := exists z : Z, d = IZR z / 1000 /\ (0 < z)%Z.
(** Small rigid motion of a member lying on the local axis: translation (a, b), rotation th. *)
Definition rigid_local (L a b th : R) : vec := vlist [a; b; th; a; b + th * L; th].
(** Small rigid motion of a member from (0,0) to (dx,dy). *)
Definition rigid_global (dx dy a b th : R) : vec := vlist [a; b; th; a - th * dy; b + th * dx; th].
(** Orthogonal matrix. *)
Definition orthogonal (n : nat) (T : mat) : Prop :=
  forall i j, (i < n)%nat -> (j < n)%nat ->
    mmul n T (mtr T) i j = (if (i =? j)%nat then 1 else 0) /\ mmul n (mtr T) T i j = (if (i =? j)%nat then 1 else 0).
Definition norm2 (n : nat) (u : vec) : R := sumn n (fun i => u i * u i).
(** v is the integral of f from 0 to L. *)
Definition integral (f : R -> R) (L v : R) : Prop :=
  exists F, (forall x, derivable_pt_lim F x (f x)) /\ v = F L - F 0.
(** Linearly varying load. *)
Definition lin_load (q1 q2 L : R) (x : R) : R := q1 + (q2 - q1) * (x / L).
(** Deflection of a beam with end values w1, t1, w2, t2: the cubic with these end values and slopes. *)
Definition cubic (L w1 t1 w2 t2 x : R) : R :=
  w1 + t1 * x + (3 * (w2 - w1) / L ^ 2 - (2 * t1 + t2) / L) * x ^ 2 + (2 * (w1 - w2) / L ^ 3 + (t1 + t2) / L ^ 2) * x ^ 3.
(** A correct matrix inverse of size n. *)
Definition right_inverse (n : nat) (M X : mat) : Prop :=
  forall i j, (i < n)%nat -> (j < n)%nat -> mmul n M X i j = if (i =? j)%nat then 1 else 0.
