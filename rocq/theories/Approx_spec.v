(** Vocabulary of the statements about approximations. *)
From Verif Require Export Approx_model.

(** Partial derivative of [f] at [x] with respect to coordinate [i]. *)
Definition partial_deriv (f : list R -> R) (x : list R) (i : nat) (d : R) : Prop :=
  derivable_pt_lim (fun t => f (set_nth i t x)) (nth i x 0) d.

Definition positive (x : list R) : Prop := Forall (fun a => 0 < a) x.

(** Convexity on a set of points of dimension [n]. *)
Definition convex_on (n : nat) (S : list R -> Prop) (f : list R -> R) : Prop :=
  forall x y t, length x = n -> length y = n -> S x -> S y -> 0 <= t <= 1 ->
    f (vmap2 (fun a b => t * a + (1 - t) * b) x y) <= t * f x + (1 - t) * f y.

(** The first-order approximation in x and the one in 1/x. *)
Definition first_order (xk : list R) (fk : R) (dfk x : list R) : R :=
  fk + Rsum (vmap3 (fun X d y => d * (y - X)) xk dfk x).
Definition reciprocal (xk : list R) (fk : R) (dfk x : list R) : R :=
  fk + Rsum (vmap3 (fun X d y => - d * X ^ 2 * (/ y - / X)) xk dfk x).

(** Strictly between two vectors, componentwise. *)
Definition between (L x U : list R) : Prop :=
  Forall2 Rlt L x /\ Forall2 Rlt x U.

Definition same_len (xk dfk L U : list R) : Prop :=
  length dfk = length xk /\ length L = length xk /\ length U = length xk.

(** The asymptotes L, U lie on either side of x, at the programmed fractions of
    the variable ranges Dx. *)
Definition encloses (Dx x L U : list R) : Prop :=
  length L = length x /\ length U = length x /\
  forall i, (i < length x)%nat ->
    nth i x 0 - 10 * nth i Dx 0 <= nth i L 0 <= nth i x 0 - 1 / 10 * nth i Dx 0 /\
    nth i x 0 + 1 / 100 * nth i Dx 0 <= nth i U 0 <= nth i x 0 + 10 * nth i Dx 0.

