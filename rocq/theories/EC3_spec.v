(** Specifications for the EN 1993-1-1 rules, written from the code's tables and
    formulas and not from the model. *)
From Verif Require Export Base.

(** EN 1993-1-1 5.5.2: the class of a part with limits l1, l2, l3. *)
Definition table_class (l1 l2 l3 r : R) (c : nat) : Prop :=
  (c = 1%nat /\ r <= l1) \/ (c = 2%nat /\ l1 < r /\ r <= l2) \/
  (c = 3%nat /\ l1 < r /\ l2 < r /\ r <= l3) \/ (c = 4%nat /\ l1 < r /\ l2 < r /\ l3 < r).

(** Table 5.2, sheet 1, bending and compression, alpha in (0,1]. *)
Definition lim1 (eps al : R) : R := if Rlt_dec (1/2) al then 396 * eps / (13 * al - 1) else 36 * eps / al.
Definition lim2 (eps al : R) : R := if Rlt_dec (1/2) al then 456 * eps / (13 * al - 1) else (415/10) * eps / al.
Definition lim3 (eps ps : R) : R :=
  if Rlt_dec (-1) ps then 42 * eps / (67/100 + 33/100 * ps) else 62 * eps * (1 - ps) * sqrt (- ps).

(** The class of a function does not go down when the slenderness goes up. *)
Definition class_mono (f : R -> nat) : Prop := forall r1 r2, r1 <= r2 -> (f r1 <= f r2)%nat.
Definition class_range (f : R -> nat) : Prop := forall r, (1 <= f r <= 4)%nat.

(** Epsilon of a steel with yield strength fy. *)
Definition eps_of (fy : R) : R := sqrt (235 / fy).

(** 6.3.1.2: chi' = 1/x is the reduction factor when x is the larger root of
    x^2 - 2*Phi*x + lam^2 = 0, 2*Phi = 1 + alpha*(lam - 0.2) + lam^2. *)
Definition perry (al lam x : R) : Prop :=
  x ^ 2 - (1 + al * (lam - 2/10) + lam ^ 2) * x + lam ^ 2 = 0 /\
  forall y, y ^ 2 - (1 + al * (lam - 2/10) + lam ^ 2) * y + lam ^ 2 = 0 -> y <= x.

(** An end moment is resolved when it is zero or above the code's threshold. *)
Definition resolved (M : R) : Prop := M = 0 \/ 1/1000000 < Rabs M.
