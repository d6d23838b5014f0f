(** Specifications for the fire rules. *)
From Verif Require Export Base Fire_model.

(** Piecewise linear interpolation through (x0,y0) and the following knots,
    constant after the last one. *)
Fixpoint pl (x0 y0 : R) (l : list (R * R)) (x : R) : R :=
  match l with
  | [] => y0
  | (x1, y1) :: r => if Rle_dec x x1 then y0 + (y1 - y0) * (x - x0) / (x1 - x0) else pl x1 y1 r x
  end.

(** Temperatures and tabulated values of one property; empty if a row lacks it. *)
Fixpoint knots (p : prop) (d : table) : list (R * R) :=
  match d with
  | [] => []
  | (z, row) :: r => match row p with Some v => (IZR z, v) :: knots p r | None => [] end
  end.
Definition interp (l : list (R * R)) (x : R) : option R :=
  match l with [] => None | (x0, y0) :: r => Some (pl x0 y0 r x) end.

(** Knots with increasing abscissae and non-increasing values. *)
Fixpoint falling (x0 y0 : R) (l : list (R * R)) : Prop :=
  match l with [] => True | (x1, y1) :: r => x0 < x1 /\ y1 <= y0 /\ falling x1 y1 r end.

(** Temperatures at which the tables of the steel are consulted without a gap. *)
Definition covered (s : steel) (t : R) : Prop :=
  match s with
  | carbon | s14301 => (20 <= t <= 100) \/ (200 <= t <= 1200)
  | bolts => 20 <= t <= 1000
  | unknown => False
  end.
(** The properties tabulated for a steel. *)
Definition has_prop (s : steel) (p : prop) : Prop :=
  match s with
  | carbon => p = ky \/ p = kp \/ p = kE \/ p = kp02
  | s14301 => p = ky \/ p = k02 \/ p = ku \/ p = kE \/ p = kEct \/ p = epsU
  | bolts => p = kb
  | unknown => False
  end.

(** Material parameters for which the stress-strain law of EN 1993-1-2 makes sense: the
    proportional limit is below the yield strength, which is reached before 2 % strain. *)
Definition law_ok (fp E fy fu : R) : Prop := 0 < E /\ 0 <= fp <= fy /\ 0 < fy <= fu /\ 2 * fy - fp < 2/100 * E.
(** Value of the law, for continuity statements. *)
Definition sv (o : option R) : R := match o with Some v => v | None => 0 end.

(** Strictly increasing on the non-negative numbers. *)
Definition rising (f : R -> R) : Prop := forall x y, 0 <= x < y -> f x < f y.

(** A specific heat that is defined and positive above absolute zero. *)
Definition good_heat (heat : R -> option R) : Prop := forall t, -273 <= t -> exists c, heat t = Some c /\ 0 < c.
(** The first n time stamps in minutes for a step of dt seconds, latest first. *)
Definition stamps (dt : R) (n : nat) : list R := map (fun k => INR k * dt / 60) (rev (seq 0 n)).
(** A gas temperature curve that starts at 20 degrees or above, never falls, and stays
    below 1200 degrees up to [tm] minutes. *)
Definition gas_curve (gas : R -> option R) (tm : R) : Prop :=
  (forall t, 0 <= t -> exists v, gas t = Some v /\ 20 <= v) /\
  (forall t t' v v', 0 <= t <= t' -> gas t = Some v -> gas t' = Some v' -> v <= v') /\
  (forall t v, 0 <= t < tm -> gas t = Some v -> v <= 1200).
(** Latest first, never falling with time. *)
Fixpoint never_falls (l : list R) : Prop :=
  match l with [] => True | a :: r => match r with [] => True | b :: _ => b <= a end /\ never_falls r end.
