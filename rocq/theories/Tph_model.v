(** Model of the two-phase solver but for the solvers it calls (metku/optimization/solvers/two_phase.py:27-91). *)
From Verif Require Export Solvers_model EC3_model Base.
From Verif Require Export Csv_model.
Require Import List Bool PeanoNat. Import ListNotations.
Local Open Scope R_scope.

(** two_phase.py:32-34: whether the constructor accepts two objects that are ([true]) or are not solvers. *)
Definition accepts (s1 s2 : bool) : bool := negb (andb (negb s1) s2).
(** Variables of the second phase (two_phase.py:55-67): continuous ones with their lower bound, and ones with a list of
    values. *)
Inductive pvar := Pcont (lb : R) | Pdisc (vals : list R).
(** Options passed on to a solver (two_phase.py:69, 79, 84-86): iterations and starting point. Others are passed on
    unchanged and left out. *)
Record kw := mkKw { k_maxiter : option nat; k_x0 : option (list R) }.
(** two_phase.py:46-67 discretize for the solution [xs] of the first phase, read from number [i] on; [None]: an
    exception. *)
Fixpoint discretize (vs : list pvar) (xs : list R) (ll ul i : nat) : option (list pvar) :=
  match vs with
  | [] => Some []
  | Pcont lb :: vs => bind (discretize vs xs ll ul (S i)) (fun r => Some (Pcont lb :: r))
  | Pdisc vals :: vs =>
      bind (nth_error xs i) (fun x =>
      bind (window vals x ll ul) (fun w =>
      match w with [] => None | _ => bind (discretize vs xs ll ul (S i)) (fun r => Some (Pdisc w :: r)) end))
  end.
(** Lower bound of a variable (two_phase.py:83; variables.py:361-363). *)
Definition lower (v : pvar) : R := match v with Pcont lb => lb | Pdisc w => lmin w end.
(** two_phase.py:69-91: the options given to the first and to the second solver; [m1], [m2]: the limits of the phases. *)
Definition solve_calls (m1 m2 : option nat) (ll ul : nat) (k : kw) (vs : list pvar) (xs : list R) : option (kw * kw) :=
  let k1 := mkKw (match m1 with Some m => Some m | None => k_maxiter k end) (k_x0 k) in
  bind (discretize vs xs ll ul 0) (fun vs' =>
  Some (k1, mkKw (match m2 with Some m => Some m | None => k_maxiter k1 end) (Some (map lower vs')))).
