(** Vocabulary of the statements about random designs and stopping criteria. *)
Require Import Reals ZArith List.
Import ListNotations.
From Verif Require Export Rst_model.
Local Open Scope R_scope.

(** The bounds are as the constructors of the variables set them. *)
Definition well_formed (v : rvar) : Prop :=
  match r_kind v with
  | RCont => r_lb v <= r_ub v
  | RInt => exists a b, r_lb v = IZR a /\ r_ub v = IZR b /\ (a <= b)%Z
  | RDisc l => In (r_lb v) l /\ In (r_ub v) l /\ forall w, In w l -> r_lb v <= w <= r_ub v
  end.
(** A value the variable may have. *)
Definition allowed (v : rvar) (x : R) : Prop :=
  r_lb v <= x <= r_ub v /\
  match r_kind v with RCont => True | RInt => exists z, x = IZR z | RDisc l => In x l end.
(** A random number. *)
Definition rnd (u : R) : Prop := 0 <= u < 1.
