(** Specification of the populations of the genetic algorithm. *)
Require Import Reals ZArith List.
From Verif Require Import Base EC3_model Gpop_model.
Import ListNotations.
Local Open Scope R_scope.

(** A value drawn for a variable: within the bounds, the upper one excluded; an integer above the lower bound for
    integer variables. *)
Definition drawn (v : gvar) (x : R) : Prop :=
  g_lb v <= x < g_ub v /\ (g_int v = true -> exists z : Z, x = g_lb v + IZR z).
(** Variables that can be drawn: proper ranges, integer variables with an integer width. *)
Definition drawable (v : gvar) : Prop := g_lb v < g_ub v /\ (g_int v = true -> exists z : Z, g_ub v = g_lb v + IZR z).
