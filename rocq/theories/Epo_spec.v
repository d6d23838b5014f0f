(** Specification of the geometry of end plate joints in optimisation. *)
From Verif Require Export Epo_model.
Require Import List Bool. Import ListNotations.
Local Open Scope R_scope.

(** An extended end plate: the first row outside the tension flange, all others between the flanges, no shear rows. *)
Definition extended (j : epj) : Prop :=
  exists r rs, e_rows j = r :: rs /\ er_shear r = false /\ er_outside r = true /\
    Forall (fun r => er_shear r = false /\ er_outside r = false) rs.
(** Consecutive heights fall by at least [g]. *)
Fixpoint spaced (g : R) (l : list R) : Prop :=
  match l with a :: ((b :: _) as l') => g <= a - b /\ spaced g l' | _ => True end.
(** The point: thickness, x, top extension and width if they are variables, heights of the rows. *)
Definition point (ev bv : bool) (tp x et bp z1 : R) (zs : list R) : list R :=
  tp :: x :: (if ev then [et] else []) ++ (if bv then [bp] else []) ++ z1 :: zs.
(** An integer lies between [a] and [b]. *)
Definition integer_within (a b : R) : Prop := exists n : Z, a <= IZR n <= b.
