(** Model of the shear connectors of composite beams (metku/eurocodes/en1994/en1994_1_1.py:23-64).  Printing is
    not modelled. *)
From Verif Require Export EC3_model.
Local Open Scope R_scope.

(** S3L_Studs (en1994_1_1.py:23-26): diameter of the stud by its key; [None]: KeyError.  The dimensions of the
    head (A, H) are stored but not used. *)
Definition stud_d (key : nat) : option R :=
  match key with 19%nat => Some 19 | 22%nat => Some 22 | 25%nat => Some 19 | _ => None end.
(** en1994_1_1.py:45 resistance of the shank. *)
Definition stud_steel (fu d : R) : R := 8/10 * fu * PI ^ 2 * d ^ 2 / 4.
(** en1994_1_1.py:47-50 factor alpha; the diameter is not zero. *)
Definition stud_alpha (len d : R) : R := if Rltb 4 (len / d) then 1 else 2/10 * (len / d + 1).
(** en1994_1_1.py:52 resistance of the concrete, gammaV = 1.25 (en1994/constants.py:31); math.sqrt of a negative
    number raises. *)
Definition stud_concrete (len d fck Ecm : R) : option R :=
  bind (psqrt (fck * Ecm)) (fun s => Some (29/100 * stud_alpha len d * d ^ 2 * s / (125/100))).
(** en1994_1_1.py:42-64 PRd. *)
Definition stud_PRd (len d fu fck Ecm : R) : option R :=
  bind (stud_concrete len d fck Ecm) (fun c => Some (Rmin (stud_steel fu d) c)).
