(** Specifications for the plate rules. *)
From Verif Require Export Base.

(** Width of the compressed part of a plate of width b with stress ratio ps. *)
Definition compressed (b ps : R) : R := if Rlt_dec ps 0 then b / (1 - ps) else b.

(** The branch formulas of Table 4.1 without their special points. *)
Definition table41 (ps : R) : R :=
  if Rle_dec 0 ps then 82/10 / (105/100 + ps)
  else if Rle_dec (-1) ps then 781/100 - 629/100 * ps + 978/100 * ps ^ 2
  else 598/100 * (1 - ps) ^ 2.

(** Positive inputs of the transverse force check. *)
Definition tf_ok (fyw hw tw fyf bf tf ss a : R) : Prop :=
  0 < fyw /\ 0 < hw /\ 0 < tw /\ 0 < fyf /\ 0 < bf /\ 0 < tf /\ 0 <= ss /\ 0 <= a.

(** Distance between stiffeners; 0 stands for no stiffeners (1000 hw). *)
Definition spacing (hw a : R) : R := if Req_EM_T a 0 then 1000 * hw else a.
