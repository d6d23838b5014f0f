(** Specification of the zones of flat roofs (EN 1991-1-4, 7.2.1 and 7.2.3). *)
From Verif Require Export Wfr_model.
Require Import List. Import ListNotations.
Local Open Scope R_scope.

(** The point at distance x from the windward edge and y along it lies in the zone: two corners F of the given size, G
    between them, then H and I one behind the other. *)
Definition covers (zs : zname -> zone) (b : R) (k : zname) (x y : R) : Prop :=
  match k with
  | ZF => 0 <= x < z_wid (zs ZF) /\ (0 <= y < z_len (zs ZF) \/ b - z_len (zs ZF) <= y <= b)
  | ZG => 0 <= x < z_wid (zs ZG) /\ z_len (zs ZF) <= y < z_len (zs ZF) + z_len (zs ZG)
  | ZH => z_wid (zs ZF) <= x < z_wid (zs ZF) + z_wid (zs ZH) /\ 0 <= y <= z_len (zs ZH)
  | ZI => z_wid (zs ZF) + z_wid (zs ZH) <= x <= z_wid (zs ZF) + z_wid (zs ZH) + z_wid (zs ZI) /\ 0 <= y <= z_len (zs ZI)
  end.
(** Area of a zone. *)
Definition zarea (z : zone) : R := z_len z * z_wid z.
(** Coefficients cpe,1 and cpe,10 of Table 7.2 for sharp eaves; the coefficient of a loaded area of [A] square metres. *)
Definition en_cpe (c1 c10 A : R) : R :=
  if Rle_dec A 1 then c1 else if Rle_dec 10 A then c10 else c1 - (c1 - c10) * (ln A / ln 10).
