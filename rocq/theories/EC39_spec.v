(** Specification of EN 1993-1-1 Table B.3, written from the standard. *)
From Verif Require Import Base.

(** Span moment not larger than the end moment: [a] their ratio, [p] the ratio of the end moments. *)
Definition B3_sag (a p : R) (uni : bool) : R :=
  Rmax (4/10) (if Rle_dec 0 a then 2/10 + 8/10 * a
               else if Rle_dec 0 p then (if uni then 1/10 - 8/10 * a else - (8/10) * a)
               else (if uni then 1/10 * (1 - p) - 8/10 * a else 2/10 * (- p) - 8/10 * a)).
(** Span moment larger: [a] the ratio of end and span moment. *)
Definition B3_hog (a p : R) (uni : bool) : R :=
  if Rle_dec 0 a then (if uni then 95/100 + 5/100 * a else 90/100 + 10/100 * a)
  else let q := if Rle_dec 0 p then 1 else 1 + 2 * p in if uni then 95/100 + 5/100 * a * q else 90/100 + 10/100 * a * q.
