(** Specification vocabulary for cold-formed members. *)
From Verif Require Export Cold_model.

(** EN 1993-1-3, 6.1.7.2 without web stiffeners, written with the ratios x = r/t, h = hw/t and s = ss/t; the angle enters by
    the square of phi/90. *)
Definition en_k3 (phi : R) : R := 7/10 + 3/10 * (phi / 90) ^ 2.
Definition en_end (k x phi : R) : R := (133/100 - 33/100 * k) * Rmin (Rmax (115/100 - 15/100 * x) (1/2)) 1 * en_k3 phi.
Definition en_interior (k x phi : R) : R := en_k3 phi * (122/100 - 22/100 * k) * Rmin (106/100 - 6/100 * x) 1.
Definition en_coefficient (opposite far stiff : bool) (k x h s phi : R) : R :=
  match opposite, far, stiff with
  | false, false, true => en_end k x phi * (904/100 - h / 60) * (1 + s / 100)
  | false, false, false => en_end k x phi * (592/100 - h / 132) * (if Rleb s 60 then 1 + s / 100 else 71/100 + 15 * s / 1000)
  | false, true, _ => en_interior k x phi * (147/10 - 2 * h / 99) * (if Rleb s 60 then 1 + 7 * s / 1000 else 75/100 + 11 * s / 1000)
  | true, false, _ => en_end k x phi * (666/100 - h / 64) * (1 + s / 100)
  | true, true, _ => en_interior k x phi * (21 - 10 * h / 163) * (1 + 13 * s / 10000)
  end.
Definition en_resistance (fyb t hw ss c r phi e : R) (stiff : bool) : R :=
  en_coefficient (Rleb (1/1000000) (Rabs e)) (Rltb (15/10 * hw) c) stiff (fyb / 228) (r / t) (hw / t) (ss / t) phi * (t ^ 2 * fyb).
(** The range of validity of the rules for a single web. *)
Definition web_range (fyb t hw ss r phi : R) : Prop :=
  0 < t /\ 0 < fyb < 4 * 228 /\ 0 <= hw <= 200 * t /\ 0 <= ss <= 210 * t /\ 0 <= r <= 6 * t /\ 0 <= phi.
(** A trapezoidal web of height [h] inclined by [v]: its length is h/sin v and it covers h/tan v. *)
Definition web_length (h v : R) : R := h / sin v.
Definition web_run (h v : R) : R := h * cos v / sin v.
(** EN 1993-1-3, Eq. (6.18), with the coefficient alfa and the bearing length la. *)
Definition en_sheet (alfa la fyb r t phi : R) : R :=
  alfa * t ^ 2 * sqrt (fyb * 210000) * (1 - sqrt (r / t) / 10) * (1/2 + sqrt (la / (50 * t))) * (24/10 + (phi / 90) ^ 2).
(** All keywords of the axial resistance given. *)
Definition all_kw (fa fb Ae lr : R) : axkw := mkAx (Some fa) (Some fb) (Some Ae) (Some lr).
(** EN 1993-1-3, Table 8.2: the lower value of alfa. *)
Definition en_alfa_low (t d : R) : R := Rmin (32/10 * sqrt (t / d)) (21/10).
(** EN 1993-1-2, Annex D: bearing at elevated temperature, with the strength of the plate. *)
Definition en_bearing_fire (fuT fubT d t e1 e2 : R) : R :=
  Rmin (2 * e2 / d - 1) (25/10) * Rmin (Rmin (e1 / (3 * d)) (fubT / fuT)) 1 * fuT * d * t.
