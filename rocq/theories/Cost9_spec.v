(** Independently written price formulas of the workshop. *)
From Verif Require Export Cost_spec.

(** The yearly payment that repays [P] in [n] years at interest [i]. *)
Definition yearly (P i : R) (n : nat) : R := P * i / (1 - / (1 + i) ^ n).
(** Price of a minute of a cost centre: wages with 70 % overheads, repayment and maintenance of
    the equipment, repayment and maintenance of the floor area; 120960 working minutes a year. *)
Definition minute_rate (workers area price maint : R) (years : nat) : R :=
  workers * (33592/1000) / 60 + (yearly price (5/100) years + maint + yearly (area * 988) (5/100) 50 + area * (924548/10000)) / 120960.
(** Litres of paint per square metre of dry surface, and its price in 1e-6 euros per square millimetre. *)
Definition paint_volume (p : paint) : R :=
  match p with Alkyd => 2375/10000 + 62/225 | Epoxy => 352/1000 + 31/240 | Polyurethane => 352/1000 | Acryl => 11/30 + 155/1000 end.
Definition paint_price (p : paint) : R :=
  match p with Alkyd => 1657/1000 | Epoxy => 14784/10000 + 49/10 * (31/240) | Polyurethane => 17776/10000 | Acryl => 64/10 * (11/30 + 155/1000) end.
(** Minutes of arc time and kilograms of wire per millimetre of weld of the given size. *)
Definition arc_time (w : wtype) (a : R) : R :=
  match w with Fillet => (4988 * a ^ 2 - 5 * a + 21) / 10000000 | _ => (2490 * a ^ 2 + 96 * a - 506) / 10000000 end.
Definition wire_mass (w : wtype) (a : R) : R := match w with Fillet => 785/100000000 * a ^ 2 | _ => 785/200000000 * a ^ 2 end.
(** Minutes for sawing an end, and the price of the blade wear there. *)
Definition end_time (e : saw_end) : R := let '(t, h, Ah, At) := e in h / (2 * feeding_speed t) + Ah / 1800.
Definition blade (e : saw_end) : R := let '(t, h, Ah, At) := e in 170 * At / (2430000 * fsp t * end_time e).
(** Price of thickness of a plate from the first to the second thickness. *)
Definition thickness_table : list (R * R * R) :=
  [(5, 6, 140); (6, 7, 82); (7, 8, 35); (8, 10, 23); (10, 12, 12); (12, 20, 0); (20, 50, 12); (50, 60, 47); (60, 80, 58)].
