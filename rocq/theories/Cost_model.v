(** Model of metku/cost (workshop.py, cost_data.py, bolt_cost of cost_calculation.py) and of the
    plate costs in metku/structures/steel/plates.py. *)
From Verif Require Export EC3_model.

(** workshop.py:39-41 working minutes per year. *)
Definition minutes : R := 252 * 8 * 60.
(** workshop.py:43-56: minute rate of the group "machine" with overheads. *)
Definition wage_machine : R := 1976/100 * (1 + 7/10) / 60.
(** workshop.py:64-71: construction and land cost per square metre. *)
Definition construction_cost : R := 1000.
(** workshop.py:69-71. *)
Definition land_cost : R := 6 / (5/10).
(** workshop.py:77-85 maintenance per square metre and year. *)
Definition real_maintenance : R := 8 * (6385/1000) * 181 / 100.
(** workshop.py:90-91 energy per kW and minute. *)
Definition energy_min : R := (1/10) / 60.

(** workshop.py:223-228 annual_cost (also cost_calculation.py:105-110); [None]: division by zero. *)
Definition annual_cost (P I0 : R) (n : nat) : option R :=
  option_map (fun q => P * q) (pdiv (I0 * (1 + I0) ^ n) ((1 + I0) ^ n - 1)).

(** A cost centre (workshop.py:234-265): unit costs per minute, costs per productive minute, cost
    of consumables, utility and the two times. *)
Record centre := mkCentre { labour : R; equip : R; eq_maint : R; estate : R; estate_maint : R;
  cons : R; energy : R; cons_cost : R; utility : R; prod : R; nonprod : R }.
(** Assignments to the times and productive costs (workshop.py:434, 473, 489, 498, 858). *)
Definition set_prod (x : R) (c : centre) := mkCentre (labour c) (equip c) (eq_maint c) (estate c) (estate_maint c) (cons c) (energy c) (cons_cost c) (utility c) x (nonprod c).
(** workshop.py:693. *)
Definition set_nonprod (x : R) (c : centre) := mkCentre (labour c) (equip c) (eq_maint c) (estate c) (estate_maint c) (cons c) (energy c) (cons_cost c) (utility c) (prod c) x.
(** workshop.py:489, 498. *)
Definition set_cons (x : R) (c : centre) := mkCentre (labour c) (equip c) (eq_maint c) (estate c) (estate_maint c) x (energy c) (cons_cost c) (utility c) (prod c) (nonprod c).
(** workshop.py:511. *)
Definition set_energy (x : R) (c : centre) := mkCentre (labour c) (equip c) (eq_maint c) (estate c) (estate_maint c) (cons c) x (cons_cost c) (utility c) (prod c) (nonprod c).
(** workshop.py:559, 656. *)
Definition set_cons_cost (x : R) (c : centre) := mkCentre (labour c) (equip c) (eq_maint c) (estate c) (estate_maint c) (cons c) (energy c) x (utility c) (prod c) (nonprod c).
(** workshop.py:410, 617, 704. *)
Definition set_labour (x : R) (c : centre) := mkCentre x (equip c) (eq_maint c) (estate c) (estate_maint c) (cons c) (energy c) (cons_cost c) (utility c) (prod c) (nonprod c).

(** workshop.py:234-282 CostCentre.__init__. *)
Definition new_centre (len wid invest resale maint : R) (years : nat) : option centre :=
  bind (annual_cost (len * wid * construction_cost - len * wid * land_cost) (5/100) 50) (fun re =>
  bind (annual_cost (invest - resale) (5/100) years) (fun eq =>
  Some (mkCentre 0 (eq / minutes) (maint / minutes) (re / minutes) (len * wid * real_maintenance / minutes) 0 0 0 1 0 0))).
(** Sum of the unit costs (workshop.py:289-292). *)
Definition rate (c : centre) : R := labour c + equip c + eq_maint c + estate c + estate_maint c.
(** workshop.py:289-292 CostCentre.cost; [None]: utility zero. *)
Definition centre_cost (c : centre) : option R :=
  option_map (fun q => q + prod c * (cons c + energy c) + cons_cost c) (pdiv ((prod c + nonprod c) * rate c) (utility c)).

(** The state after a call and its result; [None]: an exception. *)
Definition result : Type := centre * option R.

(** workshop.py:399-426 BlastingCost.__init__ (default dimensions and equipment). *)
Definition new_blasting : option centre :=
  option_map (fun c => set_energy (40 * energy_min) (set_cons (42/1000 * (75/100)) (set_labour (1 * wage_machine) c)))
    (new_centre 40 10 200000 0 1000 20).
(** workshop.py:427-440 BlastingCost.cost, conveyor speed [vc]. *)
Definition blasting_cost (vc Lb : R) (c : centre) : result :=
  match pdiv Lb vc with None => (c, None) | Some tp => let c := set_prod tp c in (c, centre_cost c) end.

(** workshop.py:445-459 CuttingCost.__init__. *)
Definition new_cutting : option centre :=
  option_map (fun c => set_labour (2 * wage_machine) (set_nonprod 3 c)) (new_centre 20 10 280000 0 1000 20).
(** workshop.py:467-470 cutting speed: plasma up to 30 mm, flame above. *)
Definition cut_speed (t : R) : R :=
  if Rleb t 30 then 89212/10000 * t ^ 2 - 48687/100 * t + 81558/10 else - (41939/10000) * t + 65867/100.
(** workshop.py:476-498 consumables per minute. *)
Definition cut_cons (t : R) : R :=
  if Rleb t 30 then 71/1000 * (3/10) + 40 / 480
  else 63/10000 * (184/10) + (25/1000 + (1/100000 * t ^ 2 + 1/1000 * t + 224/10000)) * (418/100).
(** workshop.py:500-511 energy per minute. *)
Definition cut_energy (t : R) : R := (if Rleb t 30 then 72 else 0) * energy_min.
(** workshop.py:513-520 CuttingCost.cost (also DrillingCost.cost, 952-959). *)
Definition cutting_cost (t L : R) (c : centre) : result :=
  match pdiv L (cut_speed t) with
  | None => (c, None)
  | Some tp => let c := set_energy (cut_energy t) (set_cons (cut_cons t) (set_prod tp c)) in (c, centre_cost c)
  end.

(** A film of paint (workshop.py:112-116): volume of solids, dry film thickness, price. *)
Record film := mkFilm { vol_solid : R; dft : R; price : R }.
(** The paint systems (workshop.py:112-116). *)
Inductive paint := Alkyd | Epoxy | Polyurethane | Acryl.
(** workshop.py:112-116. *)
Definition films (p : paint) : list film :=
  match p with
  | Alkyd => [mkFilm (48/100) 80 (28/10); mkFilm (45/100) 40 (36/10); mkFilm (45/100) 40 (36/10)]
  | Epoxy => [mkFilm (50/100) 60 (42/10); mkFilm (50/100) 60 (42/10); mkFilm (48/100) 40 (49/10)]
  | Polyurethane => [mkFilm (50/100) 60 (42/10); mkFilm (50/100) 60 (59/10)]
  | Acryl => [mkFilm (48/100) 60 (64/10); mkFilm (48/100) 60 (64/10); mkFilm (40/100) 40 (64/10)]
  end.
(** workshop.py:124-125: paint volume per unit area of a film. *)
Definition film_volume (f : film) : R := 1 / vol_solid f * (dft f * (1/1000) + (1/100 + 3/10 * dft f * (1/1000))).
(** workshop.py:118-131: time per area. *)
Definition paint_TPP (p : paint) : R := fold_left (fun a f => a + film_volume f) (films p) 0 / 900000.
(** workshop.py:127: cost per area. *)
Definition paint_CP (p : paint) : R := fold_left (fun a f => a + price f * (1/1000000) * film_volume f) (films p) 0.
(** workshop.py:524-538 PaintingCost.__init__. *)
Definition new_painting : option centre := option_map (set_labour (1 * wage_machine)) (new_centre 15 5 0 0 0 20).
(** workshop.py:541-567 PaintingCost.cost. *)
Definition painting_cost (p : paint) (Ap : R) (c : centre) : result :=
  let c := set_cons_cost (paint_CP p * Ap) (set_prod (paint_TPP p * Ap) c) in (c, centre_cost c).

(** Weld types (workshop.py:586, 628-631); [WOther]: any other string. *)
Inductive wtype := Fillet | Butt | WOther.
(** workshop.py:621-635 welding_time; [None]: unbound variable for another type. *)
Definition welding_time (size len : R) (w : wtype) : option R :=
  match w with
  | Fillet => Some (len * (1/1000) * (4988/10000 * size ^ 2 - 5/10000 * size + 21/10000))
  | Butt => Some (len * (1/1000) * (249/1000 * size ^ 2 + 96/10000 * size - 506/10000))
  | WOther => None
  end.
(** workshop.py:601-606, 615: tack welding time, three tacks. *)
Definition tacking_time : R := 5/10 + 5/10 + 27/100 + (9/100 * 3 + 5/100).
(** workshop.py:645-654 weld metal. *)
Definition weld_weight (size len : R) (w : wtype) : option R :=
  match w with
  | Fillet => Some (len * size ^ 2 * (7850 / 1000000000))
  | Butt => Some (len * size ^ 2 / 2 * (7850 / 1000000000))
  | WOther => None
  end.
(** workshop.py:572-619 AssemblingCostWeld.__init__: the times set there are overwritten by cost. *)
Definition new_welding : option centre :=
  option_map (fun c => set_labour (1 * wage_machine) (set_energy (200 * 30 * (1/1000) * energy_min) c)) (new_centre 15 5 5000 0 0 10).
(** workshop.py:660-670 AssemblingCostWeld.cost with wire price [wire] (workshop.py:136-139). *)
Definition weld_cost (wire size len : R) (w : wtype) (c : centre) : result :=
  match weld_weight size len w with
  | None => (c, None)
  | Some kg => let c := set_cons_cost (kg * (wire + 4/10 * (379/100))) c in
    match welding_time size len w with
    | None => (c, None)
    | Some t => let c := set_prod (t + tacking_time) c in (c, centre_cost c)
    end
  end.

(** workshop.py:141-149 sawing_base_time. *)
Definition saw_base : R := 2 + 2 * (1/4 + 1/2 + 1/2).
(** workshop.py:757-780 feeding_speed. *)
Definition feeding_speed (t : R) : R :=
  if Rleb t 5 then 120 else if Rleb t 10 then 100 else if Rleb t 15 then 90 else if Rleb t 20 then 80
  else if Rleb t 25 then 70 else if Rleb t 30 then 60 else if Rleb t 35 then 50 else 40.
(** workshop.py:782-805 Fsp. *)
Definition fsp (t : R) : R :=
  if Rleb t 5 then 4/10 else if Rleb t 10 then 45/100 else if Rleb t 15 then 5/10 else if Rleb t 20 then 55/100
  else if Rleb t 25 then 6/10 else if Rleb t 30 then 65/100 else if Rleb t 35 then 7/10 else 8/10.
(** workshop.py:718-735 productive_time; Sm = 2 and Q = 1800 for every grade (155-161). *)
Definition saw_time (h t Ah : R) : R := h / 2 / feeding_speed t + Ah / 1800.
(** workshop.py:738-753, 807-816 consumables: [None]: division by zero. *)
Definition saw_cons (At t tp : R) : option R :=
  option_map (fun q => q * 170) (bind (pdiv At (1800 * 1350 * fsp t)) (fun q => pdiv q tp)).
(** workshop.py:675-704 SawingCost.__init__. *)
Definition new_sawing : option centre :=
  option_map (fun c => set_labour (1 * wage_machine) (set_energy (10 * energy_min) (set_nonprod saw_base c))) (new_centre 35 15 310000 0 1000 20).
(** An end of the member: thickness, height, area of the solid part, total area; the four lists
    are zipped (workshop.py:853). *)
Definition saw_end : Type := R * R * R * R.
(** workshop.py:850-856: the loop over the ends, accumulating time and consumables. *)
Fixpoint saw_ends (es : list saw_end) (tp kk : R) : option (R * R) :=
  match es with
  | [] => Some (tp, kk)
  | (t, h, Ah, At) :: es => let x := saw_time h t Ah in bind (saw_cons At t x) (fun k => saw_ends es (tp + x) (kk + k))
  end.
(** Python's zip of four lists (workshop.py:853). *)
Fixpoint zip4 (ts hs ahs ats : list R) : list saw_end :=
  match ts, hs, ahs, ats with t :: ts, h :: hs, a :: ahs, b :: ats => (t, h, a, b) :: zip4 ts hs ahs ats | _, _, _, _ => [] end.
(** workshop.py:818-860 SawingCost.cost. *)
Definition sawing_cost (L bevels : R) (hs ts ahs ats : list R) (c : centre) : result :=
  let c := set_nonprod (saw_base + 1 * bevels + L / 20000) c in
  match saw_ends (zip4 ts hs ahs ats) 0 0 with
  | None => (c, None)
  | Some (tp, kk) => let c := set_cons_cost kk (set_prod tp c) in (c, centre_cost c)
  end.

(* ---------------------------------------------------------------- plates *)

(** cost_data.py:22-28 steel_grade_add_on: S235, or any other grade. *)
Definition grade_add_on (s235 : bool) : R := if s235 then 0 else 35.
(** cost_data.py:33-57 thickness_add_on. *)
Definition thickness_add_on (t : R) : R :=
  if andb (Rleb 5 t) (Rltb t 6) then 140 else if andb (Rleb 6 t) (Rltb t 7) then 82
  else if andb (Rleb 7 t) (Rltb t 8) then 35 else if andb (Rleb 8 t) (Rltb t 10) then 23
  else if andb (Rleb 10 t) (Rltb t 12) then 12 else if andb (Rleb 12 t) (Rltb t 15) then 0
  else if andb (Rleb 15 t) (Rltb t 20) then 0 else if andb (Rleb 20 t) (Rltb t 40) then 12
  else if andb (Rleb 40 t) (Rltb t 50) then 12 else if andb (Rleb 50 t) (Rltb t 60) then 47
  else if andb (Rleb 60 t) (Rltb t 80) then 58 else 140.
(** cost_data.py:62-70 quantity_add_on. *)
Definition quantity_add_on (m : R) : R := if Rltb m 5000 then 64 else if Rltb m 10000 then 34 else if Rltb m 15000 then 8 else 0.

(** What a workshop charges (workshop.py:970-988): cutting, painting, blasting and welding as
    functions of their arguments; [None]: an exception. *)
Record shop := mkShop { ws_cut : R -> R -> option R; ws_paint : R -> option R; ws_blast : R -> option R; ws_weld : R -> R -> option R }.
(** A plate (plates.py:28-49) with the two stored costs that are not always overwritten. *)
Record plate := mkPlate { pb : R; ph : R; pt : R; prho : R; s235 : bool; weld_size : R; holes : list R; st_weld : R; st_holes : R }.
(** plates.py:66-88. *)
Definition circumference (p : plate) : R := 2 * (ph p + pb p).
(** plates.py:80-86. *)
Definition paint_area (p : plate) : R := 2 * (ph p * pb p) + pt p * circumference p.
(** plates.py:97-99 cost of the material. *)
Definition plate_material (price : R) (p : plate) : R :=
  prho p * (ph p * pb p * pt p) * (price + grade_add_on (s235 p) + thickness_add_on (pt p)) * (1/1000).
(** plates.py:92-116 RectPlate.cost: the plate with its stored costs, and the total. *)
Definition plate_cost (w : shop) (price : R) (p : plate) : option (plate * R) :=
  bind (ws_cut w (pt p) (circumference p)) (fun cut =>
  bind (ws_paint w (paint_area p)) (fun pnt =>
  bind (ws_blast w (Rmax (pb p) (ph p))) (fun bl =>
  bind (if Rltb 0 (weld_size p) then ws_weld w (weld_size p) (circumference p) else Some (st_weld p)) (fun wd =>
  bind (match holes p with [] => Some (st_holes p) | hs => ws_cut w (pt p) (Rsum (map (fun d => d * PI) hs)) end) (fun ho =>
  Some (mkPlate (pb p) (ph p) (pt p) (prho p) (s235 p) (weld_size p) (holes p) wd ho,
        plate_material price p + cut + pnt + wd + ho + bl)))))).
(** The charges of a workshop with the given centres (workshop.py:977-984); each centre keeps its
    own state, see C132 for its irrelevance. *)
Definition shop_of (cut pnt bl wd : centre) (p : paint) (wire : R) : shop :=
  mkShop (fun t L => snd (cutting_cost t L cut)) (fun A => snd (painting_cost p A pnt))
         (fun L => snd (blasting_cost 3000 L bl)) (fun s L => snd (weld_cost wire s L Fillet wd)).

(* ---------------------------------------------------------------- bolts *)

(** cost_calculation.py:67-78: the bolt size used for pricing; [sizes] is the table of sizes. *)
Definition bolt_size (sizes : list R) (d : R) : R :=
  if existsb (Reqb d) sizes then d
  else fold_left (fun acc (ix : nat * R) => let '(i, x) := ix in
    if andb (Rltb d x) (negb (Nat.eqb i 1)) then x
    else if andb (Rltb d x) (Nat.ltb 1 i) then nth (i - 1) sizes 0
    else last sizes 0) (combine (seq 0 (length sizes)) sizes) 0.
