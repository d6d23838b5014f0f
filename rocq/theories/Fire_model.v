(** Model of metku/eurocodes/en1993/en1993_1_2.py (EN 1993-1-2, fire design).
    [None] stands for a raised exception. *)
From Verif Require Export EC3_model.

(** en1993_1_2.py:20-50 the property names used as keys of the tables. *)
Inductive prop := ky | kp | kE | kp02 | k02 | ku | kEct | epsU | kb | other_prop.

(** A table: temperature -> property -> factor; [None] is a KeyError
    (en1993_1_2.py:20-64). *)
Definition table := list (Z * (prop -> option R)).

(** en1993_1_2.py:21-33: one row of REDUCTION_FACTORS_CS. *)
Definition cs (y p e p2 : R) : prop -> option R :=
  fun q => match q with ky => Some y | kp => Some p | kE => Some e | kp02 => Some p2 | _ => None end.
(** en1993_1_2.py:20-33. *)
Definition CS : table :=
  [(20, cs 1 1 1 1); (100, cs 1 1 1 1); (200, cs 1 (807/1000) (9/10) (89/100));
   (300, cs 1 (613/1000) (8/10) (78/100)); (400, cs 1 (420/1000) (7/10) (65/100));
   (500, cs (780/1000) (360/1000) (6/10) (53/100)); (600, cs (470/1000) (180/1000) (310/1000) (30/100));
   (700, cs (230/1000) (75/1000) (130/1000) (13/100)); (800, cs (110/1000) (50/1000) (90/1000) (7/100));
   (900, cs (60/1000) (375/10000) (675/10000) (5/100)); (1000, cs (40/1000) (250/10000) (450/10000) (3/100));
   (1100, cs (20/1000) (125/10000) (225/10000) (2/100)); (1200, cs 0 0 0 0)]%Z.

(** en1993_1_2.py:37-49: one row of REDUCTION_FACTORS_14301. *)
Definition ss (y p u e c eu : R) : prop -> option R :=
  fun q => match q with ky => Some y | k02 => Some p | ku => Some u | kE => Some e | kEct => Some c | epsU => Some eu | _ => None end.
(** en1993_1_2.py:36-50. *)
Definition SS : table :=
  [(20, ss (26/100) 1 1 1 (11/100) (40/100)); (100, ss (24/100) (82/100) (87/100) (96/100) (5/100) (40/100));
   (200, ss (19/100) (68/100) (77/100) (92/100) (2/100) (40/100)); (300, ss (19/100) (64/100) (73/100) (88/100) (2/100) (40/100));
   (400, ss (19/100) (60/100) (72/100) (84/100) (2/100) (40/100)); (500, ss (19/100) (54/100) (67/100) (80/100) (2/100) (40/100));
   (600, ss (22/100) (49/100) (58/100) (76/100) (2/100) (35/100)); (700, ss (26/100) (40/100) (43/100) (71/100) (2/100) (30/100));
   (800, ss (35/100) (27/100) (27/100) (63/100) (2/100) (20/100)); (900, ss (38/100) (14/100) (15/100) (45/100) (2/100) (20/100));
   (1000, ss (40/1000) (6/100) (7/100) (2/10) (2/100) (20/100)); (1100, ss (40/1000) (3/100) (3/100) (1/10) (2/100) (20/100));
   (1200, ss (40/1000) 0 0 0 (2/100) (20/100))]%Z.

(** en1993_1_2.py:53-64: one row of REDUCTION_FACTORS_BOLTS. *)
Definition bo (k : R) : prop -> option R := fun q => match q with kb => Some k | _ => None end.
(** en1993_1_2.py:52-64. *)
Definition BO : table :=
  [(20, bo 1); (100, bo (968/1000)); (150, bo (952/1000)); (200, bo (935/1000)); (300, bo (903/1000));
   (400, bo (775/1000)); (500, bo (550/1000)); (600, bo (220/1000)); (700, bo (100/1000)); (800, bo (67/1000));
   (900, bo (33/1000)); (1000, bo 0)]%Z.

(** en1993_1_2.py:66. *)
Definition SPECIAL_TEMPS : list Z := [20; 100; 150; 200; 300; 400; 500; 600; 700; 800; 900; 1000; 1100; 1200]%Z.

(** en1993_1_2.py:107 the steel argument. *)
Inductive steel := carbon | s14301 | bolts | unknown.

(** Dictionary lookup d[t][prop] (en1993_1_2.py:114-118, 131-139). *)
Fixpoint lookup (t : Z) (p : prop) (d : table) : option R :=
  match d with [] => None | (k, row) :: r => if Z.eqb t k then row p else lookup t p r end.

(** en1993_1_2.py:113-139 table of a steel; [None] for an unknown one. *)
Definition table_of (s : steel) : option table :=
  match s with carbon => Some CS | s14301 => Some SS | bolts => Some BO | unknown => None end.

(** en1993_1_2.py:89-105. *)
Definition linear_interpolation (x1 y1 x2 y2 x : R) : option R :=
  bind (pdiv (y2 - y1) (x2 - x1)) (fun k => let b := y1 - k * x1 in Some (k * x + b)).

(** en1993_1_2.py:112 the table temperature equal to t, if any. *)
Definition special (t : R) : option Z := find (fun z => Reqb (IZR z) t) SPECIAL_TEMPS.
(** en1993_1_2.py:127 np.max of the special temperatures below t; ValueError on none. *)
Definition t_smaller (t : R) : option Z :=
  match filter (fun z => Rltb (IZR z) t) SPECIAL_TEMPS with [] => None | a :: r => Some (fold_left Z.max r a) end.
(** en1993_1_2.py:128 np.min of the special temperatures above t. *)
Definition t_larger (t : R) : option Z :=
  match filter (fun z => Rltb t (IZR z)) SPECIAL_TEMPS with [] => None | a :: r => Some (fold_left Z.min r a) end.

(** en1993_1_2.py:107-144; for an unknown steel the factor is 1.0 at the special
    temperatures (with a printed message) and the locals are unassigned elsewhere. *)
Definition reduce_property (t : R) (p : prop) (s : steel) : option R :=
  match special t with
  | Some z => match table_of s with Some d => lookup z p d | None => Some 1 end
  | None =>
      bind (t_smaller t) (fun ts => bind (t_larger t) (fun tl =>
      bind (table_of s) (fun d =>
      bind (lookup ts p d) (fun ps => bind (lookup tl p d) (fun pl =>
      linear_interpolation (IZR ts) ps (IZR tl) pl t)))))
  end.

(** en1993_1_2.py:71-78; math.log(8t+1, 10) raises unless 8t+1 > 0. *)
Definition standard_fire (t : R) : option R :=
  if Rltb 0 (8 * t + 1) then Some (20 + 345 * (ln (8 * t + 1) / ln 10)) else None.
(** en1993_1_2.py:80-87. *)
Definition hydrocarbon_fire (t : R) : R :=
  20 + 1080 * (1 - 325/1000 * exp (- (167/1000) * t) - 675/1000 * exp (- (25/10) * t)).

(** en1993_1_2.py:147-154. *)
Definition EaT (t Ea : R) (s : steel) : option R := bind (reduce_property t kE s) (fun k => Some (k * Ea)).
(** en1993_1_2.py:156-163. *)
Definition fyT (t fy : R) (s : steel) : option R := bind (reduce_property t ky s) (fun k => Some (k * fy)).
(** en1993_1_2.py:165-172. *)
Definition fpT (t fp : R) (s : steel) : option R := bind (reduce_property t kp s) (fun k => Some (k * fp)).
(** en1993_1_2.py:181-198, carbon steel. *)
Definition fuT (t fy_T : R) : R :=
  if Rltb t 300 then 125/100 * fy_T else if Rltb t 400 then fy_T * (2 - 25/10000 * t) else fy_T.
(** en1993_1_2.py:200-204. *)
Definition kbT (t : R) : option R := reduce_property t kb bolts.

(** en1993_1_2.py:207-252 once fp, E, fy at the temperature are known; fu is the
    strength used with hardening. math.sqrt of a negative and division by zero raise. *)
Definition stress_law (eps fp E fy fu : R) (hardening : bool) : option R :=
  bind (pdiv fp E) (fun ept =>
  if Rleb eps ept then Some (E * eps)
  else if Rltb eps (2/100) then
    let d := 2/100 - ept in
    bind (pdiv ((fy - fp) ^ 2) (d * E - 2 * (fy - fp))) (fun c =>
    bind (psqrt (c * d * E + c ^ 2)) (fun b =>
    bind (psqrt (d * (d + c / E))) (fun a =>
    bind (pdiv b a) (fun q =>
    bind (psqrt (a ^ 2 - (2/100 - eps) ^ 2)) (fun s =>
    Some (fp - c + q * s))))))
  else if Rleb eps (15/100) then
    if hardening then
      if Rltb eps (4/100) then Some (50 * (fu - fy) * eps + 2 * fy - fu) else Some fu
    else Some fy
  else if Rltb eps (20/100) then
    if hardening then Some (fu * (1 - 20 * (eps - 15/100)))
    else Some (fy * (1 - (eps - 15/100) / (20/100 - 15/100)))
  else Some 0).

(** en1993_1_2.py:207-252. The yield strength is looked up first instead of inside
    the branches; it raises for exactly the temperatures for which fpT raises. *)
Definition stress (strain t Ea fya : R) (hardening : bool) : option R :=
  bind (fpT t fya carbon) (fun fp => bind (EaT t Ea carbon) (fun E =>
  bind (fyT t fya carbon) (fun fy => stress_law strain fp E fy (fuT t fy) hardening))).

(** en1993_1_2.py:285-297. *)
Definition therm_elongation (t : R) : R :=
  if Rltb t 750 then 12/1000000 * t + 4/1000000000 * t ^ 2 - 2416/10000000
  else if Rleb t 860 then 11/1000
  else 2/100000 * t - 62/10000.
(** en1993_1_2.py:299-308. *)
Definition therm_conductivity (t : R) : R := if Rltb t 800 then 54 - 333/10000 * t else 273/10.
(** en1993_1_2.py:311-325. *)
Definition spec_heat (t : R) : option R :=
  if Rltb t 600 then Some (425 + 773/1000 * t - 169/100000 * t ^ 2 + 222/100000000 * t ^ 3)
  else if Rltb t 735 then bind (pdiv 13002 (738 - t)) (fun q => Some (666 + q))
  else if Rltb t 900 then bind (pdiv 17820 (t - 731)) (fun q => Some (545 + q))
  else Some 650.
(** en1993_1_2.py:327-332. *)
Definition therm_elongation_stainless (t : R) : R :=
  (16 + 479/100000 * t - 1243/1000000000 * t ^ 2) * (t - 20) * (1/1000000).
(** en1993_1_2.py:335-339. *)
Definition therm_conductivity_stainless (t : R) : R := 146/10 + 127/10000 * t.
(** en1993_1_2.py:342-346. *)
Definition spec_heat_stainless (t : R) : R :=
  450 + 280/1000 * t - 291/1000000 * t ^ 2 + 134/1000000000 * t ^ 3.

(** en1993_1_2.py:416-426 net heat flux. *)
Definition hnet (tg ts phi eps_f eps_m ac : R) : R :=
  let s := 567/10000000000 in
  ac * (tg - ts) + phi * eps_m * eps_f * s * ((tg + 273) ^ 4 - (ts + 273) ^ 4).

(** en1993_1_2.py:377-378, 410-411: one step of the temperature of unprotected steel. *)
Definition steel_step (heat : R -> option R) (eps_m ac ksh AmV dt tg T : R) : option R :=
  bind (heat T) (fun ca => bind (pdiv (ksh * AmV) ca) (fun q =>
  Some (T + q / 7850 * hnet tg T 1 1 eps_m ac * dt))).

(** en1993_1_2.py:349-381, 383-414: the loop, with [fuel] bounding the number of passes; the
    lists are built newest first. [None]: an exception, or the fuel ran out. *)
Fixpoint steel_loop (fuel : nat) (heat : R -> option R) (gas : R -> option R) (eps_m ac ksh AmV tmax dt t : R)
  (Ts Tm : list R) : option (list R * list R) :=
  if Rltb t tmax then
    match fuel with
    | O => None
    | S k =>
        bind (gas (t / 60)) (fun tg =>
        bind (steel_step heat eps_m ac ksh AmV dt tg (hd 0 Ts)) (fun T' =>
        steel_loop k heat gas eps_m ac ksh AmV tmax dt (t + dt) (T' :: Ts) ((t + dt) / 60 :: Tm)))
    end
  else Some (Ts, Tm).
(** en1993_1_2.py:349-381 steel_temp with the standard fire (aconv = 25). *)
Definition steel_temp (fuel : nat) (ksh AmV tmax dt T0 : R) : option (list R * list R) :=
  steel_loop fuel spec_heat standard_fire (7/10) 25 ksh AmV tmax dt 0 [T0] [0].
(** en1993_1_2.py:383-414 stainless_steel_temp with the standard fire. *)
Definition stainless_steel_temp (fuel : nat) (ksh AmV tmax dt T0 : R) : option (list R * list R) :=
  steel_loop fuel (fun t => Some (spec_heat_stainless t)) standard_fire (4/10) 25 ksh AmV tmax dt 0 [T0] [0].
