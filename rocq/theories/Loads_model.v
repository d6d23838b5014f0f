(** Model of metku/eurocodes/en1991/en1991.py (load combinations), en1991_1_4.py (wind) and of
    metku/eurocodes/en1995/en1995_1_1.py, en1995_1_2.py, fire_protection.py (timber in fire). *)
From Verif Require Export EC3_model.

(* ---------------------------------------------------------------- loads *)

(** The load classes of en1991.py:40-130. *)
Inductive lkind := kLoad | kArea | kImposed | kSnow | kWind.
(** Direction of a load (en1991.py:163). *)
Inductive ldir := dx | dy | dz.
(** An entry [load, direction, ids] (en1991.py:158-165) with the attributes of the load object
    (en1991.py:43-48). *)
Record load := mkLoad { l_kind : lkind; l_val : R; l_psi : R * R * R; l_dir : ldir; l_ids : list nat }.

(** en1991.py:21-27; [None]: KeyError. *)
Definition comb_factors (cls : nat) : option (R * R * R) :=
  match cls with
  | 0%nat => Some (7/10, 5/10, 3/10) | 1%nat => Some (7/10, 5/10, 3/10) | 2%nat => Some (7/10, 7/10, 3/10)
  | 3%nat => Some (7/10, 7/10, 6/10) | 4%nat => Some (1, 9/10, 8/10) | _ => None
  end.
(** en1991.py:50-54; the factor with index 0, 1 or 2. *)
Definition psi (k : nat) (l : load) : R :=
  let '(a, b, c) := l_psi l in match k with 0%nat => a | 1%nat => b | _ => c end.
(** en1991.py:50-54 combined. *)
Definition combined (k : nat) (l : load) : R := l_val l * psi k l.
(** en1991.py:93-104, 106-107: copying a snow load runs its constructor, which chooses the factors. *)
Definition snow_psi (v : R) : R * R * R := if Rltb v (275/100) then (7/10, 4/10, 2/10) else (7/10, 5/10, 2/10).

(** en1991.py:134-152: a combiner; kfi is missing for a consequence class other than 1, 2, 3. *)
Record combiner := mkComb { c_cls : nat; c_kfi : option R; c_kk : R; c_G : list load; c_Q : list load }.
(** en1991.py:134-152. *)
Definition new_combiner (cls CC : nat) (kk : R) : combiner :=
  mkComb cls (match CC with 3%nat => Some (11/10) | 2%nat => Some 1 | 1%nat => Some (9/10) | _ => None end) kk [] [].
(** en1991.py:158-178 add, for one load. *)
Definition add_load (l : load) (c : combiner) : option combiner :=
  let l := match l_kind l with kSnow => mkLoad kSnow (l_val l) (snow_psi (l_val l)) (l_dir l) (l_ids l) | _ => l end in
  match l_kind l with
  | kSnow | kWind =>
      Some (mkComb (c_cls c) (c_kfi c) (c_kk c) (c_G c)
        (c_Q c ++ [mkLoad (l_kind l) (l_val l * c_kk c) (l_psi l) (l_dir l) (l_ids l)]))
  | kImposed => bind (comb_factors (c_cls c)) (fun f =>
      Some (mkComb (c_cls c) (c_kfi c) (c_kk c) (c_G c)
        (c_Q c ++ [mkLoad kImposed (l_val l * c_kk c) f (l_dir l) (l_ids l)])))
  | kArea => bind (comb_factors (c_cls c)) (fun f =>
      Some (mkComb (c_cls c) (c_kfi c) (c_kk c) (c_G c ++ [mkLoad kArea (l_val l * c_kk c) f (l_dir l) (l_ids l)]) (c_Q c)))
  | kLoad => bind (comb_factors (c_cls c)) (fun f =>
      Some (mkComb (c_cls c) (c_kfi c) (c_kk c) (c_G c ++ [mkLoad kLoad (l_val l) f (l_dir l) (l_ids l)]) (c_Q c)))
  end.
(** en1991.py:180-182. *)
Definition sum_G (c : combiner) : R := fold_right Rplus 0 (map l_val (c_G c)).
(** en1991.py:184-186. *)
Definition sum_Q (k : nat) (c : combiner) : R := fold_right Rplus 0 (map (combined k) (c_Q c)).
(** List without its i-th entry: every load object in the list is a distinct copy, so excluding
    an object excludes one position (en1991.py:188-192, 329). *)
Fixpoint drop_nth {A} (i : nat) (l : list A) : list A :=
  match l, i with [], _ => [] | _ :: l, 0%nat => l | x :: l, S i => x :: drop_nth i l end.
(** en1991.py:188-192. *)
Definition sum_Q_excl (i k : nat) (c : combiner) : R := fold_right Rplus 0 (map (combined k) (drop_nth i (c_Q c))).

(** A candidate combination: its value and the loads with their factors (en1991.py:319-333). *)
Record cand := mkCand { k_value : R; k_loads : list (load * R) }.
(** Python's max with a key: the first of the largest (en1991.py:335). *)
Definition py_max (x : cand) (l : list cand) : cand :=
  fold_left (fun m y => if Rltb (k_value m) (k_value y) then y else m) l x.
(** Loads with their positions (en1991.py:324). *)
Definition indexed {A} (l : list A) : list (nat * A) := combine (seq 0 (length l)) l.
(** en1991.py:313-335 ULSCombiner.combine for a given kfi. *)
Definition uls_cands (kfi : R) (c : combiner) : cand * list cand :=
  (mkCand (135/100 * kfi * sum_G c) (map (fun l => (l, 135/100 * kfi)) (c_G c)),
   map (fun il => let '(i, l) := il in
     mkCand (115/100 * kfi * sum_G c + 15/10 * kfi * l_val l + 15/10 * kfi * sum_Q_excl i 0 c)
       (map (fun l => (l, 115/100 * kfi)) (c_G c) ++ [(l, 15/10 * kfi)] ++
        map (fun lo => (lo, 15/10 * kfi * psi 0 lo)) (drop_nth i (c_Q c)))) (indexed (c_Q c))).
(** en1991.py:313-335. *)
Definition uls_combine (c : combiner) : option cand :=
  bind (c_kfi c) (fun kfi => let '(x, l) := uls_cands kfi c in Some (py_max x l)).
(** en1991.py:353-355: permanent loads with factor 1. *)
Definition perm (c : combiner) : list (load * R) := map (fun l => (l, 1)) (c_G c).
(** en1991.py:368-377 characteristic combination with load i leading. *)
Definition char_cand (c : combiner) (il : nat * load) : cand :=
  let '(i, l) := il in
  mkCand (sum_G c + l_val l + sum_Q_excl i 2 c) (perm c ++ [(l, 1)] ++ map (fun lo => (lo, psi 0 lo)) (drop_nth i (c_Q c))).
(** en1991.py:369-379 frequent combination with load i leading. *)
Definition freq_cand (c : combiner) (il : nat * load) : cand :=
  let '(i, l) := il in
  mkCand (sum_G c + combined 1 l + sum_Q_excl i 2 c) (perm c ++ [(l, psi 1 l)] ++ map (fun lo => (lo, psi 2 lo)) (drop_nth i (c_Q c))).
(** en1991.py:370, 381-382 quasi-permanent combination. *)
Definition quasi_cand (c : combiner) : cand :=
  mkCand (sum_G c + sum_Q 2 c) (perm c ++ map (fun l => (l, psi 2 l)) (c_Q c)).
(** Best of the candidates, or the permanent loads alone when there is no variable load
    (en1991.py:357-361, 414-416). *)
Definition best (c : combiner) (l : list cand) : cand :=
  match l with [] => mkCand (sum_G c) (perm c) | x :: l => py_max x l end.
(** en1991.py:349-416 SLSCombiner.combine: characteristic, frequent, quasi-permanent. *)
Definition sls_combine (c : combiner) : cand * cand * cand :=
  (best c (map (char_cand c) (indexed (c_Q c))), best c (map (freq_cand c) (indexed (c_Q c))), quasi_cand c).
(** en1991.py:454-467: factor of the leading load of an accidental combination. *)
Definition acc_psi (l : load) : R := match l_kind l with kSnow | kWind => psi 1 l | _ => psi 2 l end.
(** en1991.py:445-482 ACCCombiner.combine; the for-else appends the permanent loads alone last. *)
Definition acc_combine (c : combiner) : cand :=
  let vals := map (fun il => let '(i, l) := il in
     mkCand (sum_G c + l_val l * acc_psi l + sum_Q_excl i 2 c) (perm c ++ [(l, acc_psi l)] ++ map (fun lo => (lo, psi 2 lo)) (drop_nth i (c_Q c))))
     (indexed (c_Q c)) ++ [mkCand (sum_G c) (perm c)] in
  match vals with [] => mkCand 0 [] | x :: l => py_max x l end.

(** en1991.py:194-205 use_reduction_factor; numpy's clip. *)
Definition reduction_alpha (psi0 kk L : R) : R := Rmin (Rmax (5/7 * psi0 + 10 / (kk * L)) (7/10)) 1.
(** en1991.py:194-205; kk and L are positive. *)
Definition use_reduction (L : R) (c : combiner) : combiner :=
  if Nat.ltb (c_cls c) 4 then
    mkComb (c_cls c) (c_kfi c) (c_kk c) (c_G c)
      (map (fun l => match l_kind l with
        | kImposed => mkLoad kImposed (l_val l * reduction_alpha (psi 0 l) (c_kk c) L) (l_psi l) (l_dir l) (l_ids l)
        | _ => l end) (c_Q c))
  else c.

(** en1991.py:208-253: totals per member id; a direction other than x and y adds nothing.
    [rnd] is Python's round to two digits.  Simplified: the result is a function of the id
    rather than a list padded with None. *)
Definition id_total (rnd : R -> R) (d : ldir) (id : nat) (k : cand) : R :=
  fold_right Rplus 0 (map (fun lf : load * R => rnd (l_val (fst lf) * snd lf))
    (filter (fun lf : load * R => match l_dir (fst lf), d with dx, dx => true | dy, dy => true | _, _ => false end)
      (flat_map (fun lf : load * R => map (fun _ => lf) (filter (Nat.eqb id) (l_ids (fst lf)))) (k_loads k)))).

(* ---------------------------------------------------------------- wind *)

(** en1991_1_4.py:27-30; [None]: ZeroDivisionError. *)
Definition interpolate (x0 x1 y0 y1 x : R) : option R :=
  bind (pdiv (y1 - y0) (x1 - x0)) (fun s => Some (y0 + s * (x - x0))).
(** en1991_1_4.py:32-36 roughness length and minimum height; [None]: KeyError. *)
Definition terrain (cat : nat) : option (R * R) :=
  match cat with
  | 0%nat => Some (3/1000, 1) | 1%nat => Some (1/100, 1) | 2%nat => Some (5/100, 2)
  | 3%nat => Some (3/10, 5) | 4%nat => Some (1, 10) | _ => None end.
(** en1991_1_4.py:169-173 terrain factor. *)
Definition kr (cat : nat) (z0 : R) : R := match cat with 0%nat => 18/100 | _ => 19/100 * Rpower (z0 / (5/100)) (7/100) end.
(** en1991_1_4.py:159-175. *)
Definition terrain_roughness (z : R) (cat : nat) : option R :=
  bind (terrain cat) (fun t => let '(z0, zmin) := t in Some (kr cat z0 * ln (Rmax zmin z / z0))).
(** en1991_1_4.py:178-184. *)
Definition mean_wind_velocity (vb z : R) (cat : nat) : option R :=
  bind (terrain_roughness z cat) (fun cr => Some (vb * cr * 1)).
(** en1991_1_4.py:190-200. *)
Definition turbulence_intensity (z : R) (cat : nat) : option R :=
  bind (terrain cat) (fun t => let '(z0, zmin) := t in pdiv (1 / 1) (ln (Rmax zmin z / z0))).
(** en1991_1_4.py:202-214. *)
Definition peak_velocity_pressure (z : R) (cat : nat) (vb : R) : option R :=
  bind (turbulence_intensity z cat) (fun Iv => bind (mean_wind_velocity vb z cat) (fun vm =>
  Some ((1 + 7 * Iv) * (1/2) * (125/100) * vm ^ 2))).

(** Lengths and coefficients of the wall zones A to E (en1991_1_4.py:253-258). *)
Record walls := mkWalls { len_A : R; len_B : R; len_C : R; cpe_A : R; cpe_B : R; cpe_C : R; cpe_D : R; cpe_E : R }.
(** en1991_1_4.py:248 the governing width. *)
Definition wind_e (b h : R) : R := Rmin b (2 * h).
(** en1991_1_4.py:260-269 lengths of zones A, B, C. *)
Definition wall_zones (b d h : R) : R * R * R :=
  let e := wind_e b h in
  if Rltb e d then (e / 5, 8/10 * e, d - e)
  else if Rleb (5 * d) e then (d, 0, 0)
  else (2/10 * e, d - 2/10 * e, 0).
(** en1991_1_4.py:289-312 coefficients of the windward and the leeward wall. *)
Definition cpe_DE (hd : R) : R * R :=
  if Rleb 5 hd then (8/10, -7/10)
  else if Rleb 1 hd then (8/10, -5/10 + (-7/10 - -5/10) / (5 - 1) * (hd - 1))
  else if Rleb (1/4) hd then (7/10 + (8/10 - 7/10) / (1 - 1/4) * (hd - 1/4), -3/10 + (-5/10 - -3/10) / (1 - 1/4) * (hd - 1/4))
  else (7/10, -3/10).
(** en1991_1_4.py:226-317 rect_building_wall_pressure without the multiplication by qp; b and d
    are chosen by the wind direction; d is positive. *)
Definition wall_pressure (b d h : R) : walls :=
  let '(a, b', c) := wall_zones b d h in
  if Rltb 10 (b * h) then let '(D, E) := cpe_DE (h / d) in mkWalls a b' c (-12/10) (-8/10) (-5/10) D E
  else mkWalls a b' c 0 0 0 0 0.
(** en1991_1_4.py:405-410 (length, width) of zones F, G, H, I of a flat roof; there are two F. *)
Definition flat_zones (d b h : R) : (R * R) * (R * R) * (R * R) * (R * R) :=
  let e := wind_e b h in
  ((1/4 * e, 1/10 * e), (b - 1/2 * e, 1/10 * e), (b, 4/10 * e), (b, d - 1/2 * e)).
(** en1991_1_4.py:72-152, wind_direction 180: coefficient cpe10 of zones F, G, H; [None]: the
    attributes are never assigned. *)
Definition mono180 (angle : R) : option (R * R * R) :=
  let ip x0 x1 y0 y1 := y0 + (y1 - y0) / (x1 - x0) * (angle - x0) in
  if Rleb 60 angle then Some (-5/10, -5/10, -5/10)
  else if Rleb 45 angle then Some (ip 45 60 (-6/10) (-5/10), -5/10, ip 45 60 (-7/10) (-5/10))
  else if Rleb 30 angle then Some (ip 30 45 (-11/10) (-6/10), ip 30 45 (-8/10) (-5/10), ip 30 45 (-8/10) (-7/10))
  else if Rleb 15 angle then Some (ip 15 30 (-25/10) (-11/10), ip 15 30 (-13/10) (-8/10), ip 15 30 (-9/10) (-8/10))
  else if Rleb 5 angle then Some (ip 5 15 (-23/10) (-25/10), -13/10, ip 5 15 (-8/10) (-9/10))
  else None.
(** en1991_1_4.py:118-143, wind_direction 0, 5 to 30 degrees: negative cpe10 of zones F, G, H. *)
Definition mono0_low (angle : R) : R * R * R :=
  let ip x0 x1 y0 y1 := y0 + (y1 - y0) / (x1 - x0) * (angle - x0) in
  (ip 15 30 (-9/10) (-5/10), ip 15 30 (-8/10) (-5/10), ip 15 30 (-3/10) (-2/10)).
(** en1991_1_4.py:354-393 monopitch_roof_pressure: the pressures of the six zones; the
    coefficients computed from the roof angle are never copied to the zones. *)
Definition monopitch_pressures (qp : R) : list R := map (fun cpe => qp * cpe) [0; 0; 0; 0; 0; 0].

(* ---------------------------------------------------------------- timber *)

(** Materials (en1995_1_1.py:17-34). *)
Inductive timber := solid | glt | lvl.
(** Load duration classes (en1995_1_1.py:17-29). *)
Inductive duration := perm_ | lt | mt | st | inst.
(** en1995_1_1.py:17-45 kmod; service classes 1 to 3, otherwise KeyError. *)
Definition kmod (m : timber) (sc : nat) (d : duration) : option R :=
  match sc with
  | 1%nat | 2%nat => Some (match d with perm_ => 6/10 | lt => 7/10 | mt => 8/10 | st => 9/10 | inst => 11/10 end)
  | 3%nat => Some (match d with perm_ => 5/10 | lt => 55/100 | mt => 65/100 | st => 7/10 | inst => 9/10 end)
  | _ => None end.
(** constants.py:13-16, en1995_1_1.py:62-70. *)
Definition gammaM_timber (m : timber) : R := match m with solid => 13/10 | glt => 125/100 | lvl => 12/10 end.
(** en1995_1_1.py:58-59. *)
Definition k_to_d (fk kmod g : R) : R := kmod * fk / g.

(** en1995_1_2.py:22-60 charring_speed; softwood or hardwood; [None]: the function returns None
    or raises because no value was chosen. The densities are positive. *)
Definition charring_speed (rhok : R) (m : timber) (softwood : bool) (hp : R) : option (R * R) :=
  let beta := match m with
    | lvl => if Rleb 480 rhok then Some (65/100, 7/10) else if Rleb 410 rhok then Some (7/10, 75/100) else None
    | _ => if softwood then
             (if Rleb 290 rhok then Some (65/100, match m with solid => 8/10 | _ => 7/10 end) else None)
           else if Rleb 450 rhok then Some (1/2, 55/100) else if Reqb rhok 290 then Some (65/100, 7/10) else None
    end in
  bind beta (fun b =>
  if Rltb hp 20 then
    bind (psqrt (450 / rhok)) (fun krho => bind (pdiv 20 hp) (fun q => bind (psqrt q) (fun kh => Some (krho * kh * fst b, snd b))))
  else Some b).
(** fire_protection.py:111-122: time at which charring starts behind a wooden panel. *)
Definition wood_tch (rhok : R) (m : timber) (softwood : bool) (hp : R) : option R :=
  bind (charring_speed rhok m softwood hp) (fun b => pdiv hp (fst b)).

(** A fire protection: start of charring, failure time, time of consolidated charring
    (fire_protection.py:18-33); [None]: not set. *)
Record protection := mkProt { t_ch : R; t_f : option R; t_a : option R }.
(** fire_protection.py:40-43. *)
Definition set_ta (beta_n tf : R) : option R := bind (pdiv 25 (2 * beta_n)) (fun q => Some (Rmin (2 * tf) (q + tf))).
(** fire_protection.py:45-47. *)
Definition set_tf (beta_n tch : R) : option R := bind (pdiv (125/10) (73/100 * beta_n)) (fun q => Some (q + tch)).
(** en1995_1_2.py:72-84 factor of the zero-strength layer; [None] protection: unprotected. *)
Definition k0 (fp : option protection) (t : R) : R :=
  match fp with
  | Some p => if Rleb (t_ch p) 20 then (if Rltb t 20 then t / 20 else 1) else if Rleb t (t_ch p) then t / t_ch p else 1
  | None => if Rltb t 20 then t / 20 else 1
  end.
(** en1995_1_2.py:63-105 d_char_n; [None]: TypeError (comparison with an unset time). *)
Definition d_char_n (fp : option protection) (t beta : R) : option R :=
  let d0 := k0 fp t * 7 in
  match fp with
  | None => Some (t * beta + d0)
  | Some p =>
    if Rltb t (t_ch p) then Some 0
    else bind (t_f p) (fun tf =>
      if Rltb (t_ch p) tf then
        if Rltb t tf then Some ((t - t_ch p) * (73/100) * beta + d0)
        else bind (t_a p) (fun ta =>
          if andb (Rltb tf t) (Rltb t ta) then Some ((tf - t_ch p) * (73/100) * beta + (t - tf) * 2 * beta + d0)
          else Some ((tf - t_ch p) * (73/100) * beta + (ta - tf) * 2 * beta + (t - ta) * beta + d0))
      else bind (t_a p) (fun ta =>
        if Rltb t ta then Some (2 * beta * (t - tf) + d0)
        else Some (2 * beta * (ta - tf) + beta * (t - ta) + d0)))
  end.
