(** Model of the strength checks in the apex zone of timber beams (metku/structures/timber/timber_member.py:294-339,
    960-997, 1254-1333). *)
From Verif Require Export Timber_model.
Require Import List Bool ZArith. Import ListNotations.
Local Open Scope R_scope.

(** self.sigma_md(self.loc.index(l))[0] (timber_member.py:966, 987-988). *)
Definition stress_at (m : tmem) (secs : list tf) (l : R) : option R :=
  bind (find (fun f => Reqb (f_loc f) l) secs) (fun f => Some (sigma_my m f)).
(** timber_member.py:965-989 the bending stress at the apex: of the section there, else the mean of the two neighbours. *)
Definition apex_stress (m : tmem) (secs : list tf) (xap : R) : option R :=
  match stress_at m secs xap with
  | Some s => Some s
  | None =>
    bind (nearest_below xap (map f_loc secs)) (fun a => bind (nearest_above xap (map f_loc secs)) (fun b =>
    bind (stress_at m secs a) (fun sa => bind (stress_at m secs b) (fun sb => Some ((sa + sb) / 2)))))
  end.
(** The apex: kind of beam, slope of the upper edge, inner radius, lamella thickness, height, position relative to the
    length (timber_member.py:305-352, 417-445). *)
Record apex := mkAP { ap_kind : skind; ap_alfa : R; ap_r : R; ap_t : R; ap_h : R; ap_x : R }.
(** timber_member.py:960-990 check_tapered_beam_bending_tension. *)
Definition check_tapered (m : tmem) (a : apex) (secs : list tf) : option R :=
  bind (k_l (ap_kind a) (ap_alfa a) (ap_r a) (ap_h a)) (fun kl => bind (apex_stress m secs (ap_x a)) (fun s =>
  bind (k_r (ap_kind a) (ap_r a) (ap_t a)) (fun kr => pdiv (kl * s) (kr * t_fm m)))).

(** A line load on the member: in y direction, values at both ends (timber_member.py:297-298). *)
Record tload := mkTL { tl_y : bool; tl_0 : R; tl_1 : R }.
(** timber_member.py:296-299 the load of equation 6.55; [compr]: edge_load is 'compression'. *)
Definition load_655 (compr : bool) (ls : list tload) : R :=
  fold_left (fun p l => if andb (andb (tl_y l) (Reqb (tl_0 l) (tl_1 l))) compr then tl_0 l else p) ls 0.
(** timber_member.py:294-303 sigma_t90d; [eq655]: loads if equation 6.55 is asked for. *)
Definition sigma_t90d (m : tmem) (a : apex) (secs : list tf) (eq655 : option (bool * list tload)) : option R :=
  bind (k_p (ap_kind a) (ap_alfa a) (ap_r a) (ap_h a)) (fun kp => bind (M_apd secs (ap_x a)) (fun M =>
  bind (pdiv (kp * M) (Wy_at m (ap_x a))) (fun s =>
  match eq655 with None => Some s | Some (c, ls) => bind (pdiv (load_655 c ls) (t_B m)) (fun q => Some (s - 6/10 * q)) end))).
(** timber_member.py:992-997 check_perpendicular_to_grain_tension; [kv], [ft90]: k_vol and ft90d. *)
Definition check_perp (m : tmem) (a : apex) (secs : list tf) (kv ft90 : R) : option R :=
  bind (sigma_t90d m a secs None) (fun s => bind (k_dis (ap_kind a)) (fun kd => pdiv s (kd * kv * ft90))).

(** timber_member.py:1258-1263, 1277-1282 length of the zone at an end relative to the member; [other]: height of the
    member that meets it there; at both ends with the height at the start. *)
Definition zone (m : tmem) (L : R) (other : option R) : option R :=
  pdiv ((match other with Some h => h / 2 | None => 0 end) + t_H m 0) L.
(** timber_member.py:1257-1273 the section near the start. *)
Definition sec_start (loc : list R) (s : R) : option Z :=
  bind (nth_error loc 0) (fun x => Some (if Rltb x s then shift_start loc 0 s (length loc) 0 else 0%Z)).
(** timber_member.py:1276-1290 the section near the end; the location compared is that of the first section. *)
Definition sec_end (loc : list R) (e : R) : option Z :=
  let n := (Z.of_nat (length loc) - 1)%Z in
  bind (nth_error loc 0) (fun x => Some (if Rltb (1 - e) x then shift_end loc n (1 - e) (length loc) 0 else n)).
(** timber_member.py:1254-1333 check_apex_shear_perpendicular_tension_combined; [hs], [he]: heights of the members met. *)
Definition check_combined (m : tmem) (a : apex) (secs : list tf) (L : R) (hs he : option R) (kv ft90 : R)
    (eq655 : option (bool * list tload)) : option R :=
  bind (zone m L hs) (fun s => bind (sec_start (map f_loc secs) s) (fun i => bind (pyget secs i) (fun f1 =>
  bind (zone m L he) (fun e => bind (sec_end (map f_loc secs) e) (fun k => bind (pyget secs k) (fun f2 =>
  let tau := Rmax (snd (tau_d m f1)) (snd (tau_d m f2)) in
  bind (pdiv tau (t_fv m)) (fun q => bind (sigma_t90d m a secs eq655) (fun st => bind (k_dis (ap_kind a)) (fun kd =>
  bind (pdiv st (kd * kv * ft90)) (fun w => Some (q + w))))))))))).
