(** Model of the stress-strain relation of stainless steel in fire (metku/eurocodes/en1993/en1993_1_2.py:174-198,
    254-282). *)
From Verif Require Export Fire_model.
Local Open Scope R_scope.

(** en1993_1_2.py:174-179 f02pT. *)
Definition f02pT (t fy : R) (s : steel) : option R := bind (reduce_property t k02 s) (fun k => Some (k * fy)).
(** en1993_1_2.py:194-196 fuT, steel other than carbon. *)
Definition fuT_stainless (t fu : R) (s : steel) : option R := bind (reduce_property t ku s) (fun k => Some (k * fu)).
(** pow of Python for a number not negative (en1993_1_2.py:271-272): zero to a negative power raises. *)
Definition ppow (x b : R) : option R :=
  if Reqb x 0 then (if Rltb 0 b then Some 0 else if Reqb b 0 then Some 1 else None) else Some (Rpower x b).
(** en1993_1_2.py:270-273, strain not above [ec]; [f]: 0.2 proof strength, [Ec]: slope at [ec]. *)
Definition ss_lower (eps f E Ec ec : R) : option R :=
  bind (pdiv (ec * Ec) f) (fun r => bind (pdiv (E * ec) f) (fun m =>
  bind (pdiv ((1 - r) * E * ec) (m - 1)) (fun u => bind (pdiv u f) (fun b =>
  bind (pdiv (E * ec - f) f) (fun w => bind (ppow ec b) (fun pc => bind (pdiv w pc) (fun a =>
  bind (ppow eps b) (fun pe => pdiv (E * eps) (1 + a * pe))))))))).
(** en1993_1_2.py:275-279, strain above [ec]; [eu]: ultimate strain. *)
Definition ss_upper (eps f Ec ec eu fu : R) : option R :=
  let D := eu - ec in
  bind (pdiv ((fu - f) ^ 2) (D * Ec - 2 * (fu - f))) (fun e =>
  bind (psqrt (e * D * Ec + e ^ 2)) (fun d =>
  bind (pdiv e Ec) (fun h =>
  bind (psqrt (D * (D + h))) (fun c =>
  bind (pdiv d c) (fun q =>
  bind (psqrt (c ^ 2 - (eu - eps) ^ 2)) (fun s => Some (f - e + q * s))))))).
(** en1993_1_2.py:262-282 once the values at the temperature are known; strain not negative. *)
Definition ss_law (eps f E Ec eu fu : R) : option R :=
  bind (pdiv f E) (fun q => let ec := q + 2/1000 in
  if Rleb eps ec then ss_lower eps f E Ec ec else ss_upper eps f Ec ec eu fu).
(** en1993_1_2.py:254-282 stress_stainless; simplified: the ultimate strength is looked up first, it raises for
    the temperatures for which the proof strength raises. *)
Definition stress_stainless (strain t Ea fya fua : R) (s : steel) : option R :=
  bind (f02pT t fya s) (fun f => bind (EaT t Ea s) (fun E =>
  bind (reduce_property t kEct s) (fun k => bind (reduce_property t epsU s) (fun eu =>
  bind (fuT_stainless t fua s) (fun fu => ss_law strain f E (k * Ea) eu fu))))).
