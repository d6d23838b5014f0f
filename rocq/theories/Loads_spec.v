(** Specification vocabulary for load combinations, wind and charring. *)
From Verif Require Export Loads_model.

Definition total (f : load -> R) (l : list load) : R := fold_right Rplus 0 (map f l).
(** EN 1990 6.10a and 6.10b with the Finnish factors: permanent loads alone, or one leading
    variable load with the others reduced by psi0. *)
Definition uls_value (kfi : R) (G Q : list load) (v : R) : Prop :=
  v = 135/100 * kfi * total l_val G \/
  exists pre l post, Q = pre ++ l :: post /\
    v = 115/100 * kfi * total l_val G + 15/10 * kfi * l_val l + 15/10 * kfi * total (fun q => psi 0 q * l_val q) (pre ++ post).
(** EN 1990 6.14b, 6.15b and 6.11b: one leading load with factor [f], the others with psi_k. *)
Definition lead_value (f : load -> R) (k : nat) (G Q : list load) (v : R) : Prop :=
  exists pre l post, Q = pre ++ l :: post /\
    v = total l_val G + f l * l_val l + total (fun q => psi k q * l_val q) (pre ++ post).
(** The design value of a reported combination: every load times its factor. *)
Definition design_value (k : cand) : R := fold_right Rplus 0 (map (fun lf => snd lf * l_val (fst lf)) (k_loads k)).
(** [v] is the largest of the values satisfying [P]. *)
Definition largest (P : R -> Prop) (v : R) : Prop := P v /\ forall w, P w -> w <= v.
Definition load_ok (l : load) : Prop := 0 <= l_val l /\ 0 <= psi 0 l.
(** EN 1991-1-4 (4.8) in closed form: L is the logarithm of the height over the roughness length. *)
Definition qp_formula (k L vb : R) : R := 625/1000 * vb ^ 2 * k ^ 2 * (L ^ 2 + 7 * L).
(** Every protection time in order. *)
Definition prot_ok (p : protection) (tf ta : R) : Prop := t_f p = Some tf /\ t_a p = Some ta /\ 0 <= t_ch p /\ tf <= ta.
Definition dur_rank (d : duration) : nat := match d with perm_ => 0 | lt => 1 | mt => 2 | st => 3 | inst => 4 end.
(** Factor of the leading load of an accidental combination: psi1 for snow and wind, else psi2. *)
Definition accidental_psi (l : load) : R :=
  let '(_, p1, p2) := l_psi l in match l_kind l with kSnow => p1 | kWind => p1 | _ => p2 end.
