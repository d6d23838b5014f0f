(** Specification vocabulary for costs. *)
From Verif Require Export Cost_model.

(** Present value of [n] yearly payments [a], the first after one year, at interest [i]. *)
Fixpoint present_value (a i : R) (n : nat) : R :=
  match n with 0%nat => 0 | S m => present_value a i m + a / (1 + i) ^ n end.
(** All unit costs are non-negative and the workspace is used. *)
Definition sound (c : centre) : Prop :=
  0 <= labour c /\ 0 <= equip c /\ 0 <= eq_maint c /\ 0 <= estate c /\ 0 <= estate_maint c /\
  0 <= cons c /\ 0 <= energy c /\ 0 <= cons_cost c /\ 0 < utility c /\ 0 <= prod c /\ 0 <= nonprod c.
(** Every time and unit cost of the first is at most that of the second. *)
Definition cheaper (a b : centre) : Prop :=
  labour a <= labour b /\ equip a <= equip b /\ eq_maint a <= eq_maint b /\ estate a <= estate b /\ estate_maint a <= estate_maint b /\
  cons a <= cons b /\ energy a <= energy b /\ cons_cost a <= cons_cost b /\ utility a = utility b /\ prod a <= prod b /\ nonprod a <= nonprod b.
(** The state after a history of calls. *)
Definition after {A} (f : A -> centre -> result) (hist : list A) (c : centre) : centre := fold_left (fun c a => fst (f a c)) hist c.
(** Past calls do not influence the price. *)
Definition repeatable {A} (f : A -> centre -> result) : Prop := forall hist a c, snd (f a (after f hist c)) = snd (f a c).
(** A price list without negative prices that does not fall with the amount. *)
Definition fair (w : shop) (t : R) : Prop :=
  (forall L L' : R, 0 <= L <= L' -> exists x y : R, ws_cut w t L = Some x /\ ws_cut w t L' = Some y /\ 0 <= x <= y) /\
  (forall L L' : R, 0 <= L <= L' -> exists x y : R, ws_paint w L = Some x /\ ws_paint w L' = Some y /\ 0 <= x <= y) /\
  (forall L L' : R, 0 <= L <= L' -> exists x y : R, ws_blast w L = Some x /\ ws_blast w L' = Some y /\ 0 <= x <= y) /\
  (forall s L L' : R, 0 <= s -> 0 <= L <= L' -> exists x y : R, ws_weld w s L = Some x /\ ws_weld w s L' = Some y /\ 0 <= x <= y).
(** The same plate with other outer dimensions. *)
Definition resize (b h : R) (p : plate) : plate := mkPlate b h (pt p) (prho p) (s235 p) (weld_size p) (holes p) (st_weld p) (st_holes p).
(** The plate after its weld has been removed. *)
Definition unweld (p : plate) : plate := mkPlate (pb p) (ph p) (pt p) (prho p) (s235 p) 0 (holes p) (st_weld p) (st_holes p).
