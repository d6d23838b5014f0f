(** Specification of sheeting diaphragms, sandwich panels and CLT slabs. *)
From Verif Require Import Base EC3_model Cold_model Skin_model.
Require Import Reals List ZArith.
Import ListNotations.
Local Open Scope R_scope.

(** The entry of Table 5.9 for angle class a, row j (h/d) and column i (l/d). *)
Definition table_at (a : Z) (j i : nat) : option Z :=
  match find (fun e => Z.eqb (fst e) a) K1 with
  | None => None
  | Some e => match nth_error (snd e) j with None => None | Some r => nth_error r i end
  end.
(** A diaphragm with positive data. *)
Definition skin_ok (k : skin) : Prop :=
  0 < sk_t k /\ 0 < sk_p k /\ 0 <= s_h (sk_s k) /\ 0 < sk_E k /\ 0 <= sk_nu k /\ 0 < sk_fu k /\ 0 < sk_a k /\ 0 < sk_b k /\ 0 < sk_d k /\
  0 < sk_sp k /\ 0 < sk_esp k /\ 0 < sk_eE k /\ 0 < sk_eA k.
(** The same diaphragm with another nominal sheet thickness, edge member area and number of panels. *)
Definition with_sheet (t A n : R) (k : skin) : skin :=
  let s := sk_s k in
  mkSkin (mkSheet t (s_h s) (s_bt s) (s_bb s) (s_angle s) (s_n s)) (sk_nf k) (sk_E k) (sk_nu k) (sk_fy k) (sk_fu k) (sk_a k) (sk_b k) n
    (sk_d k) (sk_sp k) (sk_trough k) (sk_ed k) (sk_esp k) (sk_rt k) (sk_et k) (sk_eE k) A (sk_en k).
Definition with_spacing (sp : R) (k : skin) : skin :=
  mkSkin (sk_s k) (sk_nf k) (sk_E k) (sk_nu k) (sk_fy k) (sk_fu k) (sk_a k) (sk_b k) (sk_n k)
    (sk_d k) sp (sk_trough k) (sk_ed k) (sk_esp k) (sk_rt k) (sk_et k) (sk_eE k) (sk_eA k) (sk_en k).

(** Complementary energy of a screw under a unit force of which the part y is taken by the outer face: hole of the inner face
    (flexibility f), clamping in the support (u) and bending of the screw (v). *)
Definition screw_energy (D t f u v y : R) : R :=
  f * (1 - y) ^ 2 + u * (t / 2 + D * y) ^ 2 + v * (t ^ 3 / 24 + D * t ^ 2 / 4 * y + D ^ 2 * (2 * D + 3 * t) / 6 * y ^ 2).
(** A panel with positive data. *)
Definition panel_ok (w : panel) : Prop :=
  0 < f_t (w_top w) /\ 0 < f_t (w_bot w) /\ 0 < f_cor (w_bot w) /\ 0 < f_E (w_top w) /\ 0 < f_E (w_bot w) /\ 0 < f_fu (w_bot w) /\
  0 < w_tc w /\ 0 < w_G w /\ 0 < w_b w /\ 0 < w_dS w /\ 0 < w_d1 w.

(** Stack of layers (modulus, thickness): total thickness and first moment of stiffness with the lower edge at z. *)
Fixpoint stack (l : list (R * R)) : R := match l with [] => 0 | (E, t) :: l => t + stack l end.
Fixpoint stack_moment (z : R) (l : list (R * R)) : R := match l with [] => 0 | (E, t) :: l => E * t * (z + t / 2) + stack_moment (z + t) l end.
(** Modulus along the span and thickness of the layers of a slab. *)
Definition stack_of (s : cslab) (h : cheap) : list (R * R) :=
  map (fun i => match nth_error h i with Some y => (if y_par y then y_E0 y else y_E90 y, y_t y) | None => (0, 0) end) (z_ids s).
(** Slabs made one after the other. *)
Fixpoint make_slabs (l : list cslab) (h : cheap) : cheap :=
  match l with [] => h | s :: l => make_slabs l (snd (make_slab (z_ids s) (z_b s) (z_L s) h)) end.
(** The last slab of the list that contains layer i. *)
Fixpoint last_user (i : nat) (l : list cslab) (acc : option cslab) : option cslab :=
  match l with [] => acc | s :: l => last_user i l (if in_dec Nat.eq_dec i (z_ids s) then Some s else acc) end.
