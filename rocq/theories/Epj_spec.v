(** Vocabulary for the properties of end plate joints. *)
From Coq Require Import Permutation.
From Verif Require Import Epj_model.

(** Sum of the first k entries. *)
Definition psum (k : nat) (f : list R) : R := Rsum (firstn k f).
(** Levers of the rows, from the top: not increasing and not negative. *)
Fixpoint falling (h : list R) : Prop :=
  match h with
  | [] => True
  | a :: t => 0 <= a /\ (match t with [] => True | b :: _ => b <= a end) /\ falling t
  end.
(** A distribution of forces over rows: between zero and the resistance of each row, within the compression
    resistance, and within the resistance of each group formed by the first k rows. *)
Definition admissible (res : list R) (caps : list (nat * R)) (Fcom : R) (f : list R) : Prop :=
  Forall2 (fun x r => 0 <= x <= r) f res /\ Rsum f <= Fcom /\ Forall (fun kc => psum (fst kc) f <= snd kc) caps.
(** Moment of row forces with the given levers. *)
Definition moment_of (f h : list R) : R := Rsum (map (fun p => fst p * snd p) (combine f h)).
(** Moment resistance of the rows of a joint that has no other rows than tension rows. *)
Definition tension_joint (l : list erow) (res h : list R) : Prop :=
  Forall (fun r => er_shear r = false) l /\ map er_res l = map Some res /\ map er_h l = h.
(** EN 1993-1-8, 6.2.6.1: web panel in shear, with the additional resistance (6.8) when stiffened. *)
Definition en_web_shear (fy Av : R) : R := 9/10 * fy * Av / sqrt 3.
Definition en_web_add (Mfc Mst Msb ds : R) : R := Rmin (4 * Mfc / ds) ((2 * Mfc + Mst + Msb) / ds).
(** EN 1993-1-8, 6.3.1 (6.28): stiffness ratio. *)
Definition en_mu (ratio : R) : R := if Rleb ratio (2/3) then 1 else Rpower (3/2 * ratio) (27/10).
(** Groups listed by size: each is given by the number k >= K of rows it takes from the top, of n, and its
    resistance. *)
Fixpoint chain (K : nat) (caps : list (nat * R)) (n : nat) : Prop :=
  match caps with
  | [] => True
  | (k, c) :: t => (K <= k)%nat /\ (k <= n)%nat /\ 0 <= c /\ chain k t n
  end.
(** The sum over the rows of a group. *)
Definition group_sum (l : list erow) (idx : list nat) : R := Rsum (map (F_at l) idx).
(** The rows that are not shear rows, and the shear rows. *)
Definition tension_part (l : list erow) : list erow := filter (fun r => negb (er_shear r)) l.
Definition shear_part (l : list erow) : list erow := filter er_shear l.
(** No group contains a shear row. *)
Definition groups_tension (gs : list (list nat * option R)) (l : list erow) : Prop :=
  Forall (fun g => Forall (fun i => forall r, nth_error l i = Some r -> er_shear r = false) (fst g)) gs.
(** The state of a joint that has been made and not been evaluated. *)
Definition unused (l : list erow) : Prop := Forall (fun r => er_F r = -1) l.
(** Sums over the rows that are not shear rows: k, k h and k h^2. *)
Definition ksum0 (l : list erow) : R := Rsum (map er_k (tension_part l)).
Definition ksum1 (l : list erow) : R := Rsum (map (fun r => er_k r * er_h r) (tension_part l)).
Definition ksum2 (l : list erow) : R := Rsum (map (fun r => er_k r * er_h r * er_h r) (tension_part l)).
(** Proper stiffness data: positive factors and distances of the tension rows. *)
Definition proper_rows (l : list erow) : Prop := Forall (fun r => er_shear r = false -> 0 < er_k r /\ 0 < er_h r) l.
(** A stiffener plate on which the caller has set khp. *)
Definition with_khp (p : splate) (v : R) : splate := mkSP (sp_b p) (sp_h p) (sp_t p) (sp_fy p) (Some v).
(** The setters other than the plain attribute ebottom; those other than bp and ebolts. *)
Definition not_ebottom (o : geo_op) : Prop := match o with GEbottom _ => False | _ => True end.
Definition keeps_x (o : geo_op) : Prop := match o with GBp _ | GEbolts _ => False | _ => True end.
(** Two lists of groups that differ in order only. *)
Definition reordered (a b : list (list nat * option R)) : Prop := Permutation a b.
