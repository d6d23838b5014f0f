(** Model of minimize_eccentricity (metku/raami/raami_truss_opt.py:26-161): the optimization problem of the
    intersection points of the K joints of a tubular truss.  The solver and the printing are not modelled. *)
Require Import List Bool.
Import ListNotations.
From Verif Require Export Tjt_model.
Local Open Scope R_scope.

(** raami_truss_opt.py:38-44: limits of the gap for chord width [b0], [beta], wall thicknesses of the braces. *)
Definition gap_limits (b0 beta t1 t2 mg : R) : R * R :=
  (Rmax (Rmax (1/2 * b0 * (1 - beta)) mg) (t1 + t2), 3/2 * b0 * (1 - beta)).
(** raami_truss_opt.py:46-51 gap_ub. *)
Definition gap_ub (b0 beta t1 t2 mg g : R) : R := g - snd (gap_limits b0 beta t1 t2 mg).
(** raami_truss_opt.py:53-58 gap_lb. *)
Definition gap_lb (b0 beta t1 t2 mg g : R) : R := - g + fst (gap_limits b0 beta t1 t2 mg).

(** Kinds of joints told apart at raami_truss_opt.py:97, 109: ridge joint, K gap joint, any other joint. *)
Inductive jkind := RidgeJ | KGapJ | OtherJ.
(** A joint as read at raami_truss_opt.py:93-113: number, x coordinate of the node, kind, chord height. *)
Record ejoint := mkEj { e_id : nat; e_x : R; e_kind : jkind; e_h0 : R }.
(** A variable (raami_truss_opt.py:98-114): joint, xloc ([true]) or yloc, bounds, value. *)
Record evar := mkEv { v_joint : nat; v_isx : bool; v_lb : R; v_ub : R; v_val : R }.
(** raami_truss_opt.py:98-99, 111-112. *)
Definition y_var (j : ejoint) : evar := mkEv (e_id j) false (- (55/100) * e_h0 j) (1/4 * e_h0 j) (1/10 * e_h0 j).
(** raami_truss_opt.py:113-114 with the limits of 85-86. *)
Definition x_var (j : ejoint) : evar := mkEv (e_id j) true (-200) 200 0.
(** raami_truss_opt.py:93-118: the variables of one joint. *)
Definition joint_vars (span : R) (j : ejoint) : list evar :=
  if Rleb (e_x j) (1/2 * span) then
    match e_kind j with RidgeJ => [y_var j] | KGapJ => [y_var j; x_var j] | OtherJ => [] end
  else [].
(** raami_truss_opt.py:91-118: all variables. *)
Definition ecc_vars (span : R) (js : list ejoint) : list evar := flat_map (joint_vars span) js.

(** raami_truss_opt.py:62-74 the objective at the values [xs] of the variables. *)
Definition ecc_obj (vs : list evar) (xs : list R) : R :=
  1 / 100 * fold_right Rplus 0 (map (fun vt : evar * R => if v_isx (fst vt) then 0 else snd vt ^ 2) (combine vs xs)).
(** raami_truss_opt.py:76-81 its gradient. *)
Definition ecc_grad (vs : list evar) (xs : list R) : list R :=
  map (fun vt : evar * R => if v_isx (fst vt) then 0 else 2 / 100 * snd vt) (combine vs xs).

(** raami_truss_opt.py:136-151: coefficient of a variable in the constraint of a vertical brace from node [n0] to
    node [n1]; [nd]: the nodes of the joints, [js]: the joints. *)
Definition vert_coef (nd : nat -> nat) (js : nat -> kj) (n0 n1 : nat) (v : evar) : R :=
  let j := js (v_joint v) in
  let c := if v_isx v then fst (j_v j) else fst (perp (j_top j) (j_v j)) in
  if Nat.eqb (nd (v_joint v)) n0 then c else if Nat.eqb (nd (v_joint v)) n1 then - c else 0.
(** raami_truss_opt.py:127-154: left side of the constraint, equal to zero. *)
Definition vert_con (nd : nat -> nat) (js : nat -> kj) (n0 n1 : nat) (vs : list evar) (xs : list R) : R :=
  fold_right Rplus 0 (map (fun vt : evar * R => vert_coef nd js n0 n1 (fst vt) * snd vt) (combine vs xs)).
(** Values of the variables given to the joints (targets at raami_truss_opt.py:99, 112, 114; setattr through
    problem.substitute_variables). *)
Definition substituted (sym : nat -> option nat) (js : nat -> kj) (vs : list evar) (xs : list R) : nat -> kj :=
  assigns sym js (map (fun vt : evar * R => if v_isx (fst vt) then SetX (v_joint (fst vt)) (snd vt) else SetY (v_joint (fst vt)) (snd vt)) (combine vs xs)).
