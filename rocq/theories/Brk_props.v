(** Property C364: stiffness of a bolt row. *)
Require Import Reals List Bool Lra Lia PeanoNat.
Import ListNotations.
From Verif Require Import Base EC3_model Bool_tac Joint_spec Brk_proofs.
From Verif Require Import Brk_model Brk_spec.
Local Open Scope R_scope.

(** C364 *)
Theorem C364_flange : forall fa j r gs p, 0 < s_hw (j_col j) -> 0 < col_flange_m j -> Forall plain gs -> Forall indexed gs ->
  forall p' k3, row_k3 fa j r gs p = Some (p', k3) -> forall p'' k4, row_k4 fa j r gs p' = Some (p'', k4) ->
  exists l l' cp nc ls, flange_cp (col_flange_m j) (r_e1 r) (r_fl r) = Some cp /\ flange_nc fa (col_flange_e j) (col_flange_m j) (r_e1 r) (stiff_m2 j r) (r_fl r) = Some nc /\
    Forall2 (in_group j r) gs ls /\ smallest l (100000 :: cp :: nc :: filter (Rltb 0) ls) /\ k3 = 7/10 * l * s_tw (j_col j) / s_hw (j_col j) /\
    (exists ls', Forall2 (in_group j r) gs ls' /\ smallest l' (100000 :: cp :: nc :: filter (Rltb 0) ls')) /\ k4 = 9/10 * l' * s_tf (j_col j) ^ 3 / col_flange_m j ^ 3.
Proof. exact flange_k_lemma. Qed.
Print Assumptions C364_flange.
Theorem C364_plate : forall j r gs p p' k5, 0 < end_plate_m j r -> Forall plain gs -> Forall indexed gs -> row_k5 j r gs p = Some (p', k5) ->
  exists l cp nc ls, plate_cp (end_plate_m j r) (j_ebolts j) (j_p j) (r_pl r) = Some cp /\
    plate_nc (end_plate_m j r) (end_plate_m2 j r) (j_ebolts j) (emin_plate j r) (j_p j) (j_bp j) (r_pl r) = Some nc /\
    Forall2 (in_group_plate j r) (filter g_plate gs) ls /\ smallest l (100000 :: cp :: nc :: filter (Rltb 0) ls) /\ k5 = 9/10 * l * j_tp j ^ 3 / end_plate_m j r ^ 3.
Proof. exact plate_k_lemma. Qed.
Print Assumptions C364_plate.
Theorem C364_history : forall fa j r gs pf pp qf qp, Forall plain gs -> row_keff fa j r gs pf pp = row_keff fa j r gs qf qp.
Proof. exact keff_history_lemma. Qed.
Print Assumptions C364_history.
Theorem C364_defined : forall fa j r gs pf pp, row_ok fa j r -> Forall plain gs ->
  flange_beff fa j r gs pf <> None -> plate_beff j r gs pp <> None -> exists k, row_keff fa j r gs pf pp = Some k /\ 0 < k.
Proof. exact keff_defined_lemma. Qed.
Print Assumptions C364_defined.
Theorem C364_more_groups : forall fa j r gs h pf pp k, row_ok fa j r -> Forall plain (gs ++ h) -> row_keff fa j r (gs ++ h) pf pp = Some k ->
  exists k0, row_keff fa j r gs pf pp = Some k0 /\ 0 < k <= k0 /\ k0 <= 16/10 * t_As (b_data (r_bolt r)) / Lb j (r_bolt r).
Proof. exact keff_groups_lemma. Qed.
Print Assumptions C364_more_groups.
(** Next to a stiffener the factor depends on the row distance that an earlier evaluation has left behind. *)
Theorem C364_adjacent_refuted : forall fa j r g a cp nc p q, g_fl g = Adjacent -> 0 < col_flange_m j -> 0 < s_tf (j_col j) ->
  flange_cp (col_flange_m j) (r_e1 r) (r_fl r) = Some cp -> flange_nc fa (col_flange_e j) (col_flange_m j) (r_e1 r) (stiff_m2 j r) (r_fl r) = Some nc ->
  stiff_alpha fa (col_flange_e j) (col_flange_m j) (stiff_m2 j r) = Some a ->
  let len x := x / 2 + a * col_flange_m j - (2 * col_flange_m j + 625/1000 * col_flange_e j) in
  0 < len p < len q -> len q <= PI * col_flange_m j + p -> len q <= cp -> len q <= nc -> len q <= 100000 ->
  exists p' q' k k', row_k4 fa j r [g] p = Some (p', k) /\ row_k4 fa j r [g] q = Some (q', k') /\ k < k'.
Proof. exact keff_adjacent_lemma. Qed.
Print Assumptions C364_adjacent_refuted.
(** A column, a beam, a joint, a row in two groups. *)
Definition ex_joint (s : option (R * R)) : joint :=
  mkJoint (mkProf 355 4000 0 14 8 200 210000 200 240) (mkProf 355 3000 0 10 7 280 210000 150 300) 20 180 355 80 40 100 5 5 (-145) 1 s.
Definition ex_row (l : loc) : row := mkRow (mkBolt 20 100 100 B88 22 314 (mkBdata 245 13 30 16 33 3 37) 640 800) 2 60 l OtherEnd None.
Example C364_ex : row_ok (fun _ _ => None) (ex_joint None) (ex_row End_) /\
  Forall plain [mkMb 1 [70] End_ OtherEnd true; mkMb 1 [70; 80] Inner OtherInner true; mkMb 1 [90] End_ OtherEnd false] /\
  Forall indexed [mkMb 1 [70] End_ OtherEnd true; mkMb 1 [70; 80] Inner OtherInner true; mkMb 1 [90] End_ OtherEnd false] /\
  exists k, row_keff (fun _ _ => None) (ex_joint None) (ex_row End_) [mkMb 1 [70] End_ OtherEnd true; mkMb 1 [70; 80] Inner OtherInner true] 0 0 = Some k.
Proof.
  assert (S2 : 0 <= sqrt 2 <= 3/2). { split. apply sqrt_pos. apply Rsqr_incr_0_var; [|lra]. rewrite Rsqr_sqrt by lra. unfold Rsqr. lra. }
  assert (M : col_flange_m (ex_joint None) = 46) by (unfold col_flange_m; simpl; lra).
  assert (E0 : end_plate_m (ex_joint None) (ex_row End_) = 465/10 - 4 * sqrt 2) by (unfold end_plate_m; simpl; lra).
  assert (E1 : 0 < end_plate_m (ex_joint None) (ex_row End_)) by lra. pose proof PI_RGT_0.
  assert (E : col_flange_e (ex_joint None) = 50) by (unfold col_flange_e; simpl; rewrite (proj2 (Rltb_true 180 200)) by lra; lra).
  assert (OK : row_ok (fun _ _ => None) (ex_joint None) (ex_row End_)).
  { unfold row_ok. rewrite M, E. change (r_fl (ex_row End_)) with End_. change (r_pl (ex_row End_)) with OtherEnd. cbn [flange_cp flange_nc plate_cp plate_nc]. unfold Lb.
    set (pm := end_plate_m (ex_joint None) (ex_row End_)) in *. cbn. repeat (split; [lra|]).
    split. intros x X; inversion X; subst; lra. split. intros x X; inversion X; subst; lra. split; intros x X; inversion X; subst; nra. }
  split; auto. split. repeat constructor; simpl; tauto. split. repeat constructor; unfold indexed; simpl; lia.
  destruct (keff_defined_lemma (fun _ _ => None) (ex_joint None) (ex_row End_) [mkMb 1 [70] End_ OtherEnd true; mkMb 1 [70; 80] Inner OtherInner true] 0 0 OK) as (k&K&_).
  repeat constructor; simpl; tauto. discriminate. discriminate. exists k. exact K.
Qed.
Example C364_ex_adjacent : let j := ex_joint (Some (10, 5)) in let r := ex_row Adjacent in let fa := fun _ _ : R => Some 6 in
  flange_cp (col_flange_m j) (r_e1 r) (r_fl r) = Some (2 * PI * 46) /\ flange_nc fa (col_flange_e j) (col_flange_m j) (r_e1 r) (stiff_m2 j r) (r_fl r) = Some 276 /\
  stiff_alpha fa (col_flange_e j) (col_flange_m j) (stiff_m2 j r) = Some 6 /\ col_flange_m j = 46 /\ col_flange_e j = 50 /\
  0 < 60 / 2 + 6 * 46 - (2 * 46 + 625/1000 * 50) < 90 / 2 + 6 * 46 - (2 * 46 + 625/1000 * 50) /\
  90 / 2 + 6 * 46 - (2 * 46 + 625/1000 * 50) <= PI * 46 + 60 /\ 90 / 2 + 6 * 46 - (2 * 46 + 625/1000 * 50) <= 2 * PI * 46.
Proof.
  cbv zeta. assert (M : col_flange_m (ex_joint (Some (10, 5))) = 46) by (unfold col_flange_m; simpl; lra).
  assert (E : col_flange_e (ex_joint (Some (10, 5))) = 50) by (unfold col_flange_e; simpl; rewrite (proj2 (Rltb_true 180 200)) by lra; lra).
  assert (A : stiff_alpha (fun _ _ : R => Some 6) 50 46 (stiff_m2 (ex_joint (Some (10, 5))) (ex_row Adjacent)) = Some 6).
  { unfold stiff_alpha, stiff_m2. cbn [j_stiff ex_joint bind]. unfold pdiv. rewrite (proj2 (Reqb_false (46 + 50) 0)) by lra. reflexivity. }
  rewrite M, E. change (r_fl (ex_row Adjacent)) with Adjacent. cbn [flange_cp flange_nc]. rewrite A. cbn [bind]. pose proof PI2_3_2.
  split; auto. split. f_equal. lra. split; auto. split; auto. split; auto. split; lra.
Qed.
