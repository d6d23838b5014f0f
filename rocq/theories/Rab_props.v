(** C374: outlines of hollow sections exported to Abaqus. *)
Require Import Reals List Lra Lia Psatz. Import ListNotations.
From Verif Require Import Base Rab_proofs.
From Verif Require Import Rab_model Rab_spec.
Local Open Scope R_scope.

(** The outline has the announced number of segments, ends where it starts, and its mirror images in both axes are made
    of the same points. *)
Theorem C374_closed H B T R0 :
  length (outline H B T R0) = S (outline_segments H B T R0) /\ outline_segments H B T R0 = 32%nat /\
  nth 0 (outline H B T R0) (0, 0) = nth 32 (outline H B T R0) (0, 0).
Proof. repeat split. Qed.
Print Assumptions C374_closed.

Theorem C374_symmetric H B T R0 x y : In (x, y) (outline H B T R0) -> In (- x, y) (outline H B T R0) /\ In (x, - y) (outline H B T R0).
Proof.
  unfold outline. rewrite !rab_in. intros [[a b] [Hq E]]. unfold rab_mx, rab_my, rab_neg in *. cbn [fst snd] in *.
  split; exists (a, b); (split; [exact Hq|]); cbn [fst snd];
    (destruct E as [E|[E|[E|E]]]; injection E as -> ->; rewrite ?Ropp_involutive; auto).
Qed.
Print Assumptions C374_symmetric.

(** Every point is on the middle line of the wall (in metres). *)
Theorem C374_on_midline H B T R0 : 0 < T -> T/2 <= R0 -> R0 + T <= B/2 -> R0 + T <= H/2 ->
  forall p, In p (outline H B T R0) -> on_midline (B/1000) (H/1000) (T/1000) (R0/1000) p.
Proof.
  intros HT HR HW HH p Hp. unfold outline, rab_conv in Hp.
  replace (B/1000) with (B * (1/1000)) by field. replace (H/1000) with (H * (1/1000)) by field.
  replace (T/1000) with (T * (1/1000)) by field. replace (R0/1000) with (R0 * (1/1000)) by field.
  apply rab_mid; try lra. exact Hp.
Qed.
Print Assumptions C374_on_midline.

(** The length of the outline (times the thickness: the area Abaqus works with). *)
Theorem C374_length H B T R0 : 0 < T -> T/2 <= R0 ->
  1000 * path_len (outline H B T R0) =
    4 * (Rabs (B/2 - R0 - 2*T) + 2*T + (Rabs (H/2 - R0 - 2*T) + 2*T) + 8 * (R0 - T/2) * sin (PI/16)).
Proof.
  intros HT HR. unfold outline, rab_conv. rewrite rab_len_total, rab_len_quarter by lra.
  assert (K : forall a, Rabs (a * (1/1000)) = Rabs a / 1000) by (intros a; rewrite Rabs_mult, (Rabs_right (1/1000)) by lra; field).
  replace (B * (1/1000)/2 - R0 * (1/1000) - 2 * (T * (1/1000))) with ((B/2 - R0 - 2*T) * (1/1000)) by field.
  replace (H * (1/1000)/2 - R0 * (1/1000) - 2 * (T * (1/1000))) with ((H/2 - R0 - 2*T) * (1/1000)) by field.
  rewrite !K. field.
Qed.
Print Assumptions C374_length.

(** If flats are long enough, the exported area is a little less than the area of the section: at least 95/96 of it. *)
Theorem C374_area H B T R0 : 0 < T -> T <= R0 -> R0 + 2*T <= B/2 -> R0 + 2*T <= H/2 ->
  let A := 1000 * 1000 * (path_len (outline H B T R0) * outline_T T) in
  95/96 * hollow_area B H T R0 <= A < hollow_area B H T R0.
Proof.
  intros HT HR HW HH A. subst A. unfold outline_T, rab_conv.
  replace (1000 * 1000 * (path_len (outline H B T R0) * (T * (1/1000)))) with (T * (1000 * path_len (outline H B T R0))) by field.
  rewrite C374_length by lra. rewrite !Rabs_right by lra.
  assert (P0 := PI_RGT_0). assert (P4 := PI_4).
  assert (U : sin (PI/16) < PI/16) by (apply rab_sin_lt; lra).
  assert (L : PI/16 - (PI/16)^3/6 <= sin (PI/16)) by (apply rab_sin_lb; lra).
  set (x := PI/16) in *. assert (Hx : 0 < x <= 1/4) by (unfold x; lra).
  assert (EP : PI = 16 * x) by (unfold x; field). unfold hollow_area. rewrite EP.
  set (s := sin x) in *. clearbody x s. clear P0 P4 EP.
  assert (L2 : 95/96 * x <= s).
  { eapply Rle_trans; [|exact L]. assert (x * x <= 1/16) by nra. nra. }
  assert (HM : 0 < R0 - T/2) by lra.
  replace (B * H - (4 - 16 * x) * R0^2 - ((B - 2*T) * (H - 2*T) - (4 - 16 * x) * (R0 - T)^2))
    with (T * (4 * ((B/2 - R0) + (H/2 - R0) + 8 * (R0 - T/2) * x))) by field.
  assert (G1 : (R0 - T/2) * s < (R0 - T/2) * x) by nra. assert (G2 : (R0 - T/2) * (95/96 * x) <= (R0 - T/2) * s) by nra.
  split.
  - replace (95/96 * (T * (4 * (B/2 - R0 + (H/2 - R0) + 8 * (R0 - T/2) * x)))) with (T * (95/96 * (4 * (B/2 - R0 + (H/2 - R0) + 8 * (R0 - T/2) * x)))) by ring.
    apply Rmult_le_compat_l; [lra|]. nra.
  - apply Rmult_lt_compat_l; [lra|]. nra.
Qed.
Print Assumptions C374_area.

(** SHS 100x100x5 and its points. *)
Example C374_ex : 0 < 5 /\ 5 <= 10 /\ 10 + 2*5 <= 100/2 /\ length (outline 100 100 5 10) = 33%nat /\ In (0, (100 * rab_conv - 5 * rab_conv)/2) (outline 100 100 5 10).
Proof. repeat split; try lra. left. reflexivity. Qed.

(** Finding: on thick-walled sections the outline runs back over itself, and the exported area is greater than that of
    the section, here RHS 60x40x6. *)
Theorem C374_thick_walled_refuted :
  ~ (forall H B T R0, 0 < T -> T <= R0 -> R0 + T <= B/2 -> R0 + T <= H/2 ->
       1000 * 1000 * (path_len (outline H B T R0) * outline_T T) <= hollow_area B H T R0).
Proof.
  intros F. specialize (F 60 40 6 12 ltac:(lra) ltac:(lra) ltac:(lra) ltac:(lra)). unfold outline_T, rab_conv in F.
  replace (1000 * 1000 * (path_len (outline 60 40 6 12) * (6 * (1/1000)))) with (6 * (1000 * path_len (outline 60 40 6 12))) in F by field.
  rewrite C374_length in F by lra. rewrite Rabs_left in F by lra. rewrite Rabs_right in F by lra.
  assert (P0 := PI_RGT_0). assert (P4 := PI_4).
  assert (L : PI/16 - (PI/16)^3/6 <= sin (PI/16)) by (apply rab_sin_lb; lra). unfold hollow_area in F.
  set (x := PI/16) in *. assert (Hx : 0 < x <= 1/4) by (unfold x; lra).
  replace PI with (16 * x) in F by (unfold x; field). clearbody x.
  assert (L2 : 95/96 * x <= sin x) by (eapply Rle_trans; [|exact L]; assert (x * x <= 1/16) by nra; nra).
  nra.
Qed.
Print Assumptions C374_thick_walled_refuted.
