(** Exact values of tabulated coefficients and small helpers. *)
From Verif Require Import Base EC3_model Bool_tac Sections_proofs Loads_model Member_model Cold_model Timber_model Heur_model.
Require Import Reals List Bool Lra Lia PeanoNat.
Import ListNotations.
Local Open Scope R_scope.

(** The second coefficient of cantilevers: constant, linear and quadratic part in thousandths. *)
Lemma cantilever_C2_lemma : forall K,
  let q a b c := (a + b * K + c * K ^ 2) / 1000 in
  cant_C2 K true true Top = q 409 1444 70 /\ cant_C2 K false true Top = q 984 1420 165 /\
  cant_C2 K true false Top = q 380 2092 (-318) /\ cant_C2 K false false Top = q 1130 1539 (-176) /\
  cant_C2 K true true Bottom = q 529 234 149 /\ cant_C2 K false true Bottom = q 1028 388 150 /\
  cant_C2 K true false Bottom = q 512 370 (-33) /\ cant_C2 K false false Bottom = q 1049 234 (-20) /\
  (forall p f, cant_C2 K p f Middle = 0).
Proof. intros K q. unfold q, cant_C2. repeat (split; [lra|]). auto. Qed.

(** Net section of a screw connection and the table of screws. *)
Lemma tight_screw_net_lemma : forall A A' fu, 0 < fu -> 125/100 * screw_net_section A fu = A * fu /\
  (A < A' -> screw_net_section A fu < screw_net_section A' fu).
Proof. intros A A' fu H. unfold screw_net_section, gammaM2. split; [lra|]. intros K. nra. Qed.
Lemma screw_values_lemma : forall d v,
  (screw_shear d hardened = Some v <-> (d = 48/10 /\ v = 5200) \/ (d = 55/10 /\ v = 7200) \/ (d = 63/10 /\ v = 9800) \/ (d = 8 /\ v = 16300)) /\
  (screw_shear d stainless_screw = Some v <-> (d = 48/10 /\ v = 4600) \/ (d = 55/10 /\ v = 6500) \/ (d = 63/10 /\ v = 8500) \/ (d = 8 /\ v = 14300)).
Proof.
  intros d v. unfold screw_shear. cbn [screw_table find fst].
  destruct (Reqb (48/10) d) eqn:E1; [|destruct (Reqb (55/10) d) eqn:E2; [|destruct (Reqb (63/10) d) eqn:E3; [|destruct (Reqb 8 d) eqn:E4]]];
    repeat match goal with K : Reqb _ _ = true |- _ => apply Reqb_true in K | K : Reqb _ _ = false |- _ => apply Reqb_false in K end; cbn [option_map snd];
    (split; (split; [intros H; try discriminate; try (inversion H; lra)|intros H; first [f_equal; lra|exfalso; lra]])).
Qed.

(** The sides a generic protection reaches; the exposed section of a beam fire on three sides keeps
    its protection at the top. *)
Lemma tight_generic_lemma : forall (A : Type) (r l b t v : option A) sides,
  (sides = 3%nat -> set_generic (r, l, b, t) v sides = (v, v, v, t)) /\ (sides <> 3%nat -> set_generic (r, l, b, t) v sides = (v, v, v, v)).
Proof. intros A r l b t v sides. unfold set_generic. split; intros H; [subst; reflexivity|]. apply Nat.eqb_neq in H. rewrite H. reflexivity. Qed.
(** The section's charring rate is the notional one of the table of EN 1995-1-2 for softwood. *)
Lemma tight_beta_lemma : forall g B H, 20 <= B -> 20 <= H ->
  sec_beta g B H = Some (match gtype g with solid => 8/10 | glt => 7/10 | lvl => if Rlt_dec (td_rhok (gdata g)) 480 then 75/100 else 7/10 end).
Proof.
  intros g B H HB HH. unfold sec_beta, charring_speed. assert (M : 20 <= Rmin B H) by (apply Rmin_glb; auto).
  destruct g; cbn [gtype gdata td_rhok];
    (repeat (first [rewrite leb_t by lra|rewrite leb_f by lra])); cbn [bind]; rewrite ltb_f by lra; cbn [snd]; try reflexivity;
    (destruct (Rlt_dec _ 480); [try reflexivity; exfalso; lra|try reflexivity; exfalso; lra]).
Qed.
(** Finding: hardwood of at least 450 kg/m3 is charred as softwood (0.8 instead of 0.55). *)
Lemma tight_hardwood_lemma : forall B H, 20 <= B -> 20 <= H -> 450 <= td_rhok (gdata D40) /\ sec_beta D40 B H <> Some (55/100).
Proof.
  intros B H HB HH. split; [cbn [gdata td_rhok]; lra|]. rewrite tight_beta_lemma by auto. cbn [gtype]. intros E. inversion E. lra.
Qed.
Lemma tight_lvl_flat_lemma : forall g,
  (gtype g <> lvl -> lvl_flat g = None) /\ lvl_flat KertoS = Some (50, 1.8, 0.12) /\ lvl_flat KertoT = Some (32, 1, 0.15) /\
  lvl_flat KertoQ21 = Some (32, 2.2, 0.12) /\ lvl_flat KertoQ27 = Some (36, 2.2, 0.12).
Proof.
  intros g. split; [destruct g; cbn; intros H; congruence|]. cbn [lvl_flat].
  split; [|split; [|split]]; repeat f_equal; lra.
Qed.

(** One step of the steepest descent, component by component. *)
Lemma tight_step_lemma : forall a d x i u v, nth_error x i = Some u -> nth_error d i = Some v -> nth_error (vaxpy a d x) i = Some (u + a * v).
Proof.
  intros a d x i u v Hx Hd. unfold vaxpy. assert (C : nth_error (combine x d) i = Some (u, v)).
  { revert d i Hx Hd. induction x as [|y x IH]; intros [|e d] [|i] Hx Hd; try discriminate; cbn in *; [congruence|auto]. }
  apply (map_nth_error (fun p => fst p + a * snd p) _ _ C).
Qed.
Lemma tight_group_values_lemma : forall n, length (group_values n None) = n /\ forall x, In x (group_values n None) -> x = 0.
Proof. intros n. cbn [group_values]. split; [apply repeat_length|]. intros x H. apply repeat_spec in H. exact H. Qed.
