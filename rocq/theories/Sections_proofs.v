From Verif Require Import Sections_spec Plate_proofs.
Require Import Psatz.

(* ------------------------------------------------------------ RHS state *)
Lemma outer_pos T : 0 < T -> 2 * T <= RHS_outer_radius T <= 3 * T.
Proof. intros H. unfold RHS_outer_radius. destruct (Rleb T 6), (Rleb T 10); lra. Qed.

Lemma pdiv_ok a b : b <> 0 -> pdiv a b = Some (a / b).
Proof. intros H. unfold pdiv. destruct (Reqb b 0) eqn:E; auto. apply Reqb_true in E. contradiction. Qed.
Lemma pdiv_inv a b c : pdiv a b = Some c -> b <> 0 /\ c = a / b.
Proof. unfold pdiv. destruct (Reqb b 0) eqn:Z; intros E; [discriminate|]. apply Reqb_false in Z. injection E; auto. Qed.

Definition good (H B T : R) : Prop :=
  H <> 0 /\ B <> 0 /\ H + B <> 0 /\
  2 * ((B - T) + (H - T)) - 2 * (RHS_outer_radius T - 1/2 * T) * (4 - PI) <> 0.

Definition fresh (H B T : R) : rhs :=
  let R0 := RHS_outer_radius T in
  let A := RHS_area H B T R0 in
  let Rc := R0 - 1/2 * T in
  let h := 2 * ((B - T) + (H - T)) - 2 * Rc * (4 - PI) in
  let Ah := (B - T) * (H - T) - Rc ^ 2 * (4 - PI) in
  mkRhs (Some H) (Some B) (Some T) (Some R0) (Some A)
    (Some (RHS_second_moment H B T R0, RHS_second_moment B H T R0))
    (Some (A * B / (B + B), A * H / (H + B))) (Some (RHS_paint_area H B R0))
    (Some (RHS_second_moment H B T R0 / (1/2 * H), RHS_second_moment B H T R0 / (1/2 * B)))
    (Some (RHS_plastic_modulus H B R0 T, RHS_plastic_modulus B H R0 T))
    (Some (T ^ 3 * h / 3 + 2 * (2 * Ah * T / h) * Ah)).

Lemma update_full H B T s : r_H s = Some H -> r_B s = Some B -> r_T s = Some T -> good H B T ->
  update_properties s = (fresh H B T, true).
Proof.
  intros EH EB ET (h1 & h2 & h3 & h4).
  unfold update_properties. rewrite EH, EB, ET.
  unfold RHS_shear_area, RHS_elastic_modulus, RHS_torsional_constant.
  rewrite !pdiv_ok by (auto; lra). destruct s; cbn in EH, EB, ET; subst. reflexivity.
Qed.

Lemma assign_inv {A} (v : option A) st k s s' : assign v st k s = (s', true) -> exists x, v = Some x /\ k (st x s) = (s', true).
Proof. unfold assign. destruct v; intros E; [eauto|discriminate]. Qed.
Lemma bind_inv {A B} (x : option A) (f : A -> option B) y : bind x f = Some y -> exists a, x = Some a /\ f a = Some y.
Proof. destruct x; cbn; intros E; [eauto|discriminate]. Qed.

Lemma update_inv H B T s s' : r_H s = Some H -> r_B s = Some B -> r_T s = Some T ->
  update_properties s = (s', true) -> good H B T /\ s' = fresh H B T.
Proof.
  intros EH EB ET E.
  assert (G : good H B T).
  { unfold update_properties in E. rewrite EH, EB, ET in E.
    apply assign_inv in E. destruct E as (z1 & _ & E). apply assign_inv in E. destruct E as (z2 & _ & E).
    apply assign_inv in E. destruct E as (z3 & _ & E).
    apply assign_inv in E. destruct E as (x1 & E1 & E). apply assign_inv in E. destruct E as (x2 & _ & E).
    apply assign_inv in E. destruct E as (x3 & E3 & E). apply assign_inv in E. destruct E as (x4 & _ & E).
    apply assign_inv in E. destruct E as (x5 & E5 & E). clear E.
    unfold RHS_torsional_constant in E5.
    apply bind_inv in E1. destruct E1 as (y1 & Q1 & E1). apply bind_inv in E1. destruct E1 as (y2 & Q2 & _).
    apply bind_inv in E3. destruct E3 as (y3 & Q3 & E3). apply bind_inv in E3. destruct E3 as (y4 & Q4 & _).
    apply bind_inv in E5. destruct E5 as (y5 & Q5 & _).
    apply pdiv_inv in Q1, Q2, Q3, Q4, Q5. destruct Q1 as [Q1 _], Q2 as [Q2 _], Q3 as [Q3 _], Q4 as [Q4 _], Q5 as [Q5 _].
    unfold good. repeat split; try assumption; lra. }
  split; auto. rewrite (update_full H B T s) in E by auto. congruence.
Qed.

Lemma set_H_noT v s : r_T s = None -> rhs_set dH v s = (put_H v s, true).
Proof. intros E. unfold rhs_set, update_properties. cbn [put_H r_T]. rewrite E. reflexivity. Qed.
Lemma set_B_noT v s : r_T s = None -> rhs_set dB v s = (put_B v s, true).
Proof. intros E. unfold rhs_set, update_properties. cbn [put_B r_T]. rewrite E. reflexivity. Qed.

Lemma new_fresh H B T s : rhs_new H B T = Some s <-> good H B T /\ s = fresh H B T.
Proof.
  unfold rhs_new. split.
  - intros E.
    apply bind_inv in E. destruct E as (y1 & Q1 & E). apply bind_inv in E. destruct E as (y2 & Q2 & E).
    apply bind_inv in E. destruct E as (y3 & Q3 & E). apply bind_inv in E. destruct E as (y4 & Q4 & E).
    cbv zeta in E. rewrite set_H_noT in E by reflexivity. cbv beta iota in E. rewrite set_B_noT in E by reflexivity. cbv beta iota in E.
    unfold rhs_set in E.
    match type of E with context[update_properties ?x] => destruct (update_properties x) as [s1 b1] eqn:U end.
    destruct b1; cbn [andb] in E; [|discriminate]. injection E as <-.
    apply (update_inv H B T) in U; auto.
  - intros [G ->]. pose proof G as (h1 & h2 & h3 & h4). unfold RHS_shear_area, RHS_elastic_modulus.
    rewrite !pdiv_ok by (auto; lra). cbn [bind].
    rewrite set_H_noT by reflexivity. cbv beta iota. rewrite set_B_noT by reflexivity. cbv beta iota.
    unfold rhs_set.
    rewrite (update_full H B T) by auto. reflexivity.
Qed.

Definition dims_are (s : rhs) (H B T : R) : Prop := r_H s = Some H /\ r_B s = Some B /\ r_T s = Some T.

Definition same_dims (s s' : rhs) : Prop := r_H s' = r_H s /\ r_B s' = r_B s /\ r_T s' = r_T s.
Lemma assign_keeps {A} (v : option A) st k s0 s : same_dims s0 s -> (forall x s, same_dims s (st x s)) ->
  (forall s, same_dims s0 s -> same_dims s0 (fst (k s))) -> same_dims s0 (fst (assign v st k s)).
Proof.
  intros D S1 K. unfold assign. destruct v; auto. apply K. destruct (S1 a s) as (a1 & a2 & a3), D as (d1 & d2 & d3). repeat split; congruence.
Qed.
Lemma update_keeps s : same_dims s (fst (update_properties s)).
Proof.
  unfold update_properties. destruct (r_T s) as [T|]; [|repeat split]. destruct (r_H s) as [H|]; [|repeat split]. destruct (r_B s) as [B|]; [|repeat split].
  apply assign_keeps; [repeat split|repeat split|intros].
  repeat (apply assign_keeps; [assumption|repeat split|intros]). assumption.
Qed.

Lemma set_dims d v s H B T : dims_are s H B T ->
  dims_are (fst (rhs_set d v s)) (last_value dH H [(d, v)]) (last_value dB B [(d, v)]) (last_value dT T [(d, v)]).
Proof.
  intros (h1 & h2 & h3). unfold dims_are, rhs_set.
  destruct d; cbn [last_value dim_eqb]; match goal with |- context[update_properties ?x] => destruct (update_keeps x) as (-> & -> & ->) end; destruct s; cbn in *; auto.
Qed.

Lemma edits_dims es : forall s H B T, dims_are s H B T ->
  dims_are (rhs_edits es s) (last_value dH H es) (last_value dB B es) (last_value dT T es).
Proof.
  induction es as [|[d v] es IH]; intros s H B T D; [exact D|].
  unfold rhs_edits. cbn [fold_left fst snd]. pose proof (set_dims d v _ _ _ _ D) as D1. apply IH in D1.
  unfold rhs_edits in D1. destruct d; exact D1.
Qed.

Lemma last_app d x es k v : last_value d x (es ++ [(k, v)]) = last_value d (last_value d x es) [(k, v)].
Proof. revert x. induction es as [|[a b] es IH]; intros x; [reflexivity|]. cbn [app last_value]. rewrite IH. reflexivity. Qed.

Lemma set_fresh s H B T d v s' : dims_are s H B T -> rhs_set d v s = (s', true) ->
  s' = fresh (last_value dH H [(d, v)]) (last_value dB B [(d, v)]) (last_value dT T [(d, v)]) /\
  good (last_value dH H [(d, v)]) (last_value dB B [(d, v)]) (last_value dT T [(d, v)]).
Proof.
  intros (h1 & h2 & h3) E. unfold rhs_set in E.
  destruct d; cbn; eapply and_comm, update_inv; try exact E; cbn; auto.
Qed.

Lemma rhs_history_lemma H B T s0 es d v s' :
  rhs_new H B T = Some s0 -> rhs_set d v (rhs_edits es s0) = (s', true) ->
  rhs_new (last_value dH H (es ++ [(d, v)])) (last_value dB B (es ++ [(d, v)])) (last_value dT T (es ++ [(d, v)])) = Some s'.
Proof.
  intros N E. apply new_fresh in N. destruct N as [G ->].
  assert (D : dims_are (rhs_edits es (fresh H B T)) (last_value dH H es) (last_value dB B es) (last_value dT T es)).
  { apply edits_dims. repeat split. }
  destruct (set_fresh _ _ _ _ _ _ _ D E) as [-> G'].
  rewrite !last_app. apply new_fresh. auto.
Qed.

Lemma valid_good H B T : rhs_valid H B T -> good H B T.
Proof.
  intros (t & h & b). pose proof (outer_pos T t) as [r1 r2]. pose proof PI_RGT_0. pose proof PI2_3_2 as P.
  assert (3 < PI) by (unfold PI2 in P; lra).
  set (R0 := RHS_outer_radius T) in *.
  unfold good. fold R0. repeat split; nra.
Qed.

Lemma rhs_valid_edit_lemma H B T s0 es d v :
  rhs_new H B T = Some s0 ->
  let es' := es ++ [(d, v)] in
  rhs_valid (last_value dH H es') (last_value dB B es') (last_value dT T es') ->
  exists s', rhs_set d v (rhs_edits es s0) = (s', true).
Proof.
  intros N es' V. apply valid_good in V. unfold es' in V. rewrite !last_app in V.
  apply new_fresh in N. destruct N as [G ->].
  assert (D : dims_are (rhs_edits es (fresh H B T)) (last_value dH H es) (last_value dB B es) (last_value dT T es)).
  { apply edits_dims. repeat split. }
  destruct D as (D1 & D2 & D3).
  unfold rhs_set. destruct d; cbn [last_value dim_eqb] in V; eexists; refine (update_full _ _ _ _ _ _ _ V); cbn [put_H put_B put_T r_H r_B r_T]; auto.
Qed.

Lemma rhs_new_valid_lemma H B T : rhs_valid H B T -> exists s, rhs_new H B T = Some s.
Proof. intros V. exists (fresh H B T). apply new_fresh. split; auto. apply valid_good; auto. Qed.

(** A raised update leaves a mixture of old and new values. *)
Lemma rhs_stale_lemma :
  exists s0 s1, rhs_new 100 60 4 = Some s0 /\ rhs_set dH 0 s0 = (s1, false) /\
    r_A s1 <> r_A s0 /\ r_Wel s1 = r_Wel s0 /\ r_H s1 = Some 0.
Proof.
  assert (O : RHS_outer_radius 4 = 8) by (unfold RHS_outer_radius, Rleb; destruct (Rle_dec 4 6); lra).
  assert (V : rhs_valid 100 60 4) by (unfold rhs_valid; rewrite O; lra).
  pose proof (valid_good _ _ _ V) as G.
  exists (fresh 100 60 4). eexists. split; [apply new_fresh; auto|]. split.
  { unfold rhs_set, update_properties. cbn [put_H fresh r_H r_B r_T]. unfold assign, RHS_shear_area, RHS_elastic_modulus.
    rewrite (pdiv_ok _ (60 + 60)) by lra. rewrite (pdiv_ok _ (0 + 60)) by lra. cbn [bind].
    unfold pdiv at 1. destruct (Reqb (1 / 2 * 0) 0) eqn:Z; [|apply Reqb_false in Z; lra]. cbn [bind]. reflexivity. }
  cbn [put_H put_B put_T put_R put_A put_I put_Ash put_Au fresh r_H r_B r_T r_R r_A r_I r_Ash r_Au r_Wel r_Wpl r_It]. repeat split; auto.
  intros E. injection E as E. unfold RHS_area in E. lra.
Qed.

(* ------------------------------------------------------------ RHS geometry *)
Lemma PI_ne : PI <> 0. Proof. pose proof PI_RGT_0. lra. Qed.
Lemma PI3 : 3 < PI. Proof. pose proof PI2_3_2 as P. unfold PI2 in P. lra. Qed.
Lemma rhs_area_lemma H B T : let R0 := RHS_outer_radius T in
  RHS_area H B T R0 = rr_area H B R0 - rr_area (H - 2 * T) (B - 2 * T) (R0 - T).
Proof. intros R0. unfold RHS_area, rr_area. field. Qed.

Lemma rhs_area_pos_lemma H B T : rhs_valid H B T -> 0 < RHS_area H B T (RHS_outer_radius T).
Proof.
  intros (t & h & b). pose proof (outer_pos T t) as [r1 r2]. pose proof PI3.
  set (R0 := RHS_outer_radius T) in *. unfold RHS_area.
  assert (0 <= 2 * (H - 2 * R0) * T) by nra. assert (0 <= 2 * (B - 2 * R0) * T) by nra.
  assert (0 < R0 ^ 2 - (R0 - T) ^ 2) by nra. assert (0 < PI * (R0 ^ 2 - (R0 - T) ^ 2)) by nra. lra.
Qed.

Lemma rhs_inertia_lemma H B T : let R0 := RHS_outer_radius T in
  RHS_second_moment H B T R0 = rr_inertia H B R0 - rr_inertia (H - 2 * T) (B - 2 * T) (R0 - T).
Proof. intros R0. unfold RHS_second_moment, rr_inertia. pose proof PI_ne. field. auto. Qed.

Lemma rhs_plastic_lemma H B T : let R0 := RHS_outer_radius T in
  RHS_plastic_modulus H B R0 T = rr_static H B R0 - rr_static (H - 2 * T) (B - 2 * T) (R0 - T).
Proof. intros R0. unfold RHS_plastic_modulus, rr_static. pose proof PI_ne. field. auto. Qed.

Lemma rhs_paint_lemma H B T : RHS_paint_area H B (RHS_outer_radius T) = rr_perimeter H B (RHS_outer_radius T).
Proof. unfold RHS_paint_area, rr_perimeter. ring. Qed.

Lemma rhs_inertia_pos H B T : rhs_valid H B T -> 0 < RHS_second_moment H B T (RHS_outer_radius T).
Proof.
  intros (t & h & b). pose proof (outer_pos T t) as [r1 r2]. pose proof PI3.
  rewrite rhs_inertia_lemma. set (R0 := RHS_outer_radius T) in *. unfold rr_inertia.
  set (a := H / 2 - R0). assert (0 <= a) by (unfold a; lra).
  assert (HH : H = 2 * a + 2 * R0) by (unfold a; lra). rewrite HH.
  set (c := B - 2 * R0). assert (HB : B = c + 2 * R0) by (unfold c; lra). assert (0 <= c) by (unfold c; lra).
  set (r := R0 - T). assert (Hr : T = R0 - r) by (unfold r; lra). assert (0 < r < R0) by (unfold r; lra).
  replace (R0 - T) with r by lra. rewrite HB, Hr. clearbody a c r.
  match goal with |- 0 < ?e => replace e with
   (c * (R0 - r) * ((a + R0) ^ 2 + (a + R0) * (a + r) + (a + r) ^ 2) * (2/3) + (R0 - r) * a ^ 3 * (4/3)
    + 4 * (a ^ 2 * PI * (R0 ^ 2 - r ^ 2) / 4 + 2 * a * (R0 ^ 3 - r ^ 3) / 3 + PI * (R0 ^ 4 - r ^ 4) / 16)) by (field) end.
  assert (0 <= a ^ 3) by (apply pow_le; auto).
  assert (0 < R0 ^ 2 - r ^ 2) by nra.
  assert (0 < R0 ^ 3 - r ^ 3).
  { replace (R0 ^ 3 - r ^ 3) with ((R0 - r) * (R0 ^ 2 + R0 * r + r ^ 2)) by ring. apply Rmult_lt_0_compat; nra. }
  assert (0 < R0 ^ 4 - r ^ 4).
  { replace (R0 ^ 4 - r ^ 4) with ((R0 ^ 2 - r ^ 2) * (R0 ^ 2 + r ^ 2)) by ring. apply Rmult_lt_0_compat; nra. }
  assert (0 <= c * (R0 - r) * ((a + R0) ^ 2 + (a + R0) * (a + r) + (a + r) ^ 2)).
  { apply Rmult_le_pos; [nra|]. nra. }
  assert (0 <= (R0 - r) * a ^ 3) by nra.
  assert (0 <= a ^ 2 * PI * (R0 ^ 2 - r ^ 2)). { apply Rmult_le_pos; [|lra]. apply Rmult_le_pos; nra. }
  assert (0 <= a * (R0 ^ 3 - r ^ 3)) by nra.
  assert (0 < PI * (R0 ^ 4 - r ^ 4)) by nra. lra.
Qed.

Lemma rhs_wpl_wel_lemma H B T : rhs_valid H B T -> let R0 := RHS_outer_radius T in
  RHS_second_moment H B T R0 / (1/2 * H) <= RHS_plastic_modulus H B R0 T.
Proof.
  intros (t & h & b) R0. pose proof (outer_pos T t) as [r1 r2]. fold R0 in r1, r2, h, b. pose proof PI3. pose proof PI_4.
  apply Rmult_le_reg_r with (1/2 * H); [lra|]. replace (RHS_second_moment H B T R0 / (1 / 2 * H) * (1 / 2 * H)) with (RHS_second_moment H B T R0) by (field; lra).
  unfold R0. rewrite rhs_inertia_lemma, rhs_plastic_lemma. fold R0. unfold rr_inertia, rr_static. clearbody R0.
  set (a := H / 2 - R0). assert (0 <= a) by (unfold a; lra).
  assert (HH : H = 2 * a + 2 * R0) by (unfold a; lra). rewrite HH.
  set (c := B - 2 * R0). assert (HB : B = c + 2 * R0) by (unfold c; lra). assert (0 <= c) by (unfold c; lra).
  set (r := R0 - T). assert (Hr : T = R0 - r) by (unfold r; lra). assert (0 < r < R0) by (unfold r; lra).
  replace (R0 - T) with r by lra. rewrite HB, Hr. clearbody a c r.
  match goal with |- ?x <= ?y => cut (0 <= y - x); [clear; lra|] end.
  match goal with |- 0 <= ?e => replace e with
   (c * (R0 - r) ^ 2 * ((a + r) + (R0 - r) / 3) + (R0 - r) * a ^ 2 * (2 * (a + R0) - 4/3 * a)
    + 4 * (a * (R0 * PI * (R0 ^ 2 - r ^ 2) / 4 - (R0 ^ 3 - r ^ 3) / 3)
           + (R0 * (R0 ^ 3 - r ^ 3) / 3 - PI * (R0 ^ 4 - r ^ 4) / 16))) by (field) end.
  assert (0 <= c * (R0 - r) ^ 2 * (a + r + (R0 - r) / 3)). { apply Rmult_le_pos; [|lra]. apply Rmult_le_pos; nra. }
  assert (0 <= (R0 - r) * a ^ 2 * (2 * (a + R0) - 4 / 3 * a)). { apply Rmult_le_pos; [|lra]. apply Rmult_le_pos; nra. }
  assert (D2 : 0 < R0 ^ 2 - r ^ 2) by nra.
  assert (K1 : 0 <= R0 * PI * (R0 ^ 2 - r ^ 2) / 4 - (R0 ^ 3 - r ^ 3) / 3).
  { assert (3 * (R0 * (R0 ^ 2 - r ^ 2)) <= PI * (R0 * (R0 ^ 2 - r ^ 2))). { apply Rmult_le_compat_r; [|lra]. nra. }
    assert (0 <= 3 * (R0 * (R0 ^ 2 - r ^ 2)) / 4 - (R0 ^ 3 - r ^ 3) / 3); [|lra].
    replace (3 * (R0 * (R0 ^ 2 - r ^ 2)) / 4 - (R0 ^ 3 - r ^ 3) / 3) with ((R0 - r) * (5/12 * R0 ^ 2 + 5/12 * R0 * r - r ^ 2 / 3)) by field.
    apply Rmult_le_pos; [lra|nra]. }
  assert (K2 : 0 <= R0 * (R0 ^ 3 - r ^ 3) / 3 - PI * (R0 ^ 4 - r ^ 4) / 16).
  { assert (D4 : 0 < R0 ^ 4 - r ^ 4).
    { replace (R0 ^ 4 - r ^ 4) with ((R0 ^ 2 - r ^ 2) * (R0 ^ 2 + r ^ 2)) by ring. apply Rmult_lt_0_compat; nra. }
    assert (PI * (R0 ^ 4 - r ^ 4) <= 4 * (R0 ^ 4 - r ^ 4)) by (apply Rmult_le_compat_r; lra).
    assert (0 <= R0 * (R0 ^ 3 - r ^ 3) / 3 - (R0 ^ 4 - r ^ 4) / 4); [|lra].
    replace (R0 * (R0 ^ 3 - r ^ 3) / 3 - (R0 ^ 4 - r ^ 4) / 4) with ((R0 - r) * ((R0 ^ 3 + R0 ^ 2 * r + R0 * r ^ 2 - 3 * r ^ 3) / 12)) by field.
    apply Rmult_le_pos; [lra|].
    assert (0 <= R0 ^ 3 + R0 ^ 2 * r + R0 * r ^ 2 - 3 * r ^ 3); [|lra].
    replace (R0 ^ 3 + R0 ^ 2 * r + R0 * r ^ 2 - 3 * r ^ 3) with ((R0 - r) * (R0 ^ 2 + 2 * R0 * r + 3 * r ^ 2)) by ring.
    apply Rmult_le_pos; nra. }
  assert (0 <= a * (R0 * PI * (R0 ^ 2 - r ^ 2) / 4 - (R0 ^ 3 - r ^ 3) / 3)) by (apply Rmult_le_pos; auto). lra.
Qed.

(** Shear areas. *)
Lemma rhs_shear_new_lemma H B T s : rhs_valid H B T -> rhs_new H B T = Some s ->
  exists A Ay Az, r_A s = Some A /\ r_Ash s = Some (Ay, Az) /\ Ay = A / 2 /\ Az = A * H / (H + B) /\
    (Ay + Az = A <-> H = B).
Proof.
  intros V N. pose proof (rhs_area_pos_lemma _ _ _ V) as AP. pose proof (valid_good _ _ _ V) as (g1 & g2 & g3 & _).
  apply new_fresh in N. destruct N as [_ ->]. cbn [fresh r_A r_Ash].
  eexists _, _, _. split; [reflexivity|]. split; [reflexivity|].
  set (A := RHS_area H B T (RHS_outer_radius T)) in *.
  assert (E1 : A * B / (B + B) = A / 2) by (field; lra). split; [exact E1|]. split; [reflexivity|].
  rewrite E1. split; intros E.
  - assert (A * H / (H + B) = A / 2) by lra. apply (f_equal (fun x => x * (H + B))) in H0.
    replace (A * H / (H + B) * (H + B)) with (A * H) in H0 by (field; auto). nra.
  - subst B. field. lra.
Qed.

Lemma rhs_shear_formula_lemma A H B : 0 < H -> 0 < B ->
  exists x y, RHS_shear_area A B H = Some x /\ RHS_shear_area A H B = Some y /\ x + y = A.
Proof.
  intros h b. unfold RHS_shear_area. rewrite !pdiv_ok by lra. eexists _, _. repeat split. field. lra.
Qed.

(** SHS. *)
Lemma shs_square_lemma H T s : shs_new H T = Some s ->
  r_H s = r_B s /\ (exists i, r_I s = Some (i, i)) /\ exists w, r_Wpl s = Some (w, w).
Proof.
  unfold shs_new. intros N. apply new_fresh in N. destruct N as [_ ->]. cbn. repeat split; eauto.
Qed.
Lemma shs_edit_lemma H T s v s' : shs_new H T = Some s -> rhs_set dH v s = (s', true) -> v <> H ->
  r_H s' = Some v /\ r_B s' = Some H /\ r_H s' <> r_B s'.
Proof.
  unfold shs_new. intros N E n. apply new_fresh in N. destruct N as [_ ->].
  destruct (set_fresh (fresh H H T) H H T dH v s') as [-> _]; [repeat split|auto|]. cbn. repeat split; auto. congruence.
Qed.

(* ------------------------------------------------------------ interaction *)
Lemma interact_lemma aw UN MRd : aw <= 1/2 -> 0 <= UN -> 0 <= MRd ->
  0 <= interact aw UN MRd <= MRd /\ (1 <= UN -> interact aw UN MRd = 0).
Proof.
  intros a u m. unfold interact. destruct (Rltb 1 UN) eqn:E.
  - apply Rltb_true in E. split; [lra|auto].
  - apply Rltb_false in E.
    assert (0 <= (1 - UN) / (1 - 1 / 2 * aw)).
    { unfold Rdiv. apply Rmult_le_pos; [lra|]. left. apply Rinv_0_lt_compat. lra. }
    split.
    + assert (0 <= Rmin ((1 - UN) / (1 - 1 / 2 * aw)) 1) by (apply Rmin_glb; lra).
      assert (Rmin ((1 - UN) / (1 - 1 / 2 * aw)) 1 <= 1) by apply Rmin_r. nra.
    + intros. assert (UN = 1) by lra. subst UN. replace ((1 - 1) / (1 - 1/2*aw)) with 0 by (field; lra). rewrite Rmin_left by lra. ring.
Qed.

Lemma interact_mono aw u v MRd : aw <= 1/2 -> 0 <= MRd -> 0 <= u <= v -> interact aw v MRd <= interact aw u MRd.
Proof.
  intros a m (u0 & uv). destruct (interact_lemma aw u MRd a u0 m) as [[L _] _].
  unfold interact at 1. destruct (Rltb 1 v) eqn:E; [exact L|]. apply Rltb_false in E.
  unfold interact. destruct (Rltb 1 u) eqn:E2; [apply Rltb_true in E2; lra|].
  apply Rmult_le_compat_l; auto. apply Rle_min_compat_r. unfold Rdiv. apply Rmult_le_compat_r; [|lra].
  left. apply Rinv_0_lt_compat. lra.
Qed.

Lemma interact_free aw MRd : 0 <= aw <= 1/2 -> interact aw 0 MRd = MRd.
Proof.
  intros a. unfold interact. destruct (Rltb 1 0) eqn:E; [apply Rltb_true in E; lra|].
  rewrite Rmin_right; [ring|]. apply Rmult_le_reg_r with (1 - 1/2*aw); [lra|].
  replace ((1 - 0) / (1 - 1 / 2 * aw) * (1 - 1 / 2 * aw)) with 1 by (field; lra). lra.
Qed.
