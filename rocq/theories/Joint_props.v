(** C140 to C159: bolts, welds, T-stubs and joint components. *)
From Coq Require Import Rpower.
From Verif Require Import EC3_proofs Joint_proofs Joint2_proofs Joint3_proofs Joint4_proofs.
From Verif Require Import Joint_model Joint_spec.

(** C140 *)
Theorem C140_length : forall size c len,
  (forall b, new_bolt size c len = Some b -> exists k, shortest_stock size len k /\ b_len b = INR k) /\
  ((forall k, stocked size k -> INR k < len) -> new_bolt size c len = None) /\
  (forall k, stocked size k -> len <= INR k -> size_data size <> None -> new_bolt size c len <> None).
Proof. exact bolt_length_lemma. Qed.
Print Assumptions C140_length.
Theorem C140_available : forall size c len k, stocked size k -> len <= INR k -> exists b, new_bolt size c len = Some b.
Proof. exact bolt_exists_lemma. Qed.
Print Assumptions C140_available.
Example C140_ex : shortest_stock 16 57 60.
Proof.
  split; [exists [12;16]%nat; split; [cbn; tauto|cbn; tauto]|]. split; [simpl; lra|].
  intros k' [s [H1 H2]] L. destruct (Nat.le_gt_cases 60 k') as [G|G]; auto. exfalso.
  cbn in H1. repeat (destruct H1 as [H1|H1]; [injection H1 as <- <-; try lia; cbn in H2; simpl in L; first [lra|tauto|lia]|]). contradiction.
Qed.

(** C141 *)
Theorem C141_set_size : forall size c len b size', new_bolt size c len = Some b ->
  set_size b size' = new_bolt size' c len.
Proof. exact set_size_lemma. Qed.
Print Assumptions C141_set_size.
Example C141_ex : exists b, new_bolt 16 B88 57 = Some b.
Proof. apply (bolt_exists_lemma 16 B88 57 60); [exists [12;16]%nat; cbn; tauto|simpl; lra]. Qed.

(** C142 *)
Theorem C142_values_partial : forall n c len b, new_bolt n c len = Some b ->
  b_size b = n /\ b_class b = c /\ b_d0 b = INR n + (if Nat.ltb n 16 then 1 else if Nat.ltb n 27 then 2 else 3) /\
  shear_resistance b false = 12/25 * class_fub c * (PI * INR n ^ 2 / 4) /\
  shear_resistance b true = (match c with B46 | B56 | B88 => 12/25 | _ => 10/25 end) * class_fub c * t_As (b_data b) /\
  tension_resistance b (9/10) = 18/25 * class_fub c * t_As (b_data b) /\
  class_fyb c < class_fub c /\ 1/2 * (PI * INR n ^ 2 / 4) <= t_As (b_data b) < PI * INR n ^ 2 / 4.
Proof. exact bolt_values_lemma. Qed.
Print Assumptions C142_values_partial.
Theorem C142_ordering : forall n c len b, new_bolt n c len = Some b ->
  0 < shear_resistance b true < shear_resistance b false /\
  (forall n' len' b', new_bolt n' c len' = Some b' -> (n < n')%nat ->
     (forall th, shear_resistance b th < shear_resistance b' th) /\
     forall k2, 0 < k2 -> 0 < tension_resistance b k2 < tension_resistance b' k2).
Proof. exact bolt_shear_lemma. Qed.
Print Assumptions C142_ordering.
(** Finding: the free function uses the factor of the threads for the shank and the other way round. *)
Theorem C142_free_function_refuted : forall n c len b, new_bolt n c len = Some b ->
  (In c [B46; B56; B88] -> shear_resistance b true = bolt_shear_resistance (b_fub b) (t_As (b_data b)) c true /\
                          shear_resistance b false = bolt_shear_resistance (b_fub b) (b_A b) c false) /\
  (In c [B48; B58; B68; B109] -> shear_resistance b true < bolt_shear_resistance (b_fub b) (t_As (b_data b)) c true /\
                          bolt_shear_resistance (b_fub b) (b_A b) c false < shear_resistance b false).
Proof. exact free_shear_lemma. Qed.
Print Assumptions C142_free_function_refuted.
Example C142_ex : alpha_v B109 = 5/10 /\ alpha_v B88 = 6/10.
Proof. split; reflexivity. Qed.

(** C143 *)
Theorem C143_bearing_partial : forall n c len b fu t e1 e2 p1 p2 pe le, new_bolt n c len = Some b ->
  0 < fu -> 0 < t -> min_distances (b_d0 b) e1 e2 p1 p2 ->
  exists F, bearing_resistance b fu t e1 e2 p1 p2 pe le = Some F /\ 0 < F <= 25/10 * fu * INR n * t / (125/100) /\
    F <= 25/10 * b_fub b * INR n * t / (125/100) /\
    forall fu' t' e1' e2' p1' p2', fu <= fu' -> t <= t' -> e1 <= e1' -> e2 <= e2' -> p1 <= p1' -> p2 <= p2' ->
    exists F', bearing_resistance b fu' t' e1' e2' p1' p2' pe le = Some F' /\ F <= F'.
Proof. exact bearing_lemma. Qed.
Print Assumptions C143_bearing_partial.
(** Finding: the free function leaves out the partial factor. *)
Theorem C143_free_function_refuted : forall b fu t e1 e2 p1 p2 le F, 0 < fu ->
  bearing_resistance b fu t e1 e2 p1 p2 false le = Some F ->
  bolt_bearing_resistance (b_fub b) fu (INR (b_size b)) t e1 e2 p1 p2 (b_d0 b) false le = Some (125/100 * F).
Proof. exact free_bearing_lemma. Qed.
Print Assumptions C143_free_function_refuted.
Example C143_ex : min_distances 18 25 25 40 50.
Proof. unfold min_distances. lra. Qed.

(** C144 *)
Theorem C144_interaction_partial : forall FvEd FvRd FtEd FtRd U, 0 < FvRd -> 0 < FtRd -> 0 <= FvEd -> 0 <= FtEd ->
  shear_and_tension FvEd FvRd FtEd FtRd = Some U -> U <= 1 ->
  FvEd <= FvRd /\ FtEd <= 14/10 * FtRd /\ (FvEd = FvRd -> FtEd = 0) /\ (2/7 * FvRd <= FvEd -> FtEd <= FtRd).
Proof. exact shear_tension_lemma. Qed.
Print Assumptions C144_interaction_partial.
(** Finding: the utilisation does not bound the tension by the tension resistance. *)
Theorem C144_tension_refuted : exists FvEd FvRd FtEd FtRd U, 0 < FvRd /\ 0 < FtRd /\ 0 <= FvEd /\ 0 <= FtEd /\
  shear_and_tension FvEd FvRd FtEd FtRd = Some U /\ U <= 1 /\ FtRd < FtEd.
Proof. exact shear_tension_refuted_lemma. Qed.
Print Assumptions C144_tension_refuted.
Example C144_ex : exists U, shear_and_tension 30 100 50 100 = Some U /\ U <= 1.
Proof. unfold shear_and_tension. rewrite !Sections_proofs.pdiv_ok by lra. cbn. eexists; split; [reflexivity|]. lra. Qed.

(** C145 *)
Theorem C145_block_tearing : forall fy fu Ant Anv, 0 <= fy -> 0 <= fu -> 0 <= Ant -> 0 <= Anv ->
  0 <= block_tearing fy fu Ant Anv false <= block_tearing fy fu Ant Anv true /\
  block_tearing fy fu Ant Anv true <= 2 * block_tearing fy fu Ant Anv false /\
  (block_tearing fy fu Ant Anv true - block_tearing fy fu Ant Anv false = 5/10 * fu * Ant / gammaM2) /\
  forall cn Ant' Anv', Ant <= Ant' -> Anv <= Anv' -> block_tearing fy fu Ant Anv cn <= block_tearing fy fu Ant' Anv' cn.
Proof. exact block_tearing_lemma. Qed.
Print Assumptions C145_block_tearing.
Example C145_ex : 0 < block_tearing 235 360 100 0 false.
Proof. unfold block_tearing, gammaM2, gammaM0. lra. Qed.

(** C146 *)
Theorem C146_full_strength : forall g fy fu t, 0 < fy -> 0 < fu -> 0 < t ->
  (exists q, weld_throat g fy fu = Some q /\ forall a, 0 < a -> (welds_ok (correlation g) fu (fy * t / gammaM0) a 2 <-> q * t <= a)) /\
  (exists q, weld_tube g fy fu = Some q /\ forall a, 0 < a -> (welds_ok (correlation g) fu (fy * t / gammaM0) a 1 <-> q * t <= a)).
Proof. exact weld_lemma. Qed.
Print Assumptions C146_full_strength.
Example C146_ex : forall q, weld_throat S355 355 510 = Some q -> welds_ok (9/10) 510 (355 * 10 / gammaM0) (q * 10) 2.
Proof.
  intros q H. destruct (weld_lemma S355 355 510 10) as [[q' [E W]] _]; try lra. rewrite E in H. injection H as <-.
  assert (0 < q'). { unfold weld_throat in E. rewrite Sections_proofs.pdiv_ok in E by lra. injection E as <-. unfold correlation, gammaM2, gammaM0.
    assert (0 < sqrt 2) by (apply sqrt_lt_R0; lra). apply Rdiv_lt_0_compat; [|lra]. assert (0 < 9/10 / sqrt 2) by (apply Rdiv_lt_0_compat; lra). lra. }
  apply W; lra.
Qed.

(** C147 *)
Theorem C147_modes : forall t, stub_ok t -> exists F i F1 F2, FT_Rd t = Some (F, i) /\
  F1 = ts_fy t * ts_tf t ^ 2 * Rmin (ts_cp t) (ts_nc t) / ts_m t /\
  F2 = (ts_fy t * ts_tf t ^ 2 / 2 * ts_nc t + ts_n t * ts_F3 t) / (ts_m t + ts_n t) /\
  F = Rmin F1 (Rmin F2 (ts_F3 t)) /\ 0 < F /\ (i <= 2)%nat /\ nth i [F1; F2; ts_F3 t] 0 = F /\
  (forall k, (k < i)%nat -> F < nth k [F1; F2; ts_F3 t] 0).
Proof. exact tstub_lemma. Qed.
Print Assumptions C147_modes.
Theorem C147_monotone : forall t t' F F', stub_ok t -> stub_ok t' -> ts_m t' = ts_m t -> ts_emin t' = ts_emin t ->
  ts_tf t <= ts_tf t' -> ts_fy t <= ts_fy t' -> ts_cp t <= ts_cp t' -> ts_nc t <= ts_nc t' -> ts_F3 t <= ts_F3 t' ->
  resistance t = Some F -> resistance t' = Some F' -> F <= F' /\ F <= ts_F3 t.
Proof. exact tstub_mono_lemma. Qed.
Print Assumptions C147_monotone.
Example C147_ex : stub_ok (mkT 10 235 40 30 150 160 200000).
Proof. unfold stub_ok. cbn. lra. Qed.

(** C148 *)
Theorem C148_inner_row : forall tf fy emin e F m m', 0 < tf -> 0 < fy -> 0 < emin -> 0 < e -> 0 < F -> 0 < m -> m <= m' ->
  exists R R', resistance (inner_stub tf fy emin e F m) = Some R /\ resistance (inner_stub tf fy emin e F m') = Some R' /\ R' <= R.
Proof. exact inner_mono_lemma. Qed.
Print Assumptions C148_inner_row.
Example C148_ex : stub_ok (inner_stub 10 235 40 50 200000 30).
Proof. pose proof Sections_proofs.PI3. unfold stub_ok, inner_stub. cbn. repeat split; lra. Qed.

(** C149 *)
Theorem C149_after_resistance_partial : forall t, stub_ok t -> exists F i, FT_Rd t = Some (F, i) /\
  let l := if Nat.eqb i 0 then leff_1 t else leff_2 t in
  (exists s, get_leff t new_mem = Some (l, s)) /\
  (forall s F' s', run_FT t s = Some (F', s') -> F' = F /\ get_leff t s' = Some (l, s')).
Proof. exact leff_fresh_lemma. Qed.
Print Assumptions C149_after_resistance_partial.
Theorem C149_order : forall t, leff_1 t <= leff_2 t /\ leff_1 t <= ts_cp t.
Proof. exact leff_order_lemma. Qed.
Print Assumptions C149_order.
(** Finding: a change of geometry after the resistance has been asked for does not reach leff. *)
Theorem C149_stale_refuted : exists t t' s F l l', stub_ok t /\ stub_ok t' /\ run_FT t new_mem = Some (F, s) /\
  option_map fst (get_leff t' s) = Some l /\ option_map fst (get_leff t' new_mem) = Some l' /\ l <> l'.
Proof. exact leff_stale_lemma. Qed.
Print Assumptions C149_stale_refuted.
Example C149_ex : get_leff_group new_mem = None /\ stub_ok (mkT 10 235 40 30 150 160 200000).
Proof. split; [reflexivity|]. unfold stub_ok. cbn. lra. Qed.

(** C150 *)
Theorem C150_flange_lengths : forall fa e m e1 m2 l, 0 < m -> 0 < e -> flange_loc l -> (forall x, e1 = Some x -> 0 < x) ->
  exists cp nc, flange_cp m e1 l = Some cp /\ flange_nc fa e m e1 m2 l = Some nc /\ 0 < cp <= 2 * PI * m /\ 0 < nc <= 4 * m + 125/100 * e /\
  ((l = Inner \/ l = OtherInner \/ e1 = None) -> cp = 2 * PI * m /\ nc = 4 * m + 125/100 * e).
Proof. exact flange_lengths_lemma. Qed.
Print Assumptions C150_flange_lengths.
Example C150_ex : flange_cp 30 (Some 20) End_ = Some (Rmin (2 * PI * 30) (PI * 30 + 2 * 20)).
Proof. reflexivity. Qed.

(** C151 *)
Theorem C151_components : forall fa j r F, row_resistance fa j r = Some F ->
  exists f pl cf i ep k wt, flange_stub fa j r = Some f /\ plate_stub j r = Some pl /\
    FT_Rd f = Some (cf, i) /\ FT_Rd pl = Some (ep, k) /\
    column_web_tension (j_col j) (if Nat.eqb i 0 then leff_1 f else leff_2 f) (j_beta j) = Some wt /\
    let bw := if loc_eqb (r_pl r) Outside then 100000000
              else s_tw (j_beam j) * s_fy (j_beam j) * (if Nat.eqb k 0 then leff_1 pl else leff_2 pl) in
    In F [cf; ep; wt; bw] /\ F <= cf /\ F <= ep /\ F <= wt /\ F <= bw.
Proof. exact row_resistance_lemma. Qed.
Print Assumptions C151_components.
Theorem C151_bolts : forall fa j r F, row_resistance fa j r = Some F -> F <= INR (r_n r) * tension_resistance (r_bolt r) (9/10).
Proof. exact row_bolts_lemma. Qed.
Print Assumptions C151_bolts.
Theorem C151_defined_partial : forall fa j r n c len, new_bolt n c len = Some (r_bolt r) -> (0 < r_n r)%nat ->
  j_stiff j = None -> prof_ok (j_col j) -> 0 < s_tw (j_beam j) -> 0 < s_fy (j_beam j) -> 0 < j_tp j -> 0 < j_fyp j -> 0 < j_bp j ->
  0 < j_ebolts j -> 0 < j_p j -> 0 <= j_beta j <= 1 -> 0 < col_flange_m j -> 0 < col_flange_e j -> 0 < end_plate_m j r ->
  0 < emin_plate j r -> (r_pl r = FirstBelow -> 0 < end_plate_m2 j r) -> (forall x, r_e1 r = Some x -> 0 < x) ->
  flange_loc (r_fl r) -> r_pl r = Outside \/ plate_loc (r_pl r) ->
  exists F, row_resistance fa j r = Some F /\ 0 < F.
Proof. exact row_defined_lemma. Qed.
Print Assumptions C151_defined_partial.
(** Finding: with a stiffener at the top flange the resistance cannot be computed at all. *)
Theorem C151_stiffener_refuted : forall fa j r s, j_stiff j = Some s -> row_resistance fa j r = None.
Proof. exact row_stiffener_lemma. Qed.
Print Assumptions C151_stiffener_refuted.
Example C151_ex : exists F, bind (new_bolt 16 B88 57) (fun b => row_resistance (fun _ _ => None)
    (mkJoint (mkProf 235 2000 10 10 6 150 210000 160 170) (mkProf 235 2000 10 10 6 150 210000 160 170) 10 160 235 60 30 100 5 4 0 1 None)
    (mkRow b 2 20 End_ OtherInner (Some 40))) = Some F /\ 0 < F.
Proof.
  destruct C141_ex as [b B]. rewrite B. cbn [bind].
  assert (S2 : sqrt 2 <= 2) by (rewrite <- (sqrt_square 2) at 2 by lra; apply sqrt_le_1; lra).
  assert (0 <= sqrt 2) by apply sqrt_pos.
  assert (L : Rltb 160 160 = false) by (destruct (Rltb 160 160) eqn:X; auto; apply Rltb_true in X; lra).
  apply (row_defined_lemma _ _ _ 16 B88 57); unfold prof_ok, col_flange_m, col_flange_e, end_plate_m, emin_plate, flange_loc, plate_loc; cbn; rewrite ?L;
    repeat split; auto; try lia; try lra; try discriminate.
  intros x E. injection E as <-. lra.
Qed.

(** C152 *)
Theorem C152_chain : forall m e fa m2 k zs z olds, length zs = S k -> length olds = S (S k) ->
  exists p1 p2, group_leff (flange_p (distances (z :: zs))) (fun _ l p => flange_nc_group fa e m p None m2 l) 0 (with_p (chain k) olds) =
      Some (p1, 4 * m + 125/100 * e + (z - last zs z)) /\
    group_leff (flange_p (distances (z :: zs))) (fun _ l p => flange_cp_group m p None l) 0 (with_p (chain k) olds) =
      Some (p2, 2 * PI * m + 2 * (z - last zs z)).
Proof. exact group_chain_lemma. Qed.
Print Assumptions C152_chain.
Theorem C152_plate_order_partial : forall zs nc cp ls olds1 olds2 p1 p2 s1 s2 p1' s1',
  (forall l, In l ls -> plate_loc l) -> length olds1 = length ls -> length olds2 = length ls ->
  let ps := distances zs in
  group_leff (plate_p ps) nc 0 (with_p ls olds1) = Some (p1, s1) ->
  group_leff (plate_p ps) nc 0 (with_p ls olds2) = Some (p2, s2) ->
  group_leff (plate_p_cp ps) cp 0 (with_p ls p1) = Some (p1', s1') ->
  p1 = p2 /\ s1 = s2 /\ p1' = p1.
Proof. exact plate_fresh_lemma. Qed.
Print Assumptions C152_plate_order_partial.
Theorem C152_group_bolts : forall t, stub_ok t -> forall F, resistance t = Some F -> F <= ts_F3 t.
Proof. exact group_bolts_lemma. Qed.
Print Assumptions C152_group_bolts.
Theorem C152_group_bolt_sum : forall rs, group_F3 rs = Rsum (map (fun r => INR (r_n r) * tension_resistance (r_bolt r) (9/10)) rs).
Proof. exact group_F3_lemma. Qed.
Print Assumptions C152_group_bolt_sum.
Theorem C152_components : forall fl pl cf wt ep bw l, group_components fl pl cf wt ep bw = Some l ->
  (pl <> Outside -> exists a b, ep = Some a /\ bw = Some b /\ In (Some a) l /\ In (Some b) l) /\
  (fl <> EndAdjacent -> (fl = Adjacent -> pl <> Outside) -> exists a b, cf = Some a /\ wt = Some b /\ In (Some a) l /\ In (Some b) l) /\
  (pl = Outside -> (fl = EndAdjacent \/ fl = Adjacent) -> min_ext l = None) /\
  (forall v, In (Some v) l -> In (Some v) [cf; wt; ep; bw]).
Proof. exact group_resistance_lemma. Qed.
Print Assumptions C152_components.
Theorem C152_minimum : forall l, (min_ext l = None <-> forall x, In x l -> x = None) /\
  (forall v, min_ext l = Some v -> In (Some v) l /\ forall u, In (Some u) l -> v <= u).
Proof. exact min_ext_lemma. Qed.
Print Assumptions C152_minimum.
(** Finding: asked first, the circular length of an end-plate group uses the distances left by another group. *)
Theorem C152_plate_order_refuted : exists zs ls cp o1 o2 q1 q2 s1 s2, (forall l, In l ls -> plate_loc l) /\ length o1 = length ls /\ length o2 = length ls /\
  cp = (fun (_ : nat) l p => plate_cp_group 30 p l) /\
  group_leff (plate_p_cp (distances zs)) cp 0 (with_p ls o1) = Some (q1, s1) /\
  group_leff (plate_p_cp (distances zs)) cp 0 (with_p ls o2) = Some (q2, s2) /\ s1 <> s2.
Proof. exact joint_plate_stale_lemma. Qed.
Print Assumptions C152_plate_order_refuted.
Example C152_ex : group_leff (flange_p (distances [100; 40])) (fun _ l p => flange_cp_group 30 p None l) 0 (with_p [End_] [0]) <> None /\
  group_leff (flange_p (distances [100])) (fun _ l p => flange_cp_group 30 p None l) 0 (with_p [End_] [0]) = None.
Proof. split; cbn; [discriminate|reflexivity]. Qed.

(** C153 *)
Theorem C153_series : forall ks, ks <> [] -> Forall (fun k => 0 < k) ks -> exists ke, keff ks = Some ke /\ 0 < ke /\
  / ke = Rsum (map Rinv ks) /\ (forall k, In k ks -> ke <= k) /\
  forall ks', Forall2 Rle ks ks' -> exists ke', keff ks' = Some ke' /\ ke <= ke'.
Proof. exact keff_lemma. Qed.
Print Assumptions C153_series.
Theorem C153_group_length : forall ls, let m := leff_groups ls in
  0 < m <= 100000 /\ (forall l, In l ls -> 0 < l -> m <= l) /\ (m = 100000 \/ In m ls).
Proof. exact leff_groups_lemma. Qed.
Print Assumptions C153_group_length.
Example C153_ex : exists k, keff [1; 2; 3; 4] = Some k /\ k <= 1.
Proof. destruct (keff_lemma [1; 2; 3; 4]) as [k [E [_ [_ [L _]]]]]. discriminate. repeat constructor; lra. exists k. split; auto. apply L. cbn. tauto. Qed.

(** C154 *)
Theorem C154_omega_partial : forall beff tw Avc, 0 <= beff * tw -> 0 < Avc ->
  (forall beta, 0 <= beta <= 1 -> exists w, min_coeff_w beta beff tw Avc = Some w /\
     1 / sqrt (1 + 13/10 * (beff * tw / Avc) ^ 2) <= w <= 1 /\
     (beta <= 1/2 -> w = 1) /\ (beta = 1 -> w = 1 / sqrt (1 + 13/10 * (beff * tw / Avc) ^ 2)) /\
     (forall beta' w', beta <= beta' <= 1 -> min_coeff_w beta' beff tw Avc = Some w' -> w' <= w /\ w - w' <= 2 * (beta' - beta)) /\
     (forall beff' w', beff * tw <= beff' * tw -> min_coeff_w beta beff' tw Avc = Some w' -> w' <= w)) /\
  (exists w, min_coeff_w 2 beff tw Avc = Some w /\ w = 1 / sqrt (1 + 52/10 * (beff * tw / Avc) ^ 2)) /\
  (forall beta, beta < 0 \/ 2 < beta -> min_coeff_w beta beff tw Avc = Some 0).
Proof. exact omega_lemma. Qed.
Print Assumptions C154_omega_partial.
(** Finding: between 1.5 and 2 the reduction factor is larger than one. *)
Theorem C154_omega_refuted : forall beff tw Avc beta, 0 < beff * tw -> 0 < Avc -> 3/2 < beta < 2 ->
  exists w, min_coeff_w beta beff tw Avc = Some w /\ 1 < w.
Proof. exact omega_refuted_lemma. Qed.
Print Assumptions C154_omega_refuted.
Example C154_ex : exists w, min_coeff_w 1 200 8 2000 = Some w /\ w <= 1.
Proof. destruct (omega_lemma 200 8 2000) as [H _]; try lra. destruct (H 1 ltac:(lra)) as [w [E [[_ U] _]]]. exists w. auto. Qed.

(** C155 *)
Theorem C155_compression : forall c b tp lo a beta sigma, prof_ok c -> 0 <= s_tf b -> 0 <= tp -> 0 <= a -> sqrt 2 * a <= tp + lo ->
  0 <= beta <= 1 -> sigma <= s_fy c ->
  exists F, col_web_trv_comp c b tp lo a beta sigma = Some F /\
    0 < F <= beff_c c b tp lo a * s_tw c * s_fy c /\
    (forall sigma', sigma <= sigma' <= s_fy c -> exists F', col_web_trv_comp c b tp lo a beta sigma' = Some F' /\ F' <= F) /\
    (forall beta', beta <= beta' <= 1 -> exists F', col_web_trv_comp c b tp lo a beta' sigma = Some F' /\ F' <= F).
Proof. exact web_compression_lemma. Qed.
Print Assumptions C155_compression.
Theorem C155_tension : forall c leff beta, prof_ok c -> 0 < leff -> 0 <= beta <= 1 ->
  exists F, column_web_tension c leff beta = Some F /\ 0 < F <= leff * s_tw c * s_fy c /\
  (beta <= 1/2 -> F = leff * s_tw c * s_fy c) /\
  forall leff', leff <= leff' -> beta <= 1/2 -> exists F', column_web_tension c leff' beta = Some F' /\ F <= F'.
Proof. exact col_web_tension_lemma. Qed.
Print Assumptions C155_tension.
Theorem C155_shear : forall c beta z z' F k, prof_ok c -> 0 < beta -> 0 < z -> z <= z' ->
  col_web_shear c = F -> col_web_shear_k c beta z = Some k ->
  0 < F /\ F = 9/10 * (s_Av c * (s_fy c / sqrt 3)) /\ 0 < k /\ exists k', col_web_shear_k c beta z' = Some k' /\ k' <= k.
Proof. exact col_web_shear_lemma. Qed.
Print Assumptions C155_shear.
Theorem C155_stress_factor : forall sigma fy, 0 < fy -> k_wc sigma fy = Rmin 1 (17/10 - sigma / fy).
Proof. exact k_wc_cont. Qed.
Print Assumptions C155_stress_factor.
Example C155_ex : prof_ok (mkProf 235 2000 10 10 6 150 210000 160 170).
Proof. unfold prof_ok. cbn. lra. Qed.

(** C156 *)
Theorem C156_stiffened : forall eps tw bs ts lcr fyp, 0 < eps -> 0 < tw -> 0 < bs -> 0 < ts -> 0 <= lcr -> 0 < fyp ->
  exists F, col_web_stiffened eps tw bs ts lcr fyp = Some F /\ 0 < F <= ((30 * eps * tw + ts) * tw + 2 * bs * ts) * fyp /\
  forall lcr' F', lcr <= lcr' -> col_web_stiffened eps tw bs ts lcr' fyp = Some F' -> F' <= F.
Proof. exact stiffened_lemma. Qed.
Print Assumptions C156_stiffened.
Example C156_ex : exists F, col_web_stiffened 1 6 60 10 150 235 = Some F /\ 0 < F.
Proof. destruct (stiffened_lemma 1 6 60 10 150 235) as [F [E [P _]]]; try lra. exists F. split; [exact E|lra]. Qed.

(** C157 *)
Theorem C157_ratio : forall r r' psi, 0 <= psi -> 0 <= r <= r' ->
  1 <= stiffness_ratio r psi <= stiffness_ratio r' psi /\ (r <= 2/3 -> stiffness_ratio r psi = 1) /\
  (2/3 <= r -> stiffness_ratio r psi = Rpower (15/10 * r) psi).
Proof. exact stiffness_ratio_lemma. Qed.
Print Assumptions C157_ratio.
Example C157_ex : stiffness_ratio 1 (27/10) = Rpower (15/10 * 1) (27/10).
Proof. apply (stiffness_ratio_lemma 1 1); lra. Qed.

(** C158 *)
Theorem C158_alpha : forall e m m2, 0 <= e -> 0 < m -> 0 < m2 -> exists a, new_alpha e m m2 = Some a /\
  4 <= a <= 8 /\ Rmin 8 (4 + 125/100 * (e / m)) <= a /\
  (m2 >= m -> a <= 4 + 167/100 * (e / m)) /\
  (forall e' m2' a', e <= e' -> m2' <= m2 -> 0 < m2' -> new_alpha e' m m2' = Some a' -> a <= a') /\
  (4 * m <= a * m <= 8 * m).
Proof. exact new_alpha_lemma. Qed.
Print Assumptions C158_alpha.
Theorem C158_search : forall lam lambda1 a, par_alfa lam lambda1 = Some a ->
  (exists a0 l, lam a0 = Some l /\ Rabs (l - lambda1) <= 1/1000 /\ (a = a0 \/ a = a0 + (l - lambda1))) \/
  (exists seq : nat -> R, seq 0%nat = 65/10 /\ seq 1000%nat = a /\ forall n, (n < 1000)%nat -> exists l, lam (seq n) = Some l /\ seq (S n) = seq n + (l - lambda1) /\ (1/1000 < Rabs (l - lambda1))).
Proof. exact par_alfa_lemma. Qed.
Print Assumptions C158_search.
Example C158_ex : exists a, new_alpha 30 40 35 = Some a /\ 4 <= a <= 8.
Proof. destruct (new_alpha_lemma 30 40 35) as [a [E [B _]]]; try lra. exists a. auto. Qed.

(** C159 *)
Theorem C159_geometry : forall j r v,
  emin_flange j = Rmin (j_ebolts j) (col_flange_e j) /\
  z_top j (set_z_top j v r) = v /\ set_z_top j (z_top j r) r = r /\
  ex j r + mx j r = j_etop j - 8/10 * sqrt 2 * j_wf j /\
  (r_pl r = Outside -> end_plate_m j r = mx j r) /\
  (forall z', lever j (mkRow (r_bolt r) (r_n r) z' (r_fl r) (r_pl r) (r_e1 r)) - lever j r = z' - r_z r).
Proof. exact row_geometry_lemma. Qed.
Print Assumptions C159_geometry.
Example C159_ex : exists j, emin_flange j = 25 /\ j_ebolts j = 30.
Proof.
  exists (mkJoint (mkProf 235 2000 10 10 6 150 210000 160 170) (mkProf 235 2000 10 10 6 150 210000 160 170) 10 170 235 60 30 100 5 4 0 1 None).
  split; [|reflexivity]. unfold emin_flange; cbn. destruct (Rltb 170 160) eqn:X; [apply Rltb_true in X; lra|]. lra.
Qed.
