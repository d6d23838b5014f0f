(** C257 to C262: truss sizing. *)
From Verif Require Import Bool_tac Mat Beam_model Sizing_proofs Sizing2_proofs Sizing3_proofs Sizing4_proofs.
From Verif Require Import Sizing_model Sizing_spec.
Require Import Psatz.
Open Scope R_scope.

(** One bar under the load p k in load case k; used in the examples. *)
Definition bar_lp : lp_data := mkLp 1 2 1 (fun _ => 1) (fun _ => 10) (fun _ => 2) (fun _ => 3) (fun _ => 5) (fun _ _ => 1) (fun k _ => if (k =? 0)%nat then 6 else -8).
Definition bar_mi (nlc : nat) (p : nat -> R) : mi_data :=
  mkMi 1 1 nlc 1 (fun _ => 2) (fun _ => 7) (fun _ => 5) (fun _ _ => 4) (fun _ => 2) (fun _ => 1) (fun _ _ => 1) (fun k _ => p k) (-10) 10.
Lemma bar_floor : floorZ 5 = 5%Z /\ floorZ 4 = 4%Z.
Proof. split; apply floorZ_unique; simpl; lra. Qed.
Lemma bar_design nlc p k : -4 <= p k <= 5 -> design_ok (bar_mi nlc p) (fun _ => 0%nat) (mi_p (bar_mi nlc p) k) (fun _ => p k).
Proof.
  intros H. destruct bar_floor as [F1 F2]. unfold design_ok, truss_K, elastic_force; simpl. rewrite F1, F2.
  repeat split; intros; try lia; lra.
Qed.

(** C257 *)
Theorem C257_feasible_iff_plastic : forall q x, lp_feasible q x <-> plastic_ok q x (fun k i => x ((k + 1) * lp_nmem q + i)%nat).
Proof. exact lp_feasible_lemma. Qed.
Print Assumptions C257_feasible_iff_plastic.
Theorem C257_every_plastic_design : forall q A N, plastic_ok q A N ->
  exists x, lp_feasible q x /\ (forall i, (i < lp_nmem q)%nat -> x i = A i) /\ lp_obj q x = volume (lp_nmem q) (lp_L q) A.
Proof. exact lp_pack_lemma. Qed.
Print Assumptions C257_every_plastic_design.
Theorem C257_optimum_is_lightest : forall q x, lp_feasible q x -> (forall x', lp_feasible q x' -> lp_obj q x <= lp_obj q x') ->
  plastic_ok q x (fun k i => x ((k + 1) * lp_nmem q + i)%nat)
  /\ forall A N, plastic_ok q A N -> volume (lp_nmem q) (lp_L q) x <= volume (lp_nmem q) (lp_L q) A.
Proof. exact lp_optimal_lemma. Qed.
Print Assumptions C257_optimum_is_lightest.
Example C257_ex : plastic_ok bar_lp (fun _ => 4) (fun k _ => if (k =? 0)%nat then 6 else -8).
Proof.
  unfold plastic_ok, equilibrium; simpl. split; [intros; lra|]. intros k _. split.
  - intros d _. lra.
  - intros i _. destruct (k =? 0)%nat; (split; [apply Rabs_le|]); lra.
Qed.

(** C258 *)
Theorem C258_sound : forall q x, (0 < mi_nlc q)%nat -> mi_feasible q x ->
  exists s, selects q x s /\ design_ok q s (mi_p q 0) (fun d => 10 * disp_var q x 0 d).
Proof. exact mi_sound_lemma. Qed.
Print Assumptions C258_sound.
Theorem C258_complete : forall q s u,
  (forall i, (i < mi_nmem q)%nat -> 0 < mi_L q i) -> (forall i, (i < mi_nmem q)%nat -> 0 <= mi_E q i) ->
  (forall j, (j < mi_nprof q)%nat -> 0 <= mi_A q j) -> mi_ulb q <= 0 -> 0 <= mi_uub q ->
  mi_nlc q = 1%nat -> design_ok q s (mi_p q 0) u ->
  exists x, mi_feasible q x /\ selects q x s /\ mi_obj q x = truss_weight q s.
Proof. intros q s u HL HE HA Hl Hu. exact (mi_complete_lemma q HL HE HA Hl Hu s u). Qed.
Print Assumptions C258_complete.
Theorem C258_optimum_is_lightest : forall q x,
  (forall i, (i < mi_nmem q)%nat -> 0 < mi_L q i) -> (forall i, (i < mi_nmem q)%nat -> 0 <= mi_E q i) ->
  (forall j, (j < mi_nprof q)%nat -> 0 <= mi_A q j) -> mi_ulb q <= 0 -> 0 <= mi_uub q ->
  mi_nlc q = 1%nat -> mi_feasible q x -> (forall x', mi_feasible q x' -> mi_obj q x <= mi_obj q x') ->
  exists s, selects q x s /\ design_ok q s (mi_p q 0) (fun d => 10 * disp_var q x 0 d)
   /\ mi_obj q x = truss_weight q s
   /\ forall s' u', design_ok q s' (mi_p q 0) u' -> truss_weight q s <= truss_weight q s'.
Proof.
  intros q x HL HE HA Hl Hu Hc Hf Ho. destruct (mi_optimal_lemma q HL HE HA Hl Hu x Hc Hf Ho) as [s [H1 [H2 H3]]].
  exists s. split; [exact H1|]. split; [exact H2|]. split; [|exact H3].
  apply (mi_obj_lemma q x s); [apply H2|exact H1].
Qed.
Print Assumptions C258_optimum_is_lightest.
Theorem C258_member_forces : forall q x, (0 < mi_nlc q)%nat -> mi_feasible q x ->
  exists s, (forall i, (i < mi_nmem q)%nat -> (s i < mi_nprof q)%nat) /\ selects q x s
   /\ forall k i j, (k < mi_nlc q)%nat -> (i < mi_nmem q)%nat -> (j < mi_nprof q)%nat ->
      force_var q x k i j = if (j =? s i)%nat
        then elastic_force (mi_ndof q) (mi_E q i) (mi_L q i) (mi_A q (s i)) (mi_B q) i (fun d => 10 * disp_var q x k d) / 1000
        else 0.
Proof.
  intros q x Hc Hf. destruct (mi_state_lemma q x Hc Hf) as [s [H1 [H2 H3]]]. exists s. split; [exact H1|]. split; [exact H2|].
  intros k i j Hk Hi Hj. destruct (H3 k Hk) as [_ H4]. destruct (H4 i Hi) as [H5 _]. rewrite (H5 j Hj).
  destruct (j =? s i)%nat; [|reflexivity]. unfold Nscale, Rdiv. rewrite Rmult_1_l. reflexivity.
Qed.
Print Assumptions C258_member_forces.
(** Finding: the equilibrium of every load case is written for the forces of the first, so
    load cases with different loads make the problem infeasible. *)
Theorem C258_load_cases_must_agree : forall q x, mi_feasible q x ->
  forall k d, (k < mi_nlc q)%nat -> (d < mi_ndof q)%nat -> mi_p q k d = mi_p q 0 d.
Proof. exact mi_loads_lemma. Qed.
Print Assumptions C258_load_cases_must_agree.
Theorem C258_several_load_cases_refuted : exists q s, mi_nlc q = 2%nat
  /\ (forall k, (k < 2)%nat -> exists u, design_ok q s (mi_p q k) u) /\ forall x, ~ mi_feasible q x.
Proof.
  exists (bar_mi 2 (fun k => if (k =? 0)%nat then 1 else 2)), (fun _ => 0%nat). split; [reflexivity|]. split.
  - intros k Hk. eexists. apply bar_design. destruct (k =? 0)%nat; lra.
  - intros x H. assert (E := C258_load_cases_must_agree _ x H 1%nat 0%nat). simpl in E. specialize (E ltac:(lia) ltac:(lia)). lra.
Qed.
Print Assumptions C258_several_load_cases_refuted.
(** Finding: the forces and displacements of the later load cases are not tied to any load. *)
Theorem C258_later_cases_unloaded_refuted : forall q x,
  (forall i, (i < mi_nmem q)%nat -> 0 < mi_L q i) -> (forall i, (i < mi_nmem q)%nat -> 0 <= mi_E q i) ->
  (forall j, (j < mi_nprof q)%nat -> 0 <= mi_A q j) -> mi_ulb q <= 0 -> 0 <= mi_uub q ->
  (0 < mi_nlc q)%nat -> mi_feasible q x ->
  (forall j, (j < mi_nprof q)%nat -> 0 <= IZR (floorZ (mi_NRd q j))) ->
  (forall i j, (i < mi_nmem q)%nat -> (j < mi_nprof q)%nat -> 0 <= IZR (floorZ (mi_NbRd q i j))) ->
  exists x', mi_feasible q x' /\ mi_obj q x' = mi_obj q x
   /\ (forall d, (d < mi_ndof q)%nat -> disp_var q x' 0 d = disp_var q x 0 d)
   /\ forall k, (0 < k < mi_nlc q)%nat -> (forall d, (d < mi_ndof q)%nat -> disp_var q x' k d = 0)
        /\ forall i j, (i < mi_nmem q)%nat -> (j < mi_nprof q)%nat -> force_var q x' k i j = 0.
Proof. intros q x HL HE HA Hl Hu. exact (mi_later_lemma q HL HE HA Hl Hu x). Qed.
Print Assumptions C258_later_cases_unloaded_refuted.
Example C258_ex : exists x, mi_feasible (bar_mi 1 (fun _ => -3)) x /\ mi_obj (bar_mi 1 (fun _ => -3)) x = 14.
Proof.
  destruct (C258_complete (bar_mi 1 (fun _ => -3)) (fun _ => 0%nat) (fun _ => -3)) as [x [H1 [_ H2]]];
    try (simpl; intros; lra); try reflexivity.
  - apply (bar_design 1 (fun _ => -3) 0). lra.
  - exists x. split; [exact H1|]. rewrite H2. unfold truss_weight; simpl. lra.
Qed.

(** C259 *)
Theorem C259_entries : forall d n els i, rod_wf d n (els i) ->
  (forall j, (j < d)%nat -> statics_full d els (r_dofs (els i) j) i = - r_cos (els i) j
      /\ statics_full d els (r_dofs (els i) (d + j)%nat) i = r_cos (els i) j)
  /\ (forall r, (forall a, (a < 2 * d)%nat -> r_dofs (els i) a <> r) -> statics_full d els r i = 0).
Proof. exact statics_entries_lemma. Qed.
Print Assumptions C259_entries.
Theorem C259_elongation : forall d n supp els i u, rod_wf d n (els i) ->
  (forall r, In r supp -> u r = 0) ->
  sumn (length (free_rows n supp)) (fun r => statics d n supp els r i * u (nth r (free_rows n supp) 0%nat))
  = elongation d (els i) u.
Proof. exact statics_elong_lemma. Qed.
Print Assumptions C259_elongation.
Theorem C259_stiffness : forall d n els i k a b, rod_wf d n (els i) -> (a < 2 * d)%nat -> (b < 2 * d)%nat ->
  rod_k d k (r_cos (els i)) a b
  = statics_full d els (r_dofs (els i) a) i * k * statics_full d els (r_dofs (els i) b) i.
Proof. exact statics_rod_k_lemma. Qed.
Print Assumptions C259_stiffness.
Definition ex_rod : rod := mkRod (fun j => if (j =? 0)%nat then 3/5 else 4/5) (fun a => (2 * a)%nat).
Example C259_ex : rod_wf 2 7 ex_rod /\ elongation 2 ex_rod (fun r => if (r =? 4)%nat then 10 else 0) = 6.
Proof. split; [split; simpl; intros; lia|]. unfold elongation, ex_rod; simpl. lra. Qed.

(** C260 *)
Theorem C260_stress : forall N s A, 0 < s -> 0 < A ->
  (stress_tension N s A <= 0 /\ stress_compression N s A <= 0 <-> Rabs (N / A) <= s).
Proof. exact stress_con_lemma. Qed.
Print Assumptions C260_stress.
Theorem C260_strength : forall N NRd, 0 < NRd ->
  (strength_tension N NRd <= 0 /\ strength_compression N NRd <= 0 <-> Rabs N <= NRd).
Proof. exact strength_con_lemma. Qed.
Print Assumptions C260_strength.
Theorem C260_buckling : forall k N NbRd Ncr g, 0 < fst NbRd -> 0 < fst Ncr -> buckling_con k N NbRd Ncr = Some g ->
  (g <= 0 <-> - N <= match k with BuckEC3 => fst NbRd | _ => fst Ncr end).
Proof. exact buckling_con_lemma. Qed.
Print Assumptions C260_buckling.
Theorem C260_displacement_upper : forall uub u, disp_upper uub u <= 0 <-> u <= uub.
Proof. exact disp_upper_lemma. Qed.
Print Assumptions C260_displacement_upper.
Theorem C260_displacement_lower : forall ulb u, disp_lower ulb u <= 0 <-> ulb <= u.
Proof. exact disp_lower_lemma. Qed.
Print Assumptions C260_displacement_lower.
(** Finding: a member passes although it buckles about the other axis. *)
Theorem C260_other_axis_refuted : exists N NbRd Ncr g, 0 < snd NbRd /\ 0 < snd Ncr
  /\ buckling_con BuckEC3 N NbRd Ncr = Some g /\ g <= 0 /\ ~ - N <= snd NbRd.
Proof. exists (-80), (100, 50), (120, 60), (- -80 / 100 - 1). simpl. repeat split; lra. Qed.
Print Assumptions C260_other_axis_refuted.
(** Finding: only the first load case is looked at. *)
Theorem C260_later_load_case_refuted : exists forces N A s, con_force forces = Some N /\ 0 < A /\ 0 < s
  /\ stress_tension N s A <= 0 /\ stress_compression N s A <= 0 /\ exists N', In N' forces /\ s < Rabs (N' / A).
Proof.
  exists [1; 30], 1, 2, 3. unfold stress_tension, stress_compression. repeat split; try lra.
  exists 30. split; [right; left; reflexivity|]. rewrite Rabs_pos_eq; lra.
Qed.
Print Assumptions C260_later_load_case_refuted.
Example C260_ex : 0 < 3 /\ 0 < 2 /\ Rabs (-5 / 2) <= 3 /\ disp_upper (-2) (-1) = 1/2 /\ disp_lower (-2) (-1) = -1/2.
Proof.
  repeat split; try lra; [rewrite Rabs_left; lra| |].
  - unfold disp_upper. rewrite ltb_f, ltb_t by lra. lra.
  - unfold disp_lower. rewrite ltb_t by lra. lra.
Qed.

(** C261 *)
Theorem C261_least_factor : forall vs gs xs, vs <> [] ->
  (forall lb ub x, In (lb, ub, x) vs -> 0 < lb /\ 0 < x) -> scale_design vs gs = Some xs ->
  exists t, xs = map (fun v => t * snd v) vs
   /\ ((exists t', factor_ok vs gs t') -> factor_ok vs gs t /\ forall t', factor_ok vs gs t' -> t <= t')
   /\ (~ (exists t', factor_ok vs gs t') -> t = 1).
Proof. exact scale_design_lemma. Qed.
Print Assumptions C261_least_factor.
Theorem C261_response : forall nmem ndof E L A B u t, t <> 0 ->
  (forall d, sumn ndof (fun e => truss_K nmem E L (fun i => t * A i) B d e * (u e / t))
      = sumn ndof (fun e => truss_K nmem E L A B d e * u e))
  /\ forall i, elastic_force ndof (E i) (L i) (t * A i) B i (fun e => u e / t) = elastic_force ndof (E i) (L i) (A i) B i u.
Proof. exact scaling_response_lemma. Qed.
Print Assumptions C261_response.
Theorem C261_constraints : forall t, 0 < t ->
  (forall N s A, 0 < s -> 0 < A -> stress_tension N s (t * A) = (stress_tension N s A + 1) / t - 1
       /\ stress_compression N s (t * A) = (stress_compression N s A + 1) / t - 1)
  /\ (forall uub u, 0 < uub -> disp_upper uub (u / t) = (disp_upper uub u + 1) / t - 1)
  /\ (forall ulb u, ulb < 0 -> disp_lower ulb (u / t) = (disp_lower ulb u + 1) / t - 1).
Proof. exact scaling_cons_lemma. Qed.
Print Assumptions C261_constraints.
(** Finding: with a negative upper bound of a displacement the scaled design violates a bound
    the given design satisfied. *)
Theorem C261_negative_bound_refuted : exists vs gs xs uub u t,
  uub < 0 /\ In (disp_upper uub u) gs /\ disp_upper uub u <= 0 /\ scale_design vs gs = Some xs
  /\ xs = map (fun v => t * snd v) vs /\ (forall lb ub x, In (lb, ub, x) vs -> lb <= t * x <= ub) /\ disp_upper uub (u / t) > 0.
Proof.
  assert (E : disp_upper (-1) (- (3/2)) = -1/2) by (unfold disp_upper; rewrite ltb_f, ltb_t by lra; lra).
  exists [(1, 100, 1)], [-1/2; 1], [2 * 1], (-1), (- (3/2)), 2.
  split; [lra|]. split; [rewrite E; left; reflexivity|]. split; [rewrite E; lra|]. split; [|split; [reflexivity|split]].
  - unfold scale_design, mu_L, mu_U; simpl. rewrite (ltb_f (1 / 1) (-1 / 2 + 1)) by lra.
    rewrite (ltb_t (1 / 1) (1 + 1)) by lra. rewrite ltb_f by lra. reflexivity.
  - intros lb ub x [H|[]]. injection H as <- <- <-. lra.
  - unfold disp_upper. rewrite ltb_f, ltb_t by lra. lra.
Qed.
Print Assumptions C261_negative_bound_refuted.
Example C261_ex : factor_ok [(1, 100, 2); (1, 50, 4)] [1/2; -1/4] (3/2).
Proof.
  split; [lra|]. split.
  - intros lb ub x [H|[H|[]]]; injection H as <- <- <-; lra.
  - intros g [H|[H|[]]]; rewrite <- H; lra.
Qed.

(** C262 *)
Theorem C262_last_case_last_member : forall vars fy ana n v i N A, NoDup (concat (map v_mems vars)) -> In v vars -> In i (v_mems v) ->
  (forall A, ana n A = N) ->
  fsd vars fy ana (S n) A i = clamp (v_lb v) (v_ub v) (N (last (v_mems v) 0%nat) / fy (last (v_mems v) 0%nat)).
Proof. exact fsd_lemma. Qed.
Print Assumptions C262_last_case_last_member.
Theorem C262_fully_stressed_partial : forall vars fy ana v i N A, NoDup (concat (map v_mems vars)) -> In v vars -> v_mems v = [i] ->
  (forall A, ana 0%nat A = N) -> 0 < fy i -> 0 < v_lb v -> v_lb v <= v_ub v -> 0 <= N i -> N i <= fy i * v_ub v ->
  let a := fsd vars fy ana 1 A i in
  v_lb v <= a /\ N i / a <= fy i /\ (v_lb v < a -> N i / a = fy i)
  /\ forall b, v_lb v <= b -> N i / b <= fy i -> a <= b.
Proof. exact fsd_single_lemma. Qed.
Print Assumptions C262_fully_stressed_partial.
(** Finding: the areas come from the last load case. *)
Theorem C262_load_cases_refuted : exists vars fy ana A i, NoDup (concat (map v_mems vars)) /\ In i (concat (map v_mems vars))
  /\ 0 < fy i /\ 0 < fsd vars fy ana 2 A i /\ fy i < ana 0%nat A i / fsd vars fy ana 2 A i
  /\ Forall (fun v => ana 0%nat A i <= fy i * v_ub v) vars.
Proof.
  set (vars := [mkAvar 1 100 [0%nat]]). set (ana := fun (k : nat) (_ : vec) => (fun _ => if (k =? 0)%nat then 20 else 4) : vec).
  exists vars, (fun _ => 2), ana, (fun _ => 1), 0%nat.
  assert (E : fsd vars (fun _ => 2) ana 2 (fun _ => 1) 0%nat = 2).
  { rewrite (fsd_lemma vars (fun _ => 2) ana 1 (mkAvar 1 100 [0%nat]) 0%nat (fun _ => 4)).
    - unfold clamp; simpl. repeat destruct (Rle_dec _ _); lra.
    - simpl. repeat constructor. intros [].
    - left; reflexivity.
    - left; reflexivity.
    - reflexivity. }
  rewrite E. simpl. split; [repeat constructor; intros []|]. split; [auto|]. split; [lra|]. split; [lra|]. unfold ana; simpl. split; [lra|]. constructor; [simpl; lra|constructor].
Qed.
Print Assumptions C262_load_cases_refuted.
(** Finding: in a group the last member decides. *)
Theorem C262_groups_refuted : exists vars fy ana A i, NoDup (concat (map v_mems vars)) /\ In i (concat (map v_mems vars))
  /\ 0 < fy i /\ 0 < fsd vars fy ana 1 A i /\ fy i < ana 0%nat A i / fsd vars fy ana 1 A i
  /\ Forall (fun v => ana 0%nat A i <= fy i * v_ub v) vars.
Proof.
  set (vars := [mkAvar 1 100 [0%nat; 1%nat]]). set (ana := fun (_ : nat) (_ : vec) => (fun m => if (m =? 0)%nat then 20 else 4) : vec).
  exists vars, (fun _ => 2), ana, (fun _ => 1), 0%nat.
  assert (E : fsd vars (fun _ => 2) ana 1 (fun _ => 1) 0%nat = 2).
  { rewrite (fsd_lemma vars (fun _ => 2) ana 0 (mkAvar 1 100 [0%nat; 1%nat]) 0%nat (fun m => if (m =? 0)%nat then 20 else 4)).
    - unfold clamp; simpl. repeat destruct (Rle_dec _ _); lra.
    - simpl. repeat constructor; simpl; intuition discriminate.
    - left; reflexivity.
    - left; reflexivity.
    - reflexivity. }
  rewrite E. simpl. split; [repeat constructor; simpl; intuition discriminate|]. split; [auto|]. split; [lra|]. split; [lra|]. unfold ana; simpl. split; [lra|]. constructor; [simpl; lra|constructor].
Qed.
Print Assumptions C262_groups_refuted.
Example C262_ex : fsd [mkAvar 1 100 [0%nat]; mkAvar 5 100 [1%nat]] (fun _ => 2) (fun _ _ m => if (m =? 0)%nat then 20 else 4) 1 (fun _ => 3) 1%nat = 5.
Proof.
  rewrite (fsd_lemma _ _ _ 0 (mkAvar 5 100 [1%nat]) 1%nat (fun m => if (m =? 0)%nat then 20 else 4)).
  - unfold clamp; simpl. repeat destruct (Rle_dec _ _); lra.
  - simpl. repeat constructor; simpl; intuition discriminate.
  - right; left; reflexivity.
  - left; reflexivity.
  - reflexivity.
Qed.
