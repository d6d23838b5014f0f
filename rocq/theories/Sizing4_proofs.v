From Verif Require Import Bool_tac Mat Beam_model Beam_proofs Sizing_proofs Sizing2_proofs Plate_proofs.
From Verif Require Import Sizing_model Sizing_spec.
Require Import Psatz.
Open Scope R_scope.

(** ---------------- statics matrix ---------------- *)
Lemma write_col_out n g b col r : (forall a, (a < n)%nat -> g a <> r) -> write_col n g b col r = col r.
Proof.
  induction n; intros H; simpl; [reflexivity|]. rewrite set_at_other.
  - apply IHn. intros; apply H; lia.
  - intros E. apply (H n); [lia|auto].
Qed.
Lemma write_col_in n g b col a : (forall x y, (x < n)%nat -> (y < n)%nat -> g x = g y -> x = y) -> (a < n)%nat ->
  write_col n g b col (g a) = b a.
Proof.
  induction n; intros H Ha; [lia|]. simpl. destruct (Nat.eq_dec a n) as [->|Hne].
  - apply set_at_same.
  - rewrite set_at_other.
    + apply IHn; [intros; apply H; auto; lia|lia].
    + intros E. apply Hne. apply H; auto; lia.
Qed.
Lemma write_col_sum n g b k u : (forall x y, (x < k)%nat -> (y < k)%nat -> g x = g y -> x = y) ->
  (forall a, (a < k)%nat -> (g a < n)%nat) ->
  sumn n (fun r => write_col k g b zeros r * u r) = sumn k (fun a => b a * u (g a)).
Proof.
  induction k; intros H Hg; simpl.
  - apply sumn_zero. intros; unfold zeros; lra.
  - change (sumn n (fun r => set_at (write_col k g b zeros) (g k) (b k) r * u r)) with (vdot n (set_at (write_col k g b zeros) (g k) (b k)) u).
    rewrite vdot_set_at by (apply Hg; lia). rewrite write_col_out.
    + unfold vdot. rewrite IHk by (intros; try apply H; try apply Hg; auto; lia). unfold zeros. ring.
    + intros a Ha E. assert (a = k) by (apply H; auto; lia). lia.
Qed.
Lemma statics_entries_lemma d n els i : rod_wf d n (els i) ->
  (forall j, (j < d)%nat -> statics_full d els (r_dofs (els i) j) i = - r_cos (els i) j
      /\ statics_full d els (r_dofs (els i) (d + j)%nat) i = r_cos (els i) j)
  /\ (forall r, (forall a, (a < 2 * d)%nat -> r_dofs (els i) a <> r) -> statics_full d els r i = 0).
Proof.
  intros [_ H]. split.
  - intros j Hj. unfold statics_full. rewrite !write_col_in by (auto; lia). unfold rod_b.
    destruct (Nat.ltb_spec j d); [|lia]. destruct (Nat.ltb_spec (d + j) d); [lia|].
    replace (d + j - d)%nat with j by lia. auto.
  - intros r Hr. unfold statics_full. rewrite write_col_out by auto. reflexivity.
Qed.
Lemma rod_b_sum d r u : sumn (2 * d) (fun a => rod_b d r a * u (r_dofs r a)) = elongation d r u.
Proof.
  replace (2 * d)%nat with (d + d)%nat by lia. rewrite sumn_app, <- sumn_plus. unfold elongation.
  apply sumn_ext. intros j Hj. unfold rod_b. destruct (Nat.ltb_spec j d); [|lia].
  destruct (Nat.ltb_spec (d + j) d); [lia|]. replace (d + j - d)%nat with j by lia. ring.
Qed.
Lemma statics_full_elong d n els i u : rod_wf d n (els i) ->
  sumn n (fun r => statics_full d els r i * u r) = elongation d (els i) u.
Proof. intros [H1 H2]. unfold statics_full. rewrite write_col_sum by auto. apply rod_b_sum. Qed.
Lemma filter_sum (l : list nat) (p : nat -> bool) f : (forall r, In r l -> p r = false -> f r = 0) ->
  Rsum (map f (filter p l)) = Rsum (map f l).
Proof.
  induction l; simpl; intros H; [reflexivity|]. destruct (p a) eqn:E; simpl.
  - f_equal. apply IHl. intros; apply H; auto.
  - rewrite IHl by (intros; apply H; auto). rewrite (H a) by auto. lra.
Qed.
Lemma list_nth_sum (l : list nat) f : sumn (length l) (fun r => f (nth r l 0%nat)) = Rsum (map f l).
Proof.
  rewrite sumn_Rsum. f_equal. induction l; [reflexivity|]. simpl length. simpl seq. rewrite <- seq_shift, map_cons, map_map.
  simpl. f_equal. exact IHl.
Qed.
Lemma statics_elong_lemma d n supp els i u : rod_wf d n (els i) ->
  (forall r, In r supp -> u r = 0) ->
  sumn (length (free_rows n supp)) (fun r => statics d n supp els r i * u (nth r (free_rows n supp) 0%nat))
  = elongation d (els i) u.
Proof.
  intros H Hs. unfold statics. rewrite (list_nth_sum (free_rows n supp) (fun r => statics_full d els r i * u r)).
  unfold free_rows. rewrite filter_sum.
  - rewrite <- sumn_Rsum. apply statics_full_elong; auto.
  - intros r _ Hr. apply Bool.negb_false_iff in Hr. apply existsb_exists in Hr. destruct Hr as [r' [H1 H2]].
    apply Nat.eqb_eq in H2. subst r'. rewrite Hs by auto. lra.
Qed.
Lemma statics_rod_k_lemma d n els i k a b : rod_wf d n (els i) -> (a < 2 * d)%nat -> (b < 2 * d)%nat ->
  rod_k d k (r_cos (els i)) a b
  = statics_full d els (r_dofs (els i) a) i * k * statics_full d els (r_dofs (els i) b) i.
Proof.
  intros [_ H] Ha Hb. unfold statics_full. rewrite !write_col_in by auto.
  unfold rod_k, mmul, mtr, axial_k, rod_T, mrows, rod_b. simpl.
  destruct (Nat.ltb_spec a d); destruct (Nat.ltb_spec b d);
    try (destruct (Nat.ltb_spec a (d + (d + 0))); [|lia]); try (destruct (Nat.ltb_spec b (d + (d + 0))); [|lia]); ring.
Qed.

(** ---------------- constraints ---------------- *)
Lemma ratio_le a b : 0 < b -> (a / b - 1 <= 0 <-> a <= b).
Proof.
  intros H. split; intros H1.
  - assert (a / b <= 1) by lra. apply (proj1 (div_le_iff a b 1 H)) in H0. lra.
  - assert (a / b <= 1) by (apply div_le_iff; lra). lra.
Qed.
Lemma stress_con_lemma N s A : 0 < s -> 0 < A ->
  (stress_tension N s A <= 0 /\ stress_compression N s A <= 0 <-> Rabs (N / A) <= s).
Proof.
  intros Hs HA. unfold stress_tension, stress_compression.
  assert (HsA : 0 < s * A) by (apply Rmult_lt_0_compat; auto).
  rewrite !ratio_le by auto. split.
  - intros [H1 H2]. apply Rabs_le. split.
    + apply le_div_iff; auto. lra.
    + apply div_le_iff; auto.
  - intros H. apply Rabs_def2_le in H. destruct H as [H1 H2].
    apply (proj1 (le_div_iff N A (- s) HA)) in H1. apply (proj1 (div_le_iff N A s HA)) in H2. lra.
Qed.
Lemma strength_con_lemma N NRd : 0 < NRd ->
  (strength_tension N NRd <= 0 /\ strength_compression N NRd <= 0 <-> Rabs N <= NRd).
Proof.
  intros H. unfold strength_tension, strength_compression. rewrite !ratio_le by auto. split.
  - intros [H1 H2]. apply Rabs_le. lra.
  - intros H1. apply Rabs_def2_le in H1. lra.
Qed.
Lemma buckling_con_lemma k N NbRd Ncr g : 0 < fst NbRd -> 0 < fst Ncr -> buckling_con k N NbRd Ncr = Some g ->
  (g <= 0 <-> - N <= match k with BuckEC3 => fst NbRd | _ => fst Ncr end).
Proof.
  intros H1 H2 H. destruct k; simpl in H; [| |discriminate]; injection H as <-; apply ratio_le; auto.
Qed.
Lemma disp_upper_lemma uub u : disp_upper uub u <= 0 <-> u <= uub.
Proof.
  unfold disp_upper. destruct (Rltb 0 uub) eqn:E; [apply Rltb_true in E; apply ratio_le; auto|apply Rltb_false in E].
  destruct (Rltb uub 0) eqn:E2.
  - apply Rltb_true in E2. assert (Hi : / uub < 0) by (apply Rinv_lt_0_compat; auto).
    assert (Hu : u = u / uub * uub) by (field; lra). split; intros H.
    + assert (1 <= u / uub) by lra. nra.
    + destruct (Rle_lt_dec 1 (u / uub)); [lra|]. exfalso. nra.
  - apply Rltb_false in E2. split; intros; lra.
Qed.
Lemma disp_lower_lemma ulb u : disp_lower ulb u <= 0 <-> ulb <= u.
Proof.
  unfold disp_lower. destruct (Rltb ulb 0) eqn:E.
  - apply Rltb_true in E. assert (Hi : / ulb < 0) by (apply Rinv_lt_0_compat; auto).
    assert (Hu : u = u / ulb * ulb) by (field; lra). split; intros H.
    + assert (u / ulb <= 1) by lra. nra.
    + destruct (Rle_lt_dec (u / ulb) 1); [lra|]. exfalso. nra.
  - apply Rltb_false in E. destruct (Rltb 0 ulb) eqn:E2.
    + apply Rltb_true in E2. assert (Hu : u = u / ulb * ulb) by (field; lra). split; intros H.
      * assert (1 <= u / ulb) by lra. nra.
      * assert (1 <= u / ulb) by (apply le_div_iff; lra). lra.
    + apply Rltb_false in E2. split; intros; lra.
Qed.

(** ---------------- scaling ---------------- *)
Lemma fold_max_spec l b0 : exists m,
  fold_left (fun m b => match m with None => Some b | Some m => Some (if Rltb m b then b else m) end) l (Some b0) = Some m
  /\ b0 <= m /\ (forall b, In b l -> b <= m) /\ (m = b0 \/ In m l).
Proof.
  revert b0. induction l; simpl; intros b0.
  - exists b0. repeat split; auto; [lra|tauto].
  - destruct (IHl (if Rltb b0 a then a else b0)) as [m [H1 [H2 [H3 H4]]]]. exists m.
    destruct (Rltb b0 a) eqn:E; [apply Rltb_true in E|apply Rltb_false in E]; repeat split; auto; try lra.
    + intros b [<-|Hb]; [lra|auto].
    + destruct H4 as [->|H4]; auto.
    + intros b [<-|Hb]; [lra|auto].
    + destruct H4 as [->|H4]; auto.
Qed.
Lemma mu_L_spec vs gs m : mu_L vs gs = Some m ->
  (forall lb ub x, In (lb, ub, x) vs -> lb / x <= m) /\ (forall g, In g gs -> g + 1 <= m)
  /\ ((exists lb ub x, In (lb, ub, x) vs /\ m = lb / x) \/ exists g, In g gs /\ m = g + 1).
Proof.
  unfold mu_L. set (l := map _ vs ++ map _ gs). intros H.
  assert (Hl : (forall b, In b l -> b <= m) /\ In m l).
  { destruct l as [|b0 l']; simpl in H; [discriminate|]. destruct (fold_max_spec l' b0) as [m' [H1 [H2 [H3 H4]]]].
    rewrite H1 in H. injection H as ->. split.
    - intros b [<-|Hb]; auto.
    - destruct H4 as [->|H4]; [left; auto|right; auto]. }
  destruct Hl as [H1 H2]. unfold l in H1, H2. split; [|split].
  - intros lb ub x Hin. apply H1. apply in_or_app. left. apply in_map_iff. exists (lb, ub, x). auto.
  - intros g Hg. apply H1. apply in_or_app. right. apply in_map_iff. exists g. auto.
  - apply in_app_or in H2. destruct H2 as [H2|H2]; apply in_map_iff in H2.
    + destruct H2 as [[[lb ub] x] [Ha Hb]]. left. exists lb, ub, x. auto.
    + destruct H2 as [g [Ha Hb]]. right. exists g. auto.
Qed.
Lemma mu_U_gen (vs : list (R * R * R)) (m0 : option R) : match m0 with
   | Some a => exists m, fold_left (fun m v => let '(_, ub, x) := v in
       match m with None => Some (ub / x) | Some m => Some (if Rltb (ub / x) m then ub / x else m) end) vs (Some a) = Some m
       /\ m <= a /\ (forall lb ub x, In (lb, ub, x) vs -> m <= ub / x) /\ (m = a \/ exists lb ub x, In (lb, ub, x) vs /\ m = ub / x)
   | None => True end.
Proof.
  destruct m0 as [a|]; [|auto]. revert a. induction vs as [|[[lb ub] x] vs IH]; intros a; simpl.
  - exists a. repeat split; auto; [lra|tauto].
  - destruct (IH (if Rltb (ub / x) a then ub / x else a)) as [m [H1 [H2 [H3 H4]]]]. exists m. split; [exact H1|].
    destruct (Rltb (ub / x) a) eqn:E; [apply Rltb_true in E|apply Rltb_false in E]; repeat split; try lra.
    + intros l' u' x' [Hin|Hin]; [injection Hin as <- <- <-; lra|eapply H3; eauto].
    + destruct H4 as [->|[l' [u' [x' [Ha Hb]]]]]; right; [exists lb, ub, x|exists l', u', x']; auto.
    + intros l' u' x' [Hin|Hin]; [injection Hin as <- <- <-; lra|eapply H3; eauto].
    + destruct H4 as [->|[l' [u' [x' [Ha Hb]]]]]; [left; auto|right; exists l', u', x'; auto].
Qed.
Lemma mu_U_spec vs : match mu_U vs with
   | None => vs = []
   | Some m => (forall lb ub x, In (lb, ub, x) vs -> m <= ub / x) /\ exists lb ub x, In (lb, ub, x) vs /\ m = ub / x end.
Proof.
  unfold mu_U. destruct vs as [|[[lb ub] x] vs]; [reflexivity|]. simpl.
  destruct (mu_U_gen vs (Some (ub / x))) as [m [H1 [H2 [H3 H4]]]]. rewrite H1. split.
  - intros l' u' x' [Hin|Hin]; [injection Hin as <- <- <-; lra|eapply H3; eauto].
  - destruct H4 as [->|[l' [u' [x' [Ha Hb]]]]]; [exists lb, ub, x|exists l', u', x']; auto.
Qed.
Lemma scale_design_lemma vs gs xs : vs <> [] ->
  (forall lb ub x, In (lb, ub, x) vs -> 0 < lb /\ 0 < x) -> scale_design vs gs = Some xs ->
  exists t, xs = map (fun v => t * snd v) vs
   /\ ((exists t', factor_ok vs gs t') -> factor_ok vs gs t /\ forall t', factor_ok vs gs t' -> t <= t')
   /\ (~ (exists t', factor_ok vs gs t') -> t = 1).
Proof.
  intros Hne Hp H. unfold scale_design in H. destruct (mu_L vs gs) as [l|] eqn:EL; [|discriminate].
  assert (HU := mu_U_spec vs). destruct (mu_U vs) as [u|]; [|contradiction].
  destruct (mu_L_spec _ _ _ EL) as [L1 [L2 L3]]. destruct HU as [U1 U2].
  assert (Hlp : 0 < l).
  { destruct vs as [|[[lb ub] x] vs']; [contradiction|]. destruct (Hp lb ub x) as [Ha Hb]; [left; auto|].
    assert (Hc := L1 lb ub x ltac:(left; auto)). assert (0 < lb / x) by (apply Rdiv_lt_0_compat; auto). lra. }
  assert (Hlow : forall t', factor_ok vs gs t' -> l <= t' <= u).
  { intros t' [T0 [T1 T2]]. split.
    - destruct L3 as [[lb [ub [x [Ha ->]]]]|[g [Ha ->]]].
      + destruct (Hp lb ub x Ha). apply div_le_iff; auto. apply (T1 lb ub x Ha).
      + specialize (T2 g Ha). apply (proj1 (ratio_le (g + 1) t' T0)) in T2. exact T2.
    - destruct U2 as [lb [ub [x [Ha ->]]]]. destruct (Hp lb ub x Ha). apply le_div_iff; auto. apply (T1 lb ub x Ha). }
  assert (Hok : l <= u -> factor_ok vs gs l).
  { intros Hlu. split; [auto|]. split.
    - intros lb ub x Ha. destruct (Hp lb ub x Ha). split.
      + assert (Hx := L1 lb ub x Ha). apply div_le_iff in Hx; auto.
      + assert (Hx := U1 lb ub x Ha). assert (Hy : l <= ub / x) by lra. apply le_div_iff in Hy; auto.
    - intros g Hg. apply ratio_le; auto. }
  injection H as <-. destruct (Rltb u l) eqn:E; [apply Rltb_true in E|apply Rltb_false in E].
  - exists 1. split; [reflexivity|]. split; [|auto]. intros [t' Ht']. assert (Hx := Hlow t' Ht'). lra.
  - exists l. split; [reflexivity|]. split.
    + intros _. split; [apply Hok; lra|]. intros t' Ht'. apply Hlow; auto.
    + intros Hn. exfalso. apply Hn. exists l. apply Hok. lra.
Qed.
(** how the response changes when all areas are multiplied by t *)
Lemma scaling_response_lemma nmem ndof E L A B u t : t <> 0 ->
  (forall d, sumn ndof (fun e => truss_K nmem E L (fun i => t * A i) B d e * (u e / t))
      = sumn ndof (fun e => truss_K nmem E L A B d e * u e))
  /\ forall i, elastic_force ndof (E i) (L i) (t * A i) B i (fun e => u e / t) = elastic_force ndof (E i) (L i) (A i) B i u.
Proof.
  intros Ht. split.
  - intros d. apply sumn_ext. intros e _. unfold truss_K.
    rewrite (sumn_ext nmem _ (fun i => t * (B d i * (E i * A i / L i) * B e i))) by (intros; unfold Rdiv; ring).
    rewrite sumn_scale. field. auto.
  - intros i. unfold elastic_force. rewrite (sumn_ext ndof _ (fun d => / t * (B d i * u d))) by (intros; unfold Rdiv; ring).
    rewrite sumn_scale. replace (E i * (t * A i) / L i) with (E i * A i / L i * t) by (unfold Rdiv; ring).
    generalize (E i * A i / L i). intros r. field. auto.
Qed.
Lemma scaling_cons_lemma t : 0 < t ->
  (forall N s A, 0 < s -> 0 < A -> stress_tension N s (t * A) = (stress_tension N s A + 1) / t - 1
       /\ stress_compression N s (t * A) = (stress_compression N s A + 1) / t - 1)
  /\ (forall uub u, 0 < uub -> disp_upper uub (u / t) = (disp_upper uub u + 1) / t - 1)
  /\ (forall ulb u, ulb < 0 -> disp_lower ulb (u / t) = (disp_lower ulb u + 1) / t - 1).
Proof.
  intros Ht. split; [|split].
  - intros N s A Hs HA. unfold stress_tension, stress_compression. split; field; lra.
  - intros uub u H. unfold disp_upper. rewrite ltb_t by auto. field. lra.
  - intros ulb u H. unfold disp_lower. rewrite ltb_t by auto. field. lra.
Qed.

(** ---------------- fully stressed design ---------------- *)
Lemma fsd_val_clamp v N fy : fsd_val v N fy = Rmin (Rmax (N / fy) (v_lb v)) (v_ub v).
Proof. reflexivity. Qed.
Lemma set_areas_in ms a A i : In i ms -> set_areas ms a A i = a.
Proof.
  intros H. unfold set_areas. replace (existsb (Nat.eqb i) ms) with true; [reflexivity|].
  symmetry. apply existsb_exists. exists i. split; [auto|apply Nat.eqb_refl].
Qed.
Lemma set_areas_out ms a A i : ~ In i ms -> set_areas ms a A i = A i.
Proof.
  intros H. unfold set_areas. destruct (existsb (Nat.eqb i) ms) eqn:E; [|reflexivity].
  apply existsb_exists in E. destruct E as [x [H1 H2]]. apply Nat.eqb_eq in H2. subst. contradiction.
Qed.
Lemma fsd_var_in v (fy N A : vec) i : In i (v_mems v) ->
  fold_left (fun A m => set_areas (v_mems v) (fsd_val v (N m) (fy m)) A) (v_mems v) A i
  = fsd_val v (N (last (v_mems v) 0%nat)) (fy (last (v_mems v) 0%nat)).
Proof.
  intros H. assert (Hg : forall l A, l <> [] ->
    fold_left (fun A m => set_areas (v_mems v) (fsd_val v (N m) (fy m)) A) l A i
    = fsd_val v (N (last l 0%nat)) (fy (last l 0%nat))).
  { induction l as [|m l IH]; intros A0 Hl; [contradiction|]. destruct l as [|m2 l2].
    - simpl. apply set_areas_in; auto.
    - change (last (m :: m2 :: l2) 0%nat) with (last (m2 :: l2) 0%nat).
      change (fold_left (fun A m => set_areas (v_mems v) (fsd_val v (N m) (fy m)) A) (m :: m2 :: l2) A0 i)
        with (fold_left (fun A m => set_areas (v_mems v) (fsd_val v (N m) (fy m)) A) (m2 :: l2) (set_areas (v_mems v) (fsd_val v (N m) (fy m)) A0) i).
      apply IH. discriminate. }
  apply Hg. intros E. rewrite E in H. contradiction.
Qed.
Lemma fsd_var_out v (fy N : vec) i l : forall A, ~ In i (v_mems v) ->
  fold_left (fun A m => set_areas (v_mems v) (fsd_val v (N m) (fy m)) A) l A i = A i.
Proof. induction l; simpl; intros A H; [reflexivity|]. rewrite IHl, set_areas_out; auto. Qed.
Lemma fsd_case_out vars fy N i : (forall v, In v vars -> ~ In i (v_mems v)) -> forall A, fsd_case vars fy N A i = A i.
Proof.
  unfold fsd_case. induction vars; simpl; intros H A; [reflexivity|]. rewrite IHvars by (intros; apply H; auto).
  apply fsd_var_out. apply H. auto.
Qed.
Lemma fsd_case_in vars fy N v i : NoDup (concat (map v_mems vars)) -> In v vars -> In i (v_mems v) -> forall A,
  fsd_case vars fy N A i = fsd_val v (N (last (v_mems v) 0%nat)) (fy (last (v_mems v) 0%nat)).
Proof.
  unfold fsd_case. induction vars as [|w vars IH]; simpl; intros Hnd Hv Hi A; [contradiction|].
  destruct Hv as [->|Hv].
  - fold (fsd_case vars fy N (fold_left (fun A m => set_areas (v_mems v) (fsd_val v (N m) (fy m)) A) (v_mems v) A)).
    rewrite fsd_case_out; [apply fsd_var_in; auto|]. intros w Hw Hin.
    assert (Hin2 : In i (concat (map v_mems vars))) by (apply in_concat; exists (v_mems w); split; [apply in_map; auto|auto]).
    clear - Hnd Hi Hin2. induction (v_mems v); simpl in *; [contradiction|]. inversion Hnd; subst.
    destruct Hi as [->|Hi]; [apply H1; apply in_or_app; auto|auto].
  - apply IH; auto. clear - Hnd. induction (v_mems w); simpl in *; [auto|]. inversion Hnd; auto.
Qed.
Lemma fsd_iter_in vars fy ana n v i N : NoDup (concat (map v_mems vars)) -> In v vars -> In i (v_mems v) ->
  (forall A, ana n A = N) -> forall A,
  fsd_iter vars fy ana (S n) A i = fsd_val v (N (last (v_mems v) 0%nat)) (fy (last (v_mems v) 0%nat)).
Proof.
  intros Hnd Hv Hi Ha A. unfold fsd_iter. rewrite seq_S, fold_left_app. cbn [fold_left Nat.add].
  rewrite Ha. apply fsd_case_in; auto.
Qed.
(** When the forces do not depend on the areas, the last load case and the last member of
    each variable decide. *)
Lemma fsd_lemma vars fy ana n v i N A : NoDup (concat (map v_mems vars)) -> In v vars -> In i (v_mems v) ->
  (forall A, ana n A = N) ->
  fsd vars fy ana (S n) A i = clamp (v_lb v) (v_ub v) (N (last (v_mems v) 0%nat) / fy (last (v_mems v) 0%nat)).
Proof.
  intros. unfold fsd. simpl. rewrite (fsd_iter_in vars fy ana n v i N) by auto.
  unfold fsd_val, clamp, Rmin, Rmax. repeat destruct (Rle_dec _ _); lra.
Qed.
(** One load case, one member per variable. *)
Lemma fsd_single_lemma vars fy ana v i N A : NoDup (concat (map v_mems vars)) -> In v vars -> v_mems v = [i] ->
  (forall A, ana 0%nat A = N) -> 0 < fy i -> 0 < v_lb v -> v_lb v <= v_ub v -> 0 <= N i -> N i <= fy i * v_ub v ->
  let a := fsd vars fy ana 1 A i in
  v_lb v <= a /\ N i / a <= fy i /\ (v_lb v < a -> N i / a = fy i)
  /\ forall b, v_lb v <= b -> N i / b <= fy i -> a <= b.
Proof.
  intros Hnd Hv Hm Ha Hf Hl Hlu HN Hu a.
  assert (Ea : a = clamp (v_lb v) (v_ub v) (N i / fy i)).
  { unfold a. rewrite (fsd_lemma vars fy ana 0 v i N); auto; rewrite Hm; [reflexivity|left; auto]. }
  assert (Hq : N i / fy i <= v_ub v) by (apply div_le_iff; auto; lra).
  assert (Hc : a = v_lb v /\ N i / fy i <= v_lb v /\ v_lb v <= v_ub v \/ a = N i / fy i /\ v_lb v < N i / fy i
     \/ v_ub v < v_lb v /\ a = v_ub v).
  { rewrite Ea. unfold clamp. repeat destruct (Rle_dec _ _); lra. }
  assert (Hb : forall b, v_lb v <= b -> N i / b <= fy i -> N i / fy i <= b).
  { intros b Hb1 Hb2. apply div_le_iff; [auto|]. apply (proj1 (div_le_iff (N i) b (fy i) ltac:(lra))) in Hb2. lra. }
  assert (Hr : v_lb v <= v_ub v -> N i / a <= fy i).
  { intros _. assert (v_lb v <= a /\ N i / fy i <= a) by lra. apply div_le_iff; [lra|].
    destruct H as [_ H]. apply (proj1 (div_le_iff (N i) (fy i) a Hf)) in H. lra. }
  split; [lra|]. split; [apply Hr; auto|]. split.
  - intros Hlt. assert (Hx : a = N i / fy i) by lra. assert (0 < N i / fy i) by lra.
    assert (HN0 : N i <> 0) by (intros E; rewrite E in *; unfold Rdiv in *; lra). rewrite Hx. field. split; lra.
  - intros b H1 H2. specialize (Hb b H1 H2). lra.
Qed.
