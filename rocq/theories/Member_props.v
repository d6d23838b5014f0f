(** C172 to C183: steel members. *)
From Coq Require Import Permutation.
From Verif Require Import EC3_spec EC3_proofs Member_proofs Member2_proofs Member3_proofs Member4_proofs.
From Verif Require Import Member_model Member_spec.

(** C172 *)
Theorem C172_sections : forall p L ly lz b s ops,
  let m := add_all ops (new_member p L ly lz b s) in
  (forall loc, dget loc (m_secs m) = last_at loc ops None) /\
  NoDup (map fst (m_secs m)) /\ (forall loc, In loc (map fst (m_secs m)) <-> In loc (map fst ops)) /\
  nsect m = length (nodup Req_EM_T (map fst ops)) /\ m_secs (clear_sections m) = [].
Proof. exact sections_lemma. Qed.
Print Assumptions C172_sections.
Theorem C172_setters : forall m v,
  (forall x, In x (ned (set_ned m v)) -> x = v) /\ nsect (set_ned m v) = nsect m /\ myed (set_ned m v) = myed m /\ mzed (set_ned m v) = mzed m /\
  (forall x, In x (myed (set_myed m v)) -> x = v) /\ nsect (set_myed m v) = nsect m /\ ned (set_myed m v) = ned m /\ mzed (set_myed m v) = mzed m /\
  (m_secs m <> [] -> MEdY (set_myed m v) = Some (Rabs v) /\ NEd (set_ned m v) = Some (Rabs v) /\ NcEd (set_ned m v) = Some (Rmin v 0)).
Proof. exact setter_lemma. Qed.
Print Assumptions C172_setters.
Theorem C172_envelopes : forall m,
  (forall n, NEd m = Some n -> (exists e, In e (m_secs m) /\ n = Rabs (s_N (snd e))) /\ forall e, In e (m_secs m) -> Rabs (s_N (snd e)) <= n) /\
  (forall n, MEdY m = Some n -> (exists e, In e (m_secs m) /\ n = Rabs (s_My (snd e))) /\ forall e, In e (m_secs m) -> Rabs (s_My (snd e)) <= n) /\
  (forall n, NcEd m = Some n -> n <= 0 /\ (forall e, In e (m_secs m) -> n <= s_N (snd e)) /\ (n < 0 -> exists e, In e (m_secs m) /\ n = s_N (snd e)) /\
      (n = 0 <-> forall e, In e (m_secs m) -> 0 <= s_N (snd e))) /\
  (forall a b, NcEd m = Some a -> NEd m = Some b -> - a <= b) /\
  (NEd m = None <-> m_secs m = []) /\ (MEdY m = None <-> m_secs m = []) /\ (NcEd m = None <-> m_secs m = []).
Proof. exact envelope_lemma. Qed.
Print Assumptions C172_envelopes.
Example C172_ex : NcEd (add_section (add_section (xm false) 0 (mkSec (-5) 2 0 0 0 0)) 0 (mkSec 3 2 0 0 0 0)) = Some 0.
Proof.
  unfold add_section. cbn -[Reqb list_min]. destruct (Reqb 0 0) eqn:Q; [|apply Reqb_false in Q; congruence]. cbn. f_equal. unfold Rmin. destruct (Rle_dec 3 0); lra.
Qed.

(** C173 *)
Theorem C173_euler_load : forall m, mem_ok m ->
  ncrit_y m * (m_L m * m_ly m) ^ 2 = PI ^ 2 * p_E (m_p m) * p_Iy (m_p m) /\ ncrit_z m * (m_L m * m_lz m) ^ 2 = PI ^ 2 * p_E (m_p m) * p_Iz (m_p m) /\
  (forall k, 0 < k -> ncrit_y (with_L m (k * m_L m)) = ncrit_y m / k ^ 2 /\ ncrit_z (with_L m (k * m_L m)) = ncrit_z m / k ^ 2 /\
     slend_y (with_L m (k * m_L m)) = k * slend_y m /\ slend_z (with_L m (k * m_L m)) = k * slend_z m) /\
  p_G (m_p m) * p_It (m_p m) / p_i0 (m_p m) ^ 2 <= ncrit_T m /\
  (forall L', m_L m <= L' -> ncrit_T (with_L m L') <= ncrit_T m).
Proof. exact ncrit_lemma. Qed.
Print Assumptions C173_euler_load.
Theorem C173_strength : forall m, mem_ok m -> exists a b t, member_strength m = Some (a, b) /\ torsional_strength m = Some t /\
  0 < a <= p_A (m_p m) * p_fy (m_p m) /\ 0 < b <= p_A (m_p m) * p_fy (m_p m) /\ 0 < t <= p_A (m_p m) * p_fy (m_p m) /\
  a <= ncrit_y m /\ b <= ncrit_z m /\ t <= ncrit_T m /\
  (slend_y m <= 2/10 -> a = p_A (m_p m) * p_fy (m_p m)) /\ (slend_z m <= 2/10 -> b = p_A (m_p m) * p_fy (m_p m)) /\
  (forall L', m_L m <= L' -> exists a' b' t', member_strength (with_L m L') = Some (a', b') /\ torsional_strength (with_L m L') = Some t' /\
     a' <= a /\ b' <= b /\ t' <= t).
Proof. exact member_strength_lemma. Qed.
Print Assumptions C173_strength.
Example C173_ex : mem_ok (xm false) /\ member_strength (xm false) = Some (1, 1).
Proof. split; [exact (xm_ok false [] (9/10))|exact (xm_strength false [] (9/10))]. Qed.

(** C174: torsional buckling is bounded as flexural buckling is (C173), but [design] never looks at it. *)
Theorem C174_torsion_refuted : exists m r m' n t, mem_ok m /\ design m false = Some (r, m') /\ r <= 1 /\ NcEd m = Some n /\ torsional_strength m = Some t /\ t < - n.
Proof. exact design_torsion_lemma. Qed.
Print Assumptions C174_torsion_refuted.
(** What holds: the strength itself never exceeds the elastic critical load nor the yield load. *)
Theorem C174_torsion_partial : forall m n al, mem_ok m -> 0 < n -> 0 <= al <= 1 ->
  exists b, strength m (slend_of m n) al = Some b /\ 0 < b <= p_A (m_p m) * p_fy (m_p m) /\ b <= n /\
    (25 * (p_A (m_p m) * p_fy (m_p m)) <= n -> b = p_A (m_p m) * p_fy (m_p m)) /\
    (forall n' al', n <= n' -> 0 <= al' <= al -> exists b', strength m (slend_of m n') al' = Some b' /\ b <= b').
Proof. exact mstrength_lemma. Qed.
Print Assumptions C174_torsion_partial.
Example C174_ex : 0 < ncrit_T (xm false) /\ 0 <= 21/100 <= 1.
Proof. split; [apply ncrit_pos; exact (xm_ok false [] (9/10))|lra]. Qed.

(** C175 *)
Theorem C175_lateral_torsional : forall m Mcr gen md, mem_ok m -> 0 < Mcr -> MEdY m = Some md ->
  exists b, LT_strength m Mcr gen = Some b /\ 0 < b <= p_MRd (m_p m) (m_f m) /\ (md <= b -> md <= Mcr) /\
    (LT_slend (p_MRd (m_p m) (m_f m)) Mcr <= (if gen then 2/10 else 4/10) -> b = p_MRd (m_p m) (m_f m)) /\
    (forall Mcr', Mcr <= Mcr' -> exists b', LT_strength m Mcr' gen = Some b' /\ b <= b') /\
    (forall m' md', m_p m' = m_p m -> m_f m' = m_f m -> mem_ok m' -> MEdY m' = Some md' -> md <= md' ->
       exists b', LT_strength m' Mcr gen = Some b' /\ b' <= b /\ md / b <= md' / b').
Proof. exact LT_lemma. Qed.
Print Assumptions C175_lateral_torsional.
Theorem C175_check : forall m md, mem_ok m -> m_sym m <> OtherSym -> MEdY m = Some md ->
  exists u Mcr b, check_LT m = Some u /\ mcrit_default m = Some Mcr /\ LT_strength m Mcr false = Some b /\ 0 <= u /\ u * b = md /\ (u <= 1 <-> md <= b) /\ (u <= 1 -> md <= Mcr /\ md <= p_MRd (m_p m) (m_f m)).
Proof. exact check_LT_lemma. Qed.
Print Assumptions C175_check.
Example C175_ex : mem_ok (add_section (xm true) 0 (mkSec 0 2 0 0 0 0)) /\ MEdY (add_section (xm true) 0 (mkSec 0 2 0 0 0 0)) = Some 2 /\ m_sym (xm true) <> OtherSym.
Proof. split; [exact (xm_ok true _ (9/10))|]. split; [cbn; rewrite Rabs_pos_eq by lra; reflexivity|discriminate]. Qed.

(** C176 *)
Theorem C176_critical_moment_partial : forall m C1 C2 C3 kz kw za, mem_ok m -> m_sym m = Dual -> 0 < C1 -> 0 <= C2 -> 0 < kz -> 0 < kw ->
  exists M, mcrit m C1 C2 C3 kz kw za = Some M /\ 0 < M /\
   (za = 0 -> M ^ 2 = C1 ^ 2 * (PI ^ 2 * 210000 * p_Iz (m_p m) / (kz * m_L m) ^ 2) * (81000 * p_It (m_p m) + PI ^ 2 * 210000 * p_Iw (m_p m) / (kw * m_L m) ^ 2)) /\
   M ^ 2 + 2 * (C1 * (PI ^ 2 * 210000 * p_Iz (m_p m)) / (kz * m_L m) ^ 2) * (C2 * za) * M =
     C1 ^ 2 * (PI ^ 2 * 210000 * p_Iz (m_p m) / (kz * m_L m) ^ 2) * (81000 * p_It (m_p m) + PI ^ 2 * 210000 * p_Iw (m_p m) / (kw * m_L m) ^ 2) /\
   (forall L', m_L m <= L' -> exists M', mcrit (with_L m L') C1 C2 C3 kz kw za = Some M' /\ M' <= M) /\
   (forall za', za <= za' -> exists M', mcrit m C1 C2 C3 kz kw za' = Some M' /\ M' <= M).
Proof. exact mcrit_lemma. Qed.
Print Assumptions C176_critical_moment_partial.
(** Findings: for a monosymmetric section the level of the load is ignored; an unknown symmetry raises. *)
Theorem C176_mono_load_level_refuted : forall m C1 C2 C3 kz kw za za', 
  (m_sym m = Mono -> mcrit m C1 C2 C3 kz kw za = mcrit m C1 C2 C3 kz kw za') /\
  (m_sym m = Mono -> p_zs (m_p m) = 0 -> p_zj (m_p m) = 0 -> mcrit m C1 C2 C3 kz kw za =
     mcrit (mkM (m_p m) (m_L m) (m_ly m) (m_lz m) (m_LTB m) Dual (m_secs m) (m_f m) (m_cmy m)) C1 C2 C3 kz kw 0) /\
  (m_sym m = OtherSym -> mcrit m C1 C2 C3 kz kw za = None).
Proof. exact mcrit_mono_lemma. Qed.
Print Assumptions C176_mono_load_level_refuted.
Example C176_ex : mem_ok (xm true) /\ m_sym (xm true) = Dual /\ 0 < 112/100 /\ 0 <= 45/100.
Proof. split; [exact (xm_ok true [] (9/10))|]. split; [reflexivity|lra]. Qed.

(** C177 *)
Theorem C177_cantilever : forall m point free, mem_ok m -> m_sym m = Dual -> 1/10 <= cant_K m <= 5/2 ->
  exists t c b, mcrit_cantilever m point free Top = Some t /\ mcrit_cantilever m point free Middle = Some c /\ mcrit_cantilever m point free Bottom = Some b /\
  0 < t <= c /\ c <= b /\
  c ^ 2 = cant_C1 (cant_K m) point free ^ 2 * (PI ^ 2 * 210000 * p_Iz (m_p m) / (2 * m_L m) ^ 2) * (81000 * p_It (m_p m) + PI ^ 2 * 210000 * p_Iw (m_p m) / (1 * m_L m) ^ 2).
Proof. exact cantilever_lemma. Qed.
Print Assumptions C177_cantilever.
Example C177_ex : exists m, mem_ok m /\ m_sym m = Dual /\ 1/10 <= cant_K m <= 5/2.
Proof.
  exists (mkM (mkProf 1 100 4 1 1 1 0 1 0 1 0 0 0 0 1 0 0 1 1 (fun _ => 1%nat) (fun _ => 1) (fun _ => [0])) PI 1 1 false Dual [] (0, 0, 0) (9/10)).
  assert (P : 0 < PI) by apply PI_RGT_0. split; [|split; [reflexivity|]].
  - unfold mem_ok, prof_ok; cbn. repeat split; try lra; try discriminate; try (intros _; lra). intros x X; destruct X as [<-|[]]; lra.
  - unfold cant_K; cbn -[pow PI sqrt]. replace (1 * 4 * (1 - 0) ^ 2 / 4 / 1 / 1) with 1 by field. rewrite sqrt_1. replace (PI / PI * 1) with 1 by (field; lra). lra.
Qed.

(** C178 *)
Theorem C178_max_over_sections : forall m, mem_ok m -> NoDup (map fst (m_secs m)) ->
  exists r m', check_sections m = Some (r, m') /\ m_secs m' = m_secs m /\ m_p m' = m_p m /\
    (forall e x, In e (m_secs m) -> In x (p_res (m_p m) (sec_forces (snd e))) -> x <= r) /\
    (m_secs m <> [] -> exists e x, In e (m_secs m) /\ In x (p_res (m_p m) (sec_forces (snd e))) /\ x = r) /\
    (m_secs m = [] -> r = 0) /\
    (forall l, Permutation l (m_secs m) -> exists m2, check_sections (with_secs m l) = Some (r, m2)).
Proof. exact check_sections_lemma. Qed.
Print Assumptions C178_max_over_sections.
Theorem C178_plane_only : forall m l, mem_ok m -> NoDup (map fst (m_secs m)) -> Forall2 same_plane (m_secs m) l ->
  exists r m1 m2, check_sections m = Some (r, m1) /\ check_sections (with_secs m l) = Some (r, m2).
Proof. exact plane_lemma. Qed.
Print Assumptions C178_plane_only.
Example C178_ex : Forall2 same_plane [(0, mkSec 1 2 3 0 5 0)] [(0, mkSec 1 2 30 40 5 60)] /\ NoDup (map fst [(0, mkSec 1 2 3 0 5 0)]).
Proof. split; [repeat constructor; cbn; lra|repeat constructor; auto]. Qed.

(** C179 *)
Theorem C179_buckling : forall m n, mem_ok m -> NcEd m = Some n ->
  exists a b, member_strength m = Some (a, b) /\
  (n = 0 -> check_buckling m = Some (0, 0)) /\
  (n < 0 -> exists u v, check_buckling m = Some (u, v) /\ u * a = - n /\ v * b = - n /\ (u <= 1 <-> - n <= a) /\ (v <= 1 <-> - n <= b)).
Proof. exact check_buckling_lemma. Qed.
Print Assumptions C179_buckling.
Example C179_ex : NcEd (add_section (xm false) 0 (mkSec (-2) 0 0 0 0 0)) = Some (-2).
Proof. cbn. rewrite Rmin_left by lra. reflexivity. Qed.

(** C180 *)
Theorem C180_beam_column_partial : forall m sway uni md n a b, mem_ok m -> m_LTB m = false -> 0 <= m_cmy m ->
  MEdY m = Some md -> NcEd m = Some n -> member_strength m = Some (a, b) -> 1/1000000 <= md ->
  2/10 <= slend_y m \/ - n <= 5 * a ->
  exists u v m', check_beamcolumn m sway uni = Some ((u, v), m') /\ - n / a <= u /\ - n / b <= v /\ v - - n / b <= 8/10 * (u - - n / a) /\
    m_secs m' = m_secs m /\ fst (fst (m_f m')) = n.
Proof. exact beamcolumn_lemma. Qed.
Print Assumptions C180_beam_column_partial.
Theorem C180_value : forall m sway uni md n a b, mem_ok m -> m_LTB m = false ->
  MEdY m = Some md -> NcEd m = Some n -> member_strength m = Some (a, b) -> 1/1000000 <= md ->
  (exists mz, MEdZ m = Some mz /\ mz <> 0) ->
  let f := (n, snd (fst (m_f m)), snd (m_f m)) in
  let c := fst (Cmy m sway uni) in let un := - n / a in
  let ky := if Nat.leb (p_class (m_p m) f) 2 then c * (1 + Rmin (slend_y m - 2/10) (8/10) * un) else c * (1 + Rmin (slend_y m) (6/10) * un) in
  exists m', check_beamcolumn m sway uni =
    Some ((un + ky * (md / p_MRd (m_p m) f), - n / b + (if Nat.leb (p_class (m_p m) f) 2 then 6/10 else 8/10) * ky * (md / p_MRd (m_p m) f)), m').
Proof. exact beamcolumn_value_lemma. Qed.
Print Assumptions C180_value.
(** Findings: with lateral torsional buckling the check raises; for stocky overloaded members the moment relieves. *)
Theorem C180_lateral_torsional_refuted : forall m sway uni md n, mem_ok m -> m_LTB m = true ->
  MEdY m = Some md -> NcEd m = Some n -> 1/1000000 <= md -> check_beamcolumn m sway uni = None.
Proof. exact beamcolumn_ltb_lemma. Qed.
Print Assumptions C180_lateral_torsional_refuted.
Theorem C180_interaction_factor_refuted : exists UN sl Cm, 0 < Cm /\ 0 <= sl /\ 0 < UN /\ kyy UN sl Cm 1 < 0.
Proof. exact kyy_negative_lemma. Qed.
Print Assumptions C180_interaction_factor_refuted.
Example C180_ex : let m := add_section (xm false) 0 (mkSec (-2) 1 1 0 0 0) in
  MEdY m = Some 1 /\ NcEd m = Some (-2) /\ member_strength m = Some (1, 1) /\ - -2 <= 5 * 1 /\ (exists mz, MEdZ m = Some mz /\ mz <> 0).
Proof.
  cbv zeta. split; [cbn; rewrite Rabs_pos_eq by lra; auto|]. split; [cbn; rewrite Rmin_left by lra; auto|]. split; [exact (xm_strength false _ (9/10))|]. split; [lra|].
  exists 1. split; [cbn; rewrite Rabs_pos_eq by lra; auto|lra].
Qed.

(** C181 *)
Theorem C181_moment_factor_partial : forall m uni a b, dget 0 (m_secs m) = Some a -> dget 1 (m_secs m) = Some b ->
  fst (Cmy m true uni) = 9/10 /\ 4/10 <= fst (Cmy m false uni) <= 1 /\
  (dget (1/2) (m_secs m) = None -> fst (Cmy m false uni) = equivalent_moment_factor (s_My a) (s_My b) None uni) /\
  (forall c, dget (1/2) (m_secs m) = Some c -> fst (Cmy m false uni) = equivalent_moment_factor (s_My a) (s_My b) (Some (s_My c)) uni) /\
  (forall c, fst (Cmy (with_cmy m c) false uni) = fst (Cmy m false uni)).
Proof. exact Cmy_lemma. Qed.
Print Assumptions C181_moment_factor_partial.
(** Finding: the factor of the former sections survives clear_sections. *)
Theorem C181_stale_factor_refuted : forall m uni a b, dget 0 (m_secs m) = Some a -> dget 1 (m_secs m) = Some b ->
  fst (Cmy (clear_sections (snd (Cmy m false uni))) false uni) = fst (Cmy m false uni).
Proof. exact Cmy_stale_lemma. Qed.
Print Assumptions C181_stale_factor_refuted.
Example C181_ex : fst (Cmy (add_section (add_section (xm false) 0 (mkSec 0 1 0 0 0 0)) 1 (mkSec 0 1 0 0 0 0)) false true) = 1.
Proof. exact xcmy. Qed.

(** C182 *)
Theorem C182_design_partial : forall m sway md n, mem_ok m -> NoDup (map fst (m_secs m)) -> 0 <= m_cmy m ->
  MEdY m = Some md -> NcEd m = Some n -> m_LTB m = false \/ (m_sym m <> OtherSym /\ (n = 0 \/ md < 1/1000000)) ->
  exists r m', design m sway = Some (r, m') /\
    (forall e x, In e (m_secs m) -> In x (p_res (m_p m) (sec_forces (snd e))) -> x <= r) /\
    (forall a b, member_strength m = Some (a, b) -> - n <= r * a /\ - n <= r * b) /\
    (r <= 1 -> - n <= ncrit_y m /\ - n <= ncrit_z m) /\
    (m_LTB m = true -> r <= 1 -> exists Mcr, mcrit_default m = Some Mcr /\ md <= Mcr) /\
    (n = 0 -> m_LTB m = false -> exists e x, In e (m_secs m) /\ In x (p_res (m_p m) (sec_forces (snd e))) /\ x = r) /\
    m_secs m' = m_secs m.
Proof. exact design_lemma. Qed.
Print Assumptions C182_design_partial.
Theorem C182_history_partial : forall m sway c f, mem_ok m -> NoDup (map fst (m_secs m)) -> m_secs m <> [] ->
  sway = true \/ (exists a b, dget 0 (m_secs m) = Some a /\ dget 1 (m_secs m) = Some b) ->
  option_map fst (design (with_f (with_cmy m c) f) sway) = option_map fst (design m sway).
Proof. exact design_history_lemma. Qed.
Print Assumptions C182_history_partial.
(** Findings: without sections at both ends the result depends on former use of the member; with lateral
    torsional buckling, compression and bending the design raises. *)
Theorem C182_history_refuted : exists p L s0 s1 s, let new := new_member p L 1 1 false Dual in
  let fresh := add_section new (1/2) s in
  let used := add_section (clear_sections (snd (Cmy (add_section (add_section new 0 s0) 1 s1) false true))) (1/2) s in
  mem_ok fresh /\ m_secs used = m_secs fresh /\ m_p used = m_p fresh /\ option_map fst (design used false) <> option_map fst (design fresh false).
Proof. exact design_stale_lemma. Qed.
Print Assumptions C182_history_refuted.
Theorem C182_lateral_torsional_refuted : forall m sway md n, mem_ok m -> NoDup (map fst (m_secs m)) -> m_LTB m = true ->
  MEdY m = Some md -> NcEd m = Some n -> n < 0 -> 1/1000000 <= md -> design m sway = None.
Proof. exact design_ltb_lemma. Qed.
Print Assumptions C182_lateral_torsional_refuted.
Example C182_ex : option_map fst (design (add_section (xm false) (1/2) (mkSec (-1) 1 1 0 0 0)) false) = Some (1 + 9/10 * (1 + Rmin (slend_y (xm false)) (6/10))).
Proof. exact (xdesign (9/10) ltac:(lra)). Qed.

(** C183 *)
Theorem C183_stiffness_weight_cost : forall m, mem_ok m -> 0 < required_shear_stiffness m /\
  70 * (p_G (m_p m) * p_It (m_p m)) <= required_shear_stiffness m * p_h (m_p m) ^ 2 /\
  (forall L', m_L m <= L' -> required_shear_stiffness (with_L m L') <= required_shear_stiffness m) /\
  required_shear_stiffness m * p_h (m_p m) ^ 2 = 70 * (p_G (m_p m) * p_It (m_p m)) +
     70 * (PI ^ 2 * p_E (m_p m) / m_L m ^ 2) * (p_Iw (m_p m) + p_Iz (m_p m) * (p_h (m_p m) / 2) ^ 2) /\
  (forall L1 L2, weight (with_L m (L1 + L2)) = weight (with_L m L1) + weight (with_L m L2) /\ cost (with_L m (L1 + L2)) = cost (with_L m L1) + cost (with_L m L2)) /\
  weight (with_L m 1) = p_w (m_p m) /\ cost (with_L m 1) = p_cost (m_p m).
Proof. exact stiffness_lemma. Qed.
Print Assumptions C183_stiffness_weight_cost.
Example C183_ex : mem_ok (xm false).
Proof. exact (xm_ok false [] (9/10)). Qed.

(** The coefficients of the load position for the eight cases of a cantilever, in thousandths. *)
Theorem C177_position_coefficients : forall K, (forall p f, cant_C2 K p f Middle = 0)
  /\ 1000 * cant_C2 K true true Top = 409 + 1444 * K + 70 * (K * K) /\ 1000 * cant_C2 K false true Top = 984 + 1420 * K + 165 * (K * K)
  /\ 1000 * cant_C2 K true false Top = 380 + 2092 * K - 318 * (K * K) /\ 1000 * cant_C2 K false false Top = 1130 + 1539 * K - 176 * (K * K)
  /\ 1000 * cant_C2 K true true Bottom = 529 + 234 * K + 149 * (K * K) /\ 1000 * cant_C2 K false true Bottom = 1028 + 388 * K + 150 * (K * K)
  /\ 1000 * cant_C2 K true false Bottom = 512 + 370 * K - 33 * (K * K) /\ 1000 * cant_C2 K false false Bottom = 1049 + 234 * K - 20 * (K * K).
Proof. intros K. unfold cant_C2. repeat split; field. Qed.
Print Assumptions C177_position_coefficients.
