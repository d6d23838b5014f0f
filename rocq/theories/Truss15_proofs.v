(** Zone loads on chord members, node spacing, off-centre ridges and the constructor. *)
From Verif Require Import Base EC3_model Sections_proofs Rhs_model Bool_tac.
From Verif Require Import Truss_proofs Truss3_proofs Truss4_proofs Truss5_proofs Truss6_proofs Truss7_proofs Truss8_proofs Truss10_proofs Truss13_proofs.
From Verif Require Import Truss_model Truss_spec.
Require Import Reals Lra List Bool Arith Lia Psatz.
Import ListNotations.
Local Open Scope R_scope.

Lemma Rsum_one : forall x, Rsum [x] = x.
Proof. intros. unfold Rsum. simpl. ring. Qed.
Lemma Rsum_two : forall x y, Rsum [x; y] = x + y.
Proof. intros. unfold Rsum. simpl. ring. Qed.

Lemma step_at : forall a b xa xb z x, xa < xb -> intensity xa xb x (Step a b ((z - xa) / (xb - xa))) = if Rlt_dec x z then a else b.
Proof.
  intros a b xa xb z x H. cbn [intensity]. replace (xa + (z - xa) / (xb - xa) * (xb - xa)) with z by (field; lra). reflexivity.
Qed.

(** Two boundaries. *)
Lemma zone_loads_two_lemma : forall a b c z1 z2 xa xb, z1 < z2 -> xa < xb -> ~ (xa < z1 /\ z2 < xb) ->
  exists m, member_zone_loads [a; b; c] [z1; z2] xa xb = Some [m] /\
  forall x, xa < x < xb -> total_intensity xa xb x [m] = zone_value [a; b; c] [z1; z2] x.
Proof.
  intros a b c z1 z2 xa xb Hz Hx Hs. unfold member_zone_loads. cbn [last removelast tl combine zone_loop].
  destruct (Rle_dec xb z1) as [A|A]; [rewrite leb_t by exact A|rewrite leb_f by lra].
  { eexists; split; [reflexivity|]. intros x X. unfold total_intensity. cbn [map intensity]. rewrite Rsum_one. cbn [zone_value].
    destruct (Rlt_dec x z1); [reflexivity|lra]. }
  destruct (Rlt_dec z2 xa) as [B|B]; [rewrite ltb_t by exact B|rewrite ltb_f by lra].
  { eexists; split; [reflexivity|]. intros x X. unfold total_intensity. cbn [map intensity]. rewrite Rsum_one. cbn [zone_value].
    destruct (Rlt_dec x z1); [lra|]. destruct (Rlt_dec x z2); [lra|reflexivity]. }
  cbn [bind]. destruct (Rlt_dec xa z1) as [C|C]; [rewrite ltb_t by exact C|rewrite (ltb_f xa z1) by lra]; cbn [andb].
  { rewrite ltb_t by lra. cbn [nth_error bind]. rewrite pdiv_ok by lra. cbn [bind]. eexists; split; [reflexivity|]. intros x X.
    unfold total_intensity. cbn [map]. rewrite Rsum_one, step_at by exact Hx. cbn [zone_value]. destruct (Rlt_dec x z1); [reflexivity|].
    destruct (Rlt_dec x z2); [reflexivity|lra]. }
  rewrite leb_t by lra. cbn [andb]. destruct (Rlt_dec z2 xb) as [D|D]; [rewrite ltb_t by exact D|rewrite ltb_f by lra].
  { cbn [nth_error bind]. rewrite pdiv_ok by lra. cbn [bind]. eexists; split; [reflexivity|]. intros x X.
    unfold total_intensity. cbn [map]. rewrite Rsum_one, step_at by exact Hx. cbn [zone_value]. destruct (Rlt_dec x z1); [lra|reflexivity]. }
  rewrite leb_t by lra. cbn [nth_error bind]. eexists; split; [reflexivity|]. intros x X.
  unfold total_intensity. cbn [map intensity]. rewrite Rsum_one. cbn [zone_value]. destruct (Rlt_dec x z1); [lra|]. destruct (Rlt_dec x z2); [reflexivity|lra].
Qed.

(** A member that spans both boundaries: the third zone is ignored. *)
Lemma zone_loads_span_lemma : forall a b c z1 z2 xa xb, z1 < z2 -> xa < z1 -> z2 < xb ->
  exists m, member_zone_loads [a; b; c] [z1; z2] xa xb = Some [m] /\
  (forall x, xa < x < z2 -> total_intensity xa xb x [m] = zone_value [a; b; c] [z1; z2] x) /\
  (forall x, z2 <= x < xb -> total_intensity xa xb x [m] = b).
Proof.
  intros a b c z1 z2 xa xb Hz H1 H2. unfold member_zone_loads. cbn [last removelast tl combine zone_loop].
  rewrite leb_f, !ltb_f, !ltb_t by lra. cbn [bind andb nth_error]. rewrite pdiv_ok by lra. cbn [bind]. eexists; split; [reflexivity|]. split; intros x X;
  unfold total_intensity; cbn [map]; rewrite Rsum_one, step_at by lra; cbn [zone_value]; destruct (Rlt_dec x z1); try lra.
  destruct (Rlt_dec x z2); lra.
Qed.

(** One boundary: a member that crosses it gets no load at all. *)
Lemma zone_loads_one_lemma : forall a b z xa xb, xa < xb ->
  exists ms, member_zone_loads [a; b] [z] xa xb = Some ms /\
  (xb <= z \/ z < xa -> forall x, xa < x < xb -> total_intensity xa xb x ms = zone_value [a; b] [z] x) /\
  (xa <= z < xb -> ms = []).
Proof.
  intros a b z xa xb Hx. unfold member_zone_loads. cbn [last removelast tl combine zone_loop].
  destruct (Rle_dec xb z) as [A|A]; [rewrite leb_t by exact A|rewrite leb_f by lra].
  { eexists; split; [reflexivity|]. split; [|lra]. intros _ x X. unfold total_intensity. cbn [map intensity]. rewrite Rsum_one. cbn [zone_value].
    destruct (Rlt_dec x z); [reflexivity|lra]. }
  destruct (Rlt_dec z xa) as [B|B]; [rewrite ltb_t by exact B|rewrite ltb_f by lra].
  { eexists; split; [reflexivity|]. split; [|lra]. intros _ x X. unfold total_intensity. cbn [map intensity]. rewrite Rsum_one. cbn [zone_value].
    destruct (Rlt_dec x z); [lra|reflexivity]. }
  eexists; split; [reflexivity|]. split; [lra|reflexivity].
Qed.

(** Three boundaries: a member inside the third zone carries its load twice. *)
Lemma zone_loads_three_lemma : forall a b c d z1 z2 z3 xa xb, z1 < z2 -> z2 <= xa -> xa < xb -> xb <= z3 ->
  exists ms, member_zone_loads [a; b; c; d] [z1; z2; z3] xa xb = Some ms /\
  forall x, xa < x < xb -> total_intensity xa xb x ms = 2 * c /\ zone_value [a; b; c; d] [z1; z2; z3] x = c.
Proof.
  intros a b c d z1 z2 z3 xa xb H1 H2 H3 H4. unfold member_zone_loads. cbn [last removelast tl combine zone_loop].
  rewrite leb_f by lra. rewrite (ltb_f z3 xa) by lra. rewrite (ltb_f xa z2), (ltb_f xa z1), (leb_t z2 xa), (leb_t z1 xa), (ltb_f z3 xb), (leb_t xb z3), (ltb_t z2 xb) by lra.
  cbn [andb bind Nat.add nth_error]. rewrite pdiv_ok by lra. cbn [bind]. eexists; split; [reflexivity|]. intros x X. split.
  - unfold total_intensity. cbn [map]. rewrite Rsum_two, step_at by lra. cbn [intensity]. destruct (Rlt_dec x z2); lra.
  - cbn [zone_value]. destruct (Rlt_dec x z1); [lra|]. destruct (Rlt_dec x z2); [lra|]. destruct (Rlt_dec x z3); lra.
Qed.

Lemma uniform_load_lemma : forall q m k, (k < m)%nat -> forall xa xb x,
  length (generate_uniform_load q m) = m /\ total_intensity xa xb x (nth k (generate_uniform_load q m) []) = q.
Proof.
  intros q m k H xa xb x. unfold generate_uniform_load. split; [now rewrite map_length, seq_length|].
  rewrite nth_map_in with (d' := 0%nat) by (rewrite seq_length; lia). unfold total_intensity. cbn [map intensity]. apply Rsum_one.
Qed.

(** Spacing of the bottom chord. *)
Lemma spacing_dx_lemma : forall L dx H0 H1 tp n up edge t, 0 < dx < L -> usable tp up dx n ->
  generate_topology (mkSl L L dx dx H0 H1) tp n up edge = Some t ->
  even_gaps 0 (length (bottom_nodes t) - 1) (match tp with TN => (L - dx) / (INR n - 1) | _ => (L - dx) / (INR n - / 2) end) (bottom_nodes t).
Proof.
  intros L dx H0 H1 tp n up edge t Hd (Hn & HN & _) E. destruct tp.
  - destruct (K_dx_shape L dx H0 H1 n up edge Hd Hn) as (t' & Et & (A & B & C & D) & _). rewrite E in Et. inversion Et; subst t'. split; [lia|].
    intros i Hi. rewrite !D by lia. cbn [fst]. unfold xb_dx, Dk. rewrite S_INR. ring.
  - destruct (N_dx_shape L dx H0 H1 n up edge Hd (HN eq_refl (proj1 Hd))) as (t' & Et & (A & B & C & D) & _). rewrite E in Et. inversion Et; subst t'.
    specialize (HN eq_refl (proj1 Hd)). split; [lia|].
    intros i Hi. rewrite !D by lia. cbn [fst]. unfold xb_N. rewrite S_INR. ring.
  - destruct (KT_dx_shape L dx H0 H1 n up edge Hd Hn) as (t' & Et & (A & B & C & D) & _). rewrite E in Et. inversion Et; subst t'. split; [lia|].
    intros i Hi. rewrite !D by lia. cbn [fst]. unfold xb_dx, Dk. rewrite S_INR. ring.
Qed.
Lemma spacing_N_lemma : forall L H0 H1 n up edge t, 0 < L -> (1 <= n)%nat ->
  generate_topology (mkSl L L 0 0 H0 H1) TN n up edge = Some t ->
  even_gaps 0 (2 * n) (L / INR n) (bottom_nodes t) /\ even_gaps 0 (2 * n) (L / INR n) (top_nodes t).
Proof.
  intros L H0 H1 n up edge t HL Hn E. destruct (N_zero_shape L H0 H1 n up edge HL Hn) as (t' & Et & (A & B & C & D) & _). rewrite E in Et. inversion Et; subst t'.
  split; (split; [lia|]); intros i Hi; [rewrite !D by lia|rewrite !C by lia]; cbn [fst]; rewrite S_INR; ring.
Qed.
Lemma spacing_KT_lemma : forall L H0 H1 n up edge t, 0 < L -> (1 <= n)%nat ->
  generate_topology (mkSl L L 0 0 H0 H1) TKT n up edge = Some t ->
  if up then even_gaps 0 (2 * n + 1) (2 * L / (2 * INR n + 1)) (bottom_nodes t) /\ even_gaps 0 (4 * n + 2) (L / (2 * INR n + 1)) (top_nodes t)
  else even_gaps 1 (2 * n) (L / INR n) (bottom_nodes t) /\ even_gaps 0 (4 * n) (L / (2 * INR n)) (top_nodes t).
Proof.
  intros L H0 H1 n up edge t HL Hn E. pose proof (INR1 n Hn). destruct up.
  - destruct (KT_up_shape L H0 H1 n edge HL Hn) as (t' & Et & (A & B & C & D) & _). rewrite E in Et. inversion Et; subst t'.
    split; (split; [lia|]); intros i Hi; [rewrite !D by lia|rewrite !C by lia]; cbn [fst]; rewrite S_INR; ring.
  - destruct (KT_down_shape L H0 H1 n edge HL Hn) as (t' & Et & (A & B & C & D) & _). rewrite E in Et. inversion Et; subst t'.
    split; (split; [lia|]); intros i Hi; [rewrite !D by lia|rewrite !C by lia]; cbn [fst]; [|rewrite S_INR; ring].
    unfold xb_KTdown. rewrite if_neq, if_le by lia. rewrite if_neq, if_le by lia. rewrite S_INR. ring.
Qed.

(** 'K' webs that start at the supports: the halves and the middle have different node distances. *)
Lemma spacing_K_lemma : forall L H0 H1 n up edge t, 0 < L -> (2 <= n)%nat ->
  generate_topology (mkSl L L 0 0 H0 H1) TK n up edge = Some t ->
  if up then
    even_gaps 0 n (L / INR n * (1 - / (2 * INR n))) (bottom_nodes t) /\ even_gaps n (n + 1) (L / INR n) (bottom_nodes t)
  else
    even_gaps 1 n (L / (INR n - / 2) * (1 - / (2 * (INR n - 1)))) (bottom_nodes t) /\ even_gaps n (n + 1) (L / (INR n - / 2)) (bottom_nodes t).
Proof.
  intros L H0 H1 n up edge t HL Hn E. assert (2 <= INR n) by (change 2 with (INR 2); now apply le_INR). destruct up.
  - destruct (K_up_shape L H0 H1 n edge HL ltac:(lia)) as (t' & Et & (A & B & C & D) & _). rewrite E in Et. inversion Et; subst t'.
    split; (split; [lia|]); intros i Hi; rewrite !D by lia; cbn [fst].
    + rewrite !xb_Kup_lo by lia. rewrite S_INR. unfold e_up. field. lra.
    + assert (i = n) by lia. subst i. rewrite (xb_Kup_lo L n n), (xb_Kup_hi L n (S n)) by lia. rewrite S_INR. unfold e_up. field. lra.
  - destruct (K_down_shape L H0 H1 n edge HL Hn) as (t' & Et & (A & B & C & D) & _). rewrite E in Et. inversion Et; subst t'.
    split; (split; [lia|]); intros i Hi; rewrite !D by lia; cbn [fst].
    + rewrite !xb_Kdown_lo by lia. rewrite S_INR. unfold e_down. field. lra.
    + assert (i = n) by lia. subst i. rewrite (xb_Kdown_lo L n n), (xb_Kdown_hi L n (S n)) by lia. rewrite S_INR. unfold e_down. field. lra.
Qed.

(** One panel per half and the first diagonal down: two nodes of the bottom chord coincide. *)
Lemma K_down_one_lemma : forall L H0 H1 edge t, 0 < L ->
  generate_topology (mkSl L L 0 0 H0 H1) TK 1 false edge = Some t ->
  bottom_nodes t = [(0, - H0); (L, - H0); (2 * L, - H0); (2 * L, - H0)].
Proof.
  intros L H0 H1 edge t HL E. unfold generate_topology in E. apply bind_inv in E as (Xb & Eb & E). apply bind_inv in E as (Xt & _ & E).
  cbv zeta in E. destruct (forallb _ _) in E; [|discriminate]. inversion E; subst; clear E. cbn [bottom_nodes].
  unfold K_bottom in Eb; cbn [s_dx1 s_L1] in Eb. rewrite ltb_f in Eb by lra. cbn [INR] in Eb. rewrite pdiv_ok in Eb by lra. cbn [bind] in Eb. inversion Eb; subst; clear Eb.
  unfold bottom_gap, ybot, span. cbn [s_dx1 s_dx2 s_L1 s_L2 s_H0 negb]. rewrite eqb_t by reflexivity. cbn [andb fst snd].
  replace (L / (1 - / 2)) with (2 * L) by field. unfold along, vadd, vscale, vminus; cbn [linspace map app fst snd].
  repeat (apply f_equal2; [apply f_equal2; lra|]). reflexivity.
Qed.

(** The ridge of an 'N' truss lies in the middle of the span, whatever the two lengths are. *)
Lemma ridge_place_lemma : forall L1 L2 H0 H1 n up edge t, 0 < L1 -> 0 < L2 -> (1 <= n)%nat ->
  generate_topology (mkSl L1 L2 0 0 H0 H1) TN n up edge = Some t ->
  nth n (top_nodes t) (0, 0) = ((L1 + L2) / 2, H1 - H0) /\
  nth 0 (top_nodes t) (1, 0) = (0, 0) /\ nth (2 * n) (top_nodes t) (0, 0) = (L1 + L2, 0).
Proof.
  intros L1 L2 H0 H1 n up edge t P1 P2 Hn E. unfold generate_topology in E. apply bind_inv in E as (Xb & Eb & E). apply bind_inv in E as (Xt & Et & E).
  cbv zeta in E. destruct (forallb _ _) in E; [|discriminate]. inversion E; subst; clear E. cbn [top_nodes].
  unfold N_top in Et. cbn [s_dx1] in Et. rewrite eqb_t in Et by reflexivity. inversion Et; subst; clear Et.
  assert (Pn : 0 < INR n) by (apply lt_0_INR; lia).
  unfold top_by_division, xmid, xend, span. cbn [s_L1 s_L2 s_H0 s_H1]. split; [|split].
  - rewrite app_nth1 by (rewrite along_length, linspace_length; lia). rewrite along_nth by (rewrite linspace_length; lia). rewrite linspace_nth by lia.
    replace (n + 1 - 1)%nat with n by lia. unfold vadd, vscale, vminus; cbn [fst snd]. apply f_equal2; field; lra.
  - rewrite app_nth1 by (rewrite along_length, linspace_length; lia). rewrite (nth_indep _ (1, 0) (0, 0)) by (rewrite along_length, linspace_length; lia).
    rewrite along_nth by (rewrite linspace_length; lia). rewrite linspace_nth by lia. replace (n + 1 - 1)%nat with n by lia.
    unfold vadd, vscale, vminus; cbn [fst snd INR]. apply f_equal2; field; lra.
  - rewrite app_nth2 by (rewrite along_length, linspace_length; lia). rewrite along_length, linspace_length.
    rewrite along_nth by (rewrite tl_length, linspace_length; lia). rewrite nth_tl, linspace_nth by lia. replace (n + 1 - 1)%nat with n by lia.
    replace (S (2 * n - (n + 1))) with n by lia. unfold vadd, vscale, vminus; cbn [fst snd]. apply f_equal2; field; lra.
Qed.

(** The constructor. *)
Lemma constructor_lemma : forall L1 L2 dx1 dx2 h1 h2 slope, 0 < L1 -> sloped_slope L1 h1 h2 slope <> None /\
  (forall s a, sloped_truss L1 L2 dx1 dx2 h1 h2 slope = Some s -> sloped_slope L1 h1 h2 slope = Some a ->
    s_L1 s = L1 /\ s_L2 s = L2 /\ s_dx1 s = dx1 /\ s_dx2 s = dx2 /\ s_H0 s <= s_H1 s /\
    s_H1 s - s_H0 s = L1 * tan (rad a) /\ (h1 <> 0 -> s_H0 s = h1) /\ (h2 <> 0 -> s_H1 s = h2)) /\
  (sloped_truss L1 L2 dx1 dx2 h1 h2 slope = None <->
    (h1 <> 0 /\ h2 <> 0 /\ h2 < h1) \/ ((h1 = 0 \/ h2 = 0) /\ tan (rad slope) < 0)).
Proof.
  intros L1 L2 dx1 dx2 h1 h2 slope HL. unfold sloped_slope, sloped_truss. cbv zeta.
  set (dy := L1 * tan (rad slope)). assert (Dy : dy < 0 <-> tan (rad slope) < 0) by (unfold dy; split; intros; nra).
  destruct (Req_dec h1 0) as [Z|Z]; [rewrite !(eqb_t h1 0) by exact Z|rewrite !(eqb_f h1 0) by exact Z].
  - split; [discriminate|]. destruct (Rlt_dec h2 (h2 - dy)) as [C|C]; [rewrite ltb_t by exact C|rewrite ltb_f by lra].
    + split; [discriminate|]. split; [|reflexivity]. intros _. right. split; [now left|]. apply Dy. lra.
    + split; [|split; [discriminate|intros [(A & _)|(_ & A)]; [contradiction|apply Dy in A; lra]]].
      intros s a E1 E2. inversion E1; inversion E2; subst s a. cbn [s_L1 s_L2 s_dx1 s_dx2 s_H0 s_H1]. unfold dy in *. repeat split; auto; try lra; intros A; contradiction.
  - destruct (Req_dec h2 0) as [Y|Y]; [rewrite !(eqb_t h2 0) by exact Y|rewrite !(eqb_f h2 0) by exact Y].
    + split; [discriminate|]. destruct (Rlt_dec (h1 + dy) h1) as [C|C]; [rewrite ltb_t by exact C|rewrite ltb_f by lra].
      * split; [discriminate|]. split; [|reflexivity]. intros _. right. split; [now right|]. apply Dy. lra.
      * split; [|split; [discriminate|intros [(_ & A & _)|(_ & A)]; [contradiction|apply Dy in A; lra]]].
        intros s a E1 E2. inversion E1; inversion E2; subst s a. cbn [s_L1 s_L2 s_dx1 s_dx2 s_H0 s_H1]. unfold dy in *. repeat split; auto; try lra; intros A; contradiction.
    + rewrite pdiv_ok by lra. cbn [bind]. split; [discriminate|]. destruct (Rlt_dec h2 h1) as [C|C]; [rewrite ltb_t by exact C|rewrite ltb_f by lra].
      * split; [discriminate|]. split; [|reflexivity]. intros _. left. auto.
      * split; [|split; [discriminate|intros [(_ & _ & A)|([A|A] & _)]; [lra|contradiction|contradiction]]].
        intros s a E1 E2. inversion E1; inversion E2; subst s a. cbn [s_L1 s_L2 s_dx1 s_dx2 s_H0 s_H1]. repeat split; auto; try lra.
        unfold rad. replace (atan ((h2 - h1) / L1) * 180 / PI * PI / 180) with (atan ((h2 - h1) / L1)) by (field; pose proof PI_RGT_0; lra).
        rewrite tan_atan. field. lra.
Qed.
(** A steep slope with only the height of the middle given leaves the ends below the bottom chord. *)
Lemma negative_end_lemma : forall L1 L2 dx1 dx2 h2 slope, 0 < L1 -> 0 < h2 -> h2 < L1 * tan (rad slope) ->
  exists s, sloped_truss L1 L2 dx1 dx2 0 h2 slope = Some s /\ s_H0 s < 0.
Proof.
  intros L1 L2 dx1 dx2 h2 slope HL Hh Hs. unfold sloped_truss. cbv zeta. rewrite eqb_t by reflexivity. rewrite ltb_f by lra.
  eexists; split; [reflexivity|]. cbn [s_H0]. lra.
Qed.
