Require Import Reals List Bool Lra Lia Psatz PeanoNat. Import ListNotations.
From Verif Require Import Base EC3_model Bool_tac EC3_proofs Plate_proofs Sections_proofs.
From Verif Require Import Epo_model Epo_spec.
Local Open Scope R_scope.

Lemma epo_dot_app a b x y : length a = length x -> dot (a ++ b) (x ++ y) = dot a x + dot b y.
Proof.
  revert x. induction a as [|u a IH]; intros [|v x] L; try discriminate; cbn [app dot]; [ring|].
  rewrite IH by (cbn in L; lia). ring.
Qed.
(** names of the row variables of an extended end plate *)
Lemma row_vars_names j i zub rs : Forall (fun r => er_shear r = false /\ er_outside r = false) rs ->
  map v_name (row_vars j i zub rs) = map Nz (seq (S i) (length rs)).
Proof.
  intros F. revert i zub. induction F as [|r rs [S O] F IH]; intros i zub; cbn [row_vars]; [reflexivity|].
  rewrite S, O. cbn. f_equal. apply IH.
Qed.
Lemma row_vars_out j i zub r rs : er_outside r = true -> row_vars j i zub (r :: rs) = row_vars j (S i) zub rs.
Proof. intros O. cbn [row_vars]. rewrite O, andb_false_r. reflexivity. Qed.
Lemma coef_name p c q vs : map (coef p c q) vs = map (fun n => if vname_eqb n p then c else if vname_eqb n q then -1 else 0) (map v_name vs).
Proof. rewrite map_map. reflexivity. Qed.
Lemma dot_ind c i m s zs : length zs = m ->
  dot (map (fun k => if Nat.eqb k i then c else 0) (seq s m)) zs = if andb (Nat.leb s i) (Nat.ltb i (s + m)) then c * nth (i - s) zs 0 else 0.
Proof.
  revert s m. induction zs as [|z zs IH]; intros s m L; destruct m as [|m]; try discriminate; cbn [seq map dot].
  - replace (Nat.leb s i && Nat.ltb i (s + 0))%bool with false; [reflexivity|]. symmetry. apply andb_false_iff.
    destruct (Nat.leb_spec s i); [right; apply Nat.ltb_ge; lia|left; reflexivity].
  - rewrite IH by (cbn in L; lia). destruct (Nat.eqb_spec s i) as [<-|N].
    + replace (Nat.leb (S s) s) with false by (symmetry; apply Nat.leb_gt; lia). cbn [andb].
      replace (Nat.leb s s && Nat.ltb s (s + S m))%bool with true; [replace (s - s)%nat with 0%nat by lia; cbn [nth]; ring|].
      symmetry. apply andb_true_iff. split; [apply Nat.leb_le; lia|apply Nat.ltb_lt; lia].
    + destruct (Nat.leb_spec s i) as [A|A], (Nat.leb_spec (S s) i) as [B|B]; try lia; cbn [andb]; [|ring].
      replace (S s + m)%nat with (s + S m)%nat by lia. destruct (Nat.ltb i (s + S m)); [|ring].
      replace (i - s)%nat with (S (i - S s)) by lia. cbn [nth]. ring.
Qed.
Lemma dot_pair a b s m zs : length zs = m -> a <> b -> (s <= a)%nat -> (a < s + m)%nat -> (s <= b)%nat -> (b < s + m)%nat ->
  dot (map (fun k => if Nat.eqb k a then 1 else if Nat.eqb k b then -1 else 0) (seq s m)) zs = nth (a - s) zs 0 - nth (b - s) zs 0.
Proof.
  intros L N A1 A2 B1 B2.
  assert (X : forall l zs, length zs = length l -> dot (map (fun k => if Nat.eqb k a then 1 else if Nat.eqb k b then -1 else 0) l) zs
    = dot (map (fun k => if Nat.eqb k a then 1 else 0) l) zs + dot (map (fun k => if Nat.eqb k b then -1 else 0) l) zs).
  { induction l as [|k l IH]; intros [|z us] E; try discriminate; cbn [map dot]; [ring|]. rewrite IH by (cbn in E; lia).
    destruct (Nat.eqb_spec k a) as [->|Na]; [|ring]. replace (Nat.eqb a b) with false; [ring|]. symmetry. apply Nat.eqb_neq, N. }
  rewrite X by (rewrite seq_length; exact L). rewrite !dot_ind by exact L.
  replace (Nat.leb s a && Nat.ltb a (s + m))%bool with true by (symmetry; apply andb_true_iff; split; [apply Nat.leb_le|apply Nat.ltb_lt]; lia).
  replace (Nat.leb s b && Nat.ltb b (s + m))%bool with true by (symmetry; apply andb_true_iff; split; [apply Nat.leb_le|apply Nat.ltb_lt]; lia).
  ring.
Qed.
(** the heights satisfy the row constraints exactly when they are spaced *)
Lemma spaced_nth g l : spaced g l <-> forall i, (1 <= i < length l)%nat -> g <= nth (i - 1) l 0 - nth i l 0.
Proof.
  induction l as [|a l IH]; [split; [intros _ i Hi; cbn in Hi; lia|intros _; exact I]|].
  destruct l as [|b l]; [split; [intros _ i Hi; cbn in Hi; lia|intros _; exact I]|].
  change (spaced g (a :: b :: l)) with (g <= a - b /\ spaced g (b :: l)). rewrite IH. split.
  - intros [A B] i Hi. destruct i as [|[|i]]; [lia|exact A|]. replace (S (S i) - 1)%nat with (S i) by lia.
    change (nth (S i) (a :: b :: l) 0) with (nth i (b :: l) 0). change (nth (S (S i)) (a :: b :: l) 0) with (nth (S i) (b :: l) 0).
    replace i with (S i - 1)%nat at 1 by lia. apply B. cbn in Hi |- *. lia.
  - intros A. split; [apply (A 1%nat); cbn; lia|]. intros i Hi. specialize (A (S i)). replace (S i - 1)%nat with i in A by lia.
    change (nth (S i) (a :: b :: l) 0) with (nth i (b :: l) 0) in A. destruct i as [|i]; [lia|].
    change (nth (S i) (a :: b :: l) 0) with (nth i (b :: l) 0) in A. replace (S i - 1)%nat with i by lia. apply A. cbn in Hi |- *. lia.
Qed.
Definition head_point (ev bv : bool) (tp x et bp : R) : list R := tp :: x :: (if ev then [et] else []) ++ (if bv then [bp] else []).
Definition head_names (ev bv : bool) : list vname := Ntp :: Nx :: (if ev then [Netop] else []) ++ (if bv then [Nbp] else []).
Lemma point_split ev bv tp x et bp z1 zs : point ev bv tp x et bp z1 zs = head_point ev bv tp x et bp ++ z1 :: zs.
Proof. destruct ev, bv; reflexivity. Qed.
Lemma names_split j ev bv r rs : e_rows j = r :: rs -> er_outside r = true ->
  Forall (fun r => er_shear r = false /\ er_outside r = false) rs ->
  map v_name (create_variables j ev bv) = head_names ev bv ++ map Nz (seq 1 (S (length rs))).
Proof.
  intros E O F. unfold create_variables. rewrite E, row_vars_out by exact O.
  destruct ev, bv; cbn [app map v_name head_names]; rewrite row_vars_names by exact F; reflexivity.
Qed.
Lemma dot_con j ev bv r rs tp x et bp z1 zs p c q : e_rows j = r :: rs -> er_outside r = true ->
  Forall (fun r => er_shear r = false /\ er_outside r = false) rs -> length zs = length rs ->
  dot (map (coef p c q) (create_variables j ev bv)) (point ev bv tp x et bp z1 zs) =
  dot (map (fun n => if vname_eqb n p then c else if vname_eqb n q then -1 else 0) (head_names ev bv)) (head_point ev bv tp x et bp) +
  dot (map (fun k => if vname_eqb (Nz k) p then c else if vname_eqb (Nz k) q then -1 else 0) (seq 1 (S (length rs)))) (z1 :: zs).
Proof.
  intros E O F L. rewrite coef_name, (names_split j ev bv r rs E O F), map_app, point_split, epo_dot_app.
  - rewrite map_map. reflexivity.
  - rewrite map_length. destruct ev, bv; reflexivity.
Qed.
Lemma row_con_eq j ev bv r rs tp x et bp z1 zs i : e_rows j = r :: rs -> er_outside r = true ->
  Forall (fun r => er_shear r = false /\ er_outside r = false) rs -> length zs = length rs -> (1 <= i <= length rs)%nat ->
  dot (fst (row_con j (create_variables j ev bv) i)) (point ev bv tp x et bp z1 zs) = nth (i - 1) (z1 :: zs) 0 - nth i (z1 :: zs) 0.
Proof.
  intros E O F L I. unfold row_con. cbn [fst]. rewrite (dot_con j ev bv r rs) by assumption. cbn [vname_eqb].
  rewrite dot_pair by (cbn [length]; lia). replace (S i - 1)%nat with i by lia.
  replace (dot _ (head_point ev bv tp x et bp)) with 0; [ring|]. destruct ev, bv; cbn; ring.
Qed.
Lemma z1_coef c m z1 zs : length zs = m ->
  dot (map (fun k => if vname_eqb (Nz k) Netop then c else if vname_eqb (Nz k) (Nz 1) then -1 else 0) (seq 1 (S m))) (z1 :: zs) = - z1.
Proof.
  intros L. rewrite (map_ext _ (fun k => if Nat.eqb k 1 then -1 else 0)) by (intros k; reflexivity).
  rewrite dot_ind by (cbn; lia). cbn [Nat.leb andb]. replace (Nat.ltb 1 (1 + S m)) with true by (symmetry; apply Nat.ltb_lt; lia). cbn. ring.
Qed.
Lemma top_con_eq j bv r rs tp x et bp z1 zs : e_rows j = r :: rs -> er_outside r = true ->
  Forall (fun r => er_shear r = false /\ er_outside r = false) rs -> length zs = length rs ->
  dot (fst (top_con j (create_variables j true bv))) (point true bv tp x et bp z1 zs) = et - z1.
Proof.
  intros E O F L. unfold top_con. cbn [fst]. rewrite (dot_con j true bv r rs) by assumption. rewrite z1_coef by auto.
  destruct bv; cbn; ring.
Qed.
Lemma edge_con_eq j ev r rs tp x et bp z1 zs : e_rows j = r :: rs -> er_outside r = true ->
  Forall (fun r => er_shear r = false /\ er_outside r = false) rs -> length zs = length rs ->
  dot (fst (edge_con j (create_variables j ev true))) (point ev true tp x et bp z1 zs) = bp / 2 - x.
Proof.
  intros E O F L. unfold edge_con. cbn [fst]. rewrite (dot_con j ev true r rs) by assumption.
  replace (dot (map _ (seq 1 (S (length rs)))) (z1 :: zs)) with 0.
  2:{ cbn [vname_eqb]. generalize (z1 :: zs). generalize (seq 1 (S (length rs))). induction l as [|k l IH]; intros [|u us]; cbn; try ring. rewrite <- IH. ring. }
  destruct ev; cbn; field.
Qed.
Lemma ceil_R_ge x : x <= ceil_R x < x + 1.
Proof. unfold ceil_R. pose proof (floorZ_spec (- x)). lra. Qed.
(** bounds of the rows between the flanges; with the spacing the falling upper bounds are implied *)
Lemma row_bounds j rs : Forall (fun r => er_shear r = false /\ er_outside r = false) rs -> 0 <= e_d0 j -> forall zs i u, length zs = length rs -> spaced (22/10 * e_d0 j) zs ->
  (Forall2 (fun v x => v_lb v <= x <= v_ub v) (row_vars j i u rs) zs <-> Forall (fun z => - z_in j <= z) zs /\ match zs with z :: _ => z <= u | [] => True end).
Proof.
  intros F D. induction F as [|r rs [Sh Ou] F IH]; intros [|z zs] i u L Sp; try discriminate; cbn [row_vars].
  - split; [intros _; auto|intros _; constructor].
  - rewrite Sh, Ou. cbn [negb andb].
    assert (Sp' : spaced (22/10 * e_d0 j) zs) by (destruct zs; [exact I|apply Sp]).
    specialize (IH zs (S i) (u - 22/10 * e_d0 j) ltac:(cbn in L; lia) Sp').
    split.
    + intros X. inversion X as [|? ? ? ? X1 X2]; subst. cbn in X1. apply IH in X2. destruct X2 as [X2 X3]. split; [constructor; [lra|exact X2]|lra].
    + intros [X1 X2]. inversion X1; subst. constructor; [cbn; lra|]. apply IH. split; [assumption|].
      destruct zs as [|z' zs]; [exact I|]. destruct Sp as [Sp _]. lra.
Qed.
Lemma epo_exact_lemma j ev bv tp x et bp z1 zs : extended j -> 0 <= e_d0 j -> length (e_rows j) = S (length zs) ->
  (feasible j ev bv (point ev bv tp x et bp z1 zs) <->
   4 <= tp <= 30 /\ x_min j <= x <= x_max j /\
   (ev = true -> ceil_R (5/10 * e_dw j + sqrt 2 * e_af j + 12/10 * e_d0 j) <= et <= 5 * e_d0 j /\ 12/10 * e_d0 j <= et + e_hb j / 2 - z1) /\
   (bv = true -> e_bb j <= bp <= e_bc j + 100 /\ 12/10 * e_d0 j <= bp / 2 - x /\ e_dw j / 2 <= bp / 2 - x) /\
   ceil_R (5/10 * e_hb j + sqrt 2 * e_af j + 5/10 * e_dw j) <= z1 <= e_hb j / 2 + (if ev then 5 * e_d0 j else e_etop j) /\
   spaced (22/10 * e_d0 j) (z1 :: zs) /\ Forall (fun z => - z_in j <= z) zs /\ match zs with z2 :: _ => z2 <= z_in j | [] => True end).
Proof.
  intros (r & rs & E & Sh & Ou & F) D L. rewrite E in L. cbn in L. assert (L' : length zs = length rs) by lia. clear L.
  assert (G : Forall (fun c => snd c <= dot (fst c) (point ev bv tp x et bp z1 zs)) (geometry j ev bv) <->
    spaced (22/10 * e_d0 j) (z1 :: zs) /\ (ev = true -> 12/10 * e_d0 j <= et + e_hb j / 2 - z1) /\
    (bv = true -> 12/10 * e_d0 j <= bp / 2 - x /\ e_dw j / 2 <= bp / 2 - x)).
  { unfold geometry. rewrite !Forall_app, Forall_flat_map, spaced_nth.
    assert (R1 : Forall (fun i => Forall (fun c => snd c <= dot (fst c) (point ev bv tp x et bp z1 zs))
        (match nth_error (e_rows j) i with Some r => if er_shear r then [] else [row_con j (create_variables j ev bv) i] | None => [] end))
        (seq 1 (length (e_rows j) - 1)) <->
      (forall i, (1 <= i < length (z1 :: zs))%nat -> 22/10 * e_d0 j <= nth (i - 1) (z1 :: zs) 0 - nth i (z1 :: zs) 0)).
    { rewrite Forall_forall. rewrite E. cbn [length]. replace (S (length rs) - 1)%nat with (length rs) by lia.
      assert (N : forall i, (1 <= i <= length rs)%nat -> exists q, nth_error (r :: rs) i = Some q /\ er_shear q = false).
      { intros [|i] Hi; [lia|]. cbn [nth_error]. destruct (nth_error rs i) as [q|] eqn:Q; [|apply nth_error_None in Q; lia].
        exists q. split; [reflexivity|]. apply nth_error_In in Q. rewrite Forall_forall in F. apply (F q Q). }
      split.
      - intros X i Hi. specialize (X i). rewrite in_seq in X. destruct (N i) as (q & Q & Sq); [lia|]. rewrite Q, Sq in X.
        specialize (X ltac:(lia)). apply Forall_inv in X. rewrite (row_con_eq j ev bv r rs) in X by (auto; lia). exact X.
      - intros X i Hi. rewrite in_seq in Hi. destruct (N i) as (q & Q & Sq); [lia|]. rewrite Q, Sq. constructor; [|constructor].
        rewrite (row_con_eq j ev bv r rs) by (auto; lia). apply X. lia. }
    rewrite R1. apply and_iff_compat_l. apply and_iff_compat_l with (A := True) in R1. clear R1.
    assert (T : Forall (fun c => snd c <= dot (fst c) (point ev bv tp x et bp z1 zs)) (if ev then [top_con j (create_variables j ev bv)] else []) <->
      (ev = true -> 12/10 * e_d0 j <= et + e_hb j / 2 - z1)).
    { destruct ev; [|split; [discriminate|constructor]]. split.
      - intros X _. apply Forall_inv in X. rewrite (top_con_eq j bv r rs) in X by auto. cbn in X. lra.
      - intros X. specialize (X eq_refl). constructor; [|constructor]. rewrite (top_con_eq j bv r rs) by auto. cbn. lra. }
    assert (B : Forall (fun c => snd c <= dot (fst c) (point ev bv tp x et bp z1 zs)) (if bv then [edge_con j (create_variables j ev bv)] else []) <->
      (bv = true -> 12/10 * e_d0 j <= bp / 2 - x /\ e_dw j / 2 <= bp / 2 - x)).
    { destruct bv; [|split; [discriminate|constructor]]. 
      pose proof (Rmax_l (12/10 * e_d0 j) (5/10 * e_dw j)). pose proof (Rmax_r (12/10 * e_d0 j) (5/10 * e_dw j)). split.
      - intros X _. apply Forall_inv in X. rewrite (edge_con_eq j ev r rs) in X by auto. cbn in X. lra.
      - intros X. specialize (X eq_refl). constructor; [|constructor]. rewrite (edge_con_eq j ev r rs) by auto. cbn. apply Rmax_lub; lra. }
    rewrite T, B. tauto. }
  unfold feasible. rewrite G. clear G.
  unfold create_variables, point. rewrite E, (row_vars_out j 0 (z_in j) r rs Ou).
  split.
  - intros [Bd (Sp & T & Ed)]. assert (Sp' : spaced (22/10 * e_d0 j) zs) by (destruct zs; [exact I|apply Sp]).
    pose proof (row_bounds j rs F D zs 1%nat (z_in j) L' Sp') as RB.
    destruct ev, bv; cbn [app] in Bd;
    repeat match goal with H : Forall2 _ (_ :: _) (_ :: _) |- _ => inversion H; clear H; subst end; cbn in *;
    match goal with H : Forall2 _ (row_vars _ _ _ _) _ |- _ => apply RB in H; destruct H end;
    repeat match goal with |- _ /\ _ => split end; intros; try discriminate; try assumption; try lra; try (split; [lra|]; try (apply T; reflexivity); try (apply Ed; reflexivity)).
  - intros (Htp & Hx & T & Ed & Hz & Sp & Lo & Up). assert (Sp' : spaced (22/10 * e_d0 j) zs) by (destruct zs; [exact I|apply Sp]).
    pose proof (row_bounds j rs F D zs 1%nat (z_in j) L' Sp') as RB. split; [|split; [exact Sp|split; [intros Q; apply T, Q|intros Q; split; apply Ed, Q]]].
    destruct ev, bv; cbn [app]; try specialize (T eq_refl); try specialize (Ed eq_refl); cbn in Hz;
    repeat (constructor; [cbn; unfold etop_ub; try lra|]); apply RB; split; assumption.
Qed.
Lemma spaced_pair g l : 0 <= g -> spaced g l -> forall i k, (i < k < length l)%nat -> INR (k - i) * g <= nth i l 0 - nth k l 0.
Proof.
  intros G Sp. rewrite spaced_nth in Sp. intros i k. induction k as [|k IH]; intros [A B]; [lia|].
  specialize (Sp (S k) ltac:(lia)). replace (S k - 1)%nat with k in Sp by lia.
  destruct (Nat.eq_dec i k) as [->|N].
  - replace (S k - k)%nat with 1%nat by lia. cbn [INR]. lra.
  - specialize (IH ltac:(lia)). replace (S k - i)%nat with (S (k - i)) by lia. rewrite S_INR. lra.
Qed.
Lemma z_in_le j : z_in j <= e_hb j / 2 - e_tbf j - sqrt 2 * e_af j - e_dw j / 2.
Proof. unfold z_in. pose proof (floorZ_spec (5/10 * e_hb j - e_tbf j - sqrt 2 * e_af j - 5/10 * e_dw j)). lra. Qed.
Lemma epo_clear_lemma j ev bv tp x et bp z1 zs : extended j -> 0 <= e_d0 j -> length (e_rows j) = S (length zs) ->
  feasible j ev bv (point ev bv tp x et bp z1 zs) ->
  (e_tb j / 2 + sqrt 2 * e_aw j <= x - e_dw j / 2 /\ e_tc j / 2 + e_rc j <= x - e_dw j / 2) /\
  (12/10 * e_d0 j <= e_bc j / 2 - x /\ e_dw j / 2 <= e_bc j / 2 - x) /\
  e_hb j / 2 + sqrt 2 * e_af j <= z1 - e_dw j / 2 /\
  (forall z, In z zs -> Rabs z + e_dw j / 2 <= e_hb j / 2 - e_tbf j - sqrt 2 * e_af j) /\
  (forall i k, (i < k < S (length zs))%nat -> INR (k - i) * (22/10 * e_d0 j) <= nth i (z1 :: zs) 0 - nth k (z1 :: zs) 0).
Proof.
  intros Ex D L Fe. apply (epo_exact_lemma j ev bv) in Fe; try assumption.
  destruct Fe as (_ & Hx & _ & _ & Hz & Sp & Lo & Up). unfold x_min, x_max in Hx.
  pose proof (Rmax_l (Rmax (5/10 * e_tb j + sqrt 2 * e_aw j + 5/10 * e_dw j) (5/10 * e_tc j + e_rc j + 5/10 * e_dw j)) (12/10 * e_d0 j)) as M1.
  pose proof (Rmax_l (5/10 * e_tb j + sqrt 2 * e_aw j + 5/10 * e_dw j) (5/10 * e_tc j + e_rc j + 5/10 * e_dw j)) as M2.
  pose proof (Rmax_r (5/10 * e_tb j + sqrt 2 * e_aw j + 5/10 * e_dw j) (5/10 * e_tc j + e_rc j + 5/10 * e_dw j)) as M3.
  pose proof (Rmin_l (5/10 * e_bc j - 12/10 * e_d0 j) (5/10 * e_bc j - 5/10 * e_dw j)) as N1.
  pose proof (Rmin_r (5/10 * e_bc j - 12/10 * e_d0 j) (5/10 * e_bc j - 5/10 * e_dw j)) as N2.
  pose proof (ceil_R_ge (5/10 * e_hb j + sqrt 2 * e_af j + 5/10 * e_dw j)) as C.
  assert (G : 0 <= 22/10 * e_d0 j) by lra.
  split; [split; lra|]. split; [split; lra|]. split; [lra|]. split.
  - intros z I. pose proof (z_in_le j) as Z. rewrite Forall_forall in Lo. specialize (Lo z I).
    assert (U : z <= z_in j).
    { destruct zs as [|z2 zs]; [destruct I|]. apply (In_nth _ _ 0) in I. destruct I as (k & K & <-).
      destruct k as [|k]; [exact Up|]. pose proof (spaced_pair _ _ G Sp 1 (S (S k)) ltac:(cbn in K |- *; lia)) as P.
      change (nth 1 (z1 :: z2 :: zs) 0) with z2 in P. change (nth (S (S k)) (z1 :: z2 :: zs) 0) with (nth (S k) (z2 :: zs) 0) in P.
      pose proof (Rmult_le_pos _ _ (pos_INR (S (S k) - 1)) G). lra. }
    assert (Rabs z <= z_in j) by (apply Rabs_le; lra). lra.
  - intros i k Hk. apply spaced_pair; [exact G|exact Sp|exact Hk].
Qed.
Lemma ceil_within a z : ceil_R a <= z <-> integer_within a z.
Proof.
  pose proof (ceil_R_ge a) as C. split.
  - intros X. exists (- floorZ (- a))%Z. rewrite opp_IZR. change (- IZR (floorZ (- a))) with (ceil_R a). lra.
  - intros (n & A & B). unfold ceil_R in *. pose proof (floorZ_spec (- a)) as F.
    assert (Q : (- n <= floorZ (- a))%Z). { apply Z.lt_succ_r, lt_IZR. unfold Z.succ. rewrite plus_IZR, opp_IZR. lra. }
    apply IZR_le in Q. rewrite opp_IZR in Q. lra.
Qed.
Lemma floor_within v z : z <= IZR (floorZ v) <-> integer_within z v.
Proof.
  pose proof (floorZ_spec v) as F. split.
  - intros X. exists (floorZ v). lra.
  - intros (n & A & B). assert (Q : (n <= floorZ v)%Z). { apply Z.lt_succ_r, lt_IZR. unfold Z.succ. rewrite plus_IZR. lra. }
    apply IZR_le in Q. lra.
Qed.
Lemma epo_feasible_lemma j ev bv tp x et bp z1 zs : extended j -> 0 <= e_d0 j -> length (e_rows j) = S (length zs) ->
  (feasible j ev bv (point ev bv tp x et bp z1 zs) <->
   4 <= tp <= 30 /\
   (e_tb j / 2 + sqrt 2 * e_aw j + e_dw j / 2 <= x /\ e_tc j / 2 + e_rc j + e_dw j / 2 <= x /\ 12/10 * e_d0 j <= x /\
    x <= e_bc j / 2 - 12/10 * e_d0 j /\ x <= e_bc j / 2 - e_dw j / 2) /\
   (ev = true -> integer_within (e_dw j / 2 + sqrt 2 * e_af j + 12/10 * e_d0 j) et /\ et <= 5 * e_d0 j /\ z1 + 12/10 * e_d0 j <= e_hb j / 2 + et) /\
   (bv = true -> e_bb j <= bp <= e_bc j + 100 /\ x + 12/10 * e_d0 j <= bp / 2 /\ x + e_dw j / 2 <= bp / 2) /\
   (integer_within (e_hb j / 2 + sqrt 2 * e_af j + e_dw j / 2) z1 /\ z1 <= e_hb j / 2 + (if ev then 5 * e_d0 j else e_etop j)) /\
   spaced (22/10 * e_d0 j) (z1 :: zs) /\
   Forall (fun z => integer_within (Rabs z) (e_hb j / 2 - e_tbf j - sqrt 2 * e_af j - e_dw j / 2)) zs).
Proof.
  intros Ex D L. rewrite (epo_exact_lemma j ev bv) by assumption. rewrite !ceil_within.
  replace (5/10 * e_dw j + sqrt 2 * e_af j + 12/10 * e_d0 j) with (e_dw j / 2 + sqrt 2 * e_af j + 12/10 * e_d0 j) by lra.
  replace (5/10 * e_hb j + sqrt 2 * e_af j + 5/10 * e_dw j) with (e_hb j / 2 + sqrt 2 * e_af j + e_dw j / 2) by lra.
  assert (X : x_min j <= x <= x_max j <-> (e_tb j / 2 + sqrt 2 * e_aw j + e_dw j / 2 <= x /\ e_tc j / 2 + e_rc j + e_dw j / 2 <= x /\ 12/10 * e_d0 j <= x /\
    x <= e_bc j / 2 - 12/10 * e_d0 j /\ x <= e_bc j / 2 - e_dw j / 2)).
  { unfold x_min, x_max.
    pose proof (Rmax_l (Rmax (5/10 * e_tb j + sqrt 2 * e_aw j + 5/10 * e_dw j) (5/10 * e_tc j + e_rc j + 5/10 * e_dw j)) (12/10 * e_d0 j)) as M1.
    pose proof (Rmax_r (Rmax (5/10 * e_tb j + sqrt 2 * e_aw j + 5/10 * e_dw j) (5/10 * e_tc j + e_rc j + 5/10 * e_dw j)) (12/10 * e_d0 j)) as M4.
    pose proof (Rmax_l (5/10 * e_tb j + sqrt 2 * e_aw j + 5/10 * e_dw j) (5/10 * e_tc j + e_rc j + 5/10 * e_dw j)) as M2.
    pose proof (Rmax_r (5/10 * e_tb j + sqrt 2 * e_aw j + 5/10 * e_dw j) (5/10 * e_tc j + e_rc j + 5/10 * e_dw j)) as M3.
    pose proof (Rmin_l (5/10 * e_bc j - 12/10 * e_d0 j) (5/10 * e_bc j - 5/10 * e_dw j)) as N1.
    pose proof (Rmin_r (5/10 * e_bc j - 12/10 * e_d0 j) (5/10 * e_bc j - 5/10 * e_dw j)) as N2.
    split; [lra|]. intros (A1 & A2 & A3 & A4 & A5). split; [repeat apply Rmax_lub; lra|apply Rmin_glb; lra]. }
  assert (Zi : forall z, - z_in j <= z <= z_in j <-> integer_within (Rabs z) (e_hb j / 2 - e_tbf j - sqrt 2 * e_af j - e_dw j / 2)).
  { intros z. rewrite <- floor_within. unfold z_in. replace (5/10 * e_hb j - e_tbf j - sqrt 2 * e_af j - 5/10 * e_dw j) with (e_hb j / 2 - e_tbf j - sqrt 2 * e_af j - e_dw j / 2) by lra.
    split; [intros W; apply Rabs_le, W|]. intros W. pose proof (Rle_abs z). pose proof (Rle_abs (- z)) as V. rewrite Rabs_Ropp in V. lra. }
  assert (G : 0 <= 22/10 * e_d0 j) by lra.
  assert (Zs : spaced (22/10 * e_d0 j) (z1 :: zs) -> ((Forall (fun z => - z_in j <= z) zs /\ match zs with z2 :: _ => z2 <= z_in j | [] => True end) <->
    Forall (fun z => integer_within (Rabs z) (e_hb j / 2 - e_tbf j - sqrt 2 * e_af j - e_dw j / 2)) zs)).
  { intros Sp. split.
    - intros [Lo Up]. rewrite Forall_forall in Lo |- *. intros z I. apply Zi. split; [apply Lo, I|].
      destruct zs as [|z2 zs]; [destruct I|]. apply (In_nth _ _ 0) in I. destruct I as (k & K & <-).
      destruct k as [|k]; [exact Up|]. pose proof (spaced_pair _ _ G Sp 1 (S (S k)) ltac:(cbn in K |- *; lia)) as P.
      change (nth 1 (z1 :: z2 :: zs) 0) with z2 in P. change (nth (S (S k)) (z1 :: z2 :: zs) 0) with (nth (S k) (z2 :: zs) 0) in P.
      pose proof (Rmult_le_pos _ _ (pos_INR (S (S k) - 1)) G). lra.
    - intros A. split; [rewrite Forall_forall in A |- *; intros z I; apply Zi, A, I|].
      destruct zs as [|z2 zs]; [exact I|]. apply Forall_inv in A. apply Zi, A. }
  rewrite X. split.
  - intros (A1 & A2 & A3 & A4 & [A5 A5'] & A6 & A7). split; [exact A1|]. split; [exact A2|]. split; [intros Q; destruct (A3 Q) as [[U V] W]; split; [exact U|lra]|].
    split; [intros Q; destruct (A4 Q) as [U V]; split; [exact U|lra]|]. split; [split; assumption|]. split; [exact A6|]. apply (Zs A6), A7.
  - intros (A1 & A2 & A3 & A4 & [A5 A5'] & A6 & A7). split; [exact A1|]. split; [exact A2|]. split; [intros Q; destruct (A3 Q) as (U & V & W); split; [split; assumption|lra]|].
    split; [intros Q; destruct (A4 Q) as [U V]; split; [exact U|lra]|]. split; [split; assumption|]. split; [exact A6|]. apply (Zs A6), A7.
Qed.
Lemma clip_id lo hi x : lo <= x <= hi -> Rmax lo (Rmin x hi) = x.
Proof. intros [A B]. rewrite Rmin_left by lra. apply Rmax_right. lra. Qed.
Lemma set_row_mid j i pre r rs z : e_rows j = pre ++ r :: rs -> length pre = i ->
  e_rows (set_row j i z) = (pre ++ [mkER (er_shear r) (er_outside r) z]) ++ rs.
Proof.
  intros E L. unfold set_row. cbn [e_rows]. rewrite E. rewrite nth_error_app2 by lia. rewrite L, Nat.sub_diag. cbn [nth_error].
  rewrite <- app_assoc. cbn [app]. subst i. clear E. induction pre as [|p pre IH]; cbn; [reflexivity|]. f_equal. exact IH.
Qed.
Definition frame (j : epj) : list R := [e_etop j; e_bp j; e_x j; e_eb j; e_tp j; e_hp j].
Lemma sub_rows j0 rs : Forall (fun r => er_shear r = false /\ er_outside r = false) rs -> forall zs i u j pre,
  Forall2 (fun v x => v_lb v <= x <= v_ub v) (row_vars j0 i u rs) zs -> e_rows j = pre ++ rs -> length pre = i ->
  map er_z (e_rows (substitute_values j (row_vars j0 i u rs) zs)) = map er_z pre ++ zs /\
  frame (substitute_values j (row_vars j0 i u rs) zs) = frame j.
Proof.
  intros F. induction F as [|r rs [Sh Ou] F IH]; intros zs i u j pre B E L; cbn [row_vars] in *.
  - inversion B; subst. cbn [substitute_values]. rewrite E, app_nil_r, app_nil_r. auto.
  - rewrite Sh, Ou in *. cbn [negb andb] in *. inversion B as [|v z vs zs' Bz Bs]; subst. cbn [v_lb v_ub] in Bz.
    cbn [substitute_values v_lb v_ub]. rewrite (clip_id _ _ z Bz). unfold write. cbn [v_name v_row].
    destruct (IH zs' (S (length pre)) (u - 22/10 * e_d0 j0) (set_row j (length pre) z) (pre ++ [mkER (er_shear r) (er_outside r) z]) Bs) as [P Q].
    + apply set_row_mid; [exact E|reflexivity].
    + rewrite app_length. cbn. lia.
    + rewrite P, Q. split; [|reflexivity]. rewrite map_app, <- app_assoc. reflexivity.
Qed.
Definition st (j : epj) (rows : list erow) (etop bp x eb tp hp ebot hb : R) : Prop :=
  e_rows j = rows /\ e_etop j = etop /\ e_bp j = bp /\ e_x j = x /\ e_eb j = eb /\ e_tp j = tp /\ e_hp j = hp /\ e_ebot j = ebot /\ e_hb j = hb.
Lemma st_tp j rows etop bp x eb tp hp ebot hb l u k y : st j rows etop bp x eb tp hp ebot hb -> st (write j (mkEV Ntp l u k) y) rows etop bp x eb y hp ebot hb.
Proof. intros (?&?&?&?&?&?&?&?&?). unfold st, write. cbn. subst. intuition. Qed.
Lemma st_x j rows etop bp x eb tp hp ebot hb l u k y : st j rows etop bp x eb tp hp ebot hb -> st (write j (mkEV Nx l u k) y) rows etop bp y (5/10 * bp - y) tp hp ebot hb.
Proof. intros (?&?&?&?&?&?&?&?&?). unfold st, write. cbn. subst. intuition. Qed.
Lemma st_etop j rows etop bp x eb tp hp ebot hb l u k y : st j rows etop bp x eb tp hp ebot hb -> st (write j (mkEV Netop l u k) y) rows y bp x eb tp (y + ebot + hb) ebot hb.
Proof. intros (?&?&?&?&?&?&?&?&?). unfold st, write. cbn. subst. intuition. Qed.
Lemma st_bp j rows etop bp x eb tp hp ebot hb l u k y : st j rows etop bp x eb tp hp ebot hb -> st (write j (mkEV Nbp l u k) y) rows etop y x eb tp hp ebot hb.
Proof. intros (?&?&?&?&?&?&?&?&?). unfold st, write. cbn. subst. intuition. Qed.
Lemma st_z1 j r rs etop bp x eb tp hp ebot hb l u n y : st j (r :: rs) etop bp x eb tp hp ebot hb ->
  st (write j (mkEV (Nz n) l u 0) y) ([mkER (er_shear r) (er_outside r) y] ++ rs) etop bp x eb tp hp ebot hb.
Proof.
  intros (A&?&?&?&?&?&?&?&?). split; [unfold write; cbn [v_name v_row]; apply (set_row_mid _ 0 [] r rs); [exact A|reflexivity]|].
  unfold write. cbn. subst. intuition.
Qed.
Lemma st_rows j0 rs i u J pre etop bp x eb tp hp ebot hb zs : Forall (fun r => er_shear r = false /\ er_outside r = false) rs ->
  st J (pre ++ rs) etop bp x eb tp hp ebot hb -> length pre = i ->
  Forall2 (fun v x => v_lb v <= x <= v_ub v) (row_vars j0 i u rs) zs ->
  let j' := substitute_values J (row_vars j0 i u rs) zs in
  map er_z (e_rows j') = map er_z pre ++ zs /\ e_tp j' = tp /\ e_x j' = x /\ e_bp j' = bp /\ e_etop j' = etop /\ e_hp j' = hp /\ e_eb j' = eb.
Proof.
  intros F (A&?&?&?&?&?&?&?&?) L B j'. destruct (sub_rows j0 rs F zs i u J pre B A L) as [P Q]. fold j' in P, Q. clearbody j'.
  unfold frame in Q. injection Q as Q1 Q2 Q3 Q4 Q5 Q6. subst. tauto.
Qed.
Lemma epo_subst_lemma j ev bv tp x et bp z1 zs : extended j -> 0 <= e_d0 j -> length (e_rows j) = S (length zs) ->
  feasible j ev bv (point ev bv tp x et bp z1 zs) ->
  let j' := substitute_values j (create_variables j ev bv) (point ev bv tp x et bp z1 zs) in
  map er_z (e_rows j') = z1 :: zs /\ e_tp j' = tp /\ e_x j' = x /\ e_bp j' = (if bv then bp else e_bp j) /\
  e_etop j' = (if ev then et else e_etop j) /\ e_hp j' = (if ev then et + e_ebot j + e_hb j else e_hp j) /\
  e_eb j' = e_bp j / 2 - x.
Proof.
  intros (r & rs & E & Sh & Ou & F) D L [B _]. replace (e_bp j / 2 - x) with (5/10 * e_bp j - x) by lra.
  unfold create_variables, point in *.
  rewrite E, (row_vars_out j 0 (z_in j) r rs Ou) in *.
  assert (S0 : st j (r :: rs) (e_etop j) (e_bp j) (e_x j) (e_eb j) (e_tp j) (e_hp j) (e_ebot j) (e_hb j)) by (unfold st; rewrite E; intuition).
  destruct ev, bv; cbn [app] in *;
  repeat match goal with H : Forall2 _ (_ :: _) (_ :: _) |- _ => inversion H; clear H; subst end; cbn [v_lb v_ub] in *;
  cbn [substitute_values v_lb v_ub]; rewrite !clip_id by assumption;
  (apply (st_rows _ _ _ _ _ [mkER (er_shear r) (er_outside r) z1] _ _ _ _ _ _ (e_ebot j) (e_hb j)); [exact F| |reflexivity|assumption]); apply st_z1.
  - apply st_bp with (bp := e_bp j), st_etop with (etop := e_etop j) (hp := e_hp j), st_x with (x := e_x j) (eb := e_eb j), st_tp with (tp := e_tp j), S0.
  - apply st_etop with (etop := e_etop j) (hp := e_hp j), st_x with (x := e_x j) (eb := e_eb j), st_tp with (tp := e_tp j), S0.
  - apply st_bp with (bp := e_bp j), st_x with (x := e_x j) (eb := e_eb j), st_tp with (tp := e_tp j), S0.
  - apply st_x with (x := e_x j) (eb := e_eb j), st_tp with (tp := e_tp j), S0.
Qed.
Lemma eb_sub vs : Forall (fun v => v_name v <> Nx) vs -> forall J xs, e_eb (substitute_values J vs xs) = e_eb J.
Proof.
  intros F. induction F as [|v vs N F IH]; intros J [|y ys]; cbn [substitute_values]; try reflexivity.
  rewrite IH. unfold write. destruct (v_name v); try reflexivity. congruence.
Qed.
Lemma row_vars_nx j i u rs : Forall (fun v => v_name v <> Nx) (row_vars j i u rs).
Proof.
  revert i u. induction rs as [|r rs IH]; intros i u; cbn [row_vars]; [constructor|]. destruct (andb _ _); [|apply IH].
  constructor; [discriminate|apply IH].
Qed.
Lemma eb_write J l u k a l' u' k' b vs xs : l' <= b <= u' -> Forall (fun v => v_name v <> Nx) vs ->
  e_eb (substitute_values J (mkEV Ntp l u k :: mkEV Nx l' u' k' :: vs) (a :: b :: xs)) = 5/10 * e_bp J - b.
Proof. intros B F. cbn [substitute_values]. rewrite eb_sub by exact F. cbn [v_lb v_ub]. rewrite (clip_id l' u' b B). reflexivity. Qed.
Lemma epo_again_lemma j ev bv tp x et bp z1 zs : extended j -> 0 <= e_d0 j -> length (e_rows j) = S (length zs) ->
  feasible j ev bv (point ev bv tp x et bp z1 zs) ->
  let vs := create_variables j ev bv in let p := point ev bv tp x et bp z1 zs in
  e_eb (substitute_values (substitute_values j vs p) vs p) = (if bv then bp else e_bp j) / 2 - x.
Proof.
  intros Ex D L Fe. cbv zeta. destruct (epo_subst_lemma j ev bv tp x et bp z1 zs Ex D L Fe) as (_ & _ & _ & Hb & _).
  set (j1 := substitute_values j _ _) in *. clearbody j1. rewrite <- Hb. destruct Fe as [B _]. unfold create_variables, point in *.
  destruct ev, bv; cbn [app] in *;
  (inversion B as [|? ? ? ? B1 B2]; subst; inversion B2 as [|? ? ? ? B3 B4]; subst; clear B B2 B4; cbn [v_lb v_ub] in *;
   rewrite eb_write; [lra|assumption|];
   repeat (constructor; [discriminate|]); apply row_vars_nx).
Qed.
(** examples *)
Definition ep_in (z : R) : erow := mkER false false z.
Definition ep0 : epj := mkEP 300 150 7 11 200 9 18 5 4 22 38 10 [mkER false true 190; ep_in 80; ep_in (-80)] 80 200 60 40 20 390.
Definition ep_narrow : epj := mkEP 300 150 7 11 200 9 18 5 4 22 38 10 [mkER false true 190; ep_in 80; ep_in (-80)] 80 150 60 15 20 390.
Definition ep_flush : epj := mkEP 300 150 7 11 200 9 18 5 4 22 38 10 [ep_in 80; ep_in (-80)] 80 200 60 40 20 390.
Lemma sqrt2_b : 14/10 < sqrt 2 < 15/10.
Proof.
  split; [apply Rsqr_incrst_0; try (apply sqrt_pos); try lra|apply Rsqr_incrst_0; try (apply sqrt_pos); try lra];
  rewrite Rsqr_sqrt by lra; unfold Rsqr; lra.
Qed.
Lemma ep_ext rs : Forall (fun r => er_shear r = false /\ er_outside r = false) (map ep_in rs).
Proof. induction rs; constructor; auto. Qed.
Lemma ep_x bp et eb : let j := mkEP 300 150 7 11 200 9 18 5 4 22 38 10 [mkER false true 190; ep_in 80; ep_in (-80)] et bp 60 eb 20 390 in
  extended j /\ x_min j <= 60 /\ 72 <= x_max j /\ 111 <= z_in j /\ ceil_R (5/10 * e_hb j + sqrt 2 * e_af j + 5/10 * e_dw j) <= 178 /\
  ceil_R (5/10 * e_dw j + sqrt 2 * e_af j + 12/10 * e_d0 j) <= 54.
Proof.
  intros j. pose proof sqrt2_b. split; [exists (mkER false true 190), [ep_in 80; ep_in (-80)]; split; [reflexivity|]; split; [reflexivity|]; split; [reflexivity|apply (ep_ext [80; -80])]|].
  split; [unfold x_min; subst j; cbn; repeat apply Rmax_lub; lra|]. split; [unfold x_max; subst j; cbn; apply Rmin_glb; lra|].
  split; [unfold z_in; subst j; cbn; match goal with |- context [floorZ ?v] => pose proof (floorZ_spec v) end; lra|].
  split; match goal with |- ceil_R ?v <= _ => pose proof (ceil_R_ge v) end; subst j; cbn in *; lra.
Qed.
Lemma epo_case : extended ep0 /\ 0 <= e_d0 ep0 /\ feasible ep0 true true (point true true 20 60 80 250 190 [80; -80]).
Proof.
  destruct (ep_x 200 80 40) as (Ex & X1 & X2 & Z & C1 & C2). fold ep0 in *. split; [exact Ex|]. split; [cbn; lra|].
  apply (epo_exact_lemma ep0 true true); [exact Ex|cbn; lra|reflexivity|].
  split; [lra|]. split; [lra|]. split; [intros _; split; [split; [lra|cbn; lra]|cbn; lra]|].
  split; [intros _; split; [cbn; lra|split; cbn; lra]|]. split; [split; [lra|cbn; lra]|].
  split; [cbn; lra|]. split; [repeat (constructor; [lra|]); constructor|lra].
Qed.
Lemma epo_edge_lemma : exists j tp x z1 zs, extended j /\ 0 < e_d0 j /\ length (e_rows j) = S (length zs) /\
  feasible j false false (point false false tp x 0 0 z1 zs) /\ e_hb j / 2 + e_etop j - z1 = 0.
Proof.
  destruct (ep_x 200 80 40) as (Ex & X1 & X2 & Z & C1 & C2). fold ep0 in *.
  exists ep0, 20, 60, 230, [80; -80]. split; [exact Ex|]. split; [cbn; lra|]. split; [reflexivity|]. split; [|cbn; lra].
  apply (epo_exact_lemma ep0 false false); [exact Ex|cbn; lra|reflexivity|].
  split; [lra|]. split; [lra|]. split; [discriminate|]. split; [discriminate|]. split; [split; [lra|cbn; lra]|].
  split; [cbn; lra|]. split; [repeat (constructor; [lra|]); constructor|lra].
Qed.
Lemma epo_width_lemma : exists j tp x z1 zs, extended j /\ 0 < e_d0 j /\ e_bb j <= e_bp j /\ length (e_rows j) = S (length zs) /\
  feasible j false false (point false false tp x 0 0 z1 zs) /\ e_bp j / 2 - x < e_d0 j / 2.
Proof.
  destruct (ep_x 150 80 15) as (Ex & X1 & X2 & Z & C1 & C2). fold ep_narrow in *.
  exists ep_narrow, 20, 72, 190, [80; -80]. split; [exact Ex|]. split; [cbn; lra|]. split; [cbn; lra|]. split; [reflexivity|]. split; [|cbn; lra].
  apply (epo_exact_lemma ep_narrow false false); [exact Ex|cbn; lra|reflexivity|].
  split; [lra|]. split; [lra|]. split; [discriminate|]. split; [discriminate|]. split; [split; [lra|cbn; lra]|].
  split; [cbn; lra|]. split; [repeat (constructor; [lra|]); constructor|lra].
Qed.
Lemma epo_stale_lemma : exists j tp x et bp z1 zs, extended j /\ 0 < e_d0 j /\ length (e_rows j) = S (length zs) /\
  feasible j true true (point true true tp x et bp z1 zs) /\
  let j1 := substitute_values j (create_variables j true true) (point true true tp x et bp z1 zs) in
  e_eb j1 <> e_bp j1 / 2 - e_x j1.
Proof.
  destruct epo_case as (Ex & D & Fe). exists ep0, 20, 60, 80, 250, 190, [80; -80].
  split; [exact Ex|]. split; [cbn; lra|]. split; [reflexivity|]. split; [exact Fe|].
  destruct (epo_subst_lemma ep0 true true 20 60 80 250 190 [80; -80] Ex D eq_refl Fe) as (_ & _ & Hx & Hb & _ & _ & He).
  cbv zeta in *. rewrite Hx, Hb, He. cbn. lra.
Qed.
Lemma rows_write J l u n i y : e_rows (write J (mkEV (Nz n) l u i) y) =
  match nth_error (e_rows J) i with Some r => set_nth i (mkER (er_shear r) (er_outside r) y) (e_rows J) | None => e_rows J end.
Proof. reflexivity. Qed.
Lemma rows_write' J l u k y : e_rows (write J (mkEV Ntp l u k) y) = e_rows J /\ e_rows (write J (mkEV Nx l u k) y) = e_rows J.
Proof. split; reflexivity. Qed.
Lemma epo_flush_lemma : exists j xs, 0 < e_d0 j /\ Forall (fun r => er_shear r = false /\ er_outside r = false) (e_rows j) /\
  ~ NoDup (map v_name (create_variables j false false)) /\ feasible j false false xs /\
  map er_z (e_rows (substitute_values j (create_variables j false false) xs)) = [50; 50].
Proof.
  pose proof sqrt2_b as Q. exists ep_flush, [20; 60; 190; 50; 50]. split; [cbn; lra|]. split; [apply (ep_ext [80; -80])|].
  assert (V : create_variables ep_flush false false = [mkEV Ntp 4 30 0; mkEV Nx (x_min ep_flush) (x_max ep_flush) 0;
    mkEV (Nz 1) (ceil_R (5/10 * 300 + sqrt 2 * 5 + 5/10 * 38)) (5/10 * 300 + 80) 0; mkEV (Nz 1) (- z_in ep_flush) (z_in ep_flush) 0;
    mkEV (Nz 2) (- z_in ep_flush) (z_in ep_flush - 22/10 * 22) 1]) by reflexivity.
  assert (X : x_min ep_flush <= 60 <= x_max ep_flush) by (unfold x_min, x_max; cbn; split; [repeat apply Rmax_lub; lra|apply Rmin_glb; lra]).
  assert (Z : 111 <= z_in ep_flush) by (unfold z_in; cbn; match goal with |- context [floorZ ?v] => pose proof (floorZ_spec v) end; lra).
  pose proof (ceil_R_ge (5/10 * 300 + sqrt 2 * 5 + 5/10 * 38)) as C.
  assert (B : Forall2 (fun v x => v_lb v <= x <= v_ub v) (create_variables ep_flush false false) [20; 60; 190; 50; 50]).
  { rewrite V. repeat (constructor; [cbn; lra|]). constructor. }
  split; [|split].
  - rewrite V. cbn. intros ND. inversion ND as [|? ? _ N1]; inversion N1 as [|? ? _ N2]; inversion N2 as [|? ? N3 _]. apply N3. left. reflexivity.
  - split; [exact B|]. unfold geometry. rewrite V. cbn. constructor; [cbn; lra|constructor].
  - rewrite V in *. repeat match goal with H : Forall2 _ (_ :: _) (_ :: _) |- _ => inversion H; clear H; subst end. cbn [v_lb v_ub] in *.
    cbn [substitute_values v_lb v_ub]. rewrite !clip_id by assumption. rewrite !rows_write.
    rewrite (proj2 (rows_write' _ _ _ _ _)), (proj1 (rows_write' _ _ _ _ _)). reflexivity.
Qed.
