From Verif Require Import Base.
From Verif Require Import Approx_model.

Lemma move_limit_lemma : forall vlb vub L U x y,
  (sub_lb vlb vub L x <= y <-> vlb <= y /\ L + (x - Rabs L) / 10 <= y /\ x - y <= (vub - vlb) / 2) /\
  (y <= sub_ub vlb vub U x <-> y <= vub /\ y <= U - (U - x) / 10 /\ y - x <= (vub - vlb) / 2).
Proof.
  intros. unfold sub_lb, sub_ub. split.
  - split; [intros H|intros (A & B & C); repeat apply Rmax_lub; lra].
    pose proof (Rmax_l (Rmax vlb (L + 1 / 10 * (x - Rabs L))) (x - 1 / 2 * (vub - vlb))). pose proof (Rmax_r (Rmax vlb (L + 1 / 10 * (x - Rabs L))) (x - 1 / 2 * (vub - vlb))).
    pose proof (Rmax_l vlb (L + 1 / 10 * (x - Rabs L))). pose proof (Rmax_r vlb (L + 1 / 10 * (x - Rabs L))). lra.
  - split; [intros H|intros (A & B & C); repeat apply Rmin_glb; lra].
    pose proof (Rmin_l (Rmin vub (U - 1 / 10 * (U - x))) (x + 1 / 2 * (vub - vlb))). pose proof (Rmin_r (Rmin vub (U - 1 / 10 * (U - x))) (x + 1 / 2 * (vub - vlb))).
    pose proof (Rmin_l vub (U - 1 / 10 * (U - x))). pose proof (Rmin_r vub (U - 1 / 10 * (U - x))). lra.
Qed.
