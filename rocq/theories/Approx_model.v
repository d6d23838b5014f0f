(** Model of the separable approximations CONLIN and MMA, of the asymptote
    update and of the bounds of the MMA sub-problem.
    Sources: metku/optimization/opt_functions.py, solvers/mma.py, structopt.py. *)
From Verif Require Export Base.

(** numpy elementwise operations on two vectors of equal length
    (opt_functions.py:88, 172, 175; mma.py:140-150). *)
Fixpoint vmap2 (f : R -> R -> R) (a b : list R) : list R :=
  match a, b with
  | x :: a', y :: b' => f x y :: vmap2 f a' b'
  | _, _ => []
  end.

(** numpy elementwise operation on three vectors of equal length
    (opt_functions.py:110-115, 158-164). *)
Fixpoint vmap3 (f : R -> R -> R -> R) (a b c : list R) : list R :=
  match a, b, c with
  | x :: a', y :: b', z :: c' => f x y z :: vmap3 f a' b' c'
  | _, _, _ => []
  end.

(** opt_functions.py:82-86 -- the coefficients a[i] computed by eval_conlin. *)
Definition conlin_a (xk dfk x : list R) : list R :=
  vmap3 (fun xki di xi => if Rle_dec 0 di then 1 else xki / xi) xk dfk x.

(** opt_functions.py:77-90 conlin_fun / eval_conlin:
    fC = fk + (a*dfk).dot(x - xk).  Scalars are vectors of length one (l.55). *)
Definition conlin (xk : list R) (fk : R) (dfk x : list R) : R :=
  fk + dot (vmap2 Rmult (conlin_a xk dfk x) dfk) (vmap2 Rminus x xk).

(** opt_functions.py:109-112 and 158-161 -- the constants p. *)
Definition mma_p (xk dfk U : list R) : list R :=
  vmap3 (fun X d u => if Rle_dec 0 d then (u - X) ^ 2 * d else 0) xk dfk U.
(** opt_functions.py:113-114 and 162-163 -- the constants q. *)
Definition mma_q (xk dfk L : list R) : list R :=
  vmap3 (fun X d l => if Rle_dec 0 d then 0 else - (X - l) ^ 2 * d) xk dfk L.

(** opt_functions.py:117, 121: sum(p/(U-x) + q/(x-L)). *)
Definition mma_sum (p q L U x : list R) : R :=
  Rsum (vmap2 Rplus (vmap3 (fun pi u xi => pi / (u - xi)) p U x)
                    (vmap3 (fun qi l xi => qi / (xi - l)) q L x)).

(** opt_functions.py:95-123 mma_fun and 127-172 MMAFunction.__call__ (the two
    implementations are the same formulas). *)
Definition mma (xk : list R) (fk : R) (dfk L U x : list R) : R :=
  let p := mma_p xk dfk U in
  let q := mma_q xk dfk L in
  (fk - mma_sum p q L U xk) + mma_sum p q L U x.

(** opt_functions.py:174-175 MMAFunction.grad. *)
Definition mma_grad (xk dfk L U x : list R) : list R :=
  vmap2 Rminus (vmap3 (fun pi u xi => pi / (u - xi) ^ 2) (mma_p xk dfk U) U x)
               (vmap3 (fun qi l xi => qi / (xi - l) ^ 2) (mma_q xk dfk L) L x).

(** mma.py:98-106 MMA.gamma, one component. *)
Definition gamma1 (xk xk1 xk2 : R) : R :=
  let x := (xk - xk1) * (xk1 - xk2) in
  if Rlt_dec x (- (1 / 1000000)) then 7 / 10
  else if Rlt_dec (1 / 1000000) x then 12 / 10 else 1.
(** mma.py:98-106 MMA.gamma. *)
Definition gamma (xk xk1 xk2 : list R) : list R := vmap3 gamma1 xk xk1 xk2.

(** mma.py:129-131, the lower asymptote before clipping: first two iterations. *)
Definition L_init (xk Dx : list R) : list R := vmap2 (fun x d => x - 1 / 2 * d) xk Dx.
(** mma.py:129-131, the upper asymptote before clipping: first two iterations. *)
Definition U_init (xk Dx : list R) : list R := vmap2 (fun x d => x + 1 / 2 * d) xk Dx.
(** mma.py:137 Lnew = xk - g*(xk1 - L[-1]). *)
Definition L_next (xk xk1 xk2 L1 : list R) : list R :=
  vmap2 Rminus xk (vmap3 (fun g x l => g * (x - l)) (gamma xk xk1 xk2) xk1 L1).
(** mma.py:138 Unew = xk + g*(U[-1] - xk1). *)
Definition U_next (xk xk1 xk2 U1 : list R) : list R :=
  vmap2 Rplus xk (vmap3 (fun g x u => g * (u - x)) (gamma xk xk1 xk2) xk1 U1).

(** mma.py:140 clipping of the lower asymptote. *)
Definition clipL (xk Dx Lnew : list R) : list R :=
  vmap3 (fun x d l => Rmin (Rmax (x - 10 * d) l) (x - 1 / 10 * d)) xk Dx Lnew.
(** mma.py:141 clipping of the upper asymptote. *)
Definition clipU (xk Dx Unew : list R) : list R :=
  vmap3 (fun x d u => Rmin (Rmax (x + 1 / 100 * d) u) (x + 10 * d)) xk Dx Unew.

(** mma.py:91-96 -- the solver's memory; the most recent entry comes first. *)
Record mma_state := mkMMA { s_xvals : list (list R); s_L : list (list R); s_U : list (list R) }.

(** mma.py:120-147, the asymptotes chosen by take_action for variables of
    ranges [Dx]; [None] is an IndexError. *)
Definition asymptotes (Dx : list R) (s : mma_state) : option (list R * list R) :=
  match s_xvals s with
  | [] => None
  | xk :: older =>
      if Nat.leb (length (s_xvals s) - 1) 1 then
        Some (clipL xk Dx (L_init xk Dx), clipU xk Dx (U_init xk Dx))
      else
        match older, s_L s, s_U s with
        | xk1 :: xk2 :: _, L1 :: _, U1 :: _ =>
            Some (clipL xk Dx (L_next xk xk1 xk2 L1), clipU xk Dx (U_next xk xk1 xk2 U1))
        | _, _, _ => None
        end
  end.

(** One iteration of optsolver.py:236-303 with log=True: take_action
    (mma.py:108-162) appends the asymptotes, the sub-problem's answer [xnew]
    (any vector) is appended to xvals.  The point of approximation and the
    asymptotes are emitted. *)
Definition mma_iter (Dx xnew : list R) (s : mma_state)
  : option ((list R * list R * list R) * mma_state) :=
  match asymptotes Dx s with
  | None => None
  | Some (L, U) =>
      Some ((hd [] (s_xvals s), L, U),
            mkMMA (xnew :: s_xvals s) (L :: s_L s) (U :: s_U s))
  end.

(** optsolver.py:225-337 main loop: the records (xk, Lk, Uk) of all iterations. *)
Fixpoint mma_run (Dx : list R) (xs : list (list R)) (s : mma_state)
  : option (list (list R * list R * list R)) :=
  match xs with
  | [] => Some []
  | x :: r =>
      match mma_iter Dx x s with
      | None => None
      | Some (rec, s') => match mma_run Dx r s' with None => None | Some t => Some (rec :: t) end
      end
  end.

(** optsolver.py:217-219: the first stored iterate. *)
Definition mma_start (x0 : list R) : mma_state := mkMMA [x0] [] [].

(** mma.py:57 lower bound of a sub-problem variable. *)
Definition sub_lb (vlb vub L x : R) : R :=
  Rmax (Rmax vlb (L + 1 / 10 * (x - Rabs L))) (x - 1 / 2 * (vub - vlb)).
(** mma.py:58 upper bound of a sub-problem variable. *)
Definition sub_ub (vlb vub U x : R) : R :=
  Rmin (Rmin vub (U - 1 / 10 * (U - x))) (x + 1 / 2 * (vub - vlb)).

(** structopt.py:501 bounds of OptimizationProblem.mma. *)
Definition sub_lb' (mu vlb L x : R) : R := Rmax vlb (L + mu * (x - L)).
(** structopt.py:501 bounds of OptimizationProblem.mma. *)
Definition sub_ub' (mu vub U x : R) : R := Rmin vub (U - mu * (U - x)).
