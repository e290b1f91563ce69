(** * Small specification vocabulary for the log-barrier solver. *)
From Coq Require Import Reals List Arith.
From Verif Require Export S_Vec.
Local Open Scope R_scope.

(** A is linear from vectors of length m to vectors of length n *)
Definition linmap (m n : nat) (A : list R -> list R) : Prop :=
  (forall u, length u = m -> length (A u) = n) /\
  (forall a u v, length u = m -> length v = m ->
     forall i, (i < n)%nat -> nth i (A (vlin a u 1 v)) 0 = a * nth i (A u) 0 + nth i (A v) 0).
(** B is the adjoint of A *)
Definition adjoint (m n : nat) (A B : list R -> list R) : Prop :=
  (forall y, length y = n -> length (B y) = m) /\
  forall x y, length x = m -> length y = n -> dot (A x) y = dot x (B y).
(** A x - b *)
Definition resid (A : list R -> list R) (b x : list R) : list R := vlin 1 (A x) (-1) b.
(** |x_i| < u_i for all i and ||A x - b||_2 < eps *)
Definition strictly_feasible (A : list R -> list R) (b : list R) (eps : R) (x u : list R) : Prop :=
  (forall i, (i < length x)%nat -> Rabs (nth i x 0) < nth i u 0) /\ nrm2 (resid A b x) < eps.
(** the log-barrier objective: the constraints are x - u < 0, -x - u < 0 and (||Ax-b||^2 - eps^2)/2 < 0 *)
Definition barrier (A : list R -> list R) (b : list R) (eps tau : R) (x u : list R) : R :=
  Rsum (length x) (fun i => nth i u 0) -
  1 / tau * (Rsum (length x) (fun i => ln (nth i u 0 - nth i x 0)) +
             Rsum (length x) (fun i => ln (nth i u 0 + nth i x 0)) +
             ln ((eps * eps - nrm2sq (resid A b x)) / 2)).
(** x + t d *)
Definition along (x d : list R) (t : R) : list R := vlin t d 1 x.
(** (g, h) is the gradient of f at (x, u): it gives every directional derivative *)
Definition is_gradient (f : list R -> list R -> R) (x u g h : list R) : Prop :=
  length g = length x /\ length h = length x /\
  forall d e, length d = length x -> length e = length x ->
    derivable_pt_lim (fun t => f (along x d t) (along u e t)) 0 (dot g d + dot h e).
(** (d, e) is the Newton direction of f at (x, u): moving along it the gradient of f, wherever it is
    defined, changes at the rate that cancels it; this is H (d,e) = - gradient for the Hessian H *)
Definition newton_direction (m : nat) (dom : list R -> list R -> Prop) (f : list R -> list R -> R) (x u d e : list R) : Prop :=
  forall G H : list R -> list R -> list R,
    (forall y v, length y = m -> length v = m -> dom y v -> is_gradient f y v (G y v) (H y v)) ->
    forall i, (i < m)%nat ->
      derivable_pt_lim (fun t => nth i (G (along x d t) (along u e t)) 0) 0 (- nth i (G x u) 0) /\
      derivable_pt_lim (fun t => nth i (H (along x d t) (along u e t)) 0) 0 (- nth i (H x u) 0).
