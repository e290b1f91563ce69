(** * Small specification vocabulary for NESTA. *)
From Coq Require Import Reals List Arith.
From Verif Require Export S_Newt.
Local Open Scope R_scope.

(** ||A x - b||_2 <= sigma *)
Definition feasible (A : list R -> list R) (b : list R) (sigma : R) (x : list R) : Prop := nrm2 (resid A b x) <= sigma.
(** A B = I on vectors of length n: with B = A^T the rows of A are orthonormal *)
Definition unit_rows (n : nat) (A B : list R -> list R) : Prop := forall y, length y = n -> A (B y) = y.
(** (L/2) ||x - xx||^2 + <g, x> *)
Definition prox (L : R) (xx g x : list R) : R := L / 2 * nrm2sq (vlin 1 x (-1) xx) + dot g x.
(** <u, w> - (mu/2) ||u||^2 *)
Definition dual_value (mu : R) (w u : list R) : R := dot u w - mu / 2 * nrm2sq u.
(** |u_i| <= 1 for all i *)
Definition in_box (u : list R) : Prop := forall i, (i < length u)%nat -> Rabs (nth i u 0) <= 1.
(** the largest dual value: the smoothed 1-norm of w *)
Definition is_smooth_norm (mu : R) (w : list R) (v : R) : Prop :=
  (exists u, length u = length w /\ in_box u /\ v = dual_value mu w u) /\
  (forall u, length u = length w -> in_box u -> dual_value mu w u <= v).
(** g is the gradient of f at x *)
Definition gradient_at (f : list R -> R) (x g : list R) : Prop :=
  length g = length x /\ forall d, length d = length x -> derivable_pt_lim (fun t => f (along x d t)) 0 (dot g d).
(** the arithmetic mean of the last k entries of vs (all of them if there are fewer) *)
Definition last_n (k : nat) (vs : list R) : list R := skipn (length vs - k) vs.
Definition mean_last (k : nat) (vs : list R) : R := Rsum (length (last_n k vs)) (fun i => nth i (last_n k vs) 0) / INR (length (last_n k vs)).
