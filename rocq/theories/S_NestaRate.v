(** * When NESTA's inner loop has settled. *)
From Coq Require Import ZArith Reals List Arith.
From Verif Require Export S_Nesta.
Local Open Scope R_scope.

(** the k-th value differs by less than the fraction tol from the mean of the (at most ten) values before it *)
Definition settled (tol : R) (f : nat -> R) (k : nat) : Prop :=
  let M := mean_last 10 (map f (seq 0 k)) in (1 <= k)%nat /\ 0 < M /\ Rabs (f k - M) < tol * M.
(** x minimises f over the points with ||A x - b|| <= sigma *)
Definition minimiser (m : nat) (A : list R -> list R) (b : list R) (sigma : R) (f : list R -> R) (x : list R) : Prop :=
  length x = m /\ feasible A b sigma x /\ forall w, length w = m -> feasible A b sigma w -> f x <= f w.
(** the bound after k iterations from a point at distance D of the minimiser, for an operator of norm at most nw with p rows *)
Definition rate (p : nat) (nw mu : R) (k : nat) (D : R) : R :=
  2 * sqrt (INR p) * nw * D / (INR k + 2) + 2 * (nw ^ 2 / mu) * D ^ 2 / ((INR k + 1) * (INR k + 2)).
(** What a run of the last continuation stage looks like.  f is the smoothed 1-norm of W x; X is the sequence of
    iterates, X K the result.  The stage ends at the first settled value or after 10000 iterations, and every
    iterate obeys the bound [rate].  When W is bounded below (it is injective) there is a minimiser, and the 1-norm of W x
    exceeds the least one by at most a number that depends on the first iterate only. *)
Record good_run (m p : nat) (Ar : list R -> list R) (bv : list R) (sg : R) (Wr : list R -> list R) (nw mu tol : R) (f : list R -> R) (X : nat -> list R) (K : nat) : Prop := {
  gr_f : forall x, length x = m -> is_smooth_norm mu (Wr x) (f x);
  gr_X : forall k, length (X k) = m /\ feasible Ar bv sg (X k);
  gr_K : (1 <= Z.of_nat K <= 10000)%Z;
  gr_go : forall k, (S k < K)%nat -> ~ settled tol (fun j => f (X j)) k;
  gr_stop : (Z.of_nat K < 10000)%Z -> settled tol (fun j => f (X j)) (K - 1);
  gr_rate : forall k v, (1 <= k)%nat -> minimiser m Ar bv sg f v -> f (X k) - f v <= rate p nw mu k (nrm2 (vlin 1 v (-1) (X 0%nat)));
  gr_near : forall c, 0 < c -> (forall v, length v = m -> c * nrm2 v <= nrm2 (Wr v)) ->
    (exists v, minimiser m Ar bv sg f v) /\
    forall k w, (1 <= k)%nat -> length w = m -> feasible Ar bv sg w ->
      nrm1 (Wr (X k)) <= nrm1 (Wr w) + INR p * (mu / 2) + rate p nw mu k ((nrm1 (Wr (X 0%nat)) + INR p * (mu / 2)) / c + nrm2 (X 0%nat))
}.
(** the j-th of nc geometric steps from a to b *)
Definition geo (a b : R) (nc j : nat) : R := a * Rpower (b / a) (INR j / INR nc).
(** M is the largest of |w_0|, ..., |w_(m-1)|, w_m, w_(m+1), ... (the code takes absolute values of the first m only) *)
Definition largest (m : nat) (w : list R) (M : R) : Prop :=
  let v i := if Nat.ltb i m then Rabs (nth i w 0) else nth i w 0 in
  (forall i, (i < length w)%nat -> v i <= M) /\ exists i, (i < length w)%nat /\ M = v i.
(** nc stages lead from start to result: stage j+1 begins where stage j ended and is a good run for smoothing and tolerance
    that go geometrically from 9/10 of the largest coefficient of W^T A^T b, and 1/10, to mu and tol *)
Definition staged (m p : nat) (Ar : list R -> list R) (bv : list R) (sg : R) (Wr : list R -> list R) (nw mu tol : R) (nc : nat) (start result : list R) : Prop :=
  exists M Y, largest m (Wr start) M /\ 0 < M /\ Y 0%nat = start /\ Y nc = result /\
    forall j, (j < nc)%nat -> exists f X K, X 0%nat = Y j /\ X K = Y (S j) /\
      good_run m p Ar bv sg Wr nw (geo (9 / 10 * M) mu nc (S j)) (geo (1 / 10) tol nc (S j)) f X K.
