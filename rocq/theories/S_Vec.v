(** * Small specification vocabulary: real vectors and images. *)
From Coq Require Import Reals List Arith.
From Verif Require Export L_Sum.
Local Open Scope R_scope.

(** dot product, squared 2-norm, 2-norm, 1-norm of lists of reals *)
Definition dot (xs ys : list R) : R := Rsum (length xs) (fun i => nth i xs 0 * nth i ys 0).
Definition nrm2sq (xs : list R) : R := Rsum (length xs) (fun i => nth i xs 0 ^ 2).
Definition nrm2 (xs : list R) : R := sqrt (nrm2sq xs).
Definition nrm1 (xs : list R) : R := Rsum (length xs) (fun i => Rabs (nth i xs 0)).
(** entry (i,j) of an image with m columns stored row by row *)
Definition px (m : nat) (xs : list R) (i j : nat) : R := nth (i * m + j) xs 0.
(** elementwise combination a*x + b*y of two vectors *)
Definition vlin (a : R) (xs : list R) (b : R) (ys : list R) : list R :=
  map (fun i => a * nth i xs 0 + b * nth i ys 0) (seq 0 (length xs)).
