(** * What FFTW's transforms and the orthonormal cosine transform are, over the reals. *)
From Coq Require Import Reals List.
From Verif Require Import Globals L_Sum S_Vec.
Local Open Scope R_scope.

(** FFTW manual 4.8.3, REDFT10 (DCT-II): Y_k = 2 sum_j X_j cos(pi (j + 1/2) k / n);
    REDFT01 (DCT-III): Y_k = X_0 + 2 sum_{j >= 1} X_j cos(pi j (k + 1/2) / n).
    [redft kind n k j] is the coefficient of X_j in Y_k. *)
Definition redft (kind : fkind) (n k j : nat) : R :=
  match kind with
  | REDFT10 => 2 * cos (PI * (INR j + 1/2) * INR k / INR n)
  | REDFT01 => if Nat.eqb j 0 then 1 else 2 * cos (PI * INR j * (INR k + 1/2) / INR n)
  end.
Definition vec (n : nat) (f : nat -> R) : list R := map f (seq 0 n).
Definition dft1 (kind : fkind) (x : list R) : list R :=
  vec (length x) (fun k => Rsum (length x) (fun j => redft kind (length x) k j * nth j x 0)).
(** two-dimensional: the separable product along the rows and columns (manual 4.8.7), row-major *)
Definition dft2 (kind : fkind) (nr nc : nat) (x : list R) : list R :=
  vec (nr * nc) (fun k => Rsum nr (fun i => Rsum nc (fun j =>
     redft kind nr (k / nc) i * redft kind nc (k mod nc) j * nth (i * nc + j) x 0))).

(** the orthonormal DCT matrix: row k is the k-th cosine, of unit length *)
Definition dctm (n k j : nat) : R :=
  if Nat.eqb k 0 then sqrt (1 / INR n) else sqrt (2 / INR n) * cos (PI * (INR j + 1/2) * INR k / INR n).
(** analysis (coefficients of y) and synthesis *)
Definition dct_fwd (n : nat) (y : list R) : list R := vec n (fun k => Rsum n (fun j => dctm n k j * nth j y 0)).
Definition dct_inv (n : nat) (x : list R) : list R := vec n (fun j => Rsum n (fun k => dctm n k j * nth k x 0)).
(** two dimensions, row-major images of nr rows and nc columns *)
Definition dct2_fwd (nr nc : nat) (y : list R) : list R :=
  vec (nr * nc) (fun k => Rsum nr (fun i => Rsum nc (fun j => dctm nr (k / nc) i * dctm nc (k mod nc) j * nth (i * nc + j) y 0))).
Definition dct2_inv (nr nc : nat) (x : list R) : list R :=
  vec (nr * nc) (fun j => Rsum nr (fun k => Rsum nc (fun l => dctm nr k (j / nc) * dctm nc l (j mod nc) * nth (k * nc + l) x 0))).
(** sampling at the places [idx], and its adjoint: x_j is the sum of the y_i with idx_i = j *)
Definition sample (idx : list nat) (x : list R) : list R := vec (length idx) (fun i => nth (nth i idx 0%nat) x 0).
Definition spread (m : nat) (idx : list nat) (y : list R) : list R :=
  vec m (fun j => Rsum (length idx) (fun i => if Nat.eqb (nth i idx 0%nat) j then nth i y 0 else 0)).
