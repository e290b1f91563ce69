(** * Specification vocabulary for TV denoising (no reference to the model). *)
From Coq Require Import Reals List Arith.
From Verif Require Export S_Vec.
Local Open Scope R_scope.

(** [when b r] is r if b holds and 0 otherwise *)
Definition when (b : bool) (r : R) : R := if b then r else 0.
(** entry (i,j) of (mu I + la (DxT Dx + DyT Dy)) u for an n x m image: mu times the pixel plus la
    times the sum of its differences to the neighbours that exist *)
Definition tvop_at (n m : nat) (mu la : R) (u : list R) (i j : nat) : R :=
  mu * px m u i j +
  la * (when (j + 1 <? m)%nat (px m u i j - px m u i (j + 1)) +
        when (0 <? j)%nat     (px m u i j - px m u i (j - 1)) +
        when (i + 1 <? n)%nat (px m u i j - px m u (i + 1) j) +
        when (0 <? i)%nat     (px m u i j - px m u (i - 1) j)).
(** u solves the linear system of the u-step *)
Definition solves (n m : nat) (mu la : R) (b u : list R) : Prop :=
  forall i j, (i < n)%nat -> (j < m)%nat -> tvop_at n m mu la u i j = px m b i j.
(** every entry of u is within E of the entry of v *)
Definition within (E : R) (u v : list R) (L : nat) : Prop :=
  forall k, (k < L)%nat -> Rabs (nth k u 0 - nth k v 0) <= E.
(** anisotropic TV plus the quadratic misfit *)
Definition tvobj (n m : nat) (mu : R) (f v : list R) : R :=
  Rsum n (fun i => Rsum m (fun j =>
    when (j + 1 <? m)%nat (Rabs (px m v i (j + 1) - px m v i j)) +
    when (i + 1 <? n)%nat (Rabs (px m v (i + 1) j - px m v i j)) +
    mu / 2 * (px m v i j - px m f i j) ^ 2)).
