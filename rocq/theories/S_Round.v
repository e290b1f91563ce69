(** * What is said about rounding errors. *)
From Coq Require Import Reals.
Local Open Scope R_scope.
(** the unit roundoff 2^-53 of binary64 and half its smallest positive number *)
Definition uro : R := / 2 ^ 53.
Definition eta : R := / 2 ^ 1075.
(** k roundings: (1 + 2^-53)^k - 1 *)
Definition gam (k : nat) : R := (1 + uro) ^ k - 1.
(** overflow threshold *)
Definition huge : R := 2 ^ 1024.
