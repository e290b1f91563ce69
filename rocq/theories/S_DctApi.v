(** * The user's view of a DCT transform. *)
From Coq Require Import ZArith.
From stdpp Require Import base list.
From Verif Require Import Globals Mem P_Mem P_Memory M_Dct M_TVt P_FFTW S_Xform.
Local Open Scope Z_scope.

Section api.
Context `{N : Num}.
Context (fft1 : fkind -> list T -> list T) (fft2 : fkind -> nat -> nat -> list T -> list T).
Implicit Types (s : st) (ax : AxFuns) (n m : nat).
(** the functions of the struct; R^T must get an initialised result array (include/l1c.h:157) *)
Definition o_Ax ax n m := mkXop (call fft1 fft2 (ax_Ax ax)) m n false.
Definition o_Aty ax n m := mkXop (call fft1 fft2 (ax_Aty ax)) n m false.
Definition o_AtAx ax m := mkXop (call fft1 fft2 (ax_AtAx ax)) m m false.
Definition o_Mx ax m := mkXop (call fft1 fft2 (ax_Mx ax)) m m false.
Definition o_Mty ax m := mkXop (call fft1 fft2 (ax_Mty ax)) m m false.
Definition o_Wz ax m := mkXop (call fft1 fft2 (ax_Wz ax)) m m false.
Definition o_Wtx ax m := mkXop (call fft1 fft2 (ax_Wtx ax)) m m false.
Definition o_Rx ax n m := mkXop (call fft1 fft2 (ax_Rx ax)) m n false.
Definition o_Rty ax n m := mkXop (call fft1 fft2 (ax_Rty ax)) n m true.
Definition dct_ops ax n m : list xop :=
  [o_Ax ax n m; o_Aty ax n m; o_AtAx ax m; o_Mx ax m; o_Mty ax m; o_Wz ax m; o_Wtx ax m; o_Rx ax n m; o_Rty ax n m].
(** which transform the arguments ask for (dct_transforms.c:10-40: the 1D transform of the stacked
    image if it is a vector or if the user says so) *)
Definition one_d (mrow mcol mode : Z) : bool := (mrow =? 1) || (mcol =? 1) || (mode =? dct1).
(** the blocks of a transform: five made by set-up, and the index array of the caller *)
Definition blocks s (mb : nat) : list nat := [nx s; nx s + 1; nx s + 2; nx s + 3; nx s + 4; mb]%nat.
(** a successful set-up: the index array [Ptr mb mo] holds ms *)
Record started s (mrow mcol mode : Z) (mb : nat) (mo : Z) (ms : list nat) ax s1 : Prop := mkStarted {
  su_unborn : unborn s;
  su_idx : segi s (Ptr mb mo) ms;
  su_ok : exists ax0, l1c_setup_dct_transforms (Z.of_nat (length ms)) mrow mcol mode (Ptr mb mo) ax0 s = Ok (0, ax) s1 }.
(** an array of ints *)
Definition ints s (p : ptr) (zs : list Z) : Prop := forall i z, zs !! i = Some z -> ldi p (Z.of_nat i) s = Ok z s.
End api.
