(** * The user's view of a DCT-TV transform. *)
From Coq Require Import ZArith Reals List.
From stdpp Require Import base list.
From Verif Require Import Globals Mem P_Mem P_Memory M_Dct M_TVt P_FFTW S_Vec S_Img S_Dct S_Xform.

Section api.
Context `{N : Num}.
Context (fft1 : fkind -> list T -> list T) (fft2 : fkind -> nat -> nat -> list T -> list T).
Implicit Types (s : st) (ax : AxFuns) (n m p : nat).
(** a function of the struct with the lengths of its argument and result; R^T must get an
    initialised result array (include/l1c.h:157) *)
Definition tvop ax (f : AxFuns -> fptr) (k l : nat) (init : bool) : xop := mkXop (call fft1 fft2 (f ax)) k l init.
(** analysis mode: A = R, M = I (m by m), W is m by p *)
Definition analysis_ops ax n m p : list xop :=
  [tvop ax ax_Ax m n false; tvop ax ax_Aty n m true; tvop ax ax_Mx m m false; tvop ax ax_Mty m m false;
   tvop ax ax_Wz p m false; tvop ax ax_Wtx m p false; tvop ax ax_Rx m n false; tvop ax ax_Rty n m true].
(** synthesis mode: A = R W, M = W (m by p), and ax_Wz, ax_Wtx are the identity *)
Definition synthesis_ops ax n m p : list xop :=
  [tvop ax ax_Ax p n false; tvop ax ax_Aty n p false; tvop ax ax_Mx p m false; tvop ax ax_Mty m p false;
   tvop ax ax_Wz m m false; tvop ax ax_Wtx m m false; tvop ax ax_Rx m n false; tvop ax ax_Rty n m true].
Definition tv_ops (bp : Z) ax n m p : list xop := if (bp =? synthesis)%Z then synthesis_ops ax n m p else analysis_ops ax n m p.
(** the length of the coefficient vector: m, and m more for each scale that is positive *)
Definition width (av ah : T) m : nat := (m + (if ltb_ zero av then m else 0) + (if ltb_ zero ah then m else 0))%nat.
(** the blocks of a transform: six made by set-up, and the index array of the caller *)
Definition blocks_t s (mb : nat) : list nat := [nx s; nx s + 1; nx s + 2; nx s + 3; nx s + 4; nx s + 5; mb]%nat.
(** a successful set-up: the index array [Ptr mb mo] holds ms; its block was made earlier (numbers
    below [nx s]) *)
Record started_t s (mrow mcol : Z) (av ah : T) (mode bp : Z) (mb : nat) (mo : Z) (ms : list nat) ax s1 : Prop := mkStartedT {
  st_unborn : unborn s; st_old : (mb < nx s)%nat;
  st_idx : segi s (Ptr mb mo) ms;
  st_ok : exists ax0, l1c_setup_dctTV_transforms (Z.of_nat (length ms)) mrow mcol av ah mode bp (Ptr mb mo) ax0 s = Ok (0%Z, ax) s1 }.
End api.

(** ** The dictionary, over the reals *)
Local Open Scope R_scope.
(** differences of an nr x nc image to the pixel below and to the pixel on the right, none in the
    last row (column); and their transposes *)
Definition vdiff (nr nc : nat) (a : R) (u : list R) : list R := vec (nr * nc) (fun k => let i := (k / nc)%nat in let j := (k mod nc)%nat in
  when (i + 1 <? nr)%nat (a * (px nc u (i + 1) j - px nc u i j))).
Definition hdiff (nr nc : nat) (a : R) (u : list R) : list R := vec (nr * nc) (fun k => let i := (k / nc)%nat in let j := (k mod nc)%nat in
  when (j + 1 <? nc)%nat (a * (px nc u i (j + 1) - px nc u i j))).
Definition vdiffT (nr nc : nat) (a : R) (u : list R) : list R := vec (nr * nc) (fun k => let i := (k / nc)%nat in let j := (k mod nc)%nat in
  a * (when (0 <? i)%nat (px nc u (i - 1) j) - when (i + 1 <? nr)%nat (px nc u i j))).
Definition hdiffT (nr nc : nat) (a : R) (u : list R) : list R := vec (nr * nc) (fun k => let i := (k / nc)%nat in let j := (k mod nc)%nat in
  a * (when (0 <? j)%nat (px nc u i (j - 1)) - when (j + 1 <? nc)%nat (px nc u i j))).
(** the b-th block of m entries *)
Definition part (m b : nat) (v : list R) : list R := vec m (fun k => nth (b * m + k) v 0).
(** scales that are 0 drop their block *)
Definition nblocks (av ah : R) : nat := (1 + (if Rlt_dec 0 av then 1 else 0) + (if Rlt_dec 0 ah then 1 else 0))%nat.
(** W [v0; v1; v2] = inv v0 + vertical differences of v1 + horizontal differences of v2, and W^T *)
Definition dict (inv : list R -> list R) (nr nc : nat) (av ah : R) (v : list R) : list R :=
  let m := (nr * nc)%nat in
  vec m (fun k => nth k (inv (part m 0 v)) 0 +
    (if Rlt_dec 0 av then nth k (vdiff nr nc av (part m 1 v)) 0 else 0) +
    (if Rlt_dec 0 ah then nth k (hdiff nr nc ah (part m (if Rlt_dec 0 av then 2 else 1) v)) 0 else 0)).
Definition dictT (fwd : list R -> list R) (nr nc : nat) (av ah : R) (x : list R) : list R :=
  fwd x ++ (if Rlt_dec 0 av then vdiffT nr nc av x else []) ++ (if Rlt_dec 0 ah then hdiffT nr nc ah x else []).
