(** * Model of src/l1c_math.c, src/vcl/vcl_math.cpp, include/l1c_math.h, and of the CBLAS
    routines the library calls.

    CBLAS is an external library: its routines are modelled by their reference definition, with
    sums taken from left to right.  A count n <= 0 does nothing. *)
From stdpp Require Import base list.
From Coq Require Import ZArith.
From Verif Require Import Mem.
Local Open Scope Z_scope.

Section math.
Context `{N : Num}.

(** ** CBLAS (called with stride 1 unless said otherwise) *)
(** cblas_dcopy(n, x, 1, y, 1): y := x *)
Definition cblas_dcopy (n : Z) (x y : ptr) : M unit :=
  for_ 0 n (fun i => let* v := ld x i in sto y i v).
(** cblas_dscal(n, a, x, inc): x := a x *)
Definition cblas_dscal (n : Z) (a : T) (x : ptr) (inc : Z) : M unit :=
  for_ 0 n (fun i => let* v := ld x (i * inc) in sto x (i * inc) (mul a v)).
(** cblas_daxpy(n, a, x, 1, y, 1): y := a x + y.
    Simplified: the reference routine returns early when a = 0 (only visible if x has NaN/Inf). *)
Definition cblas_daxpy (n : Z) (a : T) (x y : ptr) : M unit :=
  for_ 0 n (fun i => let* v := ld x i in let* w := ld y i in sto y i (add (mul a v) w)).
(** cblas_ddot(n, x, 1, y, 1) *)
Definition cblas_ddot (n : Z) (x y : ptr) : M T :=
  for_acc 0 n zero (fun i a => let* v := ld x i in let* w := ld y i in ret (add a (mul v w))).
(** cblas_dnrm2(n, x, 1); the reference routine scales to avoid overflow, here the plain formula *)
Definition cblas_dnrm2 (n : Z) (x : ptr) : M T :=
  let* a := for_acc 0 n zero (fun i a => let* v := ld x i in ret (add a (mul v v))) in
  ret (sqrt_ a).
(** cblas_dasum(n, x, 1) *)
Definition cblas_dasum (n : Z) (x : ptr) : M T :=
  for_acc 0 n zero (fun i a => let* v := ld x i in ret (add a (fabs v))).

(** ** include/l1c_math.h:6-12 *)
(** l1c_math.h:10 min *)
Definition dmin (a b : T) : T := if ltb_ a b then a else b.
(** l1c_math.h:12 max *)
Definition dmax (a b : T) : T := if ltb_ b a then a else b.

(** ** src/l1c_math.c *)
(** bodies of the parallel loops *)
(** l1c_math.c:20 *)
Definition daxpby_body (alpha : T) (x : ptr) (beta : T) (y : ptr) (i : Z) : M unit :=
  let* v := ld x i in let* w := ld y i in sto y i (add (mul alpha v) (mul beta w)).
(** l1c_math.c:31 *)
Definition init_vec_body (x : ptr) (alpha : T) (i : Z) : M unit := sto x i alpha.
(** l1c_math.c:49 *)
Definition dxmuly_z_body (x y z : ptr) (i : Z) : M unit :=
  let* v := ld x i in let* w := ld y i in sto z i (mul v w).
(** l1c_math.c:78 *)
Definition daxpby_z_body (alpha : T) (x : ptr) (beta : T) (y z : ptr) (i : Z) : M unit :=
  let* v := ld x i in let* w := ld y i in sto z i (add (mul alpha v) (mul beta w)).
(** l1c_math.c:106 *)
Definition daxpy_z_body (alpha : T) (x y z : ptr) (i : Z) : M unit :=
  let* v := ld x i in let* w := ld y i in sto z i (add (mul alpha v) w).

(** l1c_math.c:14-22 __l1c_daxpby (the macro l1c_daxpby may also name cblas_daxpby, which has
    the same definition without the alignment and restrict assumptions) *)
Definition l1c_daxpby (n : Z) (alpha : T) (x : ptr) (beta : T) (y : ptr) : M unit :=
  assume_aligned x ;! assume_aligned y ;! restrict y n x n ;!
  for_ 0 n (daxpby_body alpha x beta y).
(** l1c_math.c:27-33 *)
Definition l1c_init_vec (n : Z) (x : ptr) (alpha : T) : M unit :=
  assume_aligned x ;!
  for_ 0 n (init_vec_body x alpha).
(** l1c_math.c:39-51 *)
Definition l1c_dxmuly_z (n : Z) (x y z : ptr) : M unit :=
  assume_aligned x ;! assume_aligned y ;! assume_aligned z ;!
  restrict z n x n ;! restrict z n y n ;!
  for_ 0 n (dxmuly_z_body x y z).
(** l1c_math.c:60-80 *)
Definition l1c_daxpby_z (n : Z) (alpha : T) (x : ptr) (beta : T) (y z : ptr) : M unit :=
  assume_aligned x ;! assume_aligned y ;! assume_aligned z ;!
  restrict z n x n ;! restrict z n y n ;!
  for_ 0 n (daxpby_z_body alpha x beta y z).
(** l1c_math.c:89-108 *)
Definition l1c_daxpy_z (n : Z) (alpha : T) (x y z : ptr) : M unit :=
  assume_aligned x ;! assume_aligned y ;! assume_aligned z ;!
  restrict z n x n ;! restrict z n y n ;!
  for_ 0 n (daxpy_z_body alpha x y z).
(** l1c_math.c:114 *)
Definition l1c_dnorm1 (n : Z) (x : ptr) : M T := cblas_dasum n x.
(** l1c_math.c:116-123 *)
Definition l1c_dsum (n : Z) (x : ptr) : M T :=
  for_acc 0 n zero (fun i a => let* v := ld x i in ret (add a v)).
(** l1c_math.c:125-134 (sequential order; the reduction over threads is treated separately) *)
Definition l1c_dlogsum (n : Z) (alpha : T) (x : ptr) : M T :=
  for_acc 0 n zero (fun i a => let* v := ld x i in ret (add a (log_ (mul alpha v)))).
(** l1c_math.c:141-153 *)
Definition l1c_dnrm2_rel_err (n : Z) (x y : ptr) : M T :=
  assume_aligned x ;! assume_aligned y ;!
  let* ynrm := cblas_ddot n y y in
  let* nrm := for_acc 0 n zero (fun i a =>
     let* v := ld x i in let* w := ld y i in
     let diff := sub v w in ret (add a (mul diff diff))) in
  ret (sqrt_ (div nrm ynrm)).
(** l1c_math.c:158-174 *)
Definition l1c_max_vec (n : Z) (x : ptr) : M T :=
  if n <=? 0 then ret nan_ else
  let* x0 := ld x 0 in
  if n =? 1 then ret x0 else
  for_acc 1 n x0 (fun k xmax => let* v := ld x k in ret (if ltb_ xmax v then v else xmax)).
(** l1c_math.c:179-184 *)
Definition l1c_abs_vec (n : Z) (x y : ptr) : M unit :=
  for_ 0 n (fun k => let* v := ld x k in sto y k (fabs v)).
(** l1c_math.c:191-202 *)
Definition l1c_dnrm2_err (n : Z) (x y : ptr) : M T :=
  assume_aligned x ;! assume_aligned y ;!
  let* nrm := for_acc 0 n zero (fun i a =>
     let* v := ld x i in let* w := ld y i in
     let diff := sub v w in ret (add a (mul diff diff))) in
  ret (sqrt_ nrm).

(** ** src/vcl/vcl_math.cpp *)
(** a vector of four doubles (Vec4d) *)
Definition vec4 : Type := (T * T * T * T)%type.
(** vcl_math.cpp:14,36,61: N & ~(4-1) for two's complement *)
Definition regularpart (n : Z) : Z := Z.land n (Z.lnot 3).
(** Vec4d::load_a: four doubles from a 32-byte boundary *)
Definition load_a (p : ptr) (i : Z) : M vec4 := fun s =>
  match p with
  | Ptr b o =>
      if al s b && ((o + i) mod 4 =? 0) then
        (let* a := ld p i in let* b := ld p (i + 1) in let* c := ld p (i + 2) in let* d := ld p (i + 3) in
         ret (a, b, c, d)) s
      else Ub UbAlign
  | Null => Ub UbOob
  end.
(** Vec4d::store *)
Definition store4 (p : ptr) (i : Z) (v : vec4) : M unit :=
  let '(a, b, c, d) := v in
  sto p i a ;! sto p (i + 1) b ;! sto p (i + 2) c ;! sto p (i + 3) d.
Definition map4 (f : T -> T) (v : vec4) : vec4 := let '(a, b, c, d) := v in (f a, f b, f c, f d).
Definition zip4 (f : T -> T -> T) (v w : vec4) : vec4 :=
  let '(a, b, c, d) := v in let '(a', b', c', d') := w in (f a a', f b b', f c c', f d d').
(** include/vcl/vectorf256.h:1694-1699 (the AVX version: hadd inside each half, then the halves;
    the SSE version in vectorf256e.h:1437 adds (a+c)+(b+d)) *)
Definition horizontal_add (v : vec4) : T := let '(a, b, c, d) := v in add (add a b) (add c d).
(** for (i = lo; i < hi; i += 4) *)
Definition for4 {A} (lo hi : Z) (a : A) (body : Z -> A -> M A) : M A :=
  for_acc 0 ((hi - lo + 3) / 4) a (fun k => body (lo + 4 * k)).

(** vcl_math.cpp:12-33 *)
Definition vcl_logsum (n : Z) (alpha : T) (x : ptr) : M T :=
  let rp := regularpart n in
  let* sum_vec := for4 0 rp (zero, zero, zero, zero) (fun i sv =>
     let* xv := load_a x i in
     ret (zip4 add sv (map4 log_ (map4 (fun v => mul v alpha) xv)))) in
  let* total := for_acc (Z.max 0 rp) n zero (fun i t =>
     let* v := ld x i in ret (add t (log_ (mul v alpha)))) in
  ret (add total (horizontal_add sum_vec)).
(** vcl_math.cpp:35-54 *)
Definition vcl_sum (n : Z) (x : ptr) : M T :=
  let rp := regularpart n in
  let* sum_vec := for4 0 rp (zero, zero, zero, zero) (fun i sv =>
     let* xv := load_a x i in ret (zip4 add sv xv)) in
  let* total := for_acc (Z.max 0 rp) n zero (fun i t => let* v := ld x i in ret (add t v)) in
  ret (add total (horizontal_add sum_vec)).
(** vcl_math.cpp:60-81 *)
Definition vcl_dxMy_pz (n : Z) (x y z : ptr) : M unit :=
  let rp := regularpart n in
  for4 0 rp tt (fun i _ =>
     let* xv := load_a x i in let* yv := load_a y i in let* zv := load_a z i in
     store4 z i (zip4 add (zip4 mul xv yv) zv)) ;!
  for_ (Z.max 0 rp) n (fun i =>
     let* v := ld x i in let* w := ld y i in let* u := ld z i in sto z i (add (mul v w) u)).

End math.
