(** * Model of src/matrix_transforms.c: operators given by an explicit matrix.
    The unused field [data] of the struct is dropped. *)
From stdpp Require Import base list.
From Coq Require Import ZArith.
From Verif Require Import Globals Mem M_Math M_Memory M_Status.
Local Open Scope Z_scope.

Section matrix.
Context `{N : Num}.

(** reading and changing the globals :13-16 *)
Definition getm : M mt_statics := let* g := getg in ret (g_mt g).
Definition setm (f : mt_statics -> mt_statics) : M unit :=
  setg (fun g => mkGlob _ (g_d1 g) (g_d2 g) (g_tv g) (f (g_mt g)) (g_printf g)).

(** matrix_transforms.c:37-79 l1c_setup_matrix_transforms; [ax] is the struct behind ax_funs *)
Definition l1c_setup_matrix_transforms (n m : Z) (A : ptr) (ax : AxFuns) : M (Z * AxFuns) :=
  if (n <=? 0) || (m <=? 0) then ret (L1C_INVALID_ARGUMENT, ax) else          (* :39-41 *)
  let L := if m <? n then n else m in                                         (* :43 *)
  let* w := l1c_malloc_double L in                                            (* :45 *)
  setm (fun d => mkMT (mt_A d) (mt_N d) (mt_M d) w) ;!
  if is_null w then ret (L1C_OUT_OF_MEMORY, ax) else                          (* :46-48 *)
  for_ 0 L (fun i => sto w i zero) ;!                                         (* :49-51 *)
  setm (fun d => mkMT A n m (mt_dwork d)) ;!                                  (* :53-55 *)
  ret (0, mkAx _ n m m m zero                                                 (* :57-64 *)
            (Fn F_mt_Ax) (Fn F_mt_Aty) (Fn F_mt_AtAx)                         (* :66-68 *)
            (Fn F_mt_Identity) (Fn F_mt_Identity)                             (* :70-71 *)
            (Fn F_mt_Identity) (Fn F_mt_Identity)                             (* :72-73 *)
            (Fn F_mt_Ax) (Fn F_mt_Aty)                                        (* :74-75 *)
            (Fn F_mt_destroy)).                                               (* :69 *)

(** matrix_transforms.c:81 destroy_matrix_transforms *)
Definition mt_destroy : M unit := let* d := getm in l1c_free_double (mt_dwork d).

(** cblas_dgemv(RowMajor, NoTrans, N, M, 1.0, A, M, x, 1, 0.0, y, 1), called at
    matrix_transforms.c:97-108: the reference routine clears y, then forms one dot product per row *)
Definition dgemv_n (n m : Z) (A x y : ptr) : M unit :=
  for_ 0 n (fun i => sto y i zero) ;!
  for_ 0 n (fun i =>
    let* t := for_acc 0 m zero (fun j a => let* w := ld A (i * m + j) in let* v := ld x j in ret (add a (mul w v))) in
    let* v := ld y i in sto y i (add v (mul one t))).
(** cblas_dgemv(RowMajor, Trans, N, M, 1.0, A, M, y, 1, 0.0, x, 1), called at
    matrix_transforms.c:125-126: the reference routine clears x, then adds one row of A after the other *)
Definition dgemv_t (n m : Z) (A y x : ptr) : M unit :=
  for_ 0 m (fun j => sto x j zero) ;!
  for_ 0 n (fun i =>
    let* v := ld y i in let t := mul one v in
    for_ 0 m (fun j => let* w := ld A (i * m + j) in let* u := ld x j in sto x j (add u (mul t w)))).

(** matrix_transforms.c:88-109 Ax *)
Definition mt_Ax (x y : ptr) : M unit := let* d := getm in dgemv_n (mt_N d) (mt_M d) (mt_A d) x y.
(** matrix_transforms.c:117-127 Aty *)
Definition mt_Aty (y x : ptr) : M unit := let* d := getm in dgemv_t (mt_N d) (mt_M d) (mt_A d) y x.
(** matrix_transforms.c:129-132 AtAx *)
Definition mt_AtAx (x_in x_out : ptr) : M unit :=
  let* d := getm in
  mt_Ax x_in (mt_dwork d) ;! mt_Aty (mt_dwork d) x_out.
(** matrix_transforms.c:134 Identity *)
Definition mt_Identity (x z : ptr) : M unit := let* d := getm in cblas_dcopy (mt_M d) x z.
End matrix.
