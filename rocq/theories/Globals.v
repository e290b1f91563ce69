(** * Pointers, function names and the file-scope variables of the library. *)
From Coq Require Import ZArith.
From Verif Require Import Num.

(** Pointers: a block number and an offset counted in elements. *)
Inductive ptr : Type := Null | Ptr (b : nat) (o : Z).

(** Functions that can be stored in an [l1c_AxFuns] (include/l1c.h:115-165). *)
Inductive fn : Type :=
| F_dct_Mx | F_dct_Mty | F_dct_EMx | F_dct_MtEty | F_dct_MtEt_EMx | F_dct_Ex | F_dct_Ety
| F_dct_Identity | F_dct_destroy                                  (* src/dct1.c *)
| F_dct2_Mx | F_dct2_Mty | F_dct2_EMx | F_dct2_MtEty | F_dct2_MtEt_EMx | F_dct2_Ex | F_dct2_Ety
| F_dct2_Identity | F_dct2_destroy                                (* src/dct2.c *)
| F_tv_Wv | F_tv_Wtx | F_tv_Rx | F_tv_Rty | F_tv_Av | F_tv_Aty | F_tv_Identity
| F_tv_destroy                                                    (* src/dct_tv_transforms.c *)
| F_mt_Ax | F_mt_Aty | F_mt_AtAx | F_mt_Identity | F_mt_destroy   (* src/matrix_transforms.c *)
| F_user (k : Z).                                                 (* functions of the caller *)

(** A field of function-pointer type: indeterminate, NULL, or a function. *)
Inductive fptr : Type := FUninit | FNull | Fn (f : fn).

Definition fptr_is_null (f : fptr) : bool := match f with FNull => true | _ => false end.

(** include/l1c.h:115-165, struct _l1c_AxFuns (the unused field [data] is dropped). *)
Record AxFuns `{Num} : Type := mkAx {
  ax_n : Z; ax_q : Z; ax_m : Z; ax_p : Z;
  ax_norm_W : T;
  ax_Ax : fptr; ax_Aty : fptr; ax_AtAx : fptr;
  ax_Mx : fptr; ax_Mty : fptr;
  ax_Wz : fptr; ax_Wtx : fptr;
  ax_Rx : fptr; ax_Rty : fptr;
  ax_destroy : fptr
}.

(** Static variables of src/dct1.c:24-34 *)
Record dct1_statics `{Num} : Type := mkD1 {
  d1_plan_MtEty : ptr; d1_plan_EMx : ptr;
  d1_Ety_sparse : ptr; d1_x : ptr; d1_y : ptr;
  d1_mask : ptr;
  d1_n : Z; d1_m : Z;
  d1_root : T
}.

(** Static variables of src/dct2.c:24-36 *)
Record dct2_statics `{Num} : Type := mkD2 {
  d2_plan_MtEty : ptr; d2_plan_EMx : ptr;
  d2_Ety_sparse : ptr; d2_x : ptr; d2_y : ptr;
  d2_mask : ptr;
  d2_n : Z; d2_mrow : Z; d2_mcol : Z;
  d2_root : T
}.

(** Static variables of src/dct_tv_transforms.c:24-35 ([jobs] is split into its two bits) *)
Record tv_statics `{Num} : Type := mkTV {
  tv_m : Z; tv_mrow : Z; tv_mcol : Z; tv_p : Z;
  tv_alp_h : T; tv_alp_v : T;
  tv_ax : AxFuns;
  tv_u : ptr;
  tv_inc_TVH : Z; tv_inc_TVV : Z;
  tv_job_V : bool; tv_job_H : bool
}.

(** Globals of src/matrix_transforms.c:13-16 *)
Record mt_statics : Type := mkMT {
  mt_A : ptr; mt_N : Z; mt_M : Z; mt_dwork : ptr
}.

(** All mutable file-scope variables.  [g_printf] is src/l1c_logging.c:4 (0 stands for printf). *)
Record glob `{Num} : Type := mkGlob {
  g_d1 : dct1_statics;
  g_d2 : dct2_statics;
  g_tv : tv_statics;
  g_mt : mt_statics;
  g_printf : Z
}.

(** FFTW transform kinds used by the library (src/dct1.c, src/dct2.c) *)
Inductive fkind : Type := REDFT10 | REDFT01.

(** Heap objects that are neither arrays of doubles, ints nor pointers:
    FFTW plans and heap-allocated structs. *)
Inductive obj : Type :=
| OPlan1 (n : Z) (k : fkind) (src dst : ptr)
| OPlan2 (nr nc : Z) (k : fkind) (src dst : ptr)
| OStruct.

Local Open Scope Z_scope.
(** The globals before any call: zero-initialised statics (C11 6.7.9p10). *)
Definition ax0 `{Num} : AxFuns :=
  mkAx _ 0 0 0 0 zero FNull FNull FNull FNull FNull FNull FNull FNull FNull FNull.
Definition glob0 `{Num} : glob := mkGlob _
  (mkD1 _ Null Null Null Null Null Null 0 0 zero)
  (mkD2 _ Null Null Null Null Null Null 0 0 0 zero)
  (mkTV _ 0 0 0 0 zero zero ax0 Null 0 0 false false)
  (mkMT Null 0 0 Null) 0.
