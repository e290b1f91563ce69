(** * Model of src/dct2.c: the subsampled two-dimensional DCT.
    Left out: FFTW's thread set-up and clean-up (:120-125, :202-204) and the error messages. *)
From stdpp Require Import base list.
From Coq Require Import ZArith.
From Verif Require Import Globals Mem M_Math M_Memory M_Status M_FFTW.
Local Open Scope Z_scope.

Section dct2.
Context `{N : Num}.
Context (fft1 : fkind -> list T -> list T) (fft2 : fkind -> nat -> nat -> list T -> list T).
Notation execute := (fftw_execute fft1 fft2).
Notation execute_r2r := (fftw_execute_r2r fft1 fft2).

(** reading and changing the static variables :24-36 *)
Definition get2 : M dct2_statics := let* g := getg in ret (g_d2 g).
Definition set2 (f : dct2_statics -> dct2_statics) : M unit :=
  setg (fun g => mkGlob _ (g_d1 g) (f (g_d2 g)) (g_tv g) (g_mt g) (g_printf g)).

(** dct2.c:195-205 dct2_destroy *)
Definition dct2_destroy : M unit :=
  let* d := get2 in
  l1c_free_double (d2_Ety_sparse d) ;! l1c_free_double (d2_x d) ;! l1c_free_double (d2_y d) ;!   (* :196-198 *)
  fftw_destroy_plan (d2_plan_EMx d) ;!                                        (* :200 *)
  fftw_destroy_plan (d2_plan_MtEty d).                                        (* :201 *)

(** dct2.c:117-193 l1c_dct2_setup.  A failed call releases nothing (:190-192). *)
Definition l1c_dct2_setup (n mrow mcol : Z) (pix_mask_idx : ptr) (ax : AxFuns) : M (Z * AxFuns) :=
  let* mm := i32 (mrow * mcol) in
  let* e := l1c_malloc_double mm in                                           (* :128 *)
  set2 (fun d => mkD2 _ (d2_plan_MtEty d) (d2_plan_EMx d) e (d2_x d) (d2_y d) (d2_mask d) (d2_n d) (d2_mrow d) (d2_mcol d) (d2_root d)) ;!
  let* x := l1c_malloc_double mm in                                           (* :129 *)
  set2 (fun d => mkD2 _ (d2_plan_MtEty d) (d2_plan_EMx d) (d2_Ety_sparse d) x (d2_y d) (d2_mask d) (d2_n d) (d2_mrow d) (d2_mcol d) (d2_root d)) ;!
  let* y := l1c_malloc_double mm in                                           (* :130 *)
  set2 (fun d => mkD2 _ (d2_plan_MtEty d) (d2_plan_EMx d) (d2_Ety_sparse d) (d2_x d) y (d2_mask d) (d2_n d) (d2_mrow d) (d2_mcol d) (d2_root d)) ;!
  if is_null x || is_null y || is_null e then ret (L1C_OUT_OF_MEMORY, ax)     (* :131-135, :190-192 *)
  else
  for_ 0 mm (fun i => sto e i zero ;! sto x i zero ;! sto y i zero) ;!        (* :137-141 *)
  set2 (fun d => mkD2 _ (d2_plan_MtEty d) (d2_plan_EMx d) (d2_Ety_sparse d) (d2_x d) (d2_y d)
         pix_mask_idx n mrow mcol
         (sqrt_ (div one (mul (mul (ofZ mrow) (ofZ mcol)) (ofZ 4))))) ;!      (* :143-150 *)
  let* pm := fftw_plan_r2r_2d mrow mcol e x REDFT10 in                        (* :157-158 *)
  set2 (fun d => mkD2 _ pm (d2_plan_EMx d) (d2_Ety_sparse d) (d2_x d) (d2_y d) (d2_mask d) (d2_n d) (d2_mrow d) (d2_mcol d) (d2_root d)) ;!
  let* pe := fftw_plan_r2r_2d mrow mcol x y REDFT01 in                        (* :160-161 *)
  set2 (fun d => mkD2 _ (d2_plan_MtEty d) pe (d2_Ety_sparse d) (d2_x d) (d2_y d) (d2_mask d) (d2_n d) (d2_mrow d) (d2_mcol d) (d2_root d)) ;!
  if is_null pe || is_null pm then ret (L1C_DCT_INIT_FAILURE, ax)             (* :163-167, :190-192 *)
  else
  ret (0, mkAx _ n mm mm mm one                                               (* :169-173 *)
            (Fn F_dct2_EMx) (Fn F_dct2_MtEty) (Fn F_dct2_MtEt_EMx)            (* :174-176 *)
            (Fn F_dct2_Mx) (Fn F_dct2_Mty)                                    (* :177-178 *)
            (Fn F_dct2_Identity) (Fn F_dct2_Identity)                         (* :182-183 *)
            (Fn F_dct2_Ex) (Fn F_dct2_Ety)                                    (* :179-180 *)
            (Fn F_dct2_destroy)).                                             (* :185 *)

(** dct2.c:207-209 Identity *)
Definition dct2_Identity (y x : ptr) : M unit :=
  let* d := get2 in let* mm := i32 (d2_mcol d * d2_mrow d) in cblas_dcopy mm y x.

(** the scaling of the first row and column after the forward transform
    (dct2.c:222-227, 290-295, 336-341) *)
Definition dct2_after (d : dct2_statics) (x : ptr) : M unit :=
  (let* v := ld x 0 in sto x 0 (mul v (lit 1 2))) ;!
  cblas_dscal (d2_mcol d - 1) (div one (sqrt_ two)) (padd x 1) 1 ;!
  cblas_dscal (d2_mrow d - 1) (div one (sqrt_ two)) (padd x (d2_mcol d)) (d2_mcol d).
(** the copy of x and its scaling before the inverse transform (dct2.c:236-244, 256-264, 307-315) *)
Definition dct2_before (d : dct2_statics) (mm : Z) (x : ptr) : M unit :=
  cblas_dcopy mm x (d2_x d) ;!
  (let* v := ld (d2_x d) 0 in sto (d2_x d) 0 (mul v two)) ;!
  cblas_dscal (d2_mcol d - 1) (sqrt_ two) (padd (d2_x d) 1) 1 ;!
  cblas_dscal (d2_mrow d - 1) (sqrt_ two) (padd (d2_x d) (d2_mcol d)) (d2_mcol d).

(** dct2.c:213-228 dct2_Mty *)
Definition dct2_Mty (y x : ptr) : M unit :=
  let* d := get2 in
  execute_r2r (d2_plan_MtEty d) y x ;!                                        (* :217 *)
  let* mm := i32 (d2_mrow d * d2_mcol d) in
  cblas_dscal mm (d2_root d) x 1 ;!                                           (* :220 *)
  dct2_after d x.                                                             (* :222-227 *)
(** dct2.c:233-250 dct2_Mx *)
Definition dct2_Mx (x y : ptr) : M unit :=
  let* d := get2 in
  let* mm := i32 (d2_mrow d * d2_mcol d) in
  dct2_before d mm x ;!                                                       (* :236-244 *)
  execute_r2r (d2_plan_EMx d) (d2_x d) y ;!                                   (* :246 *)
  cblas_dscal mm (d2_root d) y 1.                                             (* :249 *)
(** dct2.c:252-273 dct2_EMx *)
Definition dct2_EMx (x y : ptr) : M unit :=
  let* d := get2 in
  let* mm := i32 (d2_mrow d * d2_mcol d) in
  dct2_before d mm x ;!                                                       (* :256-264 *)
  execute_r2r (d2_plan_EMx d) (d2_x d) (d2_y d) ;!                            (* :266 *)
  for_ 0 (d2_n d) (fun i =>                                                   (* :270-272 *)
    let* j := ldi (d2_mask d) i in let* v := ld (d2_y d) j in sto y i (mul v (d2_root d))).
(** dct2.c:283-295 and 329-341: the end of dct2_MtEty and dct2_MtEt_EMx *)
Definition dct2_back (d : dct2_statics) (mm : Z) (x : ptr) : M unit :=
  execute (d2_plan_MtEty d) ;!
  for_ 0 mm (fun i => let* v := ld (d2_x d) i in sto x i (mul v (d2_root d))) ;!
  dct2_after d x.
(** dct2.c:275-296 dct2_MtEty *)
Definition dct2_MtEty (y x : ptr) : M unit :=
  let* d := get2 in
  for_ 0 (d2_n d) (fun i =>                                                   (* :279-281 *)
    let* j := ldi (d2_mask d) i in let* v := ld y i in sto (d2_Ety_sparse d) j v) ;!
  let* mm := i32 (d2_mrow d * d2_mcol d) in
  dct2_back d mm x.                                                           (* :283-295 *)
(** dct2.c:298-342 dct2_MtEt_EMx; x and z are restrict *)
Definition dct2_MtEt_EMx (x z : ptr) : M unit :=
  let* d := get2 in
  let* mm := i32 (d2_mrow d * d2_mcol d) in
  restrict z mm x mm ;!                                                       (* :298 *)
  dct2_before d mm x ;!                                                       (* :307-315 *)
  execute_r2r (d2_plan_EMx d) (d2_x d) (d2_y d) ;!                            (* :317 *)
  for_ 0 (d2_n d) (fun i =>                                                   (* :321-325 *)
    let* j := ldi (d2_mask d) i in let* v := ld (d2_y d) j in sto (d2_Ety_sparse d) j (mul v (d2_root d))) ;!
  dct2_back d mm z.                                                           (* :329-341 *)
(** dct2.c:347-351 dct2_Ex *)
Definition dct2_Ex (x y : ptr) : M unit :=
  let* d := get2 in
  for_ 0 (d2_n d) (fun i => let* j := ldi (d2_mask d) i in let* v := ld x j in sto y i v).
(** dct2.c:360-367 dct2_Ety *)
Definition dct2_Ety (y x : ptr) : M unit :=
  let* d := get2 in
  let* mm := i32 (d2_mcol d * d2_mrow d) in
  cblas_dscal mm zero x 1 ;!                                                  (* :362 *)
  for_ 0 (d2_n d) (fun i => let* j := ldi (d2_mask d) i in let* v := ld y i in sto x j v).   (* :364-366 *)
End dct2.
