(** * Model of src/dct1.c: the subsampled one-dimensional DCT.
    Left out: FFTW's thread set-up and clean-up (:97-102, :172-174) and the error messages. *)
From stdpp Require Import base list.
From Coq Require Import ZArith.
From Verif Require Import Globals Mem M_Math M_Memory M_Status M_FFTW.
Local Open Scope Z_scope.

Section dct1.
Context `{N : Num}.
Context (fft1 : fkind -> list T -> list T) (fft2 : fkind -> nat -> nat -> list T -> list T).
Notation execute := (fftw_execute fft1 fft2).
Notation execute_r2r := (fftw_execute_r2r fft1 fft2).

(** reading and changing the static variables :24-34 *)
Definition get1 : M dct1_statics := let* g := getg in ret (g_d1 g).
Definition set1 (f : dct1_statics -> dct1_statics) : M unit :=
  setg (fun g => mkGlob _ (f (g_d1 g)) (g_d2 g) (g_tv g) (g_mt g) (g_printf g)).

(** dct1.c:166-175 dct_destroy *)
Definition dct_destroy : M unit :=
  let* d := get1 in
  l1c_free_double (d1_Ety_sparse d) ;! l1c_free_double (d1_x d) ;! l1c_free_double (d1_y d) ;!   (* :167-169 *)
  fftw_destroy_plan (d1_plan_EMx d) ;!                                        (* :170 *)
  fftw_destroy_plan (d1_plan_MtEty d).                                        (* :171 *)

(** dct1.c:94-164 l1c_dct1_setup.  [ax] is the struct behind ax_funs, which is returned *)
Definition l1c_dct1_setup (n m : Z) (pix_mask_idx : ptr) (ax : AxFuns) : M (Z * AxFuns) :=
  let* e := l1c_calloc_double m in                                            (* :104 *)
  set1 (fun d => mkD1 _ (d1_plan_MtEty d) (d1_plan_EMx d) e (d1_x d) (d1_y d) (d1_mask d) (d1_n d) (d1_m d) (d1_root d)) ;!
  let* x := l1c_calloc_double m in                                            (* :105 *)
  set1 (fun d => mkD1 _ (d1_plan_MtEty d) (d1_plan_EMx d) (d1_Ety_sparse d) x (d1_y d) (d1_mask d) (d1_n d) (d1_m d) (d1_root d)) ;!
  let* y := l1c_calloc_double m in                                            (* :106 *)
  set1 (fun d => mkD1 _ (d1_plan_MtEty d) (d1_plan_EMx d) (d1_Ety_sparse d) (d1_x d) y (d1_mask d) (d1_n d) (d1_m d) (d1_root d)) ;!
  if is_null x || is_null y || is_null e then                                 (* :107-111 *)
    dct_destroy ;! ret (L1C_OUT_OF_MEMORY, ax)                                (* :161-163 *)
  else
  set1 (fun d => mkD1 _ (d1_plan_MtEty d) (d1_plan_EMx d) (d1_Ety_sparse d) (d1_x d) (d1_y d)
         pix_mask_idx n m (sqrt_ (div one (mul (ofZ m) two)))) ;!             (* :113-117 *)
  let* pm := fftw_plan_r2r_1d m e x REDFT10 in                                (* :130 *)
  set1 (fun d => mkD1 _ pm (d1_plan_EMx d) (d1_Ety_sparse d) (d1_x d) (d1_y d) (d1_mask d) (d1_n d) (d1_m d) (d1_root d)) ;!
  let* pe := fftw_plan_r2r_1d m x y REDFT01 in                                (* :131 *)
  set1 (fun d => mkD1 _ (d1_plan_MtEty d) pe (d1_Ety_sparse d) (d1_x d) (d1_y d) (d1_mask d) (d1_n d) (d1_m d) (d1_root d)) ;!
  if is_null pm || is_null pe then                                            (* :132-136 *)
    dct_destroy ;! ret (L1C_DCT_INIT_FAILURE, ax)                             (* :161-163 *)
  else
  ret (0, mkAx _ n m m m one                                                  (* :138-142 *)
            (Fn F_dct_EMx) (Fn F_dct_MtEty) (Fn F_dct_MtEt_EMx)               (* :144-146 *)
            (Fn F_dct_Mx) (Fn F_dct_Mty)                                      (* :148-149 *)
            (Fn F_dct_Identity) (Fn F_dct_Identity)                           (* :153-154 *)
            (Fn F_dct_Ex) (Fn F_dct_Ety)                                      (* :150-151 *)
            (Fn F_dct_destroy)).                                              (* :156 *)

(** dct1.c:177 Identity *)
Definition dct_Identity (x z : ptr) : M unit := let* d := get1 in cblas_dcopy (d1_m d) x z.

(** dct1.c:179-191 dct_Mx *)
Definition dct_Mx (x y : ptr) : M unit :=
  let* d := get1 in
  let* v := ld x 0 in sto x 0 (mul v (sqrt_ two)) ;!                          (* :182 *)
  execute_r2r (d1_plan_EMx d) x y ;!                                          (* :184 *)
  for_ 0 (d1_m d) (fun i => let* v := ld y i in sto y i (mul v (d1_root d))) ;!    (* :186-188 *)
  let* v := ld x 0 in sto x 0 (div v (sqrt_ two)).                            (* :190 *)

(** dct1.c:193-213 dct_Mty *)
Definition dct_Mty (y x : ptr) : M unit :=
  let* d := get1 in
  assume_aligned x ;!                                                         (* :203 *)
  execute_r2r (d1_plan_MtEty d) y x ;!                                        (* :207 *)
  let* v := ld x 0 in sto x 0 (div v (sqrt_ two)) ;!                          (* :209 *)
  for_ 0 (d1_m d) (fun i => let* v := ld x i in sto x i (mul v (d1_root d))). (* :210-212 *)

(** dct1.c:215-238 dct_EMx; y is restrict *)
Definition dct_EMx (x y : ptr) : M unit :=
  let* d := get1 in
  assume_aligned y ;! assume_aligned (d1_y d) ;!                              (* :223-224 *)
  restrict y (d1_n d) x (d1_m d) ;!                                           (* :215 *)
  let* x0_tmp := ld x 0 in                                                    (* :227 *)
  let* v := ld x 0 in sto x 0 (mul v (sqrt_ two)) ;!                          (* :228 *)
  execute_r2r (d1_plan_EMx d) x (d1_y d) ;!                                   (* :230 *)
  sto x 0 x0_tmp ;!                                                           (* :231 *)
  for_ 0 (d1_n d) (fun i =>                                                   (* :235-237 *)
    let* j := ldi (d1_mask d) i in let* v := ld (d1_y d) j in sto y i (mul v (d1_root d))).

(** the end of dct_MtEty and dct_MtEt_EMx (dct1.c:263-268 and 309-314), with x (z) for the result *)
Definition dct_back (d : dct1_statics) (x : ptr) : M unit :=
  execute (d1_plan_MtEty d) ;!
  (let* v := ld (d1_x d) 0 in sto (d1_x d) 0 (div v (sqrt_ two))) ;!
  for_ 0 (d1_m d) (fun i => let* v := ld (d1_x d) i in sto x i (mul v (d1_root d))).

(** dct1.c:240-269 dct_MtEty; x and y are restrict *)
Definition dct_MtEty (y x : ptr) : M unit :=
  let* d := get1 in
  assume_aligned y ;! assume_aligned x ;! assume_aligned (d1_x d) ;! assume_aligned (d1_Ety_sparse d) ;!   (* :249-252 *)
  restrict x (d1_m d) y (d1_n d) ;!                                           (* :240 *)
  for_ 0 (d1_n d) (fun i =>                                                   (* :257-260 *)
    let* j := ldi (d1_mask d) i in let* v := ld y i in sto (d1_Ety_sparse d) j v) ;!
  dct_back d x.                                                               (* :263-268 *)

(** dct1.c:271-315 dct_MtEt_EMx; x and z are restrict *)
Definition dct_MtEt_EMx (x z : ptr) : M unit :=
  let* d := get1 in
  assume_aligned (d1_y d) ;! assume_aligned (d1_Ety_sparse d) ;! assume_aligned (d1_x d) ;! assume_aligned z ;!   (* :284-287 *)
  restrict z (d1_m d) x (d1_m d) ;!                                           (* :271 *)
  let* x0_tmp := ld x 0 in                                                    (* :292 *)
  let* v := ld x 0 in sto x 0 (mul v (sqrt_ two)) ;!                          (* :293 *)
  execute_r2r (d1_plan_EMx d) x (d1_y d) ;!                                   (* :294 *)
  sto x 0 x0_tmp ;!                                                           (* :295 *)
  for_ 0 (d1_n d) (fun i =>                                                   (* :304-306 *)
    let* j := ldi (d1_mask d) i in let* v := ld (d1_y d) j in sto (d1_Ety_sparse d) j (mul v (d1_root d))) ;!
  dct_back d z.                                                               (* :309-314 *)

(** dct1.c:320-324 dct_Ex *)
Definition dct_Ex (x y : ptr) : M unit :=
  let* d := get1 in
  for_ 0 (d1_n d) (fun i => let* j := ldi (d1_mask d) i in let* v := ld x j in sto y i v).
(** dct1.c:333-340 dct_Ety *)
Definition dct_Ety (y x : ptr) : M unit :=
  let* d := get1 in
  cblas_dscal (d1_m d) zero x 1 ;!                                            (* :335 *)
  for_ 0 (d1_n d) (fun i => let* j := ldi (d1_mask d) i in let* v := ld y i in sto x j v).   (* :337-339 *)
End dct1.
