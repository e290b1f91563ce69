(** * Model of src/dct_tv_transforms.c, and of calls through the function pointers of a struct l1c_AxFuns.
    The unused field [data] of the struct is dropped. *)
From stdpp Require Import base list.
From Coq Require Import ZArith.
From Verif Require Import Globals Mem M_Math M_Memory M_Status M_FFTW M_TV M_Dct1 M_Dct2 M_Dct M_Matrix.
Local Open Scope Z_scope.

(** include/l1c.h:65 BpMode; any int may be stored in one *)
Definition analysis : Z := 1.
Definition synthesis : Z := 2.

Section tvt.
Context `{N : Num}.
Context (fft1 : fkind -> list T -> list T) (fft2 : fkind -> nat -> nat -> list T -> list T).

(** A call through a function pointer (include/l1c.h:115-165) to one of the functions of src/dct1.c,
    src/dct2.c and src/matrix_transforms.c *)
Definition call_base (f : fptr) (a b : ptr) : M unit :=
  match f with
  | Fn F_dct_Mx => dct_Mx fft1 fft2 a b | Fn F_dct_Mty => dct_Mty fft1 fft2 a b
  | Fn F_dct_EMx => dct_EMx fft1 fft2 a b | Fn F_dct_MtEty => dct_MtEty fft1 fft2 a b
  | Fn F_dct_MtEt_EMx => dct_MtEt_EMx fft1 fft2 a b
  | Fn F_dct_Ex => dct_Ex a b | Fn F_dct_Ety => dct_Ety a b | Fn F_dct_Identity => dct_Identity a b
  | Fn F_dct2_Mx => dct2_Mx fft1 fft2 a b | Fn F_dct2_Mty => dct2_Mty fft1 fft2 a b
  | Fn F_dct2_EMx => dct2_EMx fft1 fft2 a b | Fn F_dct2_MtEty => dct2_MtEty fft1 fft2 a b
  | Fn F_dct2_MtEt_EMx => dct2_MtEt_EMx fft1 fft2 a b
  | Fn F_dct2_Ex => dct2_Ex a b | Fn F_dct2_Ety => dct2_Ety a b | Fn F_dct2_Identity => dct2_Identity a b
  | Fn F_mt_Ax => mt_Ax a b | Fn F_mt_Aty => mt_Aty a b | Fn F_mt_AtAx => mt_AtAx a b
  | Fn F_mt_Identity => mt_Identity a b
  | _ => fun _ => Ub UbCall
  end.
(** A call of the field destroy (include/l1c.h:163) *)
Definition call_destroy_base (f : fptr) : M unit :=
  match f with
  | Fn F_dct_destroy => dct_destroy | Fn F_dct2_destroy => dct2_destroy | Fn F_mt_destroy => mt_destroy
  | _ => fun _ => Ub UbCall
  end.

(** reading and changing the static variables :23-35 *)
Definition gett : M tv_statics := let* g := getg in ret (g_tv g).
Definition sett (f : tv_statics -> tv_statics) : M unit :=
  setg (fun g => mkGlob _ (g_d1 g) (g_d2 g) (f (g_tv g)) (g_mt g) (g_printf g)).

(** dct_tv_transforms.c:63-171 l1c_setup_dctTV_transforms; [ax] is the struct behind ax_funs *)
Definition l1c_setup_dctTV_transforms (n mrow mcol : Z) (alp_v alp_h : T) (dct_mode bp_mode : Z) (pix_idx : ptr) (ax : AxFuns) : M (Z * AxFuns) :=
  let* m := i32 (mrow * mcol) in
  sett (fun t => mkTV _ m mrow mcol m alp_h alp_v (tv_ax t) (tv_u t) 0 0 false false) ;!     (* :72-81 *)
  if (n <=? 0) || (mrow <=? 0) || (mcol <=? 0) || ltb_ alp_v zero || ltb_ alp_h zero
  then ret (L1C_INVALID_ARGUMENT, ax) else                                    (* :83-85 *)
  if (ltb_ zero alp_h || ltb_ zero alp_v) && ((mrow <=? 2) || (mcol <=? 2))
  then ret (L1C_INVALID_ARGUMENT, ax) else                                    (* :87-89 *)
  let* c := check_pix_idx n pix_idx (m - 1) in                                (* :91-93 *)
  if negb (c =? 0) then ret (L1C_INVALID_ARGUMENT, ax) else
  let norm_W := if bp_mode =? analysis                                        (* :100-104 *)
                then sqrt_ (add (add one (mul (mul (ofZ 4) alp_v) alp_v)) (mul (mul (ofZ 4) alp_h) alp_h)) else one in
  let job_V := ltb_ zero alp_v in let job_H := ltb_ zero alp_h in
  let inc_TVV := if job_V then m else 0 in                                    (* :111-115 *)
  let* p1 := i32 (if job_V then m + m else m) in
  let* inc_TVH := i32 (if job_H then inc_TVV + m else 0) in                   (* :117-121 *)
  let* p := i32 (if job_H then p1 + m else p1) in
  sett (fun t => mkTV _ (tv_m t) (tv_mrow t) (tv_mcol t) p (tv_alp_h t) (tv_alp_v t) (tv_ax t) (tv_u t) inc_TVH inc_TVV job_V job_H) ;!
  let ax' := mkAx _ n m (if bp_mode =? synthesis then p else m) (if bp_mode =? synthesis then m else p) norm_W
               (ax_Ax ax) (ax_Aty ax) (ax_AtAx ax) (ax_Mx ax) (ax_Mty ax) (ax_Wz ax) (ax_Wtx ax) (ax_Rx ax) (ax_Rty ax) (ax_destroy ax) in   (* :123-132 *)
  let* u := l1c_malloc_double p in                                            (* :134 *)
  sett (fun t => mkTV _ (tv_m t) (tv_mrow t) (tv_mcol t) (tv_p t) (tv_alp_h t) (tv_alp_v t) (tv_ax t) u (tv_inc_TVH t) (tv_inc_TVV t) (tv_job_V t) (tv_job_H t)) ;!
  if is_null u then ret (L1C_OUT_OF_MEMORY, ax') else                         (* :136-138 *)
  let* t := gett in
  let* r := l1c_setup_dct_transforms n mrow mcol dct_mode pix_idx (tv_ax t) in    (* :140 *)
  sett (fun t => mkTV _ (tv_m t) (tv_mrow t) (tv_mcol t) (tv_p t) (tv_alp_h t) (tv_alp_v t) (snd r) (tv_u t) (tv_inc_TVH t) (tv_inc_TVV t) (tv_job_V t) (tv_job_H t)) ;!
  if negb (fst r =? 0) then l1c_free_double u ;! ret (fst r, ax') else        (* :141-143, 168-170 *)
  ret (fst r,
    if bp_mode =? synthesis then                                              (* :145-154 *)
      mkAx _ (ax_n ax') (ax_q ax') (ax_m ax') (ax_p ax') (ax_norm_W ax') (Fn F_tv_Av) (Fn F_tv_Aty) (ax_AtAx ax') (Fn F_tv_Wv) (Fn F_tv_Wtx)
        (Fn F_tv_Identity) (Fn F_tv_Identity) (Fn F_tv_Rx) (Fn F_tv_Rty) (Fn F_tv_destroy)
    else                                                                      (* :155-163 *)
      mkAx _ (ax_n ax') (ax_q ax') (ax_m ax') (ax_p ax') (ax_norm_W ax') (Fn F_tv_Rx) (Fn F_tv_Rty) (ax_AtAx ax') (Fn F_tv_Identity) (Fn F_tv_Identity)
        (Fn F_tv_Wv) (Fn F_tv_Wtx) (Fn F_tv_Rx) (Fn F_tv_Rty) (Fn F_tv_destroy)).

(** dct_tv_transforms.c:173-176 destroy *)
Definition tv_destroy : M unit := let* t := gett in call_destroy_base (ax_destroy (tv_ax t)) ;! let* t := gett in l1c_free_double (tv_u t).
(** dct_tv_transforms.c:178 Identity *)
Definition tv_Identity (x z : ptr) : M unit := let* t := gett in cblas_dcopy (tv_m t) x z.
(** dct_tv_transforms.c:186-202 Wv *)
Definition tv_Wv (v y : ptr) : M unit :=
  let* t := gett in
  let u := tv_u t in
  let u_TVV := padd u (tv_inc_TVV t) in let u_TVH := padd u (tv_inc_TVH t) in     (* :188-189 *)
  call_base (ax_Mx (tv_ax t)) v u ;!                                          (* :190 *)
  cblas_dcopy (tv_m t) u y ;!                                                 (* :191 *)
  (if tv_job_V t then                                                         (* :193-196 *)
     l1c_Dy (tv_mrow t) (tv_mcol t) (tv_alp_v t) (padd v (tv_inc_TVV t)) u_TVV ;! cblas_daxpy (tv_m t) one u_TVV y
   else ret tt) ;!
  (if tv_job_H t then                                                         (* :198-201 *)
     l1c_Dx (tv_mrow t) (tv_mcol t) (tv_alp_h t) (padd v (tv_inc_TVH t)) u_TVH ;! cblas_daxpy (tv_m t) one u_TVH y
   else ret tt).
(** dct_tv_transforms.c:211-224 Wtx *)
Definition tv_Wtx (x v : ptr) : M unit :=
  let* t := gett in
  let v_dxv := padd v (tv_inc_TVV t) in let v_dxh := padd v (tv_inc_TVH t) in     (* :213-214 *)
  call_base (ax_Mty (tv_ax t)) x v ;!                                         (* :216 *)
  (if tv_job_V t then l1c_DyT (tv_mrow t) (tv_mcol t) (tv_alp_v t) x v_dxv else ret tt) ;!    (* :218-220 *)
  (if tv_job_H t then l1c_DxT (tv_mrow t) (tv_mcol t) (tv_alp_h t) x v_dxh else ret tt).      (* :221-223 *)
(** dct_tv_transforms.c:226 Rx *)
Definition tv_Rx (x y : ptr) : M unit := let* t := gett in call_base (ax_Rx (tv_ax t)) x y.
(** dct_tv_transforms.c:228 Rty *)
Definition tv_Rty (y x : ptr) : M unit := let* t := gett in call_base (ax_Rty (tv_ax t)) y x.
(** dct_tv_transforms.c:230-233 Av *)
Definition tv_Av (v y : ptr) : M unit :=
  let* t := gett in
  tv_Wv v (tv_u t) ;! call_base (ax_Rx (tv_ax t)) (tv_u t) y.
(** dct_tv_transforms.c:235-239 Aty *)
Definition tv_Aty (y v : ptr) : M unit :=
  let* t := gett in
  call_base (ax_Rty (tv_ax t)) y (tv_u t) ;! tv_Wtx (tv_u t) v.

(** A call through any function pointer of a struct l1c_AxFuns the library filled in
    (include/l1c.h:115-165) *)
Definition call (f : fptr) (a b : ptr) : M unit :=
  match f with
  | Fn F_tv_Wv => tv_Wv a b | Fn F_tv_Wtx => tv_Wtx a b | Fn F_tv_Rx => tv_Rx a b | Fn F_tv_Rty => tv_Rty a b
  | Fn F_tv_Av => tv_Av a b | Fn F_tv_Aty => tv_Aty a b | Fn F_tv_Identity => tv_Identity a b
  | _ => call_base f a b
  end.
Definition call_destroy (f : fptr) : M unit :=
  match f with Fn F_tv_destroy => tv_destroy | _ => call_destroy_base f end.
End tvt.
