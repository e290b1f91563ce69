(** * Model of src/l1qc_dct.c. *)
From stdpp Require Import base list.
From Coq Require Import ZArith.
From Verif Require Import Globals Mem M_Math M_Memory M_Status M_CG M_LineSearch M_FFTW M_Dct1 M_Dct2 M_Dct M_TVt M_Newton.
Local Open Scope Z_scope.

Section l1qc_dct.
Context `{N : Num}.
Context (fft1 : fkind -> list T -> list T) (fft2 : fkind -> nat -> nat -> list T -> list T).

(** l1qc_dct.c:43, the local ax_funs before set-up: every field is indeterminate *)
Definition ax_local : AxFuns :=
  mkAx _ 0 0 0 0 zero FUninit FUninit FUninit FUninit FUninit FUninit FUninit FUninit FUninit FUninit.
(** the test [!f] of a function pointer *)
Definition not_set (f : fptr) : M bool := fun s => match f with FUninit => Ub UbUninit | FNull => Ok true s | Fn _ => Ok false s end.
(** a || b of C: b is evaluated only if a is false *)
Definition orelse (a b : M bool) : M bool := let* x := a in if x then ret true else b.

(** l1qc_dct.c:30-96 l1qc_dct.  Result: the return value and what was stored in *lb_res (None: it was
    not written).  Left out: the time measurement and the messages. *)
Definition l1qc_dct (mrow mcol : Z) (x_out : ptr) (n : Z) (b : ptr) (pix_idx : ptr) (opts : L1qcOpts) : M (Z * option LBResult) :=
  let* mtot := i32 (mrow * mcol) in                                                     (* :42 *)
  let* r := l1c_setup_dct_transforms n mrow mcol (lo_dct_mode opts) pix_idx ax_local in  (* :45 *)
  let '(status, ax_funs) := r in
  let* bad := orelse (ret (negb (status =? 0))) (orelse (not_set (ax_Ax ax_funs)) (orelse (not_set (ax_Aty ax_funs))
     (orelse (not_set (ax_AtAx ax_funs)) (not_set (ax_Mx ax_funs))))) in                (* :47 *)
  if bad then ret (L1C_DCT_INIT_FAILURE, None) else                                     (* :48-51, :94 *)
  let* eta_0 := l1c_calloc_double mtot in                                               (* :55 *)
  let* b_ours := l1c_malloc_double n in                                                 (* :56 *)
  let* res :=
    (if is_null b_ours || is_null eta_0 then ret (L1C_OUT_OF_MEMORY, None) else         (* :58-62 *)
     cblas_dcopy n b b_ours ;!                                                          (* :64 *)
     call fft1 fft2 (ax_Aty ax_funs) b_ours eta_0 ;!                                    (* :65 *)
     let* lb := l1c_l1qc_newton mtot eta_0 n b_ours opts (call fft1 fft2 (ax_Ax ax_funs))
                  (call fft1 fft2 (ax_Aty ax_funs)) (call fft1 fft2 (ax_AtAx ax_funs)) in   (* :67 *)
     if negb (lb_status lb =? 0) then ret (lb_status lb, Some lb) else                  (* :68-71 *)
     cblas_dcopy mtot eta_0 x_out ;!                                                    (* :75 *)
     call fft1 fft2 (ax_Mx ax_funs) eta_0 x_out ;!                                      (* :76 *)
     ret (0, Some lb)) in
  call_destroy (ax_destroy ax_funs) ;!                                                  (* :90 *)
  l1c_free_double b_ours ;!                                                             (* :92 *)
  l1c_free_double eta_0 ;!                                                              (* :93 *)
  ret res.
End l1qc_dct.
