(** * Model of src/cgsolve.c. *)
From stdpp Require Import base list.
From Coq Require Import ZArith.
From Verif Require Import Mem M_Math.
Local Open Scope Z_scope.

Section cg.
Context `{N : Num}.

(** include/l1c.h:173-191 *)
Record CgResults : Type := mkCgR { cgres : T; cgiter : Z }.
Record CgParams : Type := mkCgP { cgp_verbose : Z; cgp_max_iter : Z; cgp_tol : T }.

(** cgsolve.c:101-103, :248-250 *)
Definition copy_loop (n : Z) (x y : ptr) : M unit :=
  for_ 0 n (fun i => let* v := ld x i in sto y i v).

(** cgsolve.c:63-161 l1c_cgsolve.  [ax p q] is AX_func with N and AX_data applied; the report at
    :146-148 is left out.  Locals carried by the loop: delta and best_rel_res.
    The result struct is returned instead of written through cg_result. *)
Definition cgsolve (n : Z) (x b Dwork : ptr) (ax : ptr -> ptr -> M unit) (prm : CgParams) : M CgResults :=
  let* r := ldp Dwork 0 in let* p := ldp Dwork 1 in                           (* :85-88 *)
  let* bestx := ldp Dwork 2 in let* q := ldp Dwork 3 in
  copy_loop n x bestx ;!                                                      (* :101-103 *)
  ax x r ;!                                                                   (* :107 *)
  l1c_daxpby n one b (opp one) r ;!                                           (* :108 *)
  cblas_dcopy n r p ;!                                                        (* :110 *)
  let* delta := cblas_ddot n r r in                                           (* :111 *)
  let* delta_0 := cblas_ddot n b b in                                         (* :113 *)
  let best := sqrt_ (div delta delta_0) in                                    (* :114 *)
  let* rr := for_brk 1 (cgp_max_iter prm + 1) (delta, best) (fun iter v =>    (* :116 *)
      let '(delta, best) := v in
      ax p q ;!                                                               (* :118 *)
      let* pq := cblas_ddot n p q in let alpha := div delta pq in             (* :120 *)
      cblas_daxpy n alpha p x ;!                                              (* :122 *)
      cblas_daxpy n (opp alpha) q r ;!                                        (* :131 *)
      let* delta' := cblas_ddot n r r in                                      (* :132-133 *)
      let beta := div delta' delta in                                         (* :135 *)
      l1c_daxpby n one r beta p ;!                                            (* :136 *)
      let rel_res := sqrt_ (div delta' delta_0) in                            (* :138 *)
      let* best' := (if ltb_ rel_res best then                                (* :139-143 *)
                       cblas_dcopy n x bestx ;! ret rel_res else ret best) in
      ret (if ltb_ rel_res (cgp_tol prm) then Stop (delta', best') else Go (delta', best'))) in  (* :150 *)
  let '(iter, (_, best)) := rr in
  i32 iter ;!                                                                 (* iter++ at :116 *)
  cblas_dcopy n bestx x ;!                                                    (* :156 *)
  ret (mkCgR best (Z.min iter (cgp_max_iter prm))).                           (* :157-158 *)

(** cgsolve.c:206-310 l1c_cgsolve_diag_precond *)
Definition cgsolve_diag_precond (n : Z) (x b M_inv_diag Dwork : ptr) (ax : ptr -> ptr -> M unit)
    (prm : CgParams) : M CgResults :=
  let* r := ldp Dwork 0 in let* p := ldp Dwork 1 in                           (* :231-235 *)
  let* bestx := ldp Dwork 2 in let* q := ldp Dwork 3 in let* z := ldp Dwork 4 in
  copy_loop n x bestx ;!                                                      (* :248-250 *)
  ax x r ;!                                                                   (* :254 *)
  l1c_daxpby n one b (opp one) r ;!                                           (* :255 *)
  l1c_dxmuly_z n r M_inv_diag z ;!                                            (* :258 *)
  cblas_dcopy n z p ;!                                                        (* :261 *)
  let* delta := cblas_ddot n r z in                                           (* :262 *)
  let* nrm_b_sqrd := cblas_ddot n b b in                                      (* :264 *)
  let best := sqrt_ (div delta nrm_b_sqrd) in                                 (* :265 *)
  let* rr := for_brk 1 (cgp_max_iter prm + 1) (delta, best) (fun iter v =>    (* :267 *)
      let '(delta, best) := v in
      ax p q ;!                                                               (* :269 *)
      let* pq := cblas_ddot n p q in let alpha := div delta pq in             (* :271 *)
      cblas_daxpy n alpha p x ;!                                              (* :273 *)
      cblas_daxpy n (opp alpha) q r ;!                                        (* :275 *)
      l1c_dxmuly_z n r M_inv_diag z ;!                                        (* :277 *)
      let* delta' := cblas_ddot n r z in                                      (* :279-280 *)
      let beta := div delta' delta in                                         (* :282 *)
      l1c_daxpby n one z beta p ;!                                            (* :283 *)
      let* nrm_r_sqrd := cblas_ddot n r r in                                  (* :285 *)
      let rel_res := sqrt_ (div nrm_r_sqrd nrm_b_sqrd) in                     (* :286 *)
      let* best' := (if ltb_ rel_res best then                                (* :288-292 *)
                       cblas_dcopy n x bestx ;! ret rel_res else ret best) in
      ret (if ltb_ rel_res (cgp_tol prm) then Stop (delta', best') else Go (delta', best'))) in  (* :299 *)
  let '(iter, (_, best)) := rr in
  i32 iter ;!                                                                 (* iter++ at :267 *)
  cblas_dcopy n bestx x ;!                                                    (* :305 *)
  ret (mkCgR best (Z.min iter (cgp_max_iter prm))).                           (* :306-307 *)

End cg.
