(** * Model of src/nesta.c: Nesterov's algorithm for the constrained l1 problem. *)
From stdpp Require Import base list.
From Coq Require Import ZArith.
From Verif Require Import Globals Mem M_Math M_Memory M_Status.
Local Open Scope Z_scope.

(** include/nesta.h:6-7 *)
Definition NMEAN : Z := 10.
Definition MAX_INNER_ITER : Z := 10000.
(** address comparison p > q; the code only compares addresses inside one array *)
Definition ptr_gt (p q : ptr) : bool := match p, q with Ptr _ o, Ptr _ o' => o' <? o | _, _ => false end.

Section nesta.
Context `{N : Num}.
(** calling a field of ax_funs *)
Context (call : fptr -> ptr -> ptr -> M unit).

(** include/l1c.h:270-281 *)
Record NestaOpts : Type := mkNOpt { no_mu : T; no_tol : T; no_sigma : T; no_n_continue : Z; no_verbose : Z }.

(** include/nesta.h:66-70 *)
Record Fifo : Type := mkFifo { ff_vals : ptr; ff_total : Z; ff_next : ptr }.
(** nesta.c:45-55 _l1c_new_fmean_fifo.  The result of malloc is not tested. *)
Definition new_fifo : M Fifo :=
  let* fvals := malloc_d NMEAN in                                             (* :46 *)
  for_ 0 NMEAN (fun i => sto fvals i zero) ;!                                 (* :48-50 *)
  ret (mkFifo fvals 0 fvals).                                                 (* :52 *)
(** nesta.c:61-74 _l1c_push_fmeans_fifo; the changed struct is returned *)
Definition push_fifo (f : Fifo) (fval : T) : M Fifo :=
  sto (ff_next f) 0 fval ;!                                                   (* :63 *)
  let next := if ptr_gt (padd (ff_next f) 1) (padd (ff_vals f) (NMEAN - 1))   (* :65-69 *)
              then ff_vals f else padd (ff_next f) 1 in
  let total := if ff_total f <? NMEAN then ff_total f + 1 else ff_total f in  (* :71-73 *)
  ret (mkFifo (ff_vals f) total next).
(** nesta.c:83-92 _l1c_mean_fmean_fifo *)
Definition mean_fifo (f : Fifo) : M T :=
  let* mean := for_acc 0 NMEAN zero (fun i a => let* v := ld (ff_vals f) i in ret (add a v)) in   (* :87-89 *)
  ret (div mean (ofZ (ff_total f))).                                          (* :91 *)

(** include/nesta.h:14-64, struct _l1c_NestaProb.  The struct itself is the block np_self, which is
    allocated and released like in the C code.  Its fields are not stored there: the ones that are
    set once are fields of this record, and fx, mu_j and tol_j are passed to and returned by the
    functions that read and write them.  The fields mu, tol and n_continue are never read. *)
Record NProb : Type := mkNP {
  np_self : ptr; np_m : Z; np_n : Z; np_p : Z;
  np_xo : ptr; np_xk : ptr; np_yk : ptr; np_zk : ptr; np_Atb : ptr; np_gradf : ptr; np_gradf_sum : ptr;
  np_dwork1 : ptr; np_dwork2 : ptr;
  np_b : ptr; np_ax : AxFuns; np_sigma : T; np_L : T
}.

(** nesta.c:153-167 l1c_free_nesta_problem, for a non-NULL argument *)
Definition free_nesta_problem (NP : NProb) : M unit :=
  l1c_free_double (np_xo NP) ;! l1c_free_double (np_xk NP) ;! l1c_free_double (np_yk NP) ;!
  l1c_free_double (np_zk NP) ;! l1c_free_double (np_Atb NP) ;! l1c_free_double (np_gradf NP) ;!
  l1c_free_double (np_gradf_sum NP) ;! l1c_free_double (np_dwork1 NP) ;! l1c_free_double (np_dwork2 NP) ;!
  free_o (np_self NP).

(** nesta.c:98-146 _l1c_NestaProb_new; [None] is NULL *)
Definition NestaProb_new (ax_funs : AxFuns) : M (option NProb) :=
  let* self := alloc_o OStruct in                                             (* :100 *)
  if is_null self then ret None else                                          (* :101-103 *)
  let m := ax_m ax_funs in let n := ax_n ax_funs in let p := ax_p ax_funs in  (* :105-107 *)
  let* xo := l1c_calloc_double m in                                           (* :129-137 *)
  let* xk := l1c_calloc_double m in
  let* yk := l1c_calloc_double m in
  let* zk := l1c_calloc_double m in
  let* Atb := l1c_calloc_double m in
  let* gradf := l1c_calloc_double m in
  let* gradf_sum := l1c_calloc_double m in
  let* dwork1 := l1c_calloc_double (Z.max m p) in
  let* dwork2 := l1c_calloc_double (Z.max m p) in
  let NP := mkNP self m n p xo xk yk zk Atb gradf gradf_sum dwork1 dwork2 Null (ax0 (H := N)) zero zero in   (* :109-127 *)
  if is_null xo || is_null xk || is_null yk || is_null zk || is_null Atb || is_null gradf ||
     is_null gradf_sum || is_null dwork1 || is_null dwork2
  then free_nesta_problem NP ;! ret None                                      (* :139-143 *)
  else ret (Some NP).                                                         (* :145 *)

(** nesta.c:192-221 l1c_nesta_project *)
Definition nesta_project (NP : NProb) (mu_j : T) (xx g vk : ptr) : M unit :=
  let Aq := np_dwork2 NP in                                                   (* :197-198 *)
  let AtAq := np_dwork1 NP in
  let Lmu := div (np_L NP) mu_j in                                            (* :199 *)
  l1c_daxpy_z (np_m NP) (div (opp one) Lmu) g xx vk ;!                        (* :203 *)
  call (ax_Ax (np_ax NP)) vk Aq ;!                                            (* :205 *)
  call (ax_Aty (np_ax NP)) Aq AtAq ;!                                         (* :206 *)
  let* a0 := l1c_dnrm2_err (np_n NP) (np_b NP) Aq in                          (* :209 *)
  let a0 := mul Lmu (sub (div a0 (np_sigma NP)) one) in                       (* :210 *)
  let lambda := dmax zero a0 in                                               (* :212 *)
  let a1 := div lambda (add Lmu lambda) in                                    (* :214 *)
  cblas_daxpy (np_m NP) (mul (div lambda Lmu) (sub one a1)) (np_Atb NP) vk ;! (* :219 *)
  cblas_daxpy (np_m NP) (opp a1) AtAq vk.                                     (* :220 *)

(** nesta.c:237-258 l1c_nesta_feval; fx is returned *)
Definition nesta_feval (NP : NProb) (mu_j : T) : M T :=
  let Wtxk := np_dwork1 NP in                                                 (* :241-242 *)
  let u := np_dwork2 NP in
  call (ax_Wtx (np_ax NP)) (np_xk NP) Wtxk ;!                                 (* :246 *)
  for_ 0 (np_p NP) (fun i => let* w := ld Wtxk i in                           (* :248-250 *)
     sto u i (div w (dmax mu_j (fabs w)))) ;!
  let* nrm := cblas_dnrm2 (np_p NP) u in                                      (* :252 *)
  let nrm_u2 := mul nrm nrm in                                                (* :253 *)
  let* d := cblas_ddot (np_p NP) u Wtxk in
  let fx := sub d (mul (mul (lit 1 2) mu_j) nrm_u2) in                        (* :255 *)
  call (ax_Wz (np_ax NP)) u (np_gradf NP) ;!                                  (* :257 *)
  ret fx.

(** what l1c_nesta_setup computes besides filling the arrays: NP, mu_j, tol_j, *beta_mu, *beta_tol *)
Definition setup_vals : Type := (NProb * T * T * T * T)%type.
(** nesta.c:272-325 l1c_nesta_setup; [inl] is an error status *)
Definition nesta_setup (NP : NProb) (b : ptr) (ax_funs : AxFuns) (opts : NestaOpts) : M (Z + setup_vals) :=
  if fptr_is_null (ax_Wz ax_funs) || fptr_is_null (ax_Wtx ax_funs) ||
     fptr_is_null (ax_Rx ax_funs) || fptr_is_null (ax_Rty ax_funs)
  then ret (inl L1C_INCONSISTENT_ARGUMENTS) else                              (* :280-282 *)
  let L := mul (ax_norm_W ax_funs) (ax_norm_W ax_funs) in                     (* :283 *)
  let NP := mkNP (np_self NP) (np_m NP) (np_n NP) (np_p NP) (np_xo NP) (np_xk NP) (np_yk NP) (np_zk NP)
              (np_Atb NP) (np_gradf NP) (np_gradf_sum NP) (np_dwork1 NP) (np_dwork2 NP)
              b ax_funs (no_sigma opts) L in                                  (* :285-291 *)
  let Wtx_ref := np_dwork1 NP in                                              (* :295 *)
  call (ax_Aty (np_ax NP)) (np_b NP) (np_Atb NP) ;!                           (* :300 *)
  cblas_dcopy (np_m NP) (np_Atb NP) (np_xo NP) ;!                             (* :301 *)
  call (ax_Wtx (np_ax NP)) (np_xo NP) Wtx_ref ;!                              (* :303 *)
  l1c_abs_vec (np_m NP) Wtx_ref Wtx_ref ;!                                    (* :304 *)
  let* mx := l1c_max_vec (np_p NP) Wtx_ref in
  let mu0 := mul (lit 9 10) mx in                                             (* :305 *)
  let tol0 := lit 1 10 in                                                     (* :309 *)
  let nc := ofZ (no_n_continue opts) in
  let beta_mu := exp_ (div (log_ (div (no_mu opts) mu0)) nc) in               (* :317 *)
  let beta_tol := exp_ (div (log_ (div (no_tol opts) tol0)) nc) in            (* :318 *)
  ret (inr (NP, mu0, tol0, beta_mu, beta_tol)).                               (* :321-324 *)

(** nesta.c:413-454, one iteration of the inner loop.  Printing is left out. *)
Definition nesta_iter (NP : NProb) (m : Z) (mu_j tol_j : T) (k : Z) (f : Fifo) : M (ctl Fifo) :=
  let* fx := nesta_feval NP mu_j in                                           (* :414 *)
  nesta_project NP mu_j (np_xk NP) (np_gradf NP) (np_yk NP) ;!                (* :417 *)
  let alpha_k := mul (lit 1 2) (ofZ (k + 1)) in                               (* :422 *)
  let tau_k := div two (ofZ (k + 3)) in                                       (* :423 *)
  cblas_daxpy m alpha_k (np_gradf NP) (np_gradf_sum NP) ;!                    (* :426 *)
  nesta_project NP mu_j (np_xo NP) (np_gradf_sum NP) (np_zk NP) ;!            (* :429 *)
  l1c_daxpby_z m tau_k (np_zk NP) (sub one tau_k) (np_yk NP) (np_xk NP) ;!    (* :433 *)
  let* fbar := mean_fifo f in                                                 (* :439 *)
  let* f := push_fifo f fx in                                                 (* :440 *)
  let rel_delta_fmu := div (fabs (sub fx fbar)) fbar in                       (* :441 *)
  ret (if ltb_ rel_delta_fmu tol_j then Stop f else Go f).                    (* :446-453 *)

(** nesta.c:395-457, one continuation stage *)
Definition nesta_stage (NP : NProb) (m : Z) (beta_mu beta_tol : T) (v : T * T * Fifo) : M (T * T * Fifo) :=
  let '(mu_j, tol_j, f) := v in
  let mu_j := mul mu_j beta_mu in                                             (* :396-397 *)
  let tol_j := mul tol_j beta_tol in
  l1c_init_vec NMEAN (ff_vals f) zero ;!                                      (* :400-402 *)
  let f := mkFifo (ff_vals f) 0 (ff_vals f) in
  l1c_init_vec m (np_gradf_sum NP) zero ;!                                    (* :404 *)
  let* r := for_brk 0 MAX_INNER_ITER f (nesta_iter NP m mu_j tol_j) in        (* :413-454 *)
  cblas_dcopy (np_m NP) (np_xk NP) (np_xo NP) ;!                              (* :456 *)
  ret (mu_j, tol_j, snd r).

(** nesta.c:363-463 l1c_nesta.  The message at :374 is left out.  [i32 (Z.max ..)] is the check of
    iter++ at :395. *)
Definition l1c_nesta (m : Z) (xk : ptr) (n : Z) (b : ptr) (ax_funs : AxFuns) (opts : NestaOpts) : M Z :=
  if negb (n =? ax_n ax_funs) || negb (m =? ax_m ax_funs) then ret L1C_INVALID_ARGUMENT   (* :371-373 *)
  else
  let* o := NestaProb_new ax_funs in                                          (* :379 *)
  match o with
  | None => ret L1C_OUT_OF_MEMORY                                             (* :381-383 *)
  | Some NP =>
      let* st := nesta_setup NP b ax_funs opts in                             (* :386 *)
      match st with
      | inl status => ret status                                              (* :387-389 *)
      | inr (NP, mu_j, tol_j, beta_mu, beta_tol) =>
          let* f := new_fifo in                                               (* :391 *)
          cblas_dcopy (np_m NP) (np_xo NP) (np_xk NP) ;!                      (* :393 *)
          let* r := for_acc 1 (no_n_continue opts + 1) (mu_j, tol_j, f)       (* :395-457 *)
                      (fun _ => nesta_stage NP m beta_mu beta_tol) in
          i32 (Z.max 1 (no_n_continue opts + 1)) ;!
          cblas_dcopy m (np_xk NP) xk ;!                                      (* :459 *)
          free_nesta_problem NP ;!                                            (* :460 *)
          free_d (ff_vals (snd r)) ;!                                         (* :461 *)
          ret 0                                                               (* :462 *)
      end
  end.
End nesta.
