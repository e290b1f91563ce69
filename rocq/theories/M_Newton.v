(** * Model of src/l1qc_newton.c: the log-barrier Newton solver. *)
From stdpp Require Import base list.
From Coq Require Import ZArith.
From Verif Require Import Mem M_Math M_Memory M_Status M_LineSearch M_CG.
Local Open Scope Z_scope.

Section newton.
Context `{N : Num}.

(** A local variable that is accessed through pointers: n double cells that always exist while the
    function runs.  It takes a block number but no allocation decision. *)
Definition local_d (n : nat) : M ptr := fun s =>
  Ok (Ptr (nx s) 0) (tick (set_al (nx s) true (set_dm (<[nx s := replicate n None]>) s))).

(** include/l1c.h:220-259 *)
Record L1qcOpts : Type := mkL1qc {
  lo_epsilon : T; lo_mu : T; lo_lbtol : T; lo_tau : T; lo_lbiter : Z;
  lo_newton_tol : T; lo_newton_max_iter : Z; lo_verbose : Z; lo_l1_tol : T;
  lo_cg_tol : T; lo_cg_maxiter : Z; lo_cg_verbose : Z; lo_warm_start_cg : Z; lo_dct_mode : Z
}.
(** include/l1c.h:203-214 *)
Record LBResult : Type := mkLB { lb_l1 : T; lb_newton : Z; lb_cg : Z; lb_status : Z }.

(** include/l1qc_newton.h:45-69, struct l1c_l1qcProb.  Its fields tau, fe_val and f_val change while
    the solver runs and f_val is also reached through a pointer, so these three live in memory, in the
    cells pb_sc[0], pb_sc[1], pb_sc[2].  The other fields do not change once set.  Of ax_funs only the
    functions that the solver calls are kept; a function stored in the struct is modelled by what
    calling it does. *)
Record Prob : Type := mkProb {
  pb_sc : ptr;
  pb_m : Z; pb_n : Z; pb_b : ptr; pb_epsilon : T;
  pb_r : ptr; pb_fu1 : ptr; pb_fu2 : ptr; pb_w1p : ptr; pb_dx : ptr; pb_du : ptr;
  pb_sig11 : ptr; pb_sig12 : ptr; pb_ntgu : ptr; pb_gradf : ptr; pb_DWORK7 : ptr;
  pb_Ax : ptr -> ptr -> M unit; pb_Aty : ptr -> ptr -> M unit; pb_AtAx : ptr -> ptr -> M unit
}.

(** l1qc_newton.c:39-65 _l1c_l1qc_f_eval *)
Definition f_eval (P : Prob) (x u : ptr) : M T :=
  pb_Ax P x (pb_r P) ;!                                                       (* :49 *)
  cblas_daxpy (pb_n P) (opp one) (pb_b P) (pb_r P) ;!                         (* :50 *)
  l1c_daxpy_z (pb_m P) (opp one) u x (pb_fu1 P) ;!                            (* :53 *)
  l1c_daxpby_z (pb_m P) (opp one) x (opp one) u (pb_fu2 P) ;!                 (* :55 *)
  let* rr := cblas_ddot (pb_n P) (pb_r P) (pb_r P) in                         (* :57 *)
  sto (pb_sc P) 1 (mul (lit 1 2) (sub rr (mul (pb_epsilon P) (pb_epsilon P)))) ;!
  let* a1 := vcl_logsum (pb_m P) (opp one) (pb_fu1 P) in                      (* :59 *)
  let* a2 := vcl_logsum (pb_m P) (opp one) (pb_fu2 P) in                      (* :60 *)
  let* fe := ld (pb_sc P) 1 in
  let a3 := log_ (opp fe) in                                                  (* :61 *)
  let* su := vcl_sum (pb_m P) u in
  let* tau := ld (pb_sc P) 0 in
  sto (pb_sc P) 2 (sub su (mul (div one tau) (add (add a1 a2) a3))) ;!        (* :62 *)
  ld (pb_sc P) 2.                                                             (* :64 *)

(** include/l1qc_newton.h:13-20 (the field Dwork_1m is never read) *)
Record HessData : Type := mkHD {
  hd_one_by_fe : T; hd_one_by_fe_sqrd : T; hd_atr : ptr; hd_sigx : ptr; hd_AtAx : ptr -> ptr -> M unit
}.
(** l1qc_newton.c:69-81 _l1c_l1qc_H11pfun *)
Definition H11pfun (m : Z) (z y : ptr) (h : HessData) : M unit :=
  let* d := cblas_ddot m (hd_atr h) z in                                      (* :74 *)
  let atr_dot_z_fe := mul d (hd_one_by_fe_sqrd h) in                          (* :75 *)
  hd_AtAx h z y ;!                                                            (* :78 *)
  l1c_daxpby m atr_dot_z_fe (hd_atr h) (opp (hd_one_by_fe h)) y ;!            (* :79 *)
  vcl_dxMy_pz m (hd_sigx h) z y.                                              (* :80 *)

(** l1qc_newton.c:129-150, one iteration of the parallel loop *)
Definition hess_body (P : Prob) (sigx atr : ptr) (tau fe mone_by_tau : T) (i : Z) : M unit :=
  let* fu1 := ld (pb_fu1 P) i in let one_by_fu1 := div one fu1 in             (* :129 *)
  let* fu2 := ld (pb_fu2 P) i in let one_by_fu2 := div one fu2 in             (* :130 *)
  let* a := ld atr i in let one_by_fe_Atr := mul (div one fe) a in            (* :131 *)
  let ntgz := add (sub one_by_fu1 one_by_fu2) one_by_fe_Atr in                (* :133 *)
  let ntgu := sub (sub (opp tau) one_by_fu1) one_by_fu2 in                    (* :134 *)
  sto (pb_gradf P) i (mul mone_by_tau ntgz) ;!                                (* :137 *)
  let* im := i32 (i + pb_m P) in
  sto (pb_gradf P) im (mul mone_by_tau ntgu) ;!                               (* :138 *)
  let sig11 := add (mul one_by_fu1 one_by_fu1) (mul one_by_fu2 one_by_fu2) in (* :141 *)
  let sig12 := add (mul (opp one_by_fu1) one_by_fu1) (mul one_by_fu2 one_by_fu2) in  (* :142 *)
  sto sigx i (sub sig11 (div (mul sig12 sig12) sig11)) ;!                     (* :144 *)
  sto (pb_w1p P) i (sub ntgz (mul (div sig12 sig11) ntgu)) ;!                 (* :146 *)
  sto (pb_sig11 P) i sig11 ;!                                                 (* :148 *)
  sto (pb_sig12 P) i sig12 ;!                                                 (* :149 *)
  sto (pb_ntgu P) i ntgu.                                                     (* :150 *)
(** l1qc_newton.c:115-152 _l1c_l1qc_hess_grad *)
Definition hess_grad (P : Prob) (sigx atr : ptr) : M unit :=
  let* tau := ld (pb_sc P) 0 in                                               (* :121-122 *)
  let mone_by_tau := div (opp one) tau in
  let* fe := ld (pb_sc P) 1 in                                                (* :123 *)
  for_ 0 (pb_m P) (hess_body P sigx atr tau fe mone_by_tau).                  (* :125-151 *)

(** l1qc_newton.c:204-205, one iteration of the parallel loop *)
Definition du_body (P : Prob) (i : Z) : M unit :=
  let* s11 := ld (pb_sig11 P) i in let* g := ld (pb_ntgu P) i in
  let* s12 := ld (pb_sig12 P) i in let* d := ld (pb_dx P) i in
  sto (pb_du P) i (sub (mul (div one s11) g) (mul (div s12 s11) d)).
(** l1qc_newton.c:164-209 _l1c_l1qc_descent_dir.  The CG result is returned beside the status. *)
Definition descent_dir (P : Prob) (cg_params : CgParams) : M (Z * CgResults) :=
  let* fe := ld (pb_sc P) 1 in                                                (* :172 *)
  let* sigx := ldp (pb_DWORK7 P) 0 in                                         (* :174 *)
  let* _d1 := ldp (pb_DWORK7 P) 1 in                                          (* :175 *)
  let* atr := ldp (pb_DWORK7 P) 2 in                                          (* :176 *)
  let Dwork_4m := padd (pb_DWORK7 P) 3 in                                     (* :177 *)
  pb_Aty P (pb_r P) atr ;!                                                    (* :179 *)
  hess_grad P sigx atr ;!                                                     (* :181 *)
  let h11p_data := mkHD (div one fe) (div one (mul fe fe)) atr sigx (pb_AtAx P) in  (* :183-187 *)
  let* cg_result := cgsolve (pb_m P) (pb_dx P) (pb_w1p P) Dwork_4m            (* :189-196 *)
                      (fun z y => H11pfun (pb_m P) z y h11p_data) cg_params in
  if ltb_ (lit 1 2) (cgres cg_result) then ret (L1C_CGSOLVE_FAILURE, cg_result)     (* :198-200 *)
  else for_ 0 (pb_m P) (du_body P) ;! ret (0, cg_result).                     (* :202-208 *)

(** l1qc_newton.c:226-284 _l1c_l1qc_find_max_step.  The warning at :248-250 is left out. *)
Definition find_max_step (P : Prob) : M T :=
  let* Adx := ldp (pb_DWORK7 P) 0 in                                          (* :230 *)
  pb_Ax P (pb_dx P) Adx ;!                                                    (* :237 *)
  let* aqe := cblas_ddot (pb_n P) Adx Adx in                                  (* :239 *)
  let* rA := cblas_ddot (pb_n P) (pb_r P) Adx in
  let bqe := mul two rA in                                                    (* :240 *)
  let* rr := cblas_ddot (pb_n P) (pb_r P) (pb_r P) in
  let cqe := sub rr (mul (pb_epsilon P) (pb_epsilon P)) in                    (* :241 *)
  let root := div (add (opp bqe) (sqrt_ (sub (mul bqe bqe) (mul (mul (ofZ 4) aqe) cqe))))
                  (mul two aqe) in                                            (* :243 *)
  let root := if isnan root then one else root in                             (* :247-252 *)
  let* min_u1 := for_acc 0 (pb_m P) pinf (fun i mn =>                         (* :264-271 *)
     let* dx := ld (pb_dx P) i in let* du := ld (pb_du P) i in
     if negb (ltb_ zero (sub dx du)) then ret mn
     else let* f := ld (pb_fu1 P) i in ret (dmin mn (div (opp f) (sub dx du)))) in
  let* min_u2 := for_acc 0 (pb_m P) pinf (fun i mn =>                         (* :272-279 *)
     let* dx := ld (pb_dx P) i in let* du := ld (pb_du P) i in
     if negb (ltb_ zero (sub (opp dx) du)) then ret mn
     else let* f := ld (pb_fu2 P) i in ret (dmin mn (div (opp f) (sub (opp dx) du)))) in
  let smax := dmin min_u1 min_u2 in                                           (* :281 *)
  let smax := dmin smax root in                                               (* :282 *)
  ret (mul (dmin one smax) (lit 99 100)).                                     (* :283 *)

(** l1qc_newton.c:288-315 _l1c_l1qc_newton_init.  The changed fields of params, tau and lbiter, are
    returned. *)
Definition newton_init (m : Z) (x u : ptr) (params : L1qcOpts) : M (T * Z) :=
  let* x_max := for_acc 0 m ninf (fun i mx => let* v := ld x i in ret (dmax mx (fabs v))) in  (* :293-296 *)
  for_ 0 m (fun i => let* v := ld x i in                                      (* :297-299 *)
     sto u i (add (mul (lit 95 100) (fabs v)) (mul (lit 10 100) x_max))) ;!
  let* tmp := l1c_dnorm1 m x in                                               (* :305 *)
  let* c := i32 (2 * m + 1) in
  let tmp := div (ofZ c) tmp in                                               (* :306 *)
  let tau := dmax tmp one in                                                  (* :307 *)
  if lo_lbiter params =? 0 then                                               (* :310-313 *)
    let tmp := sub (sub (log_ (add (mul two (ofZ m)) one)) (log_ (lo_lbtol params))) (log_ tau) in
    let* lbiter := cast_int (ceil_ (div tmp (log_ (lo_mu params)))) in
    ret (tau, lbiter)
  else ret (tau, lo_lbiter params).

(** l1qc_newton.c:317-334 _l1c_l1qc_check_feasible_start *)
Definition check_feasible_start (P : Prob) (x : ptr) : M Z :=
  let* DWORK := ldp (pb_DWORK7 P) 0 in                                        (* :322 *)
  pb_Ax P x DWORK ;!                                                          (* :324 *)
  cblas_daxpy (pb_n P) (opp one) (pb_b P) DWORK ;!                            (* :325 *)
  let* nr := cblas_dnrm2 (pb_n P) DWORK in
  let tmp := sub nr (pb_epsilon P) in                                         (* :327 *)
  ret (if ltb_ zero tmp then L1C_INFEASIBLE_START else 0).                    (* :328-333 *)

(** l1qc_newton.c:338-391 _l1c_l1qcProb_new.  The struct is returned beside the status. *)
Definition l1qcProb_new (sc : ptr) (m n : Z) (b : ptr) (epsilon tau : T)
    (Ax Aty AtAx : ptr -> ptr -> M unit) : M (Z * Prob) :=
  sto sc 0 zero ;! sto sc 1 zero ;! sto sc 2 zero ;!                          (* :345-362 *)
  sto sc 0 tau ;!                                                             (* :367 *)
  let* r := l1c_calloc_double n in                                            (* :369-371 *)
  let* fu1 := l1c_calloc_double m in
  let* fu2 := l1c_calloc_double m in
  sto sc 2 zero ;! sto sc 1 zero ;!                                           (* :372-373 *)
  let* w1p := l1c_calloc_double m in                                          (* :375-380 *)
  let* dx := l1c_calloc_double m in
  let* du := l1c_calloc_double m in
  let* sig11 := l1c_calloc_double m in
  let* sig12 := l1c_calloc_double m in
  let* ntgu := l1c_calloc_double m in
  let* m2 := i32 (2 * m) in
  let* gradf := l1c_calloc_double m2 in                                       (* :381 *)
  let* DWORK7 := l1c_calloc_double_2D 7 m in                                  (* :382 *)
  let P := mkProb sc m n b epsilon r fu1 fu2 w1p dx du sig11 sig12 ntgu gradf DWORK7 Ax Aty AtAx in
  if is_null r || is_null fu1 || is_null fu2 || is_null w1p || is_null dx || is_null du ||
     is_null sig11 || is_null sig12 || is_null ntgu || is_null gradf || is_null DWORK7
  then ret (L1C_OUT_OF_MEMORY, P)                                             (* :384-387 *)
  else ret (0, P).                                                            (* :389-390 *)

(** l1qc_newton.c:396-411 _l1c_l1qcProb_delete; [None] is a struct that was never written *)
Definition l1qcProb_delete (o : option Prob) : M unit :=
  match o with
  | None => undef UbUninit
  | Some P =>
      l1c_free_double (pb_r P) ;! l1c_free_double (pb_fu1 P) ;! l1c_free_double (pb_fu2 P) ;!
      l1c_free_double (pb_w1p P) ;! l1c_free_double (pb_dx P) ;! l1c_free_double (pb_du P) ;!
      l1c_free_double (pb_sig11 P) ;! l1c_free_double (pb_sig12 P) ;! l1c_free_double (pb_ntgu P) ;!
      l1c_free_double (pb_gradf P) ;! l1c_free_double_2D 7 (pb_DWORK7 P)
  end.

(** local variables carried by the Newton loop: l1_prev, ls_stat.step, lb_res.total_cg_iter *)
Definition nwv : Type := (T * T * Z)%type.
(** l1qc_newton.c:501-573, one Newton iteration.  Reports are left out. *)
Definition newton_iter (P : Prob) (x u : ptr) (params : L1qcOpts) (v : nwv) : M (ctl nwv) :=
  let '(l1_prev, step, tcg) := v in
  (if lo_warm_start_cg params =? 0 then cblas_dscal (pb_m P) zero (pb_dx P) 1       (* :504-508 *)
   else if lo_warm_start_cg params =? 2 then cblas_dscal (pb_m P) step (pb_dx P) 1
   else ret tt) ;!
  let* dd := descent_dir P (mkCgP (lo_cg_verbose params) (lo_cg_maxiter params) (lo_cg_tol params)) in  (* :514-517 *)
  let* tcg := i32 (tcg + cgiter (snd dd)) in                                  (* :519 *)
  let* smax := find_max_step P in                                             (* :522 *)
  let* g1 := cblas_ddot (pb_m P) (pb_gradf P) (pb_dx P) in                    (* :524-525 *)
  let* g2 := cblas_ddot (pb_m P) (padd (pb_gradf P) (pb_m P)) (pb_du P) in
  let g_dot_dxu := add g1 g2 in
  let* ls := linesearch_xu (pb_m P) x u (pb_dx P) (pb_du P) (padd (pb_sc P) 2) g_dot_dxu   (* :527-537 *)
               (f_eval P) (mkLSP (lit 1 100) (lit 1 2) smax) (pb_DWORK7 P) in
  if 0 <? ls_status ls then ret (Stop (l1_prev, ls_step ls, tcg))             (* :539-548 *)
  else
    let lambda2 := opp g_dot_dxu in                                           (* :551 *)
    if ltb_ (div lambda2 two) (lo_newton_tol params) then ret (Stop (l1_prev, ls_step ls, tcg))  (* :558-560 *)
    else
      let* l1 := l1c_dnorm1 (pb_m P) x in                                     (* :562 *)
      let rate := div (fabs (sub l1_prev l1)) l1 in                           (* :563 *)
      ret (if ltb_ rate (lo_l1_tol params) then Stop (l1, ls_step ls, tcg)    (* :565-572 *)
           else Go (l1, ls_step ls, tcg)).

(** local variables carried by the log-barrier loop: params.tau, ls_stat.step, total_newton_iter,
    total_cg_iter *)
Definition lbv : Type := (T * T * Z * Z)%type.
(** l1qc_newton.c:492-586, one log-barrier iteration *)
Definition lb_iter (P : Prob) (x u : ptr) (params : L1qcOpts) (v : lbv) : M lbv :=
  let '(tau, step, tn, tcg) := v in
  l1c_init_vec (pb_m P) (pb_dx P) zero ;!                                     (* :493 *)
  f_eval P x u ;!                                                             (* :495 *)
  let* r := for_brk 1 (lo_newton_max_iter params) ((pinf, step, tcg) : nwv)   (* :497-574 *)
              (fun _ => newton_iter P x u params) in
  let '(iter, (_, step, tcg)) := r in
  let* tn := i32 (tn + iter) in                                               (* :577 *)
  let tau := mul tau (lo_mu params) in                                        (* :579 *)
  sto (pb_sc P) 0 tau ;!                                                      (* :580 *)
  ret (tau, step, tn, tcg).

(** l1qc_newton.c:436-598 l1c_l1qc_newton.  [i32 (Z.max ..)] is the check of lb_iter++ at :490. *)
Definition l1c_l1qc_newton (m : Z) (x : ptr) (n : Z) (b : ptr) (params : L1qcOpts)
    (Ax Aty AtAx : ptr -> ptr -> M unit) : M LBResult :=
  let* sc := local_d 3 in                                                     (* :459 *)
  let* u := l1c_calloc_double m in                                            (* :461 *)
  let* res :=
    (if is_null u then ret (0, 0, L1C_OUT_OF_MEMORY, None)                    (* :463-466 *)
     else
       let* init := newton_init m x u params in                               (* :469 *)
       let '(tau, lbiter) := init in
       let* new := l1qcProb_new sc m n b (lo_epsilon params) tau Ax Aty AtAx in   (* :471-474 *)
       let '(status, P) := new in
       if negb (status =? 0) then ret (0, 0, L1C_OUT_OF_MEMORY, Some P)
       else
         let* infeasible := check_feasible_start P x in                       (* :476-480 *)
         if negb (infeasible =? 0) then ret (0, 0, L1C_INFEASIBLE_START, Some P)
         else
           let* r := for_acc 1 (lbiter + 1) ((tau, zero, 0, 0) : lbv)         (* :490-587 *)
                       (fun _ => lb_iter P x u params) in
           i32 (Z.max 1 (lbiter + 1)) ;!
           let '(_, _, tn, tcg) := r in
           ret (tn, tcg, L1C_SUCCESS, Some P)) in
  let '(tn, tcg, status, o) := res in
  l1c_free_double u ;!                                                        (* :592 *)
  l1qcProb_delete o ;!                                                        (* :593 *)
  let* l1 := l1c_dnorm1 m x in                                                (* :595 *)
  free_d sc ;!
  ret (mkLB l1 tn tcg status).

End newton.
