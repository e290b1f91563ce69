(** * Model of src/bregman.c: anisotropic TV denoising by split Bregman iterations. *)
From stdpp Require Import base list.
From Coq Require Import ZArith.
From Verif Require Import Mem M_Math M_TV M_Memory M_Status.
Local Open Scope Z_scope.

Section breg.
Context `{N : Num}.

(** include/bregman.h:5 *)
Definition dsign (a : T) : T := if leb_ zero a then one else opp one.

(** bregman.c:70-71, one iteration of the parallel loop *)
Definition shrink1_body (x d : ptr) (gamma : T) (i : Z) : M unit :=
  let* v := ld x i in
  let sign_x := dsign v in
  sto d i (mul sign_x (dmax (sub (fabs v) gamma) zero)).
(** bregman.c:62-73 *)
Definition breg_shrink1 (n : Z) (x d : ptr) (gamma : T) : M unit :=
  assume_aligned x ;! assume_aligned d ;! restrict d n x n ;!
  for_ 0 n (shrink1_body x d gamma).

(** bregman.c:87, one iteration of the parallel loop *)
Definition mxpy_z_body (x y z : ptr) (i : Z) : M unit :=
  let* v := ld x i in let* w := ld y i in sto z i (add (opp v) w).
(** bregman.c:80-89 *)
Definition breg_mxpy_z (n : Z) (x y z : ptr) : M unit :=
  assume_aligned x ;! assume_aligned y ;! assume_aligned z ;!
  restrict z n x n ;! restrict z n y n ;!
  for_ 0 n (mxpy_z_body x y z).

(** bregman.c:91-105 *)
Definition breg_hess_eval (n m : Z) (x y : ptr) (mu lambda : T) (dwork1 dwork2 : ptr) : M unit :=
  l1c_DyTDy n m one x dwork1 ;!
  l1c_DxTDx n m one x dwork2 ;!
  let* Len := i32 (n * m) in
  for_ 0 Len (fun i =>
    let* v := ld x i in let* a := ld dwork1 i in let* b := ld dwork2 i in
    sto y i (add (add (mul mu v) (mul lambda a)) (mul lambda b))).

(** 1.0 / (mu + c*lambda), bregman.c:115-117, :235-237 *)
Definition recip (mu lambda : T) (c : Z) : T := div one (add mu (mul (ofZ c) lambda)).

(** bregman.c:112-143.  The C variable j after a loop "for (j = lo; j < hi; j++)" is max lo hi. *)
Definition hess_inv_diag (n m : Z) (mu lambda : T) (D : ptr) : M unit :=
  let mu_2lam := recip mu lambda 2 in
  let mu_3lam := recip mu lambda 3 in
  let mu_4lam := recip mu lambda 4 in
  sto D 0 mu_2lam ;!                                                    (* :122 *)
  for_ 1 (m - 1) (fun j => let* o := i32 (0 * m + j) in sto D o mu_3lam) ;!  (* :123-125 *)
  sto D (m - 1) mu_2lam ;!                                              (* :126 *)
  for_ 1 (n - 1) (fun k =>                                              (* :129-135 *)
    let* o := i32 (k * m) in
    sto D o mu_3lam ;!
    for_ 1 (m - 1) (fun j => let* p := i32 (k * m + j) in sto D p mu_4lam) ;!
    let j := Z.max 1 (m - 1) in
    let* p := i32 (k * m + j) in sto D p mu_3lam) ;!
  let* o := i32 ((n - 1) * m) in
  sto D o mu_2lam ;!                                                    (* :138 *)
  let* e := i32 (m * n) in
  for_ (o + 1) (e - 1) (fun j => sto D j mu_3lam) ;!                    (* :139-141 *)
  sto D (e - 1) mu_2lam.                                                (* :142 *)

(** bregman.c:174-176 *)
Definition jac_body1 (m : Z) (Len : Z) (uk dwork rhs : ptr) (lambda : T) (i : Z) : M unit :=
  let* ui_min_m := (if i <? m then ret zero else ld uk (i - m)) in
  let* ui_p_m := (if i <? Len - m then ld uk (i + m) else ret zero) in
  let* r := ld rhs i in
  sto dwork i (sub r (mul lambda (sub (opp ui_min_m) ui_p_m))).
(** bregman.c:181-186 *)
Definition jac_body2 (m : Z) (uk dwork : ptr) (lambda : T) (i : Z) : M unit :=
  let* o := i32 (i * m) in
  (let* d := ld dwork o in let* v := ld uk (o + 1) in sto dwork o (add d (mul lambda v))) ;!
  let* e := i32 ((i + 1) * m) in
  for_ (o + 1) (e - 1) (fun j =>
    let* d := ld dwork j in let* a := ld uk (j - 1) in let* b := ld uk (j + 1) in
    sto dwork j (add d (mul (opp lambda) (sub (opp a) b)))) ;!
  let j := Z.max (o + 1) (e - 1) in
  let* d := ld dwork j in let* a := ld uk (j - 1) in
  sto dwork j (add d (mul (opp lambda) (opp a))).
(** bregman.c:166-190 *)
Definition breg_anis_jacobi (n m : Z) (uk dwork rhs D : ptr) (lambda : T) : M unit :=
  let* Len := i32 (n * m) in
  for_ 0 Len (jac_body1 m Len uk dwork rhs lambda) ;!
  for_ 0 n (jac_body2 m uk dwork lambda) ;!
  l1c_dxmuly_z Len D dwork uk.

(** u[i*m + j] *)
Definition idx (m i j : Z) : M Z := let* a := i32 (i * m) in i32 (a + j).
(** the sum u[..] + u[..] + ..., left to right, of the entries at the given (row, column) positions *)
Fixpoint usum (m : Z) (u : ptr) (a : T) (l : list (Z * Z)) : M T :=
  match l with
  | [] => ret a
  | (i, j) :: l' => let* o := idx m i j in let* v := ld u o in usum m u (add a v) l'
  end.
(** One pixel update of the sweep, e.g. bregman.c:242-243:
    tmp = rhs[i*m+j] + (u[i0*m+j0] + ...)*lambda;  u[i*m+j] = tmp * c *)
Definition gs_upd (m : Z) (u rhs : ptr) (lambda c : T) (i j : Z) (ij0 : Z * Z) (l : list (Z * Z)) : M unit :=
  let* o := idx m i j in
  let* r := ld rhs o in
  let* o0 := idx m (fst ij0) (snd ij0) in let* v0 := ld u o0 in
  let* sm := usum m u v0 l in
  let tmp := add r (mul sm lambda) in
  sto u o (mul tmp c).
(** bregman.c:232-301 *)
Definition breg_anis_guass_seidel (n m : Z) (u rhs : ptr) (mu lambda : T) : M unit :=
  let c4 := recip mu lambda 4 in
  let c3 := recip mu lambda 3 in
  let c2 := recip mu lambda 2 in
  gs_upd m u rhs lambda c2 0 0 (0, 0 + 1) [(0 + 1, 0)] ;!                                   (* :242-243 *)
  for_ 1 (m - 1) (fun j =>
    gs_upd m u rhs lambda c3 0 j (0, j + 1) [(0, j - 1); (0 + 1, j)]) ;!                    (* :247-251 *)
  gs_upd m u rhs lambda c2 0 (m - 1) (0, m - 1 - 1) [(0 + 1, m - 1)] ;!                     (* :253-256 *)
  for_ 1 (n - 1) (fun i =>
    gs_upd m u rhs lambda c3 i 0 (i, 0 + 1) [(i + 1, 0); (i - 1, 0)] ;!                     (* :264-267 *)
    for_ 1 (m - 1) (fun j =>
      gs_upd m u rhs lambda c4 i j (i, j + 1) [(i, j - 1); (i + 1, j); (i - 1, j)]) ;!      (* :269-274 *)
    gs_upd m u rhs lambda c3 i (m - 1) (i, m - 1 - 1) [(i + 1, m - 1); (i - 1, m - 1)]) ;!  (* :276-279 *)
  gs_upd m u rhs lambda c2 (n - 1) 0 (n - 1, 0 + 1) [(n - 1 - 1, 0)] ;!                     (* :283-286 *)
  for_ 1 (m - 1) (fun j =>
    gs_upd m u rhs lambda c3 (n - 1) j (n - 1, j + 1) [(n - 1, j - 1); (n - 1 - 1, j)]) ;!  (* :289-294 *)
  gs_upd m u rhs lambda c2 (n - 1) (m - 1) (n - 1, m - 1 - 1) [(n - 1 - 1, m - 1)].         (* :297-300 *)

(** bregman.c:303-325 *)
Definition breg_anis_rhs (n m : Z) (f dx bx dy by_ rhs : ptr) (mu lambda : T) (dwork1 dwork2 : ptr) : M unit :=
  let* Nn := i32 (n * m) in
  breg_mxpy_z Nn by_ dy dwork1 ;!
  l1c_DyT n m lambda dwork1 dwork2 ;!
  breg_mxpy_z Nn bx dx dwork1 ;!
  l1c_DxT n m lambda dwork1 rhs ;!
  cblas_daxpy Nn mu f dwork2 ;!
  cblas_daxpy Nn one dwork2 rhs.

(** bregman.c:393-418, one iteration; dnrm_err is only used for the stopping test *)
Definition breg_iter (n m Nn : Z) (uk f : ptr) (mu tol lambda : T) (max_jac_iter : Z)
    (uk_1 d_x d_y b_x b_y dwork1 dwork2 rhs : ptr) : M bool :=
  let Dxu_b := dwork1 in                                                (* :378-379 *)
  let Dyu_b := dwork2 in
  breg_anis_rhs n m f d_x b_x d_y b_y rhs mu lambda dwork1 dwork2 ;!    (* :393 *)
  for_ 1 (max_jac_iter + 1) (fun _ => breg_anis_guass_seidel n m uk rhs mu lambda) ;!  (* :395-397 *)
  i32 (Z.max 1 (max_jac_iter + 1)) ;!                                   (* k++ at :395 *)
  let* dnrm_err := l1c_dnrm2_rel_err Nn uk uk_1 in                      (* :398 *)
  l1c_Dx n m one uk Dxu_b ;!                                            (* :401-402 *)
  cblas_daxpy Nn one b_x Dxu_b ;!
  l1c_Dy n m one uk Dyu_b ;!                                            (* :404-405 *)
  cblas_daxpy Nn one b_y Dyu_b ;!
  breg_shrink1 Nn Dxu_b d_x (div one lambda) ;!                         (* :408-409 *)
  breg_shrink1 Nn Dyu_b d_y (div one lambda) ;!
  breg_mxpy_z Nn d_x Dxu_b b_x ;!                                       (* :412-413 *)
  breg_mxpy_z Nn d_y Dyu_b b_y ;!
  cblas_dcopy Nn uk uk_1 ;!                                             (* :415 *)
  ret (ltb_ dnrm_err tol).                                              (* :416 *)

(** bregman.c:354-435.  [i32 (fst r)] is the check of iter++ at :391. *)
Definition l1c_breg_anistropic_TV (n m : Z) (uk f : ptr) (mu tol : T) (max_iter max_jac_iter : Z) : M Z :=
  let* Nn := i32 (n * m) in                                             (* :363 *)
  let lambda := mul two mu in                                           (* :364 *)
  let* uk_1 := l1c_calloc_double Nn in                                  (* :369-380 *)
  let* d_x := l1c_calloc_double Nn in
  let* d_y := l1c_calloc_double Nn in
  let* b_x := l1c_calloc_double Nn in
  let* b_y := l1c_calloc_double Nn in
  let* dwork1 := l1c_calloc_double Nn in
  let* dwork2 := l1c_calloc_double Nn in
  let* rhs := l1c_calloc_double Nn in
  let* status :=
    (if is_null uk_1 || is_null d_x || is_null d_y || is_null b_x || is_null b_y ||
        is_null dwork1 || is_null dwork2 || is_null rhs then ret L1C_OUT_OF_MEMORY   (* :382-385 *)
     else
       cblas_dcopy Nn f uk ;!                                           (* :387 *)
       let* r := for_brk 1 (max_iter + 1) tt (fun _ _ =>                (* :391-419 *)
         let* stop := breg_iter n m Nn uk f mu tol lambda max_jac_iter uk_1 d_x d_y b_x b_y dwork1 dwork2 rhs in
         ret (if stop then Stop tt else Go tt)) in
       i32 (fst r) ;! ret L1C_SUCCESS) in
  l1c_free_double uk_1 ;! l1c_free_double d_x ;! l1c_free_double d_y ;! (* :424-432 *)
  l1c_free_double b_x ;! l1c_free_double b_y ;!
  l1c_free_double dwork1 ;! l1c_free_double dwork2 ;! l1c_free_double rhs ;!
  ret status.
End breg.
