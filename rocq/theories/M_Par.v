(** * The memory accesses of the loops under [#pragma omp parallel for].

    One definition per loop: the loads and stores of one iteration, in the order of the C text.  The
    variables named in the [private] clauses, and those declared inside a loop, are bound in the
    continuations; no loop assigns any other scalar, which was checked by reading (the loop counters
    are private by the rules of OpenMP).  [M_TV], [M_Math], [M_Bregman] and [M_Newton] hold the same
    iterations as sequential programs; [T_Par] proves that they agree. *)
From Coq Require Import ZArith.
From stdpp Require Import base list.
From Verif Require Import Mem M_Math M_Bregman M_Newton S_Par.
Local Open Scope Z_scope.

Section par.
Context `{N : Num}.

(** ** src/l1c_math.c *)
(** l1c_math.c:20 *)
Definition daxpby_q (alpha : T) (x : ptr) (beta : T) (y : ptr) (i : Z) : prog :=
  PLd x i (fun v => PLd y i (fun w => PSto y i (add (mul alpha v) (mul beta w)) PRet)).
(** l1c_math.c:31 *)
Definition init_vec_q (x : ptr) (alpha : T) (i : Z) : prog := PSto x i alpha PRet.
(** l1c_math.c:49 *)
Definition dxmuly_z_q (x y z : ptr) (i : Z) : prog :=
  PLd x i (fun v => PLd y i (fun w => PSto z i (mul v w) PRet)).
(** l1c_math.c:78 *)
Definition daxpby_z_q (alpha : T) (x : ptr) (beta : T) (y z : ptr) (i : Z) : prog :=
  PLd x i (fun v => PLd y i (fun w => PSto z i (add (mul alpha v) (mul beta w)) PRet)).
(** l1c_math.c:106 *)
Definition daxpy_z_q (alpha : T) (x y z : ptr) (i : Z) : prog :=
  PLd x i (fun v => PLd y i (fun w => PSto z i (add (mul alpha v) w) PRet)).

(** ** src/bregman.c *)
(** bregman.c:70-71; x[i] is read twice in the C text and the compiler may read it once *)
Definition shrink1_q (x d : ptr) (gamma : T) (i : Z) : prog :=
  PLd x i (fun v => PLd x i (fun w => PSto d i (mul (dsign v) (dmax (sub (fabs w) gamma) zero)) PRet)).
(** bregman.c:87 *)
Definition mxpy_z_q (x y z : ptr) (i : Z) : prog :=
  PLd x i (fun v => PLd y i (fun w => PSto z i (add (opp v) w) PRet)).

(** ** src/TV.c *)
(** TV.c:49-54 *)
Definition ddiff_q (n : Z) (alpha : T) (x dx : ptr) : prog :=
  pseq (pfor 1 n (fun i => PLd x i (fun a => PLd x (i - 1) (fun b =>
          PSto dx (i - 1) (mul alpha (sub a b)) PRet))))
       (PSto dx (n - 1) zero PRet).
(** TV.c:66-72 *)
Definition ddiffT_q (n : Z) (alpha : T) (x dx : ptr) : prog :=
  PLd x 0 (fun a => PSto dx 0 (mul (opp alpha) a)
    (pseq (pfor 1 n (fun i => PLd x (i - 1) (fun a => PLd x i (fun b =>
             PSto dx i (mul alpha (sub a b)) PRet))))
          (PLd x (n - 2) (fun c => PSto dx (n - 1) (mul alpha c) PRet)))).
(** TV.c:81-88 *)
Definition ddiff2_q (n : Z) (alpha : T) (x dx : ptr) : prog :=
  let alp2 := mul alpha alpha in
  PLd x 0 (fun a => PLd x 1 (fun b => PSto dx 0 (mul alp2 (sub a b))
    (pseq (pfor 1 (n - 1) (fun i => PLd x (i - 1) (fun a => PLd x i (fun b => PLd x (i + 1) (fun c =>
             PSto dx i (mul alp2 (sub (add (opp a) (mul two b)) c)) PRet)))))
          (PLd x (n - 1) (fun a => PLd x (n - 2) (fun b => PSto dx (n - 1) (mul alp2 (sub a b)) PRet)))))).
(** TV.c:116-120, 142-146, 169-173 *)
Definition row_q (f : Z -> T -> ptr -> ptr -> prog) (m : Z) (alpha : T) (X D : ptr) (i_row : Z) : prog :=
  p32 (i_row * m) (fun o => f m alpha (padd X o) (padd D o)).
(** TV.c:206-210 *)
Definition Dy_q1 (m : Z) (alpha : T) (X Dy : ptr) (row : Z) : prog :=
  p32 (row * m) (fun lo => p32 ((row + 1) * m) (fun hi =>
    pfor lo hi (fun col => p32 (col + m) (fun j =>
      PLd X j (fun a => PLd X col (fun b => PSto Dy col (mul alpha (sub a b)) PRet)))))).
(** TV.c:214-216 *)
Definition Dy_q2 (Dy : ptr) (i : Z) : prog := PSto Dy i zero PRet.
(** TV.c:244-248 *)
Definition DyT_q (n m : Z) (alpha : T) (A dyt : ptr) (i : Z) : prog :=
  p32 ((n - 1) * m) (fun lim =>
    let rest Ai :=
      let last Aim := PSto dyt i (mul alpha (sub Aim Ai)) PRet in
      if i <? m then last zero else PLd A (i - m) last in
    if i <? lim then PLd A i rest else rest zero).
(** TV.c:276-282 *)
Definition DyTDy_q (n m : Z) (alp2 : T) (Len : Z) (A dytdy : ptr) (i : Z) : prog :=
  let rest Aim :=
    p32 (m * (n - 1)) (fun lim =>
      let last Di :=
        let fin Aip := PSto dytdy i (mul alp2 (sub (add (opp Aim) Di) Aip)) PRet in
        if i <? Len - m then PLd A (i + m) fin else fin zero in
      if (i <? m) || (lim - 1 <? i) then PLd A i last else PLd A i (fun a => last (mul two a))) in
  if i <? m then rest zero else PLd A (i - m) rest.

(** ** src/l1qc_newton.c *)
(** l1qc_newton.c:129-150 *)
Definition hess_q (P : Prob) (sigx atr : ptr) (tau fe mone_by_tau : T) (i : Z) : prog :=
  PLd (pb_fu1 P) i (fun fu1 => let one_by_fu1 := div one fu1 in
  PLd (pb_fu2 P) i (fun fu2 => let one_by_fu2 := div one fu2 in
  PLd atr i (fun a => let one_by_fe_Atr := mul (div one fe) a in
  let ntgz := add (sub one_by_fu1 one_by_fu2) one_by_fe_Atr in
  let ntgu := sub (sub (opp tau) one_by_fu1) one_by_fu2 in
  PSto (pb_gradf P) i (mul mone_by_tau ntgz) (
  p32 (i + pb_m P) (fun im =>
  PSto (pb_gradf P) im (mul mone_by_tau ntgu) (
  let sig11 := add (mul one_by_fu1 one_by_fu1) (mul one_by_fu2 one_by_fu2) in
  let sig12 := add (mul (opp one_by_fu1) one_by_fu1) (mul one_by_fu2 one_by_fu2) in
  PSto sigx i (sub sig11 (div (mul sig12 sig12) sig11)) (
  PSto (pb_w1p P) i (sub ntgz (mul (div sig12 sig11) ntgu)) (
  PSto (pb_sig11 P) i sig11 (
  PSto (pb_sig12 P) i sig12 (
  PSto (pb_ntgu P) i ntgu PRet)))))))))).
(** l1qc_newton.c:204-205; sig11[i] is read twice in the C text and the compiler may read it once *)
Definition du_q (P : Prob) (i : Z) : prog :=
  PLd (pb_sig11 P) i (fun s11 => PLd (pb_ntgu P) i (fun g =>
  PLd (pb_sig12 P) i (fun s12 => PLd (pb_sig11 P) i (fun s11' => PLd (pb_dx P) i (fun d =>
  PSto (pb_du P) i (sub (mul (div one s11) g) (mul (div s12 s11') d)) PRet))))).
(** the arrays written and read by the loop at l1qc_newton.c:125-151, with their lengths *)
Definition hess_ws (P : Prob) (sigx : ptr) : list (ptr * Z) :=
  [(pb_gradf P, 2 * pb_m P); (sigx, pb_m P); (pb_w1p P, pb_m P); (pb_sig11 P, pb_m P); (pb_sig12 P, pb_m P); (pb_ntgu P, pb_m P)].
Definition hess_rs (P : Prob) (atr : ptr) : list (ptr * Z) :=
  [(pb_fu1 P, pb_m P); (pb_fu2 P, pb_m P); (atr, pb_m P)].
(** the arrays read by the loop at l1qc_newton.c:202-206; it writes du *)
Definition du_rs (P : Prob) : list (ptr * Z) :=
  [(pb_sig11 P, pb_m P); (pb_ntgu P, pb_m P); (pb_sig12 P, pb_m P); (pb_dx P, pb_m P)].

End par.
