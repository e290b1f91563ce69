(** * The logarithm of the vector class library, as used by vcl_logsum.

    include/vcl/vectormath_exp.h:776-849 (log_d with M1 = 0), on Flocq's binary64 and on the 64-bit patterns that
    the code takes apart.  A fused multiply-add may or may not be used, separately for each of the twelve places
    (vectorf256.h:1933-1966 has both, and gcc may contract a*b+c).
    Simplified: NaN has one bit pattern. *)
From Coq Require Import ZArith Reals.
From Flocq Require Import Core BinarySingleNaN.
From stdpp Require Import base numbers list.
From Verif Require Import Num NumB Mem M_Math.
Local Open Scope Z_scope.

Definition bplus : b64 -> b64 -> b64 := @Bplus 53 1024 b64_prec b64_emax mode_NE.
Definition bminus : b64 -> b64 -> b64 := @Bminus 53 1024 b64_prec b64_emax mode_NE.
Definition bmult : b64 -> b64 -> b64 := @Bmult 53 1024 b64_prec b64_emax mode_NE.
Definition bdiv : b64 -> b64 -> b64 := @Bdiv 53 1024 b64_prec b64_emax mode_NE.
Definition bfma : b64 -> b64 -> b64 -> b64 := @Bfma 53 1024 b64_prec b64_emax mode_NE.
Definition bnorm : Z -> Z -> bool -> b64 := binary_normalize 53 1024 b64_prec b64_emax mode_NE.

(** ** bit patterns (IEEE 754 binary64 interchange format; the casts _mm256_castpd_si256 and back) *)
Definition sgn (s : bool) : Z := if s then 2 ^ 63 else 0.
Definition bits (x : b64) : Z :=
  match x with
  | B754_zero s => sgn s
  | B754_infinity s => sgn s + 2047 * 2 ^ 52
  | B754_nan => 2047 * 2 ^ 52 + 2 ^ 51
  | B754_finite s m e _ => sgn s + (if Z.pos m <? 2 ^ 52 then Z.pos m else (e + 1075) * 2 ^ 52 + (Z.pos m - 2 ^ 52))
  end.
Definition of_bits (z : Z) : b64 :=
  let s := negb (z / 2 ^ 63 =? 0) in
  let ex := (z / 2 ^ 52) mod 2048 in
  let fr := z mod 2 ^ 52 in
  if ex =? 2047 then (if fr =? 0 then B754_infinity s else B754_nan)
  else bnorm (if s then - (if ex =? 0 then fr else 2 ^ 52 + fr) else (if ex =? 0 then fr else 2 ^ 52 + fr)) (if ex =? 0 then -1074 else ex - 1075) s.

(** ** constants: the doubles nearest to the literals (vectormath_exp.h:781-793, vectormath_common.h:45,51) *)
Definition dbl (s : bool) (m : positive) (e : Z) (H : SpecFloat.bounded 53 1024 m e = true) : b64 := B754_finite s m e H.
Definition ln2_hi : b64 := dbl false 6245226045767680 (-53) eq_refl.   (* 0.693359375 *)
Definition ln2_lo : b64 := dbl true 7828593059105960 (-65) eq_refl.    (* -2.121944400546905827679E-4 *)
Definition P0log : b64 := dbl false 8678872585264376 (-50) eq_refl.    (* 7.70838733755885391666E0 *)
Definition P1log : b64 := dbl false 5048779460560973 (-48) eq_refl.    (* 1.79368678507819816313E1 *)
Definition P2log : b64 := dbl false 8162167765265198 (-49) eq_refl.    (* 1.44989225341610930846E1 *)
Definition P3log : b64 := dbl false 5298249872337169 (-50) eq_refl.    (* 4.70579119878881725854E0 *)
Definition P4log : b64 := dbl false 8962073095983858 (-54) eq_refl.    (* 4.97494994976747001425E-1 *)
Definition P5log : b64 := dbl false 7517097190169520 (-66) eq_refl.    (* 1.01875663804580931796E-4 *)
Definition Q0log : b64 := dbl false 6509154438948274 (-48) eq_refl.    (* 2.31251620126765340583E1 *)
Definition Q1log : b64 := dbl false 5007051052723745 (-46) eq_refl.    (* 7.11544750618563894466E1 *)
Definition Q2log : b64 := dbl false 5839728035675581 (-46) eq_refl.    (* 8.29875266912776603211E1 *)
Definition Q3log : b64 := dbl false 6365263102066739 (-47) eq_refl.    (* 4.52279145837532221105E1 *)
Definition Q4log : b64 := dbl false 6354218065063822 (-49) eq_refl.    (* 1.12873587189167450590E1 *)
Definition sqrt2_half : b64 := dbl false 6369051672525773 (-53) eq_refl. (* VM_SQRT2*0.5, VM_SQRT2 = 1.41421356237309504880 *)
Definition smallest_normal : b64 := dbl false 4503599627370496 (-1074) eq_refl. (* VM_SMALLEST_NORMAL 2.2250738585072014E-308 *)
Definition d_one : b64 := dbl false 4503599627370496 (-52) eq_refl.
Definition d_half : b64 := dbl false 4503599627370496 (-53) eq_refl.
Definition d_magic : b64 := dbl false 4503599627371519 0 eq_refl.      (* pow2_52 + bias, vectormath_exp.h:736,742 *)
Definition d_zero : b64 := B754_zero false.

Section vlog.
(** which of the twelve multiply-adds are fused, by position; whether __AVX512VL__ is defined *)
Context (fused : nat -> bool) (vl : bool).
(** vectorf256.h:1933-1942 *)
Definition mul_add (k : nat) (a b c : b64) : b64 := if fused k then bfma a b c else bplus (bmult a b) c.
(** vectorf256.h:1958-1966: c - a*b *)
Definition nmul_add (k : nat) (a b c : b64) : b64 := if fused k then bfma (Bopp a) b c else bminus c (bmult a b).
(** vectorf256.h:1681-1683: a + (f & b) *)
Definition if_add (f : bool) (a b : b64) : b64 := bplus a (if f then b else d_zero).
(** vectormath_common.h:197-204 *)
Definition polynomial_5 (x c0 c1 c2 c3 c4 c5 : b64) : b64 :=
  let x2 := bmult x x in let x4 := bmult x2 x2 in
  mul_add 0 (mul_add 1 c3 x c2) x2 (mul_add 2 (mul_add 3 c5 x c4) x4 (mul_add 4 c1 x c0)).
(** vectormath_common.h:207-214 *)
Definition polynomial_5n (x c0 c1 c2 c3 c4 : b64) : b64 :=
  let x2 := bmult x x in let x4 := bmult x2 x2 in
  mul_add 5 (mul_add 6 c3 x c2) x2 (mul_add 7 (bplus c4 x) x4 (mul_add 8 c1 x c0)).
(** vectormath_exp.h:625-633: set exponent to 0 + bias *)
Definition fraction_2 (a : b64) : b64 := of_bits (Z.lor (Z.land (bits a) 0x000FFFFFFFFFFFFF) 0x3FE0000000000000).
(** the instruction vgetexppd *)
Definition getexp (x : b64) : b64 :=
  match x with
  | B754_zero _ => B754_infinity true | B754_infinity _ => B754_infinity false | B754_nan => B754_nan
  | B754_finite _ m e _ => bnorm (Z.log2 (Z.pos m) + e) 0 false
  end.
(** vectormath_exp.h:729-744; 0x4330000000000000 is the pattern of 2^52 *)
Definition exponent_f (x : b64) : b64 :=
  if vl then getexp x else bminus (of_bits (Z.lor (Z.shiftr (bits x) 52) 0x4330000000000000)) d_magic.
(** vectormath_exp.h:804-832, one lane *)
Definition log_res (x1 : b64) : b64 :=
  let x := fraction_2 x1 in
  let fe := exponent_f x1 in
  let blend := Bltb sqrt2_half x in                       (* :809 *)
  let x := if_add (negb blend) x x in                     (* :810 *)
  let fe := if_add blend fe d_one in                      (* :811 *)
  let x := bminus x d_one in                              (* :815 *)
  let px := polynomial_5 x P0log P1log P2log P3log P4log P5log in
  let x2 := bmult x x in
  let px := bmult px (bmult x x2) in                      (* :825 *)
  let qx := polynomial_5n x Q0log Q1log Q2log Q3log Q4log in
  let res := bdiv px qx in
  let res := mul_add 9 fe ln2_lo res in                   (* :830 *)
  let res := bplus res (nmul_add 10 x2 d_half x) in       (* :831 *)
  mul_add 11 fe ln2_hi res.                               (* :832 *)
(** vectormath_exp.h:834,835 *)
Definition overflow (x1 : b64) : bool := negb (is_finite x1).
Definition underflow (x1 : b64) : bool := Bltb x1 smallest_normal.
(** vectorf256.h:2107-2118: exponent field 0 and fraction not 0 *)
Definition is_subnormal (x : b64) : bool := match x with B754_finite _ m _ _ => Z.pos m <? 2 ^ 52 | _ => false end.
(** vectorf256.h:2080-2088 *)
Definition is_inf (x : b64) : bool := match x with B754_infinity _ => true | _ => false end.
(** vectormath_exp.h:843-846 *)
Definition log_select (x1 res : b64) : b64 :=
  let res := if underflow x1 then B754_nan else res in
  let res := if Beqb x1 d_zero || is_subnormal x1 then B754_infinity true else res in
  let res := if overflow x1 then x1 else res in
  if is_inf x1 && Bsign x1 then B754_nan else res.
Notation v4 := (b64 * b64 * b64 * b64)%type.
Definition vmap (f : b64 -> b64) (v : v4) : v4 := let '(a, b, c, d) := v in (f a, f b, f c, f d).
Definition horizontal_or (f : b64 -> bool) (v : v4) : bool := let '(a, b, c, d) := v in f a || f b || f c || f d.
(** vectormath_exp.h:778-849 *)
Definition log_d (v : v4) : v4 :=
  let res := vmap log_res v in
  if negb (horizontal_or (fun x => overflow x || underflow x) v) then res
  else vmap (fun x => log_select x (log_res x)) v.

(** vcl_math.cpp:12-33 with the lanes' own logarithm; the remaining elements use the log of libm *)
Definition vcl_logsum_d (flog fexp fceil : b64 -> b64) (n : Z) (alpha : b64) (x : ptr) : @M (BN_with flog fexp fceil) b64 :=
  let rp := regularpart n in
  let* sum_vec := for4 0 rp (d_zero, d_zero, d_zero, d_zero) (fun i sv =>
     let* xv := @load_a (BN_with flog fexp fceil) x i in
     ret (@zip4 (BN_with flog fexp fceil) bplus sv (log_d (vmap (fun v => bmult v alpha) xv)))) in
  let* total := for_acc (Z.max 0 rp) n d_zero (fun i t =>
     let* v := @ld (BN_with flog fexp fceil) x i in ret (bplus t (flog (bmult v alpha)))) in
  ret (bplus total (@horizontal_add (BN_with flog fexp fceil) sum_vec)).
End vlog.
