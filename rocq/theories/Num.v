(** * Double arithmetic as a record, and its instances.

    The C code computes with [double].  The model is written once over an arbitrary
    record of operations [Num]; it is then used
    - for every [Num] (such statements hold for IEEE doubles bit for bit),
    - at [RN] (exact reals, only used to state mathematics),
    - at [ER] (exact reals with +Inf, -Inf and NaN: IEEE rules for special values, no rounding,
      no overflow, a single zero that behaves like +0),
    - at [FN] (Coq's primitive binary64 floats: real IEEE rounding, executable).  *)
From Coq Require Import ZArith Bool List Lra Lia Psatz.
From Coq Require Floats.PrimFloat Numbers.Cyclic.Int63.Uint63.
From Coq Require Import Reals.
From Flocq Require Import Core.Raux.

Class Num := {
  T : Type;
  lit : Z -> Z -> T;          (* decimal literal p/q *)
  add : T -> T -> T;
  sub : T -> T -> T;
  mul : T -> T -> T;
  div : T -> T -> T;
  opp : T -> T;
  fabs : T -> T;
  sqrt_ : T -> T;
  log_ : T -> T;
  exp_ : T -> T;
  ceil_ : T -> T;
  ltb_ : T -> T -> bool;      (* a < b, false on NaN *)
  leb_ : T -> T -> bool;      (* a <= b, false on NaN *)
  isnan : T -> bool;
  pinf : T;
  ninf : T;
  nan_ : T;
  toint : T -> option Z       (* (int)x; None: not representable, undefined in C *)
}.

(** (double)z for an int z; also the literals 0, 1, 2 *)
Definition ofZ `{Num} (z : Z) : T := lit z 1.
Definition zero `{Num} : T := ofZ 0.
Definition one `{Num} : T := ofZ 1.
Definition two `{Num} : T := ofZ 2.

(** C's [INT_MIN], [INT_MAX] for a 32-bit int (l1c_int is int, include/l1c.h:13) *)
Definition INT_MAX : Z := 2147483647.
Definition INT_MIN : Z := (-2147483648).
Definition in_int (z : Z) : bool := (INT_MIN <=? z)%Z && (z <=? INT_MAX)%Z.

(** [a < b], [a <= b] on reals as booleans *)
Definition Rltb (a b : R) : bool := if Rlt_dec a b then true else false.
Definition Rleb (a b : R) : bool := if Rle_dec a b then true else false.
Definition Reqb (a b : R) : bool := if Req_EM_T a b then true else false.

(** ** Exact reals *)
Definition RN : Num := {|
  T := R;
  lit p q := (IZR p / IZR q)%R;
  add := Rplus; sub := Rminus; mul := Rmult; div := Rdiv; opp := Ropp;
  fabs := Rabs; sqrt_ := sqrt; log_ := ln; exp_ := exp;
  ceil_ r := IZR (Zceil r);
  ltb_ := Rltb; leb_ := Rleb;
  isnan _ := false;
  pinf := 0%R; ninf := 0%R; nan_ := 0%R;      (* never used at RN *)
  toint r := let z := Ztrunc r in if in_int z then Some z else None
|}.

(** ** Extended reals *)
Inductive er : Type := Fin (r : R) | PInf | NInf | NaN.

Definition er_opp (a : er) : er :=
  match a with Fin r => Fin (- r) | PInf => NInf | NInf => PInf | NaN => NaN end.
Definition er_add (a b : er) : er :=
  match a, b with
  | NaN, _ | _, NaN => NaN
  | Fin x, Fin y => Fin (x + y)
  | PInf, NInf | NInf, PInf => NaN
  | PInf, _ | _, PInf => PInf
  | NInf, _ | _, NInf => NInf
  end.
Definition er_sub (a b : er) : er := er_add a (er_opp b).
(** infinity times a finite number *)
Definition er_infmul (pos : bool) (y : R) : er :=
  if Req_EM_T y 0 then NaN
  else if Rlt_dec 0 y then (if pos then PInf else NInf) else (if pos then NInf else PInf).
Definition er_mul (a b : er) : er :=
  match a, b with
  | NaN, _ | _, NaN => NaN
  | Fin x, Fin y => Fin (x * y)
  | PInf, PInf | NInf, NInf => PInf
  | PInf, NInf | NInf, PInf => NInf
  | PInf, Fin y | Fin y, PInf => er_infmul true y
  | NInf, Fin y | Fin y, NInf => er_infmul false y
  end.
(** division; a zero divisor counts as +0 *)
Definition er_div (a b : er) : er :=
  match a, b with
  | NaN, _ | _, NaN => NaN
  | Fin x, Fin y =>
      if Req_EM_T y 0 then
        (if Req_EM_T x 0 then NaN else if Rlt_dec 0 x then PInf else NInf)
      else Fin (x / y)
  | Fin _, PInf | Fin _, NInf => Fin 0
  | PInf, Fin y => if Rle_dec 0 y then PInf else NInf
  | NInf, Fin y => if Rle_dec 0 y then NInf else PInf
  | PInf, PInf | PInf, NInf | NInf, PInf | NInf, NInf => NaN
  end.
Definition er_abs (a : er) : er :=
  match a with Fin r => Fin (Rabs r) | PInf | NInf => PInf | NaN => NaN end.
Definition er_sqrt (a : er) : er :=
  match a with
  | Fin r => if Rlt_dec r 0 then NaN else Fin (sqrt r)
  | PInf => PInf | NInf | NaN => NaN
  end.
Definition er_log (a : er) : er :=
  match a with
  | Fin r => if Rlt_dec r 0 then NaN else if Req_EM_T r 0 then NInf else Fin (ln r)
  | PInf => PInf | NInf | NaN => NaN
  end.
Definition er_exp (a : er) : er :=
  match a with Fin r => Fin (exp r) | PInf => PInf | NInf => Fin 0 | NaN => NaN end.
Definition er_ceil (a : er) : er :=
  match a with Fin r => Fin (IZR (Zceil r)) | x => x end.
Definition er_ltb (a b : er) : bool :=
  match a, b with
  | NaN, _ | _, NaN => false
  | Fin x, Fin y => Rltb x y
  | NInf, NInf => false
  | NInf, _ => true
  | _, NInf => false
  | PInf, _ => false
  | _, PInf => true
  end.
Definition er_leb (a b : er) : bool :=
  match a, b with
  | NaN, _ | _, NaN => false
  | Fin x, Fin y => Rleb x y
  | NInf, _ => true
  | _, NInf => false
  | _, PInf => true
  | PInf, _ => false
  end.
Definition er_isnan (a : er) : bool := match a with NaN => true | _ => false end.
Definition er_toint (a : er) : option Z :=
  match a with
  | Fin r => let z := Ztrunc r in if in_int z then Some z else None
  | _ => None
  end.

Definition ER : Num := {|
  T := er;
  lit p q := Fin (IZR p / IZR q)%R;
  add := er_add; sub := er_sub; mul := er_mul; div := er_div; opp := er_opp;
  fabs := er_abs; sqrt_ := er_sqrt; log_ := er_log; exp_ := er_exp; ceil_ := er_ceil;
  ltb_ := er_ltb; leb_ := er_leb; isnan := er_isnan;
  pinf := PInf; ninf := NInf; nan_ := NaN;
  toint := er_toint
|}.

(** ** IEEE binary64 (Coq primitive floats).
    Logarithm, exponential and ceiling are not primitive: they are arguments.
    A literal p/q is the correctly rounded quotient, as for a decimal literal in C (|p|,|q| < 2^53). *)
Definition fofZ (z : Z) : PrimFloat.float :=
  match z with
  | Z0 => PrimFloat.zero
  | Zpos _ => PrimFloat.of_uint63 (Uint63.of_Z z)
  | Zneg p => PrimFloat.opp (PrimFloat.of_uint63 (Uint63.of_Z (Zpos p)))
  end.

Definition FN_with (flog fexp fceil : PrimFloat.float -> PrimFloat.float) (ftoint : PrimFloat.float -> option Z) : Num := {|
  T := PrimFloat.float;
  lit p q := PrimFloat.div (fofZ p) (fofZ q);
  add := PrimFloat.add; sub := PrimFloat.sub; mul := PrimFloat.mul; div := PrimFloat.div;
  opp := PrimFloat.opp; fabs := PrimFloat.abs; sqrt_ := PrimFloat.sqrt;
  log_ := flog; exp_ := fexp; ceil_ := fceil;
  ltb_ := PrimFloat.ltb; leb_ := PrimFloat.leb;
  isnan := fun x => negb (PrimFloat.eqb x x);
  pinf := PrimFloat.infinity; ninf := PrimFloat.neg_infinity; nan_ := PrimFloat.nan;
  toint := ftoint
|}.
(** The instance used in executable tests, where log/exp/ceil/cast are not exercised. *)
Definition FN : Num := FN_with (fun _ => PrimFloat.nan) (fun _ => PrimFloat.nan) (fun _ => PrimFloat.nan) (fun _ => None).
