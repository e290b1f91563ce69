(** * The part of FFTW that the library uses, by its documentation (FFTW 3.3 manual, 2.5.2, 4.3.1,
    4.3.5, 4.6, 4.8.3).  Not code of the project. *)
From stdpp Require Import base list gmap.
From Coq Require Import ZArith.
From Verif Require Import Globals Mem M_Math M_Memory.
Local Open Scope Z_scope.

Section fftw.
Context `{N : Num}.
(** what a transform computes: [fft1 kind x], [fft2 kind rows columns x] (unnormalised).  At the
    reals these are the cosine sums of S_Dct.v. *)
Context (fft1 : fkind -> list T -> list T) (fft2 : fkind -> nat -> nat -> list T -> list T).

(** read n doubles; write the doubles of a list *)
Definition rdn (n : Z) (p : ptr) : M (list T) := for_acc 0 n [] (fun i a => let* v := ld p i in ret (a ++ [v])).
Definition wrn (p : ptr) (ys : list T) : M unit :=
  for_ 0 (Z.of_nat (length ys)) (fun i => sto p i (nth (Z.to_nat i) ys zero)).
(** look up a plan *)
Definition ldo (p : ptr) : M obj := fun s =>
  match p with
  | Ptr b 0 => match om s !! b with Some x => Ok x s | None => Ub UbOob end
  | _ => Ub UbOob
  end.

(** fftw_plan_r2r_1d and _2d.  NULL for a non-positive size.  Without FFTW_ESTIMATE planning
    overwrites both arrays; the environment says with what.  Otherwise the environment decides
    whether a plan is made. *)
Definition scribble (n : Z) (src dst : ptr) : M unit := fun s =>
  let k := nx s in
  (for_ 0 n (fun i => sto src i (scrib (en s) k 0 i)) ;! for_ 0 n (fun i => sto dst i (scrib (en s) k 1 i))) s.
Definition fftw_plan_r2r_1d (n : Z) (src dst : ptr) (k : fkind) : M ptr :=
  if n <=? 0 then ret Null else scribble n src dst ;! alloc_o (OPlan1 n k src dst).
Definition fftw_plan_r2r_2d (nr nc : Z) (src dst : ptr) (k : fkind) : M ptr :=
  if (nr <=? 0) || (nc <=? 0) then ret Null
  else scribble (nr * nc) src dst ;! alloc_o (OPlan2 nr nc k src dst).
(** fftw_destroy_plan; a NULL plan is ignored *)
Definition fftw_destroy_plan (p : ptr) : M unit := free_o p.

(** fftw_execute_r2r.  The plans of the library are out-of-place and preserve their input; the new
    arrays must be as aligned as the planned ones.  Simplified: DALIGN alignment is asked for, FFTW
    itself needs only that of its vector unit. *)
Definition fftw_execute_r2r (p x y : ptr) : M unit :=
  let* o := ldo p in
  match o with
  | OPlan1 n k _ _ =>
      restrict y n x n ;! assume_aligned x ;! assume_aligned y ;!
      let* xs := rdn n x in wrn y (fft1 k xs)
  | OPlan2 nr nc k _ _ =>
      restrict y (nr * nc) x (nr * nc) ;! assume_aligned x ;! assume_aligned y ;!
      let* xs := rdn (nr * nc) x in wrn y (fft2 k (Z.to_nat nr) (Z.to_nat nc) xs)
  | OStruct => undef UbOther
  end.
(** fftw_execute: on the planned arrays *)
Definition fftw_execute (p : ptr) : M unit :=
  let* o := ldo p in
  match o with
  | OPlan1 _ _ x y | OPlan2 _ _ _ x y => fftw_execute_r2r p x y
  | OStruct => undef UbOther
  end.
End fftw.
