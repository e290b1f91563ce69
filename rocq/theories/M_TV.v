(** * Model of src/TV.c: discrete gradient and Laplacian of an n by m image stored row by row. *)
From stdpp Require Import base list.
From Coq Require Import ZArith.
From Verif Require Import Mem.
Local Open Scope Z_scope.

Section tv.
Context `{N : Num}.

(** TV.c:49-54 *)
Definition ddiff_z (n : Z) (alpha : T) (x dx : ptr) : M unit :=
  for_ 1 n (fun i =>
    let* a := ld x i in let* b := ld x (i - 1) in
    sto dx (i - 1) (mul alpha (sub a b))) ;!
  sto dx (n - 1) zero.

(** TV.c:66-72 *)
Definition ddiffT_z (n : Z) (alpha : T) (x dx : ptr) : M unit :=
  (let* a := ld x 0 in sto dx 0 (mul (opp alpha) a)) ;!
  for_ 1 n (fun i =>
    let* a := ld x (i - 1) in let* b := ld x i in
    sto dx i (mul alpha (sub a b))) ;!
  let* c := ld x (n - 2) in sto dx (n - 1) (mul alpha c).

(** TV.c:81-88 *)
Definition ddiff2_z (n : Z) (alpha : T) (x dx : ptr) : M unit :=
  let alp2 := mul alpha alpha in
  (let* a := ld x 0 in let* b := ld x 1 in sto dx 0 (mul alp2 (sub a b))) ;!
  for_ 1 (n - 1) (fun i =>
    let* a := ld x (i - 1) in let* b := ld x i in let* c := ld x (i + 1) in
    sto dx i (mul alp2 (sub (add (opp a) (mul two b)) c))) ;!
  let* a := ld x (n - 1) in let* b := ld x (n - 2) in sto dx (n - 1) (mul alp2 (sub a b)).

(** The three row-wise operators share their outer loop (TV.c:115-120, 141-146, 168-173);
    [row_body] is one iteration. *)
Definition row_body (f : Z -> T -> ptr -> ptr -> M unit) (m : Z) (alpha : T) (X D : ptr) (i_row : Z) : M unit :=
  let* o := i32 (i_row * m) in f m alpha (padd X o) (padd D o).

(** TV.c:108-121 *)
Definition l1c_Dx (n m : Z) (alpha : T) (X Dx : ptr) : M unit :=
  restrict Dx (n * m) X (n * m) ;! for_ 0 n (row_body ddiff_z m alpha X Dx).
(** TV.c:138-147 *)
Definition l1c_DxT (n m : Z) (alpha : T) (X DxT : ptr) : M unit :=
  restrict DxT (n * m) X (n * m) ;! for_ 0 n (row_body ddiffT_z m alpha X DxT).
(** TV.c:164-174 *)
Definition l1c_DxTDx (n m : Z) (alpha : T) (X DxTDx : ptr) : M unit :=
  restrict DxTDx (n * m) X (n * m) ;! for_ 0 n (row_body ddiff2_z m alpha X DxTDx).

(** TV.c:206-210, one iteration of the first parallel loop *)
Definition Dy_body1 (m : Z) (alpha : T) (X Dy : ptr) (row : Z) : M unit :=
  let* lo := i32 (row * m) in let* hi := i32 ((row + 1) * m) in
  for_ lo hi (fun col =>
    let* j := i32 (col + m) in
    let* a := ld X j in let* b := ld X col in
    sto Dy col (mul alpha (sub a b))).
(** TV.c:214-216, one iteration of the second parallel loop *)
Definition Dy_body2 (Dy : ptr) (i : Z) : M unit := sto Dy i zero.
(** TV.c:201-217 *)
Definition l1c_Dy (n m : Z) (alpha : T) (X Dy : ptr) : M unit :=
  restrict Dy (n * m) X (n * m) ;!
  for_ 0 (n - 1) (Dy_body1 m alpha X Dy) ;!
  let* lo := i32 ((n - 1) * m) in let* hi := i32 (n * m) in
  for_ lo hi (Dy_body2 Dy).

(** TV.c:244-248 *)
Definition DyT_body (n m : Z) (alpha : T) (A dyt : ptr) (i : Z) : M unit :=
  let* lim := i32 ((n - 1) * m) in
  let* Ai := (if i <? lim then ld A i else ret zero) in
  let* Aim := (if i <? m then ret zero else ld A (i - m)) in
  sto dyt i (mul alpha (sub Aim Ai)).
(** TV.c:238-249 *)
Definition l1c_DyT (n m : Z) (alpha : T) (A dyt : ptr) : M unit :=
  restrict dyt (n * m) A (n * m) ;!
  let* Len := i32 (n * m) in
  for_ 0 Len (DyT_body n m alpha A dyt).

(** TV.c:276-282 *)
Definition DyTDy_body (n m : Z) (alp2 : T) (Len : Z) (A dytdy : ptr) (i : Z) : M unit :=
  let* Aim := (if i <? m then ret zero else ld A (i - m)) in
  let* lim := i32 (m * (n - 1)) in
  let* Di := (if (i <? m) || (lim - 1 <? i) then ld A i
              else let* a := ld A i in ret (mul two a)) in
  let* Aip := (if i <? Len - m then ld A (i + m) else ret zero) in
  sto dytdy i (mul alp2 (sub (add (opp Aim) Di) Aip)).
(** TV.c:269-283 *)
Definition l1c_DyTDy (n m : Z) (alpha : T) (A dytdy : ptr) : M unit :=
  restrict dytdy (n * m) A (n * m) ;!
  let alp2 := mul alpha alpha in
  let* Len := i32 (n * m) in
  for_ 0 Len (DyTDy_body n m alp2 Len A dytdy).

End tv.
