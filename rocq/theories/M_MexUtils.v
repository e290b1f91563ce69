(** * Model of interfaces/mex/l1c_mex_utils.c, and of what it uses of MATLAB.

    MATLAB's own functions (mx..., mex...) are modelled by their documentation: an mxArray is its class,
    sizes, data and fields; mexErrMsgIdAndTxt ends the MEX function, which is the result [Err].  The text
    of messages is left out. *)
From stdpp Require Import base list gmap strings.
From Coq Require Import ZArith.
From Verif Require Import Globals Mem M_Math M_Memory.
Local Open Scope Z_scope.

(** mxArray: class, mxGetM, mxGetN (the product of all sizes but the first), mxGetNumberOfDimensions,
    mxGetPr or mxGetInt32s, and the fields of a struct; a char array carries its text *)
Inductive mxclass : Type := MxDouble | MxInt32 | MxStruct | MxChar (text : string) | MxOther.
Inductive mxArray : Type := MxA (cls : mxclass) (m n nd : Z) (data : ptr) (fields : list (string * mxArray)).
Definition mxGetM (a : mxArray) : Z := let '(MxA _ m _ _ _ _) := a in m.
Definition mxGetN (a : mxArray) : Z := let '(MxA _ _ n _ _ _) := a in n.
Definition mxGetNumberOfDimensions (a : mxArray) : Z := let '(MxA _ _ _ d _ _) := a in d.
Definition mxGetPr (a : mxArray) : ptr := let '(MxA _ _ _ _ p _) := a in p.
Definition mxFields (a : mxArray) : list (string * mxArray) := let '(MxA _ _ _ _ _ f) := a in f.
Definition mxIsDouble (a : mxArray) : bool := let '(MxA c _ _ _ _ _) := a in match c with MxDouble => true | _ => false end.
Definition mxIsInt32 (a : mxArray) : bool := let '(MxA c _ _ _ _ _) := a in match c with MxInt32 => true | _ => false end.
Definition mxIsStruct (a : mxArray) : bool := let '(MxA c _ _ _ _ _) := a in match c with MxStruct => true | _ => false end.
Definition mxIsScalar (a : mxArray) : bool := (mxGetM a =? 1) && (mxGetN a =? 1).
(** mxGetString(a, buf, size): the text, if a is a char array and the text with its final 0 fits *)
Definition mxGetString (a : mxArray) (size : nat) : option string :=
  let '(MxA c _ _ _ _ _) := a in match c with MxChar t => if (String.length t <? size)%nat then Some t else None | _ => None end.
(** mxGetField(a, 0, name): NULL if there is no such field *)
Fixpoint find_field (l : list (string * mxArray)) (name : string) : option mxArray :=
  match l with [] => None | (f, v) :: l' => if String.eqb f name then Some v else find_field l' name end.
Definition mxGetField (a : mxArray) (name : string) : option mxArray := find_field (mxFields a) name.

Section mex.
Context `{N : Num}.
(** how a MEX function ends: with a value, or in mexErrMsgIdAndTxt *)
Inductive mex (A : Type) : Type := Val (a : A) | Err (id : string).
Global Arguments Val {A} a.
Global Arguments Err {A} id.
Definition MX (A : Type) : Type := M (mex A).
Definition mret {A} (a : A) : MX A := ret (Val a).
Definition mbind {A B} (m : MX A) (k : A -> MX B) : MX B :=
  let* r := m in match r with Val a => k a | Err id => ret (Err id) end.
Definition lift {A} (m : M A) : MX A := let* a := m in ret (Val a).
(** mexErrMsgIdAndTxt *)
Definition mexErr {A} (id : string) : MX A := ret (Err id).

(** the value of a scalar double *)
Definition mxGetScalar (a : mxArray) : M T := ld (mxGetPr a) 0.
(** arrays of ints: calloc, free, and p[i] = v *)
Definition set_im (f : gmap nat (list Z) -> gmap nat (list Z)) (s : st) : st :=
  mkSt (dm s) (f (im s)) (pm s) (om s) (al s) (nx s) (en s) (gl s).
Definition calloc_i (n : Z) : M ptr := fun s =>
  if (0 <=? n) && alloc_ok (en s) (nx s) then
    Ok (Ptr (nx s) 0) (tick (set_im (<[nx s := replicate (Z.to_nat n) 0]>) s))
  else Ok Null (tick s).
Definition free_i (p : ptr) : M unit := fun s =>
  match p with
  | Null => Ok tt s
  | Ptr b o => if o =? 0 then match im s !! b with Some _ => Ok tt (set_im (delete b) s) | None => Ub UbFree end else Ub UbFree
  end.
Definition sti (p : ptr) (i : Z) (v : Z) : M unit := fun s =>
  match p with
  | Ptr b o =>
      if 0 <=? o + i then
        match im s !! b with
        | Some c => if o + i <? Z.of_nat (length c) then Ok tt (set_im (<[b := <[Z.to_nat (o + i) := v]> c]>) s) else Ub UbOob
        | None => Ub UbOob
        end
      else Ub UbOob
  | Null => Ub UbOob
  end.

(** l1c_mex_utils.c:10-24 check_input_size (DALIGN = 64, sizeof(double) = 8) *)
Definition check_input_size (n : Z) : M Z :=
  let divisor := div (ofZ 64) (ofZ 8) in                            (* :16 *)
  let maybe_div := div (ofZ n) divisor in                           (* :17 *)
  let* q := cast_int maybe_div in                                   (* :19 *)
  if q =? Z.quot n (Z.quot 64 8) then ret 0 else ret 1.             (* :19-24 *)

(** the argument mxa[idx] *)
Definition arg (mxa : list mxArray) (idx : nat) : M mxArray :=
  match mxa !! idx with Some a => ret a | None => undef UbOob end.
(** l1c_mex_utils.c:26-33 *)
Definition mex_assert_scalar_struct (a : mxArray) : MX unit :=
  if negb (mxGetM a =? 1) || negb (mxGetN a =? 1) then mexErr "l1c:notScalar" else
  if negb (mxIsStruct a) then mexErr "l1c:notStruct" else mret tt.
(** l1c_mex_utils.c:35-39 *)
Definition mex_assert_double (a : mxArray) : MX unit := if negb (mxIsDouble a) then mexErr "l1c:notDouble" else mret tt.
(** l1c_mex_utils.c:41-46 *)
Definition mex_assert_double_scalar (a : mxArray) : MX unit :=
  if negb (mxIsDouble a) || negb (mxIsScalar a) then mexErr "l1c:notDoubleScalar" else mret tt.
(** l1c_mex_utils.c:48-52 and 54-58: the same test *)
Definition mex_assert_num (n n_required : Z) : MX unit := if n <? n_required then mexErr "l1c:nlhs" else mret tt.
(** l1c_mex_utils.c:60-73 *)
Definition mex_get_double_from_struct_or_fail (a : mxArray) (fld : string) : MX T :=
  match mxGetField a fld with
  | None => mexErr "l1c:notAField"
  | Some tmp => mbind (mex_assert_double_scalar tmp) (fun _ => lift (mxGetScalar tmp))
  end.
(** l1c_mex_utils.c:75-79 *)
Definition mex_get_double_scalar_or_fail (a : mxArray) : MX T :=
  mbind (mex_assert_double_scalar a) (fun _ => lift (mxGetScalar a)).
(** l1c_mex_utils.c:81-87; mxGetScalar of an int32 array is its first element, as a double *)
Definition mex_get_int32_scalar_or_fail (a : mxArray) : MX Z :=
  if negb (mxIsInt32 a) || negb (mxIsScalar a) then mexErr "l1c:notInt32Scalar" else
  lift (let* z := ldi (mxGetPr a) 0 in cast_int (ofZ z)).
(** l1c_mex_utils.c:89-105 *)
Definition mex_assert_1darray (a : mxArray) : MX unit :=
  let n := mxGetN a in let m := mxGetM a in let d := mxGetNumberOfDimensions a in
  if (n =? 0) || (m =? 0) then mexErr "l1c:not1DArray" else
  if mxIsScalar a then mexErr "l1c:not1DArray" else
  if (2 <? d) || (negb (n =? 1) && negb (m =? 1)) then mexErr "l1c:not1DArray" else mret tt.
(** l1c_mex_utils.c:107-139; (size_t)n of an int n *)
Definition size_of_int (n : Z) : Z := n mod 2 ^ 64.
Definition mex_assert_2Darray_with_size (a : mxArray) (n m : Z) : MX unit :=
  let n_act := mxGetM a in let m_act := mxGetN a in let d := mxGetNumberOfDimensions a in
  if (n_act =? 0) || (m_act =? 0) then mexErr "l1c:not2DArray" else
  if mxIsScalar a then mexErr "l1c:not2DArray" else
  if 2 <? d then mexErr "l1c:not2DArray" else
  if (n_act <? size_of_int n) || (m_act <? size_of_int m) then mexErr "l1c:ArraySize" else mret tt.
(** l1c_mex_utils.c:141-161: the data and its length (a size_t product) *)
Definition mex_get_double_array_or_fail (a : mxArray) : MX (ptr * Z) :=
  let n := mxGetN a in let m := mxGetM a in
  if negb (mxIsDouble a) then mexErr "l1c:notDouble" else
  mbind (mex_assert_1darray a) (fun _ =>
  let nm := (n * m) mod 2 ^ 64 in
  if INT_MAX <? nm then mexErr "l1c:ArrayTooLarge" else mret (mxGetPr a, nm)).
(** l1c_mex_utils.c:163-184: the same for an int32 array *)
Definition mex_get_int_array_or_fail (a : mxArray) : MX (ptr * Z) :=
  let n := mxGetN a in let m := mxGetM a in
  if negb (mxIsInt32 a) then mexErr "l1c:notInt32" else
  mbind (mex_assert_1darray a) (fun _ =>
  let nm := (n * m) mod 2 ^ 64 in
  if INT_MAX <? nm then mexErr "l1c:ArrayTooLarge" else mret (mxGetPr a, nm)).
End mex.
Notation "'let!' x ':=' m 'in' k" := (mbind m (fun x => k))
  (at level 200, x name, m at level 200, k at level 200, right associativity).
