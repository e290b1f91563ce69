(** * Model of src/dct_transforms.c. *)
From stdpp Require Import base list.
From Coq Require Import ZArith.
From Verif Require Import Globals Mem M_Math M_Memory M_Status M_FFTW M_Dct1 M_Dct2.
Local Open Scope Z_scope.

(** include/l1c.h:72 DctMode; any int may be stored in one *)
Definition dct1 : Z := 1.
Definition dct2 : Z := 2.

Section dct.
Context `{N : Num}.
(** dct_transforms.c:71-80 and dct_tv_transforms.c:241-250 check_pix_idx *)
Definition check_pix_idx (n : Z) (pix_idx : ptr) (max_idx : Z) : M Z :=
  let* r := for_brk 0 n L1C_SUCCESS (fun i _ =>
    let* idx := ldi pix_idx i in
    ret (if (max_idx <? idx) || (idx <? 0) then Stop L1C_INVALID_ARGUMENT else Go L1C_SUCCESS)) in
  ret (snd r).

(** dct_transforms.c:42-69 l1c_setup_dct_transforms *)
Definition l1c_setup_dct_transforms (n mrow mcol : Z) (dct_mode : Z) (pix_idx : ptr) (ax : AxFuns) : M (Z * AxFuns) :=
  if (n <=? 0) || (mrow <=? 0) || (mcol <=? 0) then ret (L1C_INVALID_ARGUMENT, ax)      (* :49-51 *)
  else
  let* mm := i32 (mrow * mcol) in
  let* c := check_pix_idx n pix_idx (mm - 1) in                               (* :53-55 *)
  if negb (c =? 0) then ret (L1C_INVALID_ARGUMENT, ax) else
  if (mcol =? 1) || (mrow =? 1) || (dct_mode =? dct1)   (* :57-59 *)
  then l1c_dct1_setup n mm pix_idx ax
  else if ((1 <? mcol) && (1 <? mrow)) || (dct_mode =? dct2) then   (* :60-65 *)
    if (mcol =? 1) || (mrow =? 1) then ret (L1C_INCONSISTENT_ARGUMENTS, ax)
    else l1c_dct2_setup n mrow mcol pix_idx ax
  else ret (L1C_INCONSISTENT_ARGUMENTS, ax).                                  (* :66-68 *)
End dct.
