(** * Model of src/l1c_memory.c. *)
From stdpp Require Import base list.
From Coq Require Import ZArith.
From Verif Require Import Mem M_Math.
Local Open Scope Z_scope.

Definition is_null (p : ptr) : bool := match p with Null => true | _ => false end.

Section memory.
Context `{N : Num}.

(** l1c_memory.c:9-20.  The multiplication (size_t)N * 8 cannot wrap for an int N >= 0; a negative
    N becomes a size above 2^63, which no allocator grants. *)
Definition l1c_malloc_double (n : Z) : M ptr := alloc_d n.
(** l1c_memory.c:22 *)
Definition l1c_free_double (x : ptr) : M unit := free_d x.
(** l1c_memory.c:48-55 *)
Definition l1c_calloc_double (n : Z) : M ptr :=
  let* p := l1c_malloc_double n in
  if is_null p then ret p else l1c_init_vec n p zero ;! ret p.

(** l1c_memory.c:90-118 *)
Definition l1c_malloc_double_2D (nrow ncol : Z) : M ptr :=
  let* dwork := alloc_p nrow in                                     (* :92 *)
  if is_null dwork then free_p dwork ;! ret Null else               (* :93, :114-117 *)
  for_ 0 nrow (fun k => stp dwork k Null) ;!                        (* :97-99 *)
  let* r := for_brk 0 nrow false (fun k _ =>                        (* :101-106 *)
     let* q := l1c_malloc_double ncol in stp dwork k q ;!
     let* q' := ldp dwork k in
     ret (if is_null q' then Stop true else Go false)) in
  let '(_, failed) := r in
  if failed then
    for_ 0 nrow (fun k => let* q := ldp dwork k in l1c_free_double q) ;!   (* :110-113 *)
    free_p dwork ;! ret Null                                               (* :115-117 *)
  else ret dwork.                                                          (* :108 *)

(** l1c_memory.c:68-76 *)
Definition l1c_calloc_double_2D (nrow ncol : Z) : M ptr :=
  let* dptr := l1c_malloc_double_2D nrow ncol in
  if is_null dptr then ret dptr else
  for_ 0 nrow (fun i => let* q := ldp dptr i in l1c_init_vec ncol q zero) ;! ret dptr.

(** l1c_memory.c:127-136 *)
Definition l1c_free_double_2D (nrow : Z) (ddptr : ptr) : M unit :=
  (if is_null ddptr then ret tt
   else for_ 0 nrow (fun k => let* q := ldp ddptr k in l1c_free_double q)) ;!
  free_p ddptr.

End memory.
