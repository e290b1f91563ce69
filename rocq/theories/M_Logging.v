(** * Model of src/l1c_logging.c. *)
From Coq Require Import ZArith.
From Verif Require Import Globals Mem.
Local Open Scope Z_scope.

Section logging.
Context `{N : Num}.
(** l1c_logging.c:6-12 l1c_replace_printf; functions are named by numbers, 0 is printf *)
Definition l1c_replace_printf (new_printf : Z) : M Z :=
  let* g := getg in
  setg (fun g => mkGlob _ (g_d1 g) (g_d2 g) (g_tv g) (g_mt g) new_printf) ;!
  ret (g_printf g).
End logging.
