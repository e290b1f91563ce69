(** * Status codes, include/l1c.h:367-388. *)
From Coq Require Import ZArith.
Local Open Scope Z_scope.
Definition L1C_SUCCESS : Z := 0.
Definition L1C_INFEASIBLE_START : Z := 2.
Definition L1C_OUT_OF_MEMORY : Z := 8.
Definition L1C_DCT_INIT_FAILURE : Z := 32.
Definition L1C_FILE_READ_FAILURE : Z := 128.
Definition L1C_CGSOLVE_FAILURE : Z := 512.
Definition L1C_INVALID_ARGUMENT : Z := 2048.
Definition L1C_INCONSISTENT_ARGUMENTS : Z := 8192.
