(** * Model of src/linesearch.c. *)
From stdpp Require Import base list.
From Coq Require Import ZArith.
From Verif Require Import Mem M_Math.
Local Open Scope Z_scope.

Section ls.
Context `{N : Num}.

(** include/l1qc_newton.h:22-33 *)
Record LSStat : Type := mkLS { ls_flin : T; ls_step : T; ls_iter : Z; ls_status : Z }.
Record LSParams : Type := mkLSP { lsp_alpha : T; lsp_beta : T; lsp_s : T }.

(** include/linesearch.h:5 *)
Definition MAX_LINESEARCH_ITER : Z := 32.

(** local variables of the loop: step, flin, and the result once the search has succeeded *)
Definition lsv : Type := (T * T * option LSStat)%type.

(** src/linesearch.c:64-134 l1c_linesearch_xu.  [feval xp up] is the callback with its data
    argument applied.  The printing at :119-127 is left out. *)
Definition linesearch_xu (m : Z) (x u dx du fx0 : ptr) (g_dot_dxu : T)
    (feval : ptr -> ptr -> M T) (prm : LSParams) (DWORK2 : ptr) : M LSStat :=
  let* fx0_orig := ld fx0 0 in                                                (* :78 *)
  let* xp := ldp DWORK2 0 in let* up := ldp DWORK2 1 in                       (* :82-83 *)
  let* r := for_brk 1 (MAX_LINESEARCH_ITER + 1) ((lsp_s prm, zero, None) : lsv)
    (fun iter (v : lsv) => let '(step, flin, _) := v in                       (* :85 *)
      l1c_daxpy_z m step dx x xp ;! l1c_daxpy_z m step du u up ;!             (* :87-88 *)
      let* f_val := feval xp up in                                            (* :91 *)
      if isnan f_val then ret (Go (mul (lsp_beta prm) step, flin, None)) else (* :93-96 *)
      let flin := add fx0_orig (mul (mul (lsp_alpha prm) step) g_dot_dxu) in  (* :103 *)
      if leb_ f_val flin then                                                 (* :105 *)
        cblas_dcopy m xp x ;! cblas_dcopy m up u ;! sto fx0 0 f_val ;!        (* :106-108 *)
        ret (Stop (step, flin, Some (mkLS flin step iter 0)))                 (* :109-113 *)
      else ret (Go (mul (lsp_beta prm) step, flin, None))) in                 (* :116 *)
  let '(iter, (step, flin, res)) := r in
  match res with
  | Some st => ret st
  | None => ret (mkLS flin step (Z.min iter MAX_LINESEARCH_ITER) 1)           (* :129-133 *)
  end.

(** src/linesearch.c:177-241 l1c_linesearch.  Unlike the version above it reads *fx0 again after
    every call of the objective. *)
Definition linesearch (n : Z) (x dx fx0 : ptr) (g_dot_dx : T)
    (objective_fun : ptr -> M T) (prm : LSParams) (DWORK : ptr) : M LSStat :=
  let xp := DWORK in                                                          (* :194 *)
  let* r := for_brk 1 (MAX_LINESEARCH_ITER + 1) ((lsp_s prm, zero, None) : lsv)
    (fun iter (v : lsv) => let '(step, flin, _) := v in                       (* :196 *)
      l1c_daxpy_z n step dx x xp ;!                                           (* :198 *)
      let* fp := objective_fun xp in                                          (* :201 *)
      if isnan fp then ret (Go (mul (lsp_beta prm) step, flin, None)) else    (* :203-206 *)
      let* f0 := ld fx0 0 in
      let flin := add f0 (mul (mul (lsp_alpha prm) step) g_dot_dx) in         (* :210 *)
      if leb_ fp flin then                                                    (* :212 *)
        cblas_dcopy n xp x ;! sto fx0 0 fp ;!                                 (* :213-214 *)
        ret (Stop (step, flin, Some (mkLS flin step iter 0)))                 (* :216-220 *)
      else ret (Go (mul (lsp_beta prm) step, flin, None))) in                 (* :223 *)
  let '(iter, (step, flin, res)) := r in
  match res with
  | Some st => ret st
  | None => ret (mkLS flin step (Z.min iter MAX_LINESEARCH_ITER) 1)           (* :236-240 *)
  end.

End ls.
