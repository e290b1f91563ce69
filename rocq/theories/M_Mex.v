(** * Model of the three MEX functions: interfaces/mex/l1qc_dct_mex.c, breg_anistropic_TV_mex.c,
    nesta_dctTV_mex.c.

    Left out: messages.  mxCreateDoubleMatrix, mxCreateStructMatrix and mxCreateDoubleScalar are taken to
    succeed (MATLAB ends the MEX function otherwise); an output is given by its sizes and contents. *)
From stdpp Require Import base list gmap strings.
From Coq Require Import ZArith.
From Verif Require Import Globals Mem M_Math M_Memory M_Status M_CG M_LineSearch M_FFTW M_Dct1 M_Dct2 M_Dct M_TVt M_Newton M_L1qcDct M_Bregman M_Nesta
  M_Logging M_MexUtils.
Local Open Scope Z_scope.

Section mex.
Context `{N : Num}.
Context (fft1 : fkind -> list T -> list T) (fft2 : fkind -> nat -> nat -> list T -> list T).

(** an output: a rows x cols matrix of doubles (stored by columns), or a struct *)
Inductive mxout : Type := OutDouble (rows cols : Z) (xs : list T) | OutStruct (fields : list (string * T)).
(** for (i = 0; i < n; i++) out[i] = p[i] *)
Fixpoint read_all (k : nat) (p : ptr) (i : Z) : M (list T) :=
  match k with O => ret [] | S k' => let* v := ld p i in let* l := read_all k' p (i + 1) in ret (v :: l) end.
Definition copy_out (n : Z) (p : ptr) : M (list T) := read_all (Z.to_nat n) p 0.

(** nesta_dctTV_mex.c:140: mxCreateDoubleMatrix(mrow, mcol, mxREAL), with mrow*mcol = n: the data are zeros in a block of
    MATLAB's, aligned by luck.  Without memory for it MATLAB ends the MEX function with an error of its own; that is
    not modelled, the request is taken to be granted. *)
Definition mxCreateDoubleMatrix (n : Z) : M ptr := fun s =>
  Ok (Ptr (nx s) 0) (tick (set_al (nx s) (luck (en s) (nx s)) (set_dm (<[nx s := replicate (Z.to_nat n) (Some zero)]>) s))).

(** the number that stands for mexPrintf *)
Definition mexPrintf : Z := 1.

(** l1qc_dct_mex.c:126-133 and nesta_dctTV_mex.c:112-119: the conversion of pix_idx; the result is status *)
Definition convert_idx (n mtot : Z) (pix_idx_double pix_idx : ptr) : M Z :=
  let* r := for_brk 0 n 0 (fun i _ =>
     let* v := ld pix_idx_double i in
     let* c := cast_int v in
     let* idx := i32 (c - 1) in
     if (idx <? 0) || (mtot - 1 <? idx) then ret (Stop L1C_INVALID_ARGUMENT)
     else sti pix_idx i idx ;! ret (Go 0)) in
  ret (snd r).

(** l1qc_dct_mex.c:32-44 and 81-94: the options, in the order in which the fields are read *)
Definition l1qc_mex_opts (a : mxArray) : MX L1qcOpts :=
  let! epsilon := mex_get_double_from_struct_or_fail a "epsilon" in
  let! mu := mex_get_double_from_struct_or_fail a "mu" in
  let! tau := mex_get_double_from_struct_or_fail a "tau" in
  let! newton_tol := mex_get_double_from_struct_or_fail a "newton_tol" in
  let! lbtol := mex_get_double_from_struct_or_fail a "lbtol" in
  let! l1_tol := mex_get_double_from_struct_or_fail a "l1_tol" in
  let! cg_tol := mex_get_double_from_struct_or_fail a "cgtol" in
  let! w := mex_get_double_from_struct_or_fail a "warm_start_cg" in
  let! warm_start_cg := lift (cast_int w) in
  let! v := mex_get_double_from_struct_or_fail a "verbose" in
  let! verbose := lift (cast_int v) in
  let! k := mex_get_double_from_struct_or_fail a "newton_max_iter" in
  let! newton_max_iter := lift (cast_int k) in
  let! c := mex_get_double_from_struct_or_fail a "cgmaxiter" in
  let! cg_maxiter := lift (cast_int c) in
  let! l := mex_get_double_from_struct_or_fail a "lbiter" in
  let! lbiter := lift (cast_int l) in
  mret (mkL1qc epsilon mu lbtol tau lbiter newton_tol newton_max_iter verbose l1_tol cg_tol cg_maxiter 0 warm_start_cg dct1).

(** l1qc_dct_mex.c:26-189 mexFunction.  The result: plhs. *)
Definition l1qc_dct_mex (nlhs nrhs : Z) (prhs : list mxArray) : MX (list mxout) :=
  let! _ := lift (l1c_replace_printf mexPrintf) in                            (* :28 *)
  let! _ := mex_assert_num nlhs 1 in                                          (* :54 *)
  let! _ := mex_assert_num nrhs 5 in                                          (* :55 *)
  let! a0 := lift (arg prhs 0) in
  let! d0 := mex_get_double_scalar_or_fail a0 in
  let! mrow := lift (cast_int d0) in                                          (* :58 *)
  let! a1 := lift (arg prhs 1) in
  let! d1 := mex_get_double_scalar_or_fail a1 in
  let! mcol := lift (cast_int d1) in                                          (* :61 *)
  let! mtot := lift (i32 (mcol * mrow)) in                                    (* :62 *)
  let! a2 := lift (arg prhs 2) in
  let! bn := mex_get_double_array_or_fail a2 in                               (* :65 *)
  let '(b, n) := bn in
  let! a3 := lift (arg prhs 3) in
  let! ps := mex_get_double_array_or_fail a3 in                               (* :68 *)
  let '(pix_idx_double, size_pix_idx) := ps in
  if negb (n <? mrow * mcol) || negb (n =? size_pix_idx) || (mrow <=? 0) || (mcol <=? 0)
  then mexErr "l1c:l1qc_dct:incompatible_dimensions" else                     (* :71-76 *)
  let! a4 := lift (arg prhs 4) in
  let! _ := mex_assert_scalar_struct a4 in                                    (* :79 *)
  let! l1qc_opts := l1qc_mex_opts a4 in                                       (* :81-94 *)
  let! x_ours := lift (l1c_malloc_double (mrow * mcol)) in                    (* :116 *)
  let! pix_idx := lift (calloc_i n) in                                        (* :117 *)
  let! r := lift
    (if is_null x_ours || is_null pix_idx then ret (L1C_OUT_OF_MEMORY, []) else   (* :118-121 *)
     let* status := convert_idx n mtot pix_idx_double pix_idx in              (* :126-133 *)
     if negb (status =? 0) then ret (status, []) else
     let* res := l1qc_dct fft1 fft2 mrow mcol x_ours n b pix_idx l1qc_opts in (* :135 *)
     let '(stat, lb) := res in
     let lb_res := match lb with Some r => r | None => mkLB pinf 0 0 0 end in (* :46 *)
     let lb_res := if negb (stat =? 0) then mkLB (lb_l1 lb_res) (lb_newton lb_res) (lb_cg lb_res) stat else lb_res in   (* :136-138 *)
     let* xs := copy_out (mrow * mcol) x_ours in                              (* :142-148 *)
     ret (0, OutDouble (mrow * mcol) 1 xs ::
             (if nlhs =? 2 then [OutStruct [("l1", lb_l1 lb_res); ("total_newton_iter", ofZ (lb_newton lb_res));
                                          ("total_cg_iter", ofZ (lb_cg lb_res)); ("status", ofZ (lb_status lb_res))]]
              else []))) in                                                   (* :150-171 *)
  let '(status, plhs) := r in
  let! _ := lift (free_i pix_idx ;! l1c_free_double x_ours) in                (* :174-175 *)
  if status =? L1C_OUT_OF_MEMORY then mexErr "l1c:l1qc_dct:outofmemory" else  (* :178-180 *)
  if status =? L1C_INVALID_ARGUMENT then mexErr "l1c:l1qc_dct:bad_index" else (* :181-183 *)
  mret plhs.

(** the conversion of a size_t to an int (modulo 2^32, as gcc defines it) *)
Definition int_of_size (z : Z) : Z := (z + 2 ^ 31) mod 2 ^ 32 - 2 ^ 31.

(** breg_anistropic_TV_mex.c:27-84 mexFunction.  [None]: plhs[0] = NULL. *)
Definition breg_mex (nlhs nrhs : Z) (prhs : list mxArray) : MX (option mxout) :=
  let! _ := lift (l1c_replace_printf mexPrintf) in                            (* :29 *)
  let! _ := mex_assert_num nlhs 1 in                                          (* :38 *)
  let! _ := mex_assert_num nrhs 4 in                                          (* :39 *)
  let! a0 := lift (arg prhs 0) in
  let! _ := mex_assert_double a0 in                                           (* :42 *)
  let! _ := mex_assert_2Darray_with_size a0 3 3 in                            (* :44 *)
  let M := int_of_size (mxGetN a0) in                                         (* :47 *)
  let N := int_of_size (mxGetM a0) in                                         (* :48 *)
  let f := mxGetPr a0 in                                                      (* :49 *)
  let! a1 := lift (arg prhs 1) in
  let! mu := mex_get_double_scalar_or_fail a1 in                              (* :52 *)
  let! a2 := lift (arg prhs 2) in
  let! tol := mex_get_double_scalar_or_fail a2 in                             (* :53 *)
  let! a3 := lift (arg prhs 3) in
  let! mi := mex_get_double_scalar_or_fail a3 in
  let! max_iter := lift (cast_int mi) in                                      (* :54 *)
  let! nm := lift (i32 (N * M)) in
  let! f_ours := lift (l1c_malloc_double nm) in                               (* :59 *)
  let! uk := lift (l1c_malloc_double nm) in                                   (* :60 *)
  if is_null f_ours || is_null uk then mexErr "l1c:l1qc_dct:outofmemory" else (* :61-64 *)
  let! _ := lift (cblas_dcopy nm f f_ours) in                                 (* :65 *)
  let! stat := lift (l1c_breg_anistropic_TV N M uk f_ours mu tol max_iter 1) in   (* :66 *)
  let! out := lift (if negb (stat =? 0) then ret None                         (* :67-70 *)
                    else let* xs := copy_out nm uk in ret (Some (OutDouble M N xs))) in   (* :72-78 *)
  let! _ := lift (l1c_free_double f_ours ;! l1c_free_double uk) in            (* :81-82 *)
  mret out.

(** nesta_dctTV_mex.c:56-86: the options.  The cast of a double to the enum DctMode is that to an int. *)
Definition nesta_mex_opts (a : mxArray) : MX (NestaOpts * T * T * Z * Z) :=
  let! sigma := mex_get_double_from_struct_or_fail a "sigma" in
  let! v := mex_get_double_from_struct_or_fail a "verbose" in
  let! verbose := lift (cast_int v) in
  let! mu := mex_get_double_from_struct_or_fail a "mu" in
  let! tol := mex_get_double_from_struct_or_fail a "tol" in
  let! nc := mex_get_double_from_struct_or_fail a "n_continue" in
  let! n_continue := lift (cast_int nc) in
  let! alp_v := mex_get_double_from_struct_or_fail a "alpha_v" in
  let! alp_h := mex_get_double_from_struct_or_fail a "alpha_h" in
  let! dm := mex_get_double_from_struct_or_fail a "dct_mode" in
  let! dct_mode := lift (cast_int dm) in
  match mxGetField a "bp_mode" with
  | None => mexErr "l1c:notAField"
  | Some f =>
      match mxGetString f 10 with
      | None => mexErr "l1c:badField"
      | Some t =>
          if String.eqb t "synthesis" then mret (mkNOpt mu tol sigma n_continue verbose, alp_v, alp_h, dct_mode, synthesis)
          else if String.eqb t "analysis" then mret (mkNOpt mu tol sigma n_continue verbose, alp_v, alp_h, dct_mode, analysis)
          else mexErr "l1c:badField"
      end
  end.

(** nesta_dctTV_mex.c:22-169 mexFunction. *)
Definition nesta_mex (nlhs nrhs : Z) (prhs : list mxArray) : MX (list mxout) :=
  let! _ := lift (l1c_replace_printf mexPrintf) in                            (* :24 *)
  let! _ := mex_assert_num nlhs 2 in                                          (* :40 *)
  let! _ := mex_assert_num nrhs 5 in                                          (* :41 *)
  let! a0 := lift (arg prhs 0) in
  let! d0 := mex_get_double_scalar_or_fail a0 in
  let! mrow := lift (cast_int d0) in                                          (* :43 *)
  let! a1 := lift (arg prhs 1) in
  let! d1 := mex_get_double_scalar_or_fail a1 in
  let! mcol := lift (cast_int d1) in                                          (* :44 *)
  let! mtot := lift (i32 (mcol * mrow)) in                                    (* :45 *)
  let! a2 := lift (arg prhs 2) in
  let! bn := mex_get_double_array_or_fail a2 in                               (* :48 *)
  let '(b, n) := bn in
  let! a3 := lift (arg prhs 3) in
  let! ps := mex_get_double_array_or_fail a3 in                               (* :51 *)
  let '(pix_idx_double, size_pix_idx) := ps in
  let! a4 := lift (arg prhs 4) in
  let! _ := mex_assert_scalar_struct a4 in                                    (* :54 *)
  let! o := nesta_mex_opts a4 in                                              (* :56-86 *)
  let '(opts, alp_v, alp_h, dct_mode, bp_mode) := o in
  if negb (n <? mrow * mcol) || negb (n =? size_pix_idx) || (mrow <=? 0) || (mcol <=? 0)
  then mexErr "l1c:incompatible_dimensions" else                              (* :89-93 *)
  let! pix_idx := lift (calloc_i n) in                                        (* :106 *)
  let! r := lift
    (let* status := convert_idx n mtot pix_idx_double pix_idx in              (* :112-119 *)
     if negb (status =? 0) then ret (status, Null, Null, []) else
     let* su := l1c_setup_dctTV_transforms n mrow mcol alp_v alp_h dct_mode bp_mode pix_idx ax_local in   (* :121-122 *)
     let '(status, ax_funs) := su in
     if negb (status =? 0) then ret (status, Null, Null, []) else             (* :123-125 *)
     let* x0 := l1c_malloc_double (ax_m ax_funs) in                           (* :127 *)
     let* b_ours := l1c_malloc_double n in                                    (* :128 *)
     if is_null pix_idx || is_null b_ours || is_null x0 then ret (L1C_OUT_OF_MEMORY, x0, b_ours, []) else   (* :129-132 *)
     cblas_dcopy n b b_ours ;!                                                (* :134 *)
     let* status := l1c_nesta (call fft1 fft2) mtot x0 n b_ours ax_funs opts in   (* :136 *)
     let* z_out := mxCreateDoubleMatrix mtot in                               (* :140, 143 *)
     call fft1 fft2 (ax_Mx ax_funs) x0 z_out ;!                               (* :145 *)
     call_destroy (ax_destroy ax_funs) ;!                                     (* :147 *)
     let* zs := copy_out mtot z_out in
     free_d z_out ;!
     ret (status, x0, b_ours, [OutDouble mrow mcol zs; OutDouble 1 1 [ofZ status]])) in   (* :140-141 *)
  let '(status, x0, b_ours, plhs) := r in
  let! _ := lift (free_i pix_idx ;! l1c_free_double x0 ;! l1c_free_double b_ours) in   (* :150-152 *)
  if status =? L1C_OUT_OF_MEMORY then mexErr "l1c:l1qc_dct:outofmemory" else  (* :155-157 *)
  if status =? L1C_INVALID_ARGUMENT then mexErr "l1c:l1qc_dct:bad_index" else (* :158-160 *)
  if status =? L1C_DCT_INIT_FAILURE then mexErr "l1c:dct_failure" else        (* :162-164 *)
  mret plhs.
End mex.
