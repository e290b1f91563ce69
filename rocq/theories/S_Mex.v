(** * The MATLAB user's side of the MEX functions. *)
From stdpp Require Import base list gmap strings.
From Coq Require Import ZArith.
From Verif Require Import Globals Mem P_Mem P_Memory M_Newton M_MexUtils.
Local Open Scope Z_scope.

Section mexargs.
Context `{N : Num}.
Implicit Types (s : st) (a : mxArray).
(** a real scalar *)
Definition scalar s a (v : T) : Prop := mxIsDouble a = true /\ mxGetM a = 1 /\ mxGetN a = 1 /\ seg s (mxGetPr a) [v].
(** a row or column vector with the entries vs, stored at p *)
Definition vector s a (p : ptr) (vs : list T) : Prop :=
  mxIsDouble a = true /\ mxGetNumberOfDimensions a <= 2 /\
  ((mxGetM a = Z.of_nat (length vs) /\ mxGetN a = 1) \/ (mxGetM a = 1 /\ mxGetN a = Z.of_nat (length vs))) /\
  (2 <= length vs)%nat /\ Z.of_nat (length vs) <= INT_MAX /\ mxGetPr a = p /\ seg s p vs.
(** an r x c matrix; MATLAB stores it column after column *)
Definition matrix s a (p : ptr) (r c : nat) (xs : list T) : Prop :=
  mxIsDouble a = true /\ mxGetNumberOfDimensions a = 2 /\ mxGetM a = Z.of_nat r /\ mxGetN a = Z.of_nat c /\
  mxGetPr a = p /\ seg s p xs /\ length xs = (r * c)%nat.
(** a struct with a real scalar v in the field name *)
Definition field s a (name : string) (v : T) : Prop := exists f, mxGetField a name = Some f /\ scalar s f v.
(** the same for a number that is converted to an int *)
Definition field_int s a (name : string) (z : Z) : Prop := exists v, field s a name v /\ toint v = Some z.
Definition is_struct a : Prop := mxIsStruct a = true /\ mxGetM a = 1 /\ mxGetN a = 1.
(** the options of l1qc_dct as documented in l1qc_dct_opts.m *)
Record l1qc_struct s a (o : L1qcOpts) : Prop := {
  ls_s : is_struct a;
  ls_eps : field s a "epsilon" (lo_epsilon o); ls_mu : field s a "mu" (lo_mu o); ls_tau : field s a "tau" (lo_tau o);
  ls_nt : field s a "newton_tol" (lo_newton_tol o); ls_lt : field s a "lbtol" (lo_lbtol o); ls_l1 : field s a "l1_tol" (lo_l1_tol o);
  ls_cg : field s a "cgtol" (lo_cg_tol o); ls_w : field_int s a "warm_start_cg" (lo_warm_start_cg o); ls_v : field_int s a "verbose" (lo_verbose o);
  ls_ni : field_int s a "newton_max_iter" (lo_newton_max_iter o); ls_ci : field_int s a "cgmaxiter" (lo_cg_maxiter o); ls_lb : field_int s a "lbiter" (lo_lbiter o);
  ls_dct : field_int s a "dct_mode" (lo_dct_mode o) }.
(** the same options with another dct_mode and cg_verbose = 0 *)
Definition with_mode (o : L1qcOpts) (mode : Z) : L1qcOpts :=
  mkL1qc (lo_epsilon o) (lo_mu o) (lo_lbtol o) (lo_tau o) (lo_lbiter o) (lo_newton_tol o) (lo_newton_max_iter o) (lo_verbose o) (lo_l1_tol o)
    (lo_cg_tol o) (lo_cg_maxiter o) 0 (lo_warm_start_cg o) mode.
(** The call [x, res] = l1qc_dct(nr, nc, b, pix_idx, opts) with MATLAB values: b holds bs, pix_idx numbers that
    convert to the ints zs; fewer measurements than pixels. *)
Record l1qc_args s (prhs : list mxArray) (nr nc : nat) (bb : nat) (bo : Z) (bs : list T) (pi : ptr) (vs : list T) (zs : list Z) (o : L1qcOpts) : Prop := {
  la_u : unborn s; la_im : forall b, (nx s <= b)%nat -> im s !! b = None;
  la_r : (1 <= nr)%nat; la_c : (1 <= nc)%nat; la_fit : Z.of_nat (nr * nc) <= INT_MAX;
  la_args : exists a0 a1 a2 a3 a4 v0 v1, prhs = [a0; a1; a2; a3; a4] /\ scalar s a0 v0 /\ toint v0 = Some (Z.of_nat nr) /\
     scalar s a1 v1 /\ toint v1 = Some (Z.of_nat nc) /\ vector s a2 (Ptr bb bo) bs /\ vector s a3 pi vs /\ l1qc_struct s a4 o;
  la_len : length vs = length bs; la_lt : (length bs < nr * nc)%nat;
  la_zs : Forall2 (fun v z => toint v = Some z /\ INT_MIN < z <= INT_MAX) vs zs }.
End mexargs.
