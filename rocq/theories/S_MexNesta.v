(** * Correct calls of nesta_dctTV from MATLAB (interfaces/mex/nesta_dctTV_mex.c:43-93, interfaces/mex/nesta_opts.m). *)
From Coq Require Import ZArith Lia.
From stdpp Require Import base numbers gmap list strings.
From Verif Require Import Globals Mem M_Math M_Nesta M_TVt M_MexUtils P_Mem S_Mem P_Memory S_TVtApi S_Mex.
Local Open Scope Z_scope.

Section args.
Context `{N : Num}.
Implicit Types (s : st).
(** the options of nesta_dctTV as documented in nesta_opts.m; bp_mode is a string *)
Record nesta_struct s a (o : NestaOpts) (av ah : T) (mode bp : Z) : Prop := {
  nt_s : is_struct a;
  nt_sigma : field s a "sigma" (no_sigma o); nt_v : field_int s a "verbose" (no_verbose o); nt_mu : field s a "mu" (no_mu o); nt_tol : field s a "tol" (no_tol o);
  nt_nc : field_int s a "n_continue" (no_n_continue o); nt_av : field s a "alpha_v" av; nt_ah : field s a "alpha_h" ah; nt_dct : field_int s a "dct_mode" mode;
  nt_bp : exists f t, mxGetField a "bp_mode" = Some f /\ mxGetString f 10 = Some t /\
     ((t = "analysis"%string /\ bp = analysis) \/ (t = "synthesis"%string /\ bp = synthesis)) }.
(** The call [x, status] = nesta_dctTV(nr, nc, b, pix_idx, opts): b holds bs, pix_idx numbers that convert to the
    ints zs; fewer measurements than pixels. *)
Record nesta_args s (prhs : list mxArray) (nr nc : nat) (bb : nat) (bo : Z) (bs : list T) (pi : ptr) (vs : list T) (zs : list Z)
    (o : NestaOpts) (av ah : T) (mode bp : Z) : Prop := {
  nn_u : unborn s; nn_im : forall b, (nx s <= b)%nat -> im s !! b = None;
  nn_r : (1 <= nr)%nat; nn_c : (1 <= nc)%nat; nn_fit : Z.of_nat (nr * nc) <= INT_MAX;
  nn_args : exists a0 a1 a2 a3 a4 v0 v1, prhs = [a0; a1; a2; a3; a4] /\ scalar s a0 v0 /\ toint v0 = Some (Z.of_nat nr) /\
     scalar s a1 v1 /\ toint v1 = Some (Z.of_nat nc) /\ vector s a2 (Ptr bb bo) bs /\ vector s a3 pi vs /\ nesta_struct s a4 o av ah mode bp;
  nn_len : length vs = length bs; nn_lt : (length bs < nr * nc)%nat;
  nn_zs : Forall2 (fun v z => toint v = Some z /\ INT_MIN < z <= INT_MAX) vs zs }.
(** the indices all lie in the image *)
Definition in_image (nr nc : nat) (zs : list Z) : Prop := Forall (fun z => 1 <= z <= Z.of_nat (nr * nc)) zs.
(** the weights of the differences are not negative, an image whose differences are used has three rows and columns
    or more, and the number of coefficients fits an int *)
Definition weights_ok (nr nc : nat) (av ah : T) : Prop :=
  ltb_ av zero = false /\ ltb_ ah zero = false /\ (ltb_ zero av = true \/ ltb_ zero ah = true -> 3 <= nr /\ 3 <= nc)%nat.
Definition scales_fit (nr nc : nat) (av ah : T) : Prop := weights_ok nr nc av ah /\ Z.of_nat (width av ah (nr * nc)) <= INT_MAX.
End args.
