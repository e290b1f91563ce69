(** * Model of the MATLAB option builders interfaces/mex/l1qc_dct_opts.m and nesta_opts.m.

    inputParser is modelled by Octave's documentation (interfaces/mex/CMakeLists.txt:1 builds for Octave): parameter names
    are compared without regard to case, a name that was not added is an error, of several values for a name the last
    one counts, and Results has one field for each parameter.  The arguments are name-value pairs; the values are
    arrays of MATLAB's. *)
From stdpp Require Import base list gmap strings.
From Coq Require Import ZArith Ascii.
From Verif Require Import Globals Mem M_Math M_Memory M_MexUtils.
Local Open Scope Z_scope.

(** a character in lower case *)
Definition lower_char (a : ascii) : ascii :=
  let n := nat_of_ascii a in if (65 <=? n)%nat && (n <=? 90)%nat then ascii_of_nat (n + 32) else a.
Fixpoint lower (t : string) : string := match t with EmptyString => EmptyString | String a t' => String (lower_char a) (lower t') end.
(** the comparison of names *)
Definition same_name (a b : string) : bool := String.eqb (lower a) (lower b).
(** the last value given for a name, or [d] *)
Fixpoint last_given (args : list (string * mxArray)) (name : string) (d : mxArray) : mxArray :=
  match args with [] => d | (k, v) :: args' => last_given args' name (if same_name k name then v else d) end.
(** p.parse(varargin{:}) and p.Results: None is an error *)
Definition parse_params (defs args : list (string * mxArray)) : option (list (string * mxArray)) :=
  if forallb (fun kv => existsb (fun nd => same_name (fst kv) (fst nd)) defs) args
  then Some ((fun nd => (fst nd, last_given args (fst nd) (snd nd))) <$> defs) else None.

Section matopts.
Context `{N : Num}.
(** a literal in MATLAB: a 1 x 1 array of doubles, in a new block *)
Definition mxScalar (v : T) : M mxArray := fun s =>
  Ok (MxA MxDouble 1 1 2 (Ptr (nx s) 0) []) (tick (set_al (nx s) (luck (en s) (nx s)) (set_dm (<[nx s := [Some v]]>) s))).
(** p.addParameter for each name and number *)
Fixpoint add_params (l : list (string * T)) : M (list (string * mxArray)) :=
  match l with [] => ret [] | (n, v) :: l' => let* a := mxScalar v in let* r := add_params l' in ret ((n, a) :: r) end.
(** a 1 x 1 struct *)
Definition mxStruct (fields : list (string * mxArray)) : mxArray := MxA MxStruct 1 1 2 Null fields.

(** l1qc_dct_opts.m:47-59 *)
Definition l1qc_defaults : list (string * T) :=
  [("epsilon", lit 1 10); ("mu", ofZ 10); ("lbtol", lit 1 1000); ("tau", zero); ("lbiter", zero); ("newton_tol", lit 1 1000); ("newton_max_iter", ofZ 50);
   ("verbose", ofZ 2); ("l1_tol", lit 1 100000); ("cgtol", lit 1 100000000); ("cgmaxiter", ofZ 200); ("warm_start_cg", zero); ("dct_mode", one)].
(** l1qc_dct_opts.m:2-63 *)
Definition l1qc_dct_opts (args : list (string * mxArray)) : M (option mxArray) :=
  let* defs := add_params l1qc_defaults in ret (mxStruct <$> parse_params defs args).

(** nesta_opts.m:20-27, :29 *)
Definition nesta_defaults : list (string * T) :=
  [("sigma", lit 1 100); ("mu", lit 1 100000); ("tol", lit 1 1000); ("alpha_v", zero); ("alpha_h", zero); ("verbose", ofZ 5); ("n_continue", ofZ 5); ("dct_mode", one)].
(** nesta_opts.m:17-36; :28 is bp_mode *)
Definition nesta_opts (args : list (string * mxArray)) : M (option mxArray) :=
  let* defs := add_params nesta_defaults in
  ret (mxStruct <$> parse_params (defs ++ [("bp_mode", MxA (MxChar "analysis") 1 8 2 Null [])]) args).
End matopts.
