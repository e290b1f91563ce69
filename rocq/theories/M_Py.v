(** * Model of the Python module: interfaces/python/l1cPy.c, and of what it uses of Python and numpy.

    Python's and numpy's functions are modelled by their documentation.  A Python object is its contents and its
    reference count.  Objects and memory blocks share one numbering: the number of a request for memory.  A new
    array and its data are one request.  Left out: the text of messages, the numbers and strings inside a dict or
    a tuple as objects of their own, and the parsing of the argument tuple, whose result is the input of the model. *)
From stdpp Require Import base list gmap strings.
From Coq Require Import ZArith.
From Verif Require Import Globals Mem M_Math M_Memory M_Status M_CG M_LineSearch M_FFTW M_Dct1 M_Dct2 M_Dct M_TVt M_Newton M_L1qcDct M_Bregman M_Nesta M_MexUtils M_Mex.
Local Open Scope Z_scope.

Section py.
Context `{N : Num}.
Context (fft1 : fkind -> list T -> list T) (fft2 : fkind -> nat -> nat -> list T -> list T).

(** a value in a dict or tuple: a reference to an object, or a number *)
Inductive pyval : Type := VRef (i : nat) | VInt (z : Z) | VDbl (x : T).
(** NdDouble, NdInt: a C-contiguous and aligned array (NPY_ARRAY_IN_ARRAY) of the C type double or int that owns its data *)
Inductive pyobj : Type :=
| NdDouble (dims : list Z) (data : ptr) | NdInt (dims : list Z) (data : ptr)
| PyDict (items : list (string * pyval)) | PyTuple (items : list pyval) | PyOther.
(** the exceptions; EConv stands for the one that numpy raises when it cannot convert an object *)
Inductive pyexc : Type := ETypeError | EValueError | ERuntimeError | EIndexError | EMemoryError | EConv.
(** what numpy makes of an object that is not such an array: sizes and elements, or an error *)
Record pyenv : Type := mkPyEnv { conv_d : nat -> option (list Z * list T); conv_i : nat -> option (list Z * list Z) }.
(** the C heap, the objects with their reference counts, the error indicator *)
Record pst : Type := mkPst { ps_c : st; ps_o : gmap nat (nat * pyobj); ps_exc : option pyexc; ps_env : pyenv }.
Definition set_c (s : st) (p : pst) : pst := mkPst s (ps_o p) (ps_exc p) (ps_env p).
Definition set_o (o : gmap nat (nat * pyobj)) (p : pst) : pst := mkPst (ps_c p) o (ps_exc p) (ps_env p).
Definition set_exc (e : pyexc) (p : pst) : pst := mkPst (ps_c p) (ps_o p) (Some e) (ps_env p).

Inductive pout (A : Type) : Type := POk (a : A) (p : pst) | PUb (e : ub).
Global Arguments POk {A} a p.
Global Arguments PUb {A} e.
Definition PM (A : Type) : Type := pst -> pout A.
Definition pret {A} (a : A) : PM A := fun p => POk a p.
Definition pbind {A B} (m : PM A) (k : A -> PM B) : PM B := fun p => match m p with POk a p' => k a p' | PUb e => PUb e end.
(** a C function on the C heap *)
Definition cc {A} (m : M A) : PM A := fun p => match m (ps_c p) with Ok a s => POk a (set_c s p) | Ub e => PUb e end.
(** PyErr_SetString *)
Definition raise_ (e : pyexc) : PM unit := fun p => POk tt (set_exc e p).

(** Py_INCREF; an access to an object that is gone is undefined *)
Definition incref (i : nat) : PM unit := fun p =>
  match ps_o p !! i with Some (c, o) => POk tt (set_o (<[i := (S c, o)]> (ps_o p)) p) | None => PUb UbOob end.
(** Py_DECREF of an object that is not a tuple: the last reference releases it and its data *)
Definition decref1 (i : nat) : PM unit := fun p =>
  match ps_o p !! i with
  | Some (S (S c), o) => POk tt (set_o (<[i := (S c, o)]> (ps_o p)) p)
  | Some (S O, o) =>
      let q := set_o (delete i (ps_o p)) p in
      match o with
      | NdDouble _ d => cc (free_d d) q
      | NdInt _ d => cc (free_i d) q
      | PyDict _ | PyOther => POk tt q
      | PyTuple _ => PUb UbOther   (* tuples of tuples do not occur *)
      end
  | Some (O, _) | None => PUb UbFree
  end.
(** the references that a tuple holds *)
Fixpoint decref_items (l : list pyval) : PM unit :=
  match l with [] => pret tt | VRef i :: l' => pbind (decref1 i) (fun _ => decref_items l') | _ :: l' => decref_items l' end.
(** Py_DECREF *)
Definition decref (i : nat) : PM unit := fun p =>
  match ps_o p !! i with
  | Some (S O, PyTuple l) => decref_items l (set_o (delete i (ps_o p)) p)
  | Some (S (S c), o) => POk tt (set_o (<[i := (S c, o)]> (ps_o p)) p)
  | _ => decref1 i p
  end.
(** Py_XDECREF *)
Definition xdecref (r : option nat) : PM unit := match r with Some i => decref i | None => pret tt end.

(** a new object without data (a dict, a tuple) *)
Definition new_object (o : pyobj) : PM (option nat) := fun p =>
  let s := ps_c p in
  if alloc_ok (en s) (nx s) then POk (Some (nx s)) (mkPst (tick s) (<[nx s := (1%nat, o)]> (ps_o p)) (ps_exc p) (ps_env p))
  else POk None (set_exc EMemoryError (set_c (tick s) p)).
(** a new array of doubles, with the cells cs, aligned to DALIGN by luck *)
Definition new_nd_d (dims : list Z) (cs : list (option T)) : PM (option nat) := fun p =>
  let s := ps_c p in
  if alloc_ok (en s) (nx s) then
    POk (Some (nx s)) (mkPst (tick (set_al (nx s) (luck (en s) (nx s)) (set_dm (<[nx s := cs]>) s)))
                             (<[nx s := (1%nat, NdDouble dims (Ptr (nx s) 0))]> (ps_o p)) (ps_exc p) (ps_env p))
  else POk None (set_exc EMemoryError (set_c (tick s) p)).
(** the same for ints *)
Definition new_nd_i (dims : list Z) (zs : list Z) : PM (option nat) := fun p =>
  let s := ps_c p in
  if alloc_ok (en s) (nx s) then
    POk (Some (nx s)) (mkPst (tick (set_im (<[nx s := zs]>) s)) (<[nx s := (1%nat, NdInt dims (Ptr (nx s) 0))]> (ps_o p)) (ps_exc p) (ps_env p))
  else POk None (set_exc EMemoryError (set_c (tick s) p)).
(** PyArray_FROM_OTF(obj, NPY_DOUBLE, NPY_ARRAY_IN_ARRAY): a new reference to obj if it is such an array already,
    otherwise a new array with what obj converts to, or NULL *)
Definition from_otf_d (i : nat) : PM (option nat) := fun p =>
  match ps_o p !! i with
  | None => PUb UbOob
  | Some (_, NdDouble _ _) => pbind (incref i) (fun _ => pret (Some i)) p
  | Some _ => match conv_d (ps_env p) i with
              | None => POk None (set_exc EConv p)
              | Some (dims, xs) => new_nd_d dims (Some <$> xs) p
              end
  end.
(** PyArray_FROM_OTF(obj, NPY_INT, NPY_ARRAY_IN_ARRAY) *)
Definition from_otf_i (i : nat) : PM (option nat) := fun p =>
  match ps_o p !! i with
  | None => PUb UbOob
  | Some (_, NdInt _ _) => pbind (incref i) (fun _ => pret (Some i)) p
  | Some _ => match conv_i (ps_env p) i with
              | None => POk None (set_exc EConv p)
              | Some (dims, zs) => new_nd_i dims zs p
              end
  end.
(** PyArray_NDIM, PyArray_DIM and PyArray_DATA read these two *)
Definition nd_of (i : nat) : PM (list Z * ptr) := fun p =>
  match ps_o p !! i with Some (_, NdDouble dims d) | Some (_, NdInt dims d) => POk (dims, d) p | _ => PUb UbOob end.
(** PyArray_SimpleNew(nd, dims, NPY_DOUBLE); numpy rejects a negative size *)
Definition simple_new (dims : list Z) : PM (option nat) := fun p =>
  if forallb (fun z => 0 <=? z) dims then new_nd_d dims (replicate (Z.to_nat (foldr Z.mul 1 dims)) None) p
  else POk None (set_exc EValueError p).

(** Py_BuildValue: "O" is the object with one more reference; a tuple holds new references to its objects *)
Fixpoint incref_items (l : list pyval) : PM unit :=
  match l with [] => pret tt | VRef i :: l' => pbind (incref i) (fun _ => incref_items l') | _ :: l' => incref_items l' end.
Definition build_O (i : nat) : PM (option nat) := pbind (incref i) (fun _ => pret (Some i)).
Definition build_tuple (l : list pyval) : PM (option nat) :=
  pbind (new_object (PyTuple l)) (fun r => match r with None => pret None | Some t => pbind (incref_items l) (fun _ => pret (Some t)) end).
Definition build_dict (l : list (string * pyval)) : PM (option nat) := new_object (PyDict l).

End py.
Notation "'let@' x ':=' m 'in' k" := (pbind m (fun x => k)) (at level 200, x name, m at level 200, k at level 200, right associativity).
Notation "m ;@ k" := (pbind m (fun _ => k)) (at level 199, right associativity).

Section module_.
Context `{N : Num}.
Context (fft1 : fkind -> list T -> list T) (fft2 : fkind -> nat -> nat -> list T -> list T).

(** l1cPy.c:508-540 PyArray_SimpleDoubleCopy; the data of an array are never NULL *)
Definition SimpleDoubleCopy (dims : list Z) (data : ptr) : PM (option nat) :=
  let@ r := simple_new dims in                                        (* :510 *)
  match r with
  | None => pret None
  | Some py_arr_obj =>
      let@ a := from_otf_d py_arr_obj in                              (* :515-516 *)
      match a with
      | None => decref py_arr_obj ;@ pret None                        (* :537-539 *)
      | Some arr =>
          let@ da := nd_of arr in                                     (* :521 *)
          let n := fold_left (fun k d => int_of_size (k * d)) dims 1 in   (* :509, 525-527 *)
          cc (cblas_dcopy n data (snd da)) ;@                         (* :529 *)
          decref arr ;@ pret (Some py_arr_obj)                        (* :531-533 *)
      end
  end.
(** l1cPy.c:475-482 *)
Definition is_bpmode_valid (bp_mode : Z) : PM bool :=
  if negb (bp_mode =? analysis) && negb (bp_mode =? synthesis) then raise_ EValueError ;@ pret false else pret true.
(** l1cPy.c:484-491 *)
Definition is_dctmode_valid (dct_mode : Z) : PM bool :=
  if negb (dct_mode =? dct1) && negb (dct_mode =? dct2) then raise_ EValueError ;@ pret false else pret true.

(** the value of an optional keyword argument *)
Definition kw {A} (v : option A) (default : A) : A := match v with Some a => a | None => default end.

(** l1cPy.c:122-159: l1qc_dct(mrow, mcol, b, pix_idx, epsilon=..., ...) *)
Record l1qc_kw : Type := mkL1qcKw {
  lk_mrow : Z; lk_mcol : Z; lk_b : nat; lk_pix : nat;
  lk_epsilon : option T; lk_mu : option T; lk_lbtol : option T; lk_newton_tol : option T; lk_newton_max_iter : option Z; lk_verbose : option Z;
  lk_l1_tol : option T; lk_cgtol : option T; lk_cgmaxiter : option Z; lk_dct_mode : option Z }.
(** l1cPy.c:108-120, with the values that were parsed; tau is not named there, so it is 0 *)
Definition py_l1qc_opts (k : l1qc_kw) : L1qcOpts :=
  mkL1qc (kw (lk_epsilon k) (lit 1 100)) (kw (lk_mu k) (ofZ 10)) (kw (lk_lbtol k) (lit 1 1000)) zero 0
    (kw (lk_newton_tol k) (lit 1 1000)) (kw (lk_newton_max_iter k) 50) (kw (lk_verbose k) 0) (kw (lk_l1_tol k) (lit 1 100000))
    (kw (lk_cgtol k) (lit 1 100000000)) (kw (lk_cgmaxiter k) 200) 0 0 (kw (lk_dct_mode k) dct1).
(** l1cPy.c:94-245 _l1qc_dct; the argument [None]: the parsing failed.  The result [None]: NULL. *)
Definition py_l1qc_dct (a : option l1qc_kw) : PM (option nat) :=
  match a with
  | None => raise_ ETypeError ;@ pret None                            (* :141-159 *)
  | Some k =>
      let opts := py_l1qc_opts k in
      let@ ok := is_dctmode_valid (lo_dct_mode opts) in               (* :161 *)
      if negb ok then pret None else
      let@ b_npA := from_otf_d (lk_b k) in                            (* :167 *)
      let@ pix_idx_npA := from_otf_i (lk_pix k) in                    (* :168-169 *)
      let fail x_ours := xdecref b_npA ;@ xdecref pix_idx_npA ;@ cc (l1c_free_double x_ours) ;@ pret None in   (* :239-244 *)
      match b_npA, pix_idx_npA with
      | Some bA, Some pA =>
          let@ b_ := nd_of bA in let@ p_ := nd_of pA in
          match b_, p_ with
          | (n_dim :: [], b), (p_dim :: [], pix_idx) =>
              let@ mtot := cc (i32 (lk_mrow k * lk_mcol k)) in        (* :184 *)
              let n := int_of_size n_dim in                           (* :185 *)
              let n_ := int_of_size p_dim in                          (* :186 *)
              if (mtot <? n) || negb (n =? n_) then raise_ EValueError ;@ fail Null else   (* :188-192 *)
              let@ x_ours := cc (l1c_calloc_double mtot) in           (* :199 *)
              if is_null x_ours then raise_ EMemoryError ;@ fail Null else   (* :200-203 *)
              let@ res := cc (l1qc_dct fft1 fft2 (lk_mrow k) (lk_mcol k) x_ours n b pix_idx opts) in   (* :205 *)
              let '(status, lb) := res in
              let lb_res := match lb with Some r => r | None => mkLB pinf 0 0 0 end in   (* :106 *)
              if negb (status =? 0) then raise_ ERuntimeError ;@ fail x_ours else   (* :206-209 *)
              let@ x_out := SimpleDoubleCopy [lk_mrow k; lk_mcol k] x_ours in   (* :211-213 *)
              match x_out with
              | None => fail x_ours                                   (* :214-215 *)
              | Some xA =>
                  let@ d := build_dict [("l1", VDbl (lb_l1 lb_res)); ("total_newton_iter", VInt (lb_newton lb_res));
                                        ("total_cg_iter", VInt (lb_cg lb_res)); ("status", VInt (Z.lor (lb_status lb_res) status))] in   (* :217-225 *)
                  match d with
                  | None => decref xA ;@ fail x_ours                  (* :226-227, 237-238 *)
                  | Some dA =>
                      decref bA ;@ decref pA ;@ cc (l1c_free_double x_ours) ;@   (* :230-232 *)
                      build_tuple [VRef xA; VRef dA]                  (* :234 *)
                  end
              end
          | _, _ => raise_ EIndexError ;@ fail Null                   (* :178-181 *)
          end
      | _, _ => raise_ ERuntimeError ;@ fail Null                     (* :172-175 *)
      end
  end.

(** l1cPy.c:256-267: breg_anistropic_TV(f, mu=10, tol=0.001, max_iter=1000, max_jac_iter=1) *)
Record breg_kw : Type := mkBregKw { bk_f : nat; bk_mu : option T; bk_tol : option T; bk_max_iter : option Z; bk_max_jac_iter : option Z }.
(** l1cPy.c:247-332 _breg_anistropic_TV *)
Definition py_breg (a : option breg_kw) : PM (option nat) :=
  match a with
  | None => raise_ ETypeError ;@ pret None                            (* :263-267 *)
  | Some k =>
      let mu := kw (bk_mu k) (ofZ 10) in let tol := kw (bk_tol k) (lit 1 1000) in
      let max_iter := kw (bk_max_iter k) 1000 in let max_jac_iter := kw (bk_max_jac_iter k) 1 in   (* :256-258 *)
      let@ f_npA := from_otf_d (bk_f k) in                            (* :271 *)
      let fail1 := xdecref f_npA ;@ pret None in                      (* :328-331 *)
      let fail2 f_ours uk := cc (l1c_free_double f_ours) ;@ cc (l1c_free_double uk) ;@ fail1 in   (* :325-327 *)
      match f_npA with
      | None => raise_ ERuntimeError ;@ fail1                         (* :274-277 *)
      | Some fA =>
          let@ f_ := nd_of fA in
          match f_ with
          | (d0 :: d1 :: [], f) =>
              let n := int_of_size d0 in let m := int_of_size d1 in   (* :286-287 *)
              if (n <? 3) || (m <? 3) then raise_ EValueError ;@ fail1 else   (* :288-291 *)
              let@ nm := cc (i32 (n * m)) in
              let@ f_ours := cc (l1c_malloc_double nm) in             (* :297 *)
              let@ uk := cc (l1c_malloc_double nm) in                 (* :298 *)
              if is_null f_ours || is_null uk || is_null f then raise_ EMemoryError ;@ fail1 else   (* :299-302 *)
              cc (cblas_dcopy nm f f_ours) ;@                         (* :304 *)
              let@ status := cc (l1c_breg_anistropic_TV n m uk f_ours mu tol max_iter max_jac_iter) in   (* :306 *)
              if negb (status =? 0) then raise_ EMemoryError ;@ fail2 f_ours uk else   (* :307-310 *)
              let@ r := SimpleDoubleCopy [n; m] uk in                 (* :312-313 *)
              match r with
              | None => fail2 f_ours uk                               (* :314-315 *)
              | Some uA =>
                  decref fA ;@ cc (l1c_free_double f_ours) ;@ cc (l1c_free_double uk) ;@   (* :318-320 *)
                  build_O uA                                          (* :322 *)
              end
          | _ => raise_ EIndexError ;@ fail1                          (* :280-283 *)
          end
      end
  end.

(** l1cPy.c:345-389: nesta_dctTV(mrow, mcol, b, pix_idx, alpha_v=0, ...) *)
Record nesta_kw : Type := mkNestaKw {
  nk_mrow : Z; nk_mcol : Z; nk_b : nat; nk_pix : nat;
  nk_alpha_v : option T; nk_alpha_h : option T; nk_sigma : option T; nk_mu : option T; nk_tol : option T;
  nk_n_continue : option Z; nk_verbose : option Z; nk_dct_mode : option Z; nk_bp_mode : option Z }.
(** l1cPy.c:346-347 with the values that were parsed *)
Definition py_nesta_opts (k : nesta_kw) : NestaOpts :=
  mkNOpt (kw (nk_mu k) (lit 1 100000)) (kw (nk_tol k) (lit 1 100000)) (kw (nk_sigma k) (lit 1 100)) (kw (nk_n_continue k) 5) (kw (nk_verbose k) 5).
(** l1cPy.c:334-473 _nesta_dctTV *)
Definition py_nesta (a : option nesta_kw) : PM (option nat) :=
  match a with
  | None => raise_ ETypeError ;@ pret None                            (* :371-389 *)
  | Some k =>
      let opts := py_nesta_opts k in
      let dct_mode := kw (nk_dct_mode k) dct1 in let bp_mode := kw (nk_bp_mode k) analysis in   (* :349-350 *)
      let@ ok := is_bpmode_valid bp_mode in                           (* :391 *)
      if negb ok then pret None else
      let@ ok := is_dctmode_valid dct_mode in                         (* :394 *)
      if negb ok then pret None else
      let@ b_npA := from_otf_d (nk_b k) in                            (* :400 *)
      let@ pix_idx_npA := from_otf_i (nk_pix k) in                    (* :401-402 *)
      let fail x_ours b_ours := cc (l1c_free_double x_ours) ;@ cc (l1c_free_double b_ours) ;@ xdecref b_npA ;@ xdecref pix_idx_npA ;@ pret None in   (* :466-472 *)
      match b_npA, pix_idx_npA with
      | Some bA, Some pA =>
          let@ b_ := nd_of bA in let@ p_ := nd_of pA in
          match b_, p_ with
          | (n_dim :: [], b), (p_dim :: [], pix_idx) =>
              let@ mtot := cc (i32 (nk_mrow k * nk_mcol k)) in        (* :418 *)
              let n := int_of_size n_dim in let n_ := int_of_size p_dim in   (* :419-420 *)
              if (mtot <? n) || negb (n =? n_) then raise_ EValueError ;@ fail Null Null else   (* :422-426 *)
              let@ x_ours := cc (l1c_calloc_double mtot) in           (* :433 *)
              let@ b_ours := cc (l1c_malloc_double n) in              (* :434 *)
              if is_null x_ours || is_null b_ours then raise_ EMemoryError ;@ fail x_ours b_ours else   (* :435-438 *)
              cc (cblas_dcopy n b b_ours) ;@                          (* :440 *)
              let@ su := cc (l1c_setup_dctTV_transforms n (nk_mrow k) (nk_mcol k) (kw (nk_alpha_v k) zero) (kw (nk_alpha_h k) zero)
                               dct_mode bp_mode pix_idx ax_local) in  (* :442-443 *)
              let '(st, ax_funs) := su in
              if negb (st =? 0) then raise_ ERuntimeError ;@ fail x_ours b_ours else   (* :443-446 *)
              let@ status := cc (l1c_nesta (call fft1 fft2) mtot x_ours n b_ours ax_funs opts) in   (* :448 *)
              let@ r := SimpleDoubleCopy [nk_mrow k; nk_mcol k] x_ours in   (* :451-453 *)
              match r with
              | None => fail x_ours b_ours                            (* :454-455 *)
              | Some xA =>
                  decref bA ;@ decref pA ;@ cc (l1c_free_double b_ours) ;@ cc (l1c_free_double x_ours) ;@   (* :458-461 *)
                  build_tuple [VRef xA; VInt status]                  (* :463 *)
              end
          | _, _ => raise_ EIndexError ;@ fail Null Null              (* :412-415 *)
          end
      | _, _ => raise_ ERuntimeError ;@ fail Null Null                (* :405-409 *)
      end
  end.
End module_.
