(** * Model of examples/c/l1qc_dct_c.c: the example program.

    The arguments of the program (without its name) are strings; atoi is an arbitrary function.  Messages are
    left out, and so is the memory of the cJSON tree (as in M_Json.v). *)
From stdpp Require Import base list gmap strings.
From Coq Require Import ZArith Ascii.
From Verif Require Import Globals Mem M_Math M_Memory M_Status M_Newton M_MexUtils M_Mex M_Dct M_FFTW M_L1qcDct M_Json.
Local Open Scope Z_scope.

(** the characters of a string *)
Fixpoint codes (t : string) : list Z :=
  match t with EmptyString => [] | String a t' => Z.of_nat (nat_of_ascii a) :: codes t' end.

Section example.
Context `{N : Num}.
Context (fft1 : fkind -> list T -> list T) (fft2 : fkind -> nat -> nat -> list T -> list T).
Context (files : string -> option (list Z)) (parse : list Z -> option json) (atoi : string -> Z).

(** l1qc_dct_c.c:46-58; tau and lbiter are not named and so are 0 *)
Definition example_opts (verbose : Z) : L1qcOpts :=
  mkL1qc (lit 1 10) (ofZ 10) (lit 1 1000) zero 0 (lit 1 1000) 50 verbose (lit 1 100000) (lit 1 100000000) 200 0 0 dct1.
(** l1qc_dct_c.c:17, :19, :25, :26, :32: the file that is read *)
Definition example_file (args : list string) : string := match args with a :: _ => a | [] => "example_img_data.json" end.
(** l1qc_dct_c.c:35-39 *)
Definition example_verbose (args : list string) : Z := match args with _ :: v :: _ => atoi v | _ => 0 end.
(** l1qc_dct_c.c:20-25, :27-32: a copy of the name (malloc and strcpy) *)
Definition copy_name (t : string) : M ptr :=
  let* p := calloc_i (Z.of_nat (length (codes t)) + 1) in
  if is_null p then ret p else
  for_ 0 (Z.of_nat (length (codes t))) (fun i => sti p i (nth (Z.to_nat i) (codes t) 0)) ;! ret p.

(** l1qc_dct_c.c:60-79: the results are status, x, b and pix_idx at the label exit *)
Definition example_work (args : list string) : M (Z * ptr * ptr * ptr) :=
  let* r := load_file_to_json files parse (example_file args) None in          (* :60 *)
  let '(failed, tree) := r in
  if negb (failed =? 0) then ret (L1C_FILE_READ_FAILURE, Null, Null, Null) else   (* :61-63 *)
  let* r := extract_json_double_array tree "b" Null 0 in                       (* :66 *)
  let '(s1, b, n) := r in
  let* r := extract_json_int_array tree "pix_idx" Null n in                    (* :67 *)
  let '(s2, pix_idx, n) := r in
  let* r := extract_json_int tree "mtot" 0 in                                  (* :68 *)
  let '(s3, m) := r in
  let status := s1 + s2 + s3 in
  let* x := l1c_malloc_double m in                                             (* :70 *)
  if negb (status =? 0) || is_null x then ret (status + 1, x, b, pix_idx) else (* :72-76 *)
  let* _ := l1qc_dct fft1 fft2 m 1 x n b pix_idx (example_opts (example_verbose args)) in   (* :79: the result is not used *)
  ret (status, x, b, pix_idx).

(** l1qc_dct_c.c:13-89 main *)
Definition example_main (args : list string) : M Z :=
  let* fpath := copy_name (example_file args) in
  if is_null fpath then ret 1 else                                             (* :21-24, :28-31 *)
  let* r := example_work args in
  let '(status, x, b, pix_idx) := r in
  free_i fpath ;! l1c_free_double x ;! free_i pix_idx ;! l1c_free_double b ;!  (* :82-85 *)
  ret status.                                                                  (* :88 *)
End example.
