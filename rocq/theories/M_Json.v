(** * Model of src/json_utils.c, and of what it uses of cJSON and of the C library's files.

    The file system is a function from names to contents (None: fopen fails), the parser a function from
    texts to trees (None: NULL); both are arbitrary.  A tree is a value: the memory cJSON uses for it is
    left out.  The text of messages is left out, as is print_vec (json_utils.c:14-19). *)
From stdpp Require Import base list gmap strings.
From Coq Require Import ZArith.
From Verif Require Import Globals Mem M_Math M_Memory M_MexUtils M_Mex.
Local Open Scope Z_scope.

Section json.
Context `{N : Num}.

(** a cJSON item: null, true or false, a number, a string, an array, an object *)
Inductive json : Type :=
| JNull | JBool (b : bool) | JNum (d : T) | JStr (t : string) | JArr (l : list json) | JObj (l : list (string * json)).
(** valuedouble: 0 unless the item is a number (items are cleared when they are made) *)
Definition valuedouble (j : json) : T := match j with JNum d => d | _ => zero end.
(** valueint: of a number the int part, cut to the range of int; 1 for true *)
Definition valueint (j : json) : M Z :=
  match j with
  | JNum d => if leb_ (ofZ INT_MAX) d then ret INT_MAX else if leb_ d (ofZ INT_MIN) then ret INT_MIN else cast_int d
  | JBool true => ret 1
  | _ => ret 0
  end.
(** cJSON_GetObjectItemCaseSensitive: the first member with the name; NULL if there is none (the children
    of an array have no names) *)
Fixpoint first_named (l : list (string * json)) (name : string) : option json :=
  match l with [] => None | (k, v) :: l' => if String.eqb k name then Some v else first_named l' name end.
Definition get_item (j : json) (name : string) : option json :=
  match j with JObj l => first_named l name | _ => None end.
(** cJSON_IsNumber and cJSON_IsArray (false for NULL) *)
Definition is_number (j : option json) : option json := match j with Some (JNum d) => Some (JNum d) | _ => None end.
Definition is_array (j : option json) : option (list json) := match j with Some (JArr l) => Some l | _ => None end.

(** json_utils.c:175-182 get_file_length, and its conversion to int in :31 *)
Definition file_len (bytes : list Z) : Z := int_of_size (Z.of_nat (length bytes)).
(** fread(p, size, 1, f): how many bytes are written, and the result *)
Definition fread1 (p : ptr) (size : Z) (bytes : list Z) : M Z :=
  let sz := size mod 2 ^ 64 in
  for_ 0 (Z.min sz (Z.of_nat (length bytes))) (fun i => sti p i (nth (Z.to_nat i) bytes 0)) ;!
  ret (if (0 <? sz) && (sz <=? Z.of_nat (length bytes)) then 1 else 0).

(** json_utils.c:21-50 load_file_as_text; chars are kept in a block of integers.  The results: what is
    returned, and *file_data (which was [old]) *)
Definition load_file_as_text (files : string -> option (list Z)) (fname : string) (old : ptr) : M (Z * ptr) :=
  match files fname with
  | None => ret (1, old)                                                      (* :25-30 *)
  | Some bytes =>
      let flen := file_len bytes in                                           (* :32 *)
      let* n := i32 (flen + 1) in
      let* data := calloc_i n in                                              (* :33 *)
      if is_null data then ret (1, data) else                                 (* :35-39 *)
      let* num_read := fread1 data flen bytes in                              (* :43 *)
      ret (if num_read =? 1 then 0 else 1, data)                              (* :44-49 *)
  end.

(** the characters from p up to a 0 *)
Fixpoint c_string (k : nat) (p : ptr) (i : Z) : M (list Z) :=
  match k with
  | O => undef UbOob
  | S k' => let* c := ldi p i in if c =? 0 then ret [] else let* l := c_string k' p (i + 1) in ret (c :: l)
  end.
(** the length of the block behind p: an upper bound for the string's length *)
Definition room (p : ptr) : M nat := fun s =>
  match p with Ptr b _ => Ok (match im s !! b with Some c => S (length c) | None => 1%nat end) s | Null => Ok 1%nat s end.

(** json_utils.c:52-71 load_file_to_json; the results: what is returned, and *data_json (which was [old]) *)
Definition load_file_to_json (files : string -> option (list Z)) (parse : list Z -> option json) (fname : string) (old : option json) : M (Z * option json) :=
  let* r := load_file_as_text files fname Null in
  let '(st, data) := r in
  if negb (st =? 0) then ret (1, old) else                                    (* :55-56 *)
  let* k := room data in
  let* text := c_string k data 0 in
  let data_json := parse text in                                              (* :58 *)
  free_i data ;!                                                              (* :60 *)
  ret (0, data_json).                                                         (* :62-70: the address data_json itself is never NULL *)

(** json_utils.c:73-88 extract_json_int; the results: what is returned, and *N (which was [old]) *)
Definition extract_json_int (data_json : option json) (name : string) (old : Z) : M (Z * Z) :=
  match data_json with
  | None => ret (1, old)
  | Some j => match is_number (get_item j name) with
              | None => ret (1, old)
              | Some d => let* v := valueint d in ret (0, v)
              end
  end.
(** json_utils.c:90-105 extract_json_double *)
Definition extract_json_double (data_json : option json) (name : string) (old : T) : M (Z * T) :=
  match data_json with
  | None => ret (1, old)
  | Some j => match is_number (get_item j name) with
              | None => ret (1, old)
              | Some d => ret (0, valuedouble d)
              end
  end.
(** json_utils.c:132-137: for each item, the double of the item is stored in x[k] *)
Fixpoint store_doubles (x : ptr) (k : Z) (l : list json) : M unit :=
  match l with [] => ret tt | j :: l' => sto x k (valuedouble j) ;! store_doubles x (k + 1) l' end.
(** json_utils.c:107-142 extract_json_double_array; the results: what is returned, *x and *N *)
Definition extract_json_double_array (data_json : option json) (name : string) (oldx : ptr) (oldN : Z) : M (Z * ptr * Z) :=
  match data_json with
  | None => ret (1, oldx, oldN)                                               (* :108-112 *)
  | Some j => match is_array (get_item j name) with
              | None => ret (1, oldx, 0)                                      (* :116-121 *)
              | Some l =>
                  let n := int_of_size (Z.of_nat (length l)) in               (* :122 *)
                  let* x := l1c_malloc_double n in                            (* :123 *)
                  if is_null x then ret (1, x, n) else                        (* :125-129 *)
                  store_doubles x 0 l ;! ret (0, x, n)                        (* :131-141 *)
              end
  end.
(** json_utils.c:164-169 *)
Fixpoint store_ints (x : ptr) (k : Z) (l : list json) : M unit :=
  match l with [] => ret tt | j :: l' => let* v := valueint j in sti x k v ;! store_ints x (k + 1) l' end.
(** json_utils.c:144-173 extract_json_int_array *)
Definition extract_json_int_array (data_json : option json) (name : string) (oldx : ptr) (oldN : Z) : M (Z * ptr * Z) :=
  match data_json with
  | None => ret (1, oldx, oldN)                                               (* :145-149 *)
  | Some j => match is_array (get_item j name) with
              | None => ret (1, oldx, 0)                                      (* :153-158 *)
              | Some l =>
                  let n := int_of_size (Z.of_nat (length l)) in               (* :159 *)
                  let* x := calloc_i n in                                     (* :160 *)
                  store_ints x 0 l ;! ret (0, x, n)                           (* :162-172 *)
              end
  end.
End json.
