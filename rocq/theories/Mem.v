(** * Memory, undefined behaviour and the language of the model.

    A C function is modelled as a function from states to outcomes.  The outcome is either a
    result with a new state, or [Ub]: undefined behaviour, with the reason.  Nothing is totalised:
    reading out of bounds, from freed memory, from an uninitialised cell or through NULL, double
    free, signed overflow, a cast of a double that does not fit in an int, a violated
    [__builtin_assume_aligned] or [restrict], and a call through an indeterminate or NULL function
    pointer all end in [Ub]. *)
From stdpp Require Import base numbers gmap list.
From Coq Require Import ZArith.
From Verif Require Export Num Globals.
Local Open Scope Z_scope.

(** Reasons for undefined behaviour *)
Inductive ub : Type :=
| UbOob            (* access outside a live block (out of bounds, freed, or NULL) *)
| UbUninit         (* read of an uninitialised cell *)
| UbFree           (* free of something that is not the start of a live block *)
| UbOverflow       (* signed integer overflow *)
| UbCast           (* double to int conversion out of range *)
| UbAlign          (* __builtin_assume_aligned or an aligned vector load violated *)
| UbRestrict       (* written restrict argument overlaps another argument *)
| UbCall           (* call through NULL or an indeterminate function pointer *)
| UbOther.         (* anything else, e.g. an indeterminate scalar *)

Section mem.
Context `{N : Num}.

(** What the environment decides: which allocations succeed, whether a block from plain malloc
    happens to be DALIGN-aligned, and what FFTW's planner leaves in the arrays it is given
    (planning number, 0 = input or 1 = output array, index). *)
Record env : Type := mkEnv {
  alloc_ok : nat -> bool;
  luck : nat -> bool;
  scrib : nat -> Z -> Z -> T
}.

(** The state.  [None] in a double block is an uninitialised cell. *)
Record st : Type := mkSt {
  dm : gmap nat (list (option T));       (* blocks of doubles *)
  im : gmap nat (list Z);                (* blocks of ints *)
  pm : gmap nat (list (option ptr));     (* blocks of pointers *)
  om : gmap nat obj;                     (* plans and structs *)
  al : nat -> bool;                      (* which blocks are DALIGN-aligned *)
  nx : nat;                              (* next allocation number = next block number *)
  en : env;
  gl : glob
}.

Definition set_dm (f : gmap nat (list (option T)) -> gmap nat (list (option T))) (s : st) : st :=
  mkSt (f (dm s)) (im s) (pm s) (om s) (al s) (nx s) (en s) (gl s).
Definition set_pm (f : gmap nat (list (option ptr)) -> gmap nat (list (option ptr))) (s : st) : st :=
  mkSt (dm s) (im s) (f (pm s)) (om s) (al s) (nx s) (en s) (gl s).
Definition set_om (f : gmap nat obj -> gmap nat obj) (s : st) : st :=
  mkSt (dm s) (im s) (pm s) (f (om s)) (al s) (nx s) (en s) (gl s).
Definition set_al (b : nat) (v : bool) (s : st) : st :=
  mkSt (dm s) (im s) (pm s) (om s) (fun k => if Nat.eqb k b then v else al s k) (nx s) (en s) (gl s).
Definition tick (s : st) : st :=
  mkSt (dm s) (im s) (pm s) (om s) (al s) (S (nx s)) (en s) (gl s).
Definition set_gl (f : glob -> glob) (s : st) : st :=
  mkSt (dm s) (im s) (pm s) (om s) (al s) (nx s) (en s) (f (gl s)).

Inductive out (A : Type) : Type := Ok (a : A) (s : st) | Ub (e : ub).
Global Arguments Ok {A} a s.
Global Arguments Ub {A} e.

Definition M (A : Type) : Type := st -> out A.
Definition ret {A} (a : A) : M A := fun s => Ok a s.
Definition bind {A B} (m : M A) (k : A -> M B) : M B :=
  fun s => match m s with Ok a s' => k a s' | Ub e => Ub e end.
Definition undef {A} (e : ub) : M A := fun _ => Ub e.

(** ** Double arrays *)
(** The cell at [p[i]]: [None] not accessible, [Some None] uninitialised. *)
Definition cell (s : st) (p : ptr) (i : Z) : option (option T) :=
  match p with
  | Null => None
  | Ptr b o =>
      if 0 <=? o + i then
        match dm s !! b with
        | Some c => c !! Z.to_nat (o + i)
        | None => None
        end
      else None
  end.

(** Overwrite the cells starting at [p] (no check). *)
Definition wr (p : ptr) (ys : list T) (s : st) : st :=
  match p with
  | Null => s
  | Ptr b o => set_dm (alter (list_inserts (Z.to_nat o) (Some <$> ys)) b) s
  end.

(** pointer arithmetic p + k *)
Definition padd (p : ptr) (k : Z) : ptr :=
  match p with Null => Null | Ptr b o => Ptr b (o + k) end.

(** read p[i] *)
Definition ld (p : ptr) (i : Z) : M T := fun s =>
  match cell s p i with
  | Some (Some v) => Ok v s
  | Some None => Ub UbUninit
  | None => Ub UbOob
  end.

(** p[i] = v *)
Definition sto (p : ptr) (i : Z) (v : T) : M unit := fun s =>
  match cell s p i with
  | Some _ => Ok tt (wr (padd p i) [v] s)
  | None => Ub UbOob
  end.

(** read from an array of ints *)
Definition ldi (p : ptr) (i : Z) : M Z := fun s =>
  match p with
  | Ptr b o =>
      if 0 <=? o + i then
        match im s !! b with
        | Some c => match c !! Z.to_nat (o + i) with Some v => Ok v s | None => Ub UbOob end
        | None => Ub UbOob
        end
      else Ub UbOob
  | Null => Ub UbOob
  end.

(** read and write arrays of pointers *)
Definition ldp (p : ptr) (i : Z) : M ptr := fun s =>
  match p with
  | Ptr b o =>
      if 0 <=? o + i then
        match pm s !! b with
        | Some c => match c !! Z.to_nat (o + i) with
                    | Some (Some v) => Ok v s
                    | Some None => Ub UbUninit
                    | None => Ub UbOob end
        | None => Ub UbOob
        end
      else Ub UbOob
  | Null => Ub UbOob
  end.
Definition stp (p : ptr) (i : Z) (v : ptr) : M unit := fun s =>
  match p with
  | Ptr b o =>
      if 0 <=? o + i then
        match pm s !! b with
        | Some c => match c !! Z.to_nat (o + i) with
                    | Some _ => Ok tt (set_pm (alter (<[Z.to_nat (o + i) := Some v]>) b) s)
                    | None => Ub UbOob end
        | None => Ub UbOob
        end
      else Ub UbOob
  | Null => Ub UbOob
  end.

(** ** Integers and casts *)
Definition i32 (z : Z) : M Z := if in_int z then ret z else undef UbOverflow.
Definition cast_int (x : T) : M Z := match toint x with Some z => ret z | None => undef UbCast end.

(** ** Alignment and restrict *)
(** is p on a DALIGN = 64 byte boundary?  (8 doubles; NULL is) *)
Definition is_aligned (s : st) (p : ptr) : bool :=
  match p with Null => true | Ptr b o => al s b && (o mod 8 =? 0) end.
(** __builtin_assume_aligned(p, DALIGN) *)
Definition assume_aligned (p : ptr) : M unit := fun s =>
  if is_aligned s p then Ok tt s else Ub UbAlign.
(** do p[0..n-1] and q[0..k-1] overlap? *)
Definition overlap (p : ptr) (n : Z) (q : ptr) (k : Z) : bool :=
  match p, q with
  | Ptr b o, Ptr b' o' => Nat.eqb b b' && (0 <? n) && (0 <? k) && (o <? o' + k) && (o' <? o + n)
  | _, _ => false
  end.
(** a restrict pointer p (n elements written) against an argument q (k elements accessed) *)
Definition restrict (p : ptr) (n : Z) (q : ptr) (k : Z) : M unit :=
  if overlap p n q k then undef UbRestrict else ret tt.

(** ** Allocation *)
(** posix_memalign of n doubles (src/l1c_memory.c:9-20): a fresh, uninitialised, aligned block,
    or NULL.  A negative n becomes a huge size_t and the request is refused. *)
Definition alloc_d (n : Z) : M ptr := fun s =>
  if (0 <=? n) && alloc_ok (en s) (nx s) then
    Ok (Ptr (nx s) 0)
       (tick (set_al (nx s) true (set_dm (<[nx s := replicate (Z.to_nat n) None]>) s)))
  else Ok Null (tick s).
(** plain malloc of n doubles: aligned only by luck *)
Definition malloc_d (n : Z) : M ptr := fun s =>
  if (0 <=? n) && alloc_ok (en s) (nx s) then
    Ok (Ptr (nx s) 0)
       (tick (set_al (nx s) (luck (en s) (nx s)) (set_dm (<[nx s := replicate (Z.to_nat n) None]>) s)))
  else Ok Null (tick s).
(** free of a block of doubles; free(NULL) does nothing *)
Definition free_d (p : ptr) : M unit := fun s =>
  match p with
  | Null => Ok tt s
  | Ptr b o =>
      if o =? 0 then
        match dm s !! b with
        | Some _ => Ok tt (set_dm (delete b) s)
        | None => Ub UbFree
        end
      else Ub UbFree
  end.
(** malloc and free of an array of n pointers *)
Definition alloc_p (n : Z) : M ptr := fun s =>
  if (0 <=? n) && alloc_ok (en s) (nx s) then
    Ok (Ptr (nx s) 0) (tick (set_pm (<[nx s := replicate (Z.to_nat n) None]>) s))
  else Ok Null (tick s).
Definition free_p (p : ptr) : M unit := fun s =>
  match p with
  | Null => Ok tt s
  | Ptr b o =>
      if o =? 0 then
        match pm s !! b with
        | Some _ => Ok tt (set_pm (delete b) s)
        | None => Ub UbFree
        end
      else Ub UbFree
  end.
(** malloc and free of a struct, creation and destruction of a plan *)
Definition alloc_o (x : obj) : M ptr := fun s =>
  if alloc_ok (en s) (nx s) then
    Ok (Ptr (nx s) 0) (tick (set_om (<[nx s := x]>) s))
  else Ok Null (tick s).
Definition free_o (p : ptr) : M unit := fun s =>
  match p with
  | Null => Ok tt s
  | Ptr b o =>
      if o =? 0 then
        match om s !! b with
        | Some _ => Ok tt (set_om (delete b) s)
        | None => Ub UbFree
        end
      else Ub UbFree
  end.

(** ** Globals *)
Definition getg : M glob := fun s => Ok (gl s) s.
Definition setg (f : glob -> glob) : M unit := fun s => Ok tt (set_gl f s).

(** ** Loops *)
Fixpoint forn (k : nat) (i : Z) (body : Z -> M unit) : M unit :=
  match k with
  | O => ret tt
  | S k' => bind (body i) (fun _ => forn k' (i + 1) body)
  end.
(** for (i = lo; i < hi; i++) body *)
Definition for_ (lo hi : Z) (body : Z -> M unit) : M unit := forn (Z.to_nat (hi - lo)) lo body.

Fixpoint accn {A} (k : nat) (i : Z) (a : A) (body : Z -> A -> M A) : M A :=
  match k with
  | O => ret a
  | S k' => bind (body i a) (fun a' => accn k' (i + 1) a' body)
  end.
(** the same loop with local variables [a] updated by the body *)
Definition for_acc {A} (lo hi : Z) (a : A) (body : Z -> A -> M A) : M A :=
  accn (Z.to_nat (hi - lo)) lo a body.

(** the same loop with break: [Stop] leaves the loop; the result carries the final counter *)
Inductive ctl (A : Type) : Type := Go (a : A) | Stop (a : A).
Global Arguments Go {A} a.
Global Arguments Stop {A} a.
Fixpoint brkn {A} (k : nat) (i : Z) (a : A) (body : Z -> A -> M (ctl A)) : M (Z * A) :=
  match k with
  | O => ret (i, a)
  | S k' => bind (body i a) (fun c =>
      match c with Go a' => brkn k' (i + 1) a' body | Stop a' => ret (i, a') end)
  end.
Definition for_brk {A} (lo hi : Z) (a : A) (body : Z -> A -> M (ctl A)) : M (Z * A) :=
  brkn (Z.to_nat (hi - lo)) lo a body.

(** the indices lo, lo+1, ..., hi-1 *)
Fixpoint zr (lo : Z) (k : nat) : list Z :=
  match k with O => [] | S k' => lo :: zr (lo + 1) k' end.
Definition range (lo hi : Z) : list Z := zr lo (Z.to_nat (hi - lo)).
(** run a body for the indices of a list, in that order (used for parallel loops) *)
Fixpoint for_list (l : list Z) (body : Z -> M unit) : M unit :=
  match l with
  | [] => ret tt
  | i :: l' => bind (body i) (fun _ => for_list l' body)
  end.

End mem.

Notation "'let*' x ':=' m 'in' k" := (bind m (fun x => k))
  (at level 200, x name, m at level 200, k at level 200, right associativity).
Notation "m ;! k" := (bind m (fun _ => k)) (at level 199, right associativity).
