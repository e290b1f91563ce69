(** * The Python user's side of the module _l1cPy_module. *)
From stdpp Require Import base list gmap.
From Coq Require Import ZArith.
From Verif Require Import Globals Mem P_Mem P_Memory M_Newton M_MexUtils S_DctApi S_L1qcDct M_Py.
Local Open Scope Z_scope.

Section py.
Context `{N : Num}.
Implicit Types (p q : pst) (i : nat).
(** numbers that were not given out yet are in use neither as a block nor as an object *)
Definition fresh_py p : Prop := unborn (ps_c p) /\ forall b, (nx (ps_c p) <= b)%nat -> im (ps_c p) !! b = None /\ ps_o p !! b = None.
(** the live object i is an array of doubles with the sizes dims and the entries xs, or numpy makes this of it *)
Definition holds_d p i (dims : list Z) (xs : list T) : Prop := exists c o, ps_o p !! i = Some (S c, o) /\
  match o with
  | NdDouble dims' d => dims' = dims /\ exists b off, d = Ptr b off /\ seg (ps_c p) d xs
  | _ => conv_d (ps_env p) i = Some (dims, xs)
  end.
(** the same for ints *)
Definition holds_i p i (dims : list Z) (zs : list Z) : Prop := exists c o, ps_o p !! i = Some (S c, o) /\
  match o with
  | NdInt dims' d => dims' = dims /\ exists b off, d = Ptr b off /\ ints (ps_c p) d zs /\ dm (ps_c p) !! b = None /\ (b < nx (ps_c p))%nat
  | _ => conv_i (ps_env p) i = Some (dims, zs)
  end.
(** the same objects with the same reference counts, and the same memory *)
Definition same_py p q : Prop := ps_o q = ps_o p /\ same_heap (ps_c p) (ps_c q).
(** the same, but new blocks of memory may be in use: a leak *)
Definition kept_py p q : Prop := ps_o q = ps_o p /\ im (ps_c q) = im (ps_c p) /\ forall b, (b < nx (ps_c p))%nat -> dm (ps_c q) !! b = dm (ps_c p) !! b.
End py.
