(** * What it means that a transform's functions keep computing the same maps. *)
From Coq Require Import ZArith.
From stdpp Require Import base list.
From Verif Require Import Mem P_Mem P_Touch P_Newton.

Section xform.
Context `{N : Num}.
Implicit Types (s : st) (F : list nat).
(** a function of a transform: its body, the lengths of its argument and result, and whether the
    result array must hold numbers when it is called *)
Record xop := mkXop { x_op : ptr -> ptr -> M unit; x_in : nat; x_out : nat; x_init : bool }.
(** a correct call: X holds the argument xs, D points to room for the result; both are aligned, do
    not overlap, and keep away from the blocks F of the transform *)
Record good_call F (o : xop) s (X : ptr) (xs : list T) (D : ptr) (ds : list T) : Prop := mkGood {
  gc_x : seg s X xs; gc_lx : length xs = x_in o;
  gc_d : wok s D (x_out o); gc_i : x_init o = true -> seg s D ds /\ length ds = x_out o;
  gc_dis : disj D (x_out o) X (x_in o);
  gc_ax : is_aligned s X = true; gc_ad : is_aligned s D = true;
  gc_ox : outside X F; gc_od : outside D F }.
(** every way to get from one state to another by correct calls of the functions [ops], in any
    order, and by anything else that keeps off the transform's blocks and the static variables *)
Inductive hist F (ops : list xop) : st -> st -> Prop :=
| h_nil s : hist F ops s s
| h_user s1 s2 s3 : hist F ops s1 s2 -> same_on F s2 s3 -> hist F ops s1 s3
| h_call s1 s2 s3 o X xs D ds : hist F ops s1 s2 -> o ∈ ops -> good_call F o s2 X xs D ds ->
    x_op o X D s2 = Ok tt s3 -> hist F ops s1 s3.
(** whatever happened since s1, every correct call of o returns f of its argument (and of what the
    result array held), and changes no other array *)
Definition always_d F (ops : list xop) s1 (o : xop) (f : list T -> list T -> list T) : Prop :=
  forall s2 X xs D ds, hist F ops s1 s2 -> good_call F o s2 X xs D ds ->
    exists s3, x_op o X D s2 = Ok tt s3 /\ seg s3 D (f ds xs) /\ length (f ds xs) = x_out o /\
      forall Y ys, outside Y F -> disj D (x_out o) Y (length ys) -> seg s2 Y ys -> seg s3 Y ys.
Definition always F (ops : list xop) s1 (o : xop) (f : list T -> list T) : Prop := always_d F ops s1 o (fun _ => f).
End xform.
