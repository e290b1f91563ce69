(** * The caller's side of l1qc_dct. *)
From Coq Require Import ZArith.
From stdpp Require Import base gmap list.
From Verif Require Import Globals Mem P_Mem P_Memory P_FFTW M_Newton.
Local Open Scope Z_scope.

Section api.
Context `{N : Num}.
Implicit Types (s t : st).
(** the heap of t is the heap of s: the same allocations with the same contents *)
Definition same_heap s t : Prop := dm t = dm s /\ om t = om s /\ pm t = pm s /\ im t = im s.
(** A correct call for an nr x nc image: the int array at (mb, mo) holds the indices ms, the double
    array at (bb, bo) the measurements bs, one for each index and not more of them than pixels; x_out
    = (bx, ox) has room for the image and is aligned; the solver's sizes fit an int. *)
Record dct_call s (nr nc mb : nat) (mo : Z) (ms : list nat) (bb : nat) (bo : Z) (bs : list T) (bx : nat) (ox : Z) : Prop := mkDctCall {
  dc_u : unborn s;
  dc_r : (1 <= nr)%nat; dc_c : (1 <= nc)%nat; dc_fit : 2 * Z.of_nat (nr * nc) + 1 <= INT_MAX;
  dc_i : segi s (Ptr mb mo) ms; dc_kind : dm s !! mb = None; dc_mb : (mb < nx s)%nat;
  dc_in : forall k, k ∈ ms -> (k < nr * nc)%nat; dc_n : (1 <= length ms <= nr * nc)%nat;
  dc_b : seg s (Ptr bb bo) bs; dc_lb : length bs = length ms;
  dc_x : wok s (Ptr bx ox) (nr * nc); dc_al : is_aligned s (Ptr bx ox) = true }.
(** the int product mrow * mcol of l1qc_dct.c:42 is defined *)
Definition fits (mrow mcol : Z) : Prop := INT_MIN <= mrow * mcol <= INT_MAX.
End api.
