(** * Example operators: one that computes any given function of the right length.
    Not code of the project: it shows that the hypotheses on operators can be met. *)
From Coq Require Import ZArith Lia.
From stdpp Require Import base numbers gmap list.
From Verif Require Import Globals Mem M_Math P_Loop P_Math P_Step P_CG P_Newton.
Local Open Scope Z_scope.

Section op.
Context `{N : Num}.
(** read m values, store the k values of f of them *)
Definition op_of (m k : nat) (f : list T -> list T) (X D : ptr) : M unit :=
  let* xs := for_acc 0 (Z.of_nat m) [] (fun i a => let* v := ld X i in ret (a ++ [v])) in
  for_ 0 (Z.of_nat k) (fun i => sto D i (at_ (f xs) (Z.to_nat i))).
Lemma foldi_snoc (xs : list T) n : (n <= length xs)%nat -> foldi n (fun i a => a ++ [at_ xs i]) [] = take n xs.
Proof.
  induction n as [|n IH]; [done|]. intros Hn. cbn [foldi]. rewrite IH by lia.
  rewrite (take_S_r xs n (at_ xs n)); [done|]. by apply at_lookup.
Qed.
Lemma op_of_oper m k f : (forall xs, length xs = m -> length (f xs) = k) -> oper [] (fun _ => True) (op_of m k f) m k f.
Proof.
  intros Hf. split; [|done|done]. intros s X xs D _ Sx Lx Wd Hd _ _ _ _. unfold op_of.
  rewrite (bind_ok _ _ _ xs s).
  2:{ rewrite (for_acc_fold m [] _ (fun i a => a ++ [at_ xs i]) s).
      - by rewrite foldi_snoc, take_ge by lia.
      - intros i a Hi. by rewrite (bind_ok _ _ _ _ _ (seg_ld s _ _ i Sx ltac:(lia))). }
  exists (wr D (f xs) s). split; [|split; [apply touch_refl|done]].
  destruct (for_elem k D [] [] (fun i => at_ (f xs) i) (fun i => sto D i (at_ (f xs) (Z.to_nat i))) s) as [E _].
  - intros q ys Hq. by apply elem_of_nil in Hq.
  - apply seg_nil.
  - exact Wd.
  - intros s' i Hi _. by rewrite Nat2Z.id.
  - rewrite E. do 2 f_equal. apply (nth_ext _ _ zero zero); rewrite tab_length; [by rewrite Hf|]. intros i Hi. exact (at_tab k _ i Hi).
Qed.
End op.
