(** * Theorems about the vector kernels (C05, C07, C08, C09). *)
From Coq Require Import Reals Lra Lia Psatz ZArith Floats.
From stdpp Require Import base numbers list.
From Verif Require Import P_Loop M_Math P_Math P_VCL P_MathR S_Vec S_Mem.
Notation Zn := Z.of_nat (only parsing).

(** ** C07: exact arithmetic *)
Section C07.
Local Open Scope R_scope.
Theorem C07_vcl_sum (s : @st RN) (x : ptr) (xs : list R) (n : nat) :
  @is_aligned RN s x = true -> @seg RN s x xs -> length xs = n ->
  @vcl_sum RN (Zn n) x s = Ok (Rsum n (fun i => nth i xs 0)) s.
Proof. intros HA Hx Hl. rewrite (@vcl_sum_run RN s n x xs) by (auto; subst n; apply Nat.le_refl). by rewrite vsum_RN. Qed.
Theorem C07_vcl_logsum (s : @st RN) (x : ptr) (xs : list R) (n : nat) (alpha : R) :
  @is_aligned RN s x = true -> @seg RN s x xs -> length xs = n ->
  @vcl_logsum RN (Zn n) alpha x s = Ok (Rsum n (fun i => ln (alpha * nth i xs 0))) s.
Proof.
  intros HA Hx Hl. rewrite (@vcl_logsum_run RN s n alpha x xs) by (auto; subst n; apply Nat.le_refl).
  rewrite (vsum_RN (fun v => ln (v * alpha))). f_equal. apply Rsum_ext. intros i _. by rewrite Rmult_comm.
Qed.
Theorem C07_vcl_dxMy_pz (s : @st RN) (x y z : ptr) (xs ys zs : list R) (n : nat) :
  @is_aligned RN s x = true -> @is_aligned RN s y = true -> @is_aligned RN s z = true ->
  @seg RN s x xs -> @seg RN s y ys -> @seg RN s z zs ->
  length xs = n -> length ys = n -> length zs = n -> disj z n x n -> disj z n y n ->
  exists rs : list R, length rs = n /\ (forall i, (i < n)%nat -> nth i rs 0 = nth i xs 0 * nth i ys 0 + nth i zs 0) /\
    @vcl_dxMy_pz RN (Zn n) x y z s = Ok tt (@wr RN z rs s).
Proof.
  intros. exists (@xmypz_of RN n xs ys zs). split; [apply (@tab_length RN)|]. split.
  - intros i Hi. unfold xmypz_of. rewrite nth_tab by done. by rewrite !at_RN.
  - by apply (@vcl_dxMy_pz_run RN).
Qed.
(** the plain C versions compute the same sums *)
Theorem C07_dsum (s : @st RN) (x : ptr) (xs : list R) (n : nat) (alpha : R) :
  @seg RN s x xs -> length xs = n ->
  @l1c_dsum RN (Zn n) x s = Ok (Rsum n (fun i => nth i xs 0)) s /\
  @l1c_dlogsum RN (Zn n) alpha x s = Ok (Rsum n (fun i => ln (alpha * nth i xs 0))) s.
Proof.
  intros Hx Hl. rewrite (@dsum_run RN s n x xs), (@dlogsum_run RN s n alpha x xs) by (auto; subst n; apply Nat.le_refl).
  by rewrite sum_RN, logsum_RN.
Qed.
(** n = 6: one block of four and a tail of two *)
Example C07_case : let s := @state_of RN [@full RN [1; 2; 3; 4; 5; 6]] in
  @vcl_sum RN 6 (Ptr 0 0) s = Ok (21 : R) s.
Proof.
  intros s. pose proof (C07_vcl_sum s (Ptr 0 0) [1; 2; 3; 4; 5; 6] 6) as H.
  etransitivity; [apply H; [done|by apply (@state_of_seg RN)|done]|].
  f_equal. simpl. lra.
Qed.
End C07.

(** ** C08: for every arithmetic with a sane order, in particular IEEE binary64 and the extended reals *)
Section C08.
Context `{N : Num} `{!OrdNum N}.
Theorem C08_max_vec (s : st) (x : ptr) (xs : list T) (n : nat) :
  seg s x xs -> length xs = n -> (1 <= n)%nat ->
  exists r, l1c_max_vec (Zn n) x s = Ok r s /\
    (isnan (at_ xs 0) = true -> r = at_ xs 0) /\
    (isnan (at_ xs 0) = false ->
       r ∈ xs /\ isnan r = false /\ forall v, v ∈ xs -> ltb_ r v = false).
Proof.
  intros Hx Hl Hn. exists (max_of n xs). split; [apply max_vec_run; auto; lia|]. split.
  - intros H. by apply max_of_nan.
  - intros H. destruct (max_of_spec n xs Hn H) as ((i & Hi & E) & Hnan & Hmax). split_and!; auto.
    + rewrite E. apply elem_of_list_lookup. exists i. apply at_lookup. lia.
    + intros v Hv. apply elem_of_list_lookup in Hv as [j Hj].
      rewrite <- (lookup_at _ _ _ Hj). apply Hmax. apply lookup_lt_Some in Hj. lia.
Qed.
End C08.
(** n <= 0: NaN, and x is not read (x may even be NULL) *)
Theorem C08_max_vec_empty `{N : Num} (s : st) (n : Z) (x : ptr) :
  (n <= 0)%Z -> l1c_max_vec n x s = Ok nan_ s.
Proof. apply max_vec_nonpos. Qed.
Theorem C08_max_vec_ieee (s : @st FN) (x : ptr) (xs : list float) (n : nat) :
  @seg FN s x xs -> length xs = n -> (1 <= n)%nat ->
  exists r : float, @l1c_max_vec FN (Zn n) x s = Ok r s /\
    (is_nan (nth 0 xs 0%float) = true -> r = nth 0 xs 0%float) /\
    (is_nan (nth 0 xs 0%float) = false -> r ∈ xs /\ is_nan r = false /\ forall v, v ∈ xs -> (r <? v)%float = false).
Proof. exact (@C08_max_vec FN _ s x xs n). Qed.
(** a NaN in the middle is ignored, a NaN in front is returned (executed) *)
Example C08_case :
  (let s := @state_of FN [@full FN [1; nan; 3; 2]%float] in result (@l1c_max_vec FN 4 (Ptr 0 0)) s = Some 3%float) /\
  (let s := @state_of FN [@full FN [nan; 1; 3]%float] in result (@l1c_max_vec FN 3 (Ptr 0 0)) s = Some nan).
Proof. split; vm_compute; reflexivity. Qed.
Example C08_hyps : let s := @state_of FN [@full FN [1; nan; 3; 2]%float] in
  @seg FN s (Ptr 0 0) [1; nan; 3; 2]%float.
Proof. by apply (@state_of_seg FN). Qed.

(** ** C09: for every arithmetic.  [wr z rs s] overwrites exactly z[0..n-1]. *)
Section C09.
Context `{N : Num}.
Theorem C09_init_vec (s : st) (x : ptr) (n : nat) (alpha : T) :
  is_aligned s x = true -> wok s x n ->
  exists rs, length rs = n /\ (forall i, (i < n)%nat -> rs !! i = Some alpha) /\
    l1c_init_vec (Zn n) x alpha s = Ok tt (wr x rs s).
Proof.
  intros. exists (const_of n alpha). split; [apply tab_length|]. split; [|by apply init_vec_run].
  intros i Hi. unfold const_of. by rewrite tab_lookup.
Qed.
(** inputs x,y and a distinct output z *)
Definition xyz (s : st) (x : ptr) (xs : list T) (y : ptr) (ys : list T) (z : ptr) (n : nat) : Prop :=
  is_aligned s x = true /\ is_aligned s y = true /\ is_aligned s z = true /\
  seg s x xs /\ seg s y ys /\ wok s z n /\ length xs = n /\ length ys = n /\ disj z n x n /\ disj z n y n.
Theorem C09_three_operand (s : st) (x y z : ptr) (xs ys : list T) (n : nat) (alpha beta : T) :
  xyz s x xs y ys z n ->
  (exists rs, length rs = n /\ (forall i a b, xs !! i = Some a -> ys !! i = Some b -> rs !! i = Some (mul a b)) /\
     l1c_dxmuly_z (Zn n) x y z s = Ok tt (wr z rs s)) /\
  (exists rs, length rs = n /\ (forall i a b, xs !! i = Some a -> ys !! i = Some b -> rs !! i = Some (add (mul alpha a) (mul beta b))) /\
     l1c_daxpby_z (Zn n) alpha x beta y z s = Ok tt (wr z rs s)) /\
  (exists rs, length rs = n /\ (forall i a b, xs !! i = Some a -> ys !! i = Some b -> rs !! i = Some (add (mul alpha a) b)) /\
     l1c_daxpy_z (Zn n) alpha x y z s = Ok tt (wr z rs s)).
Proof.
  intros (Ax & Ay & Az & Hx & Hy & Hz & Lx & Ly & Dx & Dy).
  assert (HL : forall (f : nat -> T) i a, xs !! i = Some a -> tab n f !! i = Some (f i)).
  { intros f i a Hi. apply tab_lookup. apply lookup_lt_Some in Hi. lia. }
  split_and!.
  - exists (xmuly_of n xs ys). split; [apply tab_length|]. split; [|by apply dxmuly_z_run].
    intros i a b Ha Hb. unfold xmuly_of. rewrite (HL _ i a) by done. by rewrite (lookup_at _ _ _ Ha), (lookup_at _ _ _ Hb).
  - exists (axpby_of n alpha xs beta ys). split; [apply tab_length|]. split; [|by apply daxpby_z_run].
    intros i a b Ha Hb. unfold axpby_of. rewrite (HL _ i a) by done. by rewrite (lookup_at _ _ _ Ha), (lookup_at _ _ _ Hb).
  - exists (axpy_of n alpha xs ys). split; [apply tab_length|]. split; [|by apply daxpy_z_run].
    intros i a b Ha Hb. unfold axpy_of. rewrite (HL _ i a) by done. by rewrite (lookup_at _ _ _ Ha), (lookup_at _ _ _ Hb).
Qed.
Theorem C09_daxpby (s : st) (x y : ptr) (xs ys : list T) (n : nat) (alpha beta : T) :
  is_aligned s x = true -> is_aligned s y = true -> seg s x xs -> seg s y ys ->
  length xs = n -> length ys = n -> disj y n x n ->
  exists rs, length rs = n /\ (forall i a b, xs !! i = Some a -> ys !! i = Some b -> rs !! i = Some (add (mul alpha a) (mul beta b))) /\
    l1c_daxpby (Zn n) alpha x beta y s = Ok tt (wr y rs s).
Proof.
  intros. exists (axpby_of n alpha xs beta ys). split; [apply tab_length|]. split; [|by apply daxpby_run].
  intros i a b Ha Hb. unfold axpby_of. rewrite tab_lookup by (apply lookup_lt_Some in Ha; lia).
  by rewrite (lookup_at _ _ _ Ha), (lookup_at _ _ _ Hb).
Qed.
(** abs_vec works on distinct arrays and in place (y = x) *)
Theorem C09_abs_vec (s : st) (x y : ptr) (xs : list T) (n : nat) :
  seg s x xs -> length xs = n -> wok s y n -> y = x \/ disj y n x n ->
  exists rs, length rs = n /\ (forall i a, xs !! i = Some a -> rs !! i = Some (fabs a)) /\
    l1c_abs_vec (Zn n) x y s = Ok tt (wr y rs s).
Proof.
  intros Hx Hl Hw Hd. exists (abs_of n xs). split; [apply tab_length|]. split.
  - intros i a Ha. unfold abs_of. rewrite tab_lookup by (apply lookup_lt_Some in Ha; lia).
    by rewrite (lookup_at _ _ _ Ha).
  - destruct Hd as [->|Hd].
    + eapply abs_vec_run; [by apply src_self|by apply dst_seg].
    + eapply abs_vec_run; [by apply src_disj|by apply dst_fresh].
Qed.
(** what "[wr y rs s]" leaves alone: every cell outside y[0..n-1], and the rest of the state *)
Theorem C09_frame (s : st) (y : ptr) (rs : list T) :
  wok s y (length rs) ->
  seg (wr y rs s) y rs /\
  (forall q j, inside y (length rs) q j = false -> cell (wr y rs s) q j = cell s q j) /\
  im (wr y rs s) = im s /\ pm (wr y rs s) = pm s /\ om (wr y rs s) = om s /\ nx (wr y rs s) = nx s /\ gl (wr y rs s) = gl s.
Proof.
  intros Hw. split_and!; [by apply seg_wr| |apply im_wr|apply pm_wr|apply om_wr|apply nx_wr|apply gl_wr].
  intros q j Hj. by apply cell_wr_other.
Qed.
End C09.
(** five entries, IEEE doubles, executed; entry 5 of the output block stays uninitialised *)
Example C09_case :
  let s := @state_of FN [@full FN [1; 2; 3; 4; 5]%float; @full FN [5; 4; 3; 2; 1]%float; @fresh FN 6] in
  after (@l1c_daxpby_z FN 5 2%float (Ptr 0 0) 0.5%float (Ptr 1 0) (Ptr 2 0)) s 2
  = Some [Some 4.5; Some 6; Some 7.5; Some 9; Some 10.5; None]%float.
Proof. vm_compute. reflexivity. Qed.
Example C09_hyps :
  let s := @state_of FN [@full FN [1; 2]%float; @full FN [5; 4]%float; @fresh FN 6] in
  @xyz FN s (Ptr 0 0) [1; 2]%float (Ptr 1 0) [5; 4]%float (Ptr 2 0) 2.
Proof.
  repeat split; try done; try (by apply disj_blocks).
  - by apply (@state_of_seg FN).
  - by apply (@state_of_seg FN).
  - eapply (@state_of_wok FN); [done|]. simpl. lia.
Qed.

(** ** C05: the parallel loops of l1c_math.c, every arithmetic *)
Section C05.
Context `{N : Num}.
Theorem C05_math_any_order (s : st) (x y z : ptr) (xs ys : list T) (n : nat) (alpha beta : T) (l : list Z) :
  seg s x xs -> seg s y ys -> wok s z n -> length xs = n -> length ys = n ->
  disj z n x n -> disj z n y n -> disj y n x n -> l ≡ₚ range 0 (Zn n) ->
  for_list l (daxpby_body alpha x beta y) s = for_ 0 (Zn n) (daxpby_body alpha x beta y) s /\
  for_list l (init_vec_body z alpha) s = for_ 0 (Zn n) (init_vec_body z alpha) s /\
  for_list l (dxmuly_z_body x y z) s = for_ 0 (Zn n) (dxmuly_z_body x y z) s /\
  for_list l (daxpby_z_body alpha x beta y z) s = for_ 0 (Zn n) (daxpby_z_body alpha x beta y z) s /\
  for_list l (daxpy_z_body alpha x y z) s = for_ 0 (Zn n) (daxpy_z_body alpha x y z) s.
Proof.
  intros Hx Hy Hz Lx Ly Dx Dy Dxy Hl. split_and!.
  - by apply (daxpby_loop s n alpha x xs beta y ys).
  - by apply (init_vec_loop s n z alpha).
  - by apply (dxmuly_z_loop s n x xs y ys z).
  - by apply (daxpby_z_loop s n alpha x xs beta y ys z).
  - by apply (daxpy_z_loop s n alpha x xs y ys z).
Qed.
End C05.

(** The reduction of l1c_dlogsum: OpenMP gives every thread a private total starting at 0, lets it
    add its share of the terms, and finally adds the private totals in some order.  Any such
    execution evaluates a tree of additions whose leaves are zeros and each term exactly once. *)
Inductive rtree : Type := RZero | RTerm (i : nat) | RAdd (l r : rtree).
Fixpoint rleaves (t : rtree) : list nat :=
  match t with RZero => [] | RTerm i => [i] | RAdd l r => rleaves l ++ rleaves r end.
Fixpoint reval `{N : Num} (f : nat -> T) (t : rtree) : T :=
  match t with RZero => zero | RTerm i => f i | RAdd l r => add (reval f l) (reval f r) end.

(** addition is associative and commutative with neutral element 0 (true for RN and ER, false for floats) *)
Class AddMon (N : Num) := {
  add_comm_ : forall a b, add a b = add b a;
  add_assoc_ : forall a b c, add a (add b c) = add (add a b) c;
  add_0_ : forall a, add zero a = a
}.
Global Instance AddRN : AddMon RN.
Proof. split; intros; rewrite ?zero_RN; simpl; lra. Qed.
Global Instance AddER : AddMon ER.
Proof.
  split.
  - intros [] []; simpl; f_equal; lra.
  - intros [] [] []; simpl; f_equal; lra.
  - intros []; unfold zero, ofZ; simpl; f_equal; lra.
Qed.

Section reduction.
Context `{N : Num} `{!AddMon N}.
Definition lsum (f : nat -> T) (l : list nat) : T := foldr (fun i a => add (f i) a) zero l.
Lemma lsum_app f l k : lsum f (l ++ k) = add (lsum f l) (lsum f k).
Proof. induction l as [|i l IH]; simpl; [by rewrite add_0_|]. by rewrite IH, add_assoc_. Qed.
Lemma reval_lsum f t : reval f t = lsum f (rleaves t).
Proof.
  induction t as [|i|l IHl r IHr]; simpl; [done| |by rewrite IHl, IHr, lsum_app].
  by rewrite add_comm_, add_0_.
Qed.
Lemma lsum_perm f l k : l ≡ₚ k -> lsum f l = lsum f k.
Proof.
  induction 1 as [|i l k _ IH|i j l|? ? ? _ IH1 _ IH2]; simpl; [done|by rewrite IH| |congruence].
  by rewrite !add_assoc_, (add_comm_ (f j)).
Qed.
Lemma foldi_lsum f n : foldi n (fun i a => add a (f i)) zero = lsum f (seq 0 n).
Proof.
  induction n as [|n IH]; [done|]. rewrite seq_S, lsum_app. simpl. rewrite IH. f_equal.
  by rewrite (add_comm_ (f n)), add_0_.
Qed.
Theorem C05_dlogsum_reduction (s : st) (x : ptr) (xs : list T) (n : nat) (alpha : T) (t : rtree) :
  seg s x xs -> length xs = n -> rleaves t ≡ₚ seq 0 n ->
  l1c_dlogsum (Zn n) alpha x s = Ok (reval (fun i => log_ (mul alpha (at_ xs i))) t) s.
Proof.
  intros Hx Hl Ht. rewrite (dlogsum_run s n alpha x xs) by (auto; lia). f_equal.
  unfold logsum_of. rewrite (foldi_lsum (fun i => log_ (mul alpha (at_ xs i)))).
  rewrite reval_lsum. by apply lsum_perm.
Qed.
End reduction.
(** two threads: terms {0,2} and {1}, the second total added first *)
Example C05_reduction_case :
  rleaves (RAdd (RAdd RZero (RTerm 1)) (RAdd (RAdd RZero (RTerm 0)) (RTerm 2))) ≡ₚ seq 0 3.
Proof. simpl. apply Permutation_swap. Qed.

Print Assumptions C05_math_any_order.
Print Assumptions C05_dlogsum_reduction.
Print Assumptions C07_vcl_sum.
Print Assumptions C07_vcl_logsum.
Print Assumptions C07_vcl_dxMy_pz.
Print Assumptions C07_dsum.
Print Assumptions C08_max_vec.
Print Assumptions C08_max_vec_empty.
Print Assumptions C08_max_vec_ieee.
Print Assumptions C09_init_vec.
Print Assumptions C09_three_operand.
Print Assumptions C09_daxpby.
Print Assumptions C09_abs_vec.
Print Assumptions C09_frame.
