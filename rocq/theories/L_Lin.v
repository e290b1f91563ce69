(** * Inner products of real vectors: bilinearity, Bessel, and no more than n orthogonal directions. *)
From Coq Require Import ZArith Lia Reals Lra.
From stdpp Require Import base list.
From Verif Require Import Mem P_Mem P_Loop P_Math P_MathR P_TVR L_Sum S_Vec.
Local Open Scope R_scope.
Local Notation sqrt := R_sqrt.sqrt.

(** inner product of the first n entries *)
Definition ip (n : nat) (u v : list R) : R := Rsum n (fun i => nth i u 0 * nth i v 0).
Lemma ip_dot n u v : length u = n -> ip n u v = dot u v. Proof. intros <-. done. Qed.
Lemma dot_of_ip n u v : @dot_of RN n u v = ip n u v. Proof. apply dot_RN. Qed.
Lemma ip_sym n u v : ip n u v = ip n v u.
Proof. apply Rsum_ext. intros. lra. Qed.
Lemma nth_tab n (f : nat -> R) i : (i < n)%nat -> nth i (@tab RN n f) 0 = f i.
Proof. intros H. rewrite <- at_RN. by apply (@at_tab RN). Qed.
Lemma nth_axpy n (a : R) (u v : list R) i : (i < n)%nat -> nth i (@axpy_of RN n a u v) 0 = a * nth i u 0 + nth i v 0.
Proof. intros H. unfold axpy_of. rewrite nth_tab by done. by rewrite !at_RN. Qed.
Lemma nth_axpby n (a : R) (u : list R) (b : R) (v : list R) i : (i < n)%nat -> nth i (@axpby_of RN n a u b v) 0 = a * nth i u 0 + b * nth i v 0.
Proof. intros H. unfold axpby_of. rewrite nth_tab by done. by rewrite !at_RN. Qed.
Lemma ip_axpy_l n (a : R) (u v w : list R) : ip n (@axpy_of RN n a u v) w = a * ip n u w + ip n v w.
Proof.
  unfold ip. rewrite <- Rsum_scal, <- Rsum_plus. apply Rsum_ext. intros i Hi. rewrite nth_axpy by done. lra.
Qed.
Lemma ip_axpy_r n (a : R) (u v w : list R) : ip n w (@axpy_of RN n a u v) = a * ip n w u + ip n w v.
Proof. rewrite ip_sym, ip_axpy_l, (ip_sym n u), (ip_sym n v). done. Qed.
Lemma ip_axpby_l n (a : R) (u : list R) (b : R) (v w : list R) : ip n (@axpby_of RN n a u b v) w = a * ip n u w + b * ip n v w.
Proof.
  unfold ip. rewrite <- !Rsum_scal, <- Rsum_plus. apply Rsum_ext. intros i Hi. rewrite nth_axpby by done. lra.
Qed.
Lemma ip_axpby_r n (a : R) (u : list R) (b : R) (v w : list R) : ip n w (@axpby_of RN n a u b v) = a * ip n w u + b * ip n w v.
Proof. rewrite ip_sym, ip_axpby_l, (ip_sym n u), (ip_sym n v). done. Qed.
Lemma ip_self_nonneg n u : 0 <= ip n u u.
Proof. apply Rsum_nonneg. intros i _. apply Rle_0_sqr. Qed.
Lemma ip_self_0 n u : ip n u u = 0 -> forall i, (i < n)%nat -> nth i u 0 = 0.
Proof.
  intros H i Hi. assert (E : nth i u 0 * nth i u 0 = 0).
  { apply (Rsum_nonneg_0 n (fun i => nth i u 0 * nth i u 0)); auto. intros. apply Rle_0_sqr. }
  nra.
Qed.
Lemma ip_0_r n u v : (forall i, (i < n)%nat -> nth i v 0 = 0) -> ip n u v = 0.
Proof. intros H. apply Rsum_0. intros i Hi. rewrite H by done. lra. Qed.
Lemma list_eq_nth n (u v : list R) : length u = n -> length v = n -> (forall i, (i < n)%nat -> nth i u 0 = nth i v 0) -> u = v.
Proof. intros Hu Hv H. apply (nth_ext _ _ 0 0); [lia|]. intros i Hi. apply H. lia. Qed.

(** Bessel's inequality and the bound on the number of orthogonal vectors, for functions *)
Section bessel.
Context (n : nat).
Let IP (f g : nat -> R) := Rsum n (fun i => f i * g i).
(** m pairwise orthogonal unit vectors *)
Lemma bessel m (e : nat -> nat -> R) (u : nat -> R) :
  (forall i j, (i < m)%nat -> (j < m)%nat -> IP (e i) (e j) = if (i =? j)%nat then 1 else 0) ->
  Rsum m (fun k => (IP u (e k)) ^ 2) <= IP u u.
Proof.
  intros H.
  set (w := fun i => u i - Rsum m (fun k => IP u (e k) * e k i)).
  assert (Hw : 0 <= IP w w) by (apply Rsum_nonneg; intros; apply Rle_0_sqr).
  assert (E1 : forall k, (k < m)%nat -> IP (fun i => Rsum m (fun k => IP u (e k) * e k i)) (e k) = IP u (e k)).
  { intros k Hk. unfold IP at 1.
    rewrite (Rsum_ext _ _ (fun i => Rsum m (fun l => IP u (e l) * (e l i * e k i)))).
    2:{ intros i _. rewrite <- Rsum_scal_r. apply Rsum_ext. intros. lra. }
    rewrite Rsum_swap. rewrite (Rsum_ext _ _ (fun l => IP u (e l) * IP (e l) (e k))).
    2:{ intros l _. unfold IP. by rewrite Rsum_scal. }
    rewrite (Rsum_single m _ k); [rewrite H by done; rewrite Nat.eqb_refl; lra|done|].
    intros l Hl Hne. rewrite H by done. destruct (Nat.eqb_spec l k); [done|lra]. }
  set (c := fun i => Rsum m (fun k => IP u (e k) * e k i)) in *.
  assert (E2 : IP u c = Rsum m (fun k => (IP u (e k)) ^ 2)).
  { unfold IP at 1, c. rewrite (Rsum_ext _ _ (fun i => Rsum m (fun l => IP u (e l) * (u i * e l i)))).
    2:{ intros i _. rewrite <- Rsum_scal. apply Rsum_ext. intros. lra. }
    rewrite Rsum_swap. apply Rsum_ext. intros l _. rewrite Rsum_scal. unfold IP. lra. }
  assert (E3 : IP c c = Rsum m (fun k => (IP u (e k)) ^ 2)).
  { unfold IP at 1. rewrite (Rsum_ext _ _ (fun i => Rsum m (fun l => IP u (e l) * (c i * e l i)))).
    2:{ intros i _. unfold c at 2. rewrite <- Rsum_scal. apply Rsum_ext. intros. lra. }
    rewrite Rsum_swap. apply Rsum_ext. intros l Hl. rewrite Rsum_scal.
    change (Rsum n (fun i => c i * e l i)) with (IP c (e l)). rewrite E1 by done. lra. }
  assert (E4 : IP w w = IP u u - 2 * IP u c + IP c c).
  { unfold IP. rewrite <- Rsum_scal, <- Rsum_minus, <- Rsum_plus. apply Rsum_ext. intros i _. unfold w, c. lra. }
  lra.
Qed.
Lemma orthonormal_le m (e : nat -> nat -> R) :
  (forall i j, (i < m)%nat -> (j < m)%nat -> IP (e i) (e j) = if (i =? j)%nat then 1 else 0) -> (m <= n)%nat.
Proof.
  intros H. apply INR_le.
  apply (Rle_trans _ (Rsum n (fun t => Rsum m (fun k => (IP (fun i => if (i =? t)%nat then 1 else 0) (e k)) ^ 2)))).
  - apply Req_le. rewrite Rsum_swap. rewrite <- (Rmult_1_r (INR m)), <- Rsum_const. apply Rsum_ext. intros k Hk.
    transitivity (IP (e k) (e k)); [rewrite H by done; by rewrite Nat.eqb_refl|].
    unfold IP at 1. apply Rsum_ext. intros t Ht.
    assert (E : IP (fun i => if (i =? t)%nat then 1 else 0) (e k) = e k t).
    { unfold IP. rewrite (Rsum_single n _ t); [rewrite Nat.eqb_refl; lra|done|].
      intros i _ Hne. destruct (Nat.eqb_spec i t); [done|lra]. }
    rewrite E. lra.
  - apply (Rle_trans _ (Rsum n (fun _ => 1))); [|rewrite Rsum_const; lra].
    apply Rsum_le. intros t Ht. eapply Rle_trans; [by apply bessel|].
    unfold IP. rewrite (Rsum_single n _ t); [rewrite Nat.eqb_refl; lra|done|].
    intros i _ Hne. destruct (Nat.eqb_spec i t); [done|lra].
Qed.
End bessel.
(** more than n vectors of length n that are pairwise orthogonal: one of them is zero *)
Lemma orthogonal_le n m (v : nat -> list R) :
  (forall i j, (i < m)%nat -> (j < m)%nat -> i <> j -> ip n (v i) (v j) = 0) ->
  (forall i, (i < m)%nat -> ip n (v i) (v i) <> 0) -> (m <= n)%nat.
Proof.
  intros H0 H1.
  apply (orthonormal_le n m (fun k i => nth i (v k) 0 / sqrt (ip n (v k) (v k)))).
  intros i j Hi Hj.
  rewrite (Rsum_ext _ _ (fun t => / (sqrt (ip n (v i) (v i)) * sqrt (ip n (v j) (v j))) * (nth t (v i) 0 * nth t (v j) 0))).
  2:{ intros t _. pose proof (ip_self_nonneg n (v i)). pose proof (ip_self_nonneg n (v j)).
      pose proof (H1 i Hi). pose proof (H1 j Hj).
      assert (sqrt (ip n (v i) (v i)) <> 0) by (intros E; apply sqrt_eq_0 in E; lra).
      assert (sqrt (ip n (v j) (v j)) <> 0) by (intros E; apply sqrt_eq_0 in E; lra).
      field. auto. }
  rewrite Rsum_scal. change (Rsum n (fun t => nth t (v i) 0 * nth t (v j) 0)) with (ip n (v i) (v j)).
  destruct (Nat.eqb_spec i j) as [->|Hne].
  - rewrite sqrt_sqrt by apply ip_self_nonneg. field. by apply H1.
  - rewrite (H0 i j) by done. lra.
Qed.
