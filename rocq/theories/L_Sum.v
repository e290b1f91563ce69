(** * Finite sums of reals and vectors of reals. *)
From Coq Require Import Reals Lra Lia Psatz Arith List Permutation.
Local Open Scope R_scope.

(** sum of f 0, ..., f (n-1) *)
Fixpoint Rsum (n : nat) (f : nat -> R) : R :=
  match n with O => 0 | S k => Rsum k f + f k end.

Lemma Rsum_ext n f g : (forall i, (i < n)%nat -> f i = g i) -> Rsum n f = Rsum n g.
Proof. induction n as [|n IH]; intros H; simpl; [auto|]. rewrite IH, H; auto. Qed.
Lemma Rsum_plus n f g : Rsum n (fun i => f i + g i) = Rsum n f + Rsum n g.
Proof. induction n; simpl; lra. Qed.
Lemma Rsum_minus n f g : Rsum n (fun i => f i - g i) = Rsum n f - Rsum n g.
Proof. induction n; simpl; lra. Qed.
Lemma Rsum_opp n f : Rsum n (fun i => - f i) = - Rsum n f.
Proof. induction n; simpl; lra. Qed.
Lemma Rsum_scal n c f : Rsum n (fun i => c * f i) = c * Rsum n f.
Proof. induction n; simpl; lra. Qed.
Lemma Rsum_scal_r n c f : Rsum n (fun i => f i * c) = Rsum n f * c.
Proof. induction n; simpl; lra. Qed.
Lemma Rsum_0 n f : (forall i, (i < n)%nat -> f i = 0) -> Rsum n f = 0.
Proof. induction n as [|n IH]; intros H; simpl; [auto|]. rewrite IH, H; auto; lra. Qed.
Lemma Rsum_const n c : Rsum n (fun _ => c) = INR n * c.
Proof. induction n as [|n IH]; [simpl; lra|]. rewrite S_INR. simpl. rewrite IH. lra. Qed.
Lemma Rsum_split n k f : Rsum (n + k) f = Rsum n f + Rsum k (fun i => f (n + i)%nat).
Proof.
  induction k as [|k IH]; simpl; [rewrite Nat.add_0_r; lra|].
  rewrite Nat.add_succ_r. simpl. rewrite IH. lra.
Qed.
Lemma Rsum_S_l n f : Rsum (S n) f = f 0%nat + Rsum n (fun i => f (S i)).
Proof. change (S n) with (1 + n)%nat. rewrite Rsum_split. simpl. lra. Qed.
Lemma Rsum_rows n m f : Rsum (n * m) f = Rsum n (fun i => Rsum m (fun j => f (i * m + j)%nat)).
Proof.
  induction n as [|n IH]; [reflexivity|].
  replace (S n * m)%nat with (n * m + m)%nat by lia.
  rewrite Rsum_split, IH. reflexivity.
Qed.
Lemma Rsum_swap n m f : Rsum n (fun i => Rsum m (fun j => f i j)) = Rsum m (fun j => Rsum n (fun i => f i j)).
Proof.
  induction n as [|n IH]; simpl.
  - symmetry. apply Rsum_0. auto.
  - rewrite IH. rewrite <- Rsum_plus. reflexivity.
Qed.
Lemma Rsum_le n f g : (forall i, (i < n)%nat -> f i <= g i) -> Rsum n f <= Rsum n g.
Proof. induction n as [|n IH]; intros H; simpl; [lra|]. assert (Rsum n f <= Rsum n g) by auto. assert (f n <= g n) by auto. lra. Qed.
Lemma Rsum_nonneg n f : (forall i, (i < n)%nat -> 0 <= f i) -> 0 <= Rsum n f.
Proof. intros H. replace 0 with (Rsum n (fun _ => 0)) by (apply Rsum_0; auto). apply Rsum_le; auto. Qed.
Lemma Rsum_le_mono n k f : (n <= k)%nat -> (forall i, (i < k)%nat -> 0 <= f i) -> Rsum n f <= Rsum k f.
Proof.
  intros Hn H. replace k with (n + (k - n))%nat by lia. rewrite Rsum_split.
  assert (0 <= Rsum (k - n) (fun i => f (n + i)%nat)) by (apply Rsum_nonneg; intros; apply H; lia). lra.
Qed.
Lemma Rsum_term_le n f i : (forall i, (i < n)%nat -> 0 <= f i) -> (i < n)%nat -> f i <= Rsum n f.
Proof.
  induction n as [|n IH]; intros H Hi; [lia|]. simpl.
  assert (0 <= Rsum n f) by (apply Rsum_nonneg; auto).
  destruct (Nat.eq_dec i n) as [->|]; [lra|].
  assert (f i <= Rsum n f) by (apply IH; [auto|lia]). assert (0 <= f n) by auto. lra.
Qed.
Lemma Rsum_nonneg_0 n f : (forall i, (i < n)%nat -> 0 <= f i) -> Rsum n f = 0 -> forall i, (i < n)%nat -> f i = 0.
Proof.
  intros H H0 i Hi. pose proof (Rsum_term_le n f i H Hi). pose proof (H i Hi). lra.
Qed.
Lemma Rsum_single n f k : (k < n)%nat -> (forall i, (i < n)%nat -> i <> k -> f i = 0) -> Rsum n f = f k.
Proof.
  induction n as [|n IH]; intros Hk H; [lia|]. simpl.
  destruct (Nat.eq_dec k n) as [->|].
  - rewrite Rsum_0 by (intros; apply H; lia). lra.
  - rewrite IH by (try lia; intros; apply H; lia). rewrite (H n) by lia. lra.
Qed.
Lemma Rsum_mult n m f g : Rsum n f * Rsum m g = Rsum n (fun i => Rsum m (fun j => f i * g j)).
Proof.
  rewrite <- Rsum_scal_r. apply Rsum_ext. intros i _. rewrite Rsum_scal. reflexivity.
Qed.
Lemma Rsum_abs n f : Rabs (Rsum n f) <= Rsum n (fun i => Rabs (f i)).
Proof.
  induction n as [|n IH]; simpl; [rewrite Rabs_R0; lra|].
  eapply Rle_trans; [apply Rabs_triang|]. lra.
Qed.
Lemma Rsum_rev n f : Rsum n f = Rsum n (fun i => f (n - 1 - i)%nat).
Proof.
  revert f. induction n as [|n IH]; intros f; [reflexivity|].
  rewrite Rsum_S_l, (IH (fun i => f (S i))). simpl Rsum at 2.
  replace (n - 0 - n)%nat with 0%nat by lia. rewrite Rplus_comm. f_equal.
  apply Rsum_ext. intros i Hi. f_equal. lia.
Qed.

(** shift: sum of x(k+m) z(k) seen from the other side *)
Lemma Rsum_shift n m f : Rsum n (fun k => f (k + m)%nat) = Rsum (m + n) (fun k => if (k <? m)%nat then 0 else f k).
Proof.
  rewrite Rsum_split. rewrite (Rsum_0 m), Rplus_0_l.
  - apply Rsum_ext. intros i Hi. replace (m + i <? m)%nat with false by (symmetry; apply Nat.ltb_ge; lia).
    f_equal. lia.
  - intros i Hi. replace (i <? m)%nat with true by (symmetry; apply Nat.ltb_lt; lia). reflexivity.
Qed.

(** Cauchy-Schwarz *)
Lemma Rsum_CS n f g : (Rsum n (fun i => f i * g i)) ^ 2 <= Rsum n (fun i => f i ^ 2) * Rsum n (fun i => g i ^ 2).
Proof.
  induction n as [|n IH]; simpl; [lra|].
  set (A := Rsum n (fun i => f i * g i)) in *.
  set (B := Rsum n (fun i => f i * (f i * 1))) in *.
  set (C := Rsum n (fun i => g i * (g i * 1))) in *.
  assert (HB : 0 <= B) by (apply Rsum_nonneg; intros k _; match goal with |- 0 <= ?h k * _ => pose proof (Rle_0_sqr (h k)); unfold Rsqr in *; lra end).
  assert (HC : 0 <= C) by (apply Rsum_nonneg; intros k _; match goal with |- 0 <= ?h k * _ => pose proof (Rle_0_sqr (h k)); unfold Rsqr in *; lra end).
  assert (IH' : A * A <= B * C) by (simpl in IH; fold B C in IH; lra).
  (* 2 A f g <= B g^2 + C f^2 *)
  set (a := f n). set (b := g n). clearbody A B C a b. clear IH.
  assert (H : 2 * A * (a * b) <= B * (b * b) + C * (a * a)).
  { assert (H1 : (2 * A * (a * b)) ^ 2 <= (B * (b * b) + C * (a * a)) ^ 2).
    { assert (4 * (a*b)^2 * (A * A) <= 4 * (a*b)^2 * (B * C)) by (apply Rmult_le_compat_l; [pose proof (pow2_ge_0 (a * b)); lra|lra]).
      pose proof (pow2_ge_0 (B * (b * b) - C * (a * a))). lra. }
    assert (H2 : 0 <= B * (b * b) + C * (a * a)) by nra.
    destruct (Rle_or_lt (2 * A * (a * b)) (B * (b * b) + C * (a * a))); [auto|].
    assert ((B * (b * b) + C * (a * a)) ^ 2 < (2 * A * (a * b)) ^ 2) by nra. lra. }
  nra.
Qed.
