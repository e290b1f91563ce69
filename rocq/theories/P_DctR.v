(** * The one-dimensional transform in exact arithmetic. *)
From Coq Require Import ZArith Lia Reals Lra Psatz.
From stdpp Require Import base list.
From Verif Require Import Globals Mem M_Math P_Mem P_Loop P_Math P_MathR P_TVR L_Sum S_Vec L_Lin S_Newt S_Nesta S_Dct L_Cos P_NewtX P_Own P_FFTW P_Dct1 P_Dct1s.
Local Open Scope R_scope.
Local Notation sqrt := R_sqrt.sqrt.

Lemma ofZ_RN' z : @ofZ RN z = IZR z. Proof. unfold ofZ. simpl. lra. Qed.
Lemma tab_vec n (f : nat -> R) : @tab RN n f = vec n f. Proof. done. Qed.
Lemma root1_R m : (1 <= m)%nat -> @root1 RN (Z.of_nat m) = sqrt (1 / (2 * INR m)).
Proof. intros H. unfold root1. rewrite ofZ_RN', two_RN, one_RN, <- INR_IZR_INZ. cbn [sqrt_ div mul RN]. f_equal. f_equal. ring. Qed.
Lemma root_sqrt2 m : (1 <= m)%nat -> sqrt (1 / (2 * INR m)) * sqrt 2 = sqrt (1 / INR m).
Proof.
  intros H. assert (0 < INR m) by (apply lt_0_INR; lia). rewrite <- sqrt_mult; [|apply Rlt_le, Rdiv_lt_0_compat; lra|lra]. f_equal. field. lra.
Qed.
Lemma root_2 m : (1 <= m)%nat -> sqrt (1 / (2 * INR m)) * 2 = sqrt (2 / INR m).
Proof.
  intros H. assert (0 < INR m) by (apply lt_0_INR; lia). replace 2 with (sqrt 2 * sqrt 2) at 2 by (apply sqrt_def; lra).
  rewrite <- Rmult_assoc, root_sqrt2 by done. rewrite <- sqrt_mult; [|apply Rlt_le, Rdiv_lt_0_compat; lra|lra]. f_equal. field. lra.
Qed.
Lemma sqrt2_neq : sqrt 2 <> 0. Proof. pose proof (sqrt_lt_R0 2 ltac:(lra)). lra. Qed.
Lemma root_dsqrt2 m : (1 <= m)%nat -> 2 / sqrt 2 * sqrt (1 / (2 * INR m)) = sqrt (1 / INR m).
Proof.
  intros H. rewrite <- (root_sqrt2 m H). pose proof sqrt2_neq. pose proof (sqrt_def 2 ltac:(lra)).
  replace 2 with (sqrt 2 * sqrt 2) at 1. field. done.
Qed.
Lemma dft1_len k x : length (dft1 k x) = length x. Proof. apply vec_len. Qed.
Lemma dft1_nth k x i : (i < length x)%nat -> nth i (dft1 k x) 0 = Rsum (length x) (fun j => redft k (length x) i j * nth j x 0).
Proof. intros H. by apply (vec_nth _ (fun i => _)). Qed.

Section link.
Context (m : nat) (Hm : (1 <= m)%nat).
Notation r := (@root1 RN (Z.of_nat m)).
Lemma idct_R (xs : list R) i : length xs = m -> (i < m)%nat -> @at_ RN (@idct_of RN dft1 xs) i * r = Rsum m (fun k => dctm m k i * nth k xs 0).
Proof.
  intros Lx Hi. rewrite at_RN. unfold idct_of. assert (Li : forall v : R, length (<[0%nat := v]> xs) = m) by (intros; by rewrite insert_length).
  rewrite dft1_nth by (by rewrite Li). rewrite Li. rewrite <- Rsum_scal_r, root1_R by done. apply Rsum_ext. intros j Hj.
  unfold dctm. rewrite <- at_RN. rewrite (@at_insert RN) by (change (0 < @length R xs)%nat; lia). rewrite !at_RN. cbn [mul sqrt_ RN]. rewrite two_RN.
  unfold redft. destruct (Nat.eqb_spec j 0) as [->|].
  - rewrite <- root_sqrt2 by done. ring.
  - rewrite <- root_2 by done. replace (PI * INR j * (INR i + 1 / 2) / INR m) with (PI * (INR i + 1 / 2) * INR j / INR m) by (unfold Rdiv; ring). ring.
Qed.
Lemma mx_R (xs : list R) : length xs = m -> @mx_of RN dft1 r m xs = dct_inv m xs.
Proof. intros Lx. unfold mx_of, dct_inv. rewrite tab_vec. apply vec_ext. intros i Hi. by apply idct_R. Qed.
Lemma emx_R mask (xs : list R) : length xs = m -> (forall k, k ∈ mask -> (k < m)%nat) -> @emx_of RN dft1 r mask xs = sample mask (dct_inv m xs).
Proof.
  intros Lx Hk. unfold emx_of, sample. rewrite tab_vec. apply vec_ext. intros i Hi.
  assert (nth i mask 0 < m)%nat by (apply Hk, elem_of_list_In, nth_In; done).
  unfold dct_inv. rewrite vec_nth by done. by apply idct_R.
Qed.
Lemma mty_R (ys : list R) : length ys = m -> @mty_of RN dft1 r m ys = dct_fwd m ys.
Proof.
  intros Ly. unfold mty_of, dct_fwd. cbv zeta. rewrite tab_vec. apply vec_ext. intros k Hk. rewrite !at_RN. rewrite !dft1_nth by lia. rewrite Ly.
  cbn [mul div sqrt_ RN]. rewrite two_RN, root1_R by done. unfold dctm, redft. destruct (Nat.eqb_spec k 0) as [->|].
  - unfold Rdiv at 1. rewrite <- !Rsum_scal_r. apply Rsum_ext. intros j Hj. rewrite <- root_dsqrt2 by done.
    simpl (INR 0). rewrite Rmult_0_r. unfold Rdiv at 1. rewrite Rmult_0_l, cos_0. unfold Rdiv. ring.
  - rewrite <- Rsum_scal_r. apply Rsum_ext. intros j Hj. rewrite <- root_2 by done. ring.
Qed.
(** scattering into zeros is the adjoint of sampling when the indices are distinct *)
Lemma scatter_spread mask (ys e : list R) : NoDup mask -> (forall k, k ∈ mask -> (k < m)%nat) -> length e = m ->
  (forall j, j ∉ mask -> nth j e 0 = 0) -> @scatter RN mask (@at_ RN ys) e = spread m mask ys.
Proof.
  intros ND Hk Le H0. apply (list_eq_nth m); [by rewrite (@scatter_len RN)|apply vec_len|]. intros j Hj.
  unfold spread. rewrite (vec_nth m (fun j => _)) by done. rewrite <- at_RN. destruct (decide (j ∈ mask)) as [Hin|Hni].
  - destruct (elem_of_pos mask j Hin) as (i & Hi & <- & _). rewrite (@scatter_in RN) by (done || (change (nth i mask 0 < @length R e)%nat; rewrite Le; by apply Hk)). rewrite at_RN.
    rewrite (Rsum_single _ _ i Hi); [by rewrite Nat.eqb_refl|]. intros k Hk' Hne. destruct (Nat.eqb_spec (nth k mask 0%nat) (nth i mask 0%nat)) as [E|]; [|done].
    apply (NoDup_nth mask 0%nat) in E; [lia|by apply NoDup_ListNoDup|lia|lia].
  - rewrite (@scatter_out RN) by done. rewrite at_RN, H0 by done. symmetry. apply Rsum_0. intros i Hi. destruct (Nat.eqb_spec (nth i mask 0%nat) j) as [<-|]; [|done].
    exfalso. apply Hni, elem_of_list_In, nth_In. done.
Qed.
Lemma mtety_R mask (e0 ys : list R) : NoDup mask -> (forall k, k ∈ mask -> (k < m)%nat) -> length e0 = m ->
  (forall j, j ∉ mask -> nth j e0 0 = 0) -> @mtety_of RN dft1 r m mask e0 ys = dct_fwd m (spread m mask ys).
Proof.
  intros ND Hk Le H0. unfold mtety_of. rewrite scatter_spread by done. apply mty_R. apply vec_len.
Qed.
End link.

(** ** the orthonormal transform and sampling as linear maps *)
Section maps.
Context (m : nat) (D : nat -> nat -> R).
Lemma mfwd_len y : length (mfwd m D y) = m. Proof. apply vec_len. Qed.
Lemma minv_len y : length (minv m D y) = m. Proof. apply vec_len. Qed.
Lemma minv_linmap : linmap m m (minv m D).
Proof.
  split; [intros; apply vec_len|]. intros a u v Hu Hv i Hi. unfold minv. rewrite !vec_nth by done.
  rewrite <- Rsum_scal, <- Rsum_plus. apply Rsum_ext. intros k Hk. rewrite nth_vlin by lia. ring.
Qed.
Lemma mfwd_linmap : linmap m m (mfwd m D).
Proof.
  split; [intros; apply vec_len|]. intros a u v Hu Hv i Hi. unfold mfwd. rewrite !vec_nth by done.
  rewrite <- Rsum_scal, <- Rsum_plus. apply Rsum_ext. intros k Hk. rewrite nth_vlin by lia. ring.
Qed.
Lemma minv_adjoint : adjoint m m (minv m D) (mfwd m D).
Proof. split; [intros; apply vec_len|]. intros x y Hx Hy. unfold dot. rewrite minv_len, Hx. apply mat_adj. Qed.
Context (HD : forall k l, (k < m)%nat -> (l < m)%nat -> Rsum m (fun j => D k j * D l j) = if Nat.eqb k l then 1 else 0).
Context (HC : forall i j, (i < m)%nat -> (j < m)%nat -> Rsum m (fun k => D k i * D k j) = if Nat.eqb i j then 1 else 0).
Context (mask : list nat) (ND : NoDup mask) (Hk : forall k, k ∈ mask -> (k < m)%nat).
Lemma nth_mask_lt i : (i < length mask)%nat -> (nth i mask 0 < m)%nat.
Proof. intros. apply Hk, elem_of_list_In, nth_In. done. Qed.
Definition meas x := sample mask (minv m D x).
Definition meast y := mfwd m D (spread m mask y).
Lemma sample_nth x i : (i < length mask)%nat -> nth i (sample mask x) 0 = nth (nth i mask 0%nat) x 0.
Proof. intros H. unfold sample. by rewrite (vec_nth _ (fun i => _)). Qed.
Lemma meas_linmap : linmap m (length mask) meas.
Proof.
  split; [intros; apply vec_len|]. intros a u v Hu Hv i Hi. unfold meas. rewrite !sample_nth by done. apply minv_linmap; try done. by apply nth_mask_lt.
Qed.
(** sampling and spreading are adjoint, for every index list *)
Lemma sample_adjoint x y : length x = m -> length y = length mask -> dot (sample mask x) y = dot x (spread m mask y).
Proof.
  intros Hx Hy. unfold dot. rewrite Hx. unfold sample at 1. rewrite vec_len.
  rewrite (Rsum_ext m _ (fun j => Rsum (length mask) (fun i => if Nat.eqb (nth i mask 0%nat) j then nth j x 0 * nth i y 0 else 0))).
  2:{ intros j Hj. unfold spread. rewrite (vec_nth m (fun j => _)) by done. rewrite <- Rsum_scal. apply Rsum_ext. intros i _. destruct (Nat.eqb _ _); ring. }
  rewrite Rsum_swap. apply Rsum_ext. intros i Hi. rewrite sample_nth by done.
  rewrite (Rsum_single m _ (nth i mask 0%nat)); [by rewrite Nat.eqb_refl|by apply nth_mask_lt|].
  intros j _ Hne. destruct (Nat.eqb_spec (nth i mask 0%nat) j); [lia|done].
Qed.
Lemma meas_adjoint : adjoint m (length mask) meas meast.
Proof.
  split; [intros; apply vec_len|]. intros x y Hx Hy. unfold meas, meast. rewrite sample_adjoint by (done || apply minv_len).
  apply minv_adjoint; [done|]. apply vec_len.
Qed.
Lemma sample_spread y : length y = length mask -> sample mask (spread m mask y) = y.
Proof.
  intros Hy. apply (list_eq_nth (length mask)); [apply vec_len|done|]. intros i Hi. rewrite sample_nth by done.
  unfold spread. rewrite (vec_nth m (fun j => _)) by (by apply nth_mask_lt).
  rewrite (Rsum_single _ _ i Hi); [by rewrite Nat.eqb_refl|]. intros k Hk' Hne. destruct (Nat.eqb_spec (nth k mask 0%nat) (nth i mask 0%nat)) as [E|]; [|done].
  apply (NoDup_nth mask 0%nat) in E; [lia|by apply NoDup_ListNoDup|lia|lia].
Qed.
Lemma meas_unit_rows : unit_rows (length mask) meas meast.
Proof. intros y Hy. unfold meas, meast. rewrite minv_mfwd; [by apply sample_spread|done|apply vec_len]. Qed.
End maps.
