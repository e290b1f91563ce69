(** * Mathematics of the difference operators over the reals. *)
From Coq Require Import Reals Lra Lia Psatz Arith.
From stdpp Require Import base numbers list.
From Verif Require Import P_Loop M_TV P_TV S_Vec.
Local Open Scope R_scope.

Lemma zero_RN : @zero RN = 0. Proof. unfold zero, ofZ. simpl. lra. Qed.
Lemma one_RN : @one RN = 1. Proof. unfold one, ofZ. simpl. lra. Qed.
Lemma two_RN : @two RN = 2. Proof. unfold two, ofZ. simpl. lra. Qed.
Lemma at_RN (xs : list R) i : @at_ RN xs i = nth i xs 0.
Proof. unfold at_. by rewrite zero_RN. Qed.
Lemma nth_tab (n : nat) (f : nat -> R) i : (i < n)%nat -> nth i (@tab RN n f) 0 = f i.
Proof. intros H. rewrite <- at_RN. exact (@at_tab RN n f i H). Qed.

Lemma dot_tab_l n (f : nat -> R) ys : dot (@tab RN n f) ys = Rsum n (fun i => f i * nth i ys 0).
Proof. unfold dot. rewrite (@tab_length RN). apply Rsum_ext. intros i Hi. by rewrite nth_tab. Qed.
Lemma dot_tab_r n (f : nat -> R) xs : length xs = n -> dot xs (@tab RN n f) = Rsum n (fun i => nth i xs 0 * f i).
Proof. intros H. unfold dot. rewrite H. apply Rsum_ext. intros i Hi. by rewrite nth_tab. Qed.

(** summation by parts with stride m: the sum over k < n of (x(k+m) - x k) y k *)
Lemma parts (x y : nat -> R) (n m : nat) :
  Rsum n (fun k => (x (k + m)%nat - x k) * y k)
  = Rsum (m + n) (fun k => x k * ((if (k <? m)%nat then 0 else y (k - m)%nat) - (if (k <? n)%nat then y k else 0))).
Proof.
  rewrite (Rsum_ext n _ (fun k => x (k + m)%nat * y (k + m - m)%nat - x k * y k)).
  2:{ intros i _. replace (i + m - m)%nat with i by lia. lra. }
  rewrite Rsum_minus. rewrite (Rsum_shift n m (fun k => x k * y (k - m)%nat)).
  assert (E : Rsum n (fun k => x k * y k) = Rsum (m + n) (fun k => x k * (if (k <? n)%nat then y k else 0))).
  { replace (m + n)%nat with (n + m)%nat by lia. rewrite Rsum_split.
    rewrite (Rsum_0 m), Rplus_0_r.
    - apply Rsum_ext. intros i Hi. by rewrite (proj2 (Nat.ltb_lt _ _)).
    - intros i Hi. rewrite (proj2 (Nat.ltb_ge _ _)) by lia. lra. }
  rewrite E, <- Rsum_minus. apply Rsum_ext. intros i _.
  destruct (i <? m)%nat; lra.
Qed.

Lemma mod_row i m j : (j < m)%nat -> ((i * m + j) mod m)%nat = j.
Proof. intros H. rewrite Nat.add_comm, Nat.mod_add by lia. by apply Nat.mod_small. Qed.

Lemma row_of_at (g : nat -> R -> list R -> nat -> nat -> R) n m (alpha : R) (xs : list R) i j :
  (i < n)%nat -> (j < m)%nat ->
  nth (i * m + j) (@row_of RN g n m alpha xs) 0 = g m alpha xs (i * m)%nat j.
Proof.
  intros Hi Hj. unfold row_of. rewrite nth_tab by nia. rewrite mod_row by done. f_equal. lia.
Qed.

Lemma ddiff_RN m (alpha : R) (xs : list R) o j :
  @ddiff_at RN m alpha xs o j = if (j + 1 <? m)%nat then alpha * (nth (o + j + 1) xs 0 - nth (o + j) xs 0) else 0.
Proof. unfold ddiff_at. rewrite !at_RN, zero_RN. done. Qed.
Lemma ddiffT_RN m (alpha : R) (xs : list R) o j : (2 <= m)%nat -> (j < m)%nat ->
  @ddiffT_at RN m alpha xs o j
  = alpha * ((if (j <? 1)%nat then 0 else nth (o + (j - 1)) xs 0) - (if (j <? m - 1)%nat then nth (o + j) xs 0 else 0)).
Proof.
  intros Hm Hj. unfold ddiffT_at. rewrite !at_RN. simpl.
  destruct (Nat.eqb_spec j 0) as [->|].
  - rewrite (proj2 (Nat.ltb_lt _ _)) by lia. rewrite (proj2 (Nat.ltb_lt _ _)) by lia. rewrite Nat.add_0_r. lra.
  - rewrite (proj2 (Nat.ltb_ge j 1)) by lia. replace (o + (j - 1))%nat with (o + j - 1)%nat by lia.
    destruct (Nat.ltb_spec (j + 1) m), (Nat.ltb_spec j (m - 1)); try lia; lra.
Qed.

Lemma Dx_adjoint n m (alpha : R) (u v : list R) :
  (2 <= m)%nat -> length u = (n * m)%nat -> length v = (n * m)%nat ->
  dot (@Dx_of RN n m alpha u) v = dot u (@DxT_of RN n m alpha v).
Proof.
  intros Hm Hu Hv. unfold dot. rewrite Hu.
  assert (HL : @length R (@Dx_of RN n m alpha u) = (n * m)%nat) by apply (@tab_length RN).
  rewrite HL, !Rsum_rows. apply Rsum_ext. intros i Hi.
  rewrite (Rsum_ext m _ (fun j => (if (j + 1 <? m)%nat then alpha * (nth (i * m + j + 1) u 0 - nth (i * m + j) u 0) else 0) * nth (i * m + j) v 0)).
  2:{ intros j Hj. unfold Dx_of. rewrite row_of_at by done. by rewrite ddiff_RN. }
  rewrite (Rsum_ext m (fun j => nth (i * m + j) u 0 * nth (i * m + j) (@DxT_of RN n m alpha v : list R) 0)
     (fun j => alpha * (nth (i * m + j) u 0 * ((if (j <? 1)%nat then 0 else nth (i * m + (j - 1)) v 0) - (if (j <? m - 1)%nat then nth (i * m + j) v 0 else 0))))).
  2:{ intros j Hj. unfold DxT_of. rewrite row_of_at by done. rewrite ddiffT_RN by done. lra. }
  rewrite Rsum_scal.
  pose proof (parts (fun j => nth (i * m + j) u 0) (fun j => nth (i * m + j) v 0) (m - 1) 1) as P.
  replace (1 + (m - 1))%nat with m in P by lia. rewrite <- P.
  rewrite <- Rsum_scal. replace m with (m - 1 + 1)%nat at 1 by lia. rewrite Rsum_split. simpl.
  rewrite Nat.add_0_r. rewrite (proj2 (Nat.ltb_ge (m - 1 + 1) m)) by lia.
  rewrite Rmult_0_l, !Rplus_0_r. apply Rsum_ext. intros j Hj.
  rewrite (proj2 (Nat.ltb_lt (j + 1) m)) by lia. rewrite Nat.add_assoc. lra.
Qed.

Lemma Dy_RN n m (alpha : R) (xs : list R) k : (k < n * m)%nat ->
  nth k (@Dy_of RN n m alpha xs) 0 = if (k <? (n - 1) * m)%nat then alpha * (nth (k + m) xs 0 - nth k xs 0) else 0.
Proof. intros H. unfold Dy_of. rewrite nth_tab by done. rewrite !at_RN, zero_RN. done. Qed.
Lemma DyT_RN n m (alpha : R) (xs : list R) k : (k < n * m)%nat ->
  nth k (@DyT_of RN n m alpha xs) 0
  = alpha * ((if (k <? m)%nat then 0 else nth (k - m) xs 0) - (if (k <? (n - 1) * m)%nat then nth k xs 0 else 0)).
Proof. intros H. unfold DyT_of. rewrite nth_tab by done. rewrite !at_RN, zero_RN. done. Qed.
Lemma DyTDy_RN n m (alpha : R) (xs : list R) k : (k < n * m)%nat ->
  nth k (@DyTDy_of RN n m alpha xs) 0
  = alpha * alpha * (- (if (k <? m)%nat then 0 else nth (k - m) xs 0)
      + (if ((k <? m) || ((n - 1) * m <=? k))%nat then nth k xs 0 else 2 * nth k xs 0)
      - (if (k <? (n - 1) * m)%nat then nth (k + m) xs 0 else 0)).
Proof. intros H. unfold DyTDy_of. rewrite nth_tab by done. rewrite !at_RN, zero_RN, two_RN. done. Qed.

Lemma Dy_adjoint n m (alpha : R) (u v : list R) :
  (1 <= n)%nat -> length u = (n * m)%nat -> length v = (n * m)%nat ->
  dot (@Dy_of RN n m alpha u) v = dot u (@DyT_of RN n m alpha v).
Proof.
  intros Hn Hu Hv. unfold dot. rewrite Hu.
  assert (HL : @length R (@Dy_of RN n m alpha u) = (n * m)%nat) by apply (@tab_length RN).
  rewrite HL.
  rewrite (Rsum_ext (n * m) (fun k => nth k u 0 * nth k (@DyT_of RN n m alpha v : list R) 0)
     (fun k => alpha * (nth k u 0 * ((if (k <? m)%nat then 0 else nth (k - m) v 0) - (if (k <? (n - 1) * m)%nat then nth k v 0 else 0))))).
  2:{ intros k Hk. rewrite DyT_RN by done. lra. }
  rewrite Rsum_scal.
  pose proof (parts (fun j => nth j u 0) (fun j => nth j v 0) ((n - 1) * m) m) as P.
  replace (m + (n - 1) * m)%nat with (n * m)%nat in P by nia. rewrite <- P.
  rewrite <- Rsum_scal. 
  assert (EN : (n * m)%nat = ((n - 1) * m + m)%nat) by nia.
  rewrite EN, Rsum_split. rewrite (Rsum_0 m), Rplus_0_r.
  - apply Rsum_ext. intros k Hk. rewrite Dy_RN by lia. rewrite (proj2 (Nat.ltb_lt _ _)) by lia. lra.
  - intros k Hk. rewrite Dy_RN by lia. rewrite (proj2 (Nat.ltb_ge _ _)) by lia. lra.
Qed.

(** ** Compositions *)
Lemma DxTDx_comp n m (alpha : R) (u : list R) :
  (2 <= m)%nat -> length u = (n * m)%nat ->
  @DxTDx_of RN n m alpha u = @DxT_of RN n m alpha (@Dx_of RN n m alpha u).
Proof.
  intros Hm Hu. unfold DxTDx_of, DxT_of, row_of. apply (@tab_ext RN). intros k Hk.
  assert (Hm0 : m <> 0%nat) by lia.
  pose proof (Nat.div_mod k m Hm0) as DM. pose proof (Nat.mod_upper_bound k m Hm0) as MB.
  set (i := (k / m)%nat) in *. set (j := (k mod m)%nat) in *.
  assert (Hi : (i < n)%nat) by nia.
  replace (k - j)%nat with (i * m)%nat by lia.
  assert (HD : forall j', (j' < m)%nat -> nth (i * m + j') (@Dx_of RN n m alpha u : list R) 0 = @ddiff_at RN m alpha u (i * m) j').
  { intros j' Hj'. unfold Dx_of. by rewrite row_of_at. }
  rewrite ddiffT_RN by done. unfold ddiff2_at. rewrite !at_RN, two_RN. cbn [mul sub add opp RN].
  destruct (Nat.eqb_spec j 0) as [Ej|Ej].
  - rewrite Ej. rewrite (proj2 (Nat.ltb_lt 0 1)) by lia. rewrite (proj2 (Nat.ltb_lt 0 (m - 1))) by lia.
    rewrite HD by lia. rewrite ddiff_RN. rewrite (proj2 (Nat.ltb_lt (0 + 1) m)) by lia.
    rewrite !Nat.add_0_r. lra.
  - rewrite (proj2 (Nat.ltb_ge j 1)) by lia. rewrite HD by lia. rewrite ddiff_RN.
    rewrite (proj2 (Nat.ltb_lt (j - 1 + 1) m)) by lia.
    replace (i * m + (j - 1) + 1)%nat with (i * m + j)%nat by lia.
    replace (i * m + (j - 1))%nat with (i * m + j - 1)%nat by lia.
    destruct (Nat.ltb_spec (j + 1) m), (Nat.ltb_spec j (m - 1)); try lia.
    + rewrite HD by lia. rewrite ddiff_RN. rewrite (proj2 (Nat.ltb_lt (j + 1) m)) by lia. lra.
    + lra.
Qed.

Lemma DyTDy_comp n m (alpha : R) (u : list R) :
  (2 <= n)%nat -> length u = (n * m)%nat ->
  @DyTDy_of RN n m alpha u = @DyT_of RN n m alpha (@Dy_of RN n m alpha u).
Proof.
  intros Hn Hu. rewrite <- (@tab_at RN (@DyT_of RN n m alpha (@Dy_of RN n m alpha u))).
  apply (@eq_tab RN).
  { unfold DyTDy_of, DyT_of. by rewrite !(@tab_length RN). }
  intros k Hk. unfold DyT_of in Hk. rewrite (@tab_length RN) in Hk.
  rewrite !at_RN. rewrite DyTDy_RN, DyT_RN by done. rewrite !Dy_RN by lia.
  destruct (Nat.ltb_spec k m); simpl.
  - destruct (Nat.ltb_spec k ((n - 1) * m)); [|nia]. lra.
  - rewrite (proj2 (Nat.ltb_lt (k - m) ((n - 1) * m))) by nia.
    replace (k - m + m)%nat with k by lia.
    destruct (Nat.leb_spec ((n - 1) * m) k), (Nat.ltb_spec k ((n - 1) * m)); try lia; lra.
Qed.

(** ** Norm bounds *)
Lemma sq_sub_le (a b : R) : (a - b) ^ 2 <= 2 * a ^ 2 + 2 * b ^ 2.
Proof. pose proof (pow2_ge_0 (a + b)). nra. Qed.
Lemma sq_diff_bound (x : nat -> R) (n m : nat) :
  Rsum n (fun k => (x (k + m)%nat - x k) ^ 2) <= 4 * Rsum (m + n) (fun k => x k ^ 2).
Proof.
  apply Rle_trans with (Rsum n (fun k => 2 * x (k + m)%nat ^ 2 + 2 * x k ^ 2)).
  { apply Rsum_le. intros i _. apply sq_sub_le. }
  rewrite Rsum_plus, !Rsum_scal.
  assert (Rsum n (fun i => x i ^ 2) <= Rsum (m + n) (fun i => x i ^ 2)).
  { apply Rsum_le_mono; [lia|]. intros; apply pow2_ge_0. }
  assert (Rsum n (fun i => x (i + m)%nat ^ 2) <= Rsum (m + n) (fun i => x i ^ 2)).
  { rewrite (Rsum_shift n m (fun i => x i ^ 2)). apply Rsum_le. intros i _.
    destruct (i <? m)%nat; [apply pow2_ge_0|lra]. }
  lra.
Qed.
Lemma sq_diffT_bound (y : nat -> R) (n m L : nat) : (m + n <= L)%nat ->
  Rsum L (fun k => ((if (k <? m)%nat then 0 else y (k - m)%nat) - (if (k <? n)%nat then y k else 0)) ^ 2)
  <= 4 * Rsum L (fun k => y k ^ 2).
Proof.
  intros HL.
  apply Rle_trans with (Rsum L (fun k => 2 * (if (k <? m)%nat then 0 else y (k - m)%nat ^ 2) + 2 * y k ^ 2)).
  { apply Rsum_le. intros i _. eapply Rle_trans; [apply sq_sub_le|].
    pose proof (pow2_ge_0 (y i)). destruct (i <? m)%nat, (i <? n)%nat; nra. }
  rewrite Rsum_plus, !Rsum_scal.
  assert (Rsum L (fun k => if (k <? m)%nat then 0 else y (k - m)%nat ^ 2) <= Rsum L (fun i => y i ^ 2)).
  { replace L with (m + (L - m))%nat at 1 by lia.
    rewrite <- (Rsum_shift (L - m) m (fun k => y (k - m)%nat ^ 2)).
    rewrite (Rsum_ext (L - m) _ (fun k => y k ^ 2)) by (intros; do 2 f_equal; lia).
    apply Rsum_le_mono; [lia|]. intros; apply pow2_ge_0. }
  lra.
Qed.

Lemma nrm2sq_tab n (f : nat -> R) : nrm2sq (@tab RN n f) = Rsum n (fun i => f i ^ 2).
Proof. unfold nrm2sq. rewrite (@tab_length RN). apply Rsum_ext. intros i Hi. by rewrite nth_tab. Qed.

Lemma Dx_bound n m (alpha : R) (u : list R) :
  (1 <= m)%nat -> length u = (n * m)%nat ->
  nrm2sq (@Dx_of RN n m alpha u) <= 4 * alpha ^ 2 * nrm2sq u.
Proof.
  intros Hm Hu. unfold nrm2sq.
  assert (HL : @length R (@Dx_of RN n m alpha u) = (n * m)%nat) by apply (@tab_length RN).
  rewrite HL, Hu, !Rsum_rows. rewrite <- Rsum_scal. apply Rsum_le. intros i Hi.
  rewrite (Rsum_ext m _ (fun j => (if (j + 1 <? m)%nat then alpha * (nth (i * m + j + 1) u 0 - nth (i * m + j) u 0) else 0) ^ 2)).
  2:{ intros j Hj. unfold Dx_of. rewrite row_of_at by done. by rewrite ddiff_RN. }
  replace m with (m - 1 + 1)%nat at 1 by lia. rewrite Rsum_split. simpl (Rsum 1 _).
  rewrite Nat.add_0_r. rewrite (proj2 (Nat.ltb_ge (m - 1 + 1) m)) by lia.
  rewrite (Rsum_ext (m - 1) _ (fun j => alpha ^ 2 * ((fun j => nth (i * m + j) u 0) (j + 1)%nat - (fun j => nth (i * m + j) u 0) j) ^ 2)).
  2:{ intros j Hj. rewrite (proj2 (Nat.ltb_lt (j + 1) m)) by lia. rewrite Nat.add_assoc. nra. }
  rewrite Rsum_scal.
  pose proof (sq_diff_bound (fun j => nth (i * m + j) u 0) (m - 1) 1) as B.
  replace (1 + (m - 1))%nat with m in B by lia. cbv beta in B |- *.
  assert (0 <= alpha ^ 2) by nra. nra.
Qed.
Lemma DxT_bound n m (alpha : R) (u : list R) :
  (2 <= m)%nat -> length u = (n * m)%nat ->
  nrm2sq (@DxT_of RN n m alpha u) <= 4 * alpha ^ 2 * nrm2sq u.
Proof.
  intros Hm Hu. unfold nrm2sq.
  assert (HL : @length R (@DxT_of RN n m alpha u) = (n * m)%nat) by apply (@tab_length RN).
  rewrite HL, Hu, !Rsum_rows. rewrite <- Rsum_scal. apply Rsum_le. intros i Hi.
  rewrite (Rsum_ext m _ (fun j => alpha ^ 2 * ((if (j <? 1)%nat then 0 else (fun j => nth (i * m + j) u 0) (j - 1)%nat)
      - (if (j <? m - 1)%nat then (fun j => nth (i * m + j) u 0) j else 0)) ^ 2)).
  2:{ intros j Hj. unfold DxT_of. rewrite row_of_at by done. rewrite ddiffT_RN by done. nra. }
  rewrite Rsum_scal.
  pose proof (sq_diffT_bound (fun j => nth (i * m + j) u 0) (m - 1) 1 m ltac:(lia)) as B.
  assert (0 <= alpha ^ 2) by nra. cbv beta in B |- *. nra.
Qed.
Lemma Dy_bound n m (alpha : R) (u : list R) :
  length u = (n * m)%nat ->
  nrm2sq (@Dy_of RN n m alpha u) <= 4 * alpha ^ 2 * nrm2sq u.
Proof.
  intros Hu. unfold nrm2sq.
  assert (HL : @length R (@Dy_of RN n m alpha u) = (n * m)%nat) by apply (@tab_length RN).
  rewrite HL, Hu.
  destruct n as [|n]; [simpl; lra|].
  rewrite (Rsum_ext (S n * m) _ (fun k => if (k <? n * m)%nat then alpha ^ 2 * ((fun k => nth k u 0) (k + m)%nat - (fun k => nth k u 0) k) ^ 2 else 0)).
  2:{ intros k Hk. rewrite Dy_RN by done. replace (S n - 1)%nat with n by lia. destruct (k <? n * m)%nat; nra. }
  replace (S n * m)%nat with (n * m + m)%nat at 1 by lia. rewrite Rsum_split.
  rewrite (Rsum_0 m), Rplus_0_r.
  2:{ intros k Hk. by rewrite (proj2 (Nat.ltb_ge _ _)) by lia. }
  rewrite (Rsum_ext (n * m) _ (fun k => alpha ^ 2 * ((fun k => nth k u 0) (k + m)%nat - (fun k => nth k u 0) k) ^ 2)).
  2:{ intros k Hk. by rewrite (proj2 (Nat.ltb_lt _ _)) by lia. }
  rewrite Rsum_scal.
  pose proof (sq_diff_bound (fun k => nth k u 0) (n * m) m) as B.
  replace (m + n * m)%nat with (S n * m)%nat in B by lia.
  assert (0 <= alpha ^ 2) by nra. cbv beta in B |- *. nra.
Qed.
Lemma DyT_bound n m (alpha : R) (u : list R) :
  length u = (n * m)%nat ->
  nrm2sq (@DyT_of RN n m alpha u) <= 4 * alpha ^ 2 * nrm2sq u.
Proof.
  intros Hu. unfold nrm2sq.
  assert (HL : @length R (@DyT_of RN n m alpha u) = (n * m)%nat) by apply (@tab_length RN).
  rewrite HL, Hu.
  destruct n as [|n]; [simpl; lra|].
  rewrite (Rsum_ext (S n * m) _ (fun k => alpha ^ 2 * ((if (k <? m)%nat then 0 else (fun k => nth k u 0) (k - m)%nat)
      - (if (k <? n * m)%nat then (fun k => nth k u 0) k else 0)) ^ 2)).
  2:{ intros k Hk. rewrite DyT_RN by done. replace (S n - 1)%nat with n by lia. nra. }
  rewrite Rsum_scal.
  pose proof (sq_diffT_bound (fun k => nth k u 0) (n * m) m (S n * m) ltac:(lia)) as B.
  assert (0 <= alpha ^ 2) by nra. cbv beta in B |- *. nra.
Qed.
