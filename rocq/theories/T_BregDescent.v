(** * C94: a Gauss-Seidel sweep is exact coordinate descent on the objective of the u-step. *)
From Coq Require Import ZArith Lia Reals Lra Psatz.
From stdpp Require Import base numbers list.
From Verif Require Import Mem S_Mem P_Mem P_Loop P_Math P_MathR P_TV P_TVR M_Bregman P_Own P_Touch P_Bregman P_Breg2 L_Sum S_Vec S_Img L_Lin P_CG P_CGR P_BregR P_BregX T_TV T_Bregman L_BregBound T_RoundUStep T_BregBound.
Local Open Scope R_scope.

(** ** specification: the function of v that the u-step of the split Bregman iteration is to minimise,
      mu/2 |v - f|^2 + la/2 |dx - Dx v - bx|^2 + la/2 |dy - Dy v - by|^2,
    with Dx and Dy the forward differences (zero at the last column or row) *)
Definition usub (n m : nat) (mu la : R) (f dx bx dy by_ v : list R) : R :=
  Rsum n (fun i => Rsum m (fun j =>
    mu / 2 * (px m v i j - px m f i j) ^ 2 +
    la / 2 * (px m dx i j - when (j + 1 <? m)%nat (px m v i (j + 1) - px m v i j) - px m bx i j) ^ 2 +
    la / 2 * (px m dy i j - when (i + 1 <? n)%nat (px m v (i + 1) j - px m v i j) - px m by_ i j) ^ 2)).
(** number of neighbours of pixel (i,j) *)
Definition nbr_count (n m i j : nat) : R :=
  when (j + 1 <? m)%nat 1 + when (0 <? j)%nat 1 + when (i + 1 <? n)%nat 1 + when (0 <? i)%nat 1.

Section descent.
Context (n m : nat) (mu la : R) (Hn : (2 <= n)%nat) (Hm : (2 <= m)%nat) (Hmu : 0 < mu) (Hla : 0 < la).
Context (f dx bx dy by_ : list R).
Notation NN := (n * m)%nat.
Definition wx : list R := @mxpy_of RN NN bx dx.
Definition wy : list R := @mxpy_of RN NN by_ dy.
Lemma w_k (b d : list R) k : (k < NN)%nat -> @nth R k (@mxpy_of RN NN b d) 0 = nth k d 0 - nth k b 0.
Proof. intros Hk. unfold mxpy_of. change (@T RN) with R. rewrite nth_tab by done. rewrite !at_RN. cbn [add opp RN]. change (@T RN) with R. lra. Qed.
Lemma Dx_px (v : list R) i j : (i < n)%nat -> (j < m)%nat -> @nth R (i * m + j) (@Dx_of RN n m 1 v) 0 = when (j + 1 <? m)%nat (px m v i (j + 1) - px m v i j).
Proof.
  intros Hi Hj. unfold Dx_of. change (@T RN) with R. rewrite row_of_at by done. rewrite ddiff_RN. unfold when, px. destruct (_ <? _)%nat; [|done].
  rewrite Nat.add_assoc. ring.
Qed.
Lemma Dy_px (v : list R) i j : (i < n)%nat -> (j < m)%nat -> @nth R (i * m + j) (@Dy_of RN n m 1 v) 0 = when (i + 1 <? n)%nat (px m v (i + 1) j - px m v i j).
Proof.
  intros Hi Hj. rewrite Dy_RN by nia. unfold when, px.
  assert (E : (i * m + j <? (n - 1) * m)%nat = (i + 1 <? n)%nat). { destruct (Nat.ltb_spec (i + 1) n); [apply Nat.ltb_lt|apply Nat.ltb_ge]; nia. }
  rewrite E. destruct (i + 1 <? n)%nat; [|ring]. replace (i * m + j + m)%nat with ((i + 1) * m + j)%nat by lia. ring.
Qed.
Lemma usub_flat (v : list R) : usub n m mu la f dx bx dy by_ v = Rsum NN (fun k =>
  mu / 2 * (nth k v 0 - nth k f 0) ^ 2 + la / 2 * (@nth R k (@Dx_of RN n m 1 v) 0 - nth k wx 0) ^ 2 + la / 2 * (@nth R k (@Dy_of RN n m 1 v) 0 - nth k wy 0) ^ 2).
Proof.
  rewrite Rsum_rows. unfold usub. apply Rsum_ext. intros i Hi. apply Rsum_ext. intros j Hj.
  rewrite Dx_px, Dy_px by done. unfold wx, wy. rewrite !w_k by nia. unfold px. ring.
Qed.
Lemma usub_En (v : list R) : length v = NN ->
  usub n m mu la f dx bx dy by_ v = En n m mu la (@rhs_of RN n m f dx bx dy by_ mu la) v +
    Rsum NN (fun k => mu / 2 * nth k f 0 ^ 2 + la / 2 * nth k wx 0 ^ 2 + la / 2 * nth k wy 0 ^ 2).
Proof.
  intros Lv. rewrite usub_flat. unfold En. rewrite Qf_form by done.
  assert (AX := Dx_adjoint n m 1 v wx Hm Lv (@mxpy_of_len RN NN bx dx)). assert (AY := Dy_adjoint n m 1 v wy ltac:(lia) Lv (@mxpy_of_len RN NN by_ dy)).
  unfold dot in AX, AY |- *. rewrite Lv in AX, AY. assert (LX := @Dx_of_len RN n m 1 v). assert (LY := @Dy_of_len RN n m 1 v). change (@T RN) with R in *. rewrite LX in AX |- *. rewrite LY in AY |- *.
  rewrite (Rsum_ext NN (fun k => @nth R k (@rhs_of RN n m f dx bx dy by_ mu la) 0 * nth k v 0)
    (fun k => mu * (nth k f 0 * nth k v 0) + la * (nth k v 0 * @nth R k (@DyT_of RN n m 1 wy) 0) + la * (nth k v 0 * @nth R k (@DxT_of RN n m 1 wx) 0))).
  2:{ intros k Hk. change (@T RN) with R. rewrite rhs_k by done. rewrite (DyT_scale n m la), (DxT_scale n m la) by done. unfold wx, wy. ring. }
  set (X := @Dx_of RN n m 1 v : list R) in *. set (Y := @Dy_of RN n m 1 v : list R) in *.
  rewrite (Rsum_ext NN _ (fun k => mu / 2 * (nth k v 0 * nth k v 0) + - (mu * (nth k f 0 * nth k v 0)) + la / 2 * (nth k X 0 * nth k X 0) + - (la * (nth k X 0 * nth k wx 0)) +
    la / 2 * (nth k Y 0 * nth k Y 0) + - (la * (nth k Y 0 * nth k wy 0)) + (mu / 2 * nth k f 0 ^ 2 + la / 2 * nth k wx 0 ^ 2 + la / 2 * nth k wy 0 ^ 2))) by (intros k _; field).
  rewrite !Rsum_plus, !Rsum_opp, !Rsum_scal. rewrite <- AX, <- AY. lra.
Qed.
End descent.

Theorem C94_sweep_descends (n m : nat) (mu la : R) (f dx bx dy by_ b u : list R) (s : @st RN) (U B : ptr) :
  (2 <= n)%nat -> (2 <= m)%nat -> fits n m -> 0 < mu -> 0 < la -> length b = (n * m)%nat -> length u = (n * m)%nat ->
  (* b is the right-hand side of the u-step *)
  (forall i j, (i < n)%nat -> (j < m)%nat -> px m b i j = rhs_at n m mu la f dx bx dy by_ i j) ->
  @seg RN s U u -> @seg RN s B b -> disj U (n * m) B (n * m) ->
  let obj := usub n m mu la f dx bx dy by_ in
  exists u' : list R, length u' = (n * m)%nat /\
    @breg_anis_guass_seidel RN (Z.of_nat n) (Z.of_nat m) U B mu la s = Ok tt (@wr RN U u' s) /\
    obj u' = obj u - Rsum n (fun i => Rsum m (fun j => (mu + nbr_count n m i j * la) / 2 * (px m u' i j - px m u i j) ^ 2)) /\
    obj u' <= obj u /\ (obj u' = obj u -> u' = u /\ solves n m mu la b u /\ forall v, length v = (n * m)%nat -> obj u <= obj v).
Proof.
  intros Hn Hm Hfit Hmu Hla Lb Lu Hb SU SB HD obj.
  assert (EB : b = @rhs_of RN n m f dx bx dy by_ mu la).
  { apply (list_eq_nth (n * m)); [done|apply (@rhs_of_len RN)|]. intros k Hk. destruct (pos_ij n m Hn Hm k Hk) as (i & j & Hi & Hj & ->).
    pose proof (rhs_at_of n m mu la f dx bx dy by_ i j Hn Hm Hi Hj) as E. rewrite <- Hb in E by done. unfold px in E. by symmetry. }
  exists (@gs_of RN n m mu la u b).
  assert (Lg : length (@gs_of RN n m mu la u b) = (n * m)%nat) by (by rewrite (@gs_of_len RN)). split; [exact Lg|].
  split; [by apply (@gs_run RN)|].
  set (u' := @gs_of RN n m mu la u b : list R) in *.
  assert (OE : forall v, length v = (n * m)%nat -> obj v = En n m mu la b v + Rsum (n * m) (fun k => mu / 2 * nth k f 0 ^ 2 + la / 2 * nth k (wx n m dx bx) 0 ^ 2 + la / 2 * nth k (wy n m dy by_) 0 ^ 2)).
  { intros v Lv. rewrite EB. exact (usub_En n m mu la Hn Hm f dx bx dy by_ v Lv). }
  pose proof (En_sweep n m mu la Hn Hm Hmu Hla b u Lu) as ES. fold u' in ES.
  assert (OS : obj u' = obj u - Rsum (n * m) (fun k => (mu + dg n m k * la) / 2 * (nth k u' 0 - nth k u 0) ^ 2)) by (rewrite !OE by done; lra).
  assert (P0 : forall k, (k < n * m)%nat -> 0 <= (mu + dg n m k * la) / 2 * (nth k u' 0 - nth k u 0) ^ 2).
  { intros k _. pose proof (den_pos n m mu la Hmu Hla k). apply Rmult_le_pos; [lra|apply pow2_ge_0]. }
  split; [|split].
  - rewrite OS. f_equal. rewrite Rsum_rows. apply Rsum_ext. intros i Hi. apply Rsum_ext. intros j Hj. by rewrite dg_ij.
  - pose proof (Rsum_nonneg _ _ P0). lra.
  - intros E. assert (EQ : u' = u).
    { apply (list_eq_nth (n * m)); [done|done|]. intros k Hk. pose proof (Rsum_nonneg_0 _ _ P0 ltac:(lra) k Hk) as Z. cbv beta in Z.
      pose proof (den_pos n m mu la Hmu Hla k). apply Rmult_integral in Z as [Z|Z]; [lra|]. assert (nth k u' 0 - nth k u 0 = 0) by (apply Rsqr_0_uniq; unfold Rsqr; lra). lra. }
    assert (SV : solves n m mu la b u) by (apply (gs_fix n m mu la Hn Hm Hmu Hla b u Lu); exact EQ).
    split; [done|]. split; [done|]. intros v Lv. rewrite !OE by done.
    assert (HY : exists y : list R, length y = (n * m)%nat /\ forall k, (k < n * m)%nat -> nth k y 0 = nth k v 0 - nth k u 0).
    { exists (@tab RN (n * m) (fun k => nth k v 0 - nth k u 0)). split; [apply (@tab_length RN)|]. intros k Hk. by rewrite nth_tab. }
    destruct HY as (y & Ly & Ey).
    rewrite (En_step n m mu la Hn Hm b u y v Lu Ly Lv) by (intros q Hq; rewrite Ey by done; lra).
    rewrite (Rsum_0 (n * m) (fun k => (nth k b 0 - nth k (Hop n m mu la u) 0) * nth k y 0)). 2:{ intros k Hk. rewrite Hop_k by done. rewrite (proj1 (solves_k n m mu la Hn Hm b u) SV) by done. ring. }
    pose proof (Qf_pos n m mu la Hn Hm Hla y Ly) as QP. assert (0 <= mu * Rsum (n * m) (fun k => nth k y 0 ^ 2)) by (apply Rmult_le_pos; [lra|apply Rsum_nonneg; intros; apply pow2_ge_0]). lra.
Qed.
(** a 2 x 2 image with one bright pixel at the start of the iteration (all split variables zero), mu = 1, lambda = 2: the right-hand side is the image *)
Example C94_case : let f := [0; 0; 0; 8] in let z := [0; 0; 0; 0] in let s := @state_of RN [@full RN f; @full RN f] in
  (forall i j, (i < 2)%nat -> (j < 2)%nat -> px 2 f i j = rhs_at 2 2 1 2 f z z z z i j) /\
  @seg RN s (Ptr 1 0) f /\ @seg RN s (Ptr 0 0) f /\ disj (Ptr 1 0) 4 (Ptr 0 0) 4 /\ usub 2 2 1 2 f z z z z f = 128 /\ ~ solves 2 2 1 2 f f.
Proof.
  intros f z s. split; [|split; [by apply (@state_of_seg RN)|split; [by apply (@state_of_seg RN)|split; [by left|split]]]].
  - intros i j Hi Hj. unfold rhs_at, px, when. destruct i as [|[|]]; [..|lia]; (destruct j as [|[|]]; [..|lia]); cbn; lra.
  - unfold usub, px, when. cbn. lra.
  - intros H. specialize (H 0%nat 1%nat ltac:(lia) ltac:(lia)). unfold tvop_at, px, when in H. cbn in H. lra.
Qed.
Print Assumptions C94_sweep_descends.
