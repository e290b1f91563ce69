(** * C96: the tolerance of the TV denoiser does not bound the distance to the optimum. *)
From Coq Require Import ZArith Lia Reals Lra Psatz.
From stdpp Require Import base numbers list.
From Verif Require Import Mem M_Status S_Mem P_Mem P_Loop P_Math P_MathR P_TV P_TVR M_Bregman P_Own P_Touch P_Bregman P_Breg2 P_Breg3 L_Sum S_Vec S_Img L_Lin L_ER P_CG P_CGR P_BregR P_BregX T_TV T_Bregman.
Local Open Scope R_scope.

Section shifted.
Context (mu K : R) (Hmu : 0 < mu).
(** all images met are K plus a multiple of 1/mu *)
Definition im (a b c d : R) : list R := [K + a * / mu; K + b * / mu; K + c * / mu; K + d * / mu].
Definition tm (a b c d : R) : list R := [a * / mu; b * / mu; c * / mu; d * / mu].
Definition rm (a b c d : R) : list R := [mu * K + a; mu * K + b; mu * K + c; mu * K + d].
Ltac four := apply (list_eq_nth 4); [apply (@tab_length RN)|done|]; intros i Hi.
Ltac cases i := destruct i as [|[|[|[|]]]]; [..|lia].
Lemma gs22 (b0 b1 b2 b3 a0 a1 a2 a3 : R) :
  let g b x y := (b + (x + y) * (2 * mu)) * / (mu + 2 * (2 * mu)) in
  let x0 := g b0 a1 a2 in let x1 := g b1 x0 a3 in let x2 := g b2 a3 x0 in let x3 := g b3 x2 x1 in
  @gs_of RN 2 2 mu (2 * mu) [a0; a1; a2; a3] [b0; b1; b2; b3] = [x0; x1; x2; x3].
Proof.
  intros g x0 x1 x2 x3.
  assert (G : forall (u : list R) k p q, nbrs 2 2 k = [p; q] -> @gs_at RN 2 2 mu (2 * mu) [b0; b1; b2; b3] u k = g (nth k [b0; b1; b2; b3] 0) (nth p u 0) (nth q u 0)).
  { intros u k p q E. rewrite gs_at_RN. unfold g, nbs, dg, deg. rewrite E. cbn [map rsum fold_right length]. change (INR 2) with 2. by rewrite Rplus_0_r. }
  unfold gs_of. change (2 * 2)%nat with 4%nat. rewrite !gs_S. change (@gs_upto RN 2 2 mu (2 * mu) [b0; b1; b2; b3] [a0; a1; a2; a3] 0) with [a0; a1; a2; a3].
  rewrite (G [a0; a1; a2; a3] 0%nat 1%nat 2%nat eq_refl). cbn [nth]. change (g b0 a1 a2) with x0.
  change (<[0%nat := x0]> [a0; a1; a2; a3]) with [x0; a1; a2; a3].
  rewrite (G [x0; a1; a2; a3] 1%nat 0%nat 3%nat eq_refl). cbn [nth]. change (g b1 x0 a3) with x1.
  change (<[1%nat := x1]> [x0; a1; a2; a3]) with [x0; x1; a2; a3].
  rewrite (G [x0; x1; a2; a3] 2%nat 3%nat 0%nat eq_refl). cbn [nth]. change (g b2 a3 x0) with x2.
  change (<[2%nat := x2]> [x0; x1; a2; a3]) with [x0; x1; x2; a3].
  rewrite (G [x0; x1; x2; a3] 3%nat 2%nat 1%nat eq_refl). cbn [nth]. done.
Qed.
Lemma Dx22 a b c d : @Dx_of RN 2 2 (@one RN) (im a b c d) = tm (b - a) 0 (d - c) 0.
Proof. four. cases i; unfold Dx_of, row_of, tab, ddiff_at, at_, zero, one, ofZ; simpl; lra. Qed.
Lemma Dy22 a b c d : @Dy_of RN 2 2 (@one RN) (im a b c d) = tm (c - a) (d - b) 0 0.
Proof. four. rewrite one_RN, Dy_RN by done. cases i; simpl; lra. Qed.
Lemma axpy22 a b c d x y z w : @axpy_of RN 4 (@one RN) (tm a b c d) (tm x y z w) = tm (a + x) (b + y) (c + z) (d + w).
Proof. four. rewrite nth_axpy by done. rewrite one_RN. cases i; simpl; lra. Qed.
Lemma shrink22 a b c d : Rabs a <= 1/2 -> Rabs b <= 1/2 -> Rabs c <= 1/2 -> Rabs d <= 1/2 -> @shrink_of RN 4 (@div RN (@one RN) (2 * mu)) (tm a b c d) = tm 0 0 0 0.
Proof.
  intros Ha Hb Hc Hd. assert (Z : forall x, Rabs x <= 1/2 -> @shrink RN (@div RN (@one RN) (2 * mu)) (x * / mu) = 0 * / mu).
  { intros x Hx. rewrite one_RN. change (@div RN 1 (2 * mu)) with (1 / (2 * mu)). rewrite shrink_RN. replace (1 / (2 * mu)) with (1/2 * / mu) by (field; lra).
    assert (M : 0 < / mu) by (by apply Rinv_0_lt_compat). assert (Hx' : - (1/2) <= x <= 1/2) by (revert Hx; unfold Rabs; destruct (Rcase_abs x); lra). clear Hx. assert (x * / mu <= 1/2 * / mu) by (apply Rmult_le_compat_r; lra).
    assert (- (1/2) * / mu <= x * / mu) by (apply Rmult_le_compat_r; lra).
    destruct (Rle_dec _ _); unfold Rmax; destruct (Rle_dec _ _); lra. }
  four. unfold shrink_of. rewrite nth_tab by done. rewrite at_RN. cases i; cbn [nth tm]; by apply Z.
Qed.
Lemma mxpy22 a b c d : @mxpy_of RN 4 (tm 0 0 0 0) (tm a b c d) = tm a b c d.
Proof. four. unfold mxpy_of. rewrite nth_tab by done. rewrite !at_RN. cases i; simpl; lra. Qed.
Lemma mxpy22' a b c d : @mxpy_of RN 4 (tm a b c d) (tm 0 0 0 0) = tm (- a) (- b) (- c) (- d).
Proof. four. unfold mxpy_of. rewrite nth_tab by done. rewrite !at_RN. cases i; simpl; lra. Qed.
Lemma rhs22 a b c d p q r s : 
  @rhs_of RN 2 2 (im a b c d) (tm 0 0 0 0) (tm p 0 q 0) (tm 0 0 0 0) (tm r s 0 0) mu (2 * mu) =
  rm (a + 2 * (p + r)) (b + 2 * (s - p)) (c + 2 * (q - r)) (d + 2 * (- q - s)).
Proof.
  unfold rhs_of. change (2 * 2)%nat with 4%nat. rewrite !mxpy22'. four.
  rewrite !nth_axpy by done. rewrite one_RN, DyT_RN by done.
  cases i; unfold DxT_of, row_of, tab, ddiffT_at, at_, zero, ofZ; simpl; field; lra.
Qed.
Definition bs (a b c d p q r s : R) : @bst RN := @mkBst RN (im a b c d) (im a b c d) (tm 0 0 0 0) (tm 0 0 0 0) (tm p 0 q 0) (tm r s 0 0).
Let f := im 0 0 0 (5/4).
Lemma step22 (c : @bst RN) a b0 c0 d p q r s :
  b_u c = im a b0 c0 d -> b_dx c = tm 0 0 0 0 -> b_dy c = tm 0 0 0 0 -> b_bx c = tm p 0 q 0 -> b_by c = tm r s 0 0 ->
  let x0 := (2 * (p + r) + 2 * (b0 + c0)) / 5 in let x1 := (2 * (s - p) + 2 * (x0 + d)) / 5 in
  let x2 := (2 * (q - r) + 2 * (d + x0)) / 5 in let x3 := (5/4 + 2 * (- q - s) + 2 * (x2 + x1)) / 5 in
  Rabs (p + (x1 - x0)) <= 1/2 -> Rabs (q + (x3 - x2)) <= 1/2 -> Rabs (r + (x2 - x0)) <= 1/2 -> Rabs (s + (x3 - x1)) <= 1/2 ->
  @breg_S RN 2 2 1 mu (2 * mu) f c = bs x0 x1 x2 x3 (p + (x1 - x0)) (q + (x3 - x2)) (r + (x2 - x0)) (s + (x3 - x1)).
Proof.
  intros E1 E2 E3 E4 E5 x0 x1 x2 x3 H1 H2 H3 H4. unfold breg_S. rewrite E1, E2, E3, E4, E5. unfold f. rewrite rhs22.
  assert (E : @gs_of RN 2 2 mu (2 * mu) (im a b0 c0 d) (rm (0 + 2 * (p + r)) (0 + 2 * (s - p)) (0 + 2 * (q - r)) (5/4 + 2 * (- q - s))) = im x0 x1 x2 x3).
  { unfold im, rm. rewrite gs22. cbv zeta. f_equal; [unfold x0; field; lra|]. f_equal; [unfold x1, x0; field; lra|]. f_equal; [unfold x2, x0; field; lra|]. f_equal. unfold x3, x2, x1, x0. field. lra. }
  cbn [sweeps]. rewrite !E. clear E. change (2 * 2)%nat with 4%nat. rewrite Dx22, Dy22, !axpy22.
  rewrite !Rplus_0_r. assert (A0 : Rabs 0 <= 1/2) by (rewrite Rabs_R0; lra). rewrite !shrink22 by done. rewrite !mxpy22. done.
Qed.
Lemma at1 : @breg_at RN 2 2 1 mu (2 * mu) f 1 = bs 0 (1/2) (1/2) (13/20) (1/2) (3/20) (1/2) (3/20).
Proof.
  assert (Z : @const_of RN (2 * 2) (@zero RN) = tm 0 0 0 0) by (four; rewrite nth_const by done; cases i; unfold tm, zero, ofZ; simpl; lra).
  cbn [breg_at]. unfold breg_0. rewrite Z. erewrite (step22 _ 0 0 0 (5/4) 0 0 0 0); [|unfold f, tm; cbn; try done..| | | |]; [|apply Rabs_le; lra..].
  f_equal; lra.
Qed.
Lemma at2 : @breg_at RN 2 2 1 mu (2 * mu) f 2 = bs (4/5) (11/25) (11/25) (241/500) (7/50) (24/125) (7/50) (24/125).
Proof.
  change (@breg_at RN 2 2 1 mu (2 * mu) f 2) with (@breg_S RN 2 2 1 mu (2 * mu) f (@breg_at RN 2 2 1 mu (2 * mu) f 1)). rewrite at1.
  erewrite (step22 _ 0 (1/2) (1/2) (13/20) (1/2) (3/20) (1/2) (3/20)); [|done..| | | |]; [|apply Rabs_le; lra..].
  f_equal; lra.
Qed.
End shifted.
Lemma obj22 mu K a b c d : 0 < mu -> tvobj 2 2 mu (im mu K 0 0 0 (5/4)) (im mu K a b c d) =
  (Rabs (b - a) + Rabs (d - c) + Rabs (c - a) + Rabs (d - b) + 1/2 * (a ^ 2 + b ^ 2 + c ^ 2 + (d - 5/4) ^ 2)) / mu.
Proof.
  intros H. assert (M : 0 < / mu) by (by apply Rinv_0_lt_compat).
  assert (A : forall x y, Rabs (K + x * / mu - (K + y * / mu)) = Rabs (x - y) * / mu).
  { intros x y. replace (K + x * / mu - (K + y * / mu)) with ((x - y) * / mu) by ring. rewrite Rabs_mult. by rewrite (Rabs_pos_eq (/ mu)) by lra. }
  unfold tvobj, Rsum, when, px, im. cbn [fold_right seq map nth Nat.ltb Nat.leb Nat.add Nat.mul]. cbn. rewrite !A. field. lra.
Qed.
Lemma ratio22 (a b K tol : R) : 0 <= a <= (K * tol) ^ 2 -> 4 * K ^ 2 <= b -> 0 < K -> 0 < tol -> @ltb_ ER (@sqrt_ ER (@div ER (Fin a) (Fin b))) (Fin tol) = true.
Proof.
  intros Ha Hb HK Ht. assert (K2 : 0 < K ^ 2) by (by apply pow_lt). cbn [sqrt_ div ER]. rewrite div_fin by lra.
  assert (Q : 0 <= a / b <= (tol / 2) ^ 2).
  { split; [apply Rmult_le_pos; [lra|left; apply Rinv_0_lt_compat; lra]|]. apply (Rmult_le_reg_r b); [lra|]. unfold Rdiv at 1. rewrite Rmult_assoc, Rinv_l by lra.
    assert (0 <= tol ^ 2) by apply pow2_ge_0. nra. }
  rewrite sqrt_fin by lra. cbn [ltb_ ER er_ltb]. unfold Rltb. destruct (Rlt_dec _ _) as [|H]; [done|exfalso; apply H].
  apply Rle_lt_trans with (tol / 2); [|lra]. rewrite <- (sqrt_pow2 (tol / 2)) by lra. apply sqrt_le_1; lra.
Qed.

(** on an image bright enough for tol the denoiser stops after two iterations *)
Lemma bright22 (mu tol : R) (bu bf : nat) (mi : Z) (s : @st ER) : 0 < mu -> 0 < tol -> (2 <= mi)%Z ->
  @breg_call ER 2 2 bu bf (map Fin (im mu (/ (mu * tol)) 0 0 0 (5/4))) mi 1 s -> memory_granted s ->
  exists s', @l1c_breg_anistropic_TV ER 2 2 (Ptr bu 0) (Ptr bf 0) (Fin mu) (Fin tol) mi 1 s = Ok L1C_SUCCESS s' /\
    @seg ER s' (Ptr bu 0) (map Fin (im mu (/ (mu * tol)) (4/5) (11/25) (11/25) (241/500))).
Proof.
  intros Hmu Htol. set (K := / (mu * tol)). assert (M : 0 < / mu) by (by apply Rinv_0_lt_compat).
  assert (MT : 0 < mu * tol) by (by apply Rmult_lt_0_compat). assert (K0 : 0 < K) by (by apply Rinv_0_lt_compat).
  intros Hmi2 [Hn Hm Hf Hmi Hmj Hub Hne Sf Lf Wu Au] HG.
  destruct (proj2 (@breg_run ER s 2 2 bu bf _ (Fin mu) (Fin tol) mi 1 Hf Hub) Hn Hm Hmi Hmj Hne Sf Lf Wu Au HG) as (k & s' & HK & E & Su & _).
  exists s'. split; [exact E|]. set (f := im mu K 0 0 0 (5/4)) in *. change (map Fin f) with (fin f) in *. rewrite lambda_fin in Su, HK. rewrite breg_at_fin in Su by lra. cbn [bfin b_u] in Su.
  change (Z.to_nat 1) with 1%nat in *.
  assert (EK : k = 2%nat).
  { destruct HK as (KM & KB & KE).
    assert (R1 : ltb_ (@breg_err ER 2 2 1 (Fin mu) (Fin (2 * mu)) (fin f) 1) (Fin tol) = false).
    { unfold breg_err. cbn [Nat.sub]. rewrite !breg_at_fin by lra. cbn [bfin b_u b_u1]. rewrite sqerr_fin, dot_fin.
      cbn [breg_at breg_0 b_u1]. replace (@dot_of RN _ (@const_of RN _ _) (@const_of RN _ _)) with 0; [|rewrite dot_RN; symmetry; apply Rsum_0; intros i Hi; rewrite nth_const by done; rewrite ?zero_RN; ring].
      apply ltb_pnan. apply nn_div0. cbn [nn]. rewrite sqerr_RN. apply Rsum_nonneg. intros; apply pow2_ge_0. }
    assert (R2 : ltb_ (@breg_err ER 2 2 1 (Fin mu) (Fin (2 * mu)) (fin f) 2) (Fin tol) = true).
    { unfold breg_err. cbn [Nat.sub]. rewrite !breg_at_fin by lra. cbn [bfin b_u b_u1]. rewrite sqerr_fin, dot_fin.
      unfold f. rewrite at1, at2 by done. cbn [bs b_u b_u1]. rewrite sqerr_RN, dot_RN. apply (ratio22 _ _ K tol); [..|done|done].
      - split; [apply Rsum_nonneg; intros; apply pow2_ge_0|]. replace (K * tol) with (/ mu) by (unfold K; field; lra). clearbody K. cbn. set (t := / mu) in *. pose proof (Rmult_lt_0_compat _ _ M M). nra.
      - clearbody K. cbn. set (t := / mu) in *. pose proof (Rmult_lt_0_compat _ _ K0 M). nra. }
    destruct (decide (k = 2%nat)) as [|Hk2]; [done|exfalso]. destruct (decide (k < 2)%nat) as [Hlt|Hge].
    - destruct KE as [->|[K1 KT]]; [lia|]. replace k with 1%nat in KT by lia. by rewrite R1 in KT.
    - specialize (KB 2%nat ltac:(lia)). by rewrite R2 in KB. }
  subst k. unfold f in Su. rewrite at2 in Su by done. exact Su.
Qed.

(** ** C96, refuted.  Extended reals.  "An image returned because the relative change fell below tol has an objective within g(tol) of the optimum,
    with g(tol) small for small tol" fails for every g: for all mu, tol > 0 there are a 2 x 2 image f and an image u such that the denoiser, with one sweep per iteration,
    returns u however many iterations it is allowed, while the objective |Dx u|_1 + |Dy u|_1 + mu/2 |u - f|^2 ([tvobj]) exceeds that of another image v by at least 1/mu.
    The test is relative to the norm of u, so a bright enough image passes it after two iterations. *)
Theorem C96_tolerance_bounds_excess_refuted (mu tol : R) : 0 < mu -> 0 < tol ->
  exists f u v : list R, length f = 4%nat /\ length u = 4%nat /\ length v = 4%nat /\ tvobj 2 2 mu f v + 1 / mu <= tvobj 2 2 mu f u /\
  forall (bu bf : nat) (mi : Z) (s : @st ER), (2 <= mi)%Z -> @breg_call ER 2 2 bu bf (map Fin f) mi 1 s -> memory_granted s ->
    exists s', @l1c_breg_anistropic_TV ER 2 2 (Ptr bu 0) (Ptr bf 0) (Fin mu) (Fin tol) mi 1 s = Ok L1C_SUCCESS s' /\ @seg ER s' (Ptr bu 0) (map Fin u).
Proof.
  intros Hmu Htol. set (K := / (mu * tol)). assert (M : 0 < / mu) by (by apply Rinv_0_lt_compat).
  assert (MT : 0 < mu * tol) by (by apply Rmult_lt_0_compat). assert (K0 : 0 < K) by (by apply Rinv_0_lt_compat).
  exists (im mu K 0 0 0 (5/4)), (im mu K (4/5) (11/25) (11/25) (241/500)), (im mu K (5/16) (5/16) (5/16) (5/16)).
  split; [done|]. split; [done|]. split; [done|]. split.
  { rewrite !obj22 by done. unfold Rdiv. rewrite <- Rmult_plus_distr_r. apply Rmult_le_compat_r; [lra|].
    replace (5 * / 16 - 5 * / 16) with 0 by lra. rewrite Rabs_R0.
    rewrite (Rabs_left (11 * / 25 - 4 * / 5)) by lra. rewrite (Rabs_pos_eq (241 * / 500 - 11 * / 25)) by lra. lra. }
  intros bu bf mi s. apply bright22; done.
Qed.
(** memory and call for any 2 x 2 image f, 20 iterations; for mu = 1 and tol = 1/1000 the proof takes f = 1000 1000 1000 1001.25 *)
Example C96_case : forall f : list R, length f = 4%nat -> let s := @state_of ER [@full ER (map Fin f); @fresh ER 4] in
  @breg_call ER 2 2 1 0 (map Fin f) 20 1 s /\ memory_granted s.
Proof.
  intros f L s. split; [|done].
  split; try done; try lia; [apply state_unborn|by apply (@state_of_seg ER)|cbn [T ER]; by rewrite map_length|by eapply (@state_of_wok ER)].
Qed.
