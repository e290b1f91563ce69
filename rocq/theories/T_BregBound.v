(** * C93: the iterates of the TV denoiser stay in a fixed ball around the given image. *)
From Coq Require Import ZArith Lia Reals Lra Psatz.
From stdpp Require Import base numbers list.
From Verif Require Import Mem M_Status S_Mem P_Mem P_Loop P_Math P_MathR P_TV P_TVR M_Bregman P_Own P_Bregman P_Breg2 P_Breg3 L_Sum S_Vec S_Img L_Lin L_ER P_CG P_CGR P_BregR P_BregX T_Bregman L_BregBound T_RoundUStep.
Local Open Scope R_scope.

(** ** J sweeps contract towards the target of the residual *)
Section contract.
Context (n m : nat) (mu : R) (Hn : (2 <= n)%nat) (Hm : (2 <= m)%nat) (Hmu : 0 < mu).
Notation NN := (n * m)%nat.
Lemma sweeps_towards J (b u : list R) (t : nat -> R) : length u = NN -> (1 <= J)%nat ->
  (forall k, (k < NN)%nat -> nth k b 0 - nth k (Hop n m mu (2 * mu) u) 0 = mu * (t k - nth k u 0)) ->
  Rsum NN (fun k => (@nth R k (@sweeps RN J n m mu (2 * mu) b u) 0 - t k) ^ 2) <= 164 / 169 * Rsum NN (fun k => (nth k u 0 - t k) ^ 2).
Proof.
  intros Lu HJ H. pose proof (sweeps_progress n m mu (2 * mu) Hn Hm Hmu ltac:(lra) J b u Lu HJ) as P. cbv beta zeta in P.
  set (u' := @sweeps RN J n m mu (2 * mu) b u : list R) in *.
  rewrite (Rsum_ext NN (fun k => (nth k b 0 - nth k (Hop n m mu (2 * mu) u) 0) ^ 2) (fun k => mu ^ 2 * (nth k u 0 - t k) ^ 2)) in P by (intros k Hk; rewrite H by done; ring).
  rewrite (Rsum_ext NN (fun k => (nth k b 0 - nth k (Hop n m mu (2 * mu) u) 0) * (nth k u' 0 - nth k u 0)) (fun k => mu * ((t k - nth k u 0) * (nth k u' 0 - nth k u 0)))) in P by (intros k Hk; rewrite H by done; ring).
  rewrite !Rsum_scal in P.
  assert (E : Rsum NN (fun k => (nth k u' 0 - t k) ^ 2) = Rsum NN (fun k => (nth k u 0 - t k) ^ 2) + Rsum NN (fun k => (nth k u' 0 - nth k u 0) ^ 2) - 2 * Rsum NN (fun k => (t k - nth k u 0) * (nth k u' 0 - nth k u 0))).
  { rewrite <- Rsum_scal, <- Rsum_plus, <- Rsum_minus. apply Rsum_ext. intros k _. ring. }
  rewrite E. set (A := Rsum NN (fun k => (nth k u 0 - t k) ^ 2)) in *. set (B := Rsum NN (fun k => (nth k u' 0 - nth k u 0) ^ 2)) in *. set (C := Rsum NN (fun k => (t k - nth k u 0) * (nth k u' 0 - nth k u 0))) in *.
  replace ((mu + 2 * (2 * mu)) / (2 * (mu + 6 * (2 * mu)) ^ 2) * (mu ^ 2 * A)) with (mu * (5 / 338 * A)) in P by (field; lra).
  replace (mu / 2 * B) with (mu * (B / 2)) in P by field. rewrite <- Rmult_plus_distr_l in P. apply Rmult_le_reg_l in P; lra.
Qed.
End contract.

(** ** sums of squares *)
Lemma young e a b : 0 < e -> (a + b) ^ 2 <= (1 + e) * a ^ 2 + (1 + / e) * b ^ 2.
Proof.
  intros He. assert (0 <= / e * (e * a - b) ^ 2) by (apply Rmult_le_pos; [apply Rlt_le, Rinv_0_lt_compat; lra|apply pow2_ge_0]).
  assert (E : / e * (e * a - b) ^ 2 = e * a ^ 2 + / e * b ^ 2 - 2 * a * b) by (field; lra). rewrite E in H. lra.
Qed.
Lemma young_sum N e (f g : nat -> R) : 0 < e -> Rsum N (fun k => (f k + g k) ^ 2) <= (1 + e) * Rsum N (fun k => f k ^ 2) + (1 + / e) * Rsum N (fun k => g k ^ 2).
Proof. intros He. rewrite <- !Rsum_scal, <- Rsum_plus. apply Rsum_le. intros. by apply young. Qed.
Lemma sumsq_bound N (g : nat -> R) c : 0 <= c -> (forall k, (k < N)%nat -> Rabs (g k) <= c) -> Rsum N (fun k => g k ^ 2) <= INR N * c ^ 2.
Proof. intros Hc H. rewrite <- Rsum_const. apply Rsum_le. intros k Hk. rewrite <- (pow2_abs (g k)). apply pow_incr. split; [apply Rabs_pos|auto]. Qed.

(** ** the transposed differences *)
Lemma DxT_scale n m (l : R) (x : list R) k : (k < n * m)%nat -> @nth R k (@DxT_of RN n m l x) 0 = l * @nth R k (@DxT_of RN n m 1 x) 0.
Proof.
  intros Hk. unfold DxT_of, row_of. change (@T RN) with R. rewrite !nth_tab by done. unfold ddiffT_at.
  destruct (_ =? _)%nat; [|destruct (_ <? _)%nat]; rewrite !at_RN; cbn [mul sub opp RN]; ring.
Qed.
Lemma DyT_scale n m (l : R) (x : list R) k : (k < n * m)%nat -> @nth R k (@DyT_of RN n m l x) 0 = l * @nth R k (@DyT_of RN n m 1 x) 0.
Proof. intros Hk. rewrite !DyT_RN by done. ring. Qed.

Lemma absb x c : Rabs x <= c -> - c <= x <= c.
Proof. intros H. pose proof (Rle_abs x). pose proof (Rle_abs (- x)). rewrite Rabs_Ropp in *. lra. Qed.

(** ** the residual left by an iteration, seen by the next one *)
Section it.
Context (n m : nat) (mu la : R) (Hn : (2 <= n)%nat) (Hm : (2 <= m)%nat) (Hmu : 0 < mu) (Hla : 0 < la).
Context (f : list R) (Lf : length f = (n * m)%nat).
Notation NN := (n * m)%nat.
Lemma rhs_k (dx bx dy by_ : list R) k : (k < NN)%nat ->
  @nth R k (@rhs_of RN n m f dx bx dy by_ mu la) 0 =
  mu * nth k f 0 + @nth R k (@DyT_of RN n m la (@mxpy_of RN NN by_ dy)) 0 + @nth R k (@DxT_of RN n m la (@mxpy_of RN NN bx dx)) 0.
Proof.
  intros Hk. unfold rhs_of. unfold axpy_of. change (@T RN) with R. rewrite !nth_tab by done. rewrite !at_RN. rewrite !nth_tab by done. rewrite !at_RN, one_RN. cbn [add mul RN]. change (@T RN) with R. lra.
Qed.
Lemma Hop_split (u : list R) k : length u = NN -> (k < NN)%nat ->
  nth k (Hop n m mu la u) 0 = mu * nth k u 0 + @nth R k (@DyT_of RN n m la (@Dy_of RN n m (@one RN) u)) 0 + @nth R k (@DxT_of RN n m la (@Dx_of RN n m (@one RN) u)) 0.
Proof. intros Lu Hk. rewrite one_RN. rewrite Hop_D by done. rewrite (DyT_scale n m la), (DxT_scale n m la) by done. done. Qed.
Lemma field_gap (b D : list R) i : length D = NN -> (forall i, Rabs (nth i b 0) <= 1 / la) ->
  let z := @axpy_of RN NN (@one RN) b D in let d := @shrink_of RN NN (@div RN (@one RN) la) z in let b' := @mxpy_of RN NN d z in
  Rabs (@nth R i (@mxpy_of RN NN b' d) 0 - nth i D 0) <= 3 / la.
Proof.
  intros LD Hb z d b'. pose proof (inv_la la Hla) as HI. destruct (decide (i < NN)%nat) as [Hi|Hi].
  - destruct (mult_of n m la Hla z i Hi) as (E1 & E2 & _). fold d in E1, E2. fold b' in E1, E2.
    assert (Ez : @nth R i z 0 = nth i b 0 + nth i D 0). { unfold z, axpy_of. change (@T RN) with R. rewrite nth_tab by done. rewrite !at_RN, one_RN. cbn [add mul RN]. change (@T RN) with R. lra. }
    assert (Ex : @nth R i (@mxpy_of RN NN b' d) 0 = @nth R i d 0 - @nth R i b' 0). { unfold mxpy_of at 1. change (@T RN) with R. rewrite nth_tab by done. rewrite !at_RN. cbn [add opp RN]. change (@T RN) with R. lra. }
    specialize (Hb i). change (@T RN) with R in *. unfold Rdiv in *. apply absb in E2. apply absb in Hb. rewrite Ex. apply Rabs_le. lra.
  - rewrite !nth_overflow; [rewrite Rminus_0_r, Rabs_R0; unfold Rdiv; lra|lia|]. assert (L := @mxpy_of_len RN NN b' d). change (@T RN) with R in *. lia.
Qed.
Definition small (c : @bst RN) : Prop := (forall i, Rabs (@nth R i (b_bx c) 0) <= 1 / la) /\ (forall i, Rabs (@nth R i (b_by c) 0) <= 1 / la).
Lemma small_at J k : small (@breg_at RN n m J mu la f k).
Proof.
  pose proof (inv_la la Hla) as HI. destruct k as [|k].
  - assert (Z : forall i, @nth R i (@const_of RN NN (@zero RN)) 0 = 0).
    { intros i. destruct (decide (i < NN)%nat); [unfold const_of; change (@T RN) with R; rewrite nth_tab by done; apply zero_RN|]. apply nth_overflow. assert (L := @tab_length RN NN (fun _ => @zero RN)). change (@T RN) with R in *. unfold const_of. lia. }
    split; intros i; cbn [breg_at breg_0 b_bx b_by]; rewrite Z, Rabs_R0; unfold Rdiv; lra.
  - destruct (@breg_at_len RN n m J mu la f (S k) Lf) as (_ & _ & _ & _ & Lx & Ly). change (@T RN) with R in *.
    split; intros i; (destruct (decide (i < NN)%nat) as [Hi|Hi]; [|rewrite nth_overflow by (change (@T RN) with R in *; lia); rewrite Rabs_R0; unfold Rdiv; lra]);
    cbn [breg_at]; destruct (iter_mult n m mu la Hla f J (@breg_at RN n m J mu la f k) i Hi) as ((H1 & _) & (H2 & _)); done.
Qed.
Lemma iter_resid J (c : @bst RN) k : small c -> length (b_u c) = NN -> (k < NN)%nat ->
  let c' := @breg_S RN n m J mu la f c in
  Rabs (@nth R k (@rhs_of RN n m f (b_dx c') (b_bx c') (b_dy c') (b_by c') mu la) 0 - nth k (Hop n m mu la (b_u c')) 0 - mu * (nth k f 0 - @nth R k (b_u c') 0)) <= 12.
Proof.
  intros [Sx Sy] Lu Hk c'. destruct (@breg_S_len RN n m J mu la f c Lu) as (Lu' & _). fold c' in Lu'. change (@T RN) with R in *. pose proof (inv_la la Hla) as HI.
  assert (E3 : 0 <= 3 / la) by (unfold Rdiv; lra).
  rewrite rhs_k, Hop_split by done.
  assert (GX := DxT_lip n m la (@mxpy_of RN NN (b_bx c') (b_dx c')) (@Dx_of RN n m (@one RN) (b_u c')) (3 / la) k (Rlt_le _ _ Hla) E3 Hk).
  assert (GY := DyT_lip n m la (@mxpy_of RN NN (b_by c') (b_dy c')) (@Dy_of RN n m (@one RN) (b_u c')) (3 / la) k (Rlt_le _ _ Hla) E3 Hk).
  replace (2 * la * (3 / la)) with 6 in GX, GY by (field; lra). change (@T RN) with R in *.
  assert (GX' := GX (fun i => field_gap (b_bx c) (@Dx_of RN n m (@one RN) (b_u c')) i (@Dx_of_len RN n m (@one RN) _) Sx)).
  assert (GY' := GY (fun i => field_gap (b_by c) (@Dy_of RN n m (@one RN) (b_u c')) i (@Dy_of_len RN n m (@one RN) _) Sy)).
  apply absb in GX', GY'. apply Rabs_le. lra.
Qed.
End it.

(** ** the ball *)
Section ball.
Context (n m : nat) (mu F : R) (Hn : (2 <= n)%nat) (Hm : (2 <= m)%nat) (Hmu : 0 < mu) (HF : 0 <= F).
Context (f : list R) (Lf : length f = (n * m)%nat) (Bf : forall i, Rabs (nth i f 0) <= F).
Notation NN := (n * m)%nat. Notation la := (2 * mu).
Lemma Dx_bound i : Rabs (@nth R i (@Dx_of RN n m (@one RN) f) 0) <= 2 * F.
Proof.
  destruct (decide (i < NN)%nat) as [Hi|Hi].
  - unfold Dx_of, row_of. change (@T RN) with R. rewrite nth_tab by done. unfold ddiff_at. destruct (_ <? _)%nat; [|rewrite zero_RN, Rabs_R0; lra].
    rewrite !at_RN, one_RN. cbn [mul sub RN]. apply Rabs_le.
    match goal with |- context [1 * (nth ?p f 0 - nth ?q f 0)] => pose proof (absb _ _ (Bf p)); pose proof (absb _ _ (Bf q)) end. change (@T RN) with R. lra.
  - rewrite nth_overflow; [rewrite Rabs_R0; lra|]. assert (L := @Dx_of_len RN n m (@one RN) f). change (@T RN) with R in *. lia.
Qed.
Lemma Dy_bound i : Rabs (@nth R i (@Dy_of RN n m (@one RN) f) 0) <= 2 * F.
Proof.
  destruct (decide (i < NN)%nat) as [Hi|Hi].
  - rewrite Dy_RN by done. destruct (_ <? _)%nat; [|rewrite Rabs_R0; lra]. rewrite one_RN. apply Rabs_le. pose proof (absb _ _ (Bf i)). pose proof (absb _ _ (Bf (i + m)%nat)). lra.
  - rewrite nth_overflow; [rewrite Rabs_R0; lra|]. assert (L := @Dy_of_len RN n m (@one RN) f). change (@T RN) with R in *. lia.
Qed.
Lemma zero_gap i : @nth R i (@mxpy_of RN NN (@const_of RN NN (@zero RN)) (@const_of RN NN (@zero RN))) 0 = 0.
Proof.
  destruct (decide (i < NN)%nat) as [Hi|Hi].
  - unfold mxpy_of, const_of. change (@T RN) with R. rewrite nth_tab by done. rewrite !at_RN, !nth_tab by done. rewrite zero_RN. cbn [add opp RN]. change (@T RN) with R. lra.
  - apply nth_overflow. assert (L := @mxpy_of_len RN NN (@const_of RN NN (@zero RN)) (@const_of RN NN (@zero RN))). change (@T RN) with R in *. lia.
Qed.
Lemma first_resid k : (k < NN)%nat -> let c := @breg_0 RN n m f in
  Rabs (@nth R k (@rhs_of RN n m f (b_dx c) (b_bx c) (b_dy c) (b_by c) mu la) 0 - nth k (Hop n m mu la f) 0) <= 16 * mu * F.
Proof.
  intros Hk c. cbn [c breg_0 b_dx b_bx b_dy b_by]. rewrite rhs_k by done. rewrite Hop_split by done. set (z := @mxpy_of RN NN _ _).
  assert (GX := DxT_lip n m la z (@Dx_of RN n m (@one RN) f) (2 * F) k ltac:(lra) ltac:(lra) Hk).
  assert (GY := DyT_lip n m la z (@Dy_of RN n m (@one RN) f) (2 * F) k ltac:(lra) ltac:(lra) Hk).
  change (@T RN) with R in *.
  assert (GX' : Rabs (@nth R k (@DxT_of RN n m la z) 0 - @nth R k (@DxT_of RN n m la (@Dx_of RN n m (@one RN) f)) 0) <= 2 * la * (2 * F)).
  { apply GX. intros i. unfold z. rewrite zero_gap. unfold Rminus. rewrite Rplus_0_l, Rabs_Ropp. apply Dx_bound. }
  assert (GY' : Rabs (@nth R k (@DyT_of RN n m la z) 0 - @nth R k (@DyT_of RN n m la (@Dy_of RN n m (@one RN) f)) 0) <= 2 * la * (2 * F)).
  { apply GY. intros i. unfold z. rewrite zero_gap. unfold Rminus. rewrite Rplus_0_l, Rabs_Ropp. apply Dy_bound. }
  apply absb in GX', GY'. apply Rabs_le. lra.
Qed.
Definition dist2 (u : list R) : R := Rsum NN (fun k => (nth k u 0 - nth k f 0) ^ 2).
Lemma dist2_step J (b u : list R) c : length u = NN -> (1 <= J)%nat -> 0 <= c ->
  (forall k, (k < NN)%nat -> Rabs (nth k b 0 - nth k (Hop n m mu la u) 0 - mu * (nth k f 0 - nth k u 0)) <= mu * c) ->
  dist2 (@sweeps RN J n m mu la b u) <= 99 / 100 * dist2 u + 200 * (INR NN * c ^ 2) /\
  (dist2 u = 0 -> dist2 (@sweeps RN J n m mu la b u) <= 4 * (INR NN * c ^ 2)).
Proof.
  intros Lu HJ Hc H. set (g := fun k => (nth k b 0 - nth k (Hop n m mu la u) 0) / mu + nth k u 0 - nth k f 0).
  assert (Hg : forall k, (k < NN)%nat -> Rabs (g k) <= c).
  { intros k Hk. specialize (H k Hk). apply absb in H. assert (E : mu * g k = nth k b 0 - nth k (Hop n m mu la u) 0 - mu * (nth k f 0 - nth k u 0)) by (unfold g; field; lra).
    rewrite <- E in H. apply Rabs_le. split; apply (Rmult_le_reg_l mu); lra. }
  pose proof (sweeps_towards n m mu Hn Hm Hmu J b u (fun k => nth k f 0 + g k) Lu HJ) as P. cbv beta in P.
  assert (P' := P (fun k Hk => ltac:(unfold g; field; lra))). clear P.
  set (u' := @sweeps RN J n m mu la b u : list R) in *. pose proof (sumsq_bound NN g c Hc Hg) as G.
  set (V := Rsum NN (fun k => (nth k u' 0 - (nth k f 0 + g k)) ^ 2)) in *. set (W := Rsum NN (fun k => (nth k u 0 - (nth k f 0 + g k)) ^ 2)) in *.
  assert (Y1 : forall e, 0 < e -> dist2 u' <= (1 + e) * V + (1 + / e) * Rsum NN (fun k => g k ^ 2)).
  { intros e He. eapply Rle_trans; [|apply (young_sum NN e (fun k => nth k u' 0 - (nth k f 0 + g k)) g He)]. right. apply Rsum_ext. intros k _. ring. }
  assert (Y2 : forall e, 0 < e -> W <= (1 + e) * dist2 u + (1 + / e) * Rsum NN (fun k => g k ^ 2)).
  { intros e He. rewrite (Rsum_ext NN (fun k => g k ^ 2) (fun k => (- g k) ^ 2)) by (intros; ring).
    eapply Rle_trans; [|apply (young_sum NN e (fun k => nth k u 0 - nth k f 0) (fun k => - g k) He)]. right. apply Rsum_ext. intros k _. ring. }
  set (K := Rsum NN (fun k => g k ^ 2)) in *. assert (D0 : 0 <= dist2 u) by (apply Rsum_nonneg; intros; apply pow2_ge_0). assert (K0 : 0 <= K) by (apply Rsum_nonneg; intros; apply pow2_ge_0).
  split.
  - specialize (Y1 (/ 100) ltac:(lra)). specialize (Y2 (/ 100) ltac:(lra)). rewrite Rinv_inv in Y1, Y2. lra.
  - intros Z. specialize (Y1 1 ltac:(lra)). rewrite Rinv_1 in Y1.
    assert (W <= K); [|lra]. unfold W, K. apply Req_le, Rsum_ext. intros k Hk.
    pose proof (Rsum_nonneg_0 NN (fun k => (nth k u 0 - nth k f 0) ^ 2) (fun i _ => pow2_ge_0 _) Z k Hk) as E. cbv beta in E.
    assert (E' : nth k u 0 - nth k f 0 = 0) by (apply Rsqr_0_uniq; unfold Rsqr; lra). replace (nth k u 0) with (nth k f 0) by lra. ring.
Qed.
Lemma dist2_at J k : (1 <= J)%nat -> dist2 (b_u (@breg_at RN n m J mu la f k)) <= INR NN * (1024 * F ^ 2 + 2880000 / mu ^ 2).
Proof.
  intros HJ. assert (N0 : 0 <= INR NN) by apply pos_INR. assert (M2 : 0 < / mu ^ 2) by (apply Rinv_0_lt_compat, pow_lt; lra).
  assert (F2 : 0 <= F ^ 2) by apply pow2_ge_0.
  assert (NF : 0 <= INR NN * F ^ 2) by (by apply Rmult_le_pos). assert (NM : 0 <= INR NN * / mu ^ 2) by (apply Rmult_le_pos; lra).
  assert (D00 : dist2 f = 0) by (apply Rsum_0; intros; ring).
  unfold Rdiv. replace (INR NN * (1024 * F ^ 2 + 2880000 * / mu ^ 2)) with (1024 * (INR NN * F ^ 2) + 2880000 * (INR NN * / mu ^ 2)) by ring.
  induction k as [|[|k] IH].
  - cbn [breg_at breg_0 b_u]. rewrite D00. lra.
  - pose proof (dist2_step J (@rhs_of RN n m f (b_dx (@breg_0 RN n m f)) (b_bx (@breg_0 RN n m f)) (b_dy (@breg_0 RN n m f)) (b_by (@breg_0 RN n m f)) mu la) f (16 * F) Lf HJ ltac:(lra)) as [_ Q].
    + intros k Hk. pose proof (first_resid k Hk) as R1. cbv zeta in R1. eapply Rle_trans; [|eapply Rle_trans; [exact R1|lra]]. right. f_equal. change (@T RN) with R. ring.
    + specialize (Q D00). eapply Rle_trans; [exact Q|]. replace (4 * (INR NN * (16 * F) ^ 2)) with (1024 * (INR NN * F ^ 2)) by ring. lra.
  - set (c := @breg_at RN n m J mu la f (S k)) in *.
    assert (Lc : @length R (b_u c) = NN) by (destruct (@breg_at_len RN n m J mu la f (S k) Lf) as (L & _); exact L).
    assert (M0 : 0 < / mu) by (by apply Rinv_0_lt_compat).
    pose proof (dist2_step J (@rhs_of RN n m f (b_dx c) (b_bx c) (b_dy c) (b_by c) mu la) (b_u c) (12 * / mu) Lc HJ ltac:(lra)) as [Q _].
    + intros i Hi. destruct (@breg_at_len RN n m J mu la f k Lf) as (L & _).
      pose proof (iter_resid n m mu la Hn Hm ltac:(lra) f Lf J (@breg_at RN n m J mu la f k) i (small_at n m mu la Hn Hm ltac:(lra) f Lf J k) L Hi) as R1. cbv zeta in R1.
      eapply Rle_trans; [exact R1|]. right. field. lra.
    + eapply Rle_trans; [exact Q|]. replace (200 * (INR NN * (12 * / mu) ^ 2)) with (28800 * (INR NN * / mu ^ 2)) by (field; lra). lra.
Qed.
End ball.

(** ** C93.  Extended reals: exact arithmetic in which division by zero gives an infinity or NaN.  [Rsum N g] is the sum of g 0 ... g (N-1).
    Whatever the numbers of iterations and of sweeps, the returned image is finite and its mean squared distance from the given image f,
    whose pixels are at most F in absolute value, is at most 1024 F^2 + 2880000 / mu^2. *)
Lemma sweeps_none n m mu la (f : list R) k : b_u (@breg_at RN n m 0 mu la f k) = f.
Proof. induction k as [|k IH]; [done|]. cbn [breg_at breg_S b_u sweeps]. exact IH. Qed.
Theorem C93_iterates_bounded (n m bu bf : nat) (f : list R) (F mu : R) (tol : er) (mi mj : Z) (s : @st ER) :
  0 < mu -> (forall i, (i < n * m)%nat -> Rabs (nth i f 0) <= F) ->
  @breg_call ER n m bu bf (map Fin f) mi mj s -> memory_granted s ->
  exists (u : list R) s', @l1c_breg_anistropic_TV ER (Z.of_nat n) (Z.of_nat m) (Ptr bu 0) (Ptr bf 0) (Fin mu) tol mi mj s = Ok L1C_SUCCESS s' /\
    @seg ER s' (Ptr bu 0) (map Fin u) /\ length u = (n * m)%nat /\
    Rsum (n * m) (fun i => (nth i u 0 - nth i f 0) ^ 2) <= INR (n * m) * (1024 * F ^ 2 + 2880000 / mu ^ 2).
Proof.
  intros Hmu HF [Hn Hm Hf Hmi Hmj Hub Hne Sf Lf Wu Au] HG.
  destruct (proj2 (@breg_run ER s n m bu bf _ (Fin mu) tol mi mj Hf Hub) Hn Hm Hmi Hmj Hne Sf Lf Wu Au HG) as (K & s' & _ & E & Su & _).
  change (map Fin f) with (fin f) in *. rewrite lambda_fin in Su. rewrite breg_at_fin in Su by lra. cbn [bfin b_u] in Su.
  assert (Lf' : length f = (n * m)%nat) by (rewrite <- Lf; symmetry; apply map_length).
  destruct (@breg_at_len RN n m (Z.to_nat mj) mu (2 * mu) f K Lf') as (Lu & _).
  exists (b_u (@breg_at RN n m (Z.to_nat mj) mu (2 * mu) f K)), s'. split; [done|]. split; [exact Su|]. split; [exact Lu|].
  assert (F0 : 0 <= F) by (eapply Rle_trans; [apply Rabs_pos|apply (HF 0%nat); nia]).
  assert (HF' : forall i, Rabs (nth i f 0) <= F).
  { intros i. destruct (decide (i < n * m)%nat); [auto|]. rewrite nth_overflow by lia. by rewrite Rabs_R0. }
  destruct (Z.to_nat mj) as [|J].
  - rewrite sweeps_none. rewrite Rsum_0 by (intros; ring). apply Rmult_le_pos; [apply pos_INR|]. pose proof (pow2_ge_0 F). assert (0 < / mu ^ 2) by (apply Rinv_0_lt_compat, pow_lt; lra). unfold Rdiv. lra.
  - exact (dist2_at n m mu F Hn Hm Hmu F0 f Lf' HF' (S J) K ltac:(lia)).
Qed.
(** a 2 x 3 image with one bright pixel, 20 iterations of 3 sweeps *)
Example C93_case : let f := [0; 0; 250; 0; 0; 0] in let s := @state_of ER [@full ER (map Fin f); @fresh ER 6] in
  @breg_call ER 2 3 1 0 (map Fin f) 20 3 s /\ memory_granted s /\ (forall i, (i < 2 * 3)%nat -> Rabs (nth i f 0) <= 250).
Proof.
  intros f s. split; [|split; [done|]].
  - split; try done; try lia; [apply state_unborn|by apply (@state_of_seg ER)|by eapply (@state_of_wok ER)].
  - intros i Hi. apply Rabs_le. destruct i as [|[|[|[|[|[|]]]]]]; [..|lia]; cbn [nth f]; lra.
Qed.
Print Assumptions C93_iterates_bounded.
