(** * C95: an iteration of the TV denoiser that changes little ends near the optimum. *)
From Coq Require Import ZArith Lia Reals Lra Psatz.
From stdpp Require Import base numbers list.
From Verif Require Import Mem M_Status S_Mem P_Mem P_Loop P_Math P_MathR P_TV P_TVR M_Bregman P_Own P_Touch P_Bregman P_Breg2 P_Breg3 L_Sum S_Vec S_Img L_Lin L_ER P_CG P_CGR P_BregR P_BregX T_TV T_Bregman L_BregBound T_RoundUStep T_BregBound T_BregDescent.
Local Open Scope R_scope.

Lemma fin_max N (g : nat -> R) : (1 <= N)%nat -> exists k0, (k0 < N)%nat /\ forall k, (k < N)%nat -> g k <= g k0.
Proof.
  induction N as [|[|N] IH]; intros H; [lia|exists 0%nat; split; [lia|]; intros k Hk; replace k with 0%nat by lia; lra|].
  destruct (IH ltac:(lia)) as (k0 & H0 & HM). destruct (Rle_dec (g (S N)) (g k0)) as [L|L].
  - exists k0. split; [lia|]. intros k Hk. destruct (decide (k = S N)) as [->|]; [done|]. apply HM. lia.
  - exists (S N). split; [lia|]. intros k Hk. destruct (decide (k = S N)) as [->|]; [lra|]. specialize (HM k ltac:(lia)). lra.
Qed.
Lemma pow89 j : (1 <= j)%nat -> (8 / 9) ^ j <= 8 / 9.
Proof.
  intros H. destruct j as [|j]; [lia|]. change ((8 / 9) ^ S j) with (8 / 9 * (8 / 9) ^ j). assert ((8 / 9) ^ j <= 1); [|lra]. rewrite <- (pow1 j). apply pow_incr. lra.
Qed.
Lemma e9 E a b q U : E <= a + b -> a <= U -> b <= q -> q <= 8 / 9 * E -> E <= 9 * U.
Proof. lra. Qed.
(** one entry of the l1 norm: p is a subgradient at d, a is near d *)
Lemma l1_entry p d a e B : Rabs p <= 1 -> p * d = Rabs d -> Rabs (a - d) <= B -> Rabs a + p * (e - a) - 2 * B <= Rabs e.
Proof.
  intros Hp Hd Ha. pose proof (Rabs_pos (a - d)).
  assert (H1 : p * e <= Rabs e).
  { eapply Rle_trans; [apply Rle_abs|]. rewrite Rabs_mult. pose proof (Rabs_pos e). rewrite <- (Rmult_1_l (Rabs e)) at 2. apply Rmult_le_compat_r; lra. }
  assert (H2 : Rabs a <= Rabs d + B). { replace a with (d + (a - d)) by ring. eapply Rle_trans; [apply Rabs_triang|]. lra. }
  assert (H3 : p * (d - a) <= B).
  { eapply Rle_trans; [apply Rle_abs|]. rewrite Rabs_mult, Rabs_minus_sym. apply (Rle_trans _ (1 * Rabs (a - d))); [apply Rmult_le_compat_r; lra|lra]. }
  lra.
Qed.

Section near.
Context (n m : nat) (mu : R) (Hn : (2 <= n)%nat) (Hm : (2 <= m)%nat) (Hmu : 0 < mu).
Context (f : list R) (J : nat) (HJ : (1 <= J)%nat) (c : @bst RN) (Lf : length f = (n * m)%nat) (Lc : length (b_u c) = (n * m)%nat).
Notation NN := (n * m)%nat. Notation la := (2 * mu).
Let c' := @breg_S RN n m J mu la f c.
Context (U D B : R).
Context (HU : forall i, (i < NN)%nat -> Rabs (@nth R i (b_u c') 0 - @nth R i (b_u c) 0) <= U).
Context (HDx : forall i, Rabs (@nth R i (b_dx c') 0 - @nth R i (b_dx c) 0) <= D) (HDy : forall i, Rabs (@nth R i (b_dy c') 0 - @nth R i (b_dy c) 0) <= D).
Context (HBx : forall i, (i < NN)%nat -> Rabs (@nth R i (b_bx c') 0 - @nth R i (b_bx c) 0) <= B) (HBy : forall i, (i < NN)%nat -> Rabs (@nth R i (b_by c') 0 - @nth R i (b_by c) 0) <= B).
Let rs := @rhs_of RN n m f (b_dx c) (b_bx c) (b_dy c) (b_by c) mu la.
Let u' : list R := b_u c'.
Notation dx1 u := (@Dx_of RN n m 1 u). Notation dy1 u := (@Dy_of RN n m 1 u).
Notation dxT1 u := (@DxT_of RN n m 1 u). Notation dyT1 u := (@DyT_of RN n m 1 u).
Lemma Lu' : length u' = NN. Proof. destruct (@breg_S_len RN n m J mu la f c Lc) as (L & _). exact L. Qed.
(** the linear system is solved up to the change of u *)
Lemma resid_small k : (k < NN)%nat -> Rabs (nth k (Hop n m mu la u') 0 - @nth R k rs 0) <= 136 * mu * U.
Proof.
  intros Hk. pose proof Lu' as L'. assert (Hla : 0 < la) by lra.
  destruct (solves_exists n m mu la Hn Hm Hmu Hla rs) as (v & Lv & Hv); [apply (@rhs_of_len RN)|].
  destruct (fin_max NN (fun k => Rabs (nth k (b_u c) 0 - nth k v 0)) ltac:(nia)) as (k0 & H0 & HM). set (E := Rabs (nth k0 (b_u c) 0 - nth k0 v 0)) in *.
  assert (E0 : 0 <= E) by apply Rabs_pos.
  assert (Q : qq mu la = 8 / 9) by (unfold qq; field; lra).
  pose proof (sweeps_contract n m mu la Hn Hm Hmu Hla J rs (b_u c) v E Lc E0 Hv HM) as C. rewrite Q in C. change (@sweeps RN J n m mu la rs (b_u c)) with u' in C.
  assert (QJ : (8 / 9) ^ J * E <= 8 / 9 * E).
  { apply Rmult_le_compat_r; [done|]. apply pow89. done. }
  assert (E9 : E <= 9 * U).
  { pose proof (C k0 H0) as C0. pose proof (HU k0 H0) as U0. change (@nth R k0 (b_u c') 0) with (nth k0 u' 0) in U0. change (@T RN) with R in *.
    refine (e9 E _ _ _ U _ U0 C0 QJ).
    unfold E. rewrite (Rabs_minus_sym (nth k0 u' 0)). eapply Rle_trans; [|apply Rabs_triang]. right. f_equal. ring. }
  assert (W : forall q, (q < NN)%nat -> Rabs (nth q u' 0 - nth q v 0) <= 8 * U) by (intros q Hq; specialize (C q Hq); change (@T RN) with R in *; lra).
  apply solves_Hop in Hv; [|done..|apply (@rhs_of_len RN)]. rewrite <- Hv. rewrite !Hop_k by done.
  assert (U0 : 0 <= U) by (eapply Rle_trans; [apply Rabs_pos|apply (HU k Hk)]).
  pose proof (rsum_diff u' v (8 * U) (nbrs n m k) ltac:(lra) (fun q Hq => W q (nbrs_lt n m Hn Hm k q Hk Hq))) as ND.
  change (Rabs (nbs n m u' k - nbs n m v k) <= dg n m k * (8 * U)) in ND.
  pose proof (dg_le4 n m Hn Hm k) as D4. pose proof (dg_pos n m k) as D0.
  assert (ND' : dg n m k * (8 * U) <= 32 * U) by (apply (Rle_trans _ (4 * (8 * U))); [apply Rmult_le_compat_r; lra|lra]).
  assert (W1 : Rabs ((mu + dg n m k * la) * (nth k u' 0 - nth k v 0)) <= 9 * mu * (8 * U)).
  { rewrite Rabs_mult. apply Rmult_le_compat; try apply Rabs_pos; [|by apply W]. assert (0 <= dg n m k * la <= 4 * la) by (split; [apply Rmult_le_pos|apply Rmult_le_compat_r]; lra). rewrite Rabs_pos_eq; lra. }
  assert (W2 : Rabs (la * (nbs n m u' k - nbs n m v k)) <= la * (32 * U)) by (rewrite Rabs_mult, Rabs_pos_eq by lra; apply Rmult_le_compat_l; lra).
  apply absb in W1, W2. apply Rabs_le. lra.
Qed.
(** the multipliers nearly balance the misfit *)
Lemma grad_small k : (k < NN)%nat ->
  Rabs (mu * (nth k u' 0 - nth k f 0) + la * @nth R k (dxT1 (b_bx c')) 0 + la * @nth R k (dyT1 (b_by c')) 0) <= mu * (8 * D + 136 * U).
Proof.
  intros Hk. assert (Hla : 0 < la) by lra. pose proof (resid_small k Hk) as RS. pose proof Lu' as L'.
  rewrite Hop_split in RS by done. unfold rs in RS. rewrite rhs_k in RS by done.
  assert (D0 : 0 <= D) by (eapply Rle_trans; [apply Rabs_pos|apply (HDx 0)]).
  assert (GX := DxT_lip n m la (@mxpy_of RN NN (b_bx c) (b_dx c)) (@mxpy_of RN NN (b_bx c') (@Dx_of RN n m (@one RN) u')) D k (Rlt_le _ _ Hla) D0 Hk).
  assert (GY := DyT_lip n m la (@mxpy_of RN NN (b_by c) (b_dy c)) (@mxpy_of RN NN (b_by c') (@Dy_of RN n m (@one RN) u')) D k (Rlt_le _ _ Hla) D0 Hk).
  change (@T RN) with R in *.
  assert (K : forall (b dd Du : list R) (dp bp : list R), (forall i, Rabs (nth i dp 0 - nth i dd 0) <= D) -> (forall i, (i < NN)%nat -> nth i bp 0 = nth i b 0 + nth i Du 0 - nth i dp 0) ->
     forall i, Rabs (@nth R i (@mxpy_of RN NN b dd) 0 - @nth R i (@mxpy_of RN NN bp Du) 0) <= D).
  { intros b dd Du dp bp H1 H2 i. destruct (decide (i < NN)%nat) as [Hi|Hi].
    - rewrite !w_k by done. rewrite H2 by done. specialize (H1 i). rewrite Rabs_minus_sym in H1. eapply Rle_trans; [|exact H1]. right. f_equal. ring.
    - rewrite !nth_overflow; [rewrite Rminus_0_r, Rabs_R0; done| |]; rewrite (@mxpy_of_len RN); lia. }
  assert (EB : forall (bb DD : list R) i, (i < NN)%nat -> let z := @axpy_of RN NN (@one RN) bb DD in let d := @shrink_of RN NN (@div RN (@one RN) la) z in
     @nth R i (@mxpy_of RN NN d z) 0 = nth i bb 0 + nth i DD 0 - @nth R i d 0).
  { intros bb DD i Hi z d. rewrite w_k by done. unfold z at 1, axpy_of. change (@T RN) with R. rewrite nth_tab by done. rewrite !at_RN, one_RN. cbn [add mul RN]. change (@T RN) with R. lra. }
  assert (GX' := GX (K (b_bx c) (b_dx c) (@Dx_of RN n m (@one RN) u') (b_dx c') (b_bx c') HDx (fun i Hi => EB (b_bx c) (@Dx_of RN n m (@one RN) u') i Hi))).
  assert (GY' := GY (K (b_by c) (b_dy c) (@Dy_of RN n m (@one RN) u') (b_dy c') (b_by c') HDy (fun i Hi => EB (b_by c) (@Dy_of RN n m (@one RN) u') i Hi))).
  assert (TX := dxT_lin n m la Hn Hm f J HJ Lf (b_bx c') (@Dx_of RN n m (@one RN) u') k Hk). assert (TY := dyT_lin n m la Hn Hm f J HJ Lf (b_by c') (@Dy_of RN n m (@one RN) u') k Hk).
  change (@T RN) with R in *. rewrite TX in GX'. rewrite TY in GY'. rewrite (DxT_scale n m la (@Dx_of RN n m (@one RN) u')), (DyT_scale n m la (@Dy_of RN n m (@one RN) u')) in RS by done.
  apply absb in RS, GX', GY'. apply Rabs_le. lra.
Qed.
Lemma near_min (v : list R) : length v = NN ->
  tvobj n m mu f u' + mu / 4 * Rsum NN (fun k => (nth k v 0 - nth k u' 0) ^ 2) <= tvobj n m mu f v + INR NN * (mu * (8 * D + 136 * U) ^ 2 + 4 * B).
Proof.
  intros Lv. pose proof Lu' as L'. assert (Hla : 0 < la) by lra. rewrite !(tvobj_alt n m mu Hn Hm f J HJ Lf). unfold l1.
  assert (ED : forall (bb DD : list R) i, (i < NN)%nat -> let z := @axpy_of RN NN (@one RN) bb DD in let d := @shrink_of RN NN (@div RN (@one RN) la) z in
     nth i DD 0 - @nth R i d 0 = @nth R i (@mxpy_of RN NN d z) 0 - nth i bb 0).
  { intros bb DD i Hi z d. rewrite w_k by done. assert (Ez : @nth R i z 0 = nth i bb 0 + nth i DD 0) by (unfold z, axpy_of; change (@T RN) with R; rewrite nth_tab by done; rewrite !at_RN, one_RN; cbn [add mul RN]; change (@T RN) with R; lra).
    change (@T RN) with R in *. rewrite Ez. lra. }
  assert (PX : forall i, (i < NN)%nat -> Rabs (@nth R i (dx1 u') 0) + la * (@nth R i (b_bx c') 0 * (@nth R i (dx1 v) 0 - @nth R i (dx1 u') 0)) - 2 * B <= Rabs (@nth R i (dx1 v) 0)).
  { intros i Hi. destruct (iter_mult n m mu la Hla f J c i Hi) as ((M1 & M2) & _). fold c' in M1, M2. change (@T RN) with R in *. rewrite <- Rmult_assoc. apply (l1_entry _ (@nth R i (b_dx c') 0)).
    - rewrite Rabs_mult, (Rabs_pos_eq la) by lra. apply (Rmult_le_compat_l la) in M1; [|lra]. replace (la * (1 / la)) with 1 in M1 by (field; lra). done.
    - rewrite Rmult_assoc. done.
    - assert (E1 : @nth R i (@Dx_of RN n m (@one RN) u') 0 - @nth R i (b_dx c') 0 = @nth R i (b_bx c') 0 - @nth R i (b_bx c) 0) by exact (ED (b_bx c) (@Dx_of RN n m (@one RN) u') i Hi).
      rewrite one_RN in E1. rewrite E1. exact (HBx i Hi). }
  assert (PY : forall i, (i < NN)%nat -> Rabs (@nth R i (dy1 u') 0) + la * (@nth R i (b_by c') 0 * (@nth R i (dy1 v) 0 - @nth R i (dy1 u') 0)) - 2 * B <= Rabs (@nth R i (dy1 v) 0)).
  { intros i Hi. destruct (iter_mult n m mu la Hla f J c i Hi) as (_ & (M1 & M2)). fold c' in M1, M2. change (@T RN) with R in *. rewrite <- Rmult_assoc. apply (l1_entry _ (@nth R i (b_dy c') 0)).
    - rewrite Rabs_mult, (Rabs_pos_eq la) by lra. apply (Rmult_le_compat_l la) in M1; [|lra]. replace (la * (1 / la)) with 1 in M1 by (field; lra). done.
    - rewrite Rmult_assoc. done.
    - assert (E1 : @nth R i (@Dy_of RN n m (@one RN) u') 0 - @nth R i (b_dy c') 0 = @nth R i (b_by c') 0 - @nth R i (b_by c) 0) by exact (ED (b_by c) (@Dy_of RN n m (@one RN) u') i Hi).
      rewrite one_RN in E1. rewrite E1. exact (HBy i Hi). }
  apply Rsum_le in PX, PY. rewrite Rsum_minus, Rsum_plus, Rsum_scal, Rsum_const in PX, PY.
  destruct (@breg_S_len RN n m J mu la f c Lc) as (_ & _ & _ & _ & Lbx & Lby). fold c' in Lbx, Lby.
  assert (AX : forall w, length w = NN -> Rsum NN (fun i => @nth R i (b_bx c') 0 * @nth R i (dx1 w) 0) = Rsum NN (fun i => @nth R i (dxT1 (b_bx c')) 0 * nth i w 0)).
  { intros w Lw. pose proof (Dx_adjoint n m 1 w (b_bx c') Hm Lw Lbx) as A. unfold dot in A. assert (LX := @Dx_of_len RN n m 1 w). change (@T RN) with R in *. rewrite Lw, LX in A.
    rewrite (Rsum_ext NN _ (fun i => @nth R i (dx1 w) 0 * @nth R i (b_bx c') 0)) by (intros; ring). rewrite A. apply Rsum_ext. intros. ring. }
  assert (AY : forall w, length w = NN -> Rsum NN (fun i => @nth R i (b_by c') 0 * @nth R i (dy1 w) 0) = Rsum NN (fun i => @nth R i (dyT1 (b_by c')) 0 * nth i w 0)).
  { intros w Lw. pose proof (Dy_adjoint n m 1 w (b_by c') ltac:(lia) Lw Lby) as A. unfold dot in A. assert (LX := @Dy_of_len RN n m 1 w). change (@T RN) with R in *. rewrite Lw, LX in A.
    rewrite (Rsum_ext NN _ (fun i => @nth R i (dy1 w) 0 * @nth R i (b_by c') 0)) by (intros; ring). rewrite A. apply Rsum_ext. intros. ring. }
  rewrite (Rsum_ext NN (fun i => @nth R i (b_bx c') 0 * _) (fun i => @nth R i (b_bx c') 0 * @nth R i (dx1 v) 0 - @nth R i (b_bx c') 0 * @nth R i (dx1 u') 0)) in PX by (intros; ring).
  rewrite (Rsum_ext NN (fun i => @nth R i (b_by c') 0 * _) (fun i => @nth R i (b_by c') 0 * @nth R i (dy1 v) 0 - @nth R i (b_by c') 0 * @nth R i (dy1 u') 0)) in PY by (intros; ring).
  rewrite Rsum_minus, !AX in PX by done. rewrite Rsum_minus, !AY in PY by done. change (@T RN) with R in *.
  (* pixel by pixel *)
  assert (PK : Rsum NN (fun k => mu / 2 * (nth k u' 0 - nth k f 0) ^ 2 + mu / 4 * (nth k v 0 - nth k u' 0) ^ 2) <=
     Rsum NN (fun k => mu / 2 * (nth k v 0 - nth k f 0) ^ 2 + la * (@nth R k (dxT1 (b_bx c')) 0 * nth k v 0) + la * (@nth R k (dyT1 (b_by c')) 0 * nth k v 0)
       + - (la * (@nth R k (dxT1 (b_bx c')) 0 * nth k u' 0)) + - (la * (@nth R k (dyT1 (b_by c')) 0 * nth k u' 0)) + mu * (8 * D + 136 * U) ^ 2)).
  { apply Rsum_le. intros k Hk. pose proof (grad_small k Hk) as G. set (px_ := @nth R k (dxT1 (b_bx c')) 0) in *. set (py_ := @nth R k (dyT1 (b_by c')) 0) in *.
    set (e := mu * (nth k u' 0 - nth k f 0) + la * px_ + la * py_) in *. set (w := nth k v 0 - nth k u' 0). set (H := 8 * D + 136 * U) in *.
    assert (EW : - (e * w) <= mu * H ^ 2 + mu / 4 * w ^ 2).
    { assert (H0 : 0 <= mu * H) by (eapply Rle_trans; [apply Rabs_pos|exact G]).
      assert (e * e <= (mu * H) * (mu * H)) by (rewrite <- (Rabs_pos_eq (e * e)) by (apply Rle_0_sqr); rewrite Rabs_mult; apply Rmult_le_compat; try apply Rabs_pos; done).
      apply (Rmult_le_reg_l mu); [done|]. assert (0 <= (e + mu / 2 * w) ^ 2) by apply pow2_ge_0. lra. }
    unfold w, e in *. lra. }
  rewrite !Rsum_plus, !Rsum_opp, !Rsum_scal, Rsum_const in PK. lra.
Qed.
End near.

(** ** C95.  Extended reals.  [tvobj n m mu f v] is |Dx v|_1 + |Dy v|_1 + mu/2 |v - f|^2.
    If an iteration from any state changes no pixel of u by more than U, no entry of dx, dy by more than D and no entry of bx, by by more than B,
    then its u' is within n m (mu (8 D + 136 U)^2 + 4 B) of the best objective, and near every image that does better. *)
Section iter.
Context (n m : nat) (bu bf b0 bdx bdy bbx bby b1 b2 br : nat) (f u u1 dx dy bx by_ : list R) (mj : Z) (mu : R) (tol : er) (s : @st ER).
Theorem C95_small_change_near_optimal (stop : bool) (s' : @st ER) (u' dx' dy' bx' by' : list R) (U D B : R) : 0 < mu -> (1 <= mj)%Z ->
  @iter_mem ER n m bu bf b0 bdx bdy bbx bby b1 b2 br (map Fin f) (map Fin u) (map Fin u1) (map Fin dx) (map Fin dy) (map Fin bx) (map Fin by_) mj s ->
  @breg_iter ER (Z.of_nat n) (Z.of_nat m) (Z.of_nat (n * m)) (Ptr bu 0) (Ptr bf 0) (Fin mu) tol (@mul ER (@two ER) (Fin mu)) mj
      (Ptr b0 0) (Ptr bdx 0) (Ptr bdy 0) (Ptr bbx 0) (Ptr bby 0) (Ptr b1 0) (Ptr b2 0) (Ptr br 0) s = Ok stop s' ->
  @seg ER s' (Ptr bu 0) (map Fin u') -> @seg ER s' (Ptr bdx 0) (map Fin dx') -> @seg ER s' (Ptr bdy 0) (map Fin dy') ->
  @seg ER s' (Ptr bbx 0) (map Fin bx') -> @seg ER s' (Ptr bby 0) (map Fin by') ->
  Forall (fun l => length l = (n * m)%nat) [u'; dx'; dy'; bx'; by'] ->
  within U u' u (n * m) -> within D dx' dx (n * m) -> within D dy' dy (n * m) -> within B bx' bx (n * m) -> within B by' by_ (n * m) ->
  forall v, length v = (n * m)%nat ->
    tvobj n m mu f u' + mu / 4 * Rsum (n * m) (fun k => (nth k v 0 - nth k u' 0) ^ 2) <=
    tvobj n m mu f v + INR (n * m) * (mu * (8 * D + 136 * U) ^ 2 + 4 * B).
Proof.
  intros Hmu Hmj HM E SU DX DY BX BY HL' WU WDX WDY WBX WBY v Lv.
  destruct (iter_facts n m bu bf b0 bdx bdy bbx bby b1 b2 br f u u1 dx dy bx by_ mj mu tol s Hmu HM) as (stop2 & s2 & E2 & (S1 & S2 & S3 & S4 & S5 & S6) & _).
  rewrite E in E2. injection E2 as <- <-.
  pose proof (im_len _ _ _ _ _ _ _ _ _ _ _ _ _ _ _ _ _ _ _ _ _ HM) as HL.
  assert (LL : Forall (fun l : list R => length l = (n * m)%nat) [f; u; u1; dx; dy; bx; by_]).
  { repeat (apply Forall_cons in HL as [? HL]). cbn [T ER] in *. rewrite map_length in *.
    repeat (apply Forall_cons; split; [done|]). by apply Forall_nil. }
  assert (Lu : length u = (n * m)%nat) by (apply Forall_cons in LL as [_ LL]; by apply Forall_cons in LL as [LL _]).
  destruct (@breg_S_len RN n m (Z.to_nat mj) mu (2 * mu) f (@mkBst RN u u1 dx dy bx by_) Lu) as (L1 & L2 & L3 & L4 & L5 & L6).
  set (c := @mkBst RN u u1 dx dy bx by_) in *. set (c' := @breg_S RN n m (Z.to_nat mj) mu (2 * mu) f c) in *.
  apply Forall_cons in LL as [Lf LL]. apply Forall_cons in LL as [_ LL]. apply Forall_cons in LL as [_ LL]. apply Forall_cons in LL as [Ldx LL]. apply Forall_cons in LL as [Ldy _].
  apply Forall_cons in HL' as [Lu' HL']. apply Forall_cons in HL' as [Ldx' HL']. apply Forall_cons in HL' as [Ldy' HL']. apply Forall_cons in HL' as [Lbx' HL']. apply Forall_cons in HL' as [Lby' _].
  assert (INJ : forall (p : ptr) (a b : list R), @seg ER s' p (fin a) -> @seg ER s' p (fin b) -> length a = length b -> a = b).
  { intros p a b Ha Hb Hab. apply fin_inj. apply (@seg_inj ER s' p); [done|done|]. cbn [T ER]. by rewrite !fin_length. }
  assert (E1 : b_u c' = u') by (eapply INJ; [exact S1|exact SU|etransitivity; [exact L1|by symmetry]]).
  assert (E3 : b_dx c' = dx') by (eapply INJ; [exact S3|exact DX|etransitivity; [exact L3|by symmetry]]).
  assert (E4 : b_dy c' = dy') by (eapply INJ; [exact S4|exact DY|etransitivity; [exact L4|by symmetry]]).
  assert (E5 : b_bx c' = bx') by (eapply INJ; [exact S5|exact BX|etransitivity; [exact L5|by symmetry]]).
  assert (E6 : b_by c' = by') by (eapply INJ; [exact S6|exact BY|etransitivity; [exact L6|by symmetry]]).
  assert (Hn := im_n _ _ _ _ _ _ _ _ _ _ _ _ _ _ _ _ _ _ _ _ _ HM). assert (Hm := im_m _ _ _ _ _ _ _ _ _ _ _ _ _ _ _ _ _ _ _ _ _ HM).
  assert (D0 : 0 <= D) by (eapply Rle_trans; [apply Rabs_pos|apply (WDX 0%nat); nia]).
  assert (OV : forall (a b : list R), length a = (n * m)%nat -> length b = (n * m)%nat -> within D a b (n * m) -> forall i, Rabs (nth i a 0 - nth i b 0) <= D).
  { intros a b La Lb H i. destruct (decide (i < n * m)%nat) as [Hi|Hi]; [by apply H|]. rewrite !nth_overflow by lia. by rewrite Rminus_0_r, Rabs_R0. }
  rewrite <- E1, <- E3, <- E4, <- E5, <- E6 in *.
  exact (near_min n m mu Hn Hm Hmu f (Z.to_nat mj) ltac:(lia) c Lf Lu U D B WU (OV _ _ Ldx' Ldx WDX) (OV _ _ Ldy' Ldy WDY) WBX WBY v Lv).
Qed.
End iter.
(** the first iteration, with one sweep, on the image (4 0; 4 0): memory, run, results and bounds on the changes *)
Example C95_case :
  let f := [4; 0; 4; 0] in let z := [0; 0; 0; 0] in let s := it_st f f z z z z z in
  @iter_mem ER 2 2 0 1 2 3 4 5 6 7 8 9 (map Fin f) (map Fin f) (map Fin z) (map Fin z) (map Fin z) (map Fin z) (map Fin z) 1 s /\
  exists stop s' (u' dx' dy' bx' by' : list R) (U D B : R),
    @breg_iter ER 2 2 4 (Ptr 0 0) (Ptr 1 0) (Fin 1) (Fin 0) (@mul ER (@two ER) (Fin 1)) 1
      (Ptr 2 0) (Ptr 3 0) (Ptr 4 0) (Ptr 5 0) (Ptr 6 0) (Ptr 7 0) (Ptr 8 0) (Ptr 9 0) s = Ok stop s' /\
    @seg ER s' (Ptr 0 0) (map Fin u') /\ @seg ER s' (Ptr 3 0) (map Fin dx') /\ @seg ER s' (Ptr 4 0) (map Fin dy') /\
    @seg ER s' (Ptr 5 0) (map Fin bx') /\ @seg ER s' (Ptr 6 0) (map Fin by') /\ Forall (fun l => length l = 4%nat) [u'; dx'; dy'; bx'; by'] /\
    within U u' f 4 /\ within D dx' z 4 /\ within D dy' z 4 /\ within B bx' z 4 /\ within B by' z 4.
Proof.
  intros f z s.
  assert (HM : @iter_mem ER 2 2 0 1 2 3 4 5 6 7 8 9 (fin f) (fin f) (fin z) (fin z) (fin z) (fin z) (fin z) 1 s).
  { apply it_st_mem; try done; try lia. repeat (apply Forall_cons; split; [done|]). by apply Forall_nil. }
  split; [exact HM|].
  destruct (iter_facts 2 2 0 1 2 3 4 5 6 7 8 9 f f z z z z z 1 1 (Fin 0) s ltac:(lra) HM) as (stop & s' & E & (S1 & S2 & S3 & S4 & S5 & S6) & _).
  destruct (@breg_S_len RN 2 2 (Z.to_nat 1) 1 (2 * 1) f (@mkBst RN f z z z z z) eq_refl) as (L1 & L2 & L3 & L4 & L5 & L6).
  set (c' := @breg_S RN 2 2 (Z.to_nat 1) 1 (2 * 1) f (@mkBst RN f z z z z z)) in *. clearbody c'.
  assert (W : forall a b : list R, exists e, within e a b 4).
  { intros a b. destruct (fin_max 4 (fun k => Rabs (nth k a 0 - nth k b 0)) ltac:(lia)) as (k0 & _ & H). eexists. intros k Hk. exact (H k Hk). }
  assert (W2 : forall e e' (a b : list R), within e a b 4 -> e <= e' -> within e' a b 4) by (intros e e' a b H Hle k Hk; eapply Rle_trans; [exact (H k Hk)|done]).
  destruct (W (b_u c') f) as (U & HU). destruct (W (b_dx c') z) as (D1 & HD1). destruct (W (b_dy c') z) as (D2 & HD2). destruct (W (b_bx c') z) as (B1 & HB1). destruct (W (b_by c') z) as (B2 & HB2).
  exists stop, s', (b_u c'), (b_dx c'), (b_dy c'), (b_bx c'), (b_by c'), U, (Rmax D1 D2), (Rmax B1 B2).
  split; [exact E|]. split; [exact S1|]. split; [exact S3|]. split; [exact S4|]. split; [exact S5|]. split; [exact S6|].
  split; [repeat (apply Forall_cons; split; [done|]); by apply Forall_nil|]. split; [exact HU|].
  split; [eapply W2; [exact HD1|apply Rmax_l]|]. split; [eapply W2; [exact HD2|apply Rmax_r]|]. split; [eapply W2; [exact HB1|apply Rmax_l]|eapply W2; [exact HB2|apply Rmax_r]].
Qed.
