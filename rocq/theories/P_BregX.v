(** * The split Bregman iteration on finite extended reals, its fixed points, and constant images. *)
From Coq Require Import ZArith Lia Reals Lra Psatz.
From stdpp Require Import base numbers list.
From Verif Require Import Mem P_Mem P_Loop P_Math P_MathR P_TV P_TVR M_Bregman P_Own P_Bregman P_Breg2 L_Sum S_Vec S_Img L_Lin L_ER P_BregR.
Local Open Scope R_scope.

(** ** Finite vectors stay finite *)
Lemma row_fin g g' n m (a : R) u :
  (forall o j, g m (Fin a) (fin u) o j = Fin (g' m a u o j)) -> @row_of ER g n m (Fin a) (fin u) = fin (@row_of RN g' n m a u).
Proof. intros H. apply tab_fin'. intros k _. apply H. Qed.
Lemma Dx_fin n m (a : R) u : @Dx_of ER n m (Fin a) (fin u) = fin (@Dx_of RN n m a u).
Proof. apply row_fin. intros o j. unfold ddiff_at. rewrite !at_fin. by destruct (_ <? _)%nat. Qed.
Lemma DxT_fin n m (a : R) u : @DxT_of ER n m (Fin a) (fin u) = fin (@DxT_of RN n m a u).
Proof. apply row_fin. intros o j. unfold ddiffT_at. rewrite !at_fin. by repeat case_match. Qed.
Lemma Dy_fin n m (a : R) u : @Dy_of ER n m (Fin a) (fin u) = fin (@Dy_of RN n m a u).
Proof. apply tab_fin'. intros k _. rewrite !at_fin. by destruct (_ <? _)%nat. Qed.
Lemma DyT_fin n m (a : R) u : @DyT_of ER n m (Fin a) (fin u) = fin (@DyT_of RN n m a u).
Proof. apply tab_fin'. intros k _. rewrite !at_fin. by destruct (_ <? m)%nat, (_ <? _)%nat. Qed.
Lemma mxpy_fin n u v : @mxpy_of ER n (fin u) (fin v) = fin (@mxpy_of RN n u v).
Proof. apply tab_fin'. intros i _. by rewrite !at_fin. Qed.
Lemma shrink_fin1 (g v : R) : @shrink ER (Fin g) (Fin v) = Fin (@shrink RN g v).
Proof.
  unfold shrink, dsign, M_Math.dmax. rewrite one_ER, zero_ER. cbn [leb_ ltb_ fabs sub mul opp ER RN er_abs er_sub er_opp er_add er_leb er_ltb].
  change (Rabs v + - g) with (Rabs v - g).
  destruct (Rleb _ _), (Rltb _ _); done.
Qed.
Lemma shrink_fin n (g : R) u : @shrink_of ER n (Fin g) (fin u) = fin (@shrink_of RN n g u).
Proof. apply tab_fin'. intros i _. rewrite at_fin. apply shrink_fin1. Qed.
Lemma const_fin n (c : R) : @const_of ER n (Fin c) = fin (@const_of RN n c).
Proof. apply tab_fin'. done. Qed.
Lemma sqerr_fin n u v : @sqerr_of ER n (fin u) (fin v) = Fin (@sqerr_of RN n u v).
Proof. apply (foldi_fin n). intros i x _. by rewrite !at_fin. Qed.
Lemma recip_fin (mu la : R) (c : nat) : 0 < mu -> 0 < la -> @recip ER (Fin mu) (Fin la) (Z.of_nat c) = Fin (@recip RN mu la (Z.of_nat c)).
Proof.
  intros H1 H2. unfold recip. rewrite one_ER. cbn [div add mul ofZ lit ER er_mul er_add]. apply div_fin.
  unfold ofZ. cbn [lit RN]. rewrite <- INR_IZR_INZ. pose proof (pos_INR c). assert (0 <= INR c * la) by (apply Rmult_le_pos; lra).
  cbn [add mul RN]. replace (INR c / 1 * la) with (INR c * la) by (unfold Rdiv; rewrite Rinv_1; ring). lra.
Qed.
Lemma foldl_fin (l : list R) (a : R) : foldl er_add (Fin a) (map Fin l) = Fin (foldl Rplus a l).
Proof. revert a. induction l as [|x l IH]; intros a; [done|]. simpl. apply IH. Qed.
Lemma lsum_fin (u : list R) (l : list nat) : @lsum ER (@at_ ER (fin u) <$> l) = Fin (@lsum RN (@at_ RN u <$> l)).
Proof.
  assert (E : @at_ ER (fin u) <$> l = map Fin (@at_ RN u <$> l)).
  { induction l as [|x l IH]; [done|]. rewrite !fmap_cons, IH, at_fin. done. }
  rewrite E. destruct (@at_ RN u <$> l) as [|x l']; [done|]. apply foldl_fin.
Qed.
Lemma gs_at_fin n m (mu la : R) b u k : 0 < mu -> 0 < la ->
  @gs_at ER n m (Fin mu) (Fin la) (fin b) (fin u) k = Fin (@gs_at RN n m mu la b u k).
Proof. intros H1 H2. unfold gs_at. cbv zeta. by rewrite lsum_fin, recip_fin, at_fin. Qed.
Lemma fin_insert (u : list R) k (v : R) : <[k := Fin v]> (fin u) = fin (<[k := v]> u).
Proof. unfold fin. symmetry. exact (list_fmap_insert Fin u k v). Qed.
Lemma gs_fin n m (mu la : R) b u : 0 < mu -> 0 < la ->
  @gs_of ER n m (Fin mu) (Fin la) (fin u) (fin b) = fin (@gs_of RN n m mu la u b).
Proof.
  intros H1 H2. unfold gs_of. generalize (n * m)%nat. intros t. induction t as [|t IH]; [done|].
  unfold gs_upto in *. cbn [foldi]. rewrite IH, gs_at_fin by done. apply fin_insert.
Qed.
Lemma sweeps_fin J n m (mu la : R) b u : 0 < mu -> 0 < la ->
  @sweeps ER J n m (Fin mu) (Fin la) (fin b) (fin u) = fin (@sweeps RN J n m mu la b u).
Proof. intros H1 H2. induction J as [|J IH]; [done|]. cbn [sweeps]. by rewrite IH, gs_fin. Qed.
Lemma rhs_fin n m f dx bx dy by_ (mu la : R) :
  @rhs_of ER n m (fin f) (fin dx) (fin bx) (fin dy) (fin by_) (Fin mu) (Fin la) = fin (@rhs_of RN n m f dx bx dy by_ mu la).
Proof. unfold rhs_of. by rewrite one_ER, !mxpy_fin, DxT_fin, DyT_fin, !axpy_fin. Qed.
Definition bfin (c : @bst RN) : @bst ER :=
  @mkBst ER (fin (b_u c)) (fin (b_u1 c)) (fin (b_dx c)) (fin (b_dy c)) (fin (b_bx c)) (fin (b_by c)).
Lemma breg_S_fin n m J (mu la : R) f c : 0 < mu -> 0 < la ->
  @breg_S ER n m J (Fin mu) (Fin la) (fin f) (bfin c) = bfin (@breg_S RN n m J mu la f c).
Proof.
  intros H1 H2. unfold breg_S, bfin. cbn [b_u b_u1 b_dx b_dy b_bx b_by].
  rewrite rhs_fin, sweeps_fin by done. rewrite one_ER.
  assert (E : @div ER (Fin (@one RN)) (Fin la) = Fin (@div RN (@one RN) la)) by (apply div_fin; lra).
  rewrite E, Dx_fin, Dy_fin, !axpy_fin, !shrink_fin, !mxpy_fin. done.
Qed.
Lemma breg_at_fin n m J (mu la : R) f k : 0 < mu -> 0 < la ->
  @breg_at ER n m J (Fin mu) (Fin la) (fin f) k = bfin (@breg_at RN n m J mu la f k).
Proof.
  intros H1 H2. induction k as [|k IH]; cbn [breg_at]; [|by rewrite IH, breg_S_fin].
  unfold breg_0, bfin. cbn [b_u b_u1 b_dx b_dy b_bx b_by]. rewrite zero_ER. by rewrite const_fin.
Qed.
Lemma lambda_fin (mu : R) : @mul ER (@two ER) (Fin mu) = Fin (2 * mu).
Proof. cbn [mul ER two ofZ lit er_mul]. f_equal. unfold Rdiv. rewrite Rinv_1. lra. Qed.

(** ** Multipliers after an iteration *)
Section it.
Context (n m : nat) (mu la : R) (Hmu : 0 < mu) (Hla : 0 < la).
Context (f : list R) (J : nat) (c : @bst RN).
Let NN := (n * m)%nat.
Let c' := @breg_S RN n m J mu la f c.
Lemma inv_la : 0 < / la. Proof. by apply Rinv_0_lt_compat. Qed.
Lemma mult_of (z : list R) i : (i < NN)%nat ->
  let d := @shrink_of RN NN (@div RN (@one RN) la) z in
  let b := @mxpy_of RN NN d z in
  nth i b 0 = nth i z 0 - nth i d 0 /\ Rabs (nth i b 0) <= 1 / la /\ la * (nth i b 0 * nth i d 0) = Rabs (nth i d 0).
Proof.
  intros Hi d b. assert (Eg : @div RN (@one RN) la = 1 / la) by (rewrite one_RN; done).
  assert (Ed : nth i d 0 = @shrink RN (1 / la) (nth i z 0)).
  { unfold d, shrink_of. rewrite nth_tab by done. by rewrite at_RN, Eg. }
  assert (Eb : nth i b 0 = nth i z 0 - nth i d 0).
  { unfold b, mxpy_of. rewrite nth_tab by done. rewrite !at_RN. cbn [T add opp RN]; lra. }
  pose proof inv_la.
  destruct (shrink_sub (1 / la) (nth i z 0)) as [H1 H2]; [unfold Rdiv; lra|]. rewrite <- Ed in H1, H2. rewrite <- Eb in H1, H2.
  split; [done|]. split; [done|]. rewrite H2. field. lra.
Qed.
Lemma iter_mult i : (i < NN)%nat ->
  (Rabs (nth i (b_bx c') 0) <= 1 / la /\ la * (nth i (b_bx c') 0 * nth i (b_dx c') 0) = Rabs (nth i (b_dx c') 0)) /\
  (Rabs (nth i (b_by c') 0) <= 1 / la /\ la * (nth i (b_by c') 0 * nth i (b_dy c') 0) = Rabs (nth i (b_dy c') 0)).
Proof. intros Hi. split; eapply mult_of; done. Qed.
End it.

(** ** Fixed points are global minimisers *)
Section fixed.
Context (n m : nat) (mu la : R) (Hn : (2 <= n)%nat) (Hm : (2 <= m)%nat) (Hmu : 0 < mu) (Hla : 0 < la).
Context (f : list R) (J : nat) (HJ : (1 <= J)%nat) (c : @bst RN).
Let NN := (n * m)%nat.
Context (Lf : length f = NN) (Lc : blen (N := RN) NN c).
Context (HF : @breg_S RN n m J mu la f c = c).
Notation dx1 u := (@Dx_of RN n m 1 u). Notation dy1 u := (@Dy_of RN n m 1 u).
Notation dxT1 u := (@DxT_of RN n m 1 u). Notation dyT1 u := (@DyT_of RN n m 1 u).
Let u : list R := @b_u RN c.
Lemma fx_facts i : (i < NN)%nat ->
  nth i (b_dx c) 0 = nth i (dx1 u) 0 /\ nth i (b_dy c) 0 = nth i (dy1 u) 0.
Proof.
  intros Hi. 
  assert (E1 : b_u (@breg_S RN n m J mu la f c) = u) by (by rewrite HF).
  assert (Ex : b_bx (@breg_S RN n m J mu la f c) = b_bx c) by (by rewrite HF).
  assert (Ey : b_by (@breg_S RN n m J mu la f c) = b_by c) by (by rewrite HF).
  assert (Edx : b_dx (@breg_S RN n m J mu la f c) = b_dx c) by (by rewrite HF).
  assert (Edy : b_dy (@breg_S RN n m J mu la f c) = b_dy c) by (by rewrite HF).
  unfold breg_S in Ex, Ey, Edx, Edy, E1. cbn [b_u b_dx b_dy b_bx b_by] in Ex, Ey, Edx, Edy, E1. rewrite E1 in *.
  rewrite Edx in Ex. rewrite Edy in Ey.
  split.
  - apply (f_equal (fun l => nth i l 0)) in Ex. unfold mxpy_of in Ex. rewrite nth_tab in Ex by done. rewrite !at_RN in Ex.
    unfold axpy_of in Ex. rewrite nth_tab in Ex by done. rewrite !at_RN, one_RN in Ex. cbn [T add mul opp RN] in Ex |- *; lra.
  - apply (f_equal (fun l => nth i l 0)) in Ey. unfold mxpy_of in Ey. rewrite nth_tab in Ey by done. rewrite !at_RN in Ey.
    unfold axpy_of in Ey. rewrite nth_tab in Ey by done. rewrite !at_RN, one_RN in Ey. cbn [T add mul opp RN] in Ey |- *; lra.
Qed.
Lemma dxT_lin0 (b d w : list R) k : (forall q, (q < NN)%nat -> nth q w 0 = nth q d 0 - nth q b 0) -> (k < NN)%nat ->
  nth k (@DxT_of RN n m la w) 0 = la * nth k (dxT1 d) 0 - la * nth k (dxT1 b) 0.
Proof.
  intros Eb Hk. destruct (pos_ij n m Hn Hm k Hk) as (i & j & Hi & Hj & ->). unfold DxT_of. rewrite !row_of_at by done.
  rewrite !ddiffT_RN by done. rewrite (Eb (i * m + j)%nat) by done.
  destruct (Nat.ltb_spec j 1), (Nat.ltb_spec j (m - 1)); try (rewrite (Eb (i * m + (j - 1))%nat) by (unfold NN in *; lia)); lra.
Qed.
Lemma dyT_lin0 (b d w : list R) k : (forall q, (q < NN)%nat -> nth q w 0 = nth q d 0 - nth q b 0) -> (k < NN)%nat ->
  nth k (@DyT_of RN n m la w) 0 = la * nth k (dyT1 d) 0 - la * nth k (dyT1 b) 0.
Proof.
  intros Eb Hk. rewrite !DyT_RN by done.
  rewrite (Eb k) by done. rewrite (Eb (k - m)%nat) by lia. destruct (k <? m)%nat, (k <? (n - 1) * m)%nat; lra.
Qed.
Lemma mxpy_nth (b d : list R) q : (q < NN)%nat -> nth q (@mxpy_of RN NN b d) 0 = nth q d 0 - nth q b 0.
Proof. intros Hq. unfold mxpy_of. rewrite nth_tab by done. rewrite !at_RN. cbn [T add opp RN]; lra. Qed.
Lemma dxT_lin (b d : list R) k : (k < NN)%nat ->
  nth k (@DxT_of RN n m la (@mxpy_of RN NN b d)) 0 = la * nth k (dxT1 d) 0 - la * nth k (dxT1 b) 0.
Proof. apply dxT_lin0. intros q. apply mxpy_nth. Qed.
Lemma dyT_lin (b d : list R) k : (k < NN)%nat ->
  nth k (@DyT_of RN n m la (@mxpy_of RN NN b d)) 0 = la * nth k (dyT1 d) 0 - la * nth k (dyT1 b) 0.
Proof. apply dyT_lin0. intros q. apply mxpy_nth. Qed.
Lemma fx_stat k : (k < NN)%nat -> mu * (nth k u 0 - nth k f 0) = - la * nth k (dxT1 (b_bx c)) 0 - la * nth k (dyT1 (b_by c)) 0.
Proof.
  intros Hk. destruct Lc as (Lu & L1 & Ldx & Ldy & Lbx & Lby).
  set (rs := @rhs_of RN n m f (b_dx c) (b_bx c) (b_dy c) (b_by c) mu la).
  assert (ES : @sweeps RN J n m mu la rs u = u).
  { exact (f_equal (@b_u RN) HF). }
  destruct (solves_exists n m mu la Hn Hm Hmu Hla rs) as (v & Lv & Hv); [apply (@rhs_of_len RN)|].
  assert (Eu : u = v) by (by apply (sweeps_fix n m mu la Hn Hm Hmu Hla J rs u v)).
  rewrite <- Eu in Hv. apply solves_Hop in Hv; [|done..|apply (@rhs_of_len RN)].
  apply (f_equal (fun l => nth k l 0)) in Hv. rewrite Hop_D in Hv by done.
  unfold rs, rhs_of in Hv. rewrite !nth_axpy in Hv by done. rewrite one_RN in Hv. rewrite dxT_lin, dyT_lin in Hv by done.
  assert (Ex : b_dx c = dx1 u).
  { apply (list_eq_nth NN); [done|apply (@tab_length RN)|]. intros i Hi. by apply fx_facts. }
  assert (Ey : b_dy c = dy1 u).
  { apply (list_eq_nth NN); [done|apply (@tab_length RN)|]. intros i Hi. by apply fx_facts. }
  rewrite Ex, Ey in Hv. cbn [T RN] in Hv |- *. lra.
Qed.
Definition l1 (v : list R) : R := Rsum NN (fun i => Rabs (nth i v 0)).
Lemma tvobj_alt (v : list R) : tvobj n m mu f v = l1 (dx1 v) + l1 (dy1 v) + mu / 2 * Rsum NN (fun k => (nth k v 0 - nth k f 0) ^ 2).
Proof.
  unfold tvobj, l1. rewrite <- Rsum_scal, <- !Rsum_plus. unfold NN. rewrite Rsum_rows. apply Rsum_ext. intros i Hi. apply Rsum_ext. intros j Hj.
  unfold Dx_of at 1. rewrite row_of_at by done. rewrite ddiff_RN. rewrite Dy_RN by nia. unfold when, px.
  replace (i * m + (j + 1))%nat with (i * m + j + 1)%nat by lia. replace ((i + 1) * m + j)%nat with (i * m + j + m)%nat by lia.
  assert (Ey2 : (i * m + j <? (n - 1) * m)%nat = (i + 1 <? n)%nat).
  { destruct (Nat.ltb_spec (i + 1) n), (Nat.ltb_spec (i * m + j) ((n - 1) * m)); auto; nia. }
  rewrite Ey2. rewrite !Rmult_1_l.
  destruct (j + 1 <? m)%nat, (i + 1 <? n)%nat; rewrite ?Rmult_1_l, ?Rabs_R0; lra.
Qed.
Lemma l1_sub (b d e : list R) : (forall i, (i < NN)%nat -> Rabs (nth i b 0) <= 1 / la /\ la * (nth i b 0 * nth i d 0) = Rabs (nth i d 0)) ->
  l1 e >= l1 d + la * (ip NN b e - ip NN b d).
Proof.
  intros H. unfold l1, ip. apply Rle_ge. rewrite <- Rsum_minus, <- Rsum_scal, <- Rsum_plus. apply Rsum_le. intros i Hi.
  destruct (H i Hi) as [H1 H2].
  assert (Hs : nth i b 0 * nth i d 0 = 1 / la * Rabs (nth i d 0)) by (rewrite <- H2; field; lra).
  pose proof (sub_ineq _ _ _ (nth i e 0) H1 Hs) as HH.
  apply Rge_le in HH. apply (Rmult_le_compat_l la) in HH; [|lra].
  replace (la * (1 / la * Rabs (nth i e 0))) with (Rabs (nth i e 0)) in HH by (field; lra).
  rewrite Rmult_plus_distr_l in HH.
  replace (la * (1 / la * Rabs (nth i d 0))) with (Rabs (nth i d 0)) in HH by (field; lra).
  lra.
Qed.
Lemma fx_min (v : list R) : length v = NN ->
  tvobj n m mu f v >= tvobj n m mu f u + mu / 2 * Rsum NN (fun k => (nth k v 0 - nth k u 0) ^ 2).
Proof.
  intros Lv. destruct Lc as (Lu & L1 & Ldx & Ldy & Lbx & Lby). rewrite !tvobj_alt.
  pose proof (iter_mult n m mu la Hla f J c) as HM. rewrite HF in HM.
  assert (Ex : b_dx c = dx1 u).
  { apply (list_eq_nth NN); [done|apply (@tab_length RN)|]. intros i Hi. by apply fx_facts. }
  assert (Ey : b_dy c = dy1 u).
  { apply (list_eq_nth NN); [done|apply (@tab_length RN)|]. intros i Hi. by apply fx_facts. }
  pose proof (l1_sub (b_bx c) (b_dx c) (dx1 v) (fun i Hi => proj1 (HM i Hi))) as Hx.
  pose proof (l1_sub (b_by c) (b_dy c) (dy1 v) (fun i Hi => proj2 (HM i Hi))) as Hy.
  rewrite Ex in Hx. rewrite Ey in Hy.
  assert (AX : forall w, length w = NN -> ip NN (b_bx c) (dx1 w) = ip NN (dxT1 (b_bx c)) w).
  { intros w Lw. rewrite ip_sym, (ip_sym _ _ w). rewrite !ip_dot by first [done|apply (@tab_length RN)]. apply Dx_adjoint; [lia|done|done]. }
  assert (AY : forall w, length w = NN -> ip NN (b_by c) (dy1 w) = ip NN (dyT1 (b_by c)) w).
  { intros w Lw. rewrite ip_sym, (ip_sym _ _ w). rewrite !ip_dot by first [done|apply (@tab_length RN)]. apply Dy_adjoint; [lia|done|done]. }
  rewrite !AX in Hx by done. rewrite !AY in Hy by done.
  assert (EQ : mu / 2 * Rsum NN (fun k => (nth k v 0 - nth k f 0) ^ 2) =
     mu / 2 * Rsum NN (fun k => (nth k u 0 - nth k f 0) ^ 2) + mu / 2 * Rsum NN (fun k => (nth k v 0 - nth k u 0) ^ 2)
     - la * (ip NN (dxT1 (b_bx c)) v - ip NN (dxT1 (b_bx c)) u) - la * (ip NN (dyT1 (b_by c)) v - ip NN (dyT1 (b_by c)) u)).
  { unfold ip. rewrite <- !Rsum_minus, <- !Rsum_scal, <- !Rsum_plus, <- !Rsum_minus. apply Rsum_ext. intros k Hk.
    pose proof (fx_stat k Hk) as HS.
    assert (E : mu * (nth k u 0 - nth k f 0) * (nth k v 0 - nth k u 0) =
                (- la * nth k (dxT1 (b_bx c)) 0 - la * nth k (dyT1 (b_by c)) 0) * (nth k v 0 - nth k u 0)) by (by rewrite HS).
    cbn [T RN] in E |- *. lra. }
  lra.
Qed.
End fixed.

(** ** Constant images *)
Section const.
Context (n m : nat) (mu la : R) (Hn : (2 <= n)%nat) (Hm : (2 <= m)%nat) (Hmu : 0 < mu) (Hla : 0 < la).
Context (v : R) (J : nat).
Let NN := (n * m)%nat.
Let K (x : R) : list R := @const_of RN NN x.
Lemma nth_const (x : R) i : (i < NN)%nat -> nth i (K x) 0 = x. Proof. intros H. unfold K, const_of. by rewrite nth_tab. Qed.
Lemma eq_const (l : list R) (x : R) : length l = NN -> (forall i, (i < NN)%nat -> nth i l 0 = x) -> l = K x.
Proof. intros L H. apply (list_eq_nth NN); [done|apply (@const_of_len RN)|]. intros i Hi. rewrite H by done. by rewrite nth_const. Qed.
Lemma mxpy_0 : @mxpy_of RN NN (K 0) (K 0) = K 0.
Proof. apply eq_const; [apply (@tab_length RN)|]. intros i Hi. unfold mxpy_of. rewrite nth_tab by done. rewrite !at_RN, nth_const by done. cbn. lra. Qed.
Lemma rhs_const : @rhs_of RN n m (K v) (K 0) (K 0) (K 0) (K 0) mu la = K (mu * v).
Proof.
  unfold rhs_of. fold NN. rewrite mxpy_0. apply eq_const; [apply (@tab_length RN)|]. intros i Hi.
  rewrite !nth_axpy by done. rewrite one_RN, DyT_RN by done. rewrite nth_const by done.
  assert (E1 : @nth R i (@DxT_of RN n m la (K 0)) 0 = 0).
  { destruct (pos_ij n m Hn Hm i Hi) as (a & b & Ha & Hb & ->). unfold DxT_of. rewrite row_of_at by done. rewrite ddiffT_RN by done.
    rewrite (nth_const 0 (a * m + b)) by done. destruct (Nat.ltb_spec b 1), (b <? m - 1)%nat; try (rewrite (nth_const 0 (a * m + (b - 1))) by (unfold NN in *; lia)); lra. }
  rewrite E1. rewrite (nth_const 0 i) by done. rewrite (nth_const 0 (i - m)) by (unfold NN in *; lia).
  destruct (_ <? _)%nat, (_ <? _)%nat; lra.
Qed.
Lemma sweeps_const : @sweeps RN J n m mu la (K (mu * v)) (K v) = K v.
Proof.
  assert (E : @gs_of RN n m mu la (K v) (K (mu * v)) = K v).
  { apply gs_fix; try done; [apply (@const_of_len RN)|]. intros i j Hi Hj. unfold tvop_at, px, when.
    assert (P : forall a b, (a < n)%nat -> (b < m)%nat -> nth (a * m + b) (K v) 0 = v) by (intros; apply nth_const; unfold NN; nia).
    rewrite (nth_const (mu * v)) by (unfold NN; nia). rewrite (P i j) by done.
    destruct (Nat.ltb_spec (j + 1) m), (Nat.ltb_spec 0 j), (Nat.ltb_spec (i + 1) n), (Nat.ltb_spec 0 i);
      rewrite ?(P i (j + 1)%nat), ?(P i (j - 1)%nat), ?(P (i + 1)%nat j), ?(P (i - 1)%nat j) by lia; lra. }
  induction J as [|j IH]; [done|]. cbn [sweeps]. by rewrite IH.
Qed.
Lemma Dx_const : @Dx_of RN n m 1 (K v) = K 0.
Proof.
  apply eq_const; [apply (@tab_length RN)|]. intros i Hi. destruct (pos_ij n m Hn Hm i Hi) as (a & b & Ha & Hb & ->).
  unfold Dx_of. rewrite row_of_at by done. rewrite ddiff_RN. destruct (Nat.ltb_spec (b + 1) m); [|done].
  rewrite !nth_const by (unfold NN in *; nia). lra.
Qed.
Lemma Dy_const : @Dy_of RN n m 1 (K v) = K 0.
Proof.
  apply eq_const; [apply (@tab_length RN)|]. intros i Hi. rewrite Dy_RN by done. destruct (Nat.ltb_spec i ((n - 1) * m)); [|done].
  rewrite !nth_const by (unfold NN in *; nia). lra.
Qed.
Lemma axpy_0 : @axpy_of RN NN 1 (K 0) (K 0) = K 0.
Proof. apply eq_const; [apply (@tab_length RN)|]. intros i Hi. rewrite nth_axpy by done. rewrite !nth_const by done. lra. Qed.
Lemma shrink_0 (g : R) : 0 < g -> @shrink_of RN NN g (K 0) = K 0.
Proof.
  intros Hg. apply eq_const; [apply (@tab_length RN)|]. intros i Hi. unfold shrink_of. rewrite nth_tab by done. rewrite at_RN, nth_const by done.
  rewrite shrink_RN. destruct (Rle_dec 0 0); [|lra]. unfold Rmax. destruct (Rle_dec (0 - g) 0); lra.
Qed.
Lemma breg_const k : let c := @breg_at RN n m J mu la (K v) k in
  b_u c = K v /\ b_dx c = K 0 /\ b_dy c = K 0 /\ b_bx c = K 0 /\ b_by c = K 0.
Proof.
  induction k as [|k IH]; cbv zeta in *.
  - cbn [breg_at]. unfold breg_0. cbn [b_u b_dx b_dy b_bx b_by]. rewrite zero_RN. done.
  - cbn [breg_at]. destruct IH as (E1 & E2 & E3 & E4 & E5). unfold breg_S. cbn [b_u b_dx b_dy b_bx b_by].
    rewrite E1, E2, E3, E4, E5. rewrite rhs_const, sweeps_const. rewrite one_RN.
    rewrite Dx_const, Dy_const. fold NN. rewrite axpy_0.
    rewrite shrink_0 by (cbn [div RN]; pose proof (inv_la la Hla); unfold Rdiv; lra). rewrite mxpy_0. done.
Qed.
End const.
