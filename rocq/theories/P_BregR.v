(** * Mathematics of the split Bregman iteration over the reals. *)
From Coq Require Import ZArith Lia Reals Lra Psatz.
From stdpp Require Import base numbers list.
From Verif Require Import Mem P_Mem P_Loop P_Math P_MathR P_TV P_TVR M_Bregman P_Own P_Bregman P_Breg2 L_Sum S_Vec S_Img L_Lin P_CG P_CGR.
Local Open Scope R_scope.

(** ** Shrinkage *)
Lemma shrink_RN (g v : R) : @shrink RN g v = if Rle_dec 0 v then Rmax (v - g) 0 else - Rmax (- v - g) 0.
Proof.
  unfold shrink, dsign, M_Math.dmax. rewrite zero_RN, one_RN. cbn [leb_ ltb_ RN mul sub fabs opp]. unfold Rleb, Rltb.
  destruct (Rle_dec 0 v).
  - rewrite Rabs_pos_eq by lra. destruct (Rlt_dec 0 (v - g)); unfold Rmax; destruct (Rle_dec (v - g) 0); lra.
  - rewrite Rabs_left by lra. destruct (Rlt_dec 0 (- v - g)); unfold Rmax; destruct (Rle_dec (- v - g) 0); lra.
Qed.
(** the multiplier left after shrinking: bounded, and a subgradient of the absolute value *)
Lemma shrink_sub (g v : R) : 0 <= g -> let d := @shrink RN g v in
  Rabs (v - d) <= g /\ (v - d) * d = g * Rabs d.
Proof.
  intros Hg d. unfold d. rewrite shrink_RN. destruct (Rle_dec 0 v).
  - unfold Rmax. destruct (Rle_dec (v - g) 0).
    + rewrite Rminus_0_r, Rabs_R0. split; [rewrite Rabs_pos_eq; lra|lra].
    + replace (v - (v - g)) with g by lra. rewrite !Rabs_pos_eq by lra. lra.
  - unfold Rmax. destruct (Rle_dec (- v - g) 0).
    + replace (v - - 0) with v by lra. rewrite Ropp_0, Rabs_R0. split; [rewrite Rabs_left; lra|lra].
    + replace (v - - (- v - g)) with (- g) by lra. rewrite Rabs_Ropp. rewrite (Rabs_pos_eq g) by lra.
      rewrite Rabs_left by lra. split; lra.
Qed.
Lemma sub_ineq (g s d e : R) : Rabs s <= g -> s * d = g * Rabs d -> g * Rabs e >= g * Rabs d + s * (e - d).
Proof.
  intros H1 H2. assert (s * e <= Rabs s * Rabs e) by (rewrite <- Rabs_mult; apply Rle_abs).
  assert (Rabs s * Rabs e <= g * Rabs e) by (apply Rmult_le_compat_r; [apply Rabs_pos|done]). nra.
Qed.

(** ** Neighbour sums *)
Section op.
Context (n m : nat) (mu la : R).
Context (Hn : (2 <= n)%nat) (Hm : (2 <= m)%nat) (Hmu : 0 < mu) (Hla : 0 < la).
Definition rsum (l : list R) : R := fold_right Rplus 0 l.
Definition nbs (u : list R) (k : nat) : R := rsum (map (fun q => nth q u 0) (nbrs n m k)).
Definition dg (k : nat) : R := INR (deg n m k).
Let NN := (n * m)%nat.
Lemma foldl_plus (l : list R) (a : R) : foldl Rplus a l = a + rsum l.
Proof. revert a. induction l as [|x l IH]; intros a; simpl; [lra|]. rewrite IH. lra. Qed.
Lemma lsum_RN (u : list R) (l : list nat) : @lsum RN (@at_ RN u <$> l) = rsum (map (fun q => nth q u 0) l).
Proof.
  assert (E : @at_ RN u <$> l = map (fun q => nth q u 0) l) by (apply map_ext; intros; apply at_RN).
  rewrite E. destruct (map _ l) as [|x l']; [apply zero_RN|]. apply foldl_plus.
Qed.
Lemma recip_RN (c : nat) : @recip RN mu la (Z.of_nat c) = / (mu + INR c * la).
Proof. unfold recip. rewrite one_RN. unfold ofZ. simpl. rewrite INR_IZR_INZ. unfold Rdiv. rewrite Rinv_1. rewrite Rmult_1_r. lra. Qed.
Lemma dg_pos k : 0 <= dg k. Proof. apply pos_INR. Qed.
Lemma dg_le4 k : dg k <= 4.
Proof.
  unfold dg, deg. assert (length (nbrs n m k) <= 4)%nat.
  { unfold nbrs. rewrite !app_length. repeat case_match; simpl; lia. }
  apply le_INR in H. simpl in H. lra.
Qed.
Lemma den_pos k : 0 < mu + dg k * la.
Proof. pose proof (dg_pos k). nra. Qed.
Lemma gs_at_RN (b u : list R) k :
  @gs_at RN n m mu la b u k = (nth k b 0 + nbs u k * la) * / (mu + dg k * la).
Proof. unfold gs_at. cbv zeta. rewrite lsum_RN, recip_RN, at_RN. done. Qed.

Lemma rsum_app l l' : rsum (l ++ l') = rsum l + rsum l'.
Proof. induction l as [|x l IH]; simpl; [lra|]. rewrite IH. lra. Qed.
Lemma nbs_ij u i j : (i < n)%nat -> (j < m)%nat ->
  nbs u (i * m + j) = when (j + 1 <? m)%nat (px m u i (j + 1)) + when (0 <? j)%nat (px m u i (j - 1)) +
                      when (i + 1 <? n)%nat (px m u (i + 1) j) + when (0 <? i)%nat (px m u (i - 1) j).
Proof.
  intros Hi Hj. unfold nbs. rewrite nbrs_ij by done. rewrite !map_app, !rsum_app. unfold when, px.
  assert (E1 : (i * m + j + 1 = i * m + (j + 1))%nat) by lia. rewrite E1.
  assert (E3 : (i * m + j + m = (i + 1) * m + j)%nat) by lia. rewrite E3.
  destruct (Nat.ltb_spec 0 j), (Nat.ltb_spec 0 i).
  - assert (E2 : (i * m + j - 1 = i * m + (j - 1))%nat) by lia. assert (E4 : (i * m + j - m = (i - 1) * m + j)%nat) by nia.
    rewrite E2, E4. destruct (j + 1 <? m)%nat, (i + 1 <? n)%nat; simpl; lra.
  - assert (E2 : (i * m + j - 1 = i * m + (j - 1))%nat) by lia. rewrite E2.
    destruct (j + 1 <? m)%nat, (i + 1 <? n)%nat; simpl; lra.
  - assert (E4 : (i * m + j - m = (i - 1) * m + j)%nat) by nia. rewrite E4.
    destruct (j + 1 <? m)%nat, (i + 1 <? n)%nat; simpl; lra.
  - destruct (j + 1 <? m)%nat, (i + 1 <? n)%nat; simpl; lra.
Qed.
Lemma dg_ij i j : (i < n)%nat -> (j < m)%nat ->
  dg (i * m + j) = when (j + 1 <? m)%nat 1 + when (0 <? j)%nat 1 + when (i + 1 <? n)%nat 1 + when (0 <? i)%nat 1.
Proof. intros Hi Hj. unfold dg. rewrite deg_ij by done. repeat destruct (_ <? _)%nat; simpl; lra. Qed.
Lemma tvop_nbs u i j : (i < n)%nat -> (j < m)%nat ->
  tvop_at n m mu la u i j = (mu + dg (i * m + j) * la) * px m u i j - la * nbs u (i * m + j).
Proof.
  intros Hi Hj. rewrite nbs_ij, dg_ij by done. unfold tvop_at, when.
  repeat destruct (_ <? _)%nat; lra.
Qed.
(** positions *)
Lemma pos_ij k : (k < NN)%nat -> exists i j, (i < n)%nat /\ (j < m)%nat /\ k = (i * m + j)%nat.
Proof.
  intros Hk. exists (k / m)%nat, (k mod m)%nat. pose proof (Nat.div_mod k m ltac:(lia)). pose proof (Nat.mod_upper_bound k m ltac:(lia)).
  unfold NN in Hk. split; [apply Nat.div_lt_upper_bound; lia|]. split; lia.
Qed.
Lemma solves_k (b u : list R) : solves n m mu la b u <->
  forall k, (k < NN)%nat -> (mu + dg k * la) * nth k u 0 - la * nbs u k = nth k b 0.
Proof.
  split.
  - intros H k Hk. destruct (pos_ij k Hk) as (i & j & Hi & Hj & ->). specialize (H i j Hi Hj). rewrite tvop_nbs in H by done. exact H.
  - intros H i j Hi Hj. rewrite tvop_nbs by done. apply H. unfold NN. nia.
Qed.

(** ** hess_eval computes the operator *)
Lemma hess_at (u : list R) i j : length u = NN -> (i < n)%nat -> (j < m)%nat ->
  px m (@hess_of RN n m mu la u) i j = tvop_at n m mu la u i j.
Proof.
  intros Lu Hi Hj. assert (Hk : (i * m + j < NN)%nat) by (unfold NN; nia).
  unfold px at 1. unfold hess_of. rewrite nth_tab by done. rewrite !at_RN, one_RN. cbn [add mul RN].
  rewrite DyTDy_RN by done.
  unfold DxTDx_of. rewrite row_of_at by done. unfold ddiff2_at. rewrite !at_RN, two_RN. cbn [add mul sub opp RN].
  unfold tvop_at, when, px.
  assert (E1 : (i * m + j + 1 = i * m + (j + 1))%nat) by lia. rewrite E1.
  assert (E3 : (i * m + j + m = (i + 1) * m + j)%nat) by lia. rewrite E3.
  assert (Ey1 : (i * m + j <? m)%nat = negb (0 <? i)%nat).
  { destruct (Nat.ltb_spec 0 i), (Nat.ltb_spec (i * m + j) m); simpl; auto; nia. }
  assert (Ey2 : (i * m + j <? (n - 1) * m)%nat = (i + 1 <? n)%nat).
  { destruct (Nat.ltb_spec (i + 1) n), (Nat.ltb_spec (i * m + j) ((n - 1) * m)); auto; nia. }
  assert (Ey3 : ((n - 1) * m <=? i * m + j)%nat = negb (i + 1 <? n)%nat).
  { destruct (Nat.ltb_spec (i + 1) n), (Nat.leb_spec ((n - 1) * m) (i * m + j)); simpl; auto; nia. }
  rewrite Ey1, Ey2, Ey3.
  assert (E4 : (0 < i)%nat -> (i * m + j - m = (i - 1) * m + j)%nat) by (intros; nia).
  destruct (Nat.eqb_spec j 0) as [->|Hj0].
  - rewrite (proj2 (Nat.ltb_ge 0 0)) by lia. rewrite (proj2 (Nat.ltb_lt (0 + 1) m)) by lia.
    rewrite !Nat.add_0_r in *. simpl (0 + 1)%nat.
    destruct (Nat.ltb_spec 0 i) as [H|H]; [rewrite (E4 H)|]; destruct (Nat.ltb_spec (i + 1) n); cbn [negb orb]; try lra. exfalso; lia.
  - rewrite (proj2 (Nat.ltb_lt 0 j)) by lia.
    assert (E2 : (i * m + j - 1 = i * m + (j - 1))%nat) by lia. rewrite E2.
    destruct (j + 1 <? m)%nat;
    (destruct (Nat.ltb_spec 0 i) as [H|H]; [rewrite (E4 H)|]; destruct (Nat.ltb_spec (i + 1) n); cbn [negb orb]; try lra; exfalso; lia).
Qed.
Definition Hop (u : list R) : list R := @hess_of RN n m mu la u.
Lemma Hop_len u : length (Hop u) = NN. Proof. apply (@hess_of_len RN). Qed.
Lemma Hop_k u k : length u = NN -> (k < NN)%nat -> nth k (Hop u) 0 = (mu + dg k * la) * nth k u 0 - la * nbs u k.
Proof.
  intros Lu Hk. destruct (pos_ij k Hk) as (i & j & Hi & Hj & ->).
  pose proof (hess_at u i j Lu Hi Hj) as E. rewrite tvop_nbs in E by done. exact E.
Qed.
Lemma solves_Hop b u : length u = NN -> length b = NN -> (solves n m mu la b u <-> Hop u = b).
Proof.
  intros Lu Lb. rewrite solves_k. split.
  - intros H. apply (list_eq_nth NN); [apply Hop_len|done|]. intros k Hk. rewrite Hop_k by done. by apply H.
  - intros <- k Hk. by rewrite Hop_k.
Qed.
(** in terms of Dx and Dy *)
Lemma Hop_D u : length u = NN -> forall k, (k < NN)%nat ->
  nth k (Hop u) 0 = mu * nth k u 0 + la * nth k (@DyT_of RN n m 1 (@Dy_of RN n m 1 u)) 0 + la * nth k (@DxT_of RN n m 1 (@Dx_of RN n m 1 u)) 0.
Proof.
  intros Lu k Hk. unfold Hop, hess_of. rewrite nth_tab by done. rewrite !at_RN, one_RN. cbn [add mul RN].
  rewrite DyTDy_comp, DxTDx_comp by done. done.
Qed.

(** ** Contraction of the sweeps *)
Definition qq : R := 4 * la / (mu + 4 * la).
Lemma qq_bounds : 0 < qq < 1.
Proof.
  unfold qq. split; [apply Rdiv_lt_0_compat; lra|]. apply (Rmult_lt_reg_r (mu + 4 * la)); [lra|].
  unfold Rdiv. rewrite Rmult_assoc, Rinv_l; lra.
Qed.
Lemma rsum_diff (u v : list R) (E : R) (l : list nat) : 0 <= E ->
  (forall q, q ∈ l -> Rabs (nth q u 0 - nth q v 0) <= E) ->
  Rabs (rsum (map (fun q => nth q u 0) l) - rsum (map (fun q => nth q v 0) l)) <= INR (length l) * E.
Proof.
  intros HE. induction l as [|a l IH]; intros H.
  - simpl. rewrite Rminus_0_r, Rabs_R0. lra.
  - cbn [map rsum fold_right length]. rewrite S_INR. fold (rsum (map (fun q => nth q u 0) l)) (rsum (map (fun q => nth q v 0) l)).
    assert (IH' := IH (fun q Hq => H q (elem_of_list_further _ _ _ Hq))).
    assert (Ha := H a (elem_of_list_here _ _)).
    replace (_ - _) with ((nth a u 0 - nth a v 0) + (rsum (map (fun q => nth q u 0) l) - rsum (map (fun q => nth q v 0) l))) by lra.
    eapply Rle_trans; [apply Rabs_triang|]. lra.
Qed.
Lemma nbrs_lt k q : (k < NN)%nat -> q ∈ nbrs n m k -> (q < NN)%nat.
Proof.
  intros Hk. destruct (pos_ij k Hk) as (i & j & Hi & Hj & ->). rewrite nbrs_ij by done.
  assert ((i * m + j) < NN)%nat by lia. unfold NN in *.
  assert (HH : forall (c : bool) (x : nat), (c = true -> (x < n * m)%nat) -> q ∈ (if c then [x] else []) -> (q < n * m)%nat).
  { intros [] x Hx Hq; [apply elem_of_list_singleton in Hq as ->; auto|by apply elem_of_nil in Hq]. }
  rewrite !elem_of_app. intros [Hq|[Hq|[Hq|Hq]]]; apply HH in Hq; auto; intros Hc; apply Nat.ltb_lt in Hc; nia.
Qed.
Lemma upd_contract (b u v : list R) (E : R) k : (k < NN)%nat -> 0 <= E ->
  (mu + dg k * la) * nth k v 0 - la * nbs v k = nth k b 0 ->
  (forall q, (q < NN)%nat -> Rabs (nth q u 0 - nth q v 0) <= E) ->
  Rabs ((nth k b 0 + nbs u k * la) * / (mu + dg k * la) - nth k v 0) <= qq * E.
Proof.
  intros Hk HE Hv Hu. pose proof (den_pos k) as Hd. pose proof (dg_pos k). pose proof (dg_le4 k).
  assert (ED : (nth k b 0 + nbs u k * la) * / (mu + dg k * la) - nth k v 0 = (nbs u k - nbs v k) * (la * / (mu + dg k * la))).
  { rewrite <- Hv. field. lra. }
  assert (Hdif : Rabs (nbs u k - nbs v k) <= dg k * E).
  { apply rsum_diff; [done|]. intros q Hq. apply Hu. by eapply nbrs_lt. }
  assert (Hinv : 0 < / (mu + dg k * la)) by (by apply Rinv_0_lt_compat).
  assert (Hc : 0 < la * / (mu + dg k * la)) by nra.
  rewrite ED, Rabs_mult, (Rabs_pos_eq (la * _)) by lra.
  apply (Rle_trans _ (dg k * E * (la * / (mu + dg k * la)))); [apply Rmult_le_compat_r; lra|].
  assert (Hq : dg k * la * / (mu + dg k * la) <= qq).
  { apply (Rmult_le_reg_r (mu + dg k * la)); [done|]. rewrite Rmult_assoc, Rinv_l, Rmult_1_r by lra.
    unfold qq. apply (Rmult_le_reg_r (mu + 4 * la)); [lra|].
    replace (4 * la / (mu + 4 * la) * (mu + dg k * la) * (mu + 4 * la)) with (4 * la * (mu + dg k * la)) by (field; lra).
    assert (0 <= (4 - dg k) * (la * mu)) by (apply Rmult_le_pos; nra). nra. }
  replace (dg k * E * (la * / (mu + dg k * la))) with (dg k * la * / (mu + dg k * la) * E) by lra.
  apply Rmult_le_compat_r; lra.
Qed.
Lemma nth_insert (u : list R) k (v : R) j : (k < length u)%nat -> nth j (<[k := v]> u) 0 = if (j =? k)%nat then v else nth j u 0.
Proof. intros H. rewrite <- !at_RN. exact (@at_insert RN u k v j H). Qed.
Lemma gs_S (b u : list R) t : @gs_upto RN n m mu la b u (S t) = <[t := @gs_at RN n m mu la b (@gs_upto RN n m mu la b u t) t]> (@gs_upto RN n m mu la b u t).
Proof. done. Qed.
Lemma gs_lt (b u : list R) t k : (k < length u)%nat -> (k < @length R (@gs_upto RN n m mu la b u t))%nat.
Proof. intros H. pose proof (@gs_upto_len RN n m mu la b u t) as E. cbn in *. lia. Qed.
Lemma gs_contract (b u v : list R) (E : R) : length u = NN -> 0 <= E -> solves n m mu la b v ->
  within E u v NN -> within (qq * E) (@gs_of RN n m mu la u b) v NN.
Proof.
  intros Lu HE Hv Hu. rewrite solves_k in Hv. destruct qq_bounds as [Hq1 Hq2].
  assert (HqE : qq * E <= E) by (rewrite <- (Rmult_1_l E) at 2; apply Rmult_le_compat_r; lra).
  assert (HI : forall t, (t <= NN)%nat -> forall k, (k < NN)%nat ->
     Rabs (nth k (@gs_upto RN n m mu la b u t) 0 - nth k v 0) <= (if (k <? t)%nat then qq * E else E)).
  { induction t as [|t IH]; intros Ht k Hk; [apply Hu; done|].
    rewrite gs_S. rewrite nth_insert by (apply gs_lt; lia).
    destruct (Nat.eqb_spec k t) as [->|Hne].
    - rewrite (proj2 (Nat.ltb_lt t (S t))) by lia. rewrite gs_at_RN. apply upd_contract; [done|done|by apply Hv|].
      intros q Hq'. specialize (IH ltac:(lia) q Hq'). eapply Rle_trans; [exact IH|]. destruct (q <? t)%nat; lra.
    - specialize (IH ltac:(lia) k Hk). destruct (Nat.ltb_spec k t), (Nat.ltb_spec k (S t)); try lia; done. }
  intros k Hk. specialize (HI NN ltac:(lia) k Hk). by rewrite (proj2 (Nat.ltb_lt k NN)) in HI.
Qed.
Lemma sweeps_contract J (b u v : list R) (E : R) : length u = NN -> 0 <= E -> solves n m mu la b v ->
  within E u v NN -> within (qq ^ J * E) (@sweeps RN J n m mu la b u) v NN.
Proof.
  intros Lu HE Hv Hu. pose proof qq_bounds. induction J as [|J IH]; [simpl; by rewrite Rmult_1_l|].
  cbn [sweeps]. change (qq ^ S J) with (qq * qq ^ J). rewrite Rmult_assoc. apply gs_contract; try done.
  - by rewrite (@sweeps_len RN).
  - apply Rmult_le_pos; [apply pow_le; lra|done].
Qed.

(** ** Jacobi *)
Lemma jac_at_RN (b u : list R) k : (k < NN)%nat -> @jac_at RN n m la b u k = nth k b 0 + nbs u k * la.
Proof.
  intros Hk. destruct (pos_ij k Hk) as (i & j & Hi & Hj & ->). unfold jac_at, jac1. rewrite !at_RN, !zero_RN.
  rewrite mod_row by done. rewrite nbs_ij by done. unfold when, px.
  assert (E1 : (i * m + j + 1 = i * m + (j + 1))%nat) by lia. rewrite E1.
  assert (E3 : (i * m + j + m = (i + 1) * m + j)%nat) by lia. rewrite E3.
  assert (Ey1 : (i * m + j <? m)%nat = negb (0 <? i)%nat).
  { destruct (Nat.ltb_spec 0 i), (Nat.ltb_spec (i * m + j) m); simpl; auto; nia. }
  assert (Ey2 : ((i + 1) * m + j <? n * m)%nat = (i + 1 <? n)%nat).
  { destruct (Nat.ltb_spec (i + 1) n), (Nat.ltb_spec ((i + 1) * m + j) (n * m)); auto; nia. }
  rewrite Ey1, Ey2. cbn [add mul sub opp RN].
  assert (E4 : (0 < i)%nat -> (i * m + j - m = (i - 1) * m + j)%nat) by (intros; nia).
  destruct (Nat.eqb_spec j 0) as [->|Hj0].
  - rewrite (proj2 (Nat.ltb_ge 0 0)) by lia. rewrite (proj2 (Nat.ltb_lt (0 + 1) m)) by lia.
    destruct (Nat.ltb_spec 0 i) as [H|H]; [rewrite (E4 H)|]; destruct (Nat.ltb_spec (i + 1) n); cbn [negb]; try lra.
  - rewrite (proj2 (Nat.ltb_lt 0 j)) by lia.
    assert (E2 : (i * m + j - 1 = i * m + (j - 1))%nat) by lia. rewrite E2.
    destruct (Nat.eqb_spec j (m - 1)), (Nat.ltb_spec (j + 1) m); try lia;
    (destruct (Nat.ltb_spec 0 i) as [H'|H']; [rewrite (E4 H')|]; destruct (Nat.ltb_spec (i + 1) n); cbn [negb]; lra).
Qed.
Lemma hdiag_RN k : (k < NN)%nat -> nth k (@hdiag_of RN n m mu la) 0 = / (mu + dg k * la).
Proof. intros Hk. unfold hdiag_of. rewrite nth_tab by done. apply recip_RN. Qed.
Lemma jac_of_RN (b u : list R) k : (k < NN)%nat ->
  nth k (@jac_of RN n m la u b (@hdiag_of RN n m mu la)) 0 = (nth k b 0 + nbs u k * la) * / (mu + dg k * la).
Proof.
  intros Hk. unfold jac_of, xmuly_of. rewrite nth_tab by done. rewrite !at_RN.
  rewrite nth_tab by done. rewrite jac_at_RN, hdiag_RN by done. cbn [mul RN]. lra.
Qed.
Lemma jac_contract (b u v : list R) (E : R) : 0 <= E -> solves n m mu la b v ->
  within E u v NN -> within (qq * E) (@jac_of RN n m la u b (@hdiag_of RN n m mu la)) v NN.
Proof.
  intros HE Hv Hu k Hk. rewrite jac_of_RN by done. apply upd_contract; auto. by apply solves_k.
Qed.

(** ** Fixed points *)
Lemma upd_fix (b u : list R) k : (nth k b 0 + nbs u k * la) * / (mu + dg k * la) = nth k u 0 <->
  (mu + dg k * la) * nth k u 0 - la * nbs u k = nth k b 0.
Proof.
  pose proof (den_pos k) as Hd. split; intros H.
  - rewrite <- H. field. lra.
  - rewrite <- H. field. lra.
Qed.
Lemma jac_fix (b u : list R) : length u = NN ->
  (@jac_of RN n m la u b (@hdiag_of RN n m mu la) = u <-> solves n m mu la b u).
Proof.
  intros Lu. rewrite solves_k. split.
  - intros H k Hk. apply upd_fix. rewrite <- jac_of_RN by done. by rewrite H.
  - intros H. apply (list_eq_nth NN); [apply (@jac_of_len RN)|done|]. intros k Hk. rewrite jac_of_RN by done. apply upd_fix. by apply H.
Qed.
Lemma gs_later (b u : list R) t t' k : (k < t)%nat -> (t <= t')%nat -> (t' <= length u)%nat ->
  nth k (@gs_upto RN n m mu la b u t') 0 = nth k (@gs_upto RN n m mu la b u t) 0.
Proof.
  intros Hk. induction t' as [|t' IH]; intros H1 H2; [lia|].
  destruct (decide (t = S t')) as [->|]; [done|]. rewrite <- IH by lia.
  rewrite gs_S. rewrite nth_insert by (apply gs_lt; lia).
  destruct (Nat.eqb_spec k t'); [lia|done].
Qed.
Lemma insert_self (u : list R) k : (k < length u)%nat -> <[k := nth k u 0]> u = u.
Proof. intros H. apply list_insert_id. rewrite <- at_RN. exact (@at_lookup RN u k H). Qed.
Lemma gs_fix (b u : list R) : length u = NN -> (@gs_of RN n m mu la u b = u <-> solves n m mu la b u).
Proof.
  intros Lu. rewrite solves_k. unfold gs_of. fold NN. split.
  - intros H.
    assert (HI : forall t, (t <= NN)%nat -> @gs_upto RN n m mu la b u t = u /\ forall k, (k < t)%nat -> @gs_at RN n m mu la b u k = nth k u 0).
    { induction t as [|t IH]; intros Ht; [split; [done|intros; lia]|]. destruct (IH ltac:(lia)) as [E1 E2].
      assert (EV : @gs_at RN n m mu la b u t = nth t u 0).
      { assert (EH : nth t u 0 = nth t (@gs_upto RN n m mu la b u NN) 0) by exact (f_equal (fun l => nth t l 0) (eq_sym H)).
        rewrite EH. rewrite (gs_later b u (S t) NN t) by lia.
        rewrite gs_S. rewrite nth_insert by (apply gs_lt; lia).
        rewrite Nat.eqb_refl. by rewrite E1. }
      split.
      - rewrite gs_S. rewrite E1, EV. apply insert_self. lia.
      - intros k Hk. destruct (decide (k = t)) as [->|]; [done|apply E2; lia]. }
    intros k Hk. apply upd_fix. rewrite <- gs_at_RN. by apply (HI NN).
  - intros H. assert (HI : forall t, (t <= NN)%nat -> @gs_upto RN n m mu la b u t = u); [|by apply HI].
    induction t as [|t IH]; intros Ht; [done|]. rewrite gs_S. rewrite IH by lia.
    rewrite gs_at_RN. rewrite (proj2 (upd_fix b u t)) by (apply H; lia). apply insert_self. lia.
Qed.

(** ** The linear system has exactly one solution *)
Lemma within_0 u v : (forall E, 0 < E -> within E u v NN) -> forall k, (k < NN)%nat -> nth k u 0 = nth k v 0.
Proof.
  intros H k Hk. destruct (Req_dec (nth k u 0) (nth k v 0)) as [|Hne]; [done|].
  assert (0 < Rabs (nth k u 0 - nth k v 0)) by (apply Rabs_pos_lt; lra).
  pose proof (H (Rabs (nth k u 0 - nth k v 0) / 2) ltac:(lra) k Hk). lra.
Qed.
Lemma within_exists u v : exists E, 0 <= E /\ within E u v NN.
Proof.
  exists (Rsum NN (fun k => Rabs (nth k u 0 - nth k v 0))). split; [apply Rsum_nonneg; intros; apply Rabs_pos|].
  intros k Hk. apply (Rsum_term_le NN (fun k => Rabs (nth k u 0 - nth k v 0))); [intros; apply Rabs_pos|done].
Qed.
Lemma within_q u v (q E : R) : 0 <= q < 1 -> (forall F, 0 <= F -> within F u v NN -> within (q * F) u v NN) -> 0 <= E -> within E u v NN ->
  forall k, (k < NN)%nat -> nth k u 0 = nth k v 0.
Proof.
  intros Hq H HE HW.
  assert (HP : forall j, within (q ^ j * E) u v NN).
  { induction j as [|j IH]; [simpl; by rewrite Rmult_1_l|]. simpl. rewrite Rmult_assoc. apply H; [|done].
    apply Rmult_le_pos; [apply pow_le; lra|done]. }
  apply within_0. intros e He.
  destruct (pow_lt_1_zero q ltac:(rewrite Rabs_pos_eq; lra) (e / (E + 1)) ltac:(apply Rdiv_lt_0_compat; lra)) as [N HN].
  specialize (HN N ltac:(lia)). intros k Hk. eapply Rle_trans; [by apply (HP N)|].
  rewrite Rabs_pos_eq in HN by (apply pow_le; lra).
  assert (q ^ N * (E + 1) < e).
  { apply (Rmult_lt_compat_r (E + 1)) in HN; [|lra]. replace (e / (E + 1) * (E + 1)) with e in HN by (field; lra). done. }
  assert (0 <= q ^ N) by (apply pow_le; lra). nra.
Qed.
(** a vector that J >= 1 sweeps leave alone is the solution *)
Lemma sweeps_fix J (b u v : list R) : (1 <= J)%nat -> length u = NN -> length v = NN -> solves n m mu la b v ->
  @sweeps RN J n m mu la b u = u -> u = v.
Proof.
  intros HJ Lu Lv Hv Hf. pose proof qq_bounds as Hq.
  destruct (within_exists u v) as (E & HE & HW).
  apply (list_eq_nth NN); [done|done|].
  apply (within_q u v (qq ^ J) E); [|intros F HF HWF; rewrite <- Hf; by apply sweeps_contract|done|done].
  split; [apply pow_le; lra|]. destruct J as [|J]; [lia|]. simpl.
  assert (qq ^ J <= 1) by (rewrite <- (pow1 J); apply pow_incr; lra).
  assert (0 <= qq ^ J) by (apply pow_le; lra). nra.
Qed.
Lemma solves_unique (b u v : list R) : length u = NN -> length v = NN -> solves n m mu la b u -> solves n m mu la b v -> u = v.
Proof.
  intros Lu Lv Hu Hv. apply (sweeps_fix 1 b u v); auto. cbn [sweeps]. by apply gs_fix.
Qed.
Lemma Hop_ip (u v : list R) : length u = NN -> length v = NN ->
  ip NN (Hop u) v = mu * ip NN u v + la * ip NN (@Dy_of RN n m 1 u) (@Dy_of RN n m 1 v) + la * ip NN (@Dx_of RN n m 1 u) (@Dx_of RN n m 1 v).
Proof.
  intros Lu Lv.
  transitivity (mu * ip NN u v + la * ip NN (@DyT_of RN n m 1 (@Dy_of RN n m 1 u)) v + la * ip NN (@DxT_of RN n m 1 (@Dx_of RN n m 1 u)) v).
  { unfold ip. rewrite <- !Rsum_scal, <- !Rsum_plus. apply Rsum_ext. intros k Hk. rewrite Hop_D by done. cbn [T RN]. ring. }
  f_equal; [f_equal|]; f_equal.
  - rewrite (ip_sym _ _ v), (ip_sym _ (@Dy_of RN n m 1 u)).
    rewrite !ip_dot by first [done|apply (@tab_length RN)]. symmetry. apply Dy_adjoint; [lia|done|apply (@tab_length RN)].
  - rewrite (ip_sym _ _ v), (ip_sym _ (@Dx_of RN n m 1 u)).
    rewrite !ip_dot by first [done|apply (@tab_length RN)]. symmetry. apply Dx_adjoint; [lia|done|apply (@tab_length RN)].
Qed.
Lemma solves_exists (b : list R) : length b = NN -> exists u, length u = NN /\ solves n m mu la b u.
Proof.
  intros Lb. set (z := @const_of RN NN 0). assert (Lz : length z = NN) by apply (@const_of_len RN).
  destruct (cg_terminates NN Hop z b Lz) as (k & Hk & E & Hi).
  { intros u v Hu Hv. rewrite (ip_sym _ u). rewrite !Hop_ip by done. rewrite (ip_sym _ u v).
    rewrite (ip_sym _ (@Dy_of RN n m 1 u)), (ip_sym _ (@Dx_of RN n m 1 u)). done. }
  { intros u Hu Hne. rewrite ip_sym, Hop_ip by done. pose proof (ip_self_nonneg NN u).
    pose proof (ip_self_nonneg NN (@Dy_of RN n m 1 u)). pose proof (ip_self_nonneg NN (@Dx_of RN n m 1 u)).
    assert (0 < ip NN u u) by lra. assert (0 < mu * ip NN u u) by nra.
    assert (0 <= la * ip NN (@Dy_of RN n m 1 u) (@Dy_of RN n m 1 u)) by (apply Rmult_le_pos; lra).
    assert (0 <= la * ip NN (@Dx_of RN n m 1 u) (@Dx_of RN n m 1 u)) by (apply Rmult_le_pos; lra). lra. }
  set (x := @tx RN (@cg_at RN NN Hop z b k)).
  assert (Lx : length x = NN) by apply (cg_len (N := RN) NN Hop z b Lz k).
  exists x. split; [done|]. apply solves_Hop; [done|done|].
  assert (HL : linear NN Hop).
  { split; [intros; apply Hop_len|]. intros a u v Lu Lv i Hi0.
    assert (Lw : length (vlin a u 1 v) = NN) by (unfold vlin; rewrite map_length, seq_length; done).
    rewrite !Hop_k by done.
    assert (E1 : forall q, (q < NN)%nat -> nth q (vlin a u 1 v) 0 = a * nth q u 0 + nth q v 0).
    { intros q Hq. unfold vlin. rewrite Lu. rewrite nth_map_seq by done. lra. }
    assert (E2 : nbs (vlin a u 1 v) i = a * nbs u i + nbs v i).
    { unfold nbs. assert (Hn' : forall q, q ∈ nbrs n m i -> (q < NN)%nat) by (intros q; by apply nbrs_lt).
      induction (nbrs n m i) as [|q l IHl]; simpl; [lra|]. rewrite IHl by (intros; apply Hn'; by right).
      rewrite E1 by (apply Hn'; left). lra. }
    rewrite E1, E2 by done. lra. }
  apply (list_eq_nth NN); [apply Hop_len|done|]. intros i Hi0.
  pose proof (real_resid NN Hop z b k HL Lz i Hi0) as HR. fold x in HR.
  rewrite (ip_self_0 NN (@tr RN (@cg_at RN NN Hop z b k))) in HR; [lra| |done].
  rewrite <- E. symmetry. apply d_ip.
Qed.
End op.
