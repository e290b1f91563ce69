(** * Energy of the Gauss-Seidel sweeps and a bound on the Bregman iterates, over the reals. *)
From Coq Require Import ZArith Lia Reals Lra Psatz.
From stdpp Require Import base numbers list.
From Verif Require Import Mem P_Mem P_Loop P_Math P_MathR P_TV P_TVR M_Bregman P_Own P_Bregman P_Breg2 L_Sum S_Vec S_Img L_Lin P_CG P_CGR P_BregR P_BregX.
Local Open Scope R_scope.

Lemma Rsum_delay N p (g : nat -> R) : (p <= N)%nat -> (forall k, (k < N)%nat -> 0 <= g k) ->
  Rsum N (fun k => if (k <? p)%nat then 0 else g (k - p)%nat) <= Rsum N g.
Proof.
  intros Hp Hg. assert (EN : N = (p + (N - p))%nat) by lia. rewrite EN at 1. rewrite <- (Rsum_shift (N - p) p (fun k => g (k - p)%nat)).
  rewrite (Rsum_ext (N - p) _ g); [|intros k _; f_equal; lia]. apply Rsum_le_mono; [lia|done].
Qed.

Section en.
Context (n m : nat) (mu la : R).
Context (Hn : (2 <= n)%nat) (Hm : (2 <= m)%nat) (Hmu : 0 < mu) (Hla : 0 < la).
Notation NN := (n * m)%nat.
Notation HO := (Hop n m mu la).
Notation nb := (nbs n m).
Notation dgk := (dg n m).
Definition Qf (u v : list R) : R := Rsum NN (fun k => nth k (HO u) 0 * nth k v 0).
Definition En (b v : list R) : R := Qf v v / 2 - Rsum NN (fun k => nth k b 0 * nth k v 0).

Lemma dot_comm_len (x y : list R) : length x = length y -> dot x y = dot y x.
Proof. intros H. unfold dot. rewrite H. apply Rsum_ext. intros. ring. Qed.
Lemma Qf_form u v : length u = NN -> length v = NN ->
  Qf u v = mu * Rsum NN (fun k => nth k u 0 * nth k v 0) + la * dot (@Dy_of RN n m 1 v) (@Dy_of RN n m 1 u) + la * dot (@Dx_of RN n m 1 v) (@Dx_of RN n m 1 u).
Proof.
  intros Lu Lv. rewrite Dx_adjoint, Dy_adjoint by (try lia; try done; apply (@tab_length RN)). unfold dot. rewrite Lv.
  unfold Qf. rewrite <- !Rsum_scal, <- !Rsum_plus. apply Rsum_ext. intros k Hk. rewrite Hop_D by done. change (@T RN) with R. ring.
Qed.
Lemma Qf_sym u v : length u = NN -> length v = NN -> Qf u v = Qf v u.
Proof.
  intros Lu Lv. rewrite !Qf_form by done. f_equal; [f_equal|]; f_equal.
  - apply Rsum_ext. intros. ring.
  - apply dot_comm_len. transitivity (n * m)%nat; [|symmetry]; apply (@tab_length RN).
  - apply dot_comm_len. transitivity (n * m)%nat; [|symmetry]; apply (@tab_length RN).
Qed.
Lemma dot_self_nonneg (x : list R) : 0 <= dot x x.
Proof. apply Rsum_nonneg. intros. apply Rle_0_sqr. Qed.
Lemma Qf_pos u : length u = NN -> mu * Rsum NN (fun k => nth k u 0 ^ 2) <= Qf u u.
Proof.
  intros Lu. rewrite Qf_form by done. pose proof (dot_self_nonneg (@Dx_of RN n m 1 u)). pose proof (dot_self_nonneg (@Dy_of RN n m 1 u)).
  rewrite (Rsum_ext NN (fun k => nth k u 0 ^ 2) (fun k => nth k u 0 * nth k u 0)) by (intros; ring).
  assert (0 <= la * dot (@Dx_of RN n m 1 u) (@Dx_of RN n m 1 u)) by (apply Rmult_le_pos; lra).
  assert (0 <= la * dot (@Dy_of RN n m 1 u) (@Dy_of RN n m 1 u)) by (apply Rmult_le_pos; lra). lra.
Qed.
Lemma nbs_lin (v y w : list R) k : (k < NN)%nat -> (forall q, (q < NN)%nat -> nth q w 0 = nth q v 0 + nth q y 0) -> nb w k = nb v k + nb y k.
Proof.
  intros Hk H. unfold nbs. assert (HL : forall q, q ∈ nbrs n m k -> (q < NN)%nat) by (intros q Hq; by eapply nbrs_lt). revert HL.
  induction (nbrs n m k) as [|a l IH]; intros HL; cbn [map rsum fold_right]; [lra|].
  rewrite H by (apply HL; apply elem_of_list_here). unfold rsum in IH. rewrite IH; [lra|]. intros q Hq. apply HL. by apply elem_of_list_further.
Qed.
Lemma Hop_lin (v y w : list R) k : length v = NN -> length y = NN -> length w = NN -> (k < NN)%nat ->
  (forall q, (q < NN)%nat -> nth q w 0 = nth q v 0 + nth q y 0) -> nth k (HO w) 0 = nth k (HO v) 0 + nth k (HO y) 0.
Proof. intros Lv Ly Lw Hk H. rewrite !Hop_k by done. rewrite (nbs_lin v y w) by done. rewrite H by done. ring. Qed.
(** ** change of the energy along a step *)
Lemma En_step (b v y w : list R) : length v = NN -> length y = NN -> length w = NN ->
  (forall q, (q < NN)%nat -> nth q w 0 = nth q v 0 + nth q y 0) ->
  En b w = En b v + Qf y y / 2 - Rsum NN (fun k => (nth k b 0 - nth k (HO v) 0) * nth k y 0).
Proof.
  intros Lv Ly Lw H. assert (S := Qf_sym v y Lv Ly). unfold En.
  assert (E1 : Qf w w = Qf v v + Qf v y + Qf y v + Qf y y).
  { unfold Qf. rewrite <- !Rsum_plus. apply Rsum_ext. intros k Hk. rewrite (Hop_lin v y w) by done. rewrite H by done. ring. }
  assert (E2 : Rsum NN (fun k => nth k b 0 * nth k w 0) = Rsum NN (fun k => nth k b 0 * nth k v 0) + Rsum NN (fun k => nth k b 0 * nth k y 0)).
  { rewrite <- Rsum_plus. apply Rsum_ext. intros k Hk. rewrite H by done. ring. }
  assert (E3 : Rsum NN (fun k => (nth k b 0 - nth k (HO v) 0) * nth k y 0) = Rsum NN (fun k => nth k b 0 * nth k y 0) - Qf v y).
  { unfold Qf. rewrite <- Rsum_minus. apply Rsum_ext. intros. ring. }
  rewrite E1, E2, E3. lra.
Qed.
Lemma nbs_self (y : list R) i : (i < NN)%nat -> (forall q, q <> i -> nth q y 0 = 0) -> nb y i = 0.
Proof.
  intros Hi H. destruct (pos_ij n m Hn Hm i Hi) as (a & c & Ha & Hc & ->). rewrite nbs_ij by done. unfold when, px.
  destruct (Nat.ltb_spec (c + 1) m), (Nat.ltb_spec 0 c), (Nat.ltb_spec (a + 1) n), (Nat.ltb_spec 0 a); rewrite ?H by nia; lra.
Qed.
(** one pixel update *)
Lemma En_pixel (b v : list R) i : length v = NN -> (i < NN)%nat ->
  let x := @gs_at RN n m mu la b v i in
  En b (<[i := x]> v) = En b v - (mu + dgk i * la) / 2 * (x - nth i v 0) ^ 2.
Proof.
  intros Lv Hi x. pose proof (den_pos n m mu la Hmu Hla i) as Hd.
  set (t := x - nth i v 0). set (y := <[i := t]> (repeat 0 NN)).
  assert (Ly : length y = NN) by (unfold y; by rewrite insert_length, repeat_length).
  assert (Ey : forall q, nth q y 0 = if (q =? i)%nat then t else 0).
  { intros q. unfold y. rewrite nth_insert by (by rewrite repeat_length). destruct (_ =? _)%nat; [done|]. apply nth_repeat. }
  assert (Lw : length (<[i := x]> v) = NN) by (by rewrite insert_length).
  rewrite (En_step b v y _ Lv Ly Lw).
  2:{ intros q Hq. rewrite Ey, nth_insert by lia. destruct (Nat.eqb_spec q i) as [->|]; unfold t; lra. }
  assert (E1 : Qf y y = (mu + dgk i * la) * t ^ 2).
  { unfold Qf. rewrite (Rsum_single NN _ i Hi).
    - rewrite Hop_k by done. rewrite nbs_self, Ey, Nat.eqb_refl; [ring|done|]. intros q Hq. rewrite Ey. by rewrite (proj2 (Nat.eqb_neq q i) Hq).
    - intros q _ Hq. rewrite (Ey q), (proj2 (Nat.eqb_neq q i) Hq). ring. }
  assert (E2 : Rsum NN (fun k => (nth k b 0 - nth k (HO v) 0) * nth k y 0) = (mu + dgk i * la) * t ^ 2).
  { rewrite (Rsum_single NN _ i Hi).
    - rewrite Hop_k, Ey, Nat.eqb_refl by done. unfold t, x. rewrite gs_at_RN. field. lra.
    - intros q _ Hq. rewrite (Ey q), (proj2 (Nat.eqb_neq q i) Hq). ring. }
  rewrite E1, E2. fold t. lra.
Qed.
(** a partial sweep: the pixels before t carry their final value *)
Lemma gs_upto_nth (b u : list R) t q : length u = NN -> (t <= NN)%nat ->
  @nth R q (@gs_upto RN n m mu la b u t) 0 = if (q <? t)%nat then @nth R q (@gs_of RN n m mu la u b) 0 else nth q u 0.
Proof.
  intros Lu Ht. destruct (Nat.ltb_spec q t) as [Hq|Hq].
  - symmetry. apply gs_later; lia.
  - clear -Lu Ht Hq Hn Hm. induction t as [|t IH]; [done|]. rewrite gs_S, nth_insert by (apply gs_lt; lia).
    destruct (Nat.eqb_spec q t); [lia|]. apply IH; lia.
Qed.
Lemma gs_of_nth (b u : list R) k : length u = NN -> (k < NN)%nat ->
  @nth R k (@gs_of RN n m mu la u b) 0 = @gs_at RN n m mu la b (@gs_upto RN n m mu la b u k) k.
Proof.
  intros Lu Hk. pose proof (gs_upto_nth b u (S k) k Lu ltac:(lia)) as E. rewrite (proj2 (Nat.ltb_lt k (S k))) in E by lia.
  rewrite gs_S, nth_insert, Nat.eqb_refl in E by (apply gs_lt; lia). by symmetry.
Qed.
Lemma En_upto (b u : list R) t : length u = NN -> (t <= NN)%nat ->
  En b (@gs_upto RN n m mu la b u t) = En b u - Rsum t (fun k => (mu + dgk k * la) / 2 * (@nth R k (@gs_of RN n m mu la u b) 0 - nth k u 0) ^ 2).
Proof.
  intros Lu. induction t as [|t IH]; intros Ht; [cbn [Rsum]; change (@gs_upto RN n m mu la b u 0) with u; lra|].
  rewrite gs_S. pose proof (@gs_upto_len RN n m mu la b u t) as L. assert (L0 : @length R (@gs_upto RN n m mu la b u t) = NN) by (rewrite <- Lu; exact L).
  etransitivity; [exact (En_pixel b _ t L0 ltac:(lia))|]. cbv zeta. change (@T RN) with R in *. rewrite IH by lia.
  rewrite <- (gs_of_nth b u t Lu ltac:(lia)). rewrite (gs_upto_nth b u t t Lu ltac:(lia)). rewrite Nat.ltb_irrefl. cbn [Rsum]. lra.
Qed.
Lemma En_sweep (b u : list R) : length u = NN ->
  En b (@gs_of RN n m mu la u b) = En b u - Rsum NN (fun k => (mu + dgk k * la) / 2 * (@nth R k (@gs_of RN n m mu la u b) 0 - nth k u 0) ^ 2).
Proof. intros Lu. exact (En_upto b u NN Lu ltac:(lia)). Qed.
Lemma En_sweep_le (b u : list R) : length u = NN -> En b (@gs_of RN n m mu la u b) <= En b u.
Proof.
  intros Lu. rewrite En_sweep by done. assert (0 <= Rsum NN (fun k => (mu + dgk k * la) / 2 * (@nth R k (@gs_of RN n m mu la u b) 0 - nth k u 0) ^ 2)); [|lra].
  apply Rsum_nonneg. intros k _. pose proof (den_pos n m mu la Hmu Hla k). apply Rmult_le_pos; [lra|apply pow2_ge_0].
Qed.
Lemma sweeps_length J (b u : list R) : length u = NN -> length (@sweeps RN J n m mu la b u) = NN.
Proof. intros. by rewrite (@sweeps_len RN). Qed.
Lemma En_sweeps_le J (b u : list R) : length u = NN -> (1 <= J)%nat -> En b (@sweeps RN J n m mu la b u) <= En b (@gs_of RN n m mu la u b).
Proof.
  intros Lu. induction J as [|J IH]; intros HJ; [lia|]. destruct J as [|J]; [cbn [sweeps]; lra|].
  cbn [sweeps] in *. eapply Rle_trans; [apply En_sweep_le|apply IH; lia]. exact (sweeps_length (S J) b u Lu).
Qed.
Lemma dg_ge2 k : (k < NN)%nat -> 2 <= dgk k.
Proof.
  intros Hk. destruct (pos_ij n m Hn Hm k Hk) as (i & j & Hi & Hj & ->). rewrite dg_ij by done. unfold when.
  destruct (Nat.ltb_spec (j + 1) m), (Nat.ltb_spec 0 j), (Nat.ltb_spec (i + 1) n), (Nat.ltb_spec 0 i); try lia; lra.
Qed.
(** the residual before a sweep is controlled by the change of that sweep *)
Definition pvx (y : nat -> R) (k : nat) : R := if (k <? 1)%nat then 0 else y (k - 1)%nat ^ 2.
Definition pvy (y : nat -> R) (k : nat) : R := if (k <? m)%nat then 0 else y (k - m)%nat ^ 2.
Lemma jensen3 a l y p q : 0 <= l -> 0 < a <= mu + 4 * l -> (a * y - l * (p + q)) ^ 2 <= (mu + 6 * l) * ((mu + 4 * l) * y ^ 2 + l * p ^ 2 + l * q ^ 2).
Proof.
  intros Hl Ha. apply (Rle_trans _ ((a + 2 * l) * (a * y ^ 2 + l * p ^ 2 + l * q ^ 2))).
  - assert (0 <= a * l * (y + p) ^ 2) by (apply Rmult_le_pos; [apply Rmult_le_pos; lra|apply pow2_ge_0]).
    assert (0 <= a * l * (y + q) ^ 2) by (apply Rmult_le_pos; [apply Rmult_le_pos; lra|apply pow2_ge_0]).
    assert (0 <= l * l * (p - q) ^ 2) by (apply Rmult_le_pos; [apply Rmult_le_pos; lra|apply pow2_ge_0]). lra.
  - assert (P : 0 <= l * p ^ 2) by (apply Rmult_le_pos; [lra|apply pow2_ge_0]). assert (Q : 0 <= l * q ^ 2) by (apply Rmult_le_pos; [lra|apply pow2_ge_0]).
    assert (Y : 0 <= y ^ 2) by apply pow2_ge_0. assert (A : 0 <= a * y ^ 2 <= (mu + 4 * l) * y ^ 2) by (split; [apply Rmult_le_pos|apply Rmult_le_compat_r]; lra).
    apply Rmult_le_compat; lra.
Qed.
Lemma resid_k (b u : list R) k : length u = NN -> (k < NN)%nat ->
  let y q := @nth R q (@gs_of RN n m mu la u b) 0 - nth q u 0 in
  (nth k b 0 - nth k (HO u) 0) ^ 2 <= (mu + 6 * la) * ((mu + 4 * la) * y k ^ 2 + la * pvx y k + la * pvy y k).
Proof.
  intros Lu Hk y. pose proof (den_pos n m mu la Hmu Hla k) as Hd. pose proof (dg_le4 n m Hn Hm k) as H4.
  assert (HA : 0 < mu + dgk k * la <= mu + 4 * la) by (split; [done|]; assert (dgk k * la <= 4 * la) by (apply Rmult_le_compat_r; lra); lra).
  set (v := @gs_upto RN n m mu la b u k).
  assert (EY : (mu + dgk k * la) * y k = nth k b 0 - nth k (HO u) 0 + la * (nb v k - nb u k)).
  { unfold y. rewrite gs_of_nth, Hop_k, gs_at_RN by done. fold v. field. lra. }
  assert (ED : exists p q, nb v k - nb u k = p + q /\ p ^ 2 <= pvx y k /\ q ^ 2 <= pvy y k).
  { assert (V : forall q, nth q v 0 = if (q <? k)%nat then nth q u 0 + y q else nth q u 0).
    { intros q. unfold v. rewrite gs_upto_nth by (try done; lia). destruct (q <? k)%nat; [unfold y; lra|done]. }
    assert (PX : 0 <= pvx y k) by (unfold pvx; destruct (_ <? _)%nat; [lra|apply pow2_ge_0]). assert (PY : 0 <= pvy y k) by (unfold pvy; destruct (_ <? _)%nat; [lra|apply pow2_ge_0]).
    revert V PX PY. clearbody v y. clear -Hk Hm Hn. intros V PX PY. destruct (pos_ij n m Hn Hm k Hk) as (i & j & Hi & Hj & ->).
    exists (when (0 <? j)%nat (y (i * m + (j - 1))%nat)), (when (0 <? i)%nat (y ((i - 1) * m + j)%nat)). rewrite !nbs_ij by done. unfold when, px. rewrite !V.
    rewrite (proj2 (Nat.ltb_ge (i * m + (j + 1)) (i * m + j))) by lia. rewrite (proj2 (Nat.ltb_ge ((i + 1) * m + j) (i * m + j))) by nia.
    split; [|split].
    - destruct (Nat.ltb_spec 0 j); [rewrite (proj2 (Nat.ltb_lt (i * m + (j - 1)) (i * m + j))) by lia|];
      (destruct (Nat.ltb_spec 0 i); [rewrite (proj2 (Nat.ltb_lt ((i - 1) * m + j) (i * m + j))) by nia|]); repeat destruct (_ <? _)%nat; lra.
    - destruct (Nat.ltb_spec 0 j); [|lra]. unfold pvx. rewrite (proj2 (Nat.ltb_ge (i * m + j) 1)) by nia. right. do 2 f_equal. lia.
    - destruct (Nat.ltb_spec 0 i); [|lra]. unfold pvy. rewrite (proj2 (Nat.ltb_ge (i * m + j) m)) by nia. right. do 2 f_equal. nia. }
  destruct ED as (p & q & E & Hp & Hq). rewrite E in EY.
  replace (nth k b 0 - nth k (HO u) 0) with ((mu + dgk k * la) * y k - la * (p + q)) by lra.
  eapply Rle_trans; [apply jensen3; lra|]. apply Rmult_le_compat_l; [lra|].
  assert (la * p ^ 2 <= la * pvx y k) by (apply Rmult_le_compat_l; lra). assert (la * q ^ 2 <= la * pvy y k) by (apply Rmult_le_compat_l; lra). lra.
Qed.
Lemma resid_sum (b u : list R) : length u = NN ->
  Rsum NN (fun k => (nth k b 0 - nth k (HO u) 0) ^ 2) <= (mu + 6 * la) ^ 2 * Rsum NN (fun k => (@nth R k (@gs_of RN n m mu la u b) 0 - nth k u 0) ^ 2).
Proof.
  intros Lu. set (y := fun q => @nth R q (@gs_of RN n m mu la u b) 0 - nth q u 0).
  eapply Rle_trans; [apply Rsum_le; intros k Hk; apply (resid_k b u k Lu Hk)|]. fold y. rewrite Rsum_scal, !Rsum_plus, !Rsum_scal.
  assert (H1 : Rsum NN (pvx y) <= Rsum NN (fun k => y k ^ 2)) by (apply (Rsum_delay NN 1 (fun k => y k ^ 2)); [nia|intros; apply pow2_ge_0]).
  assert (H2 : Rsum NN (pvy y) <= Rsum NN (fun k => y k ^ 2)) by (apply (Rsum_delay NN m (fun k => y k ^ 2)); [nia|intros; apply pow2_ge_0]).
  change (Rsum NN (fun k => (@nth R k (@gs_of RN n m mu la u b) 0 - nth k u 0) ^ 2)) with (Rsum NN (fun k => y k ^ 2)).
  change (Rsum NN (fun i => pvx y i)) with (Rsum NN (pvx y)). change (Rsum NN (fun i => pvy y i)) with (Rsum NN (pvy y)).
  set (S := Rsum NN (fun k => y k ^ 2)) in *. replace ((mu + 6 * la) ^ 2 * S) with ((mu + 6 * la) * ((mu + 4 * la) * S + la * S + la * S)) by ring.
  apply Rmult_le_compat_l; [lra|]. assert (la * Rsum NN (pvx y) <= la * S) by (apply Rmult_le_compat_l; lra). assert (la * Rsum NN (pvy y) <= la * S) by (apply Rmult_le_compat_l; lra). lra.
Qed.
(** the progress of J sweeps *)
Lemma sweeps_progress J (b u : list R) : length u = NN -> (1 <= J)%nat ->
  let u' : list R := @sweeps RN J n m mu la b u in let r k := nth k b 0 - nth k (HO u) 0 in
  mu / 2 * Rsum NN (fun k => (nth k u' 0 - nth k u 0) ^ 2) + (mu + 2 * la) / (2 * (mu + 6 * la) ^ 2) * Rsum NN (fun k => r k ^ 2)
  <= Rsum NN (fun k => r k * (nth k u' 0 - nth k u 0)).
Proof.
  intros Lu HJ u' r. pose proof (sweeps_length J b u Lu) as Lu'. fold u' in Lu'.
  assert (HY : exists y : list R, length y = NN /\ forall k, (k < NN)%nat -> nth k y 0 = nth k u' 0 - nth k u 0).
  { exists (@tab RN NN (fun k => nth k u' 0 - nth k u 0)). split; [apply (@tab_length RN)|]. intros k Hk. by rewrite nth_tab. }
  destruct HY as (y & Ly & Ey).
  assert (ES : En b u' = En b u + Qf y y / 2 - Rsum NN (fun k => (nth k b 0 - nth k (HO u) 0) * nth k y 0)).
  { apply En_step; try done. intros q Hq. rewrite Ey by done. lra. }
  pose proof (En_sweeps_le J b u Lu HJ) as EL. fold u' in EL. rewrite En_sweep in EL by done. pose proof (Qf_pos y Ly) as QP. pose proof (resid_sum b u Lu) as RS.
  rewrite (Rsum_ext NN (fun k => (nth k b 0 - nth k (HO u) 0) * nth k y 0) (fun k => r k * (nth k u' 0 - nth k u 0))) in ES by (intros k Hk; by rewrite Ey).
  rewrite (Rsum_ext NN (fun k => nth k y 0 ^ 2) (fun k => (nth k u' 0 - nth k u 0) ^ 2)) in QP by (intros k Hk; by rewrite Ey).
  set (S1 := Rsum NN (fun k => (@nth R k (@gs_of RN n m mu la u b) 0 - nth k u 0) ^ 2)) in *.
  assert (G : (mu + 2 * la) / 2 * S1 <= Rsum NN (fun k => (mu + dgk k * la) / 2 * (@nth R k (@gs_of RN n m mu la u b) 0 - nth k u 0) ^ 2)).
  { unfold S1. rewrite <- Rsum_scal. apply Rsum_le. intros k Hk. apply Rmult_le_compat_r; [apply pow2_ge_0|]. pose proof (dg_ge2 k Hk).
    assert (2 * la <= dgk k * la) by (apply Rmult_le_compat_r; lra). lra. }
  assert (G2 : (mu + 2 * la) / (2 * (mu + 6 * la) ^ 2) * Rsum NN (fun k => r k ^ 2) <= (mu + 2 * la) / 2 * S1).
  { apply (Rle_trans _ ((mu + 2 * la) / (2 * (mu + 6 * la) ^ 2) * ((mu + 6 * la) ^ 2 * S1))).
    - apply Rmult_le_compat_l; [|exact RS]. apply Rlt_le, Rdiv_lt_0_compat; [lra|]. apply Rmult_lt_0_compat; [lra|]. apply pow_lt. lra.
    - right. field. lra. }
  lra.
Qed.
End en.
