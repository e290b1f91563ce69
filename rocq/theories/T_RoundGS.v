(** * C90: the Gauss-Seidel solver of src/bregman.c in IEEE binary64.

    The sweeps of breg_anis_guass_seidel run on Flocq's binary64 arithmetic.  [uro] = 2^-53, [eta] = 2^-1075; [V xs] are the
    real values of an array of doubles, [clean xs] says that they are all finite. *)
From Coq Require Import ZArith Reals Lra Lia Psatz.
From Flocq Require Import Core BinarySingleNaN.
From stdpp Require Import base numbers list.
From Verif Require Import Num NumB S_Round L_Round L_RoundTV L_RoundGS S_Vec S_Img S_Mem Mem P_Mem P_Loop P_TV P_TVR P_Own M_Bregman P_Bregman P_BregR P_Breg2 T_TV T_Bregman T_Round T_RoundTV.
Local Open Scope R_scope.

Section C90.
Context (flog fexp fceil : b64 -> b64).
Notation BN := (BN_with flog fexp fceil).
Notation A xs i := (@at_ BN xs i).
Implicit Types (u b : list b64).
Context (n m : nat) (mu la : b64) (Hn : (2 <= n)%nat) (Hm : (2 <= m)%nat) (Hf : fits n m).
Notation a := (val mu).
Notation l := (val la).
(** condition number of the system mu I + lambda (DxT Dx + DyT Dy) *)
Definition cond : R := (a + 4 * l) / a.
(** contraction factor of a sweep; what underflow can cost in one pixel *)
Definition shrinks : R := 4 * l / (a + 4 * l).
Definition under : R := eta * (1 + 4 * / a).
Context (Fm : finite mu) (Fl : finite la) (Sm : / 2 ^ 500 <= a) (Sl : / 2 ^ 500 <= l) (Sb : a + 4 * l <= 2 ^ 500).

Lemma a_pos : 0 < a. Proof. eapply Rlt_le_trans; [|exact Sm]. apply Rinv_0_lt_compat, pow_lt; lra. Qed.
Lemma l_pos : 0 < l. Proof. eapply Rlt_le_trans; [|exact Sl]. apply Rinv_0_lt_compat, pow_lt; lra. Qed.
Lemma cond_ge1 : 1 <= cond.
Proof. pose proof a_pos. pose proof l_pos. unfold cond. apply (Rmult_le_reg_r a); [done|]. unfold Rdiv. rewrite Rmult_assoc, Rinv_l; lra. Qed.
Lemma shrinks_cond : (1 - shrinks) * cond = 1.
Proof. pose proof a_pos. pose proof l_pos. unfold shrinks, cond. field. lra. Qed.
Lemma shrinks_qq : shrinks = qq a l. Proof. done. Qed.
Lemma under_pos : 0 < under.
Proof. unfold under. pose proof eta_pos. pose proof a_pos as Q. apply Rinv_0_lt_compat in Q. apply Rmult_lt_0_compat; lra. Qed.
Lemma under_small : under <= / 2 ^ 500.
Proof.
  pose proof a_pos as Q. assert (/ a <= 2 ^ 500) by (rewrite <- (Rinv_inv (2 ^ 500)); apply Rinv_le_contravar; [apply Rinv_0_lt_compat, pow_lt; lra|done]).
  assert (P5 : 1 <= 2 ^ 500) by (apply pow_R1_Rle; lra). unfold under. apply Rle_trans with (eta * (8 * 2 ^ 500)); [apply Rmult_le_compat_l; [pose proof eta_pos; lra|lra]|].
  replace (8 * 2 ^ 500) with (2 ^ 503) by (change 503%nat with (3 + 500)%nat; rewrite pow_add; f_equal; simpl; lra).
  unfold eta. change 1075%nat with (572 + 503)%nat. rewrite pow_add, Rinv_mult, Rmult_assoc, Rinv_l, Rmult_1_r by (apply pow_nonzero; lra). apply inv_pow_le. lia.
Qed.

(** sums over the neighbours *)
Lemma vsum_nbs u ks : vsum (@at_ BN u <$> ks) = rsum (map (fun q => nth q (V u) 0) ks).
Proof. induction ks as [|k ks IH]; [done|]. cbn [fmap list_fmap vsum map rsum fold_right]. rewrite (nthV flog fexp fceil u k). f_equal. exact IH. Qed.
Lemma deg_range k : (1 <= length (nbrs n m k) <= 4)%nat.
Proof.
  unfold nbrs. rewrite !app_length. destruct (Nat.ltb_spec (k mod m + 1) m), (Nat.ltb_spec 0 (k mod m)), (k + m <? n * m)%nat, (m <=? k)%nat; cbn [length]; try lia.
Qed.
(** one pixel *)
Lemma gs_close b u B k : clean u -> clean b -> length u = (n * m)%nat -> length b = (n * m)%nat -> (k < n * m)%nat ->
  (forall q, (q < n * m)%nat -> Rabs (nth q (V u) 0) <= B) -> B <= 2 ^ 505 -> Rabs (nth k (V b) 0) <= a * B ->
  finite (@gs_at BN n m mu la b u k) /\
  Rabs (val (@gs_at BN n m mu la b u k) - (nth k (V b) 0 + nbs n m (V u) k * l) * / (a + dg n m k * l)) <= 20 * uro * B + under.
Proof.
  intros Cu Cb Lu Lb Hk HU HB Hb. unfold gs_at. rewrite (nthV flog fexp fceil b k) in Hb |- *. unfold nbs. rewrite <- vsum_nbs. unfold dg, deg.
  pose proof (deg_range k) as DR. replace (length (nbrs n m k)) with (length (@at_ BN u <$> nbrs n m k)) in DR |- * by apply fmap_length.
  apply (update_close flog fexp fceil mu la (A b k) (@at_ BN u <$> nbrs n m k) B); try done.
  - apply (clean_upto flog fexp fceil _ _ Cb Lb). exact Hk.
  - apply Forall_fmap, Forall_forall. intros q Hq. cbn. apply (clean_upto flog fexp fceil _ _ Cu Lu). by eapply nbrs_lt.
  - apply Forall_fmap, Forall_forall. intros q Hq. cbn. rewrite <- (nthV flog fexp fceil u q). apply HU. by eapply nbrs_lt.
Qed.
Lemma gsB_S b u t : @gs_upto BN n m mu la b u (S t) = <[t := @gs_at BN n m mu la b (@gs_upto BN n m mu la b u t) t]> (@gs_upto BN n m mu la b u t).
Proof. done. Qed.
Lemma clean_ins u k x : clean u -> finite x -> clean (<[k := x]> u).
Proof. intros H F. by apply Forall_insert. Qed.
Lemma nthV_ins u k x j : (k < length u)%nat -> nth j (V (<[k := x]> u)) 0 = if (j =? k)%nat then val x else nth j (V u) 0.
Proof. intros H. rewrite !(nthV flog fexp fceil). rewrite (@at_insert BN) by exact H. by destruct (j =? k)%nat. Qed.

Lemma tri (g x w d e : R) : Rabs (g - x) <= d -> Rabs (x - w) <= e -> Rabs (g - w) <= e + d.
Proof. intros H1 H2. replace (g - w) with ((g - x) + (x - w)) by ring. eapply Rle_trans; [apply Rabs_triang|]. lra. Qed.
(** one sweep *)
Lemma gs_round b u v (X E B : R) : clean u -> clean b -> length u = (n * m)%nat -> length b = (n * m)%nat -> solves n m a l (V b) v ->
  (forall k, (k < n * m)%nat -> Rabs (nth k (V b) 0) <= a * X) -> (forall k, (k < n * m)%nat -> Rabs (nth k v 0) <= X) -> X + E <= B -> B <= 2 ^ 505 ->
  within E (V u) v (n * m) -> cond * (20 * uro * B + under) <= E ->
  clean (@gs_of BN n m mu la u b) /\ within (shrinks * E + (20 * uro * B + under)) (V (@gs_of BN n m mu la u b)) v (n * m).
Proof.
  intros Cu Cb Lu Lb Hv Hb HX HB HB5 Hu HE. pose proof a_pos as A0. pose proof l_pos as L0. pose proof (proj1 (solves_k n m a l Hn Hm (V b) v) Hv) as Hv'.
  set (dl := 20 * uro * B + under) in *. destruct (qq_bounds a l A0 L0) as [Q1 Q2]. rewrite <- shrinks_qq in Q1, Q2.
  assert (X0 : 0 <= X) by (eapply Rle_trans; [apply Rabs_pos|apply (HX 0%nat); nia]). assert (HE0 : 0 <= E) by (eapply Rle_trans; [apply Rabs_pos|apply (Hu 0%nat); nia]).
  assert (HEE : shrinks * E + dl <= E).
  { assert (dl <= (1 - shrinks) * E); [|lra]. replace dl with ((1 - shrinks) * (cond * dl)) by (rewrite <- Rmult_assoc, shrinks_cond; ring). apply Rmult_le_compat_l; lra. }
  assert (HI : forall t, (t <= n * m)%nat -> clean (@gs_upto BN n m mu la b u t) /\ forall k, (k < n * m)%nat ->
     Rabs (nth k (V (@gs_upto BN n m mu la b u t)) 0 - nth k v 0) <= (if (k <? t)%nat then shrinks * E + dl else E)).
  { induction t as [|t IH]; intros Ht; [split; [exact Cu|intros k Hk; by apply Hu]|].
    destruct (IH ltac:(lia)) as [Ct It]. set (w := @gs_upto BN n m mu la b u t) in *.
    assert (Lw : length w = (n * m)%nat) by (etransitivity; [apply (@gs_upto_len BN)|exact Lu]).
    assert (Iw : forall q, (q < n * m)%nat -> Rabs (nth q (V w) 0 - nth q v 0) <= E) by (intros q Hq; specialize (It q Hq); destruct (q <? t)%nat; lra).
    assert (Bw : forall q, (q < n * m)%nat -> Rabs (nth q (V w) 0) <= B).
    { intros q Hq. specialize (Iw q Hq). specialize (HX q Hq). replace (nth q (V w) 0) with ((nth q (V w) 0 - nth q v 0) + nth q v 0) by ring. eapply Rle_trans; [apply Rabs_triang|]. lra. }
    assert (Bb : Rabs (nth t (V b) 0) <= a * B) by (eapply Rle_trans; [apply Hb; lia|]; apply Rmult_le_compat_l; lra).
    destruct (gs_close b w B t Ct Cb Lw Lb ltac:(lia) Bw HB5 Bb) as [Fg Eg].
    pose proof (upd_contract n m a l Hn Hm A0 L0 (V b) (V w) v E t ltac:(lia) HE0 (Hv' t ltac:(lia)) Iw) as UC. rewrite <- shrinks_qq in UC.
    rewrite gsB_S. fold w. split; [by apply clean_ins|]. intros k Hk. rewrite nthV_ins by (eapply eq_ind_r with (P := fun z => (t < z)%nat); [|exact Lw]; lia).
    destruct (Nat.eqb_spec k t) as [->|Hne].
    - rewrite (proj2 (Nat.ltb_lt t (S t))) by lia. exact (tri _ _ _ _ _ Eg UC).
    - specialize (It k Hk). destruct (Nat.ltb_spec k t), (Nat.ltb_spec k (S t)); try lia; done. }
  destruct (HI (n * m)%nat ltac:(lia)) as [C I]. split; [exact C|]. intros k Hk. specialize (I k Hk). by rewrite (proj2 (Nat.ltb_lt k (n * m))) in I.
Qed.

(** maximum principle for the exact solution *)
Lemma argmax (v : list R) N : (0 < N)%nat -> exists k, (k < N)%nat /\ forall j, (j < N)%nat -> Rabs (nth j v 0) <= Rabs (nth k v 0).
Proof.
  induction N as [|N IH]; [lia|]. intros _. destruct (Nat.eq_dec N 0%nat) as [->|H0]; [exists 0%nat; split; [lia|]; intros j Hj; replace j with 0%nat by lia; lra|].
  destruct (IH ltac:(lia)) as (k & Hk & HK). destruct (Rle_dec (Rabs (nth N v 0)) (Rabs (nth k v 0))) as [H|H].
  - exists k. split; [lia|]. intros j Hj. destruct (Nat.eq_dec j N) as [->|]; [done|]. apply HK. lia.
  - exists N. split; [lia|]. intros j Hj. destruct (Nat.eq_dec j N) as [->|]; [lra|]. specialize (HK j ltac:(lia)). lra.
Qed.
Lemma max_principle (bb v : list R) X : solves n m a l bb v -> (forall k, (k < n * m)%nat -> Rabs (nth k bb 0) <= a * X) -> forall k, (k < n * m)%nat -> Rabs (nth k v 0) <= X.
Proof.
  intros Hv Hb k Hk. pose proof a_pos as A0. pose proof l_pos as L0. pose proof (proj1 (solves_k n m a l Hn Hm bb v) Hv) as Hv'.
  destruct (argmax v (n * m) ltac:(nia)) as (j & Hj & HJ). eapply Rle_trans; [by apply HJ|]. specialize (Hv' j Hj). specialize (Hb j Hj).
  set (M := Rabs (nth j v 0)) in *. pose proof (dg_pos n m j) as D0.
  assert (HN : Rabs (nbs n m v j) <= dg n m j * M).
  { pose proof (rsum_diff v [] M (nbrs n m j) ltac:(apply Rabs_pos)) as Q. assert (Z : forall ks, rsum (map (fun q : nat => nth q (@nil R) 0) ks) = 0).
    { induction ks as [|q ks IH]; [done|]. cbn [map rsum fold_right]. fold (rsum (map (fun q : nat => nth q (@nil R) 0) ks)). rewrite IH. destruct q; cbn; ring. }
    rewrite Z, Rminus_0_r in Q. apply Q. intros q Hq. replace (nth q (@nil R) 0) with 0 by (destruct q; done). rewrite Rminus_0_r. apply HJ. by eapply nbrs_lt. }
  assert (EQ : (a + dg n m j * l) * nth j v 0 = nth j bb 0 + l * nbs n m v j) by lra.
  assert (HA : (a + dg n m j * l) * M <= a * X + l * (dg n m j * M)).
  { assert (0 <= dg n m j * l) by (apply Rmult_le_pos; lra). rewrite <- (Rabs_pos_eq (a + dg n m j * l)) by lra. unfold M at 1. rewrite <- Rabs_mult, EQ.
    eapply Rle_trans; [apply Rabs_triang|]. rewrite Rabs_mult, (Rabs_pos_eq l) by lra. apply Rplus_le_compat; [done|]. apply Rmult_le_compat_l; lra. }
  apply (Rmult_le_reg_l a); [done|]. lra.
Qed.

(** ** any number of sweeps: finite throughout, geometric convergence down to cond * (80 * 2^-53 X + underflow) *)
Definition limit_accuracy (X : R) : R := cond * (80 * uro * X + 2 * under).
Lemma sweeps_round J b u v X : clean u -> clean b -> length u = (n * m)%nat -> length b = (n * m)%nat -> solves n m a l (V b) v ->
  cond <= 2 ^ 46 -> X <= 2 ^ 500 -> (forall k, (k < n * m)%nat -> Rabs (nth k (V u) 0) <= X) -> (forall k, (k < n * m)%nat -> Rabs (nth k (V b) 0) <= a * X) ->
  clean (@sweeps BN J n m mu la b u) /\ within (shrinks ^ J * (2 * X) + limit_accuracy X) (V (@sweeps BN J n m mu la b u)) v (n * m).
Proof.
  intros Cu Cb Lu Lb Hv HC HX5 HU Hb. pose proof a_pos as A0. pose proof l_pos as L0. pose proof (max_principle (V b) v X Hv Hb) as HX.
  assert (X0 : 0 <= X) by (eapply Rle_trans; [apply Rabs_pos|apply (HX 0%nat); nia]).
  pose proof cond_ge1 as C1. pose proof under_pos as U0. pose proof under_small as U5. pose proof uro_pos as UP. destruct (qq_bounds a l A0 L0) as [Q1 Q2]. rewrite <- shrinks_qq in Q1, Q2.
  assert (UC : uro * cond <= / 128). { apply Rle_trans with (uro * 2 ^ 46); [apply Rmult_le_compat_l; lra|]. unfold uro. change 53%nat with (7 + 46)%nat. rewrite pow_add, Rinv_mult, Rmult_assoc, Rinv_l, Rmult_1_r by (apply pow_nonzero; lra). simpl. lra. }
  assert (CU : cond * under <= 1). { apply Rle_trans with (2 ^ 46 * / 2 ^ 500); [apply Rmult_le_compat; lra|]. change 500%nat with (46 + 454)%nat. rewrite pow_add, Rinv_mult, <- Rmult_assoc, Rinv_r, Rmult_1_l by (apply pow_nonzero; lra). replace 1 with (/ 2 ^ 0) by (simpl; lra). apply inv_pow_le. lia. }
  set (B := 4 * X + 2 * (cond * under)). set (dl := 20 * uro * B + under).
  assert (CU0 : 0 < cond * under) by (apply Rmult_lt_0_compat; lra).
  assert (HB5 : B <= 2 ^ 505). { assert (1 <= 2 ^ 500) by (apply pow_R1_Rle; lra). replace (2 ^ 505) with (32 * 2 ^ 500) by (change 505%nat with (5 + 500)%nat; rewrite pow_add; f_equal; simpl; lra). set (Z5 := 2 ^ 500) in *. unfold B. lra. }
  assert (B0 : 0 <= B) by (unfold B; lra).
  assert (HUB : uro * cond * B <= / 128 * B) by (apply Rmult_le_compat_r; lra).
  assert (CD : cond * dl = 20 * (uro * cond * B) + cond * under) by (unfold dl; ring).
  assert (CDL : cond * dl <= limit_accuracy X).
  { rewrite CD. unfold limit_accuracy. replace (cond * (80 * uro * X + 2 * under)) with (80 * (uro * cond * X) + 2 * (cond * under)) by ring. unfold B.
    assert (uro * cond * (cond * under) <= / 128 * (cond * under)) by (apply Rmult_le_compat_r; lra). lra. }
  enough (HJ : clean (@sweeps BN J n m mu la b u) /\ within (shrinks ^ J * (2 * X) + cond * dl) (V (@sweeps BN J n m mu la b u)) v (n * m)).
  { destruct HJ as [HJ1 HJ2]. split; [exact HJ1|]. intros k Hk. eapply Rle_trans; [by apply HJ2|]. lra. }
  assert (D0 : 0 < dl) by (unfold dl; assert (0 <= 20 * uro * B) by (apply Rmult_le_pos; lra); lra). assert (CD0 : 0 < cond * dl) by (apply Rmult_lt_0_compat; lra).
  induction J as [|J IH].
  - split; [exact Cu|]. intros k Hk. cbn [sweeps Rpow_def.pow]. specialize (HU k Hk). specialize (HX k Hk). unfold Rminus. eapply Rle_trans; [apply Rabs_triang|]. rewrite Rabs_Ropp. lra.
  - destruct IH as [C W]. set (w := @sweeps BN J n m mu la b u) in *. cbn [sweeps]. fold w.
    assert (Lw : length w = (n * m)%nat) by (etransitivity; [apply (@sweeps_len BN)|exact Lu]).
    assert (PJ : 0 <= shrinks ^ J <= 1) by (split; [apply pow_le; lra|]; rewrite <- (pow1 J); apply pow_incr; lra).
    assert (PX : 0 <= shrinks ^ J * (2 * X) <= 2 * X) by (split; [apply Rmult_le_pos; lra|]; rewrite <- (Rmult_1_l (2 * X)) at 2; apply Rmult_le_compat_r; lra).
    destruct (gs_round b w v X (shrinks ^ J * (2 * X) + cond * dl) B C Cb Lw Lb Hv Hb HX) as [C' W']; [unfold B in *; lra|exact HB5|exact W|fold dl; lra|].
    split; [exact C'|]. intros k Hk. eapply Rle_trans; [by apply W'|]. fold dl. cbn [Rpow_def.pow]. right.
    replace (shrinks * (shrinks ^ J * (2 * X) + cond * dl) + dl) with (shrinks * shrinks ^ J * (2 * X) + (cond * dl - (1 - shrinks) * cond * dl + dl)) by ring.
    rewrite shrinks_cond. ring.
Qed.
Lemma sweeps_run J b u (s : @st BN) U P : length u = (n * m)%nat -> length b = (n * m)%nat -> @seg BN s U u -> @seg BN s P b -> disj U (n * m) P (n * m) ->
  @for_ BN 1 (Z.of_nat J + 1) (fun _ => @breg_anis_guass_seidel BN (Z.of_nat n) (Z.of_nat m) U P mu la) s = Ok tt (@wr BN U (@sweeps BN J n m mu la b u) s).
Proof.
  intros Lu Lb HU HP HD. assert (WU : wok s U (n * m)) by (rewrite <- Lu; by apply (@seg_wok BN) in HU).
  pose (I := fun k => @wr BN U (@sweeps BN k n m mu la b u) s).
  assert (EI : I 0%nat = s) by (by apply (@wr_self BN)). rewrite <- EI at 1. replace J with (Z.to_nat (Z.of_nat J + 1 - 1)) at 2 by lia.
  apply (@for_inv BN I). intros i Hi. unfold I at 1.
  assert (Ls : forall k, @length (@T BN) (@sweeps BN k n m mu la b u) = (n * m)%nat) by (intros j; etransitivity; [apply (@sweeps_len BN)|exact Lu]).
  rewrite (@gs_run BN _ n m U (@sweeps BN i n m mu la b u) P b mu la Hn Hm Hf).
  - rewrite (@wr_overwrite' BN); [done|by rewrite Ls|]. rewrite (@gs_of_len BN). done.
  - apply (@seg_wr BN). by rewrite Ls.
  - done.
  - apply (@seg_wr_disj BN); [by rewrite Ls|done|]. rewrite Ls. eapply eq_ind_r with (P := fun z => disj U (n * m) P z); [exact HD|exact Lb].
  - done.
  - done.
Qed.
(** J sweeps of the solver's inner loop (src/bregman.c:395-397) from any image: every double stays finite, and the image is within
    shrinks^J * 2X + cond * (80 * 2^-53 X + 2 under) of the exact solution of the linear system, in every pixel *)
Theorem C90_gauss_seidel_accuracy (b u : list b64) (X : R) : clean u -> clean b -> length u = (n * m)%nat -> length b = (n * m)%nat ->
  cond <= 2 ^ 46 -> X <= 2 ^ 500 -> (forall k, (k < n * m)%nat -> Rabs (nth k (V u) 0) <= X) -> (forall k, (k < n * m)%nat -> Rabs (nth k (V b) 0) <= a * X) ->
  exists v : list R, length v = (n * m)%nat /\ solves n m a l (V b) v /\ (forall v', length v' = (n * m)%nat -> solves n m a l (V b) v' -> v' = v) /\
  0 < shrinks < 1 /\
  forall J : nat, exists uJ : list b64, length uJ = (n * m)%nat /\ clean uJ /\
    within (shrinks ^ J * (2 * X) + limit_accuracy X) (V uJ) v (n * m) /\
    forall (s : @st BN) U P, @seg BN s U u -> @seg BN s P b -> disj U (n * m) P (n * m) ->
      @for_ BN 1 (Z.of_nat J + 1) (fun _ => @breg_anis_guass_seidel BN (Z.of_nat n) (Z.of_nat m) U P mu la) s = Ok tt (@wr BN U uJ s).
Proof.
  intros Cu Cb Lu Lb HC HX HU HB. pose proof a_pos as A0. pose proof l_pos as L0.
  destruct (solves_exists n m a l Hn Hm A0 L0 (V b) ltac:(by rewrite V_length)) as (v & Lv & Hv).
  exists v. split; [exact Lv|]. split; [exact Hv|]. split; [intros v' Lv' Hv'; by apply (solves_unique n m a l Hn Hm A0 L0 (V b))|]. split; [rewrite shrinks_qq; by apply qq_bounds|].
  intros J. destruct (sweeps_round J b u v X Cu Cb Lu Lb Hv HC HX HU HB) as [C W]. exists (@sweeps BN J n m mu la b u).
  split; [etransitivity; [apply (@sweeps_len BN)|exact Lu]|]. split; [exact C|]. split; [exact W|]. intros s U P HU' HP HD. by apply sweeps_run.
Qed.
(** the inverse diagonal written by hess_inv_diag: finite, and within 5 roundings of the exact one ([spike] is the image
    that is 1 in one pixel, so the quotient is the reciprocal of a diagonal entry of the operator) *)
Lemma diag_spike i j : (i < n)%nat -> (j < m)%nat -> 1 / tvop_at n m a l (spike n m i j) i j = / (a + dg n m (i * m + j) * l) /\ 0 < / (a + dg n m (i * m + j) * l).
Proof.
  intros Hi Hj. pose proof a_pos as A0. pose proof l_pos as L0. set (sR := @state_of RN [@fresh RN (n * m)]). assert (WR : wok sR (Ptr 0 0) (n * m)) by (eapply (@state_of_wok RN); [reflexivity|unfold fresh; by rewrite replicate_length]).
  destruct (C12_inverse_diagonal sR (Ptr 0 0) n m a l Hn Hm Hf A0 L0 WR) as (ds & E & L & H). rewrite (@hess_inv_diag_run RN sR n m (Ptr 0 0) a l Hn Hm Hf WR) in E.
  assert (LH : @length (@T RN) (@hdiag_of RN n m a l) = (n * m)%nat) by apply (@tab_length RN). assert (L' : @length (@T RN) ds = (n * m)%nat) by exact L.
  assert (ED : ds = @hdiag_of RN n m a l).
  { apply (@seg_inj RN (@wr RN (Ptr 0 0) ds sR) (Ptr 0 0)); [apply (@seg_wr RN); by rewrite L'| |by rewrite L', LH].
    replace (@wr RN (Ptr 0 0) ds sR) with (@wr RN (Ptr 0 0) (@hdiag_of RN n m a l) sR) by congruence. apply (@seg_wr RN). by rewrite LH. }
  destruct (H i j Hi Hj) as [_ Q]. rewrite <- Q, ED. unfold px. rewrite (hdiag_RN n m a l) by nia. split; [done|]. by apply Rinv_0_lt_compat, den_pos.
Qed.
Theorem C90_inverse_diagonal (s : @st BN) (D : ptr) : wok s D (n * m) ->
  exists ds : list b64, @hess_inv_diag BN (Z.of_nat n) (Z.of_nat m) mu la D s = Ok tt (@wr BN D ds s) /\ length ds = (n * m)%nat /\ clean ds /\
    forall i j, (i < n)%nat -> (j < m)%nat -> let e := 1 / tvop_at n m a l (spike n m i j) i j in 0 < e /\ Rabs (px m (V ds) i j - e) <= 5 * uro * e.
Proof.
  intros WD. exists (@hdiag_of BN n m mu la). split; [by apply (@hess_inv_diag_run BN)|]. split; [apply (@tab_length BN)|].
  assert (HR : forall k, (k < n * m)%nat -> A (@hdiag_of BN n m mu la) k = @recip BN mu la (Z.of_nat (length (nbrs n m k)))) by (intros k Hk; unfold hdiag_of; by rewrite (@at_tab BN)).
  split.
  - apply (clean_at flog fexp fceil). intros k Hk. assert (Hk' : (k < n * m)%nat) by (eapply Nat.lt_le_trans; [exact Hk|]; apply Nat.eq_le_incl, (@tab_length BN)).
    rewrite HR by done. apply recip_close; try done. apply deg_range.
  - intros i j Hi Hj e. destruct (diag_spike i j Hi Hj) as [E1 E2]. unfold e. rewrite E1. split; [exact E2|]. unfold px. rewrite (nthV flog fexp fceil), HR by nia.
    apply recip_close; try done. apply deg_range.
Qed.
End C90.

(** ** Concrete case: a 2 x 2 image, mu = 1, lambda = 2 (the driver always takes lambda = 2 mu), 100 sweeps *)
Module RoundGSEx.
Import RoundEx.
Definition rhs : list b64 := [k 3; k (-7); k 10; k 1].
Definition u0 : list b64 := [k 0; k 4; k 0; k (-2)].
Lemma v1 : val (k 1) = 1. Proof. apply kv. vm_compute; discriminate. Qed.
Lemma v2 : val (k 2) = 2. Proof. apply kv. vm_compute; discriminate. Qed.
Lemma p500 : 9 <= 2 ^ 500. Proof. apply Rle_trans with (2 ^ 4); [simpl; lra|]. apply Rle_pow; [lra|lia]. Qed.
Lemma t500 : / 2 ^ 500 <= 1. Proof. replace 1 with (/ 2 ^ 0) by (simpl; lra). apply inv_pow_le. lia. Qed.
Example gauss_seidel_case : exists (v : list R) (u100 : list b64), solves 2 2 1 2 (V rhs) v /\ clean u100 /\ within ((8 / 9) ^ 100 * 20 + 9 * (800 * uro + 10 * eta)) (V u100) v 4 /\
  let s := @state_of B [@full B u0; @full B rhs] in
  @for_ B 1 101 (fun _ => @breg_anis_guass_seidel B 2 2 (Ptr 0 0) (Ptr 1 0) (k 1) (k 2)) s = Ok tt (@wr B (Ptr 0 0) u100 s).
Proof.
  assert (EC : cond (k 1) (k 2) = 9) by (unfold cond; rewrite v1, v2; lra). assert (ES : shrinks (k 1) (k 2) = 8 / 9) by (unfold shrinks; rewrite v1, v2; lra).
  assert (EU : under (k 1) = 5 * eta) by (unfold under; rewrite v1; lra). pose proof p500 as P5. pose proof t500 as T5.
  destruct (C90_gauss_seidel_accuracy id64 id64 id64 2 2 (k 1) (k 2) ltac:(lia) ltac:(lia) ltac:(unfold fits; vm_compute; discriminate)
    ltac:(apply kf; vm_compute; discriminate) ltac:(apply kf; vm_compute; discriminate) ltac:(rewrite v1; exact T5) ltac:(rewrite v2; lra) ltac:(rewrite v1, v2; lra) rhs u0 10)
    as (v & _ & Hv & _ & _ & HJ).
  - repeat constructor; apply kf; vm_compute; discriminate.
  - repeat constructor; apply kf; vm_compute; discriminate.
  - done.
  - done.
  - rewrite EC. apply Rle_trans with (2 ^ 4); [simpl; lra|]. apply Rle_pow; [lra|lia].
  - apply Rle_trans with (2 ^ 4); [simpl; lra|]. apply Rle_pow; [lra|lia].
  - intros j Hj. unfold u0, V. destruct j as [|[|[|[|j]]]]; [..|lia]; cbn [map nth]; kvs; apply Rabs_le; lra.
  - rewrite v1. intros j Hj. unfold rhs, V. destruct j as [|[|[|[|j]]]]; [..|lia]; cbn [map nth]; kvs; apply Rabs_le; lra.
  - destruct (HJ 100%nat) as (u100 & _ & C & W & Rn). exists v, u100. rewrite v1, v2 in Hv. split; [exact Hv|]. split; [exact C|]. split.
    + unfold limit_accuracy in W. rewrite EC, ES, EU in W. intros j Hj. eapply Rle_trans; [by apply W|]. right. ring.
    + intros s. apply (Rn s (Ptr 0 0) (Ptr 1 0)); [by apply (@state_of_seg B)|by apply (@state_of_seg B)|by apply disj_blocks].
Qed.
Example inverse_diagonal_case : exists ds : list b64, let s := @state_of B [@fresh B 4] in @hess_inv_diag B 2 2 (k 1) (k 2) (Ptr 0 0) s = Ok tt (@wr B (Ptr 0 0) ds s) /\ Rabs (nth 3 (V ds) 0 - / 5) <= uro.
Proof.
  pose proof p500 as P5. pose proof t500 as T5. set (s := @state_of B [@fresh B 4]).
  destruct (C90_inverse_diagonal id64 id64 id64 2 2 (k 1) (k 2) ltac:(lia) ltac:(lia) ltac:(unfold fits; vm_compute; discriminate)
    ltac:(apply kf; vm_compute; discriminate) ltac:(apply kf; vm_compute; discriminate) ltac:(rewrite v1; exact T5) ltac:(rewrite v2; lra) ltac:(rewrite v1, v2; lra) s (Ptr 0 0)) as (ds & E & _ & _ & H).
  - by eapply (@state_of_wok B).
  - exists ds. split; [exact E|]. destruct (H 1%nat 1%nat ltac:(lia) ltac:(lia)) as [_ Q]. revert Q. rewrite v1, v2. unfold tvop_at, when, px, spike. simpl.
    replace (1 / _) with (/ 5) by lra. lra.
Qed.
End RoundGSEx.
Print Assumptions C90_gauss_seidel_accuracy.
Print Assumptions C90_inverse_diagonal.
