(** * Reductions over the reals and the extended reals. *)
From Coq Require Import Reals Lra Lia Psatz Arith ZArith.
From stdpp Require Import base numbers list.
From Verif Require Export P_Loop P_Math P_VCL S_Vec P_TVR.
Local Open Scope R_scope.

Lemma foldi_Rsum n (f : nat -> R) c : foldi n (fun i a => a + f i) c = c + Rsum n f.
Proof. induction n as [|n IH]; simpl; [lra|]. rewrite IH. lra. Qed.

Lemma dot_RN n (xs ys : list R) : @dot_of RN n xs ys = Rsum n (fun i => nth i xs 0 * nth i ys 0).
Proof.
  unfold dot_of. rewrite zero_RN.
  rewrite (foldi_ext n _ (fun i a => a + (nth i xs 0 * nth i ys 0))).
  - rewrite foldi_Rsum. lra.
  - intros i a _. by rewrite !at_RN.
Qed.
Lemma dot_RN' (xs ys : list R) : @dot_of RN (length xs) xs ys = dot xs ys.
Proof. apply dot_RN. Qed.
Lemma dot_self_RN (xs : list R) : @dot_of RN (length xs) xs xs = nrm2sq xs.
Proof. rewrite dot_RN. apply Rsum_ext. intros; lra. Qed.
Lemma nrm2_RN (xs : list R) : @nrm2_of RN (length xs) xs = nrm2 xs.
Proof. unfold nrm2_of, nrm2. by rewrite dot_self_RN. Qed.
Lemma asum_RN (xs : list R) : @asum_of RN (length xs) xs = nrm1 xs.
Proof.
  unfold asum_of, nrm1. rewrite zero_RN.
  rewrite (foldi_ext _ _ (fun i a => a + Rabs (nth i xs 0))).
  - rewrite foldi_Rsum. lra.
  - intros i a _. by rewrite at_RN.
Qed.
Lemma sum_RN n (xs : list R) : @sum_of RN n xs = Rsum n (fun i => nth i xs 0).
Proof.
  unfold sum_of. rewrite zero_RN. rewrite (foldi_ext _ _ (fun i a => a + nth i xs 0)).
  - rewrite foldi_Rsum. lra.
  - intros i a _. by rewrite at_RN.
Qed.
Lemma logsum_RN n (alpha : R) (xs : list R) : @logsum_of RN n alpha xs = Rsum n (fun i => ln (alpha * nth i xs 0)).
Proof.
  unfold logsum_of. rewrite zero_RN. rewrite (foldi_ext _ _ (fun i a => a + ln (alpha * nth i xs 0))).
  - rewrite foldi_Rsum. lra.
  - intros i a _. by rewrite at_RN.
Qed.
Lemma sqerr_RN n (xs ys : list R) : @sqerr_of RN n xs ys = Rsum n (fun i => (nth i xs 0 - nth i ys 0) ^ 2).
Proof.
  unfold sqerr_of. rewrite zero_RN. rewrite (foldi_ext _ _ (fun i a => a + (nth i xs 0 - nth i ys 0) ^ 2)).
  - rewrite foldi_Rsum. lra.
  - intros i a _. rewrite !at_RN. simpl. lra.
Qed.

Lemma Rsum_4 q f : Rsum (4 * q) f = Rsum q (fun k => f (4 * k)%nat + f (4 * k + 1)%nat + f (4 * k + 2)%nat + f (4 * k + 3)%nat).
Proof.
  induction q as [|q IH]; [done|]. replace (4 * S q)%nat with (4 * q + 4)%nat by lia.
  rewrite Rsum_split, IH. simpl Rsum. rewrite Nat.add_0_r. lra.
Qed.
Lemma fold4_RN (g : R -> R) (xs : list R) q :
  let v := foldi q (fun k sv => @zip4 RN Rplus sv (@map4 RN g (@four RN xs k))) (0, 0, 0, 0) in
  @horizontal_add RN v = Rsum (4 * q) (fun i => g (nth i xs 0)).
Proof.
  assert (E : foldi q (fun k sv => @zip4 RN Rplus sv (@map4 RN g (@four RN xs k))) (0, 0, 0, 0)
    = (Rsum q (fun k => g (nth (4 * k)%nat xs 0)), Rsum q (fun k => g (nth (4 * k + 1)%nat xs 0)),
       Rsum q (fun k => g (nth (4 * k + 2)%nat xs 0)), Rsum q (fun k => g (nth (4 * k + 3)%nat xs 0)))).
  { induction q as [|q IH]; [done|]. cbn [foldi]. rewrite IH. unfold four. rewrite !at_RN. done. }
  intros v. unfold v. rewrite E. cbn [horizontal_add add RN]. rewrite Rsum_4, !Rsum_plus. lra.
Qed.
Lemma vsum_RN (g : R -> R) n (xs : list R) : @vsum_of RN g n xs = Rsum n (fun i => g (nth i xs 0)).
Proof.
  pose proof (fold4_RN g xs (n / 4)) as E. cbv zeta in E.
  transitivity (foldi (n - 4 * (n / 4)) (fun i a => a + g (nth (4 * (n / 4) + i) xs 0)) 0
    + Rsum (4 * (n / 4)) (fun i => g (nth i xs 0))).
  { unfold vsum_of. rewrite zero_RN. apply (f_equal2 Rplus); [|exact E].
    apply foldi_ext. intros i a _. by rewrite at_RN. }
  rewrite foldi_Rsum. pose proof (div4_le n).
  replace n with (4 * (n / 4) + (n - 4 * (n / 4)))%nat at 4 by lia.
  rewrite Rsum_split. lra.
Qed.

(** ** order of the elements: arithmetics with a sane comparison *)
Class OrdNum (N : Num) := {
  ltb_nan_l : forall a b, isnan a = true -> ltb_ a b = false;
  ltb_nan_r : forall a b, isnan b = true -> ltb_ a b = false;
  ltb_asym : forall a b, ltb_ a b = true -> ltb_ b a = false;
  ltb_tr : forall a b c, isnan b = false -> ltb_ a b = false -> ltb_ b c = false -> ltb_ a c = false
}.
Lemma ltb_irr `{N : Num} `{!OrdNum N} a : ltb_ a a = false.
Proof. destruct (ltb_ a a) eqn:E; [|done]. pose proof (ltb_asym a a E). congruence. Qed.

Lemma max_of_spec `{N : Num} `{!OrdNum N} n (xs : list T) :
  (1 <= n)%nat -> isnan (at_ xs 0) = false ->
  (exists i, (i < n)%nat /\ max_of n xs = at_ xs i) /\ isnan (max_of n xs) = false /\
  forall i, (i < n)%nat -> ltb_ (max_of n xs) (at_ xs i) = false.
Proof.
  intros Hn H0. unfold max_of. destruct n as [|n]; [lia|]. replace (S n - 1)%nat with n by lia. clear Hn.
  induction n as [|n (IH1 & IH2 & IH3)].
  - simpl. split; [exists 0%nat; split; [lia|done]|]. split; [done|].
    intros i Hi. replace i with 0%nat by lia. apply ltb_irr.
  - simpl. set (a := foldi n _ (at_ xs 0)) in *.
    destruct (ltb_ a (at_ xs (S n))) eqn:E.
    + split; [exists (S n); split; [lia|done]|].
      split.
      { destruct (isnan (at_ xs (S n))) eqn:E2; [|done]. rewrite ltb_nan_r in E by done. done. }
      intros i Hi. destruct (Nat.eq_dec i (S n)) as [->|]; [apply ltb_irr|].
      destruct (isnan (at_ xs i)) eqn:Ei; [by apply ltb_nan_r|].
      assert (H3 : ltb_ a (at_ xs i) = false) by (apply IH3; lia).
      destruct (ltb_ (at_ xs (S n)) (at_ xs i)) eqn:E4; [|done].
      pose proof (ltb_asym _ _ E4) as E5.
      pose proof (ltb_tr a (at_ xs i) (at_ xs (S n)) Ei H3 E5). congruence.
    + destruct IH1 as (j & Hj & Ej). split; [exists j; split; [lia|done]|]. split; [done|].
      intros i Hi. destruct (Nat.eq_dec i (S n)) as [->|]; [done|]. apply IH3. lia.
Qed.
Lemma max_of_nan `{N : Num} `{!OrdNum N} n (xs : list T) :
  isnan (at_ xs 0) = true -> max_of n xs = at_ xs 0.
Proof.
  intros H. unfold max_of. induction (n - 1)%nat as [|k IH]; simpl; [done|].
  rewrite IH. by rewrite ltb_nan_l.
Qed.

Lemma Rltb_true a b : Rltb a b = true <-> a < b.
Proof. unfold Rltb. destruct (Rlt_dec a b); split; intros; auto; try done; lra. Qed.
Lemma Rltb_false a b : Rltb a b = false <-> b <= a.
Proof. unfold Rltb. destruct (Rlt_dec a b); split; intros; auto; try done; lra. Qed.
Lemma Rleb_true a b : Rleb a b = true <-> a <= b.
Proof. unfold Rleb. destruct (Rle_dec a b); split; intros; auto; try done; lra. Qed.
Lemma Rleb_false a b : Rleb a b = false <-> b < a.
Proof. unfold Rleb. destruct (Rle_dec a b); split; intros; auto; try done; lra. Qed.

Global Instance OrdER : OrdNum ER.
Proof.
  split.
  - intros [] b; done.
  - intros [] []; done.
  - intros [] []; simpl; try done. rewrite Rltb_true, Rltb_false. lra.
  - intros [] [] []; simpl; try done. rewrite !Rltb_false. lra.
Qed.
Global Instance OrdRN : OrdNum RN.
Proof.
  split; simpl; try done.
  - intros a b. rewrite Rltb_true, Rltb_false. lra.
  - intros a b c _. rewrite !Rltb_false. lra.
Qed.

(** IEEE binary64 comparison *)
From Coq Require Import Floats.
Lemma Pos_cont_spec m m' : Pos.compare_cont Eq m m' = Pos.compare m m'.
Proof. done. Qed.
Lemma SFltb_asym a b : SFltb a b = true -> SFltb b a = false.
Proof.
  unfold SFltb, SFcompare. destruct a as [[]|[]| |[] m e], b as [[]|[]| |[] m' e']; try done;
  rewrite ?(Pos_cont_spec m m'), ?(Pos_cont_spec m' m);
  destruct (Z.compare_spec e e'), (Z.compare_spec e' e); subst; try done; try lia;
  destruct (Pos.compare_spec m m'), (Pos.compare_spec m' m); subst; try done; lia.
Qed.
Lemma SFltb_tr a b c : b <> S754_nan -> SFltb a b = false -> SFltb b c = false -> SFltb a c = false.
Proof.
  unfold SFltb, SFcompare. intros Hb.
  destruct a as [[]|[]| |[] m e], b as [[]|[]| |[] m' e'], c as [[]|[]| |[] m2 e2]; try done;
  rewrite ?(Pos_cont_spec m m'), ?(Pos_cont_spec m' m2), ?(Pos_cont_spec m m2);
  destruct (Z.compare_spec e e'), (Z.compare_spec e' e2), (Z.compare_spec e e2); subst; try done; try lia;
  destruct (Pos.compare_spec m m'), (Pos.compare_spec m' m2), (Pos.compare_spec m m2); subst; try done; try lia.
Qed.
Lemma FN_isnan_spec fl fe fc ft (x : float) :
  @isnan (FN_with fl fe fc ft) x = true <-> Prim2SF x = S754_nan.
Proof.
  simpl. rewrite eqb_spec. unfold SFeqb, SFcompare.
  destruct (Prim2SF x) as [[]|[]| |[] m e] eqn:E; simpl; split; try done.
  - rewrite Z.compare_refl. rewrite (Pos.compare_cont_refl m Eq). done.
  - rewrite Z.compare_refl. rewrite (Pos.compare_cont_refl m Eq). done.
Qed.
Global Instance OrdFN fl fe fc ft : OrdNum (FN_with fl fe fc ft).
Proof.
  split.
  - intros a b H. apply FN_isnan_spec in H. simpl. rewrite ltb_spec, H. done.
  - intros a b H. apply FN_isnan_spec in H. simpl. rewrite ltb_spec, H. by destruct (Prim2SF a).
  - intros a b. simpl. rewrite !ltb_spec. apply SFltb_asym.
  - intros a b c H. simpl. rewrite !ltb_spec. apply SFltb_tr.
    intros E. apply FN_isnan_spec with (fl:=fl) (fe:=fe) (fc:=fc) (ft:=ft) in E. congruence.
Qed.
