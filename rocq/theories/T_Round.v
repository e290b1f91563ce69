(** * C85: the accuracy of the vector kernels in IEEE binary64.

    The kernels of src/l1c_math.c and src/vcl/vcl_math.cpp are run on Flocq's binary64 arithmetic (round to nearest,
    ties to even, gradual underflow, infinities, NaN).  [uro] = 2^-53, [eta] = 2^-1075, [gam k] = (1 + 2^-53)^k - 1,
    [huge] = 2^1024 (S_Round.v).  [V xs] are the real values of an array of doubles.  Each theorem says: the call
    returns r; if r is finite, then no input was infinite or NaN, and r is within the stated distance of the exact
    result; and r is finite whenever the inputs are and their absolute sum stays below the overflow threshold. *)
From Coq Require Import ZArith Reals Lra Lia Psatz.
From Flocq Require Import Core Relative BinarySingleNaN.
From Interval Require Import Tactic.
From stdpp Require Import base numbers list.
From Verif Require Import Num NumB S_Round L_Round S_Vec S_Mem P_Mem P_Loop M_Math P_Math P_VCL T_Math P_Round.
Local Open Scope R_scope.
Local Notation sqrt := R_sqrt.sqrt.

Definition V (xs : list b64) : list R := map val xs.
Definition total (l : list R) : R := Rsum (length l) (fun i => nth i l 0).
(** no infinity and no NaN *)
Definition clean (xs : list b64) : Prop := Forall finite xs.
(** accuracy of the libm logarithm at a point: relative error e *)
Definition log_close (flog : b64 -> b64) (e : R) (x : b64) : Prop := finite (flog x) /\ Rabs (val (flog x) - ln (val x)) <= e * Rabs (ln (val x)).

Section C85.
Context (flog fexp fceil : b64 -> b64).
Notation BN := (BN_with flog fexp fceil).
Implicit Types (s : @st BN) (x y z : ptr) (xs ys : list b64).
Notation A xs i := (@at_ BN xs i).

Lemma V_nth xs i : nth i (V xs) 0 = val (A xs i).
Proof. unfold V, at_. rewrite <- (proj1 (zero_val flog fexp fceil)). apply map_nth. Qed.
Lemma V_length xs : length (V xs) = length xs. Proof. apply map_length. Qed.
Lemma clean_at xs : clean xs <-> forall i, (i < length xs)%nat -> finite (A xs i).
Proof.
  unfold clean. rewrite Forall_lookup. split.
  - intros H i Hi. apply (H i). by apply (@at_lookup BN).
  - intros H i v Hi. pose proof (lookup_lt_Some _ _ _ Hi) as L. pose proof (eq_trans (eq_sym Hi) (@at_lookup BN xs i L)) as Q. injection Q as ->. by apply H.
Qed.
Lemma eqle (xs : list b64) n : length xs = n -> (n <= length xs)%nat. Proof. intros <-. apply Nat.le_refl. Qed.
Lemma nrm1_V xs n : length xs = n -> nrm1 (V xs) = Rsum n (fun i => Rabs (val (A xs i))).
Proof. intros <-. unfold nrm1. rewrite V_length. apply Rsum_ext. intros i _. by rewrite V_nth. Qed.
Lemma total_V xs n : length xs = n -> total (V xs) = Rsum n (fun i => val (A xs i)).
Proof. intros <-. unfold total. rewrite V_length. apply Rsum_ext. intros i _. by rewrite V_nth. Qed.

(** ** sums: any way of bracketing, with any number of empty private totals *)
Theorem C85_any_bracketing xs (t : rtree) n : length xs = n -> rleaves t ≡ₚ seq 0 n ->
  let r := @reval BN (fun i => A xs i) t in
  (finite r -> clean xs /\ Rabs (val r - total (V xs)) <= gam (n - 1) * nrm1 (V xs)) /\
  (clean xs -> (1 + uro) ^ (n - 1) * nrm1 (V xs) < huge -> finite r).
Proof.
  intros L HP r. pose proof (rdepth_le t) as HD. rewrite HP, seq_length in HD. rewrite (nrm1_V xs n L), (total_V xs n L). split.
  - intros F. destruct (red_near flog fexp fceil (fun i => A xs i) (fun i => val (A xs i)) (fun i => Rabs (val (A xs i))) 0 0 t n (n - 1) (Rle_refl 0) HP HD (fun i _ Hi => near_exact _ Hi) F) as [HF (_ & _ & _ & Q)].
    split; [apply clean_at; by rewrite L|]. eapply Rle_trans; [exact Q|]. rewrite Nat.add_0_l. lra.
  - intros HC HH. rewrite clean_at, L in HC. eapply (red_fin flog fexp fceil (fun i => A xs i) (fun i => val (A xs i)) (fun i => Rabs (val (A xs i))) 0 0 t n (n - 1)); [lra|done|done|intros i Hi; by apply near_exact, HC|].
    rewrite Nat.add_0_l. eapply Rle_lt_trans; [|exact HH]. right. ring.
Qed.

(** ** l1c_dsum: src/l1c_math.c *)
Theorem C85_dsum s x xs n : @seg BN s x xs -> length xs = n ->
  exists r, @l1c_dsum BN (Z.of_nat n) x s = Ok r s /\
    (finite r -> clean xs /\ Rabs (val r - total (V xs)) <= gam (n - 1) * nrm1 (V xs)) /\
    (clean xs -> (1 + uro) ^ (n - 1) * nrm1 (V xs) < huge -> finite r).
Proof.
  intros Hx L. exists (@sum_of BN n xs). split; [apply (@dsum_run BN); [done|by apply eqle]|]. unfold sum_of. rewrite (foldi_ev flog fexp fceil (fun i => A xs i)).
  apply (C85_any_bracketing xs _ n L (comb_perm n)).
Qed.
(** ** vcl_sum: four partial sums, so about n/4 roundings *)
Theorem C85_vcl_sum s x xs n : @is_aligned BN s x = true -> @seg BN s x xs -> length xs = n ->
  exists r, @vcl_sum BN (Z.of_nat n) x s = Ok r s /\
    (finite r -> clean xs /\ Rabs (val r - total (V xs)) <= gam (n / 4 + 3) * nrm1 (V xs)) /\
    (clean xs -> (1 + uro) ^ (n / 4 + 3) * nrm1 (V xs) < huge -> finite r).
Proof.
  intros HA Hx L. exists (@vsum_of BN (fun v => v) n xs). split; [apply (@vcl_sum_run BN); [done|done|by apply eqle]|].
  assert (E : @vsum_of BN (fun v : @T BN => v) n xs = @reval BN (fun i => A xs i) (vtree n)) by exact (vtree_ev flog fexp fceil (fun v => v) n xs). rewrite E. clear E. rewrite (nrm1_V xs n L), (total_V xs n L). pose proof (vtree_leaves n) as HP. pose proof (vtree_depth n) as HD. split.
  - intros F. destruct (red_near flog fexp fceil (fun i => A xs i) (fun i => val (A xs i)) (fun i => Rabs (val (A xs i))) 0 0 (vtree n) n _ (Rle_refl 0) HP HD (fun i _ Hi => near_exact _ Hi) F) as [HF (_ & _ & _ & Q)].
    split; [apply clean_at; by rewrite L|]. eapply Rle_trans; [exact Q|]. rewrite Nat.add_0_l. lra.
  - intros HC HH. rewrite clean_at, L in HC. eapply (red_fin flog fexp fceil (fun i => A xs i) (fun i => val (A xs i)) (fun i => Rabs (val (A xs i))) 0 0 (vtree n) n _ (Rle_refl 0) HP HD); [intros i Hi; by apply near_exact, HC|].
    rewrite Nat.add_0_l. eapply Rle_lt_trans; [|exact HH]. right. ring.
Qed.
(** ** l1c_dnorm1: high relative accuracy *)
Theorem C85_dnorm1 s x xs n : @seg BN s x xs -> length xs = n ->
  exists r, @l1c_dnorm1 BN (Z.of_nat n) x s = Ok r s /\
    (finite r -> clean xs /\ Rabs (val r - nrm1 (V xs)) <= gam (n - 1) * nrm1 (V xs)) /\
    (clean xs -> (1 + uro) ^ (n - 1) * nrm1 (V xs) < huge -> finite r).
Proof.
  intros Hx L. exists (@asum_of BN n xs). split; [apply (@dasum_run BN); [done|by apply eqle]|]. unfold asum_of. rewrite (foldi_ev flog fexp fceil (fun i => @fabs BN (A xs i))).
  rewrite (nrm1_V xs n L). pose proof (comb_perm n) as HP. pose proof (comb_depth (fun i => i) n) as HD.
  assert (HN : forall i, finite (@fabs BN (A xs i)) -> near 0 0 (@fabs BN (A xs i)) (Rabs (val (A xs i))) (Rabs (val (A xs i)))).
  { intros i F. pose proof (near_exact _ F) as Q. by rewrite !(abs_val flog fexp fceil), Rabs_Rabsolu in Q. }
  split.
  - intros F. destruct (red_near flog fexp fceil (fun i => @fabs BN (A xs i)) _ _ 0 0 _ n _ (Rle_refl 0) HP HD (fun i _ => HN i) F) as [HF (_ & _ & _ & Q)].
    split; [apply clean_at; rewrite L; intros i Hi; by apply (abs_fin flog fexp fceil), HF|]. eapply Rle_trans; [exact Q|]. rewrite Nat.add_0_l. lra.
  - intros HC HH. rewrite clean_at, L in HC. eapply (red_fin flog fexp fceil (fun i => @fabs BN (A xs i)) _ _ 0 0 _ n _ (Rle_refl 0) HP HD); [intros i Hi; by apply HN, (abs_fin flog fexp fceil), HC|].
    rewrite Nat.add_0_l. eapply Rle_lt_trans; [|exact HH]. right. ring.
Qed.

(** ** cblas_ddot (the reference order of additions) *)
Lemma dot_terms xs ys n : length xs = n -> length ys = n -> dot (V xs) (V ys) = Rsum n (fun i => val (A xs i) * val (A ys i)).
Proof. intros <- L. unfold dot. rewrite V_length. apply Rsum_ext. intros i _. by rewrite !V_nth. Qed.
Definition absdot xs ys : R := dot (map Rabs (V xs)) (map Rabs (V ys)).
Lemma absdot_terms xs ys n : length xs = n -> length ys = n -> absdot xs ys = Rsum n (fun i => Rabs (val (A xs i) * val (A ys i))).
Proof.
  intros <- L. unfold absdot, dot. rewrite map_length, V_length. apply Rsum_ext. intros i Hi.
  assert (Q : forall l, nth i (map Rabs (V l)) 0 = Rabs (val (A l i))) by (intros l; rewrite <- Rabs_R0 at 1; by rewrite map_nth, V_nth). by rewrite !Q, Rabs_mult.
Qed.
Theorem C85_ddot s x xs y ys n : @seg BN s x xs -> @seg BN s y ys -> length xs = n -> length ys = n ->
  exists r, @cblas_ddot BN (Z.of_nat n) x y s = Ok r s /\
    (finite r -> clean xs /\ clean ys /\ Rabs (val r - dot (V xs) (V ys)) <= gam n * absdot xs ys + INR n * eta * (1 + uro) ^ n) /\
    (clean xs -> clean ys -> (1 + uro) ^ n * (absdot xs ys + INR n * eta) < huge -> finite r).
Proof.
  intros Hx Hy Lx Ly. exists (@dot_of BN n xs ys). split; [apply (@ddot_run BN); [done|done|by apply eqle|by apply eqle]|].
  destruct (decide (n = 0%nat)) as [->|Hn].
  { destruct xs, ys; try done. unfold dot, absdot, dot. cbn [V map length Rsum]. split; [|intros; apply (zero_val flog fexp fceil)]. intros _. split_and!; [by constructor|by constructor|].
    change (@dot_of BN 0 [] []) with (@zero BN). rewrite (proj1 (zero_val flog fexp fceil)). rewrite Rminus_0_r, Rabs_R0. change (INR 0) with 0. lra. }
  unfold dot_of. rewrite (foldi_ev flog fexp fceil (fun i => @mul BN (A xs i) (A ys i))).
  rewrite (dot_terms xs ys n Lx Ly), (absdot_terms xs ys n Lx Ly). pose proof (comb_perm n) as HP. pose proof (comb_depth (fun i => i) n) as HD. assert (En : (1 + (n - 1) = n)%nat) by lia.
  split.
  - intros F. destruct (red_near flog fexp fceil (fun i => @mul BN (A xs i) (A ys i)) _ _ 1 1 _ n _ Rle_0_1 HP HD (fun i _ => near_mul flog fexp fceil _ _) F) as [HF (_ & _ & _ & Q)]. rewrite En in Q.
    split_and!; [apply clean_at; rewrite Lx; intros i Hi; apply (fin_mul_inv _ _ _ _ _ (HF i Hi))|apply clean_at; rewrite Ly; intros i Hi; apply (fin_mul_inv _ _ _ _ _ (HF i Hi))|].
    eapply Rle_trans; [exact Q|]. rewrite Rmult_1_l. lra.
  - intros HCx HCy HH. rewrite clean_at, Lx in HCx. rewrite clean_at, Ly in HCy.
    eapply (red_fin flog fexp fceil (fun i => @mul BN (A xs i) (A ys i)) (fun i => val (A xs i) * val (A ys i)) (fun i => Rabs (val (A xs i) * val (A ys i))) 1 1 _ n _ Rle_0_1 HP HD).
    + intros i Hi. apply near_mul. apply mul_fin_size; [by apply HCx|by apply HCy|]. eapply Rle_lt_trans; [|exact HH]. pose proof uro_pos. pose proof eta_pos.
      pose proof (Rsum_term_le n (fun i => Rabs (val (A xs i) * val (A ys i))) i (fun j _ => Rabs_pos _) Hi) as Q. cbv beta in Q. pose proof (Rabs_pos (val (A xs i) * val (A ys i))).
      assert (1 <= INR n) by (apply (le_INR 1); lia). pose proof (pow_mono 1 n ltac:(lia)) as P. rewrite pow_1 in P. apply Rmult_le_compat; nra.
    + rewrite En. rewrite Rmult_1_l. exact HH.
Qed.

(** ** the 2-norms *)
Lemma finite_sq n f : (forall i, (i < n)%nat -> finite (@mul BN (f i) (f i))) -> finite (@reval BN (fun i => @mul BN (f i) (f i)) (comb (fun i => i) n)) ->
  finite (@sqrt_ BN (@reval BN (fun i => @mul BN (f i) (f i)) (comb (fun i => i) n))).
Proof. intros _ F. apply sqrt_fin; [done|]. apply tree_nonneg; [|done]. intros i _. apply mul_self_nonneg. Qed.
Theorem C85_dnrm2 s x xs n : @seg BN s x xs -> length xs = n -> (1 <= n)%nat ->
  exists r, @cblas_dnrm2 BN (Z.of_nat n) x s = Ok r s /\
    (finite r -> clean xs /\ Rabs (val r - nrm2 (V xs)) <= gam (S n) * nrm2 (V xs) + (1 + uro) * sqrt (INR n * eta * (1 + uro) ^ n)) /\
    (clean xs -> (1 + uro) ^ n * (nrm2sq (V xs) + INR n * eta) < huge -> finite r).
Proof.
  intros Hx L Hn. exists (@nrm2_of BN n xs). split; [apply (@dnrm2_run BN); [done|by apply eqle]|]. unfold nrm2_of, dot_of.
  rewrite (foldi_ev flog fexp fceil (fun i => @mul BN (A xs i) (A xs i))).
  assert (E2 : nrm2sq (V xs) = Rsum n (fun i => val (A xs i) * val (A xs i))).
  { unfold nrm2sq. rewrite V_length, L. apply Rsum_ext. intros i _. rewrite V_nth. ring. }
  assert (EA : Rsum n (fun i => Rabs (val (A xs i) * val (A xs i))) = nrm2sq (V xs)).
  { rewrite E2. apply Rsum_ext. intros i _. apply Rabs_pos_eq, Rle_0_sqr. }
  pose proof (comb_perm n) as HP. pose proof (comb_depth (fun i => i) n) as HD. assert (En : (1 + (n - 1) = n)%nat) by lia. split.
  - intros F. destruct (sqrt_fin_inv _ _ _ _ F) as [F1 _].
    destruct (red_near flog fexp fceil (fun i => @mul BN (A xs i) (A xs i)) _ _ 1 1 _ n _ Rle_0_1 HP HD (fun i _ => near_mul flog fexp fceil _ _) F1) as [HF Q]. rewrite EA, <- E2, En, Rmult_1_l in Q.
    split; [apply clean_at; rewrite L; intros i Hi; apply (fin_mul_inv _ _ _ _ _ (HF i Hi))|]. exact (near_sqrt _ _ _ _ _ _ _ Q F).
  - intros HC HH. rewrite clean_at, L in HC. rewrite <- EA in HH.
    assert (HM : forall i, (i < n)%nat -> finite (@mul BN (A xs i) (A xs i))).
    { intros i Hi. apply mul_fin_size; [by apply HC|by apply HC|]. eapply Rle_lt_trans; [|exact HH]. pose proof uro_pos. pose proof eta_pos.
      pose proof (Rsum_term_le n (fun i => Rabs (val (A xs i) * val (A xs i))) i (fun j _ => Rabs_pos _) Hi) as Q. cbv beta in Q. pose proof (Rabs_pos (val (A xs i) * val (A xs i))).
      assert (1 <= INR n) by (apply (le_INR 1); lia). pose proof (pow_mono 1 n ltac:(lia)) as P. rewrite pow_1 in P. apply Rmult_le_compat; nra. }
    apply finite_sq; [done|].
    eapply (red_fin flog fexp fceil (fun i => @mul BN (A xs i) (A xs i)) (fun i => val (A xs i) * val (A xs i)) (fun i => Rabs (val (A xs i) * val (A xs i))) 1 1 _ n _ Rle_0_1 HP HD).
    + intros i Hi. by apply near_mul, HM.
    + rewrite En. rewrite Rmult_1_l. exact HH.
Qed.
Lemma sqdiff_fin (u v : b64) : finite u -> finite v -> (1 + uro) ^ 3 * ((val u - val v) ^ 2 + eta) < huge -> finite (@mul BN (@sub BN u v) (@sub BN u v)).
Proof.
  intros Fu Fv H. set (d := val u - val v) in *. pose proof uro_pos as U. pose proof eta_pos as He. pose proof uro_lt1. pose proof (pow2_ge_0 d) as D2.
  assert (HE : Rabs (rnd d - d) <= uro * Rabs d) by (apply rnd_plus; [apply format_val|apply generic_format_opp, format_val]).
  assert (H1 : Rabs (rnd d) <= (1 + uro) * Rabs d). { replace (rnd d) with (d + (rnd d - d)) by ring. eapply Rle_trans; [apply Rabs_triang|]. lra. }
  assert (Ed : Rabs d * Rabs d = d ^ 2) by (rewrite <- Rabs_mult, Rabs_pos_eq by nra; ring). pose proof (Rabs_pos d) as Pd.
  assert (Fd : finite (@sub BN u v)).
  { apply sub_fin; [done|done|]. fold d. eapply Rle_lt_trans; [exact H1|]. destruct (Rle_lt_dec (Rabs d) 1) as [L|L].
    - apply Rle_lt_trans with 2; [nra|]. unfold huge. rewrite <- (pow_1 2) at 1. apply Rlt_pow; [lra|lia].
    - eapply Rle_lt_trans; [|exact H]. pose proof (pow_mono 1 3 ltac:(lia)) as P. rewrite pow_1 in P. apply Rmult_le_compat; nra. }
  apply mul_fin_size; [done|done|]. rewrite sub_val by done. fold d. eapply Rle_lt_trans; [|exact H]. rewrite Rabs_mult.
  assert (Rabs (rnd d) * Rabs (rnd d) <= ((1 + uro) * Rabs d) * ((1 + uro) * Rabs d)) by (apply Rmult_le_compat; auto using Rabs_pos).
  replace ((1 + uro) ^ 3 * (d ^ 2 + eta)) with ((1 + uro) * (((1 + uro) * Rabs d) * ((1 + uro) * Rabs d) + (1 + uro) ^ 2 * eta)) by (rewrite <- Ed; ring).
  apply Rmult_le_compat_l; [lra|]. pose proof (pow_ge1 2). nra.
Qed.
(** the distance of two vectors *)
Definition dist2 (u v : list R) : R := sqrt (Rsum (length u) (fun i => (nth i u 0 - nth i v 0) ^ 2)).
Theorem C85_dnrm2_err s x xs y ys n : @is_aligned BN s x = true -> @is_aligned BN s y = true -> @seg BN s x xs -> @seg BN s y ys -> length xs = n -> length ys = n -> (1 <= n)%nat ->
  exists r, @l1c_dnrm2_err BN (Z.of_nat n) x y s = Ok r s /\
    (finite r -> clean xs /\ clean ys /\
       Rabs (val r - dist2 (V xs) (V ys)) <= gam (n + 3) * dist2 (V xs) (V ys) + (1 + uro) * sqrt (INR n * eta * (1 + uro) ^ (n + 2))) /\
    (clean xs -> clean ys -> (1 + uro) ^ (n + 2) * (dist2 (V xs) (V ys) ^ 2 + INR n * eta) < huge -> finite r).
Proof.
  intros Ax Ay Hx Hy Lx Ly Hn. exists (@sqrt_ BN (@sqerr_of BN n xs ys)). split; [apply (@dnrm2_err_run BN); (done || by apply eqle)|]. unfold sqerr_of.
  rewrite (foldi_ev flog fexp fceil (fun i => @mul BN (@sub BN (A xs i) (A ys i)) (@sub BN (A xs i) (A ys i)))).
  assert (E2 : dist2 (V xs) (V ys) = sqrt (Rsum n (fun i => (val (A xs i) - val (A ys i)) ^ 2))).
  { unfold dist2. rewrite V_length, Lx. f_equal. apply Rsum_ext. intros i _. by rewrite !V_nth. }
  pose proof (comb_perm n) as HP. pose proof (comb_depth (fun i => i) n) as HD. assert (En : (3 + (n - 1) = n + 2)%nat) by lia.
  split.
  2:{ intros HCx HCy HH. rewrite clean_at, Lx in HCx. rewrite clean_at, Ly in HCy. rewrite E2 in HH. replace (sqrt (Rsum n (fun i => (val (A xs i) - val (A ys i)) ^ 2)) ^ 2) with (Rsum n (fun i => (val (A xs i) - val (A ys i)) ^ 2)) in HH.
      2:{ cbn [Rpow_def.pow]. rewrite Rmult_1_r. symmetry. apply sqrt_sqrt, Rsum_nonneg. intros i _. apply pow2_ge_0. }
      assert (HM : forall i, (i < n)%nat -> finite (@mul BN (@sub BN (A xs i) (A ys i)) (@sub BN (A xs i) (A ys i)))).
      { intros i Hi. apply sqdiff_fin; [by apply HCx|by apply HCy|]. eapply Rle_lt_trans; [|exact HH]. pose proof eta_pos.
        pose proof (Rsum_term_le n (fun i => (val (A xs i) - val (A ys i)) ^ 2) i (fun j _ => pow2_ge_0 _) Hi) as Q. cbv beta in Q. pose proof (pow2_ge_0 (val (A xs i) - val (A ys i))).
        assert (1 <= INR n) by (apply (le_INR 1); lia). pose proof (pow_mono 3 (n + 2) ltac:(lia)) as P. pose proof (pow_ge1 3). apply Rmult_le_compat; nra. }
      apply sqrt_fin; [|apply tree_nonneg; [intros i _; apply mul_self_nonneg|]];
        (eapply (red_fin flog fexp fceil (fun i => @mul BN (@sub BN (A xs i) (A ys i)) (@sub BN (A xs i) (A ys i))) (fun i => (val (A xs i) - val (A ys i)) ^ 2) (fun i => (val (A xs i) - val (A ys i)) ^ 2) 3 1 _ n _ Rle_0_1 HP HD);
         [intros i Hi; by apply near_sqdiff, HM|rewrite En, Rmult_1_l; exact HH]). }
  intros F. destruct (sqrt_fin_inv _ _ _ _ F) as [F1 _].
  destruct (red_near flog fexp fceil (fun i => @mul BN (@sub BN (A xs i) (A ys i)) (@sub BN (A xs i) (A ys i))) _ _ 3 1 _ n _ Rle_0_1 HP HD (fun i _ => near_sqdiff flog fexp fceil _ _) F1) as [HF Q].
  rewrite En, Rmult_1_l in Q.
  assert (HF' : forall i, (i < n)%nat -> finite (A xs i) /\ finite (A ys i)). { intros i Hi. destruct (fin_mul_inv _ _ _ _ _ (HF i Hi)) as [G _]. by apply fin_sub_inv in G. }
  split_and!; [apply clean_at; rewrite Lx; intros i Hi; by apply HF'|apply clean_at; rewrite Ly; intros i Hi; by apply HF'|].
  rewrite E2. replace (n + 3)%nat with (S (n + 2)) by lia. exact (near_sqrt _ _ _ _ _ _ _ Q F).
Qed.

(** ** elementwise kernels: each entry is rounded three times (two products, one sum), or twice *)
Theorem C85_daxpby_z s x xs y ys z n (a b : b64) : @xyz BN s x xs y ys z n ->
  exists rs, @l1c_daxpby_z BN (Z.of_nat n) a x b y z s = Ok tt (wr z rs s) /\ length rs = n /\
    forall i r u v, rs !! i = Some r -> xs !! i = Some u -> ys !! i = Some v ->
      (finite r -> finite a /\ finite b /\ finite u /\ finite v /\
         Rabs (val r - (val a * val u + val b * val v)) <= gam 2 * (Rabs (val a * val u) + Rabs (val b * val v)) + 2 * eta * (1 + uro) ^ 2) /\
      (finite a -> finite b -> finite u -> finite v -> (1 + uro) ^ 2 * (Rabs (val a * val u) + Rabs (val b * val v) + 2 * eta) < huge -> finite r).
Proof.
  intros H. destruct (@C09_three_operand BN s x y z xs ys n a b H) as (_ & (rs & L & HR & E) & _). exists rs. split; [exact E|]. split; [exact L|].
  intros i r u v Hr Hu Hv. assert (r = @add BN (@mul BN a u) (@mul BN b v)) as -> by (pose proof (eq_trans (eq_sym Hr) (HR i u v Hu Hv)) as Q; by injection Q). split.
  2:{ intros Fa Fb Fu Fv HH. pose proof (Rabs_pos (val a * val u)). pose proof (Rabs_pos (val b * val v)). pose proof eta_pos. pose proof (pow_mono 1 2 ltac:(lia)) as P. rewrite pow_1 in P. pose proof uro_pos.
      assert (forall w, 0 <= w -> w <= Rabs (val a * val u) + Rabs (val b * val v) + 2 * eta -> (1 + uro) * w < huge) as G by (intros w W0 W; eapply Rle_lt_trans; [|exact HH]; apply Rmult_le_compat; lra).
      eapply (near_add_fin flog fexp fceil 1 1 1); [apply near_mul, mul_fin_size; [done|done|apply G; lra]|apply near_mul, mul_fin_size; [done|done|apply G; lra]|]. eapply Rle_lt_trans; [|exact HH]. right. ring. }
  intros F. destruct (fin_add_inv _ _ _ _ _ F) as [F1 F2].
  destruct (fin_mul_inv _ _ _ _ _ F1), (fin_mul_inv _ _ _ _ _ F2). split_and!; [done..|].
  apply (near_add flog fexp fceil 1 1 1 _ _ _ _ _ _ (near_mul flog fexp fceil _ _ F1) (near_mul flog fexp fceil _ _ F2) F).
Qed.
Theorem C85_daxpy_z s x xs y ys z n (a : b64) : @xyz BN s x xs y ys z n ->
  exists rs, @l1c_daxpy_z BN (Z.of_nat n) a x y z s = Ok tt (wr z rs s) /\ length rs = n /\
    forall i r u v, rs !! i = Some r -> xs !! i = Some u -> ys !! i = Some v -> finite r ->
      finite a /\ finite u /\ finite v /\
      Rabs (val r - (val a * val u + val v)) <= gam 2 * (Rabs (val a * val u) + Rabs (val v)) + eta * (1 + uro) ^ 2.
Proof.
  intros H. destruct (@C09_three_operand BN s x y z xs ys n a a H) as (_ & _ & (rs & L & HR & E)). exists rs. split; [exact E|]. split; [exact L|].
  intros i r u v Hr Hu Hv F. assert (r = @add BN (@mul BN a u) v) as -> by (pose proof (eq_trans (eq_sym Hr) (HR i u v Hu Hv)) as Q; by injection Q). destruct (fin_add_inv _ _ _ _ _ F) as [F1 F2].
  destruct (fin_mul_inv _ _ _ _ _ F1). split_and!; [done..|].
  pose proof (near_add flog fexp fceil 1 1 0 _ _ _ _ _ _ (near_mul flog fexp fceil _ _ F1) (near_mono 0 1 0 0 _ _ _ ltac:(lia) (Rle_refl 0) (near_exact _ F2)) F) as (_ & _ & _ & Q).
  eapply Rle_trans; [exact Q|]. lra.
Qed.

(** ** l1c_dlogsum, the barrier terms, with a libm logarithm of relative accuracy e *)
Lemma rnd_normal p : / 2 ^ 1022 <= Rabs p -> Rabs (rnd p - p) <= uro * Rabs p.
Proof.
  intros H. rewrite <- uro_eq. unfold rnd. rewrite fexp64_FLT. apply (relative_error_N_FLT radix2 (-1074) 53 ltac:(lia) (fun k : Z => negb (Z.even k))).
  change (-1074 + 53 - 1)%Z with (- Z.of_nat 1022)%Z. rewrite bpow_nat. exact H.
Qed.
Lemma ln_le a b : 0 < a -> a <= b -> ln a <= ln b. Proof. intros H [Q| ->]; [left; by apply ln_increasing|apply Rle_refl]. Qed.
Lemma ln_rnd p : / 2 ^ 1022 <= p -> 0 < rnd p /\ Rabs (ln (rnd p) - ln p) <= 2 * uro.
Proof.
  intros H. assert (P0 : 0 < p). { eapply Rlt_le_trans; [|exact H]. apply Rinv_0_lt_compat, pow_lt. lra. }
  pose proof (rnd_normal p) as Q. rewrite (Rabs_pos_eq p) in Q by lra. specialize (Q H). pose proof uro_pos. assert (U : uro <= / 4). { unfold uro. apply Rinv_le_contravar; [lra|]. replace 4 with (2 ^ 2) by ring. apply Rle_pow; [lra|lia]. }
  apply Rabs_le_inv in Q. assert (P1 : 0 < rnd p) by nra. split; [done|].
  set (w := rnd p / p). replace (ln (rnd p) - ln p) with (ln w) by (unfold w, Rdiv; rewrite ln_mult by (done || by apply Rinv_0_lt_compat); rewrite ln_Rinv by done; ring). assert (W : 1 - uro <= w <= 1 + uro).
  { unfold w. split; apply (Rmult_le_reg_r p); try done; unfold Rdiv; rewrite Rmult_assoc, Rinv_l by lra; lra. }
  apply Rabs_le. split.
  - rewrite <- (Ropp_involutive (ln w)), <- ln_Rinv by lra. apply Ropp_le_contravar. eapply Rle_trans; [apply ln_le; [apply Rinv_0_lt_compat; lra|]|].
    + apply (Rinv_le_contravar (1 - uro)); lra.
    + assert (/ (1 - uro) <= 1 + 2 * uro). { apply (Rmult_le_reg_r (1 - uro)); [lra|]. rewrite Rinv_l by lra. nra. }
      eapply Rle_trans; [apply ln_le; [apply Rinv_0_lt_compat; lra|exact H1]|]. pose proof (exp_ineq1_le (2 * uro)). rewrite <- (ln_exp (2 * uro)) at 2. apply ln_le; lra.
  - eapply Rle_trans; [apply ln_le; [lra|apply W]|]. pose proof (exp_ineq1_le uro). apply Rle_trans with uro; [|lra]. rewrite <- (ln_exp uro) at 2. apply ln_le; lra.
Qed.
Theorem C85_dlogsum s x xs n (alpha : b64) (e : R) : @seg BN s x xs -> length xs = n -> 0 <= e ->
  (forall u, u ∈ xs -> finite (@mul BN alpha u) /\ / 2 ^ 1022 <= val alpha * val u /\ log_close flog e (@mul BN alpha u)) ->
  let LL := Rsum n (fun i => ln (val alpha * nth i (V xs) 0)) in
  let LA := Rsum n (fun i => Rabs (ln (val alpha * nth i (V xs) 0))) in
  exists r, @l1c_dlogsum BN (Z.of_nat n) alpha x s = Ok r s /\
    (finite r -> Rabs (val r - LL) <= gam (n - 1) * ((1 + e) * (LA + INR n * (2 * uro))) + e * (LA + INR n * (2 * uro)) + INR n * (2 * uro)).
Proof.
  intros Hx L He HU LL LA. exists (@logsum_of BN n alpha xs). split; [apply (@dlogsum_run BN); [done|by apply eqle]|]. unfold logsum_of.
  set (f := fun i => @log_ BN (@mul BN alpha (A xs i))). rewrite (foldi_ev flog fexp fceil f). intros F.
  destruct (red_near flog fexp fceil f (fun i => val (f i)) (fun i => Rabs (val (f i))) 0 0 _ n _ (Rle_refl 0) (comb_perm n) (comb_depth (fun i => i) n) (fun i _ Hi => near_exact _ Hi) F) as [_ (_ & _ & _ & Q)].
  rewrite Nat.add_0_l, Rmult_0_l, Rmult_0_l, Rmult_0_l, Rplus_0_r in Q. pose proof uro_pos as U.
  set (p := fun i => val alpha * nth i (V xs) 0). change LL with (Rsum n (fun i => ln (p i))). change LA with (Rsum n (fun i => Rabs (ln (p i)))).
  assert (HT : forall i, (i < n)%nat -> Rabs (val (f i) - ln (p i)) <= e * (Rabs (ln (p i)) + 2 * uro) + 2 * uro /\ Rabs (val (f i)) <= (1 + e) * (Rabs (ln (p i)) + 2 * uro)).
  { intros i Hi. destruct (HU (A xs i)) as (Fm & Hp & _ & HL); [apply elem_of_list_lookup; exists i; apply (@at_lookup BN); by rewrite <- L in Hi|]. rewrite mul_val in HL by done. unfold p. rewrite V_nth.
    destruct (ln_rnd _ Hp) as [_ Q2]. change (flog (@mul BN alpha (A xs i))) with (f i) in HL. set (a := ln (val alpha * val (A xs i))) in *. set (b := ln (rnd (val alpha * val (A xs i)))) in *.
    assert (B : Rabs b <= Rabs a + 2 * uro). { replace b with (a + (b - a)) by ring. eapply Rle_trans; [apply Rabs_triang|]. lra. }
    assert (e * Rabs b <= e * (Rabs a + 2 * uro)) by (by apply Rmult_le_compat_l). split.
    - replace (val (f i) - a) with ((val (f i) - b) + (b - a)) by ring. eapply Rle_trans; [apply Rabs_triang|]. lra.
    - replace (val (f i)) with ((val (f i) - b) + b) by ring. eapply Rle_trans; [apply Rabs_triang|]. lra. }
  assert (S1 : Rabs (Rsum n (fun i => val (f i)) - Rsum n (fun i => ln (p i))) <= e * (Rsum n (fun i => Rabs (ln (p i))) + INR n * (2 * uro)) + INR n * (2 * uro)).
  { rewrite <- Rsum_minus. eapply Rle_trans; [apply Rsum_abs|]. eapply Rle_trans; [apply Rsum_le; intros i Hi; apply (proj1 (HT i Hi))|]. cbv beta.
    rewrite Rsum_plus, Rsum_scal, Rsum_plus, !Rsum_const. lra. }
  assert (S2 : Rsum n (fun i => Rabs (val (f i))) <= (1 + e) * (Rsum n (fun i => Rabs (ln (p i))) + INR n * (2 * uro))).
  { eapply Rle_trans; [apply Rsum_le; intros i Hi; apply (proj2 (HT i Hi))|]. cbv beta. rewrite Rsum_scal, Rsum_plus, !Rsum_const. lra. }
  replace (val (@reval BN f (comb (fun i => i) n)) - Rsum n (fun i => ln (p i))) with ((val (@reval BN f (comb (fun i => i) n)) - Rsum n (fun i => val (f i))) + (Rsum n (fun i => val (f i)) - Rsum n (fun i => ln (p i)))) by ring.
  eapply Rle_trans; [apply Rabs_triang|]. pose proof (Rmult_le_compat_l _ _ _ (gam_nonneg (n - 1)) S2). lra.
Qed.
End C85.

(** ** Concrete cases *)
Module RoundEx.
Definition id64 : b64 -> b64 := fun x => x.
Notation B := (BN_with id64 id64 id64).
Definition k (z : Z) : b64 := @ofZ B z.
Lemma kv z : (Z.abs z <= 2 ^ 53)%Z -> val (k z) = IZR z. Proof. intros H. apply (ofZ_exact id64 id64 id64 z H). Qed.
Lemma kf z : (Z.abs z <= 2 ^ 53)%Z -> finite (k z). Proof. intros H. apply (ofZ_exact id64 id64 id64 z H). Qed.
Ltac kvs := rewrite ?kv by (vm_compute; discriminate).
Lemma big a : a <= 2 ^ 20 -> a < huge.
Proof. intros H. eapply Rle_lt_trans; [exact H|]. apply Rlt_pow; [lra|lia]. Qed.
Lemma small_pow n : (1 + uro) ^ n <= 2 ^ n. Proof. apply pow_incr. pose proof uro_pos. pose proof uro_lt1. lra. Qed.
Definition five : list b64 := [k 1; k (-2); k 3; k (-4); k 5].
Lemma five_nrm : nrm1 (V five) = 15. Proof. unfold nrm1, five, V. cbn [map length Rsum nth]. kvs. rewrite (Rabs_left (-2)), (Rabs_left (-4)), !Rabs_pos_eq by lra. lra. Qed.
Lemma five_tot : total (V five) = 3. Proof. unfold total, five, V. cbn [map length Rsum nth]. kvs. lra. Qed.
Lemma five_clean : clean five. Proof. repeat constructor; apply kf; vm_compute; discriminate. Qed.
Definition s1 : @st B := @state_of B [@full B five].
Example sum_case : exists r, @l1c_dsum B 5 (Ptr 0 0) s1 = Ok r s1 /\ finite r /\ Rabs (val r - 3) <= gam 4 * 15.
Proof.
  destruct (C85_dsum id64 id64 id64 s1 (Ptr 0 0) five 5) as (r & E & H1 & H2); [by apply (@state_of_seg B)|done|]. exists r. split; [exact E|].
  assert (F : finite r). { apply H2; [apply five_clean|]. rewrite five_nrm. apply big. pose proof (small_pow 4). change (5 - 1)%nat with 4%nat. nra. }
  split; [done|]. destruct (H1 F) as [_ Q]. by rewrite five_nrm, five_tot in Q.
Qed.
Example vcl_case : exists r, @vcl_sum B 5 (Ptr 0 0) s1 = Ok r s1 /\ finite r /\ Rabs (val r - 3) <= gam 4 * 15.
Proof.
  destruct (C85_vcl_sum id64 id64 id64 s1 (Ptr 0 0) five 5) as (r & E & H1 & H2); [done|by apply (@state_of_seg B)|done|]. exists r. split; [exact E|].
  assert (F : finite r). { apply H2; [apply five_clean|]. rewrite five_nrm. apply big. pose proof (small_pow 4). change (5 / 4 + 3)%nat with 4%nat. nra. }
  split; [done|]. destruct (H1 F) as [_ Q]. by rewrite five_nrm, five_tot in Q.
Qed.
Example norm1_case : exists r, @l1c_dnorm1 B 5 (Ptr 0 0) s1 = Ok r s1 /\ finite r /\ Rabs (val r - 15) <= gam 4 * 15.
Proof.
  destruct (C85_dnorm1 id64 id64 id64 s1 (Ptr 0 0) five 5) as (r & E & H1 & H2); [by apply (@state_of_seg B)|done|]. exists r. split; [exact E|].
  assert (F : finite r). { apply H2; [apply five_clean|]. rewrite five_nrm. apply big. pose proof (small_pow 4). change (5 - 1)%nat with 4%nat. nra. }
  split; [done|]. destruct (H1 F) as [_ Q]. by rewrite five_nrm in Q.
Qed.
Lemma eta_le1 : eta <= 1. Proof. unfold eta. rewrite <- Rinv_1. apply Rinv_le_contravar; [lra|]. apply pow_R1_Rle. lra. Qed.
Definition two34 : list b64 := [k 3; k 4].
Definition s2 : @st B := @state_of B [@full B two34; @full B [k 1; k (-1)]; @fresh B 4].
Lemma clean34 : clean two34. Proof. repeat constructor; apply kf; vm_compute; discriminate. Qed.
Lemma clean11 : clean [k 1; k (-1)]. Proof. repeat constructor; apply kf; vm_compute; discriminate. Qed.
Lemma absdot34 : absdot two34 [k 1; k (-1)] = 7.
Proof. unfold absdot, dot, two34, V. cbn [map length Rsum nth]. kvs. rewrite (Rabs_left (-1)), !Rabs_pos_eq by lra. lra. Qed.
Lemma dot34 : dot (V two34) (V [k 1; k (-1)]) = -1. Proof. unfold dot, two34, V. cbn [map length Rsum nth]. kvs. lra. Qed.
Example dot_case : exists r, @cblas_ddot B 2 (Ptr 0 0) (Ptr 1 0) s2 = Ok r s2 /\ finite r /\ Rabs (val r - (-1)) <= gam 2 * 7 + 2 * eta * (1 + uro) ^ 2.
Proof.
  destruct (C85_ddot id64 id64 id64 s2 (Ptr 0 0) two34 (Ptr 1 0) [k 1; k (-1)] 2) as (r & E & H1 & H2); [by apply (@state_of_seg B)|by apply (@state_of_seg B)|done|done|]. exists r. split; [exact E|].
  assert (F : finite r). { apply H2; [apply clean34|apply clean11|]. rewrite absdot34. apply big. pose proof (small_pow 2). pose proof (pow_ge1 2). pose proof eta_le1. pose proof eta_pos. change (INR 2) with (1 + 1). nra. }
  split; [done|]. destruct (H1 F) as (_ & _ & Q). by rewrite absdot34, dot34 in Q.
Qed.
Lemma nrm34 : nrm2sq (V two34) = 25. Proof. unfold nrm2sq, two34, V. cbn [map length Rsum nth]. kvs. lra. Qed.
Lemma nrm5 : nrm2 (V two34) = 5. Proof. unfold nrm2. rewrite nrm34. replace 25 with (5 * 5) by ring. apply sqrt_square. lra. Qed.
Example nrm2_case : exists r, @cblas_dnrm2 B 2 (Ptr 0 0) s2 = Ok r s2 /\ finite r /\ Rabs (val r - 5) <= gam 3 * 5 + (1 + uro) * sqrt (2 * eta * (1 + uro) ^ 2).
Proof.
  destruct (C85_dnrm2 id64 id64 id64 s2 (Ptr 0 0) two34 2) as (r & E & H1 & H2); [by apply (@state_of_seg B)|done|lia|]. exists r. split; [exact E|].
  assert (F : finite r). { apply H2; [apply clean34|]. rewrite nrm34. apply big. pose proof (small_pow 2). pose proof (pow_ge1 2). pose proof eta_le1. pose proof eta_pos. change (INR 2) with (1 + 1). nra. }
  split; [done|]. destruct (H1 F) as (_ & Q). by rewrite nrm5 in Q.
Qed.
(** hypotheses of the elementwise and of the distance theorem *)
Example xyz_case : @xyz B s2 (Ptr 0 0) two34 (Ptr 1 0) [k 1; k (-1)] (Ptr 2 0) 2.
Proof.
  repeat split; try done; try (by apply disj_blocks).
  - by apply (@state_of_seg B).
  - by apply (@state_of_seg B).
  - eapply (@state_of_wok B); [done|]. simpl. lia.
Qed.
Example dist_case : exists r, @l1c_dnrm2_err B 2 (Ptr 0 0) (Ptr 1 0) s2 = Ok r s2 /\
  (finite r -> Rabs (val r - dist2 (V two34) (V [k 1; k (-1)])) <= gam 5 * dist2 (V two34) (V [k 1; k (-1)]) + (1 + uro) * sqrt (2 * eta * (1 + uro) ^ 4)).
Proof.
  destruct (C85_dnrm2_err id64 id64 id64 s2 (Ptr 0 0) two34 (Ptr 1 0) [k 1; k (-1)] 2) as (r & E & H & _); [done|done|by apply (@state_of_seg B)|by apply (@state_of_seg B)|done|done|lia|].
  exists r. split; [exact E|]. intros F. by destruct (H F) as (_ & _ & Q).
Qed.
(** a bound relative to the exact sum, instead of the sum of the absolute values, is false: 2^53 + 1 - 2^53 is
    computed as 0 *)
Definition canc : list b64 := [k (2 ^ 53); k 1; k (- 2 ^ 53)].
Theorem C85_relative_sum_refuted : let s := @state_of B [@full B canc] in
  exists r, @l1c_dsum B 3 (Ptr 0 0) s = Ok r s /\ finite r /\ val r = 0 /\ total (V canc) = 1.
Proof.
  intros s. exists (@sum_of B 3 canc). split; [apply (@dsum_run B s 3 (Ptr 0 0) canc); [by apply (@state_of_seg B)|done]|].
  assert (E : @sum_of B 3 canc = B754_zero false) by (vm_compute; reflexivity). rewrite E. split; [done|]. split; [done|].
  unfold total, canc, V. cbn [map length Rsum nth]. kvs. rewrite opp_IZR. generalize (IZR (2 ^ 53)). intros w. lra.
Qed.
End RoundEx.

(** a libm logarithm that is right to 2^-52 where it is called: ln 2 rounded to the nearest double *)
Module LogEx.
Definition ln2 : b64 := @B754_finite 53 1024 false 6243314768165359 (-53) eq_refl.
Definition tlog : b64 -> b64 := fun _ => ln2.
Notation B := (BN_with tlog tlog tlog).
Definition k (z : Z) : b64 := @ofZ B z.
Definition xs : list b64 := [k 2; k 2; k 2].
Definition s : @st B := @state_of B [@full B xs].
Lemma kv z : (Z.abs z <= 2 ^ 53)%Z -> val (k z) = IZR z. Proof. intros H. apply (ofZ_exact tlog tlog tlog z H). Qed.
Lemma kf z : (Z.abs z <= 2 ^ 53)%Z -> finite (k z). Proof. intros H. apply (ofZ_exact tlog tlog tlog z H). Qed.
Lemma one_times_two : finite (@mul B (k 1) (k 2)) /\ val (@mul B (k 1) (k 2)) = 2.
Proof.
  assert (E : val (k 1) * val (k 2) = 2) by (rewrite !kv by (vm_compute; discriminate); lra). assert (R2 : rnd 2 = 2) by (apply rnd_format, (format_Z 2); vm_compute; discriminate).
  assert (F : finite (@mul B (k 1) (k 2))). { apply mul_fin; [apply kf; vm_compute; discriminate|apply kf; vm_compute; discriminate|]. rewrite E, R2, Rabs_pos_eq by lra. apply RoundEx.big. lra. }
  split; [done|]. rewrite mul_val by done. by rewrite E.
Qed.
Example log_hyps u : u ∈ xs -> finite (@mul B (k 1) u) /\ / 2 ^ 1022 <= val (k 1) * val u /\ log_close tlog (/ 2 ^ 52) (@mul B (k 1) u).
Proof.
  intros H. assert (u = k 2) as -> by (by repeat (apply elem_of_cons in H as [->|H]; [done|]); apply elem_of_nil in H). destruct one_times_two as [F E]. split; [done|]. split.
  - rewrite !kv by (vm_compute; discriminate). apply Rle_trans with 1; [|lra]. rewrite <- Rinv_1. apply Rinv_le_contravar; [lra|]. apply pow_R1_Rle. lra.
  - split; [done|]. rewrite E. change (val (tlog (@mul B (k 1) (k 2)))) with (F2R (Float radix2 6243314768165359 (-53))). unfold F2R. cbn [Fnum Fexp].
    change (-53)%Z with (- Z.of_nat 53)%Z. rewrite bpow_nat. rewrite (Rabs_pos_eq (ln 2)) by (left; rewrite <- ln_1; apply ln_increasing; lra). interval with (i_prec 120).
Qed.
Example log_case : exists r, @l1c_dlogsum B 3 (k 1) (Ptr 0 0) s = Ok r s.
Proof.
  destruct (C85_dlogsum tlog tlog tlog s (Ptr 0 0) xs 3 (k 1) (/ 2 ^ 52)) as (r & E & _); [by apply (@state_of_seg B)|done| |exact log_hyps|by exists r].
  left. apply Rinv_0_lt_compat, pow_lt. lra.
Qed.
End LogEx.
Print Assumptions C85_any_bracketing.
Print Assumptions C85_dlogsum.
