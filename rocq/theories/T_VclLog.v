(** * C86: the vectorised logarithm, and the sum of logarithms built on it.

    log_d of include/vcl/vectormath_exp.h (used by vcl_logsum, src/vcl/vcl_math.cpp, for the barrier function of
    l1qc_newton.c:59-60) on Flocq's binary64, for every choice of fused or separate multiply-adds and for both ways of
    reading the exponent.  [log_spec x r] is what a caller may expect of r = log(x). *)
From Coq Require Import ZArith Reals Lra Lia Psatz.
From Flocq Require Import Core BinarySingleNaN.
From Interval Require Import Tactic.
From stdpp Require Import base numbers list.
From Verif Require Import Num NumB S_Round L_Round S_Vec S_Mem Mem P_Mem P_Loop M_Math P_Math P_VCL T_Math P_Round T_Round M_VclLog L_LogApprox L_VclLog P_VclLog.
Local Open Scope R_scope.

(** the smallest normal number is 2^-1022 *)
Definition log_spec (x r : b64) : Prop :=
  match x with
  | B754_nan => r = B754_nan
  | B754_infinity neg => r = if neg then B754_nan else B754_infinity false
  | B754_zero _ => r = B754_infinity true
  | B754_finite _ _ _ _ =>
      (/ 2 ^ 1022 <= val x -> finite r /\ Rabs (val r - ln (val x)) <= / 2 ^ 49 * Rabs (ln (val x))) /\
      (Rabs (val x) < / 2 ^ 1022 -> r = B754_infinity true) /\
      (val x <= - / 2 ^ 1022 -> r = B754_nan)
  end.

Section lanes.
Context (fused : nat -> bool) (vl : bool).
Definition lane (x : b64) : b64 := log_select x (log_res fused vl x).
Lemma smallest_val : val smallest_normal = / 2 ^ 1022.
Proof.
  change (val smallest_normal) with (F2R (Float radix2 4503599627370496 (- Z.of_nat 1074))). rewrite F2R_neg.
  assert (E : 2 ^ 1074 = 2 ^ 52 * 2 ^ 1022) by (rewrite <- pow_add; reflexivity). rewrite E. replace (IZR 4503599627370496) with (2 ^ 52) by lra. unfold Rdiv. rewrite Rinv_mult.
  rewrite <- Rmult_assoc, Rinv_r by (apply pow_nonzero; lra). lra.
Qed.
Lemma underflow_spec x : finite x -> underflow x = Rlt_bool (val x) (/ 2 ^ 1022).
Proof. intros F. unfold underflow. rewrite <- smallest_val. by apply Bltb_correct. Qed.
Lemma subnormal_spec s m e H : is_subnormal (B754_finite s m e H) = Rlt_bool (Rabs (val (B754_finite s m e H))) (/ 2 ^ 1022).
Proof.
  assert (EA : Rabs (val (B754_finite s m e H)) = F2R (Float radix2 (Z.pos m) e)). { change (val (B754_finite s m e H)) with (F2R (Float radix2 (SpecFloat.cond_Zopp s (Z.pos m)) e)). rewrite <- F2R_Zabs. f_equal. f_equal. by destruct s. }
  rewrite EA. cbn [is_subnormal]. pose proof H as B'. unfold SpecFloat.bounded in B'. apply andb_prop in B' as [B1 B2].
  unfold SpecFloat.canonical_mantissa in B1. apply Zeq_bool_eq in B1. rewrite Digits.Zpos_digits2_pos in B1. unfold SpecFloat.fexp, SpecFloat.emin in B1.
  assert (Hl : (2 ^ (Digits.Zdigits radix2 (Z.pos m) - 1) <= Z.pos m)%Z) by (apply (Digits.Zdigits_correct radix2 (Z.pos m))).
  assert (EN : / 2 ^ 1022 = F2R (Float radix2 (2 ^ 52) (-1074))). { rewrite <- smallest_val. reflexivity. } rewrite EN.
  destruct (Z.ltb_spec (Z.pos m) (2 ^ 52)%Z) as [Hm|Hm]; symmetry.
  - apply Rlt_bool_true. assert (e = -1074)%Z as ->. { assert (Digits.Zdigits radix2 (Z.pos m) - 1 < 52)%Z; [|lia]. apply (Z.pow_lt_mono_r_iff 2); lia. }
    by apply F2R_lt.
  - apply Rlt_bool_false. apply Rle_trans with (F2R (Float radix2 (2 ^ 52) e)); [|by apply F2R_le]. unfold F2R. cbn [Fnum Fexp]. apply Rmult_le_compat_l; [apply IZR_le; lia|]. apply bpow_le. lia.
Qed.
Lemma normal_select x r : normal x -> log_select x r = r.
Proof.
  intros [F H]. unfold log_select, overflow. rewrite (underflow_spec x F), Rlt_bool_false by done. destruct x as [s|s| |s m e B]; try done.
  - exfalso. change (val (B754_zero s)) with 0 in H. assert (0 < / 2 ^ 1022) by (apply Rinv_0_lt_compat, pow_lt; lra). lra.
  - rewrite subnormal_spec, Rlt_bool_false by (eapply Rle_trans; [exact H|apply Rle_abs]). by destruct s.
Qed.
(** the early return, taken if no lane is abnormal, changes nothing *)
Lemma quiet x r : overflow x || underflow x = false -> log_select x r = r.
Proof.
  intros H. apply orb_false_iff in H as [H1 H2]. assert (F : finite x) by (unfold overflow in H1; by apply negb_false_iff in H1). apply normal_select. split; [done|].
  rewrite (underflow_spec x F) in H2. destruct (Rlt_bool_spec (val x) (/ 2 ^ 1022)); [done|lra].
Qed.
Lemma log_d_lanes a b c d : log_d fused vl (a, b, c, d) = (lane a, lane b, lane c, lane d).
Proof.
  unfold log_d, vmap, horizontal_or. destruct (_ || _) eqn:E; [done|]. cbn [negb]. apply orb_false_iff in E as [E Ed]. apply orb_false_iff in E as [E Ec]. apply orb_false_iff in E as [Ea Eb].
  unfold lane. by rewrite !quiet by done.
Qed.
Lemma log_res_close x : normal x -> finite (log_res fused vl x) /\ Rabs (val (log_res fused vl x) - ln (val x)) <= / 2 ^ 49 * Rabs (ln (val x)).
Proof.
  intros Hn. pose proof (reduction vl x Hn) as Q. cbv zeta in Q. destruct Q as (j & K & FX & VX & Ff & Vf & Kb & Ex & RX).
  set (X := bminus (if_add (negb (Bltb sqrt2_half (fraction_2 x))) (fraction_2 x) (fraction_2 x)) d_one) in *. set (fe := if_add (Bltb sqrt2_half (fraction_2 x)) (exponent_f vl x) d_one) in *.
  change (log_res fused vl x) with (fin_res fused X fe).
  assert (ZX : val X = 0 \/ / 9007199254740992 <= Rabs (val X)).
  { destruct (Z.eq_dec j 0%Z) as [->|Hj]; [left; rewrite VX; unfold Rdiv; ring|right]. rewrite VX. unfold Rdiv. rewrite Rabs_mult, <- abs_IZR. rewrite (Rabs_pos_eq (/ 2 ^ 53)) by (apply Rlt_le, Rinv_0_lt_compat, pow_lt; lra).
    replace (2 ^ 53) with 9007199254740992 by lra. assert (1 <= IZR (Z.abs j)) by (apply IZR_le; lia). lra. }
  assert (U16 : / 2 ^ 49 = 16 * uro) by (unfold uro; lra). rewrite U16.
  assert (El : ln (val x) = IZR K * ln 2 + ln (1 + val X)).
  { rewrite Ex, ln_mult by (lra || apply bpow_gt_0). rewrite bpow_powerRZ. change (IZR radix2) with 2. rewrite Rplus_comm. f_equal. rewrite powerRZ_Rpower by lra. unfold Rpower. by rewrite ln_exp. }
  rewrite El. destruct (Z.eq_dec K 0%Z) as [EK|EK].
  - replace (IZR K * ln 2 + ln (1 + val X)) with (ln (1 + val X)) by (rewrite EK; ring). apply (final_K0 fused X (val X) FX eq_refl RX ZX fe K); done.
  - apply (final_K fused X (val X) FX eq_refl RX ZX fe K); try done. intros _. rewrite <- abs_IZR. apply IZR_le. lia.
Qed.
Lemma lane_spec x : log_spec x (lane x).
Proof.
  assert (P0 : 0 < / 2 ^ 1022) by (apply Rinv_0_lt_compat, pow_lt; lra).
  destruct x as [s|s| |s m e B]; cbn [log_spec].
  - unfold lane, log_select. by destruct s.
  - unfold lane, log_select. by destruct s.
  - done.
  - split; [|split].
    + intros H. assert (Hn : normal (B754_finite s m e B)) by (split; done). unfold lane. rewrite normal_select by done. by apply log_res_close.
    + intros H. unfold lane, log_select. rewrite subnormal_spec, Rlt_bool_true by done. rewrite orb_true_r. done.
    + intros H. unfold lane, log_select. rewrite subnormal_spec. rewrite underflow_spec by done. revert H P0. generalize (/ 2 ^ 1022). intros w H P0. rewrite Rlt_bool_false by (rewrite Rabs_left1; lra). rewrite Rlt_bool_true by lra.
      by destruct s.
Qed.
(** each lane of the result is the logarithm of that lane, whatever the other lanes are *)
Theorem C86_log_lanes a b c d a' b' c' d' : log_d fused vl (a, b, c, d) = (a', b', c', d') -> log_spec a a' /\ log_spec b b' /\ log_spec c c' /\ log_spec d d'.
Proof. rewrite log_d_lanes. intros [= <- <- <- <-]. eauto using lane_spec. Qed.
End lanes.

(** the coefficients are the doubles nearest to the decimal literals of the source *)
Theorem C86_constants :
  Rabs (val ln2_hi - 693359375 / 10 ^ 9) <= / 2 ^ 54 /\ Rabs (val ln2_lo - - (2121944400546905827679 / 10 ^ 25)) <= / 2 ^ 66 /\
  Rabs (val P0log - 770838733755885391666 / 10 ^ 20) <= / 2 ^ 51 /\ Rabs (val P1log - 179368678507819816313 / 10 ^ 19) <= / 2 ^ 49 /\
  Rabs (val P2log - 144989225341610930846 / 10 ^ 19) <= / 2 ^ 50 /\ Rabs (val P3log - 470579119878881725854 / 10 ^ 20) <= / 2 ^ 51 /\
  Rabs (val P4log - 497494994976747001425 / 10 ^ 21) <= / 2 ^ 55 /\ Rabs (val P5log - 101875663804580931796 / 10 ^ 24) <= / 2 ^ 67 /\
  Rabs (val Q0log - 231251620126765340583 / 10 ^ 19) <= / 2 ^ 49 /\ Rabs (val Q1log - 711544750618563894466 / 10 ^ 19) <= / 2 ^ 47 /\
  Rabs (val Q2log - 829875266912776603211 / 10 ^ 19) <= / 2 ^ 47 /\ Rabs (val Q3log - 452279145837532221105 / 10 ^ 19) <= / 2 ^ 48 /\
  Rabs (val Q4log - 112873587189167450590 / 10 ^ 19) <= / 2 ^ 50 /\ Rabs (2 * val sqrt2_half - 141421356237309504880 / 10 ^ 20) <= / 2 ^ 53.
Proof.
  assert (Vp : forall m k H, val (dbl false m (- Z.of_nat k) H) = IZR (Z.pos m) / 2 ^ k) by (intros m k H; exact (F2R_neg (Z.pos m) k)).
  assert (Vn : forall m k H, val (dbl true m (- Z.of_nat k) H) = IZR (Z.neg m) / 2 ^ k) by (intros m k H; exact (F2R_neg (Z.neg m) k)).
  unfold ln2_hi, ln2_lo, P0log, P1log, P2log, P3log, P4log, P5log, Q0log, Q1log, Q2log, Q3log, Q4log, sqrt2_half.
  rewrite (Vp _ 53%nat), (Vn _ 65%nat), (Vp _ 50%nat), (Vp _ 48%nat), (Vp _ 49%nat), (Vp _ 50%nat), (Vp _ 54%nat), (Vp _ 66%nat), (Vp _ 48%nat), (Vp _ 46%nat), (Vp _ 46%nat), (Vp _ 47%nat), (Vp _ 49%nat), (Vp _ 53%nat).
  repeat split; apply Rabs_le; lra.
Qed.

(** ** vcl_logsum *)
Section logsum.
Context (fused : nat -> bool) (vl : bool) (flog fexp fceil : b64 -> b64).
Notation BN := (BN_with flog fexp fceil).
Notation A xs i := (@at_ BN xs i).
Notation ev := (@reval BN).
(** the i-th logarithm: the vector one for the first 4*(n/4) elements, the one of libm for the others *)
Definition term (n : nat) (alpha : b64) (xs : list b64) (i : nat) : b64 :=
  if (i <? 4 * (n / 4))%nat then lane fused vl (bmult (A xs i) alpha) else flog (bmult (A xs i) alpha).
Lemma zero_eq : @zero BN = d_zero. Proof. vm_compute. reflexivity. Qed.
Lemma foldi_ext {B} n (f g : nat -> B -> B) a : (forall i a, (i < n)%nat -> f i a = g i a) -> foldi n f a = foldi n g a.
Proof. induction n as [|n IH]; intros H; [done|]. cbn [foldi]. rewrite IH by (intros; apply H; lia). apply H. lia. Qed.
Lemma logsum_d_run s n alpha x xs : @is_aligned BN s x = true -> @seg BN s x xs -> (n <= length xs)%nat ->
  vcl_logsum_d fused vl flog fexp fceil (Z.of_nat n) alpha x s = Ok (ev (term n alpha xs) (vtree n)) s.
Proof.
  intros HA Hx Hl. unfold vcl_logsum_d. pose proof (div4_le n) as Hd. cbv zeta. rewrite regularpart_eq, div4. rewrite <- zero_eq.
  set (g := fun v : b64 => lane fused vl (bmult v alpha)). set (h := fun v : b64 => flog (bmult v alpha)).
  rewrite (@bind_ok BN _ _ _ _ _ (foldi (n / 4) (fun k sv => @zip4 BN (@add BN) sv (@map4 BN g (@four BN xs k))) (@zero BN, @zero BN, @zero BN, @zero BN)) s).
  2:{ apply (@for4_run BN). intros k a Hk. rewrite (@bind_ok BN _ _ _ _ _ _ _ (@load_a_run BN s x xs k HA Hx ltac:(lia))). unfold vmap, four. rewrite log_d_lanes. done. }
  rewrite (@bind_ok BN _ _ _ _ _ _ _ (@vcl_tail BN n h s x xs _ Hx Hl (fun i a Hi => @bind_ok BN _ _ _ _ _ _ _ (@seg_ld BN s x xs i Hx ltac:(lia))))).
  unfold ret. f_equal. unfold vtree. cbv zeta. cbn [reval]. change bplus with (@add BN). f_equal.
  - rewrite <- (comb_ev flog fexp fceil (term n alpha xs)). apply foldi_ext. intros i a Hi. unfold term. rewrite (proj2 (Nat.ltb_ge _ _)) by lia. done.
  - rewrite <- !(comb_ev flog fexp fceil (term n alpha xs)).
    rewrite !(foldi_ext (n / 4) (fun i a => @add BN a (term n alpha xs _)) (fun i a => @add BN a (g (A xs _)))) by (intros i a Hi; unfold term; rewrite (proj2 (Nat.ltb_lt _ _)) by lia; done).
    clear. generalize (n / 4)%nat as q. intros q.
    transitivity (@horizontal_add BN (foldi q (fun i a => @add BN a (g (A xs (4 * i)))) (@zero BN), foldi q (fun i a => @add BN a (g (A xs (4 * i + 1)))) (@zero BN),
      foldi q (fun i a => @add BN a (g (A xs (4 * i + 2)))) (@zero BN), foldi q (fun i a => @add BN a (g (A xs (4 * i + 3)))) (@zero BN))); [|done].
    f_equal. induction q as [|q IH]; [done|]. cbn [foldi]. by rewrite IH.
Qed.
Lemma pow_u_2 k : (Z.of_nat k <= 2 ^ 40)%Z -> (1 + uro) ^ k <= 2.
Proof.
  intros H. pose proof uro_pos as U. apply Rle_trans with (exp (INR k * uro)).
  - clear H. pose proof (exp_ineq1_le uro) as E1. induction k as [|k IH]; [change (INR 0) with 0; rewrite Rmult_0_l, exp_0; apply Rle_refl|].
    rewrite S_INR, Rmult_plus_distr_r, Rmult_1_l, exp_plus, (Rmult_comm (exp (INR k * uro))). change ((1 + uro) ^ S k) with ((1 + uro) * (1 + uro) ^ k).
    apply Rmult_le_compat; [lra|apply pow_le; lra|done|done].
  - assert (INR k * uro <= / 2). { apply Rle_trans with (2 ^ 40 * uro); [|rewrite uro_num; lra]. apply Rmult_le_compat_r; [lra|]. rewrite INR_IZR_INZ. change (2 ^ 40) with (IZR 2 ^ 40). rewrite pow_IZR. by apply IZR_le. }
    apply Rle_trans with (exp (/ 2)); [apply exp_le; lra|interval].
Qed.
Lemma ln_range (x : b64) : finite x -> / 2 ^ 1022 <= val x -> Rabs (ln (val x)) <= 710.
Proof.
  intros F H. assert (P0 : 0 < / 2 ^ 1022) by (apply Rinv_0_lt_compat, pow_lt; lra). assert (PX : 0 < val x) by (eapply Rlt_le_trans; [exact P0|exact H]).
  assert (Hu : val x <= 2 ^ 1024). { apply Rle_trans with (Rabs (val x)); [apply Rle_abs|]. left. change (Rabs (val x) < huge); rewrite <- huge_eq. apply abs_B2R_lt_emax. }
  assert (L : forall k, ln (2 ^ k) = INR k * ln 2) by (intros k; apply ln_pow; lra).
  assert (L2 : 69 / 100 <= ln 2 <= 693148 / 1000000) by (split; interval).
  apply Rabs_le. split.
  - apply Rle_trans with (ln (/ 2 ^ 1022)); [|by apply ln_le]. rewrite ln_Rinv by (apply pow_lt; lra). rewrite L. replace (INR 1022) with 1022 by (rewrite INR_IZR_INZ; reflexivity). lra.
  - eapply Rle_trans; [apply ln_le; [exact PX|exact Hu]|]. rewrite L. replace (INR 1024) with 1024 by (rewrite INR_IZR_INZ; reflexivity). lra.
Qed.
Theorem C86_vcl_logsum s x xs n (alpha : b64) : @is_aligned BN s x = true -> @seg BN s x xs -> length xs = n -> (Z.of_nat n <= 2 ^ 31)%Z ->
  (forall u, u ∈ xs -> finite (bmult u alpha) /\ / 2 ^ 1022 <= val u * val alpha) ->
  (forall i, (4 * (n / 4) <= i < n)%nat -> log_close flog (/ 2 ^ 49) (bmult (nth i xs d_zero) alpha)) ->
  let LL := Rsum n (fun i => ln (nth i (V xs) 0 * val alpha)) in
  let LA := Rsum n (fun i => Rabs (ln (nth i (V xs) 0 * val alpha))) in
  exists r, vcl_logsum_d fused vl flog fexp fceil (Z.of_nat n) alpha x s = Ok r s /\ finite r /\
    Rabs (val r - LL) <= gam (n / 4 + 3) * ((1 + / 2 ^ 49) * (LA + INR n * (2 * uro))) + / 2 ^ 49 * (LA + INR n * (2 * uro)) + INR n * (2 * uro).
Proof.
  intros HA Hx L Hn HU HT LL LA. eexists. split; [apply logsum_d_run; [done|done|by apply eqle]|].
  set (e := / 2 ^ 49). set (f := term n alpha xs). pose proof uro_pos as U. assert (He : 0 <= e) by (left; apply Rinv_0_lt_compat, pow_lt; lra). assert (He1 : e <= / 2) by (unfold e; lra).
  set (p := fun i => nth i (V xs) 0 * val alpha). change LL with (Rsum n (fun i => ln (p i))). change LA with (Rsum n (fun i => Rabs (ln (p i)))).
  assert (HF : forall i, (i < n)%nat -> finite (f i) /\ Rabs (val (f i) - ln (val (bmult (A xs i) alpha))) <= e * Rabs (ln (val (bmult (A xs i) alpha))) /\ / 2 ^ 1022 <= p i /\
     finite (bmult (A xs i) alpha) /\ val (bmult (A xs i) alpha) = rnd (p i) /\ / 2 ^ 1022 <= rnd (p i)).
  { intros i Hi. destruct (HU (A xs i)) as (Fm & Hp); [apply elem_of_list_lookup; exists i; apply (@at_lookup BN); by rewrite <- L in Hi|].
    assert (Ev : val (bmult (A xs i) alpha) = rnd (p i)). { unfold p. rewrite (V_nth flog fexp fceil). apply (mul_val flog fexp fceil). exact Fm. }
    assert (Hp' : / 2 ^ 1022 <= p i) by (unfold p; rewrite (V_nth flog fexp fceil); exact Hp).
    assert (Hr : / 2 ^ 1022 <= rnd (p i)). { rewrite <- smallest_val, <- (rnd_format (val smallest_normal)) by apply format_val. apply round_le; [apply fexp64_valid|apply valid_rnd_N|]. by rewrite smallest_val. }
    assert (HQ : finite (f i) /\ Rabs (val (f i) - ln (val (bmult (A xs i) alpha))) <= e * Rabs (ln (val (bmult (A xs i) alpha)))).
    { unfold f, term. destruct (Nat.ltb_spec i (4 * (n / 4))) as [Hlt|Hge].
      - assert (Hnm : normal (bmult (A xs i) alpha)) by (split; [exact Fm|by rewrite Ev]). unfold lane. rewrite normal_select by done. by apply log_res_close.
      - specialize (HT i (conj Hge Hi)). assert (EN : nth i xs d_zero = A xs i). { symmetry. apply nth_lookup_Some. apply (@at_lookup BN). by rewrite <- L in Hi. } rewrite EN in HT. exact HT. }
    destruct HQ as [Q1 Q2]. repeat split; done. }
  assert (HV : forall i, (i < n)%nat -> Rabs (val (f i)) <= 1100).
  { intros i Hi. destruct (HF i Hi) as (Q1 & Q2 & Q3 & Q4 & Q5 & Q6). pose proof (ln_range _ Q4 ltac:(by rewrite Q5)) as B. set (b := ln (val (bmult (A xs i) alpha))) in *.
    replace (val (f i)) with ((val (f i) - b) + b) by ring. eapply Rle_trans; [apply Rabs_triang|]. assert (e * Rabs b <= / 2 * 710) by (apply Rmult_le_compat; [done|apply Rabs_pos|done|done]). lra. }
  assert (FR : finite (ev f (vtree n))).
  { apply (red_fin flog fexp fceil f (fun i => val (f i)) (fun i => Rabs (val (f i))) 0 0 (vtree n) n (n / 4 + 3)); [lra|apply vtree_leaves|apply vtree_depth|intros i Hi; apply near_exact, (HF i Hi)|].
    rewrite Nat.add_0_l, !Rmult_0_l, Rplus_0_r. assert (S : Rsum n (fun i => Rabs (val (f i))) <= INR n * 1100). { eapply Rle_trans; [apply Rsum_le; intros i Hi; apply (HV i Hi)|]. rewrite Rsum_const. lra. }
    assert (P2 : (1 + uro) ^ (n / 4 + 3) <= 2). { apply pow_u_2. pose proof (div4_le n). lia. }
    assert (IN : INR n <= 2147483648). { rewrite INR_IZR_INZ. apply IZR_le. exact Hn. } pose proof (pos_INR n).
    assert (S0 : 0 <= Rsum n (fun i => Rabs (val (f i)))) by (eapply Rle_trans; [apply Rabs_pos|apply (Rsum_abs n (fun i => val (f i)))]).
    apply Rle_lt_trans with (2 * (INR n * 1100)); [apply Rmult_le_compat; [apply pow_le; lra|done|done|done]|]. unfold huge. apply Rlt_le_trans with (2 ^ 60); [lra|apply Rle_pow; [lra|lia]]. }
  split; [exact FR|].
  destruct (red_near flog fexp fceil f (fun i => val (f i)) (fun i => Rabs (val (f i))) 0 0 _ n _ (Rle_refl 0) (vtree_leaves n) (vtree_depth n) (fun i _ Hi => near_exact _ Hi) FR) as [_ (_ & _ & _ & Q)].
  rewrite Nat.add_0_l, Rmult_0_l, Rmult_0_l, Rmult_0_l, Rplus_0_r in Q.
  assert (HE : forall i, (i < n)%nat -> Rabs (val (f i) - ln (p i)) <= e * (Rabs (ln (p i)) + 2 * uro) + 2 * uro /\ Rabs (val (f i)) <= (1 + e) * (Rabs (ln (p i)) + 2 * uro)).
  { intros i Hi. destruct (HF i Hi) as (Q1 & Q2 & Q3 & Q4 & Q5 & Q6). rewrite Q5 in Q2. destruct (ln_rnd _ Q3) as [_ Q7]. set (a := ln (p i)) in *. set (b := ln (rnd (p i))) in *.
    assert (B : Rabs b <= Rabs a + 2 * uro). { replace b with (a + (b - a)) by ring. eapply Rle_trans; [apply Rabs_triang|]. lra. }
    assert (e * Rabs b <= e * (Rabs a + 2 * uro)) by (by apply Rmult_le_compat_l). clearbody e. split.
    - replace (val (f i) - a) with ((val (f i) - b) + (b - a)) by ring. eapply Rle_trans; [apply Rabs_triang|]. lra.
    - replace (val (f i)) with ((val (f i) - b) + b) by ring. eapply Rle_trans; [apply Rabs_triang|]. lra. }
  clearbody e.
  assert (S1 : Rabs (Rsum n (fun i => val (f i)) - Rsum n (fun i => ln (p i))) <= e * (Rsum n (fun i => Rabs (ln (p i))) + INR n * (2 * uro)) + INR n * (2 * uro)).
  { rewrite <- Rsum_minus. eapply Rle_trans; [apply Rsum_abs|]. eapply Rle_trans; [apply Rsum_le; intros i Hi; apply (proj1 (HE i Hi))|]. cbv beta.
    rewrite Rsum_plus, Rsum_scal, Rsum_plus, !Rsum_const. lra. }
  assert (S2 : Rsum n (fun i => Rabs (val (f i))) <= (1 + e) * (Rsum n (fun i => Rabs (ln (p i))) + INR n * (2 * uro))).
  { eapply Rle_trans; [apply Rsum_le; intros i Hi; apply (proj2 (HE i Hi))|]. cbv beta. rewrite Rsum_scal, Rsum_plus, !Rsum_const. lra. }
  replace (val (ev f (vtree n)) - Rsum n (fun i => ln (p i))) with ((val (ev f (vtree n)) - Rsum n (fun i => val (f i))) + (Rsum n (fun i => val (f i)) - Rsum n (fun i => ln (p i)))) by ring.
  eapply Rle_trans; [apply Rabs_triang|]. pose proof (Rmult_le_compat_l _ _ _ (gam_nonneg (n / 4 + 3)) S2). lra.
Qed.
End logsum.

(** ** concrete cases *)
Module VclLogEx.
Definition tiny : b64 := dbl false 1 (-1074) eq_refl.                             (* 2^-1074 *)
Definition ln_tiny : b64 := dbl true 6548164122079683 (-43) eq_refl.              (* about -744.44 *)
Definition tlog : b64 -> b64 := fun _ => ln_tiny.
Notation B := (BN_with tlog tlog tlog).
Definition k (z : Z) : b64 := @ofZ B z.
Definition sep : nat -> bool := fun _ => false.
Definition fma : nat -> bool := fun _ => true.
Definition ln2n : b64 := dbl false 6243314768165359 (-53) eq_refl.                (* the double nearest to ln 2 *)
(** log of 1, 2, -1 and 0, with and without fused operations *)
Example four_lanes : log_d sep false (k 1, k 2, k (-1), k 0) = (B754_zero false, ln2n, B754_nan, B754_infinity true) /\
  log_d fma true (k 1, k 2, k (-1), k 0) = (B754_zero false, ln2n, B754_nan, B754_infinity true).
Proof. split; rewrite log_d_lanes; repeat f_equal; apply B2SF_inj; vm_compute; reflexivity. Qed.
(** log of a negative subnormal number is -infinity, not NaN *)
Example minus_tiny : lane sep false (Bopp tiny) = B754_infinity true.
Proof. apply B2SF_inj. vm_compute. reflexivity. Qed.
(** the libm logarithm of the cases below is right at the only point where it is called *)
Example tlog_ok : log_close tlog (/ 2 ^ 49) (bmult tiny (k 1)).
Proof.
  split; [done|]. assert (E : val (bmult tiny (k 1)) = / 2 ^ 1074).
  { assert (E0 : bmult tiny (k 1) = tiny) by (apply B2SF_inj; vm_compute; reflexivity). rewrite E0. change (val tiny) with (F2R (Float radix2 1 (- Z.of_nat 1074))). rewrite F2R_neg. unfold Rdiv. by rewrite Rmult_1_l. }
  rewrite E, ln_Rinv by (apply pow_lt; lra). rewrite ln_pow by lra. replace (INR 1074) with 1074 by (rewrite INR_IZR_INZ; reflexivity).
  change (val (tlog (bmult tiny (k 1)))) with (F2R (Float radix2 (-6548164122079683) (- Z.of_nat 43))). rewrite F2R_neg. interval with (i_prec 100).
Qed.
(** five numbers: four in a vector, the last one through libm; the hypotheses of C86_vcl_logsum *)
Definition xs5 : list b64 := [k 1; k 2; k 3; k 4; k 5].
Definition ln5 : b64 := dbl false 7248263982714163 (-52) eq_refl.
Definition log5 : b64 -> b64 := fun _ => ln5.
Notation B5 := (BN_with log5 log5 log5).
Definition s5 : @st B5 := @state_of B5 [@full B5 xs5].
Lemma kv z : (Z.abs z <= 2 ^ 53)%Z -> val (k z) = IZR z. Proof. intros H. apply (ofZ_exact tlog tlog tlog z H). Qed.
Lemma one_le : / 2 ^ 1022 <= 1. Proof. rewrite <- Rinv_1. apply Rinv_le_contravar; [lra|]. apply pow_R1_Rle. lra. Qed.
Example sum_case : exists r, vcl_logsum_d sep false log5 log5 log5 5 (k 1) (Ptr 0 0) s5 = Ok r s5 /\ finite r /\
  Rabs (val r - (ln 1 + ln 2 + ln 3 + ln 4 + ln 5)) <= 1 / 10 ^ 13.
Proof.
  destruct (C86_vcl_logsum sep false log5 log5 log5 s5 (Ptr 0 0) xs5 5 (k 1)) as (r & E & F & Q).
  - done.
  - by apply (@state_of_seg B5).
  - done.
  - lia.
  - intros u Hu. assert (H : exists z, (1 <= z <= 5)%Z /\ u = k z) by (repeat (apply elem_of_cons in Hu as [->|Hu]; [eexists; split; [|reflexivity]; lia|]); by apply elem_of_nil in Hu).
    destruct H as (z & Hz & ->). rewrite !kv by lia. split.
    + apply (bmult_ok (k z) (k 1)); [apply (ofZ_exact tlog tlog tlog z); lia|apply (ofZ_exact tlog tlog tlog 1); lia|]. rewrite !kv by lia. rewrite Rmult_1_r, <- abs_IZR. eapply Rle_trans; [|exact big_num]. apply IZR_le. lia.
    + rewrite Rmult_1_r. eapply Rle_trans; [exact one_le|]. apply IZR_le. lia.
  - intros i Hi. assert (i = 4)%nat as -> by (cbn in Hi; lia). cbn [nth xs5]. split; [done|].
    assert (E : bmult (k 5) (k 1) = k 5) by (apply B2SF_inj; vm_compute; reflexivity). rewrite E, kv by lia. change (val (log5 (k 5))) with (F2R (Float radix2 7248263982714163 (- Z.of_nat 52))). rewrite F2R_neg. interval with (i_prec 100).
  - exists r. split; [exact E|]. split; [exact F|]. unfold xs5, V in Q. cbn [map Rsum nth] in Q. rewrite !kv in Q by lia.
    assert (P4 : gam (5 / 4 + 3) <= 5 * uro). { change (5 / 4 + 3)%nat with 4%nat. unfold gam. rewrite uro_num. lra. }
    rewrite !Rmult_1_r in Q. change (INR 5) with (1 + 1 + 1 + 1 + 1) in Q.
    assert (L1 : 0 <= ln 1 <= 0) by (rewrite ln_1; lra). assert (L2 : 0 <= ln 2 <= 1) by (split; interval). assert (L3 : 0 <= ln 3 <= 2) by (split; interval). assert (L4 : 0 <= ln 4 <= 2) by (split; interval). assert (L5 : 0 <= ln 5 <= 2) by (split; interval).
    rewrite (Rabs_pos_eq _ (proj1 L1)), (Rabs_pos_eq _ (proj1 L2)), (Rabs_pos_eq _ (proj1 L3)), (Rabs_pos_eq _ (proj1 L4)), (Rabs_pos_eq _ (proj1 L5)) in Q.
    replace (ln 1 + ln 2 + ln 3 + ln 4 + ln 5) with (0 + ln 1 + ln 2 + ln 3 + ln 4 + ln 5) by ring. eapply Rle_trans; [exact Q|].
    pose proof uro_pos as U. set (LA := 0 + ln 1 + ln 2 + ln 3 + ln 4 + ln 5) in *. assert (HL : 0 <= LA <= 7) by (unfold LA; lra). clearbody LA.
    pose proof (gam_nonneg (5 / 4 + 3)) as G0. revert P4 G0. generalize (gam (5 / 4 + 3)). intros g P4 G0. clear - U HL P4 G0. rewrite uro_num in *.
    assert (Y : 0 <= (1 + / 2 ^ 49) * (LA + (1 + 1 + 1 + 1 + 1) * (2 * (1 / 9007199254740992))) <= 8) by lra.
    assert (g * ((1 + / 2 ^ 49) * (LA + (1 + 1 + 1 + 1 + 1) * (2 * (1 / 9007199254740992)))) <= 5 * (1 / 9007199254740992) * 8) by (apply Rmult_le_compat; lra). lra.
Qed.
(** the sum must not depend on the order of the elements beyond rounding: false.  A subnormal product is -infinity
    in a vector and about -744 in the tail. *)
Definition xs1 : list b64 := [tiny; k 1; k 1; k 1; k 1].
Definition xs2 : list b64 := [k 1; k 1; k 1; k 1; tiny].
Definition st1 : @st B := @state_of B [@full B xs1].
Definition st2 : @st B := @state_of B [@full B xs2].
Theorem C86_order_refuted : xs1 ≡ₚ xs2 /\
  (exists r, vcl_logsum_d sep false tlog tlog tlog 5 (k 1) (Ptr 0 0) st1 = Ok r st1 /\ r = B754_infinity true) /\
  (exists r, vcl_logsum_d sep false tlog tlog tlog 5 (k 1) (Ptr 0 0) st2 = Ok r st2 /\ r = ln_tiny).
Proof.
  split; [unfold xs1, xs2; solve_Permutation|]. split.
  - eexists. split; [apply (logsum_d_run sep false tlog tlog tlog st1 5 (k 1) (Ptr 0 0) xs1); [done|by apply (@state_of_seg B)|done]|]. apply B2SF_inj. vm_compute. reflexivity.
  - eexists. split; [apply (logsum_d_run sep false tlog tlog tlog st2 5 (k 1) (Ptr 0 0) xs2); [done|by apply (@state_of_seg B)|done]|]. apply B2SF_inj. vm_compute. reflexivity.
Qed.
End VclLogEx.
