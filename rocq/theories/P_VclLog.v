(** * The vector logarithm of a normal number: argument reduction and rounding errors. *)
From Coq Require Import ZArith Reals Lra Lia Psatz.
From Flocq Require Import Core BinarySingleNaN.
From Interval Require Import Tactic.
From stdpp Require Import base numbers.
From Verif Require Import Num NumB S_Round L_Round M_VclLog L_LogApprox L_VclLog.
Local Open Scope R_scope.

Lemma if_add_false a b : finite a -> Rabs (val a) <= 2 ^ 100 -> finite (if_add false a b) /\ val (if_add false a b) = val a.
Proof.
  intros F H. unfold if_add. destruct (bplus_ok a d_zero F eq_refl) as [F2 E]; [change (val d_zero) with 0; by rewrite Rplus_0_r|]. split; [done|].
  rewrite E. change (val d_zero) with 0. rewrite Rplus_0_r. apply rnd_format, format_val.
Qed.
Lemma small_F2R m k : (Z.abs m <= 2 ^ 54)%Z -> Rabs (F2R (Float radix2 m (- Z.of_nat k))) <= 2 ^ 100.
Proof.
  intros H. rewrite F2R_neg. unfold Rdiv. rewrite Rabs_mult, <- abs_IZR. rewrite (Rabs_pos_eq (/ _)) by (apply Rlt_le, Rinv_0_lt_compat, pow_lt; lra).
  assert (H1 : / 2 ^ k <= 1) by (rewrite <- Rinv_1; apply Rinv_le_contravar; [lra|apply pow_R1_Rle; lra]).
  assert (H2 : IZR (Z.abs m) <= 2 ^ 100). { change (2 ^ 100) with (IZR 2 ^ 100). rewrite pow_IZR. apply IZR_le. eapply Z.le_trans; [exact H|]. by vm_compute. }
  assert (0 <= IZR (Z.abs m)) by (apply IZR_le; lia). assert (0 < / 2 ^ k) by (apply Rinv_0_lt_compat, pow_lt; lra). nra.
Qed.
Lemma one_val : val d_one = 1. Proof. change (val d_one) with (F2R (Float radix2 4503599627370496 (- Z.of_nat 52))). rewrite F2R_neg. lra. Qed.
Lemma half_val : val d_half = / 2. Proof. change (val d_half) with (F2R (Float radix2 4503599627370496 (- Z.of_nat 53))). rewrite F2R_neg. lra. Qed.

(** :805-815: x = (1 + xi) * 2^K with xi a multiple of 2^-53 in (sqrt 2 / 2 - 1, sqrt 2 - 1] *)
Lemma reduction vl x : normal x ->
  let b := Bltb sqrt2_half (fraction_2 x) in
  let xi := bminus (if_add (negb b) (fraction_2 x) (fraction_2 x)) d_one in
  let fe := if_add b (exponent_f vl x) d_one in
  exists j K, finite xi /\ val xi = IZR j / 2 ^ 53 /\ finite fe /\ val fe = IZR K /\ (Z.abs K <= 1100)%Z /\
    val x = (1 + val xi) * bpow radix2 K /\ -293 / 1000 <= val xi <= 41422 / 100000.
Proof.
  intros Hn b xi fe. destruct (normal_form x Hn) as (m & e & H & Ex & Hm & He & Vx).
  destruct (fraction_2_ok x m e H Ex Hm He) as [Ff Vf]. destruct (exponent_f_ok vl x m e H Ex Hm He) as [Fe Ve].
  change (-53)%Z with (- Z.of_nat 53)%Z in Vf. rewrite F2R_neg in Vf.
  assert (Eb : b = Rlt_bool (val sqrt2_half) (val (fraction_2 x))) by (apply Bltb_correct; done).
  assert (Vs : val sqrt2_half = IZR 6369051672525773 / 2 ^ 53) by (change (val sqrt2_half) with (F2R (Float radix2 6369051672525773 (- Z.of_nat 53))); apply F2R_neg).
  assert (P53 : 0 < / 2 ^ 53) by (apply Rinv_0_lt_compat, pow_lt; lra).
  assert (Kb : forall K, (Z.abs K <= 1100)%Z -> Rabs (IZR K) <= 2 ^ 100). { intros K HK. rewrite <- abs_IZR. change (2 ^ 100) with (IZR 2 ^ 100). rewrite pow_IZR. apply IZR_le. eapply Z.le_trans; [exact HK|]. by vm_compute. }
  rewrite Vs, Vf in Eb. unfold xi, fe. clear xi fe. destruct (Rlt_bool_spec (IZR 6369051672525773 / 2 ^ 53) (IZR (Z.pos m) / 2 ^ 53)) as [Hc|Hc]; rewrite Eb; cbn [negb].
  - assert (Hm2 : (6369051672525773 < Z.pos m)%Z) by (apply lt_IZR; unfold Rdiv in Hc; apply Rmult_lt_reg_r in Hc; done).
    destruct (if_add_false (fraction_2 x) (fraction_2 x) Ff) as [F1 V1]. { rewrite Vf, <- F2R_neg. apply small_F2R. lia. }
    rewrite Vf in V1. set (y := if_add false (fraction_2 x) (fraction_2 x)) in *.
    assert (D : val y - val d_one = F2R (Float radix2 (Z.pos m - 2 ^ 53) (- Z.of_nat 53))). { rewrite V1, one_val, F2R_neg, minus_IZR. change (IZR (2 ^ 53)) with (IZR (2 ^ Z.of_nat 53)). rewrite <- pow_IZR. field; try (apply pow_nonzero; lra). }
    destruct (bminus_ok y d_one F1 eq_refl) as [F2 V2]. { rewrite D. apply small_F2R. lia. }
    rewrite D, rnd_format in V2 by (apply format_F2R; lia). rewrite F2R_neg in V2.
    assert (D2 : val (exponent_f vl x) + val d_one = IZR (e + 53)). { rewrite Ve, one_val, <- plus_IZR. f_equal. lia. }
    destruct (bplus_ok (exponent_f vl x) d_one Fe eq_refl) as [F3 V3]. { rewrite D2. apply Kb. lia. }
    rewrite D2, rnd_format in V3 by (apply format_Z; lia).
    exists (Z.pos m - 2 ^ 53)%Z, (e + 53)%Z. split; [exact F2|]. split; [exact V2|]. split; [exact F3|]. split; [exact V3|]. split; [lia|].
    assert (S1 : 1 + IZR (Z.pos m - 2 ^ 53) / 2 ^ 53 = IZR (Z.pos m) / 2 ^ 53). { rewrite minus_IZR. change (IZR (2 ^ 53)) with (IZR (2 ^ Z.of_nat 53)). rewrite <- pow_IZR. field; try (apply pow_nonzero; lra). }
    split.
    + rewrite V2, S1, Vx. unfold F2R. cbn [Fnum Fexp]. rewrite bpow_plus. change (bpow radix2 53) with (bpow radix2 (Z.of_nat 53)). rewrite bpow_powerRZ, bpow_powerRZ. change (IZR radix2) with 2. rewrite <- (pow_powerRZ 2 53). field; try (apply pow_nonzero; lra).
    + rewrite V2. assert (Hl : (6369051672525774 - 2 ^ 53 <= Z.pos m - 2 ^ 53 <= 0)%Z) by lia. destruct Hl as [Hl1 Hl2]. apply IZR_le in Hl1, Hl2.
      set (v := IZR (Z.pos m - 2 ^ 53)) in *. clearbody v. change (IZR (6369051672525774 - 2 ^ 53)) with (-2638147582215218) in Hl1. lra.
  - assert (Hm2 : (Z.pos m <= 6369051672525773)%Z) by (apply le_IZR; unfold Rdiv in Hc; apply Rmult_le_reg_r in Hc; done).
    assert (D0 : val (fraction_2 x) + val (fraction_2 x) = F2R (Float radix2 (Z.pos m) (- Z.of_nat 52))). { rewrite Vf, F2R_neg. change (2 ^ 53) with (2 * 2 ^ 52). field; try (apply pow_nonzero; lra). }
    destruct (bplus_ok (fraction_2 x) (fraction_2 x) Ff Ff) as [F1 V1]. { rewrite D0. apply small_F2R. lia. }
    rewrite D0, rnd_format in V1 by (apply format_F2R; lia). change (bplus (fraction_2 x) (fraction_2 x)) with (if_add true (fraction_2 x) (fraction_2 x)) in F1, V1.
    set (y := if_add true (fraction_2 x) (fraction_2 x)) in *. rewrite F2R_neg in V1.
    assert (D : val y - val d_one = F2R (Float radix2 (Z.pos m - 2 ^ 52) (- Z.of_nat 52))). { rewrite V1, one_val, F2R_neg, minus_IZR. change (IZR (2 ^ 52)) with (IZR (2 ^ Z.of_nat 52)). rewrite <- pow_IZR. field; try (apply pow_nonzero; lra). }
    destruct (bminus_ok y d_one F1 eq_refl) as [F2 V2]. { rewrite D. apply small_F2R. lia. }
    rewrite D, rnd_format in V2 by (apply format_F2R; lia). rewrite F2R_neg in V2.
    destruct (if_add_false (exponent_f vl x) d_one Fe) as [F3 V3]. { rewrite Ve. apply Kb. lia. }
    rewrite Ve in V3.
    exists (2 * (Z.pos m - 2 ^ 52))%Z, (e + 52)%Z. split; [exact F2|]. split. { rewrite V2, mult_IZR. change (2 ^ 53) with (2 * 2 ^ 52). field; try (apply pow_nonzero; lra). }
    split; [exact F3|]. split; [exact V3|]. split; [lia|].
    assert (S1 : 1 + IZR (Z.pos m - 2 ^ 52) / 2 ^ 52 = IZR (Z.pos m) / 2 ^ 52). { rewrite minus_IZR. change (IZR (2 ^ 52)) with (IZR (2 ^ Z.of_nat 52)). rewrite <- pow_IZR. field; try (apply pow_nonzero; lra). }
    split.
    + rewrite V2, S1, Vx. unfold F2R. cbn [Fnum Fexp]. rewrite bpow_plus. change (bpow radix2 52) with (bpow radix2 (Z.of_nat 52)). rewrite bpow_powerRZ, bpow_powerRZ. change (IZR radix2) with 2. rewrite <- (pow_powerRZ 2 52). field; try (apply pow_nonzero; lra).
    + rewrite V2. assert (Hl : (0 <= Z.pos m - 2 ^ 52 <= 6369051672525773 - 2 ^ 52)%Z) by lia. destruct Hl as [Hl1 Hl2]. apply IZR_le in Hl1, Hl2.
      set (v := IZR (Z.pos m - 2 ^ 52)) in *. clearbody v. change (IZR (6369051672525773 - 2 ^ 52)) with (1865452045155277) in Hl2. lra.
Qed.

(** ** rounding errors for a reduced argument *)
Lemma uro_num : uro = 1 / 9007199254740992. Proof. unfold uro. lra. Qed.
Lemma big_num : 1000000 <= 2 ^ 100.
Proof. apply Rle_trans with (2 ^ 20); [lra|]. apply Rle_pow; [lra|lia]. Qed.
Lemma eta_num : 0 < eta <= uro * / 9007199254740992 * (1 / 10 ^ 60).
Proof.
  split; [apply eta_pos|]. unfold eta, uro. assert (E : 2 ^ 1075 = 2 ^ 53 * (2 ^ 53 * 2 ^ 969)) by (rewrite <- !pow_add; reflexivity). rewrite E, !Rinv_mult.
  rewrite <- Rmult_assoc. assert (0 < / 2 ^ 53) by (apply Rinv_0_lt_compat, pow_lt; lra). replace (/ 9007199254740992) with (/ 2 ^ 53) by (f_equal; lra).
  apply Rmult_le_compat_l; [nra|]. unfold Rdiv. rewrite Rmult_1_l. apply Rinv_le_contravar; [apply pow_lt; lra|]. apply Rle_trans with (2 ^ 240); [|apply Rle_pow; [lra|lia]].
  replace (2 ^ 240) with ((2 ^ 4) ^ 60) by (rewrite <- pow_mult; reflexivity). apply pow_incr. lra.
Qed.
Lemma vP0 : ap P0log rP0 0. Proof. apply ap_exact; [done|exact (F2R_neg 8678872585264376 50)]. Qed.
Lemma vP1 : ap P1log rP1 0. Proof. apply ap_exact; [done|exact (F2R_neg 5048779460560973 48)]. Qed.
Lemma vP2 : ap P2log rP2 0. Proof. apply ap_exact; [done|exact (F2R_neg 8162167765265198 49)]. Qed.
Lemma vP3 : ap P3log rP3 0. Proof. apply ap_exact; [done|exact (F2R_neg 5298249872337169 50)]. Qed.
Lemma vP4 : ap P4log rP4 0. Proof. apply ap_exact; [done|exact (F2R_neg 8962073095983858 54)]. Qed.
Lemma vP5 : ap P5log rP5 0. Proof. apply ap_exact; [done|exact (F2R_neg 7517097190169520 66)]. Qed.
Lemma vQ0 : ap Q0log rQ0 0. Proof. apply ap_exact; [done|exact (F2R_neg 6509154438948274 48)]. Qed.
Lemma vQ1 : ap Q1log rQ1 0. Proof. apply ap_exact; [done|exact (F2R_neg 5007051052723745 46)]. Qed.
Lemma vQ2 : ap Q2log rQ2 0. Proof. apply ap_exact; [done|exact (F2R_neg 5839728035675581 46)]. Qed.
Lemma vQ3 : ap Q3log rQ3 0. Proof. apply ap_exact; [done|exact (F2R_neg 6365263102066739 47)]. Qed.
Lemma vQ4 : ap Q4log rQ4 0. Proof. apply ap_exact; [done|exact (F2R_neg 6354218065063822 49)]. Qed.

Section red.
Context (fused : nat -> bool) (X : b64) (xi : R).
Hypothesis FX : finite X.
Hypothesis VX : val X = xi.
Hypothesis RX : -293 / 1000 <= xi <= 41422 / 100000.
Let HX : ap X xi 0 := ap_exact X xi FX VX.
Let Hxi : Rabs xi <= 41422 / 100000. Proof. apply Rabs_le. lra. Qed.
Ltac num := pose proof eta_num as [? ?]; rewrite uro_num in *; lra.
Ltac bigb := eapply Rle_trans; [|exact big_num]; num.
Ltac pol := unf; interval with (i_bisect xi, i_depth 12).
Lemma x2_ok : ap (bmult X X) (xi * xi) (1717 / 10000 * uro).
Proof. apply (ap_mul _ _ _ _ 0 0 (41422 / 100000) (41422 / 100000)); auto; [bigb|num]. Qed.
Lemma xi2 : Rabs (xi * xi) <= 1716 / 10000. Proof. interval. Qed.
Lemma x4_ok : ap (bmult (bmult X X) (bmult X X)) (xi * xi * (xi * xi)) (885 / 10000 * uro).
Proof. apply (ap_mul _ _ _ _ (1717 / 10000 * uro) (1717 / 10000 * uro) (1716 / 10000) (1716 / 10000)); auto using x2_ok, xi2; [bigb|num]. Qed.
Lemma xi4 : Rabs (xi * xi * (xi * xi)) <= 2945 / 100000. Proof. interval. Qed.
Lemma P_ok : ap (polynomial_5 fused X P0log P1log P2log P3log P4log P5log) (pp xi) (65 * uro).
Proof.
  replace (pp xi) with ((rP3 * xi + rP2) * (xi * xi) + ((rP5 * xi + rP4) * (xi * xi * (xi * xi)) + (rP1 * xi + rP0))) by (unfold pp; ring).
  unfold polynomial_5.
  assert (A : ap (mul_add fused 1 P3log X P2log) (rP3 * xi + rP2) (185 / 10 * uro)).
  { apply (ap_ma fused 1 _ _ _ _ _ _ 0 0 0 (471 / 100) (41422 / 100000) (1646 / 100)); auto using vP3, vP2; [pol|pol|lra|bigb|bigb|num]. }
  assert (B : ap (mul_add fused 3 P5log X P4log) (rP5 * xi + rP4) (1 / 2 * uro)).
  { apply (ap_ma fused 3 _ _ _ _ _ _ 0 0 0 (11 / 100000) (41422 / 100000) (498 / 1000)); auto using vP5, vP4; [pol|pol|lra|bigb|bigb|num]. }
  assert (C : ap (mul_add fused 4 P1log X P0log) (rP1 * xi + rP0) (226 / 10 * uro)).
  { apply (ap_ma fused 4 _ _ _ _ _ _ 0 0 0 (1794 / 100) (41422 / 100000) (1515 / 100)); auto using vP1, vP0; [pol|pol|lra|bigb|bigb|num]. }
  assert (D : ap (mul_add fused 2 (mul_add fused 3 P5log X P4log) (bmult (bmult X X) (bmult X X)) (mul_add fused 4 P1log X P0log)) ((rP5 * xi + rP4) * (xi * xi * (xi * xi)) + (rP1 * xi + rP0)) (379 / 10 * uro)).
  { apply (ap_ma fused 2 _ _ _ _ _ _ (1 / 2 * uro) (885 / 10000 * uro) (226 / 10 * uro) (498 / 1000) (2945 / 100000) (1517 / 100)); auto using x4_ok, xi4; [pol|pol|num|bigb|bigb|num]. }
  apply (ap_ma fused 0 _ _ _ _ _ _ (185 / 10 * uro) (1717 / 10000 * uro) (379 / 10 * uro) (1646 / 100) (1716 / 10000) (181 / 10)); auto using x2_ok, xi2; [pol|pol|num|bigb|bigb|num].
Qed.
Lemma Q_ok : ap (polynomial_5n fused X Q0log Q1log Q2log Q3log Q4log) (qq xi) (264 * uro).
Proof.
  replace (qq xi) with ((rQ3 * xi + rQ2) * (xi * xi) + ((rQ4 + xi) * (xi * xi * (xi * xi)) + (rQ1 * xi + rQ0))) by (unfold qq; ring).
  unfold polynomial_5n.
  assert (A : ap (mul_add fused 6 Q3log X Q2log) (rQ3 * xi + rQ2) (1206 / 10 * uro)).
  { apply (ap_ma fused 6 _ _ _ _ _ _ 0 0 0 (4523 / 100) (41422 / 100000) (1018 / 10)); auto using vQ3, vQ2; [pol|pol|lra|bigb|bigb|num]. }
  assert (B : ap (bplus Q4log X) (rQ4 + xi) (118 / 10 * uro)).
  { apply (ap_add _ _ _ _ 0 0 (117 / 10 + 1 / 100)); auto using vQ4; [pol|bigb|num]. }
  assert (C : ap (mul_add fused 8 Q1log X Q0log) (rQ1 * xi + rQ0) (822 / 10 * uro)).
  { apply (ap_ma fused 8 _ _ _ _ _ _ 0 0 0 (7116 / 100) (41422 / 100000) (527 / 10)); auto using vQ1, vQ0; [pol|pol|lra|bigb|bigb|num]. }
  assert (D : ap (mul_add fused 7 (bplus Q4log X) (bmult (bmult X X) (bmult X X)) (mul_add fused 8 Q1log X Q0log)) ((rQ4 + xi) * (xi * xi * (xi * xi)) + (rQ1 * xi + rQ0)) (1371 / 10 * uro)).
  { apply (ap_ma fused 7 _ _ _ _ _ _ (118 / 10 * uro) (885 / 10000 * uro) (822 / 10 * uro) (117 / 10 + 1 / 100) (2945 / 100000) (5305 / 100)); auto using x4_ok, xi4; [pol|pol|num|bigb|bigb|num]. }
  apply (ap_ma fused 5 _ _ _ _ _ _ (1206 / 10 * uro) (1717 / 10000 * uro) (1371 / 10 * uro) (1018 / 10) (1716 / 10000) (705 / 10)); auto using x2_ok, xi2; [pol|pol|num|bigb|bigb|num].
Qed.

(** everything below is relative to |xi| *)
Notation z := (Rabs xi).
Lemma xi3 : Rabs (xi * (xi * xi)) <= 1716 / 10000 * z.
Proof. rewrite Rabs_mult. pose proof xi2. pose proof (Rabs_pos xi). nra. Qed.
Lemma quot : Rabs (pp xi * (xi * (xi * xi)) / qq xi) <= 756 / 10000 * z.
Proof.
  pose proof (pq_bound xi RX) as B. pose proof (qq_bound xi RX). replace (pp xi * (xi * (xi * xi)) / qq xi) with (pp xi / qq xi * (xi * (xi * xi))) by (field; lra).
  rewrite Rabs_mult. rewrite (Rabs_pos_eq (pp xi / qq xi)) by lra. pose proof xi3. pose proof (Rabs_pos (xi * (xi * xi))). nra.
Qed.
Lemma rat_eq : pp xi * (xi * (xi * xi)) / qq xi + (xi - xi * xi * / 2) = rat xi.
Proof. unfold rat. pose proof (qq_bound xi RX). field. lra. Qed.
Lemma rat_size : Rabs (rat xi) <= 1284 / 1000 * z.
Proof.
  rewrite <- rat_eq. eapply Rle_trans; [apply Rabs_triang|]. pose proof quot. replace (xi - xi * xi * / 2) with (xi * (1 - xi / 2)) by field. rewrite Rabs_mult.
  pose proof (Rabs_pos xi). assert (Rabs (1 - xi / 2) <= 1208 / 1000) by (apply Rabs_le; lra). nra.
Qed.
Lemma rat_size2 : Rabs (rat xi) <= 3468 / 10000.
Proof.
  pose proof (approx xi RX) as A. pose proof (ln_high xi RX) as B. replace (rat xi) with (ln (1 + xi) - (ln (1 + xi) - rat xi)) by ring. eapply Rle_trans; [apply Rabs_triang|]. rewrite Rabs_Ropp.
  lra.
Qed.
Hypothesis Z1 : / 9007199254740992 <= z.
Let eta_z : 0 < eta <= uro * (1 / 10 ^ 60) * z.
Proof. pose proof eta_num as [A B]. split; [done|]. eapply Rle_trans; [exact B|]. rewrite uro_num. lra. Qed.
Ltac numz := pose proof eta_z as [? ?]; rewrite uro_num in *; lra.
Ltac bigz := eapply Rle_trans; [|exact big_num]; numz.
Lemma x2_rel : ap (bmult X X) (xi * xi) (4143 / 10000 * uro * z).
Proof. apply (ap_mul _ _ _ _ 0 0 z (41422 / 100000)); auto; [lra|bigz|numz]. Qed.
Lemma w_ok : ap (bmult X (bmult X X)) (xi * (xi * xi)) (344 / 1000 * uro * z).
Proof. apply (ap_mul _ _ _ _ 0 (1717 / 10000 * uro) z (1716 / 10000)); auto using x2_ok, xi2; [lra|bigz|numz]. Qed.
Lemma pw_ok : ap (bmult (polynomial_5 fused X P0log P1log P2log P3log P4log P5log) (bmult X (bmult X X))) (pp xi * (xi * (xi * xi))) (206 / 10 * uro * z).
Proof.
  apply (ap_mul _ _ _ _ (65 * uro) (344 / 1000 * uro * z) (181 / 10) (1716 / 10000 * z)); auto using P_ok, w_ok, xi3; [|bigz|numz].
  pose proof (pp_bound xi RX). apply Rabs_le. lra.
Qed.
Lemma r_ok : ap (bdiv (bmult (polynomial_5 fused X P0log P1log P2log P3log P4log P5log) (bmult X (bmult X X))) (polynomial_5n fused X Q0log Q1log Q2log Q3log Q4log)) (pp xi * (xi * (xi * xi)) / qq xi) (52 / 10 * uro * z).
Proof.
  apply (ap_div _ _ _ _ (206 / 10 * uro * z) (264 * uro) 8 (756 / 10000 * z)); auto using pw_ok, Q_ok, quot; [num| |bigz|numz].
  pose proof (qq_bound xi RX). rewrite Rabs_pos_eq; lra.
Qed.
Lemma n_ok : ap (nmul_add fused 10 (bmult X X) d_half X) (xi - xi * xi * / 2) (164 / 100 * uro * z).
Proof.
  apply (ap_nma fused 10 _ _ _ _ _ _ (4143 / 10000 * uro * z) 0 0 (41422 / 100000 * z) (1 / 2) (1208 / 1000 * z)); auto using x2_rel; [apply ap_exact; [done|apply half_val]| | | |lra|bigz|bigz|numz].
  - rewrite Rabs_mult. pose proof (Rabs_pos xi). nra.
  - rewrite Rabs_pos_eq; lra.
  - replace (xi - xi * xi * / 2) with (xi * (1 - xi / 2)) by field. rewrite Rabs_mult. pose proof (Rabs_pos xi). assert (Rabs (1 - xi / 2) <= 1208 / 1000) by (apply Rabs_le; lra). nra.
Qed.
End red.

(** ** the whole result *)
Lemma rnd_0 : rnd 0 = 0. Proof. apply round_0, valid_rnd_N. Qed.
Lemma bmult_0 x y : finite x -> finite y -> val x * val y = 0 -> finite (bmult x y) /\ val (bmult x y) = 0.
Proof. intros Fx Fy H. destruct (bmult_ok x y Fx Fy) as [F E]; [rewrite H, Rabs_R0; apply pow_le; lra|]. split; [done|]. by rewrite E, H, rnd_0. Qed.
Lemma ma_0 fused k a b c : finite a -> finite b -> finite c -> val a * val b = 0 -> Rabs (val c) <= 2 ^ 100 -> finite (mul_add fused k a b c) /\ val (mul_add fused k a b c) = val c.
Proof.
  intros Fa Fb Fc H Hc. unfold mul_add. destruct (fused k).
  - destruct (bfma_ok a b c Fa Fb Fc) as [F E]; [by rewrite H, Rplus_0_l|]. split; [done|]. rewrite E, H, Rplus_0_l. apply rnd_format, format_val.
  - destruct (bmult_0 a b Fa Fb H) as [F1 E1]. destruct (bplus_ok (bmult a b) c F1 Fc) as [F E]; [by rewrite E1, Rplus_0_l|]. split; [done|]. rewrite E, E1, Rplus_0_l. apply rnd_format, format_val.
Qed.
Section final.
Context (fused : nat -> bool) (X : b64) (xi : R).
Hypothesis FX : finite X.
Hypothesis VX : val X = xi.
Hypothesis RX : -293 / 1000 <= xi <= 41422 / 100000.
Hypothesis ZX : xi = 0 \/ / 9007199254740992 <= Rabs xi.
Notation z := (Rabs xi).
Notation r := (bdiv (bmult (polynomial_5 fused X P0log P1log P2log P3log P4log P5log) (bmult X (bmult X X))) (polynomial_5n fused X Q0log Q1log Q2log Q3log Q4log)).
Notation n := (nmul_add fused 10 (bmult X X) d_half X).
Lemma r_ok' : ap r (pp xi * (xi * (xi * xi)) / qq xi) (52 / 10 * uro * z) /\ (xi = 0 -> val r = 0).
Proof.
  assert (H0 : xi = 0 -> finite r /\ val r = 0).
  { intros E. destruct (bmult_0 X X FX FX) as [F1 E1]; [rewrite VX, E; ring|]. destruct (bmult_0 X (bmult X X) FX F1) as [F2 E2]; [rewrite E1; ring|].
    destruct (P_ok fused X xi FX VX RX) as [FP _]. destruct (bmult_0 _ _ FP F2) as [F3 E3]; [rewrite E2; ring|].
    destruct (Q_ok fused X xi FX VX RX) as [FQ HQ]. pose proof (qq_bound xi RX).
    assert (HQ0 : val (polynomial_5n fused X Q0log Q1log Q2log Q3log Q4log) <> 0). { intros Q0. rewrite Q0 in HQ. rewrite Rminus_0_l, Rabs_Ropp, Rabs_pos_eq in HQ by lra. rewrite uro_num in HQ. lra. }
    destruct (bdiv_ok _ _ F3 HQ0) as [F4 E4]; [unfold Rdiv; rewrite E3, Rmult_0_l, Rabs_R0; apply pow_le; lra|]. split; [exact F4|]. rewrite E4, E3. unfold Rdiv. by rewrite Rmult_0_l, rnd_0. }
  split; [|intros E; apply H0, E]. destruct ZX as [E|E]; [|by apply r_ok]. destruct (H0 E) as [F1 E1]. split; [exact F1|]. rewrite E1, E, Rabs_R0. unfold Rdiv. rewrite !Rmult_0_l, !Rmult_0_r, Rmult_0_l, Rminus_0_r, Rabs_R0. lra.
Qed.
Lemma n_ok' : ap n (xi - xi * xi * / 2) (164 / 100 * uro * z) /\ (xi = 0 -> val n = 0).
Proof.
  assert (H0 : xi = 0 -> finite n /\ val n = 0).
  { intros E. rewrite E in VX. destruct (bmult_0 X X FX FX) as [F1 E1]; [rewrite VX; ring|]. unfold nmul_add. destruct (fused 10).
    - destruct (bopp_ok _ F1) as [F2 E2]. assert (S : val (Bopp (bmult X X)) * val d_half + val X = 0) by (rewrite E2, E1, VX; ring).
      destruct (bfma_ok (Bopp (bmult X X)) d_half X F2 eq_refl FX) as [F3 E3]; [rewrite S, Rabs_R0; apply pow_le; lra|]. split; [exact F3|]. by rewrite E3, S, rnd_0.
    - destruct (bmult_0 (bmult X X) d_half F1 eq_refl) as [F2 E2]; [rewrite E1; ring|]. assert (S : val X - val (bmult (bmult X X) d_half) = 0) by (rewrite E2, VX; ring).
      destruct (bminus_ok X _ FX F2) as [F3 E3]; [rewrite S, Rabs_R0; apply pow_le; lra|]. split; [exact F3|]. by rewrite E3, S, rnd_0. }
  split; [|intros E; apply H0, E]. destruct ZX as [E|E]; [|by apply n_ok]. destruct (H0 E) as [F1 E1]. split; [exact F1|]. rewrite E1, E, Rabs_R0. rewrite !Rmult_0_l, !Rmult_0_r, !Rminus_0_r, Rabs_R0. lra.
Qed.
Context (fe : b64) (K : Z).
Hypothesis Ff : finite fe.
Hypothesis Vf : val fe = IZR K.
Hypothesis Kb : (Z.abs K <= 1100)%Z.
Definition fin_res : b64 := mul_add fused 11 fe ln2_hi (bplus (mul_add fused 9 fe ln2_lo r) n).
Lemma hi_val : val ln2_hi = 355 / 512.
Proof. change (val ln2_hi) with (F2R (Float radix2 6245226045767680 (- Z.of_nat 53))). rewrite F2R_neg. lra. Qed.
Definition rlo : R := - (7828593059105960 / 2 ^ 65).
Lemma lo_val : val ln2_lo = rlo.
Proof. change (val ln2_lo) with (F2R (Float radix2 (-7828593059105960) (- Z.of_nat 65))). rewrite F2R_neg. unfold rlo. lra. Qed.
Lemma ln2_split : Rabs (ln 2 - (355 / 512 + rlo)) <= 1 / 1000 * uro.
Proof. rewrite uro_num. unfold rlo. interval with (i_prec 100). Qed.
Hypothesis HK : K <> 0%Z -> 1 <= Rabs (IZR K).

Lemma final_K0 : K = 0%Z -> finite fin_res /\ Rabs (val fin_res - ln (1 + xi)) <= 16 * uro * Rabs (ln (1 + xi)).
Proof.
  intros EK. rewrite EK in Vf. destruct r_ok' as [Hr Hr0], n_ok' as [Hn Hn0]. pose proof uro_pos.
  assert (Hz : z <= 41422 / 100000) by (apply Rabs_le; lra). pose proof (Rabs_pos xi) as Hz0.
  assert (Sr : Rabs (val r) <= 1).
  { eapply Rle_trans; [apply (ap_size _ _ _ (756 / 10000 * z) Hr); exact (quot xi RX)|]. rewrite uro_num. lra. }
  destruct (ma_0 fused 9 fe ln2_lo r Ff eq_refl) as [F1 E1]; [apply Hr|rewrite Vf; ring|eapply Rle_trans; [exact Sr|pose proof big_num; lra]|].
  assert (H1 : ap (mul_add fused 9 fe ln2_lo r) (pp xi * (xi * (xi * xi)) / qq xi) (52 / 10 * uro * z)) by (split; [exact F1|rewrite E1; apply Hr]).
  assert (H2 : ap (bplus (mul_add fused 9 fe ln2_lo r) n) (rat xi) (814 / 100 * uro * z)).
  { destruct ZX as [E|E].
    - assert (S : val (mul_add fused 9 fe ln2_lo r) + val n = 0) by (rewrite E1, Hr0, Hn0 by done; ring).
      destruct (bplus_ok _ n F1 (proj1 Hn)) as [F2 E2]; [rewrite S, Rabs_R0; apply pow_le; lra|]. split; [exact F2|]. rewrite E2, S, rnd_0, E, Rabs_R0. unfold rat. unfold Rdiv. rewrite !Rmult_0_l, !Rmult_0_r.
      replace (0 - (0 - 0 + 0)) with 0 by ring. rewrite Rabs_R0. lra.
    - rewrite <- (rat_eq xi RX). assert (He : 0 < eta <= uro * (1 / 10 ^ 60) * z). { pose proof eta_num as [A B]. split; [done|]. eapply Rle_trans; [exact B|]. rewrite uro_num. lra. }
      apply (ap_add _ _ _ _ (52 / 10 * uro * z) (164 / 100 * uro * z) (1284 / 1000 * z)); auto; [rewrite (rat_eq xi RX); by apply rat_size| |].
      + eapply Rle_trans; [|exact big_num]. rewrite uro_num. lra.
      + destruct He. rewrite uro_num in *. lra. }
  assert (S2 : Rabs (val (bplus (mul_add fused 9 fe ln2_lo r) n)) <= 2).
  { eapply Rle_trans; [apply (ap_size _ _ _ (3468 / 10000) H2); by apply rat_size2|]. rewrite uro_num. lra. }
  destruct (ma_0 fused 11 fe ln2_hi _ Ff eq_refl (proj1 H2)) as [F3 E3]; [rewrite Vf; ring|eapply Rle_trans; [exact S2|pose proof big_num; lra]|].
  split; [exact F3|]. unfold fin_res. rewrite E3. destruct H2 as [_ H2]. pose proof (approx xi RX) as A. pose proof (ln_low xi RX) as B.
  replace (val (bplus (mul_add fused 9 fe ln2_lo r) n) - ln (1 + xi)) with ((val (bplus (mul_add fused 9 fe ln2_lo r) n) - rat xi) - (ln (1 + xi) - rat xi)) by ring.
  eapply Rle_trans; [apply Rabs_triang|]. rewrite Rabs_Ropp. rewrite uro_num in *. lra.
Qed.
Lemma final_K : K <> 0%Z -> finite fin_res /\ Rabs (val fin_res - (IZR K * ln 2 + ln (1 + xi))) <= 16 * uro * Rabs (IZR K * ln 2 + ln (1 + xi)).
Proof.
  intros EK. specialize (HK EK). destruct r_ok' as [Hr _], n_ok' as [Hn _]. pose proof uro_pos. pose proof eta_num as [He1 He2].
  assert (Hz : z <= 41422 / 100000) by (apply Rabs_le; lra). pose proof (Rabs_pos xi) as Hz0.
  set (k := Rabs (IZR K)) in *. assert (Hk : k <= 1100) by (unfold k; rewrite <- abs_IZR; apply IZR_le; lia).
  assert (Hfe : ap fe (IZR K) 0) by (apply ap_exact; done). assert (Hlo : ap ln2_lo rlo 0) by (apply ap_exact; [done|apply lo_val]). assert (Hhi : ap ln2_hi (355 / 512) 0) by (apply ap_exact; [done|apply hi_val]).
  assert (Blo : Rabs rlo <= 213 / 1000000) by (unfold rlo; apply Rabs_le; lra). assert (Bhi : Rabs (355 / 512) <= 6934 / 10000) by (rewrite Rabs_pos_eq; lra).
  assert (Bkl : Rabs (IZR K * rlo) <= 213 / 1000000 * k) by (rewrite Rabs_mult; fold k; nra).
  assert (Bq : Rabs (pp xi * (xi * (xi * xi)) / qq xi) <= 314 / 10000) by (eapply Rle_trans; [by apply quot|]; lra).
  assert (H1 : ap (mul_add fused 9 fe ln2_lo r) (IZR K * rlo + pp xi * (xi * (xi * xi)) / qq xi) ((220 / 100 + 5 / 10000 * k) * uro)).
  { apply (ap_ma fused 9 _ _ _ _ _ _ 0 0 (216 / 100 * uro) k (213 / 1000000) (213 / 1000000 * k + 314 / 10000)); auto; unfold k; fold k; [|apply Rle_refl|eapply Rle_trans; [apply Rabs_triang|]; lra|lra| | |].
    - apply (ap_mono _ _ _ _ Hr). rewrite uro_num. lra.
    - eapply Rle_trans; [|exact big_num]. rewrite uro_num in *. lra.
    - eapply Rle_trans; [|exact big_num]. rewrite uro_num in *. lra.
    - rewrite uro_num in *. lra. }
  assert (H2 : ap (bplus (mul_add fused 9 fe ln2_lo r) n) (IZR K * rlo + rat xi) ((323 / 100 + 8 / 10000 * k) * uro)).
  { rewrite <- (rat_eq xi RX), <- Rplus_assoc. apply (ap_add _ _ _ _ ((220 / 100 + 5 / 10000 * k) * uro) (68 / 100 * uro) (213 / 1000000 * k + 3468 / 10000)); auto.
    - apply (ap_mono _ _ _ _ Hn). rewrite uro_num. lra.
    - rewrite Rplus_assoc, (rat_eq xi RX). eapply Rle_trans; [apply Rabs_triang|]. pose proof (rat_size2 xi RX). lra.
    - eapply Rle_trans; [|exact big_num]. rewrite uro_num in *. lra.
    - rewrite uro_num in *. lra. }
  assert (L2 : Rabs (ln 2) <= 6932 / 10000) by interval. assert (L3 : 6931 / 10000 <= ln 2) by interval.
  pose proof ln2_split as Sp. pose proof (rat_size2 xi RX) as Rs.
  assert (H3 : ap fin_res (IZR K * (355 / 512) + (IZR K * rlo + rat xi)) ((359 / 100 + 1389 / 1000 * k) * uro)).
  { unfold fin_res. assert (Lb : Rabs (IZR K * (355 / 512) + (IZR K * rlo + rat xi)) <= 6932 / 10000 * k + 3468 / 10000).
    { replace (IZR K * (355 / 512) + (IZR K * rlo + rat xi)) with (IZR K * (355 / 512 + rlo) + rat xi) by ring. eapply Rle_trans; [apply Rabs_triang|]. rewrite Rabs_mult. fold k.
      assert (Rabs (355 / 512 + rlo) <= 6932 / 10000) by (unfold rlo; apply Rabs_le; lra). nra. }
    apply (ap_ma fused 11 _ _ _ _ _ _ 0 0 ((323 / 100 + 8 / 10000 * k) * uro) k (6934 / 10000) (6932 / 10000 * k + 3468 / 10000)); auto; [apply Rle_refl|rewrite uro_num; lra| | |].
    - eapply Rle_trans; [|exact big_num]. rewrite uro_num in *. lra.
    - eapply Rle_trans; [|exact big_num]. rewrite uro_num in *. lra.
    - rewrite uro_num in *. lra. }
  destruct H3 as [F3 H3]. split; [exact F3|]. pose proof (approx xi RX) as A. pose proof (ln_high xi RX) as B.
  assert (Ll : 6931 / 10000 * k - 34673 / 100000 <= Rabs (IZR K * ln 2 + ln (1 + xi))).
  { pose proof (Rabs_triang_inv (IZR K * ln 2) (- ln (1 + xi))) as T. rewrite Rabs_Ropp, Rabs_mult in T. fold k in T. rewrite (Rabs_pos_eq (ln 2)) in T by lra.
    replace (IZR K * ln 2 - - ln (1 + xi)) with (IZR K * ln 2 + ln (1 + xi)) in T by ring. nra. }
  assert (Sk : Rabs (IZR K * (ln 2 - (355 / 512 + rlo))) <= 1 / 1000 * uro * k). { rewrite Rabs_mult. fold k. nra. }
  replace (val fin_res - (IZR K * ln 2 + ln (1 + xi))) with ((val fin_res - (IZR K * (355 / 512) + (IZR K * rlo + rat xi))) + (- (IZR K * (ln 2 - (355 / 512 + rlo))) - (ln (1 + xi) - rat xi))) by ring.
  eapply Rle_trans; [apply Rabs_triang|]. eapply Rle_trans; [apply Rplus_le_compat_l, Rabs_triang|]. rewrite !Rabs_Ropp.
  rewrite uro_num in *. lra.
Qed.
End final.
