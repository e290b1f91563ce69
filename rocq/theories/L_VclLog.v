(** * Absolute error bounds for single binary64 operations, and the bit manipulations of the vector logarithm. *)
From Coq Require Import ZArith Reals Lra Lia Psatz.
From Flocq Require Import Core BinarySingleNaN.
From stdpp Require Import base numbers.
From Verif Require Import Num NumB S_Round L_Round M_VclLog.
Local Open Scope R_scope.

(** [x] is a double within [E] of the real [s] *)
Definition ap (x : b64) (s E : R) : Prop := finite x /\ Rabs (val x - s) <= E.
Lemma ap_exact x s : finite x -> val x = s -> ap x s 0.
Proof. intros F E. split; [done|]. rewrite E, Rminus_diag_eq by done. rewrite Rabs_R0. lra. Qed.
Lemma ap_mono x s E F : ap x s E -> E <= F -> ap x s F.
Proof. intros [H1 H2] H. split; [done|lra]. Qed.
Lemma ap_size x s E M : ap x s E -> Rabs s <= M -> Rabs (val x) <= M + E.
Proof. intros [_ H] Hs. replace (val x) with ((val x - s) + s) by ring. eapply Rle_trans; [apply Rabs_triang|]. lra. Qed.

(** a correctly rounded result of moderate size is finite *)
Lemma rnd_size v : Rabs v <= 2 ^ 100 -> Rabs (rnd v) < bpow radix2 1024.
Proof.
  intros H. pose proof (rnd_err v) as E. pose proof uro_lt1. pose proof uro_pos. assert (Ht : eta <= 1). { unfold eta. rewrite <- Rinv_1. apply Rinv_le_contravar; [lra|]. apply pow_R1_Rle. lra. }
  replace (rnd v) with ((rnd v - v) + v) by ring. eapply Rle_lt_trans; [apply Rabs_triang|]. rewrite huge_eq. unfold huge.
  assert (2 ^ 100 * 4 < 2 ^ 1024). { replace (2 ^ 1024) with (2 ^ 100 * 4 * 2 ^ 922) by (replace 4 with (2 ^ 2) by lra; rewrite <- !pow_add; reflexivity). assert (1 < 2 ^ 922) by (apply Rlt_pow_R1; [lra|lia]). assert (0 < 2 ^ 100) by (apply pow_lt; lra). nra. }
  assert (1 <= 2 ^ 100) by (apply pow_R1_Rle; lra). pose proof (Rabs_pos v). nra.
Qed.
Lemma rb v : Rabs v <= 2 ^ 100 -> Rlt_bool (Rabs (rnd v)) (bpow radix2 1024) = true.
Proof. intros H. apply Rlt_bool_true, rnd_size, H. Qed.
Lemma bplus_ok x y : finite x -> finite y -> Rabs (val x + val y) <= 2 ^ 100 -> finite (bplus x y) /\ val (bplus x y) = rnd (val x + val y).
Proof.
  intros Fx Fy H. pose proof (Bplus_correct 53 1024 b64_prec b64_emax mode_NE x y Fx Fy) as Q.
  change (round radix2 (SpecFloat.fexp 53 1024) (round_mode mode_NE) (B2R x + B2R y)) with (rnd (val x + val y)) in Q. rewrite (rb _ H) in Q. split; apply Q.
Qed.
Lemma bminus_ok x y : finite x -> finite y -> Rabs (val x - val y) <= 2 ^ 100 -> finite (bminus x y) /\ val (bminus x y) = rnd (val x - val y).
Proof.
  intros Fx Fy H. pose proof (Bminus_correct 53 1024 b64_prec b64_emax mode_NE x y Fx Fy) as Q.
  change (round radix2 (SpecFloat.fexp 53 1024) (round_mode mode_NE) (B2R x - B2R y)) with (rnd (val x - val y)) in Q. rewrite (rb _ H) in Q. split; apply Q.
Qed.
Lemma bmult_ok x y : finite x -> finite y -> Rabs (val x * val y) <= 2 ^ 100 -> finite (bmult x y) /\ val (bmult x y) = rnd (val x * val y).
Proof.
  intros Fx Fy H. pose proof (Bmult_correct 53 1024 b64_prec b64_emax mode_NE x y) as Q.
  change (round radix2 (SpecFloat.fexp 53 1024) (round_mode mode_NE) (B2R x * B2R y)) with (rnd (val x * val y)) in Q. rewrite (rb _ H) in Q.
  destruct Q as (Q1 & Q2 & _). split; [|exact Q1]. unfold finite in *. eapply eq_trans; [exact Q2|]. by rewrite Fx, Fy.
Qed.
Lemma bdiv_ok x y : finite x -> val y <> 0 -> Rabs (val x / val y) <= 2 ^ 100 -> finite (bdiv x y) /\ val (bdiv x y) = rnd (val x / val y).
Proof.
  intros Fx Hy H. pose proof (Bdiv_correct 53 1024 b64_prec b64_emax mode_NE x y Hy) as Q.
  change (round radix2 (SpecFloat.fexp 53 1024) (round_mode mode_NE) (B2R x / B2R y)) with (rnd (val x / val y)) in Q. rewrite (rb _ H) in Q.
  destruct Q as (Q1 & Q2 & _). split; [|exact Q1]. unfold finite in *. eapply eq_trans; [exact Q2|done].
Qed.
Lemma bfma_ok x y z : finite x -> finite y -> finite z -> Rabs (val x * val y + val z) <= 2 ^ 100 -> finite (bfma x y z) /\ val (bfma x y z) = rnd (val x * val y + val z).
Proof.
  intros Fx Fy Fz H. pose proof (Bfma_correct 53 1024 b64_prec b64_emax mode_NE x y z Fx Fy Fz) as Q. cbv zeta in Q.
  change (round radix2 (SpecFloat.fexp 53 1024) (round_mode mode_NE) (B2R x * B2R y + B2R z)) with (rnd (val x * val y + val z)) in Q. rewrite (rb _ H) in Q. split; apply Q.
Qed.
Lemma bopp_ok x : finite x -> finite (Bopp x) /\ val (Bopp x) = - val x.
Proof. intros F. split; [unfold finite; by rewrite is_finite_Bopp|apply B2R_Bopp]. Qed.

(** rounding a real near [s] *)
Lemma rnd_near v s A M : Rabs (v - s) <= A -> Rabs s <= M -> Rabs (rnd v - s) <= A + (uro * (M + A) + eta).
Proof.
  intros H Hs. pose proof (rnd_err v) as E. pose proof uro_pos.
  assert (Hv : Rabs v <= M + A) by (replace v with ((v - s) + s) by ring; eapply Rle_trans; [apply Rabs_triang|]; lra).
  replace (rnd v - s) with ((rnd v - v) + (v - s)) by ring. eapply Rle_trans; [apply Rabs_triang|]. pose proof (Rmult_le_compat_l uro _ _ (Rlt_le _ _ uro_pos) Hv). lra.
Qed.
Lemma near_size v s A M : Rabs (v - s) <= A -> Rabs s <= M -> Rabs v <= M + A.
Proof. intros H Hs. replace v with ((v - s) + s) by ring. eapply Rle_trans; [apply Rabs_triang|]. lra. Qed.
Lemma prod_near x y s t E F M N : Rabs (x - s) <= E -> Rabs (y - t) <= F -> Rabs s <= M -> Rabs t <= N -> Rabs (x * y - s * t) <= E * N + M * F + E * F.
Proof.
  intros H1 H2 H3 H4. replace (x * y - s * t) with ((x - s) * t + s * (y - t) + (x - s) * (y - t)) by ring.
  eapply Rle_trans; [apply Rabs_triang|]. apply Rplus_le_compat; [eapply Rle_trans; [apply Rabs_triang|]; apply Rplus_le_compat|]; rewrite Rabs_mult; apply Rmult_le_compat; auto using Rabs_pos.
Qed.

Lemma ap_add x y s t E F M G : ap x s E -> ap y t F -> Rabs (s + t) <= M -> M + (E + F) <= 2 ^ 100 -> (E + F) + (uro * (M + (E + F)) + eta) <= G -> ap (bplus x y) (s + t) G.
Proof.
  intros [Fx Hx] [Fy Hy] HM Hb HG. assert (H : Rabs (val x + val y - (s + t)) <= E + F).
  { replace (val x + val y - (s + t)) with ((val x - s) + (val y - t)) by ring. eapply Rle_trans; [apply Rabs_triang|]. lra. }
  destruct (bplus_ok x y Fx Fy) as [Ff Ev]. { eapply Rle_trans; [apply (near_size _ _ _ _ H HM)|done]. }
  split; [done|]. rewrite Ev. eapply Rle_trans; [apply (rnd_near _ _ _ _ H HM)|done].
Qed.
Lemma ap_mul x y s t E F M N G : ap x s E -> ap y t F -> Rabs s <= M -> Rabs t <= N -> M * N + (E * N + M * F + E * F) <= 2 ^ 100 ->
  (E * N + M * F + E * F) + (uro * (M * N + (E * N + M * F + E * F)) + eta) <= G -> ap (bmult x y) (s * t) G.
Proof.
  intros [Fx Hx] [Fy Hy] HM HN Hb HG. pose proof (prod_near _ _ _ _ _ _ _ _ Hx Hy HM HN) as H.
  assert (HP : Rabs (s * t) <= M * N) by (rewrite Rabs_mult; apply Rmult_le_compat; auto using Rabs_pos).
  destruct (bmult_ok x y Fx Fy) as [Ff Ev]. { eapply Rle_trans; [apply (near_size _ _ _ _ H HP)|done]. }
  split; [done|]. rewrite Ev. eapply Rle_trans; [apply (rnd_near _ _ _ _ H HP)|done].
Qed.
Lemma ap_div x y s t E F m M G : ap x s E -> ap y t F -> F < m -> m <= Rabs t -> Rabs (s / t) <= M -> M + (E + M * F) / (m - F) <= 2 ^ 100 ->
  (E + M * F) / (m - F) + (uro * (M + (E + M * F) / (m - F)) + eta) <= G -> ap (bdiv x y) (s / t) G.
Proof.
  intros [Fx Hx] [Fy Hy] Hm Ht HM Hb HG. assert (Ht0 : 0 < Rabs t) by (pose proof (Rabs_pos (val y - t)); lra). assert (Htn : t <> 0) by (intros ->; rewrite Rabs_R0 in Ht0; lra).
  assert (Hy1 : m - F <= Rabs (val y)). { pose proof (Rabs_triang_inv t (t - val y)) as Q. replace (t - (t - val y)) with (val y) in Q by ring. rewrite Rabs_minus_sym in Hy. lra. }
  assert (Hy0 : val y <> 0) by (intros Z; rewrite Z, Rabs_R0 in Hy1; lra).
  assert (H : Rabs (val x / val y - s / t) <= (E + M * F) / (m - F)).
  { replace (val x / val y - s / t) with (((val x - s) - s / t * (val y - t)) / val y) by (field; auto). unfold Rdiv at 1. rewrite Rabs_mult, Rabs_inv.
    unfold Rdiv. apply Rmult_le_compat; [apply Rabs_pos|apply Rlt_le, Rinv_0_lt_compat; lra| |apply Rinv_le_contravar; lra].
    eapply Rle_trans; [apply Rabs_triang|]. rewrite Rabs_Ropp, Rabs_mult. apply Rplus_le_compat; [done|]. apply Rmult_le_compat; auto using Rabs_pos. }
  destruct (bdiv_ok x y Fx Hy0) as [Ff Ev]. { eapply Rle_trans; [apply (near_size _ _ _ _ H HM)|done]. }
  split; [done|]. rewrite Ev. eapply Rle_trans; [apply (rnd_near _ _ _ _ H HM)|done].
Qed.

Section ma.
Context (fused : nat -> bool).
(** fused or not *)
Lemma ap_ma k x y z s t r E F D M N L G : ap x s E -> ap y t F -> ap z r D -> Rabs s <= M -> Rabs t <= N -> Rabs (s * t + r) <= L ->
  let A := E * N + M * F + E * F in let B := A + (uro * (M * N + A) + eta) in
  0 <= D -> M * N + B + D <= 2 ^ 100 -> L + B + D <= 2 ^ 100 -> (B + D) + (uro * (L + (B + D)) + eta) <= G -> ap (mul_add fused k x y z) (s * t + r) G.
Proof.
  intros Hx Hy Hz HM HN HL A B HD0 Hb1 Hb2 HG. pose proof uro_pos as Hu. pose proof eta_pos as He.
  assert (HA : 0 <= A). { destruct Hx as [_ Hx], Hy as [_ Hy]. pose proof (prod_near _ _ _ _ _ _ _ _ Hx Hy HM HN) as Q. pose proof (Rabs_pos (val x * val y - s * t)). unfold A. lra. }
  assert (HMN : 0 <= M * N) by (apply Rmult_le_pos; [pose proof (Rabs_pos s)|pose proof (Rabs_pos t)]; lra).
  assert (HB : A <= B) by (unfold B; pose proof (Rmult_le_pos uro (M * N + A)); lra).
  unfold mul_add. destruct (fused k).
  - destruct Hx as [Fx Hx], Hy as [Fy Hy], Hz as [Fz Hz]. pose proof (prod_near _ _ _ _ _ _ _ _ Hx Hy HM HN) as Q. fold A in Q.
    assert (H : Rabs (val x * val y + val z - (s * t + r)) <= B + D).
    { replace (val x * val y + val z - (s * t + r)) with ((val x * val y - s * t) + (val z - r)) by ring. eapply Rle_trans; [apply Rabs_triang|]. lra. }
    destruct (bfma_ok x y z Fx Fy Fz) as [Ff Ev]. { eapply Rle_trans; [apply (near_size _ _ _ _ H HL)|lra]. }
    split; [done|]. rewrite Ev. eapply Rle_trans; [apply (rnd_near _ _ _ _ H HL)|done].
  - apply (ap_add _ _ _ _ B D L); auto; [|lra]. apply (ap_mul _ _ _ _ E F M N); auto; [|exact (Rle_refl B)]. fold A. clearbody B A. lra.
Qed.
Lemma ap_nma k x y z s t r E F D M N L G : ap x s E -> ap y t F -> ap z r D -> Rabs s <= M -> Rabs t <= N -> Rabs (r - s * t) <= L ->
  let A := E * N + M * F + E * F in let B := A + (uro * (M * N + A) + eta) in
  0 <= D -> M * N + B + D <= 2 ^ 100 -> L + B + D <= 2 ^ 100 -> (B + D) + (uro * (L + (B + D)) + eta) <= G -> ap (nmul_add fused k x y z) (r - s * t) G.
Proof.
  intros Hx Hy Hz HM HN HL A B HD0 Hb1 Hb2 HG. pose proof uro_pos as Hu. pose proof eta_pos as He.
  assert (HA : 0 <= A). { destruct Hx as [_ Hx], Hy as [_ Hy]. pose proof (prod_near _ _ _ _ _ _ _ _ Hx Hy HM HN) as Q. pose proof (Rabs_pos (val x * val y - s * t)). unfold A. lra. }
  assert (HMN : 0 <= M * N) by (apply Rmult_le_pos; [pose proof (Rabs_pos s)|pose proof (Rabs_pos t)]; lra).
  assert (HB : A <= B) by (unfold B; pose proof (Rmult_le_pos uro (M * N + A)); lra).
  unfold nmul_add. destruct (fused k).
  - destruct Hx as [Fx Hx], Hy as [Fy Hy], Hz as [Fz Hz]. pose proof (prod_near _ _ _ _ _ _ _ _ Hx Hy HM HN) as Q. fold A in Q.
    destruct (bopp_ok x Fx) as [Fo Eo].
    assert (H : Rabs (val (Bopp x) * val y + val z - (r - s * t)) <= B + D).
    { rewrite Eo. replace (- val x * val y + val z - (r - s * t)) with (- (val x * val y - s * t) + (val z - r)) by ring. eapply Rle_trans; [apply Rabs_triang|]. rewrite Rabs_Ropp. lra. }
    destruct (bfma_ok (Bopp x) y z Fo Fy Fz) as [Ff Ev]. { eapply Rle_trans; [apply (near_size _ _ _ _ H HL)|lra]. }
    split; [done|]. rewrite Ev. eapply Rle_trans; [apply (rnd_near _ _ _ _ H HL)|done].
  - assert (Hm : ap (bmult x y) (s * t) B). { apply (ap_mul _ _ _ _ E F M N); auto; [|exact (Rle_refl B)]. fold A. clearbody B A. lra. }
    destruct Hm as [Fm Hm], Hz as [Fz Hz].
    assert (H : Rabs (val z - val (bmult x y) - (r - s * t)) <= B + D).
    { replace (val z - val (bmult x y) - (r - s * t)) with (- (val (bmult x y) - s * t) + (val z - r)) by ring. eapply Rle_trans; [apply Rabs_triang|]. rewrite Rabs_Ropp. lra. }
    destruct (bminus_ok z (bmult x y) Fz Fm) as [Ff Ev]. { eapply Rle_trans; [apply (near_size _ _ _ _ H HL)|lra]. }
    split; [done|]. rewrite Ev. eapply Rle_trans; [apply (rnd_near _ _ _ _ H HL)|done].
Qed.
End ma.

(** ** constants *)
Lemma dbl_ok s m e H : finite (dbl s m e H) /\ val (dbl s m e H) = F2R (Float radix2 (SpecFloat.cond_Zopp s (Z.pos m)) e).
Proof. split; reflexivity. Qed.
Lemma F2R_neg m k : F2R (Float radix2 m (- Z.of_nat k)) = IZR m / 2 ^ k.
Proof. unfold F2R. cbn [Fnum Fexp]. by rewrite bpow_nat. Qed.

(** ** taking a normal number apart *)
Definition normal (x : b64) : Prop := finite x /\ / 2 ^ 1022 <= val x.
Lemma normal_form x : normal x -> exists m e H, x = B754_finite false m e H /\ (2 ^ 52 <= Z.pos m < 2 ^ 53)%Z /\ (-1074 <= e <= 971)%Z /\ val x = F2R (Float radix2 (Z.pos m) e).
Proof.
  intros [F H]. destruct x as [s|s| |s m e B]; try done.
  - exfalso. cbn in H. assert (0 < / 2 ^ 1022) by (apply Rinv_0_lt_compat, pow_lt; lra). lra.
  - destruct s.
    { exfalso. assert (0 < / 2 ^ 1022) by (apply Rinv_0_lt_compat, pow_lt; lra). assert (val (B754_finite true m e B) < 0) by (apply F2R_lt_0; done). lra. }
    exists m, e, B. split; [done|]. pose proof B as B'. unfold SpecFloat.bounded in B'. apply andb_prop in B' as [B1 B2]. apply Zle_bool_imp_le in B2.
    unfold SpecFloat.canonical_mantissa in B1. apply Zeq_bool_eq in B1. rewrite Digits.Zpos_digits2_pos in B1. unfold SpecFloat.fexp, SpecFloat.emin in B1.
    assert (Hd : (Z.pos m < 2 ^ Digits.Zdigits radix2 (Z.pos m))%Z) by (apply (Digits.Zdigits_correct radix2 (Z.pos m))).
    assert (Hl : (2 ^ (Digits.Zdigits radix2 (Z.pos m) - 1) <= Z.pos m)%Z) by (apply (Digits.Zdigits_correct radix2 (Z.pos m))).
    assert (He : (-1074 <= e)%Z) by lia. assert (Hm : (Digits.Zdigits radix2 (Z.pos m) <= 53)%Z) by lia.
    assert (Hm2 : (Z.pos m < 2 ^ 53)%Z) by (eapply Z.lt_le_trans; [exact Hd|apply Z.pow_le_mono_r; lia]).
    split; [split; [|done]|split; [lia|reflexivity]].
    destruct (Z.eq_dec (Digits.Zdigits radix2 (Z.pos m)) 53%Z) as [D|D]. { rewrite D in Hl. exact Hl. }
    assert (e = -1074)%Z as -> by lia. apply Znot_gt_le. intros Hc. change (val (B754_finite false m (-1074) B)) with (F2R (Float radix2 (Z.pos m) (- Z.of_nat 1074))) in H.
    rewrite F2R_neg in H. apply IZR_lt in Hc || apply Z.gt_lt, IZR_lt in Hc. replace (IZR (2 ^ 52)) with (2 ^ 52) in Hc by lra.
    assert (E : 2 ^ 1074 = 2 ^ 52 * 2 ^ 1022) by (rewrite <- pow_add; reflexivity). rewrite E in H. unfold Rdiv in H. rewrite Rinv_mult in H.
    assert (0 < / 2 ^ 1022) by (apply Rinv_0_lt_compat, pow_lt; lra). assert (P : 0 < 2 ^ 52) by (apply pow_lt; lra).
    assert (IZR (Z.pos m) * / 2 ^ 52 < 1). { apply (Rmult_lt_reg_r (2 ^ 52)); [done|]. rewrite Rmult_assoc, Rinv_l by lra. lra. } nra.
Qed.
Lemma bnorm_ok m e s : (Z.abs m < 2 ^ 53)%Z -> (-1074 <= e)%Z -> Rabs (F2R (Float radix2 m e)) <= 2 ^ 100 -> finite (bnorm m e s) /\ val (bnorm m e s) = F2R (Float radix2 m e).
Proof.
  intros Hm He Hs. pose proof (binary_normalize_correct 53 1024 b64_prec b64_emax mode_NE m e s) as Q. cbv zeta in Q.
  change (round radix2 (SpecFloat.fexp 53 1024) (round_mode mode_NE) (F2R (Float radix2 m e))) with (rnd (F2R (Float radix2 m e))) in Q. rewrite (rb _ Hs) in Q.
  rewrite (rnd_format _ (format_F2R m e Hm He)) in Q. split; apply Q.
Qed.
Lemma lor_disj a b k : (0 <= a < 2 ^ k)%Z -> (0 <= k)%Z -> Z.lor a (b * 2 ^ k) = (a + b * 2 ^ k)%Z.
Proof.
  intros Ha Hk. rewrite <- Z.lxor_lor; [symmetry; apply Z.add_nocarry_lxor|]; apply Z.bits_inj'; intros n Hn; rewrite Z.land_spec, Z.bits_0; apply andb_false_iff.
  - destruct (Z_lt_le_dec n k); [right; by apply Z.mul_pow2_bits_low|left]. destruct (Z.eq_dec a 0%Z) as [->|]; [apply Z.bits_0|]. apply Z.bits_above_log2; [lia|]. apply Z.log2_lt_pow2; [lia|]. eapply Z.lt_le_trans; [apply Ha|apply Z.pow_le_mono_r; lia].
  - destruct (Z_lt_le_dec n k); [right; by apply Z.mul_pow2_bits_low|left]. destruct (Z.eq_dec a 0%Z) as [->|]; [apply Z.bits_0|]. apply Z.bits_above_log2; [lia|]. apply Z.log2_lt_pow2; [lia|]. eapply Z.lt_le_trans; [apply Ha|apply Z.pow_le_mono_r; lia].
Qed.
Lemma of_bits_normal f k : (0 <= f < 2 ^ 52)%Z -> (1 <= k <= 1122)%Z -> finite (of_bits (f + k * 2 ^ 52)) /\ val (of_bits (f + k * 2 ^ 52)) = F2R (Float radix2 (2 ^ 52 + f) (k - 1075)).
Proof.
  intros Hf Hk. unfold of_bits.
  assert (E1 : ((f + k * 2 ^ 52) / 2 ^ 63 = 0)%Z) by (apply Z.div_small; lia).
  assert (E2 : ((f + k * 2 ^ 52) / 2 ^ 52 = k)%Z) by (rewrite Z.div_add, Z.div_small by lia; lia).
  assert (E3 : ((f + k * 2 ^ 52) mod 2 ^ 52 = f)%Z) by (rewrite Z.mod_add, Z.mod_small by lia; lia).
  rewrite E1, E2, E3. rewrite (Z.mod_small k 2048%Z) by lia. change (0 =? 0)%Z with true. cbn [negb].
  rewrite (proj2 (Z.eqb_neq k 2047%Z)) by lia. rewrite (proj2 (Z.eqb_neq k 0%Z)) by lia.
  apply bnorm_ok; [lia|lia|]. unfold F2R. cbn [Fnum Fexp]. rewrite Rabs_mult, (Rabs_pos_eq (bpow _ _)) by apply bpow_ge_0. rewrite <- abs_IZR.
  assert (IZR (Z.abs (2 ^ 52 + f)) <= 2 ^ 53) by (change (2 ^ 53) with (IZR 2 ^ 53); rewrite (pow_IZR 2 53); apply IZR_le; lia).
  assert (B : bpow radix2 (k - 1075) <= 2 ^ 47). { assert (E : bpow radix2 47 = 2 ^ 47) by (rewrite bpow_powerRZ; reflexivity). rewrite <- E. apply bpow_le. lia. }
  replace (2 ^ 100) with (2 ^ 53 * 2 ^ 47) by (rewrite <- pow_add; reflexivity). apply Rmult_le_compat; auto using bpow_ge_0. apply IZR_le. lia.
Qed.
Lemma fraction_2_ok x m e H : x = B754_finite false m e H -> (2 ^ 52 <= Z.pos m < 2 ^ 53)%Z -> (-1074 <= e <= 971)%Z ->
  finite (fraction_2 x) /\ val (fraction_2 x) = F2R (Float radix2 (Z.pos m) (-53)).
Proof.
  intros -> Hm He. unfold fraction_2, bits, sgn. rewrite (proj2 (Z.ltb_ge (Z.pos m) (2 ^ 52)%Z)) by lia.
  change 0x000FFFFFFFFFFFFF%Z with (Z.ones 52). rewrite Z.land_ones by lia.
  replace (0 + ((e + 1075) * 2 ^ 52 + (Z.pos m - 2 ^ 52)))%Z with ((Z.pos m - 2 ^ 52) + (e + 1075) * 2 ^ 52)%Z by ring.
  rewrite Z.mod_add, Z.mod_small by lia. change 0x3FE0000000000000%Z with (1022 * 2 ^ 52)%Z. rewrite lor_disj by lia.
  destruct (of_bits_normal (Z.pos m - 2 ^ 52) 1022 ltac:(lia) ltac:(lia)) as [F E]. split; [exact F|]. rewrite E.
  by replace (2 ^ 52 + (Z.pos m - 2 ^ 52))%Z with (Z.pos m) by ring.
Qed.
Lemma exponent_f_ok vl x m e H : x = B754_finite false m e H -> (2 ^ 52 <= Z.pos m < 2 ^ 53)%Z -> (-1074 <= e <= 971)%Z ->
  finite (exponent_f vl x) /\ val (exponent_f vl x) = IZR (e + 52).
Proof.
  intros -> Hm He. unfold exponent_f. destruct vl.
  - unfold getexp. assert (L : Z.log2 (Z.pos m) = 52%Z) by (apply Z.log2_unique; lia). rewrite L.
    assert (E : F2R (Float radix2 (52 + e) 0) = IZR (e + 52)) by (unfold F2R; cbn; rewrite Rmult_1_r; f_equal; lia).
    rewrite <- E. apply bnorm_ok; [lia|lia|]. rewrite E, <- abs_IZR. change (2 ^ 100) with (IZR 2 ^ 100); rewrite (pow_IZR 2 100). apply IZR_le. lia.
  - unfold bits, sgn. rewrite (proj2 (Z.ltb_ge (Z.pos m) (2 ^ 52)%Z)) by lia.
    rewrite Z.shiftr_div_pow2 by lia. replace (0 + ((e + 1075) * 2 ^ 52 + (Z.pos m - 2 ^ 52)))%Z with ((Z.pos m - 2 ^ 52) + (e + 1075) * 2 ^ 52)%Z by ring.
    rewrite Z.div_add, Z.div_small by lia. change 0x4330000000000000%Z with (1075 * 2 ^ 52)%Z. rewrite lor_disj by lia. cbn [Z.add].
    destruct (of_bits_normal (0 + (e + 1075)) 1075 ltac:(lia) ltac:(lia)) as [F E].
    assert (V : val (of_bits (0 + (e + 1075) + 1075 * 2 ^ 52)) - val d_magic = IZR (e + 52)).
    { rewrite E. change (val d_magic) with (F2R (Float radix2 4503599627371519 0)). unfold F2R. cbn [Fnum Fexp]. change (1075 - 1075)%Z with 0%Z. change (bpow radix2 0) with 1. rewrite !Rmult_1_r, <- minus_IZR. f_equal. lia. }
    destruct (bminus_ok (of_bits (0 + (e + 1075) + 1075 * 2 ^ 52)) d_magic F eq_refl) as [F2 E2].
    { rewrite V, <- abs_IZR. change (2 ^ 100) with (IZR 2 ^ 100); rewrite (pow_IZR 2 100). apply IZR_le. lia. }
    split; [exact F2|]. rewrite E2, V. apply rnd_format, format_Z. lia.
Qed.
