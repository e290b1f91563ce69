(** * Rounding errors of the Gauss-Seidel pixel update of src/bregman.c in IEEE binary64. *)
From Coq Require Import ZArith Reals Lra Lia Psatz.
From Flocq Require Import Core Relative BinarySingleNaN.
From stdpp Require Import base numbers list.
From Verif Require Import Num NumB S_Round L_Round L_RoundTV S_Vec Mem P_Mem M_Bregman P_Bregman.
Local Open Scope R_scope.

Lemma uro_small : uro <= / 1000000.
Proof. unfold uro. apply Rinv_le_contravar; lra. Qed.
Lemma pow_bpow k : 2 ^ k = bpow radix2 (Z.of_nat k).
Proof. rewrite bpow_powerRZ. change (IZR radix2) with 2. by rewrite <- pow_powerRZ. Qed.
Lemma inv_pow_le k l : (k <= l)%nat -> / 2 ^ l <= / 2 ^ k.
Proof. intros H. apply Rinv_le_contravar; [apply pow_lt; lra|]. apply Rle_pow; [lra|done]. Qed.
Lemma eta_small k : (k <= 1075)%nat -> eta <= / 2 ^ k.
Proof. apply inv_pow_le. Qed.
(** away from the subnormal range the error is purely relative *)
Lemma rnd_rel x : / 2 ^ 1022 <= Rabs x -> Rabs (rnd x - x) <= uro * Rabs x.
Proof.
  intros H. unfold rnd. rewrite fexp64_FLT. rewrite <- uro_eq.
  apply (relative_error_N_FLT radix2 (-1074) 53 ltac:(lia) (fun x => negb (Z.even x)) x).
  change (-1074 + 53 - 1)%Z with (- Z.of_nat 1022)%Z. by rewrite bpow_nat.
Qed.
Lemma rnd_pos_rel x : / 2 ^ 1022 <= x -> x * (1 - uro) <= rnd x <= x * (1 + uro).
Proof.
  intros H. assert (0 < x) by (eapply Rlt_le_trans; [apply Rinv_0_lt_compat, (pow_lt 2); lra|exact H]).
  pose proof (rnd_rel x ltac:(rewrite Rabs_pos_eq; lra)) as Q. rewrite (Rabs_pos_eq x) in Q by lra. apply Rabs_le_inv in Q. lra.
Qed.

(** ** the real inequalities *)
Lemma den_bounds a x u p w : 0 < a -> 0 < x -> 0 <= u <= / 1000000 -> x * (1 - u) <= p <= x * (1 + u) -> (a + p) * (1 - u) <= w <= (a + p) * (1 + u) ->
  (a + x) * (1 - 2 * u) <= w <= (a + x) * (1 + u) * (1 + u).
Proof.
  intros Ha Hx Hu Hp Hw. split.
  - apply Rle_trans with ((a + p) * (1 - u)); [|lra]. apply Rle_trans with ((a + x * (1 - u)) * (1 - u)); [|apply Rmult_le_compat_r; lra].
    assert (0 <= a * u) by (apply Rmult_le_pos; lra). assert (0 <= x * u * u) by (apply Rmult_le_pos; [apply Rmult_le_pos|]; lra). lra.
  - apply Rle_trans with ((a + p) * (1 + u)); [lra|]. apply Rmult_le_compat_r; [lra|]. assert (0 <= a * u) by (apply Rmult_le_pos; lra). lra.
Qed.
Lemma inv_bounds u W w : 0 <= u <= / 1000000 -> 0 < W -> W * (1 - 2 * u) <= w <= W * (1 + u) * (1 + u) -> 0 < w /\ / W * (1 - 2 * u) <= / w <= / W * (1 + 3 * u).
Proof.
  intros Hu HW Hw. assert (W0 : 0 < W * (1 - 2 * u)) by (apply Rmult_lt_0_compat; lra). split; [lra|].
  assert (IW : 0 < / W) by (by apply Rinv_0_lt_compat). assert (HH : W * / W = 1) by (apply Rinv_r; lra). assert (UU : 0 <= u * u <= u * / 1000000) by (split; [apply Rmult_le_pos|apply Rmult_le_compat_l]; lra). split.
  - apply (Rmult_le_reg_r w); [lra|]. rewrite (Rinv_l w) by lra.
    apply Rle_trans with (/ W * (1 - 2 * u) * (W * (1 + u) * (1 + u))); [apply Rmult_le_compat_l; [apply Rmult_le_pos; lra|lra]|].
    replace (/ W * (1 - 2 * u) * (W * (1 + u) * (1 + u))) with ((W * / W) * (1 - u * u * (3 + 2 * u))) by ring. rewrite HH.
    assert (0 <= u * u * (3 + 2 * u)) by (apply Rmult_le_pos; lra). lra.
  - apply (Rmult_le_reg_r w); [lra|]. rewrite (Rinv_l w) by lra.
    apply Rle_trans with (/ W * (1 + 3 * u) * (W * (1 - 2 * u))); [|apply Rmult_le_compat_l; [apply Rmult_le_pos; lra|lra]].
    replace (/ W * (1 + 3 * u) * (W * (1 - 2 * u))) with ((W * / W) * (1 + u - 6 * (u * u))) by ring. rewrite HH. lra.
Qed.
Lemma rec_bound u I i c : 0 <= u <= / 1000000 -> 0 < I -> I * (1 - 2 * u) <= i <= I * (1 + 3 * u) -> i * (1 - u) <= c <= i * (1 + u) -> Rabs (c - I) <= 4 * u * I + u * I.
Proof.
  intros Hu HI Hi Hc. assert (UU : 0 <= u * u <= u * / 1000000) by (split; [apply Rmult_le_pos|apply Rmult_le_compat_l]; lra). assert (0 <= u * I) by (apply Rmult_le_pos; lra).
  assert (UI : 0 <= u * u * I <= u * / 1000000 * I) by (split; [apply Rmult_le_pos|apply Rmult_le_compat_r]; lra).
  assert (i * (1 + u) <= I * (1 + 3 * u) * (1 + u)) by (apply Rmult_le_compat_r; lra). assert (I * (1 - 2 * u) * (1 - u) <= i * (1 - u)) by (apply Rmult_le_compat_r; lra).
  apply Rabs_le. split; lra.
Qed.
Lemma prod_step u e Q x y z : 0 <= u <= / 1000000 -> 0 <= Q -> Rabs (x - y) <= 4 * u * Q -> Rabs y <= Q -> Rabs (z - x) <= u * Rabs x + e -> Rabs (z - y) <= 6 * u * Q + e /\ Rabs z <= 2 * Q + e.
Proof.
  intros Hu HQ H1 H2 H3. assert (UQ : 0 <= u * Q) by (apply Rmult_le_pos; lra). assert (UUQ : u * (u * Q) <= / 1000000 * (u * Q)) by (apply Rmult_le_compat_r; lra). assert (UQ1 : u * Q <= / 1000000 * Q) by (apply Rmult_le_compat_r; lra).
  assert (HX : Rabs x <= (1 + 4 * u) * Q) by (replace x with ((x - y) + y) by ring; eapply Rle_trans; [apply Rabs_triang|]; lra).
  assert (HUX : u * Rabs x <= u * ((1 + 4 * u) * Q)) by (apply Rmult_le_compat_l; lra).
  assert (HB : Rabs (z - y) <= 6 * u * Q + e) by (replace (z - y) with ((z - x) + (x - y)) by ring; eapply Rle_trans; [apply Rabs_triang|]; lra).
  split; [exact HB|]. replace z with ((z - y) + y) by ring. eapply Rle_trans; [apply Rabs_triang|]. lra.
Qed.
Lemma sum_step u e Q r p y z : 0 <= u <= / 1000000 -> 0 <= e -> 0 <= Q -> Rabs y <= Q -> Rabs (p - y) <= 6 * u * Q + e -> Rabs (z - (r + p)) <= u * Rabs (r + p) ->
  Rabs (z - (r + y)) <= 8 * u * (Rabs r + Q) + 2 * e /\ Rabs z <= 2 * (Rabs r + Q) + 2 * e /\ Rabs (r + y) <= Rabs r + Q.
Proof.
  intros Hu He HQ Hy H1 H2. assert (UQ : 0 <= u * Q) by (apply Rmult_le_pos; lra). assert (UUQ : u * (u * Q) <= / 1000000 * (u * Q)) by (apply Rmult_le_compat_r; lra). assert (UQ1 : u * Q <= / 1000000 * Q) by (apply Rmult_le_compat_r; lra).
  pose proof (Rabs_pos r) as R0. assert (UR : 0 <= u * Rabs r <= / 1000000 * Rabs r) by (split; [apply Rmult_le_pos|apply Rmult_le_compat_r]; lra). assert (UE : u * e <= / 1000000 * e) by (apply Rmult_le_compat_r; lra).
  assert (HP : Rabs (r + p) <= Rabs r + (1 + 6 * u) * Q + e) by (replace (r + p) with (r + y + (p - y)) by ring; eapply Rle_trans; [apply Rabs_triang|]; pose proof (Rabs_triang r y); lra).
  assert (HUP : u * Rabs (r + p) <= u * (Rabs r + (1 + 6 * u) * Q + e)) by (apply Rmult_le_compat_l; lra).
  assert (HY : Rabs (r + y) <= Rabs r + Q) by (eapply Rle_trans; [apply Rabs_triang|]; lra).
  assert (HB : Rabs (z - (r + y)) <= 8 * u * (Rabs r + Q) + 2 * e) by (replace (z - (r + y)) with ((z - (r + p)) + (p - y)) by ring; eapply Rle_trans; [apply Rabs_triang|]; lra).
  split; [exact HB|]. split; [|exact HY]. replace z with ((z - (r + y)) + (r + y)) by ring. eapply Rle_trans; [apply Rabs_triang|]. lra.
Qed.
Lemma last_step u e Q I t T c z B : 0 <= u <= / 1000000 -> 0 <= e -> 0 <= Q -> 0 < I -> Q * I <= B -> Rabs T <= Q -> Rabs (t - T) <= 8 * u * Q + 2 * e -> Rabs t <= 2 * Q + 2 * e ->
  Rabs (c - I) <= 5 * u * I -> Rabs (z - t * c) <= u * Rabs (t * c) + e ->
  Rabs (z - T * I) <= 20 * u * B + e * (1 + 4 * I) /\ Rabs z <= 2 * B + e * (1 + 4 * I).
Proof.
  intros Hu He HQ HI HB HT H1 H2 H3 H4. set (G := Q * I) in *. assert (G0 : 0 <= G) by (apply Rmult_le_pos; lra). set (K := e * I). assert (K0 : 0 <= K) by (apply Rmult_le_pos; lra).
  assert (UG : 0 <= u * G <= / 1000000 * G) by (split; [apply Rmult_le_pos|apply Rmult_le_compat_r]; lra). assert (UK : 0 <= u * K <= / 1000000 * K) by (split; [apply Rmult_le_pos|apply Rmult_le_compat_r]; lra).
  assert (UUG : u * (u * G) <= / 1000000 * (u * G)) by (apply Rmult_le_compat_r; lra). assert (UUK : 0 <= u * (u * K) <= / 1000000 * (u * K)) by (split; [apply Rmult_le_pos|apply Rmult_le_compat_r]; lra).
  assert (HC : Rabs (t * c - T * I) <= 18 * u * G + 3 * K).
  { replace (t * c - T * I) with (t * (c - I) + (t - T) * I) by ring. eapply Rle_trans; [apply Rabs_triang|]. rewrite !Rabs_mult, (Rabs_pos_eq I) by lra.
    assert (X1 : Rabs t * Rabs (c - I) <= (2 * Q + 2 * e) * (5 * u * I)) by (apply Rmult_le_compat; try apply Rabs_pos; lra).
    assert (X2 : Rabs (t - T) * I <= (8 * u * Q + 2 * e) * I) by (apply Rmult_le_compat_r; lra).
    replace ((2 * Q + 2 * e) * (5 * u * I)) with (10 * (u * G) + 10 * (u * K)) in X1 by (unfold G, K; ring).
    replace ((8 * u * Q + 2 * e) * I) with (8 * (u * G) + 2 * K) in X2 by (unfold G, K; ring). lra. }
  assert (HTI : Rabs (T * I) <= G) by (rewrite Rabs_mult, (Rabs_pos_eq I) by lra; apply Rmult_le_compat_r; lra).
  assert (HM : Rabs (t * c) <= (1 + 18 * u) * G + 3 * K) by (replace (t * c) with ((t * c - T * I) + T * I) by ring; eapply Rle_trans; [apply Rabs_triang|]; lra).
  assert (X1 : u * Rabs (t * c) <= u * ((1 + 18 * u) * G + 3 * K)) by (apply Rmult_le_compat_l; lra).
  assert (UB : u * G <= u * B) by (apply Rmult_le_compat_l; lra).
  assert (HF : Rabs (z - T * I) <= 20 * u * G + e * (1 + 4 * I)).
  { replace (z - T * I) with ((z - t * c) + (t * c - T * I)) by ring. eapply Rle_trans; [apply Rabs_triang|]. replace (e * (1 + 4 * I)) with (e + 4 * K) by (unfold K; ring). lra. }
  split; [lra|]. replace z with ((z - T * I) + T * I) by ring. eapply Rle_trans; [apply Rabs_triang|]. lra.
Qed.

Section gs.
Context (flog fexp fceil : b64 -> b64).
Notation BN := (BN_with flog fexp fceil).
Notation "x [+] y" := (@add BN x y) (at level 50, left associativity).
Notation "x [*] y" := (@mul BN x y) (at level 40, left associativity).

Lemma div_val (x y : b64) : finite x -> val y <> 0 -> Rabs (rnd (val x / val y)) < huge -> val (@div BN x y) = rnd (val x / val y) /\ finite (@div BN x y).
Proof.
  intros Hx Hy H. pose proof (Bdiv_correct 53 1024 b64_prec b64_emax mode_NE x y Hy) as Q. rewrite Rlt_bool_true in Q; [|rewrite huge_eq; exact H].
  destruct Q as (Q1 & Q2 & _). split; [exact Q1|]. unfold finite. etransitivity; [exact Q2|exact Hx].
Qed.
Lemma huge_pow k : (k < 1024)%nat -> 2 ^ k < huge.
Proof. intros H. unfold huge. apply Rlt_pow; [lra|done]. Qed.
Lemma tiny_pow k : (k <= 1022)%nat -> / 2 ^ 1022 <= / 2 ^ k.
Proof. apply inv_pow_le. Qed.

(** 1 / (mu + c lambda), 1 <= c <= 4: within 5 units of the exact reciprocal *)
Lemma recip_close (mu la : b64) (c : nat) : finite mu -> finite la -> / 2 ^ 500 <= val mu -> / 2 ^ 500 <= val la -> val mu + 4 * val la <= 2 ^ 500 ->
  (1 <= c <= 4)%nat ->
  finite (@recip BN mu la (Z.of_nat c)) /\ Rabs (val (@recip BN mu la (Z.of_nat c)) - / (val mu + INR c * val la)) <= 5 * uro * / (val mu + INR c * val la).
Proof.
  intros Fm Fl Hm Hl Hs Hc. destruct (ofZ_exact flog fexp fceil (Z.of_nat c) ltac:(lia)) as [Vc Fc]. destruct (one_val flog fexp fceil) as [V1 F1].
  assert (H16 : 16 * 2 ^ 500 < huge). { replace (16 * 2 ^ 500) with (2 ^ 504) by (change 504%nat with (4 + 500)%nat; rewrite pow_add; f_equal; simpl; lra). apply huge_pow. lia. }
  assert (HT : / 2 ^ 1022 <= / 2 * / 2 ^ 500). { rewrite <- Rinv_mult, <- tech_pow_Rmult_S. apply tiny_pow. lia. }
  pose proof rnd_pos_rel as RPR.
  assert (Z0 : 0 < 2 ^ 500) by (apply pow_lt; lra). set (Z5 := 2 ^ 500) in *. assert (I0 : 0 < / Z5) by (by apply Rinv_0_lt_compat). set (t22 := / 2 ^ 1022) in *. clearbody t22 Z5.
  assert (Hc' : 1 <= INR c <= 4) by (split; [replace 1 with (INR 1) by (simpl; lra)|replace 4 with (INR 4) by (simpl; lra)]; apply le_INR; lia).
  rewrite <- INR_IZR_INZ in Vc. pose proof uro_small as US. pose proof uro_pos as UP.
  set (C := INR c) in *. set (a := val mu) in *. set (l := val la) in *. unfold recip. set (cc := @ofZ BN (Z.of_nat c)) in *.
  assert (P0 : l <= C * l) by (rewrite <- (Rmult_1_l l) at 1; apply Rmult_le_compat_r; lra). assert (P1 : C * l <= 4 * l) by (apply Rmult_le_compat_r; lra).
  pose proof (RPR (C * l) ltac:(lra)) as R1. set (x := C * l) in *.
  assert (ux : 0 <= x * uro <= x * / 1000000) by (split; [apply Rmult_le_pos|apply Rmult_le_compat_l]; lra).
  assert (Fp : finite (cc [*] la)). { apply mul_fin; [done|done|]. rewrite Vc. fold l x. rewrite Rabs_pos_eq; lra. }
  pose proof (mul_val flog fexp fceil _ _ Fp) as Vp. rewrite Vc in Vp. fold l x in Vp.
  set (p := cc [*] la) in *. rewrite <- Vp in R1. assert (Pp : 0 < val p <= 2 * x) by lra.
  pose proof (RPR (a + val p) ltac:(lra)) as R2.
  assert (ua : 0 <= (a + val p) * uro <= (a + val p) * / 1000000) by (split; [apply Rmult_le_pos|apply Rmult_le_compat_l]; lra).
  assert (Fw : finite (mu [+] p)). { apply add_fin; [done|done|]. fold a. rewrite Rabs_pos_eq; lra. }
  pose proof (add_val flog fexp fceil _ _ Fw) as Vw. fold a in Vw. set (w := mu [+] p) in *. rewrite <- Vw in R2. set (W := a + x) in *.
  assert (W0 : / Z5 < W) by (unfold W; lra). assert (W5 : W <= Z5) by (unfold W; lra).
  pose proof (den_bounds a x uro (val p) (val w) ltac:(lra) ltac:(lra) ltac:(lra) R1 R2) as BW. fold W in BW.
  destruct (inv_bounds uro W (val w) ltac:(lra) ltac:(lra) BW) as [Wp Iw].
  assert (IWb : / Z5 <= / W <= Z5). { split; [apply Rinv_le_contravar; lra|]. rewrite <- (Rinv_inv Z5). apply Rinv_le_contravar; lra. }
  assert (uW : 0 <= / W * uro <= / W * / 1000000) by (split; [apply Rmult_le_pos|apply Rmult_le_compat_l]; lra).
  assert (T6 : t22 <= / val w) by lra.
  pose proof (RPR (/ val w) T6) as R3.
  assert (uw : 0 <= / val w * uro <= / val w * / 1000000) by (split; [apply Rmult_le_pos|apply Rmult_le_compat_l]; lra).
  assert (ED : val (@one BN) / val w = / val w) by (rewrite V1; unfold Rdiv; ring).
  assert (HR : Rabs (rnd (val (@one BN) / val w)) < huge). { rewrite ED. rewrite Rabs_pos_eq; lra. }
  destruct (div_val (@one BN) w F1 ltac:(lra) HR) as [Vr Fr]. split; [exact Fr|]. rewrite Vr, ED.
  pose proof (rec_bound uro (/ W) (/ val w) _ ltac:(lra) ltac:(lra) Iw R3) as Q. lra.
Qed.

(** sum of at most four doubles *)
Fixpoint asum (l : list b64) : R := match l with [] => 0 | x :: l' => Rabs (val x) + asum l' end.
Fixpoint vsum (l : list b64) : R := match l with [] => 0 | x :: l' => val x + vsum l' end.
Lemma asum_le l B : 0 <= B -> Forall (fun x => Rabs (val x) <= B) l -> 0 <= asum l <= INR (length l) * B.
Proof. intros HB. induction 1 as [|x l Hx _ IH]; [simpl; lra|]. cbn [asum length]. rewrite S_INR. pose proof (Rabs_pos (val x)). lra. Qed.
Lemma foldl_near l : forall k x s A B, near k 0 x s A -> (k + length l <= 4)%nat -> Forall finite l -> Forall (fun x => Rabs (val x) <= B) l -> 0 <= B -> A + asum l <= 2 ^ 510 ->
  near (k + length l) 0 (foldl (@add BN) x l) (s + vsum l) (A + asum l).
Proof.
  induction l as [|y l IH]; intros k x s A B HN Hk HF HB B0 HS.
  - cbn. rewrite !Rplus_0_r, Nat.add_0_r. exact HN.
  - inversion HF as [|? ? Fy Fl]; subst. inversion HB as [|? ? By Bl]; subst. cbn [foldl vsum asum length] in *.
    pose proof (near_A _ _ _ _ _ HN) as A0. destruct (asum_le l B B0 Bl) as [AL _]. pose proof (Rabs_pos (val y)) as Ay.
    assert (NY : near k 0 y (val y) (Rabs (val y))) by (eapply near_mono; [| |by apply near_exact]; [lia|lra]).
    assert (HP : (1 + uro) ^ S k <= 2). { apply Rle_trans with ((1 + uro) ^ 4); [apply pow_mono; lia|]. clear. pose proof uro_small. pose proof uro_pos. cbn [Rpow_def.pow]. nra. }
    assert (H5 : 2 * 2 ^ 510 < huge) by (replace (2 * 2 ^ 510) with (2 ^ 511) by (change 511%nat with (1 + 510)%nat; rewrite pow_add; lra); apply huge_pow; lia).
    pose proof (pow_ge1 (S k)) as PG.
    assert (FA : finite (x [+] y)).
    { apply (near_add_fin flog fexp fceil k 0 0 x y s (val y) A (Rabs (val y)) HN NY). rewrite Rplus_0_r, Rmult_0_l, Rplus_0_r. nra. }
    pose proof (near_add flog fexp fceil _ _ _ _ _ _ _ _ _ HN NY FA) as NN. rewrite Rplus_0_r in NN.
    replace (k + S (length l))%nat with (S k + length l)%nat by lia. rewrite <- !Rplus_assoc. apply (IH (S k) _ _ _ B); [exact NN|lia|done|done|done|lra].
Qed.
Lemma lsum_close l B : (1 <= length l <= 4)%nat -> Forall finite l -> Forall (fun x => Rabs (val x) <= B) l -> 0 <= B -> B <= 2 ^ 505 ->
  finite (@lsum BN l) /\ Rabs (val (@lsum BN l) - vsum l) <= 4 * uro * asum l /\ Rabs (vsum l) <= asum l.
Proof.
  intros HL HF HB B0 HH. destruct l as [|x l]; [cbn in HL; lia|]. inversion HF as [|? ? Fx Fl]; subst. inversion HB as [|? ? Bx Bl]; subst. cbn [lsum length] in *.
  destruct (asum_le l B B0 Bl) as [AL AU]. assert (INR (length l) <= 3) by (replace 3 with (INR 3) by (simpl; lra); apply le_INR; lia).
  assert (Rabs (val x) + asum l <= 2 ^ 510). { replace (2 ^ 510) with (32 * 2 ^ 505) by (change 510%nat with (5 + 505)%nat; rewrite pow_add; lra). nra. }
  destruct (foldl_near l 0 x (val x) (Rabs (val x)) B) as (Q1 & Q2 & _ & Q3); [by apply near_exact|cbn; lia|done|done|done|done|].
  split; [exact Q1|]. cbn [asum vsum]. split; [|exact Q2]. eapply Rle_trans; [exact Q3|]. rewrite Rmult_0_l, Rmult_0_l, Rplus_0_r.
  apply Rmult_le_compat_r; [pose proof (Rabs_pos (val x)); lra|]. eapply Rle_trans; [apply (gam_mono _ 3); lia|]. unfold gam. clear. pose proof uro_small. pose proof uro_pos. cbn [Rpow_def.pow]. nra.
Qed.

(** the update of one pixel: within 20 units of the exact Gauss-Seidel value *)
Lemma update_close (mu la r : b64) (l : list b64) B : finite mu -> finite la -> finite r -> / 2 ^ 500 <= val mu -> / 2 ^ 500 <= val la -> val mu + 4 * val la <= 2 ^ 500 ->
  (1 <= length l <= 4)%nat -> Forall finite l -> Forall (fun x => Rabs (val x) <= B) l -> B <= 2 ^ 505 -> Rabs (val r) <= val mu * B ->
  let x := (r [+] (@lsum BN l [*] la)) [*] @recip BN mu la (Z.of_nat (length l)) in
  finite x /\ Rabs (val x - (val r + vsum l * val la) * / (val mu + INR (length l) * val la)) <= 20 * uro * B + eta * (1 + 4 * / val mu).
Proof.
  intros Fm Fl Fr Hm Hl Hs HL HF HB HB5 Hr. assert (T5 : 0 < / 2 ^ 500) by (apply Rinv_0_lt_compat, pow_lt; lra).
  assert (B0 : 0 <= B). { destruct l as [|x l]; [cbn in HL; lia|]. inversion HB as [|? ? Bx _]; subst. pose proof (Rabs_pos (val x)). lra. }
  destruct (recip_close mu la (length l) Fm Fl Hm Hl Hs HL) as [Fc Ec]. destruct (lsum_close l B HL HF HB B0 HB5) as (Fs & Es & Ss). destruct (asum_le l B B0 HB) as [A0 AB].
  set (c := @recip BN mu la (Z.of_nat (length l))) in *. set (S := @lsum BN l) in *. set (Sa := asum l) in *. set (s := vsum l) in *.
  assert (HD : 1 <= INR (length l) <= 4) by (split; [replace 1 with (INR 1) by (simpl; lra)|replace 4 with (INR 4) by (simpl; lra)]; apply le_INR; lia). set (D := INR (length l)) in *.
  assert (E1 : eta <= 1) by (replace 1 with (/ 2 ^ 0) by (simpl; lra); apply eta_small; lia).
  assert (P5 : 1 <= 2 ^ 500) by (apply pow_R1_Rle; lra). assert (Z55 : 2 ^ 505 = 32 * 2 ^ 500) by (change 505%nat with (5 + 500)%nat; rewrite pow_add; f_equal; simpl; lra).
  assert (HZ : 2000 * (2 ^ 500 * 2 ^ 500) < huge). { apply Rlt_trans with (2 ^ 1011); [|apply huge_pow; lia]. change 1011%nat with (11 + (500 + 500))%nat. rewrite !pow_add. apply Rmult_lt_compat_r; [apply Rmult_lt_0_compat; lra|simpl; lra]. }
  rewrite Z55 in HB5. set (Z5 := 2 ^ 500) in *. clearbody Z5. clear Z55 HF HB.
  set (a := val mu) in *. set (lv := val la) in *. set (W := a + D * lv) in *. pose proof uro_pos as UP. pose proof uro_small as US. pose proof eta_pos as EP.
  assert (DL : lv <= D * lv <= 4 * lv) by (split; [rewrite <- (Rmult_1_l lv) at 1|]; apply Rmult_le_compat_r; lra).
  assert (W0 : a < W) by (unfold W; lra). assert (W5 : W <= Z5) by (unfold W; lra). set (IW := / W) in *.
  assert (HIW : 0 < IW) by (apply Rinv_0_lt_compat; lra). assert (HW1 : W * IW = 1) by (apply Rinv_r; lra).
  assert (IWa : IW <= / a) by (apply Rinv_le_contravar; lra). assert (IW5 : IW <= Z5) by (rewrite <- (Rinv_inv Z5); apply Rinv_le_contravar; lra).
  assert (ZZ : Z5 <= Z5 * Z5) by (rewrite <- (Rmult_1_l Z5) at 1; apply Rmult_le_compat_r; lra).
  set (Q := Sa * lv). assert (Q0 : 0 <= Q) by (apply Rmult_le_pos; lra).
  assert (QD : Q <= D * lv * B) by (replace (D * lv * B) with (D * B * lv) by ring; apply Rmult_le_compat_r; lra).
  assert (QW : Rabs (val r) + Q <= W * B) by (unfold W; lra). pose proof (Rabs_pos (val r)) as R0.
  assert (WB : W * B <= 32 * (Z5 * Z5)) by (replace (32 * (Z5 * Z5)) with (Z5 * (32 * Z5)) by ring; apply Rmult_le_compat; lra).
  assert (QIB : (Rabs (val r) + Q) * IW <= B). { apply Rle_trans with (W * B * IW); [apply Rmult_le_compat_r; lra|]. replace (W * B * IW) with ((W * IW) * B) by ring. rewrite HW1. lra. }
  assert (HSl : Rabs (val S * lv - s * lv) <= 4 * uro * Q). { rewrite <- Rmult_minus_distr_r, Rabs_mult, (Rabs_pos_eq lv) by lra. unfold Q. rewrite <- Rmult_assoc. apply Rmult_le_compat_r; lra. }
  assert (HSs : Rabs (s * lv) <= Q). { rewrite Rabs_mult, (Rabs_pos_eq lv) by lra. apply Rmult_le_compat_r; lra. }
  destruct (prod_step uro eta Q _ _ (rnd (val S * lv)) ltac:(lra) Q0 HSl HSs (rnd_err _)) as [RB1 RM1].
  assert (FP : finite (S [*] la)). { apply mul_fin; [done|done|]. fold lv. lra. }
  pose proof (mul_val flog fexp fceil _ _ FP) as VP. fold lv in VP. set (P := S [*] la) in *. rewrite <- VP in RB1, RM1. clearbody P.
  destruct (sum_step uro eta Q (val r) (val P) (s * lv) _ ltac:(lra) ltac:(lra) Q0 HSs RB1 (rnd_plus (val r) (val P) (format_val r) (format_val P))) as (RB2 & RM2 & TT).
  assert (FT : finite (r [+] P)). { apply add_fin; [done|done|]. lra. }
  pose proof (add_val flog fexp fceil _ _ FT) as VT. set (t := r [+] P) in *. rewrite <- VT in RB2, RM2. clearbody t.
  destruct (last_step uro eta (Rabs (val r) + Q) IW (val t) (val r + s * lv) (val c) _ B ltac:(lra) ltac:(lra) ltac:(lra) HIW QIB TT RB2 RM2 Ec (rnd_err _)) as [RB3 RM3].
  assert (KZ : eta * IW <= Z5) by (rewrite <- (Rmult_1_l Z5); apply Rmult_le_compat; lra).
  assert (FX : finite (t [*] c)). { apply mul_fin; [done|done|]. lra. }
  split; [exact FX|]. rewrite (mul_val flog fexp fceil _ _ FX). eapply Rle_trans; [exact RB3|].
  apply Rplus_le_compat_l, Rmult_le_compat_l; lra.
Qed.
End gs.
