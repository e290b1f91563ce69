(** * Rounding errors of differences, of the shrinkage and of the multiplier update, one number at a time. *)
From Coq Require Import ZArith Reals Lra Lia Psatz.
From Flocq Require Import Core Relative BinarySingleNaN Sterbenz.
From stdpp Require Import base numbers list.
From Verif Require Import Num NumB S_Round L_Round M_Math M_Bregman P_Bregman.
Local Open Scope R_scope.

(** soft thresholding of a real number, and clipping to [-g, g] *)
Definition soft (g x : R) : R := if Rle_dec (Rabs x) g then 0 else if Rle_dec 0 x then x - g else x + g.
Definition clip (g x : R) : R := if Rle_dec (Rabs x) g then x else if Rle_dec 0 x then g else - g.

Section ops.
Context (flog fexp fceil : b64 -> b64).
Notation BN := (BN_with flog fexp fceil).
Notation "x [+] y" := (@add BN x y) (at level 50, left associativity).
Notation "x [-] y" := (@sub BN x y) (at level 50, left associativity).
Notation "x [*] y" := (@mul BN x y) (at level 40, left associativity).
Lemma opp_val x : val (@opp BN x) = - val x. Proof. apply B2R_Bopp. Qed.
Lemma opp_fin x : finite (@opp BN x) <-> finite x. Proof. unfold finite. cbn. by rewrite is_finite_Bopp. Qed.
Lemma gam1 : gam 1 = uro. Proof. unfold gam. cbn [Rpow_def.pow]. ring. Qed.
Lemma gam2 : gam 2 = 2 * uro + uro * uro. Proof. unfold gam. cbn [Rpow_def.pow]. ring. Qed.
(** alpha * (a - b) *)
Lemma diff_close (al a b : b64) : finite (al [*] (a [-] b)) -> finite al /\ finite a /\ finite b /\
  Rabs (val (al [*] (a [-] b)) - val al * (val a - val b)) <= gam 2 * Rabs (val al * (val a - val b)) + eta.
Proof.
  intros F. destruct (fin_mul_inv _ _ _ _ _ F) as [Fa Fd]. destruct (fin_sub_inv _ _ _ _ _ Fd) as [F1 F2]. split; [done|]. split; [done|]. split; [done|].
  rewrite (mul_val _ _ _ _ _ F), (sub_val _ _ _ _ _ Fd). set (d := val a - val b).
  assert (H1 : Rabs (rnd d - d) <= uro * Rabs d) by (unfold d, Rminus; apply rnd_plus; [apply format_val|apply generic_format_opp, format_val]).
  pose proof (rnd_err (val al * rnd d)) as H2.
  assert (H3 : Rabs (val al * rnd d - val al * d) <= uro * Rabs (val al * d)).
  { replace (val al * rnd d - val al * d) with (val al * (rnd d - d)) by ring. rewrite !Rabs_mult. pose proof (Rabs_pos (val al)). nra. }
  set (p := val al * d) in *. set (q := val al * rnd d) in *.
  assert (H4 : Rabs q <= Rabs p + uro * Rabs p). { replace q with (p + (q - p)) by ring. eapply Rle_trans; [apply Rabs_triang|]. lra. }
  replace (rnd q - p) with ((rnd q - q) + (q - p)) by ring. eapply Rle_trans; [apply Rabs_triang|]. rewrite gam2. pose proof uro_pos. nra.
Qed.
(** alpha * a *)
Lemma scale_close (al a : b64) : finite (al [*] a) -> finite al /\ finite a /\ Rabs (val (al [*] a) - val al * val a) <= gam 2 * Rabs (val al * val a) + eta.
Proof.
  intros F. destruct (fin_mul_inv _ _ _ _ _ F) as [Fa Fd]. split; [done|]. split; [done|]. rewrite (mul_val _ _ _ _ _ F).
  eapply Rle_trans; [apply rnd_err|]. rewrite gam2. pose proof uro_pos. pose proof (Rabs_pos (val al * val a)). nra.
Qed.
(** doubling is exact *)
Lemma format_two x : format64 x -> format64 (2 * x).
Proof.
  intros H. unfold format64 in *. rewrite fexp64_FLT in *. apply FLT_format_generic in H; [|done]. destruct H as [[f e] -> Hm He].
  apply generic_format_FLT. exists (Float radix2 f (e + 1)); cbn in *; [|done|lia].
  unfold F2R. cbn [Fnum Fexp]. rewrite bpow_plus_1. cbn. ring.
Qed.
Lemma two_val : val (@two BN) = 2 /\ finite (@two BN).
Proof. apply (ofZ_exact flog fexp fceil 2). lia. Qed.
Lemma double_val b : finite (@two BN [*] b) -> val (@two BN [*] b) = 2 * val b.
Proof. intros F. rewrite (mul_val _ _ _ _ _ F). rewrite (proj1 two_val). apply rnd_format, format_two, format_val. Qed.
(** alpha^2 times something known to two roundings *)
Lemma square_close (al t : b64) (e S : R) : finite ((al [*] al) [*] t) -> Rabs (val t - e) <= gam 2 * S -> Rabs e <= S ->
  Rabs (val ((al [*] al) [*] t) - val al ^ 2 * e) <= gam 4 * (val al ^ 2 * S) + eta * (1 + 2 * S).
Proof.
  intros F T1 HS. destruct (fin_mul_inv _ _ _ _ _ F) as [Fa2 Fd].
  rewrite (mul_val _ _ _ _ _ F). rewrite (mul_val _ _ _ _ _ Fa2). set (A := val al ^ 2). set (tt' := val t) in *.
  assert (HA : 0 <= A) by (unfold A; apply pow2_ge_0).
  assert (E2 : val al * val al = A) by (unfold A; ring). rewrite E2.
  pose proof (rnd_err A) as H1. rewrite (Rabs_pos_eq A HA) in H1. set (a2 := rnd A) in *. pose proof (rnd_err (a2 * tt')) as H3.
  assert (HS0 : 0 <= S) by (pose proof (Rabs_pos e); lra).
  pose proof uro_pos as U0. pose proof eta_pos as E0.
  assert (U2 : (1 + uro) ^ 3 <= 2).
  { assert (uro <= / 8). { unfold uro. apply Rinv_le_contravar; [lra|]. replace 8 with (2 ^ 3) by ring. apply Rle_pow; [lra|lia]. }
    apply Rle_trans with ((1 + / 8) ^ 3); [apply pow_incr; lra|lra]. }
  assert (T2 : Rabs tt' <= (1 + uro) ^ 2 * S). { replace tt' with (e + (tt' - e)) by ring. eapply Rle_trans; [apply Rabs_triang|]. unfold gam in T1. lra. }
  assert (A1 : Rabs a2 <= (1 + uro) * A + eta). { replace a2 with (A + (a2 - A)) by ring. eapply Rle_trans; [apply Rabs_triang|]. rewrite (Rabs_pos_eq A HA). lra. }
  assert (P : Rabs (a2 * tt') <= ((1 + uro) * A + eta) * ((1 + uro) ^ 2 * S)) by (rewrite Rabs_mult; apply Rmult_le_compat; [apply Rabs_pos|apply Rabs_pos|done|done]).
  assert (Q : Rabs (a2 * tt' - A * e) <= (uro * A + eta) * ((1 + uro) ^ 2 * S) + A * (gam 2 * S)).
  { replace (a2 * tt' - A * e) with ((a2 - A) * tt' + A * (tt' - e)) by ring. eapply Rle_trans; [apply Rabs_triang|]. rewrite !Rabs_mult, (Rabs_pos_eq A HA).
    apply Rplus_le_compat; [apply Rmult_le_compat; try apply Rabs_pos; done|by apply Rmult_le_compat_l]. }
  replace (rnd (a2 * tt') - A * e) with ((rnd (a2 * tt') - a2 * tt') + (a2 * tt' - A * e)) by ring. eapply Rle_trans; [apply Rabs_triang|].
  assert (uro * Rabs (a2 * tt') <= uro * (((1 + uro) * A + eta) * ((1 + uro) ^ 2 * S))) by (apply Rmult_le_compat_l; lra).
  assert (eta * ((1 + uro) ^ 3 * S) <= eta * (2 * S)) by (apply Rmult_le_compat_l; [lra|]; apply Rmult_le_compat_r; lra).
  apply Rle_trans with (uro * (((1 + uro) * A + eta) * ((1 + uro) ^ 2 * S)) + eta + ((uro * A + eta) * ((1 + uro) ^ 2 * S) + A * (gam 2 * S))); [lra|].
  apply Rle_trans with (gam 4 * (A * S) + eta + eta * ((1 + uro) ^ 3 * S)); [right; unfold gam; ring|lra].
Qed.
(** (alpha^2) * (-a + c - b) *)
Lemma second_close (al a b c : b64) (S : R) : finite ((al [*] al) [*] ((@opp BN a [+] c) [-] b)) -> Rabs (val a) + Rabs (val c) + Rabs (val b) <= S ->
  finite c /\ Rabs (val ((al [*] al) [*] ((@opp BN a [+] c) [-] b)) - val al ^ 2 * (- val a + val c - val b)) <= gam 4 * (val al ^ 2 * S) + eta * (1 + 2 * S).
Proof.
  intros F HM. destruct (fin_mul_inv _ _ _ _ _ F) as [Fa2 Fd]. destruct (fin_sub_inv _ _ _ _ _ Fd) as [Fs Fb]. destruct (fin_add_inv _ _ _ _ _ Fs) as [Fo Fc].
  split; [done|].
  pose proof (near_add flog fexp fceil 0 0 0 _ _ _ _ _ _ (near_exact _ Fo) (near_exact _ Fc) Fs) as N1.
  pose proof (near_sub flog fexp fceil 1 (0 + 0) 0 _ _ _ _ _ _ N1 (near_mono 0 1 0 0 _ _ _ ltac:(lia) (Rle_refl 0) (near_exact _ Fb)) Fd) as N2.
  rewrite opp_val, Rabs_Ropp in N2. destruct N2 as (_ & HS & _ & H2).
  apply square_close; [done| |lra]. eapply Rle_trans; [exact H2|].
  apply Rle_trans with (gam 2 * (Rabs (val a) + Rabs (val c) + Rabs (val b))); [lra|]. apply Rmult_le_compat_l; [apply gam_nonneg|done].
Qed.
(** (alpha^2) * (a - b) *)
Lemma edge_close (al a b : b64) (S : R) : finite ((al [*] al) [*] (a [-] b)) -> Rabs (val a) + Rabs (val b) <= S ->
  Rabs (val ((al [*] al) [*] (a [-] b)) - val al ^ 2 * (val a - val b)) <= gam 4 * (val al ^ 2 * S) + eta * (1 + 2 * S).
Proof.
  intros F HM. destruct (fin_mul_inv _ _ _ _ _ F) as [Fa2 Fd]. destruct (fin_sub_inv _ _ _ _ _ Fd) as [Fs Fb].
  pose proof (near_sub flog fexp fceil 0 0 0 _ _ _ _ _ _ (near_exact _ Fs) (near_exact _ Fb) Fd) as N1. apply (near_mono _ 2 _ (0 + 0)) in N1; [|lia|lra].
  destruct N1 as (_ & HS & _ & H2). apply square_close; [done| |lra]. eapply Rle_trans; [exact H2|].
  apply Rle_trans with (gam 2 * (Rabs (val a) + Rabs (val b))); [lra|]. apply Rmult_le_compat_l; [apply gam_nonneg|done].
Qed.
(** no overflow *)
Lemma diff_fin (al a b : b64) M : finite al -> finite a -> finite b -> Rabs (val a) <= M -> Rabs (val b) <= M -> 4 * (Rabs (val al) + 1) * (M + 1) < huge -> finite (al [*] (a [-] b)).
Proof.
  intros Fl Fa Fb Ha Hb H. pose proof (Rabs_pos (val al)) as P1. pose proof (Rabs_pos (val a)) as P2. pose proof uro_pos as U0. pose proof eta_pos as E0.
  assert (U1 : uro <= / 8). { unfold uro. apply Rinv_le_contravar; [lra|]. replace 8 with (2 ^ 3) by ring. apply Rle_pow; [lra|lia]. }
  assert (E1 : eta <= 1). { unfold eta. rewrite <- Rinv_1. apply Rinv_le_contravar; [lra|]. apply pow_R1_Rle. lra. }
  assert (D : Rabs (val a - val b) <= 2 * M). { unfold Rminus. eapply Rle_trans; [apply Rabs_triang|]. rewrite Rabs_Ropp. lra. }
  pose proof (rnd_plus (val a) (- val b) (format_val a) (generic_format_opp _ _ _ (format_val b))) as R1. fold (val a - val b) in R1. set (d := val a - val b) in *.
  assert (D1 : Rabs (rnd d) <= (1 + uro) * (2 * M)). { replace (rnd d) with (d + (rnd d - d)) by ring. eapply Rle_trans; [apply Rabs_triang|]. nra. }
  assert (F1 : finite (a [-] b)). { apply sub_fin; [done|done|]. fold d. eapply Rle_lt_trans; [exact D1|]. eapply Rle_lt_trans; [|exact H]. nra. }
  apply mul_fin; [done|done|]. rewrite (sub_val _ _ _ _ _ F1). fold d. pose proof (rnd_err (val al * rnd d)) as R2. set (q := val al * rnd d) in *.
  assert (Q : Rabs q <= Rabs (val al) * ((1 + uro) * (2 * M))) by (unfold q; rewrite Rabs_mult; by apply Rmult_le_compat_l).
  replace (rnd q) with (q + (rnd q - q)) by ring. eapply Rle_lt_trans; [apply Rabs_triang|]. eapply Rle_lt_trans; [|exact H].
  assert (Q2 : Rabs q <= Rabs (val al) * M * (9 / 4)). { eapply Rle_trans; [exact Q|]. replace (Rabs (val al) * ((1 + uro) * (2 * M))) with (Rabs (val al) * M * (2 * (1 + uro))) by ring. apply Rmult_le_compat_l; [apply Rmult_le_pos; lra|lra]. }
  assert (0 <= Rabs (val al) * M) by (apply Rmult_le_pos; lra). pose proof (Rabs_pos q). nra.
Qed.
Lemma scale_fin (al a : b64) M : finite al -> finite a -> Rabs (val a) <= M -> 4 * (Rabs (val al) + 1) * (M + 1) < huge -> finite (al [*] a).
Proof.
  intros Fl Fa Ha H. pose proof (Rabs_pos (val al)) as P1. pose proof (Rabs_pos (val a)) as P2. pose proof uro_pos as U0. pose proof eta_pos as E0.
  assert (U1 : uro <= / 8). { unfold uro. apply Rinv_le_contravar; [lra|]. replace 8 with (2 ^ 3) by ring. apply Rle_pow; [lra|lia]. }
  assert (E1 : eta <= 1). { unfold eta. rewrite <- Rinv_1. apply Rinv_le_contravar; [lra|]. apply pow_R1_Rle. lra. }
  apply mul_fin; [done|done|]. pose proof (rnd_err (val al * val a)) as R2. set (q := val al * val a) in *.
  assert (Q : Rabs q <= Rabs (val al) * M) by (unfold q; rewrite Rabs_mult; by apply Rmult_le_compat_l).
  replace (rnd q) with (q + (rnd q - q)) by ring. eapply Rle_lt_trans; [apply Rabs_triang|]. eapply Rle_lt_trans; [|exact H]. pose proof (Rabs_pos q). nra.
Qed.

(** ** signs and sizes *)
Lemma ltb_val (x y : b64) : finite x -> finite y -> @ltb_ BN x y = true <-> val x < val y.
Proof. intros Fx Fy. cbn. rewrite Bltb_correct by done. unfold val. destruct (Rlt_bool_spec (B2R x) (B2R y)); split; intros H'; try done; lra. Qed.
Lemma leb_val (x y : b64) : finite x -> finite y -> @leb_ BN x y = true <-> val x <= val y.
Proof. intros Fx Fy. cbn. rewrite Bleb_correct by done. unfold val. destruct (Rle_bool_spec (B2R x) (B2R y)); split; intros H'; try done; lra. Qed.
Lemma one_val : val (@one BN) = 1 /\ finite (@one BN).
Proof. apply (ofZ_exact flog fexp fceil 1). lia. Qed.
Lemma val_huge x : Rabs (val x) < huge. Proof. unfold val. rewrite <- huge_eq. apply abs_B2R_lt_emax. Qed.
Lemma rnd_mono x y : x <= y -> rnd x <= rnd y. Proof. apply round_le; [apply fexp64_valid|apply valid_rnd_N]. Qed.
Lemma rnd_opp x : rnd (- x) = - rnd x. Proof. apply round_NE_opp. Qed.
Lemma rnd_abs_le x M : format64 M -> Rabs x <= M -> Rabs (rnd x) <= M.
Proof.
  intros HM Hx. apply Rabs_le_inv in Hx as [H1 H2]. apply Rabs_le. split.
  - rewrite <- (rnd_format M HM), <- rnd_opp. by apply rnd_mono.
  - rewrite <- (rnd_format M HM). by apply rnd_mono.
Qed.
Lemma sgn_mul (v w : b64) : finite v -> finite w -> finite (dsign (N:=BN) v [*] w) /\ val (dsign (N:=BN) v [*] w) = (if Rle_dec 0 (val v) then val w else - val w).
Proof.
  intros Fv Fw. destruct zero_val with (flog := flog) (fexp := fexp) (fceil := fceil) as [Z0 Z1]. destruct one_val as [O0 O1].
  assert (HE : exists sg, (@dsign BN v = sg) /\ finite sg /\ val sg = if Rle_dec 0 (val v) then 1 else -1).
  { unfold dsign. destruct (@leb_ BN (@zero BN) v) eqn:E.
    - apply leb_val in E; [|done|done]. rewrite Z0 in E. exists (@one BN). split; [done|]. split; [done|]. destruct (Rle_dec 0 (val v)); [done|lra].
    - exists (@opp BN (@one BN)). split; [done|]. split; [by apply opp_fin|]. rewrite opp_val, O0. destruct (Rle_dec 0 (val v)) as [H|H]; [|lra].
      exfalso. assert (@leb_ BN (@zero BN) v = true) by (apply leb_val; [done|done|by rewrite Z0]). congruence. }
  destruct HE as (sg & -> & Fs & Vs).
  assert (HV : rnd (val sg * val w) = if Rle_dec 0 (val v) then val w else - val w).
  { rewrite Vs. destruct (Rle_dec 0 (val v)).
    - rewrite Rmult_1_l. apply rnd_format, format_val.
    - replace (-1 * val w) with (- val w) by ring. rewrite rnd_opp. f_equal. apply rnd_format, format_val. }
  assert (FF : finite (sg [*] w)). { apply mul_fin; [done|done|]. rewrite HV. destruct (Rle_dec 0 (val v)); rewrite ?Rabs_Ropp; apply val_huge. }
  split; [done|]. by rewrite (mul_val _ _ _ _ _ FF).
Qed.
(** |y| - g, clipped at 0 *)
Lemma excess (y g : b64) : finite y -> finite g -> 0 <= val g ->
  exists w, dmax (N:=BN) (@fabs BN y [-] g) (@zero BN) = w /\ finite w /\ val w = Rmax (rnd (Rabs (val y) - val g)) 0 /\ val w <= Rabs (val y).
Proof.
  intros Fy Fg Hg. destruct zero_val with (flog := flog) (fexp := fexp) (fceil := fceil) as [Z0 Z1].
  assert (Fa : finite (@fabs BN y)) by by apply abs_fin.
  assert (HU : rnd (Rabs (val y) - val g) <= Rabs (val y)).
  { rewrite <- (rnd_format (Rabs (val y))) at 2; [apply rnd_mono; lra|]. apply generic_format_abs, format_val. }
  assert (HL : - val g <= rnd (Rabs (val y) - val g)).
  { replace (- val g) with (rnd (- val g)) by (rewrite rnd_opp; f_equal; apply rnd_format, format_val). apply rnd_mono. pose proof (Rabs_pos (val y)). lra. }
  assert (Fd : finite (@fabs BN y [-] g)).
  { apply sub_fin; [done|done|]. rewrite abs_val. pose proof (val_huge y). pose proof (val_huge g) as G. rewrite (Rabs_pos_eq (val g) Hg) in G. apply Rabs_lt. lra. }
  assert (Vd : val (@fabs BN y [-] g) = rnd (Rabs (val y) - val g)) by (rewrite (sub_val _ _ _ _ _ Fd); by rewrite abs_val).
  unfold dmax. destruct (@ltb_ BN (@zero BN) (@fabs BN y [-] g)) eqn:E.
  - apply ltb_val in E; [|done|done]. rewrite Z0, Vd in E. exists (@fabs BN y [-] g). split; [done|]. split; [done|]. rewrite Vd. split; [rewrite Rmax_left by lra; done|lra].
  - exists (@zero BN). split; [done|]. split; [done|]. rewrite Z0. split; [|apply Rabs_pos].
    rewrite Rmax_right; [done|]. destruct (Rle_or_lt (rnd (Rabs (val y) - val g)) 0); [done|].
    assert (@ltb_ BN (@zero BN) (@fabs BN y [-] g) = true) by (apply ltb_val; [done|done|rewrite Z0, Vd; done]). congruence.
Qed.
Lemma rnd0 : rnd 0 = 0. Proof. apply round_0, valid_rnd_N. Qed.
Lemma rnd_sub x y : format64 x -> format64 y -> Rabs (rnd (x - y) - (x - y)) <= uro * Rabs (x - y).
Proof. intros Hx Hy. unfold Rminus. apply rnd_plus; [done|by apply generic_format_opp]. Qed.
Lemma sterbenz64 x y : format64 x -> format64 y -> y / 2 <= x <= 2 * y -> rnd (x - y) = x - y.
Proof. intros Hx Hy H. apply rnd_format. apply sterbenz; [apply fexp64_valid|apply fexp64_mono|done|done|done]. Qed.
(** the shrinkage *)
Lemma shrink_close (y g : b64) : finite y -> finite g -> 0 <= val g ->
  finite (shrink (N:=BN) g y) /\ Rabs (val (shrink (N:=BN) g y) - soft (val g) (val y)) <= uro * Rabs (soft (val g) (val y)) /\
  (Rabs (val y) <= 2 * val g -> val (shrink (N:=BN) g y) = soft (val g) (val y)) /\ Rabs (val (shrink (N:=BN) g y)) <= Rabs (val y) /\
  0 <= val y * val (shrink (N:=BN) g y).
Proof.
  intros Fy Fg Hg. destruct (excess y g Fy Fg Hg) as (w & Ew & Fw & Vw & Lw). unfold shrink. rewrite Ew.
  destruct (sgn_mul y w Fy Fw) as [F V]. split; [done|]. rewrite V.
  assert (W0 : 0 <= val w) by (rewrite Vw; apply Rmax_r).
  assert (FA : format64 (Rabs (val y))) by (apply generic_format_abs, format_val).
  set (z := Rabs (val y) - val g) in *.
  (* the excess against the exact one *)
  assert (H1 : Rabs (val w - Rmax z 0) <= uro * Rmax z 0).
  { rewrite Vw. destruct (Rle_or_lt z 0) as [Hz|Hz].
    - rewrite !Rmax_right; [rewrite Rminus_eq_0, Rabs_R0; lra|done|rewrite <- rnd0; by apply rnd_mono].
    - rewrite !Rmax_left; [|lra|rewrite <- rnd0; apply rnd_mono; lra]. rewrite <- (Rabs_pos_eq z) at 3 by lra. by apply rnd_sub; [|apply format_val]. }
  assert (H2 : Rabs (val y) <= 2 * val g -> val w = Rmax z 0).
  { intros Hy. rewrite Vw. destruct (Rle_or_lt z 0) as [Hz|Hz].
    - rewrite !Rmax_right; [done|done|rewrite <- rnd0; by apply rnd_mono].
    - f_equal. unfold z in *. apply sterbenz64; [done|apply format_val|lra]. }
  assert (ES : soft (val g) (val y) = if Rle_dec 0 (val y) then Rmax z 0 else - Rmax z 0).
  { unfold soft, z. destruct (Rle_dec (Rabs (val y)) (val g)).
    - rewrite Rmax_right by lra. destruct (Rle_dec 0 (val y)); lra.
    - rewrite Rmax_left by lra. destruct (Rle_dec 0 (val y)); [rewrite Rabs_pos_eq by done; done|rewrite Rabs_left by lra; lra]. }
  assert (M0 : 0 <= Rmax z 0) by apply Rmax_r.
  rewrite ES. destruct (Rle_dec 0 (val y)) as [Hy|Hy].
  - rewrite (Rabs_pos_eq (Rmax z 0)), (Rabs_pos_eq (val w)) by done. split; [done|]. split; [done|]. split; [done|]. by apply Rmult_le_pos.
  - rewrite !Rabs_Ropp, (Rabs_pos_eq (Rmax z 0)), (Rabs_pos_eq (val w)) by done.
    split; [replace (- val w - - Rmax z 0) with (- (val w - Rmax z 0)) by ring; by rewrite Rabs_Ropp|]. split; [intros Q; by rewrite H2|]. split; [done|]. nra.
Qed.
(** the multiplier -d + y *)
Lemma mult_close (y g : b64) : finite y -> finite g -> 0 <= val g -> let b := @opp BN (shrink (N:=BN) g y) [+] y in
  finite b /\ Rabs (val b - clip (val g) (val y)) <= uro * (1 + uro) * Rabs (val y) /\ (Rabs (val y) <= 2 * val g -> val b = clip (val g) (val y)).
Proof.
  intros Fy Fg Hg b. destruct (shrink_close y g Fy Fg Hg) as (Fd & HC & HX & HL & HS). set (d := shrink (N:=BN) g y) in *.
  assert (EC : val y - soft (val g) (val y) = clip (val g) (val y)).
  { unfold soft, clip. destruct (Rle_dec _ _); [lra|]. destruct (Rle_dec _ _); lra. }
  assert (LC : Rabs (- val d + val y) <= Rabs (val y)).
  { destruct (Rle_or_lt 0 (val y)) as [Q|Q].
    - rewrite (Rabs_pos_eq (val y) Q) in *. apply Rabs_le_inv in HL. apply Rabs_le. split; [|].
      + destruct (Req_dec (val y) 0) as [E|E]; [rewrite E in *; assert (val d = 0) by lra; lra|]. nra.
      + destruct (Req_dec (val y) 0) as [E|E]; [rewrite E in *; assert (val d = 0) by lra; lra|]. assert (0 <= val d) by nra. lra.
    - rewrite (Rabs_left (val y) Q) in *. apply Rabs_le_inv in HL. assert (val d <= 0) by nra. apply Rabs_le. lra. }
  assert (F : finite b).
  { apply add_fin; [by apply opp_fin|done|]. rewrite opp_val. eapply Rle_lt_trans; [apply (rnd_abs_le _ (Rabs (val y))); [apply generic_format_abs, format_val|done]|apply val_huge]. }
  split; [done|]. assert (Vb : val b = rnd (- val d + val y)) by (unfold b; rewrite (add_val _ _ _ _ _ F); by rewrite opp_val).
  assert (SL : Rabs (soft (val g) (val y)) <= Rabs (val y) - Rabs (clip (val g) (val y))).
  { unfold soft, clip. destruct (Rle_dec (Rabs (val y)) (val g)); [rewrite Rabs_R0; lra|]. destruct (Rle_dec 0 (val y)) as [Q|Q].
    - rewrite (Rabs_pos_eq (val y) Q) in *. rewrite (Rabs_pos_eq (val g) Hg), Rabs_pos_eq by lra. lra.
    - rewrite (Rabs_left (val y)) in * by lra. rewrite Rabs_Ropp, (Rabs_pos_eq (val g) Hg), Rabs_left by lra. lra. }
  split.
  - rewrite Vb. pose proof (rnd_plus (- val d) (val y) (generic_format_opp _ _ _ (format_val d)) (format_val y)) as HR. set (e := - val d + val y) in *.
    assert (HE : Rabs (e - clip (val g) (val y)) <= uro * Rabs (soft (val g) (val y))).
    { rewrite <- EC. unfold e. replace (- val d + val y - (val y - soft (val g) (val y))) with (- (val d - soft (val g) (val y))) by ring. by rewrite Rabs_Ropp. }
    assert (Rabs e <= Rabs (clip (val g) (val y)) + uro * Rabs (soft (val g) (val y))).
    { replace e with (clip (val g) (val y) + (e - clip (val g) (val y))) by ring. eapply Rle_trans; [apply Rabs_triang|]. lra. }
    replace (rnd e - clip (val g) (val y)) with ((rnd e - e) + (e - clip (val g) (val y))) by ring. eapply Rle_trans; [apply Rabs_triang|].
    pose proof uro_pos. pose proof (Rabs_pos (soft (val g) (val y))). pose proof (Rabs_pos (clip (val g) (val y))). nra.
  - intros Hy. rewrite Vb. rewrite (HX Hy). replace (- soft (val g) (val y) + val y) with (val y - soft (val g) (val y)) by ring. rewrite EC.
    apply rnd_format. unfold clip. destruct (Rle_dec _ _); [apply format_val|]. destruct (Rle_dec _ _); [apply format_val|apply generic_format_opp, format_val].
Qed.
(** the multiplier and the shrunk value, seen from the outside: y is finite, and b is the subgradient of g |.| at d, exactly if |d| < g *)
Lemma mult_sub (y g : b64) : finite g -> 0 <= val g -> let d := shrink (N:=BN) g y in let b := @opp BN d [+] y in
  finite b -> finite d /\ Rabs (val b) <= val g + 2 * uro * (val g + Rabs (val d)) /\
    (0 < val d -> Rabs (val b - val g) <= 2 * uro * (val g + Rabs (val d))) /\
    (val d < 0 -> Rabs (val b + val g) <= 2 * uro * (val g + Rabs (val d))) /\
    (Rabs (val d) < val g -> Rabs (val b) <= val g /\ (0 < val d -> val b = val g) /\ (val d < 0 -> val b = - val g)).
Proof.
  intros Fg Hg d b F. assert (Fy : finite y) by (by destruct (fin_add_inv _ _ _ _ _ F)).
  destruct (shrink_close y g Fy Fg Hg) as (Fd & HC & HX & HL & HS). destruct (mult_close y g Fy Fg Hg) as (_ & MC & MX). fold d in Fd, HC, HX, HL, HS. fold d in MC, MX. fold b in MC, MX.
  split; [done|]. pose proof uro_pos as U0.
  assert (U1 : uro <= / 8). { unfold uro. apply Rinv_le_contravar; [lra|]. replace 8 with (2 ^ 3) by ring. apply Rle_pow; [lra|lia]. }
  set (sf := soft (val g) (val y)) in *. set (cl := clip (val g) (val y)) in *.
  assert (SY : Rabs (val y) <= val g + Rabs sf).
  { unfold sf, soft. destruct (Rle_dec (Rabs (val y)) (val g)); [rewrite Rabs_R0; lra|]. destruct (Rle_dec 0 (val y)) as [Q|Q].
    - rewrite (Rabs_pos_eq (val y) Q) in *. rewrite Rabs_pos_eq by lra. lra.
    - rewrite (Rabs_left (val y)) in * by lra. rewrite Rabs_left by lra. lra. }
  assert (SD : (1 - uro) * Rabs sf <= Rabs (val d)). { pose proof (Rabs_triang_inv sf (sf - val d)). replace (sf - (sf - val d)) with (val d) in * by ring. rewrite (Rabs_minus_sym sf) in *. lra. }
  assert (BC : Rabs (val b - cl) <= 2 * uro * (val g + Rabs (val d))).
  { eapply Rle_trans; [exact MC|]. apply Rle_trans with (uro * (1 + uro) * (val g + Rabs sf)); [apply Rmult_le_compat_l; [nra|done]|].
    assert ((1 + uro) * (val g + Rabs sf) <= 2 * (val g + Rabs (val d))) by (pose proof (Rabs_pos sf); nra). nra. }
  assert (CB : Rabs cl <= val g).
  { unfold cl, clip. destruct (Rle_dec _ _); [done|]. destruct (Rle_dec _ _); rewrite ?Rabs_Ropp, Rabs_pos_eq by done; lra. }
  assert (CP : 0 < val d -> cl = val g).
  { intros P. assert (S0 : 0 < sf). { destruct (Rlt_or_le 0 sf); [done|]. rewrite (Rabs_left1 sf) in HC by done. apply Rabs_le_inv in HC. nra. }
    unfold sf, soft in S0. unfold cl, clip. destruct (Rle_dec (Rabs (val y)) (val g)); [lra|]. destruct (Rle_dec 0 (val y)) as [Q|Q]; [done|]. rewrite (Rabs_left (val y)) in * by lra. lra. }
  assert (CM : val d < 0 -> cl = - val g).
  { intros P. assert (S0 : sf < 0). { destruct (Rlt_or_le sf 0); [done|]. rewrite (Rabs_pos_eq sf) in HC by done. apply Rabs_le_inv in HC. nra. }
    unfold sf, soft in S0. unfold cl, clip. destruct (Rle_dec (Rabs (val y)) (val g)); [lra|]. destruct (Rle_dec 0 (val y)) as [Q|Q]; [|done]. rewrite (Rabs_pos_eq (val y)) in * by lra. lra. }
  split. { replace (val b) with (cl + (val b - cl)) by ring. eapply Rle_trans; [apply Rabs_triang|]. lra. }
  split. { intros P. pose proof BC as Q. rewrite (CP P) in Q. exact Q. }
  split. { intros P. replace (val b + val g) with (val b - cl) by (rewrite (CM P); ring). done. }
  intros DG. assert (Y2 : Rabs (val y) <= 2 * val g).
  { destruct (Rle_or_lt (Rabs (val y)) (2 * val g)) as [Q|Q]; [done|exfalso].
    destruct (excess y g Fy Fg Hg) as (w & Ew & Fw & Vw & Lw). destruct (sgn_mul y w Fy Fw) as [_ V].
    assert (W : val g <= val w). { rewrite Vw. eapply Rle_trans; [|apply Rmax_l]. rewrite <- (rnd_format (val g)) at 1 by apply format_val. apply rnd_mono. lra. }
    assert (ED : Rabs (val d) = val w).
    { unfold d, shrink. rewrite Ew, V. destruct (Rle_dec 0 (val y)); rewrite ?Rabs_Ropp, Rabs_pos_eq by lra; done. }
    lra. }
  rewrite (MX Y2). split; [done|]. split; [apply CP|apply CM].
Qed.
End ops.
