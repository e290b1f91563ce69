(** * Rounding errors of single operations in IEEE binary64. *)
From Coq Require Import ZArith Reals Lra Lia Psatz.
From Flocq Require Import Core Relative Plus_error Div_sqrt_error BinarySingleNaN.
From stdpp Require Import base numbers.
From Verif Require Import Num NumB S_Round.
Local Open Scope R_scope.
Local Notation sqrt := R_sqrt.sqrt.

Lemma div_le a b c : 0 < c -> a <= b * c -> a / c <= b.
Proof. intros Hc H. apply (Rmult_le_reg_r c); [done|]. unfold Rdiv. rewrite Rmult_assoc, Rinv_l by lra. lra. Qed.
Lemma uro_pos : 0 < uro. Proof. apply Rinv_0_lt_compat, pow_lt. lra. Qed.
Lemma uro_lt1 : uro < 1. Proof. unfold uro. rewrite <- Rinv_1. apply Rinv_lt_contravar; [rewrite Rmult_1_l; apply pow_lt; lra|]. apply Rlt_pow_R1; [lra|lia]. Qed.
Lemma eta_pos : 0 < eta. Proof. apply Rinv_0_lt_compat, pow_lt. lra. Qed.
Lemma pow_ge1 k : 1 <= (1 + uro) ^ k. Proof. apply pow_R1_Rle. pose proof uro_pos. lra. Qed.
Lemma pow_mono k l : (k <= l)%nat -> (1 + uro) ^ k <= (1 + uro) ^ l. Proof. intros H. apply Rle_pow; [pose proof uro_pos; lra|done]. Qed.
Lemma gam_nonneg k : 0 <= gam k. Proof. unfold gam. pose proof (pow_ge1 k). lra. Qed.
Lemma gam_mono k l : (k <= l)%nat -> gam k <= gam l. Proof. intros H. unfold gam. pose proof (pow_mono k l H). lra. Qed.
Lemma bpow_nat k : bpow radix2 (- Z.of_nat k) = / 2 ^ k.
Proof. rewrite bpow_opp. f_equal. rewrite bpow_powerRZ. change (IZR radix2) with 2. by rewrite <- pow_powerRZ. Qed.
Lemma tech_pow_Rmult_S k : 2 ^ (S k) = 2 * 2 ^ k. Proof. reflexivity. Qed.
Lemma uro_eq : / 2 * bpow radix2 (- 53 + 1) = uro.
Proof.
  change (-53 + 1)%Z with (- Z.of_nat 52)%Z. rewrite bpow_nat. unfold uro. rewrite (tech_pow_Rmult_S 52). rewrite Rinv_mult. reflexivity.
Qed.
Lemma eta_eq : / 2 * bpow radix2 (-1074) = eta.
Proof.
  change (-1074)%Z with (- Z.of_nat 1074)%Z. rewrite bpow_nat. unfold eta. rewrite (tech_pow_Rmult_S 1074). rewrite Rinv_mult. reflexivity.
Qed.
Lemma u_ro_eq : u_ro radix2 53 = uro. Proof. unfold u_ro. apply uro_eq. Qed.

(** rounding of any real; of a sum of two doubles; of the root of a double *)
Lemma rnd_err x : Rabs (rnd x - x) <= uro * Rabs x + eta.
Proof.
  destruct (error_N_FLT radix2 (-1074) 53 ltac:(lia) (fun x => negb (Z.even x)) x) as (e & n & He & Hn & _ & E).
  assert (He' : Rabs e <= uro) by (rewrite <- uro_eq; exact He). rewrite eta_eq in Hn. unfold rnd. rewrite fexp64_FLT. rewrite E.
  replace (x * (1 + e) + n - x) with (e * x + n) by ring. eapply Rle_trans; [apply Rabs_triang|]. rewrite Rabs_mult.
  pose proof (Rabs_pos x). nra.
Qed.
Lemma rnd_plus x y : format64 x -> format64 y -> Rabs (rnd (x + y) - (x + y)) <= uro * Rabs (x + y).
Proof.
  unfold format64. rewrite fexp64_FLT. intros Hx Hy.
  destruct (@FLT_plus_error_N_ex radix2 (-1074) 53 b64_prec (fun x => negb (Z.even x)) x y Hx Hy) as (e & He & E).
  unfold rnd. rewrite fexp64_FLT. rewrite E. replace ((x + y) * (1 + e) - (x + y)) with (e * (x + y)) by ring. rewrite Rabs_mult.
  apply Rmult_le_compat_r; [apply Rabs_pos|]. rewrite u_ro_eq in He. eapply Rle_trans; [exact He|]. pose proof uro_pos.
  apply div_le; nra.
Qed.
Lemma rnd_sqrt x : format64 x -> Rabs (rnd (sqrt x) - sqrt x) <= uro * sqrt x.
Proof.
  unfold format64. rewrite fexp64_FLT. intros Hx.
  destruct (@sqrt_error_N_FLT_ex radix2 53 b64_prec (fun x => negb (Z.even x)) ltac:(lia) (-1074) ltac:(lia) x Hx) as (e & He & E).
  unfold rnd. rewrite fexp64_FLT. rewrite E. replace (sqrt x * (1 + e) - sqrt x) with (e * sqrt x) by ring. rewrite Rabs_mult.
  rewrite (Rabs_pos_eq (sqrt x)) by apply sqrt_pos. apply Rmult_le_compat_r; [apply sqrt_pos|]. rewrite u_ro_eq in He. eapply Rle_trans; [exact He|].
  pose proof uro_pos. set (w := sqrt (1 + 2 * uro)). assert (Hw : w * w = 1 + 2 * uro) by (apply sqrt_sqrt; lra). assert (1 <= w) by (unfold w; rewrite <- sqrt_1 at 1; apply sqrt_le_1_alt; lra).
  assert (E2 : 1 - 1 / w = (w - 1) / w) by (field; lra). rewrite E2. apply div_le; nra.
Qed.

(** ** The operations of [BN_with] *)
Section ops.
Context (flog fexp fceil : b64 -> b64).
Notation BN := (BN_with flog fexp fceil).
Notation "x [+] y" := (@add BN x y) (at level 50, left associativity).
Notation "x [-] y" := (@sub BN x y) (at level 50, left associativity).
Notation "x [*] y" := (@mul BN x y) (at level 40, left associativity).
Lemma huge_eq : bpow radix2 1024 = huge.
Proof. unfold huge. rewrite bpow_powerRZ. change (IZR radix2) with 2. change 1024%Z with (Z.of_nat 1024). by rewrite <- pow_powerRZ. Qed.
Lemma overflow_nf (x : b64) s : B2SF x = binary_overflow 53 1024 mode_NE s -> ~ finite x.
Proof. intros E H. unfold finite in H. rewrite <- is_finite_SF_B2SF, E in H. by destruct s. Qed.
Lemma fin_add_inv x y : finite (x [+] y) -> finite x /\ finite y.
Proof. unfold finite. destruct x as [|[]| |], y as [|[]| |]; cbn; try done; by destruct (Bool.eqb _ _). Qed.
Lemma fin_sub_inv x y : finite (x [-] y) -> finite x /\ finite y.
Proof. unfold finite. destruct x as [|[]| |], y as [|[]| |]; cbn; done. Qed.
Lemma fin_mul_inv x y : finite (x [*] y) -> finite x /\ finite y.
Proof. unfold finite. destruct x as [|[]| |], y as [|[]| |]; cbn; done. Qed.
Lemma add_val x y : finite (x [+] y) -> val (x [+] y) = rnd (val x + val y).
Proof.
  intros H. destruct (fin_add_inv _ _ H) as [Hx Hy]. pose proof (Bplus_correct 53 1024 b64_prec b64_emax mode_NE x y Hx Hy) as Q.
  destruct (Rlt_bool _ _); [apply Q|]. exfalso. destruct Q as [Q _]. by apply (overflow_nf _ _ Q).
Qed.
Lemma sub_val x y : finite (x [-] y) -> val (x [-] y) = rnd (val x - val y).
Proof.
  intros H. destruct (fin_sub_inv _ _ H) as [Hx Hy]. pose proof (Bminus_correct 53 1024 b64_prec b64_emax mode_NE x y Hx Hy) as Q.
  destruct (Rlt_bool _ _); [apply Q|]. exfalso. destruct Q as [Q _]. by apply (overflow_nf _ _ Q).
Qed.
Lemma mul_val x y : finite (x [*] y) -> val (x [*] y) = rnd (val x * val y).
Proof.
  intros H. pose proof (Bmult_correct 53 1024 b64_prec b64_emax mode_NE x y) as Q.
  destruct (Rlt_bool _ _); [apply Q|]. exfalso. by apply (overflow_nf _ _ Q).
Qed.
Lemma add_fin x y : finite x -> finite y -> Rabs (rnd (val x + val y)) < huge -> finite (x [+] y).
Proof.
  intros Hx Hy H. pose proof (Bplus_correct 53 1024 b64_prec b64_emax mode_NE x y Hx Hy) as Q. rewrite Rlt_bool_true in Q; [apply Q|]. rewrite huge_eq. exact H.
Qed.
Lemma sub_fin x y : finite x -> finite y -> Rabs (rnd (val x - val y)) < huge -> finite (x [-] y).
Proof.
  intros Hx Hy H. pose proof (Bminus_correct 53 1024 b64_prec b64_emax mode_NE x y Hx Hy) as Q. rewrite Rlt_bool_true in Q; [apply Q|]. rewrite huge_eq. exact H.
Qed.
Lemma mul_fin x y : finite x -> finite y -> Rabs (rnd (val x * val y)) < huge -> finite (x [*] y).
Proof.
  intros Hx Hy H. pose proof (Bmult_correct 53 1024 b64_prec b64_emax mode_NE x y) as Q. rewrite Rlt_bool_true in Q; [|rewrite huge_eq; exact H].
  destruct Q as (_ & Q & _). unfold finite. etransitivity; [exact Q|]. by rewrite Hx, Hy.
Qed.
Lemma abs_val x : val (@fabs BN x) = Rabs (val x). Proof. apply B2R_Babs. Qed.
Lemma abs_fin x : finite (@fabs BN x) <-> finite x. Proof. unfold finite. cbn. by rewrite is_finite_Babs. Qed.
Lemma sqrt_val x : finite (@sqrt_ BN x) -> val (@sqrt_ BN x) = rnd (sqrt (val x)).
Proof. intros _. apply (Bsqrt_correct 53 1024 b64_prec b64_emax mode_NE x). Qed.
Lemma zero_val : val (@zero BN) = 0 /\ finite (@zero BN).
Proof. apply (ofZ_exact flog fexp fceil 0). lia. Qed.
Lemma add_zero x : finite x -> val (@zero BN [+] x) = val x /\ finite (@zero BN [+] x).
Proof.
  intros Hx. destruct zero_val as [E F]. assert (R1 : rnd (val (@zero BN) + val x) = val x) by (rewrite E, Rplus_0_l; apply rnd_format, format_val).
  assert (F2 : finite (@zero BN [+] x)). { apply add_fin; [done|done|]. rewrite R1. unfold val. rewrite <- huge_eq. apply abs_B2R_lt_emax. }
  split; [|done]. by rewrite add_val.
Qed.

(** [near k c x s A]: x is a finite double that approximates s up to k roundings relative to A >= |s| and c underflows *)
Definition near (k : nat) (c : R) (x : b64) (s A : R) : Prop :=
  finite x /\ Rabs s <= A /\ 0 <= c /\ Rabs (val x - s) <= gam k * A + c * eta * (1 + uro) ^ k.
Lemma near_A k c x s A : near k c x s A -> 0 <= A. Proof. intros (_ & H & _). pose proof (Rabs_pos s). lra. Qed.
Lemma near_mono k l c d x s A : (k <= l)%nat -> c <= d -> near k c x s A -> near l d x s A.
Proof.
  intros Hk Hc HN. pose proof (near_A _ _ _ _ _ HN) as HA. destruct HN as (F & Hs & H0 & H). split; [done|]. split; [done|]. split; [lra|]. eapply Rle_trans; [exact H|].
  pose proof (gam_mono k l Hk). pose proof (pow_mono k l Hk). pose proof (pow_ge1 k). pose proof eta_pos.
  assert (gam k * A <= gam l * A) by (by apply Rmult_le_compat_r). assert (c * eta <= d * eta) by (apply Rmult_le_compat_r; lra). assert (0 <= c * eta) by (apply Rmult_le_pos; lra).
  assert (c * eta * (1 + uro) ^ k <= d * eta * (1 + uro) ^ l) by (apply Rmult_le_compat; lra). lra.
Qed.
Lemma near_exact x : finite x -> near 0 0 x (val x) (Rabs (val x)).
Proof. intros F. split; [done|]. split; [lra|]. split; [lra|]. rewrite Rminus_eq_0, Rabs_R0. unfold gam. cbn [Rpow_def.pow]. lra. Qed.
(** the size of an approximation *)
Lemma near_size k c x s A : near k c x s A -> Rabs (val x) <= (1 + uro) ^ k * (A + c * eta).
Proof.
  intros (_ & Hs & H0 & H). replace (val x) with (s + (val x - s)) by ring. eapply Rle_trans; [apply Rabs_triang|]. unfold gam in H. lra.
Qed.
Lemma near_round k c t s A r : Rabs s <= A -> 0 <= c -> Rabs (t - s) <= gam k * A + c * eta * (1 + uro) ^ k -> Rabs (r - t) <= uro * Rabs t ->
  Rabs (r - s) <= gam (S k) * A + c * eta * (1 + uro) ^ S k.
Proof.
  intros Hs Hc Ht Hr. replace (r - s) with ((r - t) + (t - s)) by ring. eapply Rle_trans; [apply Rabs_triang|].
  assert (H1 : Rabs t <= A + (gam k * A + c * eta * (1 + uro) ^ k)). { replace t with (s + (t - s)) by ring. eapply Rle_trans; [apply Rabs_triang|]. lra. }
  pose proof uro_pos. assert (uro * Rabs t <= uro * (A + (gam k * A + c * eta * (1 + uro) ^ k))) by (apply Rmult_le_compat_l; lra).
  unfold gam in *. rewrite <- tech_pow_Rmult. eapply Rle_trans; [apply Rplus_le_compat; [exact Hr|exact Ht]|]. nra.
Qed.
Lemma sum_bound k c d t t' s s' A A' : Rabs (t - s) <= gam k * A + c * eta * (1 + uro) ^ k -> Rabs (t' - s') <= gam k * A' + d * eta * (1 + uro) ^ k ->
  Rabs (t + t' - (s + s')) <= gam k * (A + A') + (c + d) * eta * (1 + uro) ^ k.
Proof. intros H1 H2. replace (t + t' - (s + s')) with ((t - s) + (t' - s')) by ring. eapply Rle_trans; [apply Rabs_triang|]. nra. Qed.
Lemma near_add k c d x y s s' A A' : near k c x s A -> near k d y s' A' -> finite (x [+] y) -> near (S k) (c + d) (x [+] y) (s + s') (A + A').
Proof.
  intros (Fx & Hs & Hc & Hx) (Fy & Hs' & Hd & Hy) F. assert (HS : Rabs (s + s') <= A + A') by (eapply Rle_trans; [apply Rabs_triang|]; lra).
  split; [done|]. split; [done|]. split; [lra|]. rewrite add_val by done.
  eapply near_round; [done|lra|by apply sum_bound|]. apply rnd_plus; apply format_val.
Qed.
Lemma near_sub k c d x y s s' A A' : near k c x s A -> near k d y s' A' -> finite (x [-] y) -> near (S k) (c + d) (x [-] y) (s - s') (A + A').
Proof.
  intros (Fx & Hs & Hc & Hx) (Fy & Hs' & Hd & Hy) F. assert (HS : Rabs (s - s') <= A + A'). { unfold Rminus. eapply Rle_trans; [apply Rabs_triang|]. rewrite Rabs_Ropp. lra. }
  split; [done|]. split; [done|]. split; [lra|]. rewrite sub_val by done.
  eapply near_round with (t := val x - val y); [done|lra| |].
  - unfold Rminus at 1 3. rewrite Ropp_plus_distr. replace (val x - val y + (- s + - - s')) with ((val x + (- val y)) - (s + - s')) by ring. apply sum_bound; [done|].
    replace (- val y - - s') with (- (val y - s')) by ring. by rewrite Rabs_Ropp.
  - unfold Rminus. apply rnd_plus; [apply format_val|]. apply generic_format_opp, format_val.
Qed.
Lemma near_mul x y : finite (x [*] y) -> near 1 1 (x [*] y) (val x * val y) (Rabs (val x * val y)).
Proof.
  intros F. split; [done|]. split; [lra|]. split; [lra|]. rewrite mul_val by done. eapply Rle_trans; [apply rnd_err|]. unfold gam. cbn [Rpow_def.pow]. pose proof uro_pos. pose proof eta_pos. nra.
Qed.
(** no overflow *)
Lemma near_add_fin k c d x y s s' A A' : near k c x s A -> near k d y s' A' -> (1 + uro) ^ S k * (A + A' + (c + d) * eta) < huge -> finite (x [+] y).
Proof.
  intros Hx Hy H. apply add_fin; [apply Hx|apply Hy|]. pose proof (near_size _ _ _ _ _ Hx) as Sx. pose proof (near_size _ _ _ _ _ Hy) as Sy.
  pose proof (rnd_plus (val x) (val y) (format_val x) (format_val y)) as Q.
  assert (H1 : Rabs (rnd (val x + val y)) <= (1 + uro) * Rabs (val x + val y)).
  { replace (rnd (val x + val y)) with ((val x + val y) + (rnd (val x + val y) - (val x + val y))) by ring. eapply Rle_trans; [apply Rabs_triang|]. lra. }
  pose proof (Rabs_triang (val x) (val y)). pose proof uro_pos. rewrite <- tech_pow_Rmult in H.
  assert ((1 + uro) * Rabs (val x + val y) <= (1 + uro) * ((1 + uro) ^ k * (A + c * eta) + (1 + uro) ^ k * (A' + d * eta))) by (apply Rmult_le_compat_l; lra). nra.
Qed.
Lemma mul_fin_size x y : finite x -> finite y -> (1 + uro) * (Rabs (val x * val y) + eta) < huge -> finite (x [*] y).
Proof.
  intros Fx Fy H. apply mul_fin; [done|done|]. pose proof (rnd_err (val x * val y)) as Q.
  replace (rnd (val x * val y)) with ((val x * val y) + (rnd (val x * val y) - (val x * val y))) by ring. eapply Rle_lt_trans; [apply Rabs_triang|]. pose proof uro_pos. pose proof eta_pos. nra.
Qed.
End ops.
