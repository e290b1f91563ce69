(** * How fast conjugate gradients converge, in exact arithmetic.

    Iterate k of CG minimises the energy of the error over x0 + Krylov space; Nesterov's iteration for a
    strongly convex quadratic stays in the same spaces and contracts by 1 - sqrt(lo/hi) per step. *)
From Coq Require Import ZArith Lia Reals Lra.
From stdpp Require Import base list.
From Verif Require Import Mem P_Mem P_Loop P_Math P_MathR P_TVR L_Sum S_Vec L_Lin L_ER P_CG P_CGR.
Local Open Scope R_scope.
Local Notation sqrt := R_sqrt.sqrt.

Section rate.
Context (n : nat) (L : list R -> list R) (lo hi : R).
Context (HL : linear n L).
Context (Lsym : forall u v, length u = n -> length v = n -> ip n (L u) v = ip n u (L v)).
Context (Hlo : 0 < lo) (Bnd : forall u, length u = n -> lo * ip n u u <= ip n u (L u) <= hi * ip n u u).
Local Notation lc a u b v := (@axpby_of RN n a u b v).

Lemma lc_len (a : R) (u : list R) (b : R) (v : list R) : @length R (lc a u b v) = n.
Proof. apply (@tab_length RN). Qed.
Lemma L_len u : length u = n -> length (L u) = n.
Proof. apply HL. Qed.
Lemma L_lc (a : R) (u : list R) (b : R) (v w : list R) : length u = n -> length v = n -> ip n (L (lc a u b v)) w = a * ip n (L u) w + b * ip n (L v) w.
Proof.
  intros Hu Hv. rewrite <- ip_axpby_l. unfold ip. apply Rsum_ext. intros i Hi. f_equal.
  assert (Lv : forall c (v1 v2 : list R), length v1 = n -> length (vlin c v1 1 v2) = n) by (intros; unfold vlin; by rewrite map_length, seq_length).
  rewrite nth_axpby by done. replace (lc a u b v) with (vlin a u 1 (vlin (b - 1) v 1 v)).
  - rewrite !(proj2 HL) by (done || by apply Lv). lra.
  - apply (list_eq_nth n); [by apply Lv|apply lc_len|].
    intros j Hj. rewrite nth_axpby by done. unfold vlin. rewrite !nth_map_seq by lia. lra.
Qed.
Let En v := ip n v (L v).
Lemma En_nonneg v : length v = n -> 0 <= En v.
Proof. intros Hv. destruct (Bnd v Hv) as [B1 _]. pose proof (ip_self_nonneg n v). unfold En. nra. Qed.
Lemma En_lc (a : R) (u : list R) (b : R) (v : list R) : length u = n -> length v = n -> En (lc a u b v) = a * a * En u + 2 * (a * b) * ip n u (L v) + b * b * En v.
Proof.
  intros Hu Hv. unfold En. rewrite ip_axpby_l. rewrite <- (Lsym u), <- (Lsym v) by (done || apply lc_len).
  rewrite !ip_axpby_r. rewrite (Lsym u u), (Lsym u v), (Lsym v u), (Lsym v v) by done.
  rewrite <- (Lsym v u), (ip_sym n (L v) u) by done. lra.
Qed.
(** |L v|^2 lies between lo and hi times the energy *)
Lemma LL_hi v : length v = n -> 0 < hi -> ip n (L v) (L v) <= hi * En v.
Proof.
  intros Hv Hhi. pose proof (L_len v Hv) as Hl. pose proof (En_nonneg (lc 1 v (- / hi) (L v)) (lc_len _ _ _ _)) as H.
  rewrite En_lc in H by done. rewrite <- (Lsym v (L v)) in H by done. destruct (Bnd (L v) Hl) as [_ B]. fold (En (L v)) in B.
  set (q := ip n (L v) (L v)) in *. set (t := / hi) in *. assert (Et : t * hi = 1) by (unfold t; field; lra).
  assert (0 < t) by (by apply Rinv_0_lt_compat). assert (t * t * En (L v) <= t * q).
  { apply (Rle_trans _ (t * t * (hi * q))); [apply Rmult_le_compat_l; nra|]. right. transitivity (t * q * (t * hi)); [ring|rewrite Et; ring]. }
  assert (t * q <= En v) by lra. apply (Rmult_le_reg_l t); [done|]. replace (t * (hi * En v)) with (t * hi * En v) by ring. rewrite Et. lra.
Qed.
Lemma LL_lo v : length v = n -> lo * En v <= ip n (L v) (L v).
Proof.
  intros Hv. pose proof (ip_self_nonneg n (lc 1 (L v) (- lo) v)) as H. rewrite ip_axpby_l, !ip_axpby_r in H.
  rewrite (ip_sym n (L v) v) in H. fold (En v) in H. destruct (Bnd v Hv) as [B _]. fold (En v) in B. nra.
Qed.

(** ** Nesterov's iteration on the error *)
Section nesterov.
Context (tau : R) (Ht : 0 < tau <= 1) (Eta : tau * tau * hi = lo) (Hhi : 0 < hi).
Definition mid (y z : list R) : list R := lc (/ (1 + tau)) y (tau / (1 + tau)) z.
Definition ny (y z : list R) : list R := lc 1 (mid y z) (- / hi) (L (mid y z)).
Definition nz (y z : list R) : list R := lc 1 (lc (1 - tau) z tau (mid y z)) (- (tau / lo)) (L (mid y z)).
Definition pot (y z : list R) : R := En y + lo * ip n z z.
Lemma pot_step y z : length y = n -> length z = n -> pot (ny y z) (nz y z) <= (1 - tau) * pot y z.
Proof.
  intros Hy Hz. set (x := mid y z). assert (Hx : length x = n) by apply lc_len. pose proof (L_len x Hx) as HLx.
  unfold pot, ny, nz. fold x. rewrite (En_lc 1 x) by done. rewrite <- (Lsym x (L x)) by done.
  rewrite !ip_axpby_l, !ip_axpby_r.
  rewrite (ip_sym n (L x) z), (ip_sym n (L x) x), (ip_sym n x z). fold (En x).
  (* (1+tau) x = y + tau z, tested against L x *)
  assert (E1 : (1 + tau) * En x = ip n y (L x) + tau * ip n z (L x)).
  { unfold En. unfold x at 1, mid. rewrite ip_axpby_l. field. lra. }
  destruct (Bnd (L x) HLx) as [_ B1]. fold (En (L x)) in B1. destruct (Bnd x Hx) as [B2 _]. fold (En x) in B2.
  (* 2 y.Lx <= En y + En x *)
  pose proof (En_nonneg (lc 1 y (-1) x) (lc_len _ _ _ _)) as H1. rewrite En_lc in H1 by done.
  (* convexity of the square norm *)
  pose proof (ip_self_nonneg n (lc 1 z (-1) x)) as H2. rewrite ip_axpby_l, !ip_axpby_r, (ip_sym n x z) in H2.
  set (q := ip n (L x) (L x)) in *. set (ex := En x) in *. set (ey := En y) in *. set (zL := ip n z (L x)) in *. set (yL := ip n y (L x)) in *.
  set (zz := ip n z z) in *. set (xx := ip n x x) in *. set (zx := ip n z x) in *. set (eL := En (L x)) in *.
  assert (Eh : / hi = tau * tau / lo) by (rewrite <- Eta; field; lra).
  set (h := tau * tau / lo) in *. rewrite Eh.
  assert (Hh : 0 < h) by (rewrite <- Eh; by apply Rinv_0_lt_compat).
  assert (K1 : h * h * eL <= h * q).
  { apply (Rle_trans _ (h * h * (hi * q))); [apply Rmult_le_compat_l; nra|]. rewrite <- Eh. right. field. lra. }
  match goal with |- _ + lo * ?w <= _ => replace (lo * w)
    with (lo * ((1 - tau) * ((1 - tau) * zz + tau * zx) + tau * ((1 - tau) * zx + tau * xx)) - 2 * tau * ((1 - tau) * zL + tau * ex) + h * q) by (unfold h; field; lra) end.
  assert (K2 : (1 - tau) * ((1 - tau) * zz + tau * zx) + tau * ((1 - tau) * zx + tau * xx) <= (1 - tau) * zz + tau * xx).
  { assert (0 <= tau * (1 - tau) * (zz - 2 * zx + xx)) by (apply Rmult_le_pos; [apply Rmult_le_pos; lra|lra]). nra. }
  assert (K3 : lo * ((1 - tau) * ((1 - tau) * zz + tau * zx) + tau * ((1 - tau) * zx + tau * xx)) <= lo * ((1 - tau) * zz + tau * xx)) by (apply Rmult_le_compat_l; lra).
  assert (K4 : tau * (1 - tau) * zL = (1 - tau) * ((1 + tau) * ex - yL)) by (rewrite E1; ring).
  assert (K5 : (1 - tau) * (2 * yL) <= (1 - tau) * (ey + ex)) by (apply Rmult_le_compat_l; lra).
  assert (K6 : tau * (lo * xx) <= tau * ex) by (apply Rmult_le_compat_l; lra).
  nra.
Qed.
Fixpoint nest (k : nat) (e0 : list R) : list R * list R :=
  match k with O => (e0, e0) | S k' => let '(y, z) := nest k' e0 in (ny y z, nz y z) end.
Lemma nest_len k e0 : length e0 = n -> length (fst (nest k e0)) = n /\ length (snd (nest k e0)) = n.
Proof. intros H. destruct k; simpl; [done|]. destruct (nest k e0). simpl. split; apply lc_len. Qed.
Lemma nest_rate k e0 : length e0 = n -> En (fst (nest k e0)) <= 2 * (1 - tau) ^ k * En e0.
Proof.
  intros He. assert (H : pot (fst (nest k e0)) (snd (nest k e0)) <= (1 - tau) ^ k * pot e0 e0).
  { induction k as [|k IH]; [simpl; lra|]. destruct (nest_len k e0 He) as [L1 L2]. simpl. destruct (nest k e0) as [y z]. cbn [fst snd] in *.
    pose proof (pot_step y z L1 L2) as Hs. assert ((1 - tau) * pot y z <= (1 - tau) * ((1 - tau) ^ k * pot e0 e0)) by (apply Rmult_le_compat_l; lra). lra. }
  assert (0 <= (1 - tau) ^ k) by (apply pow_le; lra).
  assert (pot e0 e0 <= 2 * En e0) by (unfold pot; destruct (Bnd e0 He) as [B _]; fold (En e0) in B; lra).
  unfold pot in H at 1. pose proof (ip_self_nonneg n (snd (nest k e0))).
  assert (En (fst (nest k e0)) <= (1 - tau) ^ k * pot e0 e0) by nra. nra.
Qed.
End nesterov.

(** ** CG against it *)
Context (xs bs xst : list R) (Lx : length xs = n) (Lst : length xst = n).
Context (Hst : forall i, (i < n)%nat -> nth i (L xst) 0 = nth i bs 0).
Let C k := @cg_at RN n L xs bs k.
Let x k : list R := @tx RN (C k). Let r k : list R := @tr RN (C k). Let p k : list R := @tp RN (C k). Let d k : R := @td RN (C k).
Let al k : R := d k / ip n (p k) (L (p k)).
Let e k : list R := lc 1 (x k) (-1) xst.
Lemma len_x k : length (x k) = n. Proof. apply (cg_len (N := RN) n L xs bs Lx k). Qed.
Lemma e_len k : length (e k) = n. Proof. apply lc_len. Qed.
Lemma Lpos u : length u = n -> ip n u u <> 0 -> 0 < ip n u (L u).
Proof. intros Hu Hne. destruct (Bnd u Hu) as [B _]. pose proof (ip_self_nonneg n u). assert (0 < ip n u u) by lra. nra. Qed.
(** L e_k = - r_k *)
Lemma Le k w : ip n (L (e k)) w = - ip n (r k) w.
Proof.
  unfold e. rewrite L_lc by (done || apply len_x). pose proof (real_resid n L xs bs k HL Lx) as HR.
  enough (ip n (r k) w = ip n (L xst) w - ip n (L (x k)) w) by lra.
  unfold ip. rewrite <- Rsum_minus. apply Rsum_ext. intros i Hi. unfold r. rewrite HR by done. rewrite Hst by done. unfold x, C. lra.
Qed.
Lemma e_S k : forall w, ip n (e (S k)) w = ip n (e k) w + al k * ip n (p k) w.
Proof.
  intros w. unfold e. rewrite !ip_axpby_l. assert (E : ip n (x (S k)) w = al k * ip n (p k) w + ip n (x k) w); [|lra].
  assert (E : x (S k) = @axpy_of RN n (al k) (p k) (x k)); [|rewrite E; apply ip_axpy_l].
  unfold al. rewrite <- (dot_of_ip n (p k) (L (p k))). done.
Qed.

(** y - e_0 lies in the span of the first k directions *)
Definition inK (k : nat) (y : list R) : Prop := forall w, length w = n -> (forall i, (i < k)%nat -> ip n (p i) w = 0) -> ip n y w = ip n (e 0) w.
Lemma inK_0 : inK 0 (e 0). Proof. intros w _ _. done. Qed.
Lemma inK_mono k k' y : (k <= k')%nat -> inK k y -> inK k' y.
Proof. intros Hk H w Lw Hw. apply H; [done|]. intros i Hi. apply Hw. lia. Qed.
Lemma inK_lc k (a : R) (u : list R) (b : R) (v : list R) : a + b = 1 -> inK k u -> inK k v -> inK k (lc a u b v).
Proof. intros Hab Hu Hv w Lw Hw. rewrite ip_axpby_l, Hu, Hv by done. transitivity ((a + b) * ip n (e 0) w); [ring|rewrite Hab; ring]. Qed.
Section nonzero.
Context (K : nat) (Hd : forall i, (i < K)%nat -> d i <> 0).
Lemma inv k : (k <= K)%nat -> cg_inv n L xs bs k.
Proof. intros Hk. apply cg_orth; [done|done|apply Lpos|]. intros i Hi. apply Hd. lia. Qed.
Lemma inK_L k y w : (k <= K)%nat -> length y = n -> inK k y -> length w = n -> (forall i, (i < S k)%nat -> ip n (p i) w = 0) -> ip n (L y) w = 0.
Proof.
  intros Hk Ly Hy Lw Hw. pose proof (inv k Hk) as [I1 I2].
  (* the residuals up to k are orthogonal to w *)
  assert (Rw : forall i, (i <= k)%nat -> ip n (r i) w = 0).
  { intros i Hi. destruct i as [|i]; [rewrite <- (Hw 0%nat) by lia; done|].
    assert (E : ip n (p (S i)) w = ip n (r (S i)) w + d (S i) / d i * ip n (p i) w).
    { assert (Q : p (S i) = lc 1 (r (S i)) (d (S i) / d i) (p i)) by exact (p_S n L xs bs i). rewrite Q, ip_axpby_l. lra. }
    rewrite !Hw in E by lia. lra. }
  rewrite Lsym by done. rewrite Hy; [|by apply L_len|].
  - rewrite <- Lsym by (done || apply e_len). rewrite Le, Rw by lia. lra.
  - intros i Hi. rewrite <- Lsym by (done || apply (cg_len (N := RN) n L xs bs Lx i)).
    assert (Hdi : d i <> 0) by (apply Hd; lia).
    assert (Pi : 0 < ip n (p i) (L (p i))) by (apply (p_nonzero n L xs bs); [done|apply Lpos|apply I1; lia|done]).
    assert (E : ip n (r (S i)) w = - al i * ip n (L (p i)) w + ip n (r i) w).
    { assert (Q : r (S i) = @axpy_of RN n (- al i) (L (p i)) (r i)) by exact (r_S n L xs bs i). rewrite Q. apply ip_axpy_l. }
    rewrite !Rw in E by lia. assert (Hai : al i <> 0).
    { unfold al. apply Rmult_integral_contrapositive_currified; [done|]. apply Rinv_neq_0_compat. lra. }
    assert (E' : al i * ip n (L (p i)) w = 0) by lra. apply Rmult_integral in E' as [?|?]; done.
Qed.
Lemma inK_cg k : (k <= K)%nat -> inK k (e k).
Proof.
  induction k as [|k IH]; intros Hk; [apply inK_0|]. intros w Lw Hw. rewrite e_S, (IH ltac:(lia) w Lw), Hw by (lia || (intros; apply Hw; lia)). lra.
Qed.
Lemma inK_step k (y : list R) (h : R) : (k < K)%nat -> length y = n -> inK k y -> inK (S k) (lc 1 y h (L y)).
Proof.
  intros Hk Ly Hy w Lw Hw. rewrite ip_axpby_l, (inK_L k) by (done || lia). rewrite (Hy w Lw) by (intros; apply Hw; lia). lra.
Qed.
(** iterate k has the least energy there *)
Lemma optimal k y : (k <= K)%nat -> length y = n -> inK k y -> En (e k) <= En y.
Proof.
  intros Hk Ly Hy. pose proof (inv k Hk) as [_ I2].
  assert (Lr : length (r k) = n) by (apply (cg_len (N := RN) n L xs bs Lx k)).
  assert (Z : forall v, inK k v -> ip n v (r k) = ip n (e 0) (r k)).
  { intros v Hv. apply Hv; [done|]. intros i Hi. rewrite ip_sym. apply (I2 i k); lia. }
  pose proof (En_nonneg (lc 1 y (-1) (e k)) (lc_len _ _ _ _)) as H. rewrite En_lc in H by (done || apply e_len).
  assert (E1 : ip n y (L (e k)) = - ip n (e 0) (r k)) by (rewrite ip_sym, Le, ip_sym, Z by done; done).
  assert (E2 : En (e k) = - ip n (e 0) (r k)) by (unfold En; rewrite ip_sym, Le, ip_sym, Z by (by apply inK_cg); done).
  rewrite E1 in H. rewrite E2 in *. lra.
Qed.
Lemma energy_mono k : (k < K)%nat -> En (e (S k)) <= En (e k).
Proof. intros Hk. apply optimal; [lia|apply e_len|]. apply (inK_mono k); [lia|]. apply inK_cg. lia. Qed.
Lemma energy_rate k : (k <= K)%nat -> 0 < hi -> lo <= hi -> En (e k) <= 2 * (1 - sqrt (lo / hi)) ^ k * En (e 0).
Proof.
  intros Hk Hhi Hle. set (tau := sqrt (lo / hi)).
  assert (Q : 0 < lo / hi <= 1).
  { split; [by apply Rdiv_lt_0_compat|]. apply (Rmult_le_reg_r hi); [done|]. unfold Rdiv. rewrite Rmult_assoc, Rinv_l; lra. }
  assert (Ht : 0 < tau <= 1).
  { split; [apply sqrt_lt_R0; lra|]. rewrite <- sqrt_1. apply sqrt_le_1; lra. }
  assert (Eta : tau * tau * hi = lo) by (unfold tau; rewrite sqrt_sqrt by lra; field; lra).
  destruct (nest_len tau k (e 0) (e_len 0)) as [L1 L2].
  apply (Rle_trans _ (En (fst (nest tau k (e 0))))); [|by apply nest_rate; [..|apply e_len]].
  apply optimal; [done|done|].
  assert (H : inK k (fst (nest tau k (e 0))) /\ inK k (snd (nest tau k (e 0)))); [|apply H]. clear L1 L2.
  induction k as [|k IH]; [split; apply inK_0|]. destruct (IH ltac:(lia)) as [I1 I2]. destruct (nest_len tau k (e 0) (e_len 0)) as [L1 L2]. clear IH.
  simpl. destruct (nest tau k (e 0)) as [y z]. cbn [fst snd] in *.
  assert (M : inK k (mid tau y z)) by (apply inK_lc; [field; lra|done|done]).
  assert (Lm : length (mid tau y z) = n) by apply lc_len.
  split; [by apply inK_step; [lia|..]|].
  intros w Lw Hw. unfold nz. rewrite ip_axpby_l, (inK_L k) by (done || lia).
  rewrite (inK_lc k (1 - tau) z tau (mid tau y z) ltac:(lra) I2 M w Lw) by (intros; apply Hw; lia). lra.
Qed.
Lemma resid_rate k : (k <= K)%nat -> 0 < hi -> lo <= hi -> ip n (r k) (r k) <= 2 * (hi / lo) * (1 - sqrt (lo / hi)) ^ k * ip n (r 0) (r 0).
Proof.
  intros Hk Hhi Hle. pose proof (energy_rate k Hk Hhi Hle) as HE.
  assert (S : forall j, ip n (r j) (r j) = ip n (L (e j)) (L (e j))) by (intros j; rewrite Le, (ip_sym n (r j) (L (e j))), Le; lra).
  pose proof (LL_hi (e k) (e_len k) Hhi) as H1. pose proof (LL_lo (e 0) (e_len 0)) as H2. rewrite <- S in H1, H2.
  assert (Q : 0 <= (1 - sqrt (lo / hi)) ^ k).
  { apply pow_le. assert (sqrt (lo / hi) <= 1); [|lra]. rewrite <- sqrt_1. apply sqrt_le_1; [left; by apply Rdiv_lt_0_compat|lra|].
    apply (Rmult_le_reg_r hi); [done|]. unfold Rdiv. rewrite Rmult_assoc, Rinv_l; lra. }
  apply (Rle_trans _ (hi * En (e k))); [done|]. apply (Rle_trans _ (hi * (2 * (1 - sqrt (lo / hi)) ^ k * En (e 0)))); [apply Rmult_le_compat_l; lra|].
  set (t := (1 - sqrt (lo / hi)) ^ k) in *. replace (2 * (hi / lo) * t * ip n (r 0) (r 0)) with (hi * (2 * t * (ip n (r 0) (r 0) / lo))) by (field; lra).
  apply Rmult_le_compat_l; [lra|]. apply Rmult_le_compat_l; [lra|]. apply (Rmult_le_reg_l lo); [done|]. field_simplify; [|lra]. lra.
Qed.
End nonzero.
End rate.
