(** * What one Newton step of the log-barrier method proves about the point it reaches. *)
From Coq Require Import Lia Reals Lra Psatz.
From stdpp Require Import base numbers list.
From Verif Require Import Mem P_Loop P_Math P_MathR L_Sum L_Lin P_CGR S_Newt P_NewtX P_NewtX2 L_Barrier S_NewtRun.
Local Open Scope R_scope.

Lemma Rsum_CS1 m f : (Rsum m f) ^ 2 <= INR m * Rsum m (fun i => f i ^ 2).
Proof.
  pose proof (Rsum_CS m (fun _ => 1) f) as H. cbv beta in H.
  rewrite (Rsum_ext m (fun i => 1 * f i) f) in H by (intros; ring). rewrite Rsum_const in H. lra.
Qed.

(** ** numbers only *)
Section abs.
Context (m : nat) (X U D G P br bq Y : nat -> R) (tau E q Q N rp qp t delta : R).
Let s1 i := (D i - G i) / (U i - X i).
Let s2 i := (- D i - G i) / (U i + X i).
Let se := q / E.
Context (Ht : 0 <= t <= 1) (HE : 0 < E) (Hbox : forall i, (i < m)%nat -> 0 < U i - X i /\ 0 < U i + X i).
(** the two blocks of the Newton system, the first with residual tau P *)
Context (EU : forall i, (i < m)%nat -> tau = (1 + s1 i) / (U i - X i) + (1 + s2 i) / (U i + X i)).
Context (EX : forall i, (i < m)%nat -> (1 + s1 i) / (U i - X i) - (1 + s2 i) / (U i + X i) = tau * P i - (br i * (1 + se) + bq i) / E).
Context (Eq : q = Rsum m (fun i => br i * D i)) (EQ : Q = Rsum m (fun i => bq i * D i)).
Context (Erp : rp = Rsum m (fun i => br i * (Y i - X i))) (Eqp : qp = Rsum m (fun i => bq i * (Y i - X i))).
Context (HQ : 0 <= Q) (Hrp : rp <= E - N / 2) (Hqp : forall k, 2 * k * qp <= k * k * N + Q).
Context (Hd : 0 <= delta < 1) (Hdel : Rsum m (fun i => s1 i ^ 2 + s2 i ^ 2) + se ^ 2 + Q / E <= delta ^ 2).

Lemma cert_s i : (i < m)%nat -> - delta <= s1 i <= delta /\ - delta <= s2 i <= delta.
Proof.
  intros Hi. assert (H : s1 i ^ 2 + s2 i ^ 2 <= Rsum m (fun i => s1 i ^ 2 + s2 i ^ 2)) by (apply (Rsum_term_le m (fun i => s1 i ^ 2 + s2 i ^ 2)); [intros; nra|done]).
  assert (0 <= Q / E) by (apply Rmult_le_pos; [done|]; apply Rlt_le, Rinv_0_lt_compat; done).
  assert (0 <= se ^ 2) by nra. assert (s1 i ^ 2 + s2 i ^ 2 <= delta ^ 2) by lra.
  split; split; nra.
Qed.
Lemma cert_se : - delta <= se <= delta.
Proof.
  assert (0 <= Rsum m (fun i => s1 i ^ 2 + s2 i ^ 2)) by (apply Rsum_nonneg; intros; nra).
  assert (0 <= Q / E) by (apply Rmult_le_pos; [done|]; apply Rlt_le, Rinv_0_lt_compat; done).
  split; nra.
Qed.
Lemma cert_term i : (i < m)%nat ->
  tau * (U i + t * G i - Rabs (Y i)) <= (1 + s1 i) * (1 - t * s1 i) + (1 + s2 i) * (1 - t * s2 i) + (tau * P i - (br i * (1 + se) + bq i) / E) * (X i + t * D i - Y i).
Proof.
  intros Hi. rewrite <- EX by done. rewrite (EU i Hi). destruct (Hbox i Hi) as [Ha Hc]. destruct (cert_s i Hi) as [H1 H2].
  set (a := U i - X i) in *. set (c := U i + X i) in *.
  assert (Ea : U i + t * G i = a * (1 - t * s1 i) + (X i + t * D i)) by (unfold s1; fold a; unfold a at 1; field_simplify; [|lra]; unfold a; field; fold a; lra).
  assert (Ec : U i + t * G i = c * (1 - t * s2 i) - (X i + t * D i)) by (unfold s2; fold c; unfold c at 1; field_simplify; [|lra]; unfold c; field; fold c; lra).
  set (al := (1 + s1 i) / a). set (be := (1 + s2 i) / c).
  assert (Pa : 0 <= al) by (apply Rmult_le_pos; [lra|apply Rlt_le, Rinv_0_lt_compat; lra]).
  assert (Pb : 0 <= be) by (apply Rmult_le_pos; [lra|apply Rlt_le, Rinv_0_lt_compat; lra]).
  assert (Xa : (1 + s1 i) * (1 - t * s1 i) = al * (a * (1 - t * s1 i))) by (unfold al; field; lra).
  assert (Xc : (1 + s2 i) * (1 - t * s2 i) = be * (c * (1 - t * s2 i))) by (unfold be; field; lra).
  rewrite Xa, Xc. pose proof (Rle_abs (Y i)). pose proof (Rle_abs (- Y i)) as Q1. rewrite Rabs_Ropp in Q1.
  assert (K1 : al * (U i + t * G i - Rabs (Y i)) <= al * (a * (1 - t * s1 i) + (X i + t * D i) - Y i)) by (apply Rmult_le_compat_l; [done|rewrite Ea; lra]).
  assert (K2 : be * (U i + t * G i - Rabs (Y i)) <= be * (c * (1 - t * s2 i) - (X i + t * D i) + Y i)) by (apply Rmult_le_compat_l; [done|rewrite Ec; lra]).
  lra.
Qed.
Lemma cert_S : Rsum m (fun i => s1 i + s2 i) + se <= R_sqrt.sqrt (2 * INR m + 1) * delta.
Proof.
  set (S := _ + se). assert (Hm : 0 <= INR m) by apply pos_INR.
  assert (HS : S * S <= (2 * INR m + 1) * (delta * delta)).
  { assert (0 <= Q / E) by (apply Rmult_le_pos; [done|]; apply Rlt_le, Rinv_0_lt_compat; done).
    rewrite Rsum_plus in Hdel. unfold S. rewrite Rsum_plus.
    pose proof (Rsum_CS1 m s1) as C1. pose proof (Rsum_CS1 m s2) as C2.
    set (S1 := Rsum m (fun i => s1 i)) in *. set (S2 := Rsum m (fun i => s2 i)) in *.
    change (Rsum m s1) with S1 in C1. change (Rsum m s2) with S2 in C2.
    set (T1 := Rsum m (fun i => s1 i ^ 2)) in *. set (T2 := Rsum m (fun i => s2 i ^ 2)) in *.
    assert (P1 : 0 <= T1) by (apply Rsum_nonneg; intros; nra). assert (P2 : 0 <= T2) by (apply Rsum_nonneg; intros; nra).
    set (M := INR m) in *.
    assert (J : (S1 + S2 + se) * (S1 + S2 + se) <= (2 * M + 1) * (T1 + T2 + se ^ 2)).
    { destruct (Req_dec M 0) as [Z|Z].
      - rewrite Z in *. assert (S1 = 0) by nra. assert (S2 = 0) by nra. nra.
      - assert (0 < M) by lra.
        assert (I1 : (S1 + S2) ^ 2 <= 2 * M * (T1 + T2)) by (pose proof (pow2_ge_0 (S1 - S2)); nra).
        assert (I2 : 2 * (S1 + S2) * se <= (S1 + S2) ^ 2 / (2 * M) + 2 * M * se ^ 2).
        { pose proof (pow2_ge_0 ((S1 + S2) - 2 * M * se)) as W. apply (Rmult_le_reg_l (2 * M)); [lra|].
          replace (2 * M * ((S1 + S2) ^ 2 / (2 * M) + 2 * M * se ^ 2)) with ((S1 + S2) ^ 2 + (2 * M) ^ 2 * se ^ 2) by (field; lra). nra. }
        assert (I3 : (S1 + S2) ^ 2 / (2 * M) <= T1 + T2).
        { apply (Rmult_le_reg_l (2 * M)); [lra|]. replace (2 * M * ((S1 + S2) ^ 2 / (2 * M))) with ((S1 + S2) ^ 2) by (field; lra). lra. }
        nra. }
    eapply Rle_trans; [exact J|]. apply Rmult_le_compat_l; [lra|]. lra. }
  rewrite <- (sqrt_square delta) by lra. rewrite <- sqrt_mult by nra. destruct (Rle_dec S 0); [eapply Rle_trans; [done|apply sqrt_pos]|].
  rewrite <- (sqrt_square S) by lra. by apply sqrt_le_1_alt.
Qed.
Lemma cert_abs : Rsum m (fun i => tau * (U i + t * G i - Rabs (Y i))) <=
  2 * INR m + 1 + (1 - t) * (R_sqrt.sqrt (2 * INR m + 1) * delta) + delta * delta / (2 * (1 - delta)) + Rsum m (fun i => tau * P i * (X i + t * D i - Y i)).
Proof.
  eapply Rle_trans; [apply Rsum_le; exact cert_term|].
  assert (E1 : Rsum m (fun i => (1 + s1 i) * (1 - t * s1 i) + (1 + s2 i) * (1 - t * s2 i) + (tau * P i - (br i * (1 + se) + bq i) / E) * (X i + t * D i - Y i)) =
    2 * INR m + (1 - t) * Rsum m (fun i => s1 i + s2 i) - t * Rsum m (fun i => s1 i ^ 2 + s2 i ^ 2) + Rsum m (fun i => tau * P i * (X i + t * D i - Y i))
    - ((1 + se) * (t * q - rp) + (t * Q - qp)) / E).
  { rewrite Eq, EQ, Erp, Eqp.
    transitivity (Rsum m (fun i => (((2 + (1 - t) * (s1 i + s2 i)) - t * (s1 i ^ 2 + s2 i ^ 2)) + tau * P i * (X i + t * D i - Y i)) -
      ((1 + se) / E * (t * (br i * D i) - br i * (Y i - X i)) + 1 / E * (t * (bq i * D i) - bq i * (Y i - X i))))).
    { apply Rsum_ext. intros i Hi. field. lra. }
    rewrite Rsum_minus, (Rsum_plus m (fun i => 2 + _ - _)), (Rsum_minus m (fun i => 2 + _)), (Rsum_plus m (fun _ => 2)), Rsum_const, !Rsum_scal.
    rewrite (Rsum_plus m (fun i => (1 + se) / E * _)), !Rsum_scal, !Rsum_minus, !Rsum_scal. field. lra. }
  rewrite E1. clear E1. pose proof cert_S as HS. pose proof cert_se as Hse.
  set (W := Rsum m (fun i => tau * P i * (X i + t * D i - Y i))) in *. set (S := Rsum m (fun i => s1 i + s2 i)) in *.
  set (V := Rsum m (fun i => s1 i ^ 2 + s2 i ^ 2)) in *. set (RT := R_sqrt.sqrt (2 * INR m + 1) * delta) in *.
  assert (P0 : 0 <= V) by (apply Rsum_nonneg; intros; nra).
  assert (K : 0 < 1 + se) by lra.
  assert (QE : 0 <= Q / E) by (apply Rmult_le_pos; [done|]; apply Rlt_le, Rinv_0_lt_compat; done).
  assert (Eqs : q = se * E) by (unfold se; field; lra).
  assert (C1 : - ((1 + se) * (t * q - rp) + (t * Q - qp)) / E <= (1 + se) - t * se * (1 + se) - t * (Q / E) + (Q / E) / (2 * (1 + se))).
  { apply (Rmult_le_reg_r E); [done|].
    replace (- ((1 + se) * (t * q - rp) + (t * Q - qp)) / E * E) with (- ((1 + se) * (t * (se * E) - rp) + (t * Q - qp))) by (rewrite Eqs; field; lra).
    replace (((1 + se) - t * se * (1 + se) - t * (Q / E) + (Q / E) / (2 * (1 + se))) * E) with ((1 + se) * E - t * se * (1 + se) * E - t * Q + Q / (2 * (1 + se))) by (field; lra).
    assert (C2 : (1 + se) * rp <= (1 + se) * (E - N / 2)) by (apply Rmult_le_compat_l; lra).
    assert (C3 : qp <= (1 + se) * N / 2 + Q / (2 * (1 + se))).
    { specialize (Hqp (1 + se)). apply (Rmult_le_reg_l (2 * (1 + se))); [lra|].
      replace (2 * (1 + se) * ((1 + se) * N / 2 + Q / (2 * (1 + se)))) with ((1 + se) * (1 + se) * N + Q) by (field; lra). lra. }
    lra. }
  assert (C4 : (Q / E) / (2 * (1 + se)) <= delta * delta / (2 * (1 - delta))).
  { assert (Q / E <= delta ^ 2) by nra. unfold Rdiv at 1 3. apply Rmult_le_compat; [done|apply Rlt_le, Rinv_0_lt_compat; lra|nra|].
    apply Rinv_le_contravar; lra. }
  assert (C5 : (1 - t) * (S + se) <= (1 - t) * RT) by (apply Rmult_le_compat_l; lra).
  assert (C6 : 0 <= t * V) by (apply Rmult_le_pos; lra). assert (C7 : 0 <= t * (Q / E)) by (apply Rmult_le_pos; lra). assert (C8 : 0 <= t * se ^ 2) by (apply Rmult_le_pos; [lra|nra]).
  unfold Rminus at 1. replace (- (((1 + se) * (t * q - rp) + (t * Q - qp)) / E)) with (- ((1 + se) * (t * q - rp) + (t * Q - qp)) / E) by (field; lra).
  nra.
Qed.
End abs.

(** ** vectors *)
Section vec.
Context (m n : nat) (A B : list R -> list R) (b : list R) (e tau : R).
Context (HL : linmap m n A) (HB : adjoint m n A B) (Ht : 0 < tau) (Lb : length b = n).
Notation r x := (resid A b x).
Notation fe x := ((nrm2sq (r x) - e * e) / 2).
Notation sf := (strictly_feasible A b e).
Notation F := (barrier A b e tau).
Context (x u d g rho : list R) (Lx : length x = m) (Lu : length u = m) (Ld : length d = m) (Lg : length g = m) (Lr : length rho = m) (HF : sf x u).

(** the Newton system, entry by entry *)
Definition sysX : Prop := forall i, (i < m)%nat ->
  1 / tau * (s11 x u i * nth i d 0 + s12 x u i * nth i g 0 - nth i (B (A d)) 0 / fe x + nth i (B (r x)) 0 * dot (B (r x)) d / (fe x * fe x)) = - gx A B b e tau x u i + nth i rho 0.
Definition sysU : Prop := forall i, (i < m)%nat -> 1 / tau * (s12 x u i * nth i d 0 + s11 x u i * nth i g 0) = - gu tau x u i.
Lemma tau_ne : tau <> 0. Proof. lra. Qed.
Lemma upto_sys : newton_direction_upto m sf F x u d g rho -> sysX /\ sysU.
Proof.
  intros H. specialize (H (gxl m A B b e tau) (gul m tau) (fun y v Ly Lv Hy => gradient m n A B b e tau HL HB tau_ne y v Ly Lv Hy)).
  destruct (sf_open m n A b e HL x u d g Lx Lu Ld Lg Lb HF) as (s & Hs & Ho).
  split; intros i Hi; destruct (H i Hi) as [H1 H2].
  - rewrite nth_gxl in H1 by done. eapply uniqueness_limite; [|exact H1].
    eapply drv_ext; [|exact (drv_gx m n A B b e tau HL HB tau_ne x u d g Lx Lu Ld Lg HF i Hi)]. intros t. cbv beta. by rewrite nth_gxl.
  - rewrite nth_gul in H2 by done. eapply uniqueness_limite; [|exact H2].
    eapply drv_ext; [|exact (drv_gu m A b e tau tau_ne x u d g Lx Lu Ld Lg HF i Hi)]. intros t. cbv beta. by rewrite nth_gul.
Qed.
Lemma sys_upto : sysX -> sysU -> newton_direction_upto m sf F x u d g rho.
Proof.
  intros H1 H2 G H HG i Hi. destruct (sf_open m n A b e HL x u d g Lx Lu Ld Lg Lb HF) as (s & Hs & Ho).
  assert (E : forall t, Rabs (t - 0) < s -> gxl m A B b e tau (along x d t) (along u g t) = G (along x d t) (along u g t) /\ gul m tau (along x d t) (along u g t) = H (along x d t) (along u g t)).
  { intros t Hr. rewrite Rminus_0_r in Hr. assert (L1 : length (along x d t) = m) by (by rewrite along_length). assert (L2 : length (along u g t) = m) by (by rewrite along_length).
    eapply gradient_unique; [apply (gradient m n A B b e tau HL HB tau_ne); auto|apply HG; auto]. }
  assert (E0 : gxl m A B b e tau x u = G x u /\ gul m tau x u = H x u). { eapply gradient_unique; [apply (gradient m n A B b e tau HL HB tau_ne); auto|apply HG; auto]. }
  destruct E0 as [E1 E2]. split.
  - rewrite <- E1, nth_gxl, <- H1 by done. eapply drv_ext_loc; [exact Hs| |exact (drv_gx m n A B b e tau HL HB tau_ne x u d g Lx Lu Ld Lg HF i Hi)].
    intros t Hr. cbv beta. rewrite <- (proj1 (E t Hr)). by rewrite nth_gxl.
  - rewrite <- E2, nth_gul, <- H2 by done. eapply drv_ext_loc; [exact Hs| |exact (drv_gu m A b e tau tau_ne x u d g Lx Lu Ld Lg HF i Hi)].
    intros t Hr. cbv beta. rewrite <- (proj2 (E t Hr)). by rewrite nth_gul.
Qed.

Lemma dot_Bl y v : length y = n -> length v = m -> dot (B y) v = ip n y (A v).
Proof.
  intros Ly Lv. rewrite ip_dot by done. rewrite (dot_sym y (A v)) by (rewrite Ly; symmetry; by apply HL). rewrite (proj2 HB) by done.
  apply dot_sym. rewrite Lv. by apply HB.
Qed.
Lemma dot_Bl' y v : length y = n -> length v = m -> Rsum m (fun i => nth i (B y) 0 * nth i v 0) = ip n y (A v).
Proof. intros Ly Lv. rewrite <- dot_Bl by done. unfold dot. by rewrite (proj1 HB). Qed.
Lemma dot_m v w : length v = m -> dot v w = Rsum m (fun i => nth i v 0 * nth i w 0). Proof. intros L. unfold dot. by rewrite L. Qed.

Theorem certificate lam t delta y : newton_direction_upto m sf F x u d g rho -> decrement F x u d g lam -> 0 <= t <= 1 -> 0 <= delta < 1 ->
  tau * (lam + dot rho d) <= delta * delta -> length y = m -> nrm2 (r y) <= e ->
  nrm1 (along x d t) <= nrm1 y + (2 * INR m + 1 + (1 - t) * (R_sqrt.sqrt (2 * INR m + 1) * delta) + delta * delta / (2 * (1 - delta))) / tau +
    dot rho (vlin 1 (along x d t) (-1) y).
Proof.
  intros HN HD Hst Hdl Hlam Ly Hy. destruct (upto_sys HN) as [SX SU].
  destruct HD as (G & H & HG & El). destruct (gradient_unique _ _ _ _ _ _ _ HG (gradient m n A B b e tau HL HB tau_ne x u Lx Lu HF)) as [-> ->].
  pose proof (sf_fe A b e x u HF) as Hfe. set (E := - fe x). assert (HE : 0 < E) by (unfold E; lra).
  assert (Hbox : forall i, (i < m)%nat -> 0 < nth i u 0 - nth i x 0 /\ 0 < nth i u 0 + nth i x 0).
  { intros i Hi. destruct (sf_neg m A b e x u i Lx HF Hi). split; lra. }
  assert (Lrx : length (r x) = n) by (by apply (r_length m n)). assert (LAd : length (A d) = n) by (by apply HL).
  set (q := ip n (r x) (A d)). assert (Eq0 : dot (B (r x)) d = q) by (by apply dot_Bl).
  set (w := vlin 1 y (-1) x). assert (Lw : length w = m) by (unfold w; by rewrite vlin_length).
  assert (Nw : forall i, (i < m)%nat -> nth i w 0 = nth i y 0 - nth i x 0). { intros i Hi. unfold w. rewrite nth_vlin by lia. lra. }
  assert (LAw : length (A w) = n) by (by apply HL).
  set (s1 := fun i => (nth i d 0 - nth i g 0) / (nth i u 0 - nth i x 0)).
  set (s2 := fun i => (- nth i d 0 - nth i g 0) / (nth i u 0 + nth i x 0)).
  set (se := q / E).
  (* the decrement is a sum of squares *)
  assert (Dec : Rsum m (fun i => s1 i ^ 2 + s2 i ^ 2) + se ^ 2 + nrm2sq (A d) / E = tau * (lam + dot rho d)).
  { rewrite El. rewrite (dot_m (gxl m A B b e tau x u)) by apply gxl_length. rewrite (dot_m (gul m tau x u)) by apply gul_length. rewrite (dot_m rho) by done.
    transitivity (Rsum m (fun i => tau * ((nth i rho 0 - nth i (gxl m A B b e tau x u) 0) * nth i d 0 - nth i (gul m tau x u) 0 * nth i g 0))).
    2:{ rewrite Rsum_scal. f_equal. rewrite <- Rsum_plus, <- Rsum_opp, <- Rsum_plus. apply Rsum_ext. intros. ring. }
    transitivity (Rsum m (fun i => (s1 i ^ 2 + s2 i ^ 2) + ((nth i (B (r x)) 0 * nth i d 0) * (q / (E * E)) + (nth i (B (A d)) 0 * nth i d 0) * / E))).
    { set (V := Rsum m (fun i => s1 i ^ 2 + s2 i ^ 2)). rewrite (Rsum_plus m (fun i => s1 i ^ 2 + s2 i ^ 2)). fold V. rewrite Rsum_plus.
      rewrite !Rsum_scal_r.
      assert (Q1 : Rsum m (fun i => nth i (B (r x)) 0 * nth i d 0) = q) by (by apply dot_Bl').
      assert (Q2 : Rsum m (fun i => nth i (B (A d)) 0 * nth i d 0) = nrm2sq (A d)). { rewrite dot_Bl' by done. rewrite nrm2sq_ip. by rewrite LAd. }
      rewrite Q1, Q2. unfold se. field. lra. }
    apply Rsum_ext. intros i Hi. rewrite nth_gxl, nth_gul by done. pose proof (SX i Hi) as X1. pose proof (SU i Hi) as X2. rewrite Eq0 in X1.
    replace ((nth i rho 0 - gx A B b e tau x u i) * nth i d 0 - gu tau x u i * nth i g 0) with ((- gx A B b e tau x u i + nth i rho 0) * nth i d 0 + (- gu tau x u i) * nth i g 0) by ring.
    rewrite <- X1, <- X2. replace (fe x) with (- E) by (unfold E; lra). destruct (Hbox i Hi). unfold s1, s2, s11, s12. field. repeat split; lra. }
  pose proof (cert_abs m (fun i => nth i x 0) (fun i => nth i u 0) (fun i => nth i d 0) (fun i => nth i g 0) (fun i => nth i rho 0)
    (fun i => nth i (B (r x)) 0) (fun i => nth i (B (A d)) 0) (fun i => nth i y 0) tau E q (nrm2sq (A d)) (nrm2sq (A w)) (ip n (r x) (A w)) (ip n (A d) (A w)) t delta Hst HE Hbox) as HC.
  cbv beta in HC. fold se in HC.
  assert (EU : forall i, (i < m)%nat -> tau = (1 + s1 i) / (nth i u 0 - nth i x 0) + (1 + s2 i) / (nth i u 0 + nth i x 0)).
  { intros i Hi. pose proof (SU i Hi) as X2. destruct (Hbox i Hi) as [B1 B2]. destruct (sf_neg m A b e x u i Lx HF Hi) as [B3 B4].
    apply (f_equal (Rmult tau)) in X2. unfold s11, s12, gu in X2. unfold s1, s2.
    set (X := nth i x 0) in *. set (U := nth i u 0) in *. set (d' := nth i d 0) in *. set (g' := nth i g 0) in *.
    replace (tau * (1 / tau * ((- (1 / ((X - U) * (X - U))) + 1 / ((X + U) * (X + U))) * d' + (1 / ((X - U) * (X - U)) + 1 / ((X + U) * (X + U))) * g')))
      with (- ((d' - g') / ((U - X) * (U - X))) + (d' + g') / ((U + X) * (U + X))) in X2 by (field; repeat split; lra).
    replace (tau * - (1 + 1 / tau * (1 / (X - U) - 1 / (X + U)))) with (- tau + (1 / (U - X) + 1 / (U + X))) in X2 by (field; repeat split; lra).
    replace ((1 + (d' - g') / (U - X)) / (U - X) + (1 + (- d' - g') / (U + X)) / (U + X)) with
      (1 / (U - X) + 1 / (U + X) - (- ((d' - g') / ((U - X) * (U - X))) + (d' + g') / ((U + X) * (U + X)))) by (field; repeat split; lra).
    rewrite X2. ring. }
  assert (EX : forall i, (i < m)%nat -> (1 + s1 i) / (nth i u 0 - nth i x 0) - (1 + s2 i) / (nth i u 0 + nth i x 0) = tau * nth i rho 0 - (nth i (B (r x)) 0 * (1 + se) + nth i (B (A d)) 0) / E).
  { intros i Hi. pose proof (SX i Hi) as X1. rewrite Eq0 in X1. destruct (Hbox i Hi) as [B1 B2]. destruct (sf_neg m A b e x u i Lx HF Hi) as [B3 B4].
    apply (f_equal (Rmult tau)) in X1. unfold gx, s11, s12 in X1. replace (fe x) with (- E) in X1 by (unfold E; lra). unfold s1, s2, se.
    set (X := nth i x 0) in *. set (U := nth i u 0) in *. set (d' := nth i d 0) in *. set (g' := nth i g 0) in *.
    set (bb := nth i (B (r x)) 0) in *. set (bq := nth i (B (A d)) 0) in *.
    replace (tau * (1 / tau * ((1 / ((X - U) * (X - U)) + 1 / ((X + U) * (X + U))) * d' + (- (1 / ((X - U) * (X - U))) + 1 / ((X + U) * (X + U))) * g' - bq / - E + bb * q / (- E * - E))))
      with ((d' - g') / ((U - X) * (U - X)) + (d' + g') / ((U + X) * (U + X)) + bq / E + bb * q / (E * E)) in X1 by (field; repeat split; lra).
    replace (tau * (- (- (1 / tau) * (1 / (X - U) + 1 / (X + U) + bb / - E)) + nth i rho 0)) with (tau * nth i rho 0 - 1 / (U - X) + 1 / (U + X) - bb / E) in X1 by (field; repeat split; lra).
    replace (tau * nth i rho 0) with ((tau * nth i rho 0 - 1 / (U - X) + 1 / (U + X) - bb / E) + 1 / (U - X) - 1 / (U + X) + bb / E) by ring.
    rewrite <- X1. field. repeat split; lra. }
  assert (HN2 : nrm2sq (r y) <= e * e).
  { unfold nrm2 in Hy. assert (P0 : 0 <= nrm2sq (r y)) by (apply Rsum_nonneg; intros; nra). rewrite <- (sqrt_sqrt _ P0). pose proof (sqrt_pos (nrm2sq (r y))). nra. }
  assert (Ey : along x w 1 = y). { apply (list_eq_nth m); [by rewrite along_length|done|]. intros i Hi. rewrite along_nth, Nw by lia. lra. }
  pose proof (resid_along_sq m n A b x w 1 HL Lx Lw) as RA. rewrite Ey in RA.
  specialize (HC EU EX).
  specialize (HC ltac:(symmetry; by apply dot_Bl')).
  specialize (HC ltac:(rewrite dot_Bl' by done; rewrite nrm2sq_ip; by rewrite LAd)).
  assert (E3 : forall z, length z = n -> Rsum m (fun i => nth i (B z) 0 * (nth i y 0 - nth i x 0)) = ip n z (A w)).
  { intros z Lz. rewrite <- dot_Bl' by done. apply Rsum_ext. intros i Hi. by rewrite Nw. }
  specialize (HC ltac:(symmetry; by apply E3) ltac:(symmetry; by apply E3)).
  assert (P1 : 0 <= nrm2sq (A d)) by (apply Rsum_nonneg; intros; nra).
  specialize (HC P1 ltac:(unfold E; lra)).
  assert (HK : forall k, 2 * k * ip n (A d) (A w) <= k * k * nrm2sq (A w) + nrm2sq (A d)).
  { intros k. pose proof (ip_self_nonneg n (@axpby_of RN n k (A w) (-1) (A d))) as W. rewrite ip_axpby_l, !ip_axpby_r in W.
    rewrite (ip_sym n (A w) (A d)) in W. rewrite !nrm2sq_ip, LAd, LAw. lra. }
  specialize (HC HK Hdl). assert (D2 : Rsum m (fun i => s1 i ^ 2 + s2 i ^ 2) + se ^ 2 + nrm2sq (A d) / E <= delta ^ 2) by (rewrite Dec; lra).
  specialize (HC D2).
  (* the left side is at least tau (|x'|_1 - |y|_1) *)
  assert (HS : forall i, (i < m)%nat -> - delta <= s1 i <= delta /\ - delta <= s2 i <= delta).
  { intros i Hi. exact (cert_s m (fun i => nth i x 0) (fun i => nth i u 0) (fun i => nth i d 0) (fun i => nth i g 0) E q (nrm2sq (A d)) delta HE P1 Hdl D2 i Hi). }
  assert (K : tau * (nrm1 (along x d t) - nrm1 y) <= Rsum m (fun i => tau * (nth i u 0 + t * nth i g 0 - Rabs (nth i y 0)))).
  { rewrite Rsum_scal. apply Rmult_le_compat_l; [lra|]. unfold nrm1. rewrite along_length, Ld, Ly, <- Rsum_minus. apply Rsum_le. intros i Hi.
    rewrite along_nth by lia. apply Rplus_le_compat_r. destruct (Hbox i Hi) as [B1 B2]. destruct (HS i Hi) as [H1 H2].
    set (X := nth i x 0) in *. set (U := nth i u 0) in *. set (d' := nth i d 0) in *. set (g' := nth i g 0) in *.
    assert (Z1 : t * (d' - g') <= U - X).
    { replace (d' - g') with (s1 i * (U - X)) by (unfold s1; fold d' g' U X; field; lra). assert (t * s1 i <= 1) by nra. nra. }
    assert (Z2 : t * (- d' - g') <= U + X).
    { replace (- d' - g') with (s2 i * (U + X)) by (unfold s2; fold d' g' U X; field; lra). assert (t * s2 i <= 1) by nra. nra. }
    apply Rabs_le. split; lra. }
  assert (W : Rsum m (fun i => tau * nth i rho 0 * (nth i x 0 + t * nth i d 0 - nth i y 0)) = tau * dot rho (vlin 1 (along x d t) (-1) y)).
  { rewrite dot_m by done. rewrite <- Rsum_scal. apply Rsum_ext. intros i Hi. rewrite nth_vlin by (rewrite along_length; lia). rewrite along_nth by lia. ring. }
  rewrite W in HC. apply (Rmult_le_reg_l tau); [done|].
  replace (tau * (nrm1 y + (2 * INR m + 1 + (1 - t) * (R_sqrt.sqrt (2 * INR m + 1) * delta) + delta * delta / (2 * (1 - delta))) / tau + dot rho (vlin 1 (along x d t) (-1) y)))
    with (tau * nrm1 y + (2 * INR m + 1 + (1 - t) * (R_sqrt.sqrt (2 * INR m + 1) * delta) + delta * delta / (2 * (1 - delta))) + tau * dot rho (vlin 1 (along x d t) (-1) y)) by (field; lra).
  lra.
Qed.
End vec.
