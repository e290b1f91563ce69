(** * The directions and the initialisation of the log-barrier solver in exact arithmetic. *)
From Coq Require Import ZArith Lia Reals Lra Psatz.
From Flocq Require Import Core.
From stdpp Require Import base numbers list.
From Verif Require Import Mem P_Loop P_Math P_MathR P_TVR P_VCL L_Sum L_ER L_Lin P_CGR S_Newt P_CG M_Math M_CG M_Newton P_Newton P_Newt2 P_Newt3 P_NewtX P_NewtX2 P_NewtX3 L_Barrier.
Local Open Scope R_scope.
Ltac eqR := match goal with |- @eq _ ?a ?b => change (@eq R a b) end.

(** ** gradient and Newton direction, real arithmetic *)
Section dir.
Context (m n : nat) (A B : list R -> list R) (b : list R) (e tau : R).
Context (HL : linmap m n A) (HB : adjoint m n A B) (Ht : tau <> 0) (Lb : length b = n).
Context (x u : list R) (Lx : length x = m) (Lu : length u = m) (HF : strictly_feasible A b e x u).
Notation r := (resid A b x).
Notation FE := ((nrm2sq r - e * e) / 2).
Notation rs := (@n_res RN n A b x).
Notation f1 := (@n_f1 RN m x u).
Notation f2 := (@n_f2 RN m x u).
Notation fe := (@n_fe RN n A b e x).

Lemma oppone_RN : @opp RN one = -1. Proof. rewrite one_RN. cbn. lra. Qed.
Lemma res_RN : rs = r.
Proof.
  apply (list_eq_nth n); [apply axpy_len|by apply (r_length m n)|]. intros i Hi. unfold n_res. rewrite oppone_RN, nth_axpy by done.
  unfold resid. rewrite nth_vlin by (rewrite (proj1 HL); done). lra.
Qed.
Lemma f1_RN i : (i < m)%nat -> @at_ RN f1 i = nth i x 0 - nth i u 0.
Proof. intros Hi. rewrite at_RN. unfold n_f1. rewrite oppone_RN, nth_axpy by done. lra. Qed.
Lemma f2_RN i : (i < m)%nat -> @at_ RN f2 i = - (nth i x 0 + nth i u 0).
Proof. intros Hi. rewrite at_RN. unfold n_f2. rewrite oppone_RN, nth_axpby by done. lra. Qed.
Lemma fe_RN : fe = FE.
Proof.
  unfold n_fe. rewrite res_RN, (dot_sq n) by (by apply (r_length m n)). cbn. lra.
Qed.
Lemma one_div (v : R) : @div RN one v = 1 / v. Proof. by rewrite one_RN. Qed.
Lemma g1_RN : @tab RN m (@h_g1 RN tau fe f1 f2 (B rs)) = gxl m A B b e tau x u.
Proof.
  apply (list_eq_nth m); [apply (@tab_length RN)|apply gxl_length|]. intros i Hi. rewrite nth_tab, nth_gxl by done.
  destruct (sf_neg m A b e x u i Lx HF Hi). pose proof (sf_fe A b e x u HF).
  unfold h_g1, h_ntgz, gx. rewrite !one_div, f1_RN, f2_RN, fe_RN, res_RN, at_RN, oppone_RN by done. cbn [mul add sub div RN].
  field. repeat split; try done; lra.
Qed.
Lemma g2_RN : @tab RN m (@h_g2 RN tau f1 f2) = gul m tau x u.
Proof.
  apply (list_eq_nth m); [apply (@tab_length RN)|apply gul_length|]. intros i Hi. rewrite nth_tab, nth_gul by done.
  destruct (sf_neg m A b e x u i Lx HF Hi).
  unfold h_g2, h_ntgu, gu. rewrite !one_div, f1_RN, f2_RN, oppone_RN by done. cbn [mul add sub div opp RN].
  field. repeat split; try done; lra.
Qed.
Lemma s11_RN i : (i < m)%nat -> @h_s11 RN f1 f2 i = s11 x u i.
Proof.
  intros Hi. destruct (sf_neg m A b e x u i Lx HF Hi). unfold h_s11, s11. rewrite !one_div, f1_RN, f2_RN by done. cbn [mul add RN]. eqR. field. lra.
Qed.
Lemma s12_RN i : (i < m)%nat -> @h_s12 RN f1 f2 i = s12 x u i.
Proof.
  intros Hi. destruct (sf_neg m A b e x u i Lx HF Hi). unfold h_s12, s12. rewrite !one_div, f1_RN, f2_RN by done. cbn [mul add opp RN]. eqR. field. lra.
Qed.
Lemma s11_pos i : (i < m)%nat -> 0 < s11 x u i.
Proof.
  intros Hi. destruct (sf_neg m A b e x u i Lx HF Hi). unfold s11. apply Rplus_lt_0_compat; apply Rdiv_lt_0_compat; nra.
Qed.
Lemma s12_lt i : (i < m)%nat -> s12 x u i * s12 x u i < s11 x u i * s11 x u i.
Proof.
  intros Hi. destruct (sf_neg m A b e x u i Lx HF Hi) as [P1 P2]. unfold s11, s12.
  assert (0 < 1 / ((nth i x 0 - nth i u 0) * (nth i x 0 - nth i u 0))) by (apply Rdiv_lt_0_compat; nra).
  assert (0 < 1 / ((nth i x 0 + nth i u 0) * (nth i x 0 + nth i u 0))) by (apply Rdiv_lt_0_compat; nra). nra.
Qed.
Lemma ntgz_RN i : (i < m)%nat -> @h_ntgz RN fe f1 f2 (B rs) i = - tau * gx A B b e tau x u i.
Proof.
  intros Hi. destruct (sf_neg m A b e x u i Lx HF Hi). pose proof (sf_fe A b e x u HF).
  unfold h_ntgz, gx. rewrite !one_div, f1_RN, f2_RN, fe_RN, res_RN, at_RN by done. cbn [mul add sub div RN]. eqR. field. repeat split; try done; lra.
Qed.
Lemma ntgu_RN i : (i < m)%nat -> @h_ntgu RN tau f1 f2 i = - tau * gu tau x u i.
Proof.
  intros Hi. destruct (sf_neg m A b e x u i Lx HF Hi).
  unfold h_ntgu, gu. rewrite !one_div, f1_RN, f2_RN by done. cbn [sub opp RN]. eqR. field. repeat split; try done; lra.
Qed.
(** the reduced operator *)
Notation C := (fun v => B (A v)).
Notation op := (@n_op RN m B C fe rs f1 f2).
Lemma op_entry (d : list R) i : length d = m -> (i < m)%nat ->
  @nth R i (op d) 0 = (s11 x u i - s12 x u i * s12 x u i / s11 x u i) * nth i d 0 +
    (nth i (B r) 0 * dot (B r) d / (FE * FE) - nth i (B (A d)) 0 / FE).
Proof.
  intros Ld Hi. pose proof (sf_fe A b e x u HF). pose proof (s11_pos i Hi).
  unfold n_op, n_H11, xmypz_of. rewrite nth_tab by done. rewrite !at_RN, nth_tab by done. rewrite nth_axpby by done.
  unfold h_sigx. rewrite s11_RN, s12_RN by done. rewrite !one_div, fe_RN, res_RN, dot_of_ip. cbn [mul add sub div opp RN].
  rewrite ip_dot by (apply HB; by apply (r_length m n)). eqR. cbn [T RN]. field. split; lra.
Qed.
Lemma op_length (d : list R) : @length R (op d) = m. Proof. apply (@tab_length RN). Qed.
Lemma reduced_newton (d : list R) : length d = m -> op d = @n_rhs RN m B tau fe rs f1 f2 ->
  newton_direction m (strictly_feasible A b e) (barrier A b e tau) x u d
    (@n_du RN m (@tab RN m (@h_s11 RN f1 f2)) (@tab RN m (@h_s12 RN f1 f2)) (@tab RN m (@h_ntgu RN tau f1 f2)) d).
Proof.
  intros Ld E. pose (f := (@n_du RN m (@tab RN m (@h_s11 RN f1 f2)) (@tab RN m (@h_s12 RN f1 f2)) (@tab RN m (@h_ntgu RN tau f1 f2)) d) : list R).
  change (newton_direction m (strictly_feasible A b e) (barrier A b e tau) x u d f). assert (Lf : @length R f = m) by apply (@tab_length RN).
  assert (Nf : forall i, (i < m)%nat -> nth i f 0 = 1 / s11 x u i * (- tau * gu tau x u i) - s12 x u i / s11 x u i * nth i d 0).
  { intros i Hi. unfold f, n_du. rewrite nth_tab by done. rewrite !at_RN, !nth_tab, s11_RN, s12_RN, ntgu_RN, one_div by done. done. }
  assert (K : forall i, (i < m)%nat -> (s11 x u i - s12 x u i * s12 x u i / s11 x u i) * nth i d 0 +
    (nth i (B r) 0 * dot (B r) d / (FE * FE) - nth i (B (A d)) 0 / FE) = - tau * gx A B b e tau x u i - s12 x u i / s11 x u i * (- tau * gu tau x u i)).
  { intros i Hi. rewrite <- op_entry by done. rewrite E. unfold n_rhs. rewrite nth_tab by done. unfold h_w1p. rewrite ntgz_RN, ntgu_RN, s11_RN, s12_RN by done. done. }
  clear E. pose proof (sf_fe A b e x u HF) as Hfe.
  apply (newton_dir m n A B b e tau HL HB Ht x u d f Lx Lu Ld Lf HF Lb).
  - intros i Hi. specialize (K i Hi). rewrite (Nf i Hi). pose proof (s11_pos i Hi).
    set (p := s11 x u i) in *. set (q := s12 x u i) in *. set (di := nth i d 0) in *. set (GX := gx A B b e tau x u i) in *. set (GU := gu tau x u i) in *.
    apply (Rmult_eq_reg_l tau); [|done]. rewrite <- Rmult_assoc. replace (tau * (1 / tau)) with 1 by (field; done). rewrite Rmult_1_l.
    replace (tau * - GX) with (- tau * GX - q / p * (- tau * GU) + q / p * (- tau * GU)) by lra. rewrite <- K. cbn [T RN]. unfold Rdiv. ring.
  - intros i Hi. rewrite (Nf i Hi). pose proof (s11_pos i Hi). field. split; [lra|done].
Qed.
(** it is symmetric positive definite *)
Lemma op_sym (d f : list R) : length d = m -> length f = m -> dot (op d) f = dot d (op f).
Proof.
  intros Ld Lf. unfold dot at 1 2. rewrite op_length, Ld.
  assert (E : forall g h : list R, length g = m -> length h = m -> Rsum m (fun i => @nth R i (op g) 0 * nth i h 0) =
    Rsum m (fun i => (s11 x u i - s12 x u i * s12 x u i / s11 x u i) * (nth i g 0 * nth i h 0)) + (dot (B r) g * dot (B r) h / (FE * FE) - dot (A g) (A h) / FE)).
  { intros g h Lg Lh.
    replace (dot (A g) (A h)) with (dot (B (A g)) h).
    2:{ rewrite (dot_sym (B (A g)) h) by (rewrite Lh; apply HB; by apply HL). rewrite <- (proj2 HB) by (first [done|by apply HL]).
        apply dot_sym. rewrite !(proj1 HL) by done. done. }
    transitivity (Rsum m (fun i => (s11 x u i - s12 x u i * s12 x u i / s11 x u i) * (nth i g 0 * nth i h 0) +
      ((nth i (B r) 0 * nth i h 0) * (dot (B r) g / (FE * FE)) - (nth i (B (A g)) 0 * nth i h 0) * / FE))).
    { apply Rsum_ext. intros i Hi. rewrite op_entry by done. cbn [T RN]. unfold Rdiv. ring. }
    rewrite Rsum_plus, Rsum_minus, !Rsum_scal_r. f_equal.
    assert (Q1 : dot (B r) h = Rsum m (fun i => nth i (B r) 0 * nth i h 0)) by (unfold dot; rewrite (proj1 HB) by (by apply (r_length m n)); done).
    assert (Q2 : dot (B (A g)) h = Rsum m (fun i => nth i (B (A g)) 0 * nth i h 0)) by (unfold dot; rewrite (proj1 HB) by (by apply HL); done).
    rewrite Q1, Q2. unfold Rdiv. ring. }
  rewrite (E d f Ld Lf). transitivity (Rsum m (fun i => @nth R i (op f) 0 * nth i d 0)); [|apply Rsum_ext; intros; ring].
  rewrite (E f d Lf Ld). f_equal; [apply Rsum_ext; intros; ring|]. f_equal; [unfold Rdiv; ring|]. f_equal. apply dot_sym. rewrite !(proj1 HL) by done. done.
Qed.
Lemma op_pos (d : list R) : length d = m -> (exists i, nth i d 0 <> 0) -> 0 < dot d (op d).
Proof.
  intros Ld [k Hk]. pose proof (sf_fe A b e x u HF) as Hfe.
  assert (E : dot d (op d) = Rsum m (fun i => (s11 x u i - s12 x u i * s12 x u i / s11 x u i) * (nth i d 0 * nth i d 0)) + (dot (B r) d * dot (B r) d / (FE * FE) + nrm2sq (A d) / (- FE))).
  { replace (nrm2sq (A d)) with (dot (B (A d)) d).
    2:{ rewrite (dot_sym (B (A d)) d) by (rewrite Ld; apply HB; by apply HL). rewrite <- (proj2 HB) by (first [done|by apply HL]). rewrite nrm2sq_ip. by rewrite ip_dot. }
    transitivity (Rsum m (fun i => (s11 x u i - s12 x u i * s12 x u i / s11 x u i) * (nth i d 0 * nth i d 0) +
      ((nth i (B r) 0 * nth i d 0) * (dot (B r) d / (FE * FE)) + (nth i (B (A d)) 0 * nth i d 0) * / - FE))).
    { unfold dot at 1. rewrite Ld. apply Rsum_ext. intros i Hi. rewrite op_entry by done. rewrite Rinv_opp. cbn [T RN]. unfold Rdiv. ring. }
    rewrite !Rsum_plus, !Rsum_scal_r. f_equal.
    assert (Q1 : dot (B r) d = Rsum m (fun i => nth i (B r) 0 * nth i d 0)) by (unfold dot; rewrite (proj1 HB) by (by apply (r_length m n)); done).
    assert (Q2 : dot (B (A d)) d = Rsum m (fun i => nth i (B (A d)) 0 * nth i d 0)) by (unfold dot; rewrite (proj1 HB) by (by apply HL); done).
    rewrite Q1, Q2. unfold Rdiv. ring. }
  rewrite E. assert (Kl : (k < m)%nat). { destruct (Nat.lt_ge_cases k m); [done|]. exfalso. apply Hk. apply nth_overflow. lia. }
  assert (P1 : forall i, (i < m)%nat -> 0 < s11 x u i - s12 x u i * s12 x u i / s11 x u i).
  { intros i Hi. pose proof (s11_pos i Hi). pose proof (s12_lt i Hi). apply (Rmult_lt_reg_r (s11 x u i)); [done|].
    replace ((s11 x u i - s12 x u i * s12 x u i / s11 x u i) * s11 x u i) with (s11 x u i * s11 x u i - s12 x u i * s12 x u i) by (field; lra). lra. }
  assert (P2 : 0 < Rsum m (fun i => (s11 x u i - s12 x u i * s12 x u i / s11 x u i) * (nth i d 0 * nth i d 0))).
  { eapply Rlt_le_trans; [|apply (Rsum_term_le m _ k); [|done]].
    - cbv beta. apply Rmult_lt_0_compat; [by apply P1|nra].
    - intros i Hi. cbv beta. apply Rmult_le_pos; [apply Rlt_le; by apply P1|nra]. }
  assert (P3 : 0 <= dot (B r) d * dot (B r) d / (FE * FE)). { apply Rmult_le_pos; [nra|]. apply Rlt_le, Rinv_0_lt_compat. nra. }
  assert (P4 : 0 <= nrm2sq (A d) / - FE). { apply Rmult_le_pos; [apply Rsum_nonneg; intros; nra|]. apply Rlt_le, Rinv_0_lt_compat. lra. }
  lra.
Qed.
Lemma op_linear : linear m op.
Proof.
  split; [intros; apply op_length|]. intros a d f Ld Lf i Hi.
  assert (L : length (vlin a d 1 f) = m) by (by rewrite vlin_length).
  rewrite !op_entry by done. rewrite nth_vlin by lia.
  assert (E1 : dot (B r) (vlin a d 1 f) = a * dot (B r) d + dot (B r) f).
  { unfold dot. rewrite (proj1 HB) by (by apply (r_length m n)). rewrite <- Rsum_scal, <- Rsum_plus. apply Rsum_ext. intros j Hj. rewrite nth_vlin by lia. ring. }
  assert (E2 : nth i (B (A (vlin a d 1 f))) 0 = a * nth i (B (A d)) 0 + nth i (B (A f)) 0).
  { rewrite !(B_entry m n A B HB) by (first [done|by apply HL]). unfold dot. rewrite (proj1 HL) by apply ebas_length. rewrite <- Rsum_scal, <- Rsum_plus.
    apply Rsum_ext. intros j Hj. rewrite (proj2 HL) by done. ring. }
  rewrite E1, E2. unfold Rdiv. ring.
Qed.
End dir.

(** ** initialisation, extended reals *)
Lemma xmax_ER m (x : list R) : (1 <= m)%nat -> length x = m ->
  exists M, @n_xmax ER m (fin x) = Fin M /\ (forall i, (i < m)%nat -> Rabs (nth i x 0) <= M) /\ exists i, (i < m)%nat /\ M = Rabs (nth i x 0).
Proof.
  intros Hm Lx. unfold n_xmax. assert (AT : forall i, @fabs ER (@at_ ER (fin x) i) = Fin (Rabs (nth i x 0))) by (intros i; rewrite at_fin, at_RN; done).
  clear Lx. induction m as [|m IH]; [lia|]. destruct m as [|m].
  - exists (Rabs (nth 0 x 0)). cbn [foldi]. rewrite AT. split; [done|]. split; [intros i Hi; replace i with 0%nat by lia; lra|]. exists 0%nat. split; [lia|done].
  - destruct IH as (M & E & H1 & i & Hi & H2); [lia|]. remember (S m) as k. cbn [foldi]. rewrite E, AT. unfold dmax. cbn [ltb_ ER er_ltb]. unfold Rltb.
    destruct (Rlt_dec (Rabs (nth k x 0)) M) as [Hl|Hl].
    + exists M. split; [done|]. split; [|exists i; split; [lia|done]]. intros j Hj. destruct (decide (j = k)) as [->|]; [lra|]. apply H1. lia.
    + exists (Rabs (nth k x 0)). split; [done|]. split; [|exists k; split; [lia|done]]. intros j Hj. destruct (decide (j = k)) as [->|]; [lra|]. specialize (H1 j ltac:(lia)). lra.
Qed.
Lemma u0_ER m (x : list R) : (1 <= m)%nat -> length x = m ->
  exists u, @n_u0 ER m (fin x) = fin u /\ length u = m /\
    ((exists i, nth i x 0 <> 0) -> forall i, (i < m)%nat -> Rabs (nth i x 0) < nth i u 0) /\
    ((forall i, nth i x 0 = 0) -> forall i, (i < m)%nat -> nth i u 0 = 0).
Proof.
  intros Hm Lx. destruct (xmax_ER m x Hm Lx) as (M & E & H1 & i0 & Hi0 & H2).
  exists (@tab RN m (fun i => 95 / 100 * Rabs (nth i x 0) + 10 / 100 * M)). split.
  { unfold n_u0. rewrite E. apply tab_fin'. intros i Hi. rewrite at_fin, at_RN. cbn. done. }
  split; [apply (@tab_length RN)|]. split.
  - intros [k Hk] i Hi. rewrite nth_tab by done. specialize (H1 i Hi) as Hx.
    assert (Kl : (k < m)%nat). { destruct (Nat.lt_ge_cases k m); [done|]. exfalso. apply Hk. apply nth_overflow. lia. }
    pose proof (Rabs_pos_lt _ Hk). specialize (H1 k Kl). pose proof (Rabs_pos (nth i x 0)). lra.
  - intros H i Hi. rewrite nth_tab by done. rewrite H2, !H, Rabs_R0. lra.
Qed.
Lemma asum_ER m (x : list R) : length x = m -> @asum_of ER m (fin x) = Fin (nrm1 x).
Proof.
  intros <-. unfold asum_of, nrm1. rewrite zero_E.
  rewrite (foldi_add_fin (length x) _ (fun i => Rabs (nth i x 0)) 0); [f_equal; lra|]. intros i Hi. rewrite at_fin, at_RN. done.
Qed.
Lemma nrm1_pos (x : list R) : (exists i, nth i x 0 <> 0) -> 0 < nrm1 x.
Proof.
  intros [k Hk]. assert (Kl : (k < length x)%nat). { destruct (Nat.lt_ge_cases k (length x)); [done|]. exfalso. apply Hk. apply nth_overflow. lia. }
  unfold nrm1. eapply Rlt_le_trans; [|apply (Rsum_term_le _ _ k); [intros; apply Rabs_pos|done]]. by apply Rabs_pos_lt.
Qed.
Lemma ofZ_ER z : @ofZ ER z = Fin (IZR z). Proof. unfold ofZ. cbn. f_equal. lra. Qed.
Lemma tau0_ER m (x : list R) : length x = m -> (exists i, nth i x 0 <> 0) ->
  @n_tau0 ER m (fin x) = Fin (Rmax ((2 * INR m + 1) / nrm1 x) 1).
Proof.
  intros Lx Hx. pose proof (nrm1_pos x Hx). unfold n_tau0. rewrite asum_ER by done. rewrite ofZ_ER. unfold dmax. cbn [div ER].
  rewrite div_fin by lra. replace (@one ER) with (Fin 1) by (unfold one; by rewrite ofZ_ER). cbn [ltb_ ER er_ltb]. unfold Rltb, Rmax.
  replace (IZR (2 * Z.of_nat m + 1)) with (2 * INR m + 1) by (rewrite plus_IZR, mult_IZR, <- INR_IZR_INZ; lra).
  destruct (Rlt_dec _ _), (Rle_dec _ _); try done; lra.
Qed.
Lemma stages_ER m (x : list R) (lt mu : R) : length x = m -> (exists i, nth i x 0 <> 0) -> 0 < lt -> 1 < mu ->
  let t0 := Rmax ((2 * INR m + 1) / nrm1 x) 1 in
  @n_stages ER m (fin x) (Fin lt) (Fin mu) =
    (let k := Zceil ((ln (2 * INR m + 1) - ln lt - ln t0) / ln mu) in if in_int k then Some k else None).
Proof.
  intros Lx Hx Hl Hmu t0. unfold n_stages. rewrite tau0_ER by done. fold t0.
  assert (Ht0 : 1 <= t0) by apply Rmax_r. pose proof (pos_INR m).
  assert (Lmu : 0 < ln mu) by (rewrite <- ln_1; apply ln_increasing; lra).
  assert (LG : forall y, 0 < y -> er_log (Fin y) = Fin (ln y)).
  { intros y Hy. cbn. destruct (Rlt_dec y 0); [lra|]. destruct (Req_EM_T y 0); [lra|done]. }
  unfold two, one. rewrite !ofZ_ER, <- INR_IZR_INZ. cbn [add mul sub div log_ ER er_mul er_add er_div].
  rewrite !LG by lra. unfold er_sub. cbn [er_opp er_add er_div]. destruct (Req_EM_T (ln mu) 0); [lra|].
  cbn [ceil_ toint ER er_ceil er_toint]. rewrite Ztrunc_IZR. done.
Qed.
(** all zero: the initial tau is +Inf and the number of stages is not a number *)
Lemma zero_start m (x : list R) (lt mu : R) : length x = m -> (forall i, nth i x 0 = 0) -> 0 < lt -> 1 < mu ->
  @n_tau0 ER m (fin x) = PInf /\ @n_stages ER m (fin x) (Fin lt) (Fin mu) = None.
Proof.
  intros Lx Hx Hl Hmu.
  assert (E : @n_tau0 ER m (fin x) = PInf).
  { unfold n_tau0. rewrite asum_ER by done. rewrite ofZ_ER. assert (Z : nrm1 x = 0) by (apply Rsum_0; intros; rewrite Hx; apply Rabs_R0). rewrite Z.
    unfold dmax. cbn [div ER er_div]. destruct (Req_EM_T 0 0); [|done].
    assert (P : 0 < IZR (2 * Z.of_nat m + 1)) by (apply IZR_lt; lia). destruct (Req_EM_T _ _); [lra|]. destruct (Rlt_dec _ _); [|lra]. unfold one. rewrite ofZ_ER. done. }
  split; [done|]. unfold n_stages. rewrite E. pose proof (pos_INR m).
  assert (Lmu : 0 < ln mu) by (rewrite <- ln_1; apply ln_increasing; lra).
  assert (LG : forall y, 0 < y -> er_log (Fin y) = Fin (ln y)).
  { intros y Hy. cbn. destruct (Rlt_dec y 0); [lra|]. destruct (Req_EM_T y 0); [lra|done]. }
  unfold two, one. rewrite !ofZ_ER, <- INR_IZR_INZ. cbn [add mul sub div log_ ER er_mul er_add er_div].
  rewrite !LG by lra. cbn. destruct (Rle_dec 0 (ln mu)); [done|lra].
Qed.
