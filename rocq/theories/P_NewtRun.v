(** * One Newton iteration of the log-barrier solver in exact arithmetic. *)
From Coq Require Import ZArith Lia Reals Lra Psatz.
From stdpp Require Import base numbers list.
From Verif Require Import Mem P_Mem P_Loop P_Math P_MathR P_TVR P_VCL L_Sum L_ER L_Lin P_CGR S_Newt S_NewtRun P_CG P_LineSearch M_Math M_CG M_LineSearch M_Newton P_Newton P_Newt2 P_Newt3 P_NewtX P_NewtX2 P_NewtX3 L_Barrier L_Cert P_NewtR T_CG.
From Verif Require Import S_Newt.
Local Open Scope R_scope.

(** ** CG in exact arithmetic, as a function *)
Lemma nrm2_0 (v : list R) : (forall i, (i < length v)%nat -> nth i v 0 = 0) -> nrm2 v = 0.
Proof. intros H. unfold nrm2, nrm2sq. rewrite Rsum_0; [apply sqrt_0|]. intros i Hi. rewrite H by done. ring. Qed.
Section cg.
Context (k : nat) (L : list R -> list R) (A : list er -> list er) (xv bv : list R) (tol : er) (mi : nat).
Context (HL : linear k L) (HA : forall v, length v = k -> A (fin v) = fin (L v)) (Lx : length xv = k) (Lb : length bv = k).
Notation rel := (@cg_rel ER k A (fin xv) (fin bv)).
Notation K := (@cg_stop ER rel tol 0 mi).
Notation best := (@cg_at ER k A (fin xv) (fin bv) (@besti ER rel K)).
Lemma cg_zero : ip k bv bv = 0 -> tx best = fin xv /\ pnan (rel (@besti ER rel K)) /\
  ((forall i, (i < k)%nat -> nth i (L xv) 0 = 0) -> rel (@besti ER rel K) = NaN) /\ (rel (@besti ER rel K) = NaN -> forall i, (i < k)%nat -> nth i (L xv) 0 = 0).
Proof.
  intros Hb. assert (HP : forall j, pnan (rel j)).
  { intros j. unfold cg_rel. rewrite dot_fin, dot_of_ip, Hb. apply nn_div0. destruct j; cbn [cg_at]; unfold cg_0, cg_S; cbn [td]; apply dot_self_nn. }
  assert (E : @besti ER rel K = 0%nat) by (apply besti_const; intros j Hj; apply ltb_pnan_l; apply HP).
  rewrite E. split; [done|]. split; [apply HP|].
  unfold cg_rel. rewrite dot_fin, dot_of_ip, Hb. cbn [cg_at]. unfold cg_0. cbn [td]. rewrite HA by done. rewrite one_ER.
  change (@opp ER (Fin (@one RN))) with (Fin (- @one RN)). rewrite axpby_fin, dot_fin, dot_of_ip.
  set (r := @axpby_of RN k (@one RN) bv (- @one RN) (L xv)).
  assert (Nr : forall i, (i < k)%nat -> nth i r 0 = - nth i (L xv) 0).
  { intros i Hi. unfold r. rewrite nth_axpby by done. rewrite one_RN. rewrite (ip_self_0 k bv Hb i Hi). lra. }
  pose proof (ip_self_nonneg k r) as P0. cbn [sqrt_ div ER er_div]. destruct (Req_EM_T 0 0) as [_|]; [|done].
  split.
  - intros Hz. assert (Z : ip k r r = 0) by (apply ip_0_r; intros i Hi; rewrite Nr, Hz by done; lra). rewrite Z. destruct (Req_EM_T 0 0); done.
  - destruct (Req_EM_T (ip k r r) 0) as [Z|Z].
    + intros _ i Hi. pose proof (ip_self_0 k r Z i Hi) as Q. rewrite Nr in Q by done. lra.
    + destruct (Rlt_dec 0 (ip k r r)); [done|lra].
Qed.
Lemma cg_some : ip k bv bv <> 0 -> exists x, tx best = fin x /\ length x = k /\ rel (@besti ER rel K) = Fin (nrm2 (vlin 1 bv (-1) (L x)) / nrm2 bv) /\
  (spd k L -> (k <= mi)%nat -> nrm2 (vlin 1 bv (-1) (L x)) = 0 \/ er_ltb (rel (@besti ER rel K)) tol = true).
Proof.
  intros Hb.
  destruct (best_fine k L A xv bv HL HA Lx Lb Hb K) as (x & r & pp & EC & L1 & L2 & HR).
  assert (Er : r = vlin 1 bv (-1) (L x)) by (by apply (resid_vlin k L bv x r)).
  pose proof (rel_val k A xv bv Hb (@besti ER rel K) _ _ _ _ EC (ip_self_nonneg k r)) as ER1.
  assert (ER2 : rel (@besti ER rel K) = Fin (R_sqrt.sqrt (ip k r r / ip k bv bv))) by exact ER1. clear ER1.
  assert (EC2 : best = @mkTrj ER (fin x) (fin r) pp (Fin (ip k r r))) by exact EC.
  exists x. split; [rewrite EC2; done|]. split; [done|]. split.
  { rewrite ER2. f_equal. rewrite (rel_nrm k) by done. by rewrite Er. }
  intros (_ & Hs & Hp) Hmi. pose proof (proj1 HL) as HLL.
  destruct (cg_terminates k L xv bv Lx) as (k0 & Hk0 & E0 & Hi0).
  { intros u v Hu Hv. rewrite !ip_dot; auto. }
  { intros u Hu Hne. rewrite ip_dot by done. apply Hp; [done|].
    destruct (nz_dec k u) as [(i & _ & H)|H]; [by exists i|]. destruct Hne. by apply ip_0_r. }
  assert (EL : rel k0 = Fin 0).
  { transitivity (Fin (R_sqrt.sqrt (0 / ip k bv bv))).
    { eapply (rel_val k A xv bv Hb k0 _ _ _ 0); [|lra].
      rewrite (real_link k L A xv bv HA Lx Lb k0); [|intros i Hi; destruct (Hi0 i Hi) as [Q1 Q2]; split; [exact Q1|apply Rgt_not_eq; exact Q2]].
      f_equal. f_equal. exact E0. }
    f_equal. replace (0 / ip k bv bv) with 0 by (unfold Rdiv; lra). apply sqrt_0. }
  pose proof (bb_pos k bv Hb) as Hpos.
  assert (Hmin : forall j, (j <= K)%nat -> @ltb_ ER (rel j) (rel (@besti ER rel K)) = false) by (intros j Hj; by apply besti_min).
  destruct (@cg_stop_stops ER rel tol mi 0 ltac:(intros; lia)) as (HK & Hno & Hst). rewrite Nat.add_0_l in HK, Hst.
  destruct (decide (k0 <= K)%nat) as [Hle|Hgt].
  - left. specialize (Hmin k0 Hle). rewrite EL, ER2 in Hmin. simpl in Hmin. apply Rltb_false in Hmin.
    pose proof (sqrt_pos (ip k r r / ip k bv bv)) as Hsq.
    assert (Hz : R_sqrt.sqrt (ip k r r / ip k bv bv) = 0) by lra.
    rewrite <- Er. apply nrm2_0. rewrite L2. intros i Hi. apply (ip_self_0 k r); [|done].
    assert (0 <= ip k r r / ip k bv bv). { apply Rmult_le_pos; [apply ip_self_nonneg|]. left. by apply Rinv_0_lt_compat. }
    apply sqrt_eq_0 in Hz; [|done]. apply (Rmult_eq_reg_r (/ ip k bv bv)); [|apply Rinv_neq_0_compat; lra]. unfold Rdiv in Hz. lra.
  - right. destruct Hst as [E|[HK1 Htol]]; [lia|]. specialize (Hmin K ltac:(lia)).
    destruct (er_ltb (rel (@besti ER rel K)) tol) eqn:EB; [done|].
    assert (Hc : @ltb_ ER (rel K) tol = false); [|congruence].
    apply (ltb_tr _ (rel (@besti ER rel K))); [|done|done]. rewrite ER2. done.
Qed.
End cg.

Section iter.
Context (m n : nat) (A B C : list er -> list er) (Ar Br : list R -> list R) (bv : list R) (e : R) (params : @L1qcOpts ER).
Context (HL : linmap m n Ar) (HB : adjoint m n Ar Br) (Lb : length bv = n) (Hm : (1 <= m)%nat).
Context (HA : forall v, length v = m -> A (fin v) = fin (Ar v)) (HBf : forall v, length v = n -> B (fin v) = fin (Br v)) (HCf : forall v, length v = m -> C (fin v) = fin (Br (Ar v))).
Context (He : lo_epsilon params = Fin e).
Context (tau : R) (Htau : 0 < tau).
Context (x u : list R) (Lx : length x = m) (Lu : length u = m) (HF : strictly_feasible Ar bv e x u).
Notation r := (resid Ar bv x).
Notation sf := (strictly_feasible Ar bv e).
Notation F := (barrier Ar bv e tau).
Notation rsE := (@n_res ER n A (fin bv) (fin x)).
Notation f1E := (@n_f1 ER m (fin x) (fin u)).
Notation f2E := (@n_f2 ER m (fin x) (fin u)).
Notation feE := (@n_fe ER n A (fin bv) (Fin e) (fin x)).
Notation rsR := (@n_res RN n Ar bv x).
Notation f1R := (@n_f1 RN m x u).
Notation f2R := (@n_f2 RN m x u).
Notation feR := (@n_fe RN n Ar bv e x).

Lemma tne : tau <> 0. Proof. lra. Qed.
Lemma res_E : rsE = fin rsR.
Proof. rewrite (res_fin m n A Ar bv HL HA x Lx). f_equal. symmetry. exact (res_RN m n Ar bv HL x Lx). Qed.
Lemma f1_E : f1E = fin f1R.
Proof. unfold n_f1. rewrite oppone_E, oppone_RN. apply axpy_fin. Qed.
Lemma f2_E : f2E = fin f2R.
Proof. unfold n_f2. rewrite oppone_E, oppone_RN. apply axpby_fin. Qed.
Lemma fe_E : feE = Fin feR.
Proof. rewrite (fe_fin m n A Ar bv e HL HA x Lx). f_equal. rewrite (fe_RN m n Ar bv e HL x Lx). lra. Qed.
Lemma len_rsR : @length R rsR = n. Proof. apply (@tab_length RN). Qed.
Lemma f1_ne i : (i < m)%nat -> @at_ RN f1R i <> 0.
Proof. intros Hi. rewrite f1_RN by done. destruct (sf_neg m Ar bv e x u i Lx HF Hi). lra. Qed.
Lemma f2_ne i : (i < m)%nat -> @at_ RN f2R i <> 0.
Proof. intros Hi. rewrite f2_RN by done. destruct (sf_neg m Ar bv e x u i Lx HF Hi). lra. Qed.
Lemma fe_ne : feR <> 0.
Proof. rewrite (fe_RN m n Ar bv e HL x Lx). pose proof (sf_fe Ar bv e x u HF). lra. Qed.
Lemma s11_ne i : (i < m)%nat -> @h_s11 RN f1R f2R i <> 0.
Proof. intros Hi. rewrite (s11_RN m Ar bv e) by done. pose proof (s11_pos m Ar bv e x u Lx HF i Hi). lra. Qed.

Ltac dv H := first [rewrite (div_fin _ _ H)].
Lemma s11_E i : (i < m)%nat -> @h_s11 ER f1E f2E i = Fin (@h_s11 RN f1R f2R i).
Proof.
  intros Hi. unfold h_s11. rewrite f1_E, f2_E, !at_fin, one_ER. cbn [div ER]. rewrite !div_fin by (first [by apply f1_ne|by apply f2_ne]). done.
Qed.
Lemma s12_E i : (i < m)%nat -> @h_s12 ER f1E f2E i = Fin (@h_s12 RN f1R f2R i).
Proof.
  intros Hi. unfold h_s12. rewrite f1_E, f2_E, !at_fin, one_ER. cbn [div ER]. rewrite !div_fin by (first [by apply f1_ne|by apply f2_ne]). done.
Qed.
Lemma ntgu_E i : (i < m)%nat -> @h_ntgu ER (Fin tau) f1E f2E i = Fin (@h_ntgu RN tau f1R f2R i).
Proof.
  intros Hi. unfold h_ntgu. rewrite f1_E, f2_E, !at_fin, one_ER. cbn [div ER]. rewrite !div_fin by (first [by apply f1_ne|by apply f2_ne]). done.
Qed.
Lemma Brs_E : B rsE = fin (Br rsR). Proof. rewrite res_E. apply HBf. apply len_rsR. Qed.
Lemma ntgz_E i : (i < m)%nat -> @h_ntgz ER feE f1E f2E (B rsE) i = Fin (@h_ntgz RN feR f1R f2R (Br rsR) i).
Proof.
  intros Hi. unfold h_ntgz. rewrite Brs_E, fe_E, f1_E, f2_E, !at_fin, one_ER. cbn [div ER].
  rewrite !div_fin by (first [by apply f1_ne|by apply f2_ne|apply fe_ne]). done.
Qed.
Lemma sigx_E i : (i < m)%nat -> @h_sigx ER f1E f2E i = Fin (@h_sigx RN f1R f2R i).
Proof.
  intros Hi. unfold h_sigx. rewrite s11_E, s12_E by done. cbn [div mul ER er_mul]. rewrite div_fin by (by apply s11_ne). done.
Qed.
Lemma w1p_E i : (i < m)%nat -> @h_w1p ER (Fin tau) feE f1E f2E (B rsE) i = Fin (@h_w1p RN tau feR f1R f2R (Br rsR) i).
Proof.
  intros Hi. unfold h_w1p. rewrite ntgz_E, ntgu_E, s11_E, s12_E by done. cbn [div mul ER er_mul]. rewrite div_fin by (by apply s11_ne). done.
Qed.
Lemma g1_E : @tab ER m (@h_g1 ER (Fin tau) feE f1E f2E (B rsE)) = fin (gxl m Ar Br bv e tau x u).
Proof.
  rewrite <- (g1_RN m n Ar Br bv e tau HL tne x u Lx HF). apply tab_fin'. intros i Hi. unfold h_g1. rewrite ntgz_E by done. rewrite oppone_E, oppone_RN. cbn [div ER].
  rewrite div_fin by apply tne. done.
Qed.
Lemma g2_E : @tab ER m (@h_g2 ER (Fin tau) f1E f2E) = fin (gul m tau x u).
Proof.
  rewrite <- (g2_RN m Ar bv e tau tne x u Lx HF). apply tab_fin'. intros i Hi. unfold h_g2. rewrite ntgu_E by done. rewrite oppone_E, oppone_RN. cbn [div ER].
  rewrite div_fin by apply tne. done.
Qed.
(** the operator and the right hand side of the reduced system *)
Notation opR := (@n_op RN m Br (fun v => Br (Ar v)) feR rsR f1R f2R).
Notation rhsR := (@n_rhs RN m Br tau feR rsR f1R f2R).
Lemma op_E z : length z = m -> @n_op ER m B C feE rsE f1E f2E (fin z) = fin (opR z).
Proof.
  intros Lz. unfold n_op, n_H11.
  rewrite (tab_fin' m _ (@h_sigx RN f1R f2R)) by (intros; by apply sigx_E).
  rewrite Brs_E, fe_E, dot_fin, one_ER, (HCf z Lz). cbn [div mul opp ER er_mul er_opp].
  rewrite !div_fin by (first [apply fe_ne|apply Rmult_integral_contrapositive_currified; apply fe_ne]).
  unfold xmypz_of. apply tab_fin'. intros i Hi. cbn [er_opp].
  match goal with |- context [@axpby_of ER m (Fin ?a) (fin ?v) (Fin ?c) (fin ?w)] => rewrite (axpby_fin m a v c w) end. rewrite !at_fin. done.
Qed.
Lemma rhs_E : @n_rhs ER m B (Fin tau) feE rsE f1E f2E = fin rhsR.
Proof. unfold n_rhs. apply tab_fin'. intros i Hi. by apply w1p_E. Qed.
Definition duR (d : list R) : list R := @n_du RN m (@tab RN m (@h_s11 RN f1R f2R)) (@tab RN m (@h_s12 RN f1R f2R)) (@tab RN m (@h_ntgu RN tau f1R f2R)) d.
Lemma duR_len d : length (duR d) = m. Proof. apply (@tab_length RN). Qed.
Lemma du_E d : @n_du ER m (@tab ER m (@h_s11 ER f1E f2E)) (@tab ER m (@h_s12 ER f1E f2E)) (@tab ER m (@h_ntgu ER (Fin tau) f1E f2E)) (fin d) = fin (duR d).
Proof.
  unfold duR, n_du. apply tab_fin'. intros i Hi. rewrite !(@at_tab ER) by done. rewrite !(@at_tab RN) by done.
  rewrite s11_E, s12_E, ntgu_E, at_fin, one_ER by done. cbn [div mul ER er_mul]. rewrite !div_fin by (by apply s11_ne). done.
Qed.
(** what d leaves over, as a residual of the Newton system *)
Definition rhoR (d : list R) : list R := map (fun i => (@nth R i (opR d) 0 - @nth R i rhsR 0) / tau) (seq 0 m).
Lemma rhoR_len d : length (rhoR d) = m. Proof. unfold rhoR. by rewrite map_length, seq_length. Qed.
Lemma upto_R d : length d = m -> newton_direction_upto m sf F x u d (duR d) (rhoR d).
Proof.
  intros Ld. pose proof (duR_len d) as Lf.
  assert (Nf : forall i, (i < m)%nat -> nth i (duR d) 0 = 1 / s11 x u i * (- tau * gu tau x u i) - s12 x u i / s11 x u i * nth i d 0).
  { intros i Hi. unfold duR, n_du. rewrite nth_tab by done. rewrite !at_RN, !nth_tab by done.
    rewrite (s11_RN m Ar bv e), (s12_RN m Ar bv e), (ntgu_RN m Ar bv e tau tne), one_div by done. done. }
  pose proof (sf_fe Ar bv e x u HF) as Hfe.
  apply (sys_upto m n Ar Br bv e tau HL HB Htau Lb x u d (duR d) (rhoR d) Lx Lu Ld Lf HF).
  - intros i Hi. unfold rhoR. rewrite nth_map_seq by done. rewrite (op_entry m n Ar Br bv e HL HB x u Lx HF d i Ld Hi).
    unfold n_rhs. rewrite nth_tab by done. unfold h_w1p. rewrite (ntgz_RN m n Ar Br bv e tau HL tne), (ntgu_RN m Ar bv e tau tne), (s11_RN m Ar bv e), (s12_RN m Ar bv e) by done.
    rewrite (Nf i Hi). pose proof (s11_pos m Ar bv e x u Lx HF i Hi).
    set (p := s11 x u i) in *. set (q := s12 x u i) in *. set (di := nth i d 0) in *. set (GX := gx Ar Br bv e tau x u i) in *. set (GU := gu tau x u i) in *.
    cbn [mul sub div opp RN]. set (br := nth i (Br r) 0). set (bq := nth i (Br (Ar d)) 0). set (D0 := dot (Br r) d). set (FE := (nrm2sq r - e * e) / 2) in *.
    cbn [T RN]. field. repeat split; lra.
  - intros i Hi. rewrite (Nf i Hi). pose proof (s11_pos m Ar bv e x u Lx HF i Hi). field. split; lra.
Qed.
Lemma rhsR_len : @length R rhsR = m. Proof. apply (@tab_length RN). Qed.
Lemma opR_lin : linear m opR. Proof. exact (op_linear m n Ar Br bv e HL HB Lb x u Lx Lu HF). Qed.
Lemma opR_spd : spd m opR.
Proof.
  split; [apply opR_lin|]. split; [intros; by apply (op_sym m n Ar Br bv e HL HB x u Lx HF)|intros; by apply (op_pos m n Ar Br bv e HL HB Lb x u Lx Lu HF)].
Qed.
Lemma opR_0 i : (i < m)%nat -> @nth R i (opR (repeat 0 m)) 0 = 0.
Proof.
  intros Hi. pose proof (proj2 opR_lin (-1) (repeat 0 m) (repeat 0 m) (repeat_length _ _) (repeat_length _ _) i Hi) as H.
  replace (vlin (-1) (repeat 0 m) 1 (repeat 0 m)) with (repeat 0 m) in H.
  - cbn [T RN] in *. lra.
  - apply (list_eq_nth m); [apply repeat_length|rewrite vlin_length; apply repeat_length|]. intros j Hj. rewrite nth_vlin by (by rewrite repeat_length). rewrite nth_repeat. lra.
Qed.
Lemma nrm2_scaled (c : R) (v w : list R) : 0 < c -> length v = length w -> (forall i, (i < length v)%nat -> nth i v 0 = c * nth i w 0 \/ nth i v 0 = - (c * nth i w 0)) -> nrm2 v = c * nrm2 w.
Proof.
  intros Hc Hl H. unfold nrm2. rewrite <- (sqrt_square c) at 1 by lra. rewrite <- sqrt_mult; [|nra|apply Rsum_nonneg; intros; nra]. f_equal.
  unfold nrm2sq. rewrite <- Hl, <- Rsum_scal. apply Rsum_ext. intros i Hi. destruct (H i Hi) as [-> | ->]; ring.
Qed.
Lemma rho_nrm d : length d = m -> nrm2 (vlin 1 rhsR (-1) (opR d)) = tau * nrm2 (rhoR d).
Proof.
  intros Ld. apply nrm2_scaled; [done|rewrite vlin_length, rhoR_len; apply rhsR_len|]. rewrite vlin_length. intros i Hi. assert (Hi' : (i < m)%nat) by (rewrite <- rhsR_len; exact Hi).
  right. rewrite nth_vlin by done. unfold rhoR. rewrite nth_map_seq by done. cbn [T RN]. field. lra.
Qed.
Lemma rho_0 : nrm2 rhsR = tau * nrm2 (rhoR (repeat 0 m)).
Proof.
  apply nrm2_scaled; [done|rewrite rhoR_len; apply rhsR_len|]. intros i Hi. assert (Hi' : (i < m)%nat) by (rewrite <- rhsR_len; exact Hi).
  right. unfold rhoR. rewrite nth_map_seq by done. rewrite opR_0 by done. cbn [T RN]. field. lra.
Qed.
Lemma nrm2_ip v : length v = m -> nrm2 v = R_sqrt.sqrt (ip m v v). Proof. intros L. unfold nrm2. rewrite nrm2sq_ip. by rewrite L. Qed.
Lemma nrm2_nn v : 0 <= nrm2 v. Proof. apply sqrt_pos. Qed.
Lemma dir_E (prm : @CgParams ER) (dx0 du0 : list R) : length dx0 = m -> length du0 = m ->
  exists d g rho sol, @n_dx ER m B C prm (Fin tau) feE rsE f1E f2E (fin dx0) = fin d /\ @n_dudir ER m B C prm (Fin tau) feE rsE f1E f2E (fin dx0) (fin du0) = fin g /\
    length d = m /\ length g = m /\ length rho = m /\
    (sol = true -> g = duR d /\ rho = rhoR d /\ nrm2 rho <= 1 / 2 * nrm2 (rhoR (repeat 0 m)) /\
       forall ct, (m <= Z.to_nat (cgp_max_iter prm))%nat -> cgp_tol prm = Fin ct -> 0 <= ct -> nrm2 rho <= ct * nrm2 (rhoR (repeat 0 m))) /\
    (sol = false -> g = du0 /\ 1 / 2 * nrm2 (rhoR (repeat 0 m)) < nrm2 (rhoR d)).
Proof.
  intros L0 Lu0.
  assert (HO : forall v, length v = m -> @n_op ER m B C feE rsE f1E f2E (fin v) = fin (opR v)) by exact op_E.
  set (opE := @n_op ER m B C feE rsE f1E f2E) in *.
  set (mi := Z.to_nat (cgp_max_iter prm)). set (tol := cgp_tol prm).
  assert (EX : @n_dx ER m B C prm (Fin tau) feE rsE f1E f2E (fin dx0) =
     tx (@cg_at ER m opE (fin dx0) (fin rhsR) (@besti ER (@cg_rel ER m opE (fin dx0) (fin rhsR)) (@cg_stop ER (@cg_rel ER m opE (fin dx0) (fin rhsR)) tol 0 mi)))).
  { unfold n_dx, n_iters, n_rel. fold opE. rewrite rhs_E. done. }
  assert (EF : @n_cgfail ER m B C prm (Fin tau) feE rsE f1E f2E (fin dx0) =
     er_ltb (Fin (1 / 2)) (@cg_rel ER m opE (fin dx0) (fin rhsR) (@besti ER (@cg_rel ER m opE (fin dx0) (fin rhsR)) (@cg_stop ER (@cg_rel ER m opE (fin dx0) (fin rhsR)) tol 0 mi)))).
  { unfold n_cgfail, n_cg, n_iters, n_rel. cbn [cgres]. fold opE. rewrite rhs_E. done. }
  unfold n_dudir. rewrite EF, EX. clear EF.
  pose proof (nrm2_nn (rhoR (repeat 0 m))) as Q0.
  destruct (Req_dec (ip m rhsR rhsR) 0) as [Z|Z].
  - destruct (cg_zero m opR opE dx0 rhsR tol mi HO L0 Z) as (E1 & E2 & E3 & E4).
    assert (R0 : nrm2 (rhoR (repeat 0 m)) = 0).
    { pose proof rho_0 as Q. rewrite nrm2_ip, Z, sqrt_0 in Q by apply rhsR_len. nra. }
    cbn [T RN] in E1, E2, E3, E4. rewrite E1.
    destruct (@cg_rel ER m opE (fin dx0) (fin rhsR) _) as [| | |] eqn:ER0; try done.
    + exists dx0, du0, (rhoR dx0), false. cbn [er_ltb]. split; [done|]. split; [done|]. split; [done|]. split; [done|]. split; [apply rhoR_len|]. split; [done|]. intros _. split; [done|].
      rewrite R0. destruct (Req_dec (nrm2 (rhoR dx0)) 0) as [Q|Q]; [|pose proof (nrm2_nn (rhoR dx0)); lra]. exfalso.
      assert (HZ : forall i, (i < m)%nat -> @nth R i (opR dx0) 0 = 0).
      { assert (Q2 : ip m (rhoR dx0) (rhoR dx0) = 0). { rewrite nrm2_ip in Q by apply rhoR_len. apply sqrt_eq_0 in Q; [done|apply ip_self_nonneg]. }
        intros i Hi. pose proof (ip_self_0 m _ Q2 i Hi) as Q3. unfold rhoR in Q3. rewrite nth_map_seq in Q3 by done. pose proof (ip_self_0 m _ Z i Hi) as Q4. cbn [T RN] in *. rewrite Q4 in Q3.
        apply (Rmult_eq_reg_r (/ tau)); [|apply Rinv_neq_0_compat; lra]. unfold Rdiv in Q3. lra. }
      specialize (E3 HZ). done.
    + exists dx0, (duR dx0), (rhoR dx0), true. cbn [er_ltb]. split; [done|]. split; [apply du_E|]. split; [done|]. split; [apply duR_len|]. split; [apply rhoR_len|]. split; [|done].
      intros _. split; [done|]. split; [done|]. rewrite R0.
      assert (R1 : nrm2 (rhoR dx0) = 0).
      { apply nrm2_0. rewrite rhoR_len. intros i Hi. unfold rhoR. rewrite nth_map_seq by done. pose proof (ip_self_0 m _ Z i Hi) as Q4. pose proof (E4 eq_refl i Hi) as Q5.
        cbn [T RN] in *. rewrite Q4, Q5. unfold Rdiv. lra. }
      rewrite R1. split; [lra|]. intros. lra.
  - destruct (cg_some m opR opE dx0 rhsR tol mi opR_lin HO L0 rhsR_len Z) as (d & E1 & Ld & E2 & E3).
    specialize (E3 opR_spd). cbn [T RN] in E1, E2, E3. rewrite E2 in E3. rewrite E1, E2.
    assert (RT : nrm2 (vlin 1 rhsR (-1) (opR d)) / nrm2 rhsR = nrm2 (rhoR d) / nrm2 (rhoR (repeat 0 m)) /\ 0 < nrm2 (rhoR (repeat 0 m))).
    { rewrite rho_nrm by done. rewrite rho_0.
      assert (P : 0 < nrm2 rhsR). { rewrite nrm2_ip by apply rhsR_len. apply sqrt_lt_R0. pose proof (ip_self_nonneg m rhsR). lra. }
      rewrite rho_0 in P. assert (0 < nrm2 (rhoR (repeat 0 m))) by nra. split; [|done]. field. split; lra. }
    destruct RT as [RT RP]. cbn [T RN] in RT. rewrite RT in *. cbn [er_ltb] in *. unfold Rltb in *.
    destruct (Rlt_dec (1 / 2) (nrm2 (rhoR d) / nrm2 (rhoR (repeat 0 m)))) as [Hlt|Hge].
    + exists d, du0, (rhoR d), false. split; [done|]. split; [done|]. split; [done|]. split; [done|]. split; [apply rhoR_len|]. split; [done|]. intros _. split; [done|].
      apply (Rmult_lt_compat_r (nrm2 (rhoR (repeat 0 m)))) in Hlt; [|done]. unfold Rdiv in Hlt at 2. rewrite Rmult_assoc, Rinv_l in Hlt by lra. lra.
    + exists d, (duR d), (rhoR d), true. split; [done|]. split; [apply du_E|]. split; [done|]. split; [apply duR_len|]. split; [apply rhoR_len|]. split; [|done].
      intros _. split; [done|]. split; [done|]. apply Rnot_lt_le in Hge. split.
      * apply (Rmult_le_compat_r (nrm2 (rhoR (repeat 0 m)))) in Hge; [|lra]. unfold Rdiv in Hge at 1. rewrite Rmult_assoc, Rinv_l in Hge by lra. lra.
      * intros ct Hmi Ht Hc. specialize (E3 Hmi). fold tol in Ht. rewrite Ht in E3. destruct E3 as [E3|E3].
        -- rewrite rho_nrm in E3 by done. assert (nrm2 (rhoR d) = 0) by nra. pose proof (Rmult_le_pos _ _ Hc (Rlt_le _ _ RP)). lra.
        -- destruct (Rlt_dec _ ct) as [Hl|]; [|done]. apply (Rmult_lt_compat_r (nrm2 (rhoR (repeat 0 m)))) in Hl; [|done]. unfold Rdiv in Hl at 1. rewrite Rmult_assoc, Rinv_l in Hl by lra. lra.
Qed.
End iter.
