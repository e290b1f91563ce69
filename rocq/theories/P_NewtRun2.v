(** * A whole run of the log-barrier solver in exact arithmetic. *)
From Coq Require Import ZArith Lia Reals Lra Psatz.
From stdpp Require Import base numbers list.
From Verif Require Import Mem P_Mem P_Loop P_Math P_MathR P_TVR P_VCL L_Sum L_ER L_Lin P_CGR S_Newt S_NewtRun P_CG P_LineSearch M_Math M_CG M_LineSearch M_Newton P_Newton P_Newt2 P_Newt3 P_NewtX P_NewtX2 P_NewtX3 L_Barrier L_Cert P_NewtR T_CG P_NewtRun.
From Verif Require Import S_Newt.
Local Open Scope R_scope.

Section run.
Context (m n : nat) (A B C : list er -> list er) (Ar Br : list R -> list R) (bv : list R) (e : R) (params : @L1qcOpts ER).
Context (HL : linmap m n Ar) (HB : adjoint m n Ar Br) (Lb : length bv = n) (Hm : (1 <= m)%nat).
Context (HA : forall v, length v = m -> A (fin v) = fin (Ar v)) (HBf : forall v, length v = n -> B (fin v) = fin (Br v)) (HCf : forall v, length v = m -> C (fin v) = fin (Br (Ar v))).
Context (He : lo_epsilon params = Fin e).
Context (o : run_opts) (Hnt : lo_newton_tol params = Fin (ro_newton_tol o)) (Hlt : lo_l1_tol params = Fin (ro_l1_tol o)) (Hmu : lo_mu params = Fin (ro_mu o)) (Hmax : ro_max o = n_fuel params).
Context (Hcg : ro_cg o = 1 / 2 \/ (m <= Z.to_nat (lo_cg_maxiter params))%nat /\ lo_cg_tol params = Fin (ro_cg o) /\ 0 <= ro_cg o).
Notation sf := (strictly_feasible Ar bv e).

Lemma stepk_E alpha (s : R) k : @ls_stepk ER (@mkLSP ER alpha (@lit ER 1 2) (Fin s)) k = Fin (s * (1 / 2) ^ k).
Proof.
  induction k as [|k IH]; cbn [ls_stepk Rpow_def.pow]; [cbn [lsp_s]; f_equal; lra|]. rewrite IH. cbn [lsp_beta]. rewrite half_E. cbn [mul ER er_mul]. f_equal. lra.
Qed.
Lemma pow_half k : 0 < (1 / 2) ^ k <= 1.
Proof. induction k as [|k IH]; cbn [Rpow_def.pow]; lra. Qed.

(** the state between two iterations of a stage *)
Definition nfin (first : bool) (gp x u : list R) (v : @nst ER) : Prop :=
  nx_ v = fin x /\ nu_ v = fin u /\ length x = m /\ length u = m /\
  (exists dx, ndx_ v = fin dx /\ length dx = m) /\ (ndu_ v = fin gp /\ length gp = m) /\ (exists st, nstep_ v = Fin st) /\
  nl1_ v = (if first then PInf else Fin (nrm1 x)).
Lemma iter_E tau first du1 x u (v : @nst ER) : 0 < tau -> sf x u -> nfin first du1 x u v ->
  exists it, it_x it = x /\ it_u it = u /\ good_iteration m Ar bv e o tau first du1 it /\
    let '(b, w) := @n_iter ER m n A B C (fin bv) params (Fin tau) v in
    (b = true <-> it_end it <> Goes_on) /\
    nx_ w = fin (new_x it) /\ nu_ w = fin (new_u it) /\ length (new_x it) = m /\ length (new_u it) = m /\ sf (new_x it) (new_u it) /\
    (ndu_ w = fin (it_g it) /\ length (it_g it) = m) /\ (exists st, nstep_ w = Fin st) /\
    (b = false -> nfin false (it_g it) (new_x it) (new_u it) w).
Proof.
  intros Ht HF (Ex & Eu & Lx & Lu & (dx1 & Edx & Ldx1) & (Edu & Ldu1) & (st & Est) & El1).
  assert (H0 : exists dx0, @i_dx0 ER m params v = fin dx0 /\ length dx0 = m).
  { unfold i_dx0. rewrite Edx, Est. rewrite zero_E. destruct (Z.eqb _ _); [|destruct (Z.eqb _ _)].
    - exists (@scal_of RN m 0 dx1). split; [apply scal_fin|apply (@tab_length RN)].
    - exists (@scal_of RN m st dx1). split; [apply scal_fin|apply (@tab_length RN)].
    - eauto. }
  destruct H0 as (dx0 & Edx0 & Ldx0).
  destruct (dir_E m n A B C Ar Br bv e HL HB Lb HA HBf HCf tau Ht x u Lx Lu HF (@i_prm ER params) dx0 du1 Ldx0 Ldu1)
    as (d & g & rho & sol & Ed & Eg & Ld & Lg & Lr & Hsol & Huns).
  set (lam := - (dot (gxl m Ar Br bv e tau x u) d + dot (gul m tau x u) g)).
  assert (Id : @i_dx ER m n A B C (fin bv) params (Fin tau) v = fin d). { unfold i_dx. rewrite Ex, Eu, He, Edx0. exact Ed. }
  assert (Ig : @i_du ER m n A B C (fin bv) params (Fin tau) v = fin g). { unfold i_du. rewrite Ex, Eu, He, Edx0, Edu. exact Eg. }
  assert (IG : @i_g ER m n A B C (fin bv) params (Fin tau) v = Fin (- lam)).
  { unfold i_g. rewrite Id, Ig, Ex, Eu, He.
    rewrite (g1_E m n A B Ar Br bv e HL HA HBf tau Ht x u Lx HF), (g2_E m Ar bv e tau Ht x u Lx HF).
    rewrite !dot_fin, !dot_of_ip. cbn [add ER er_add]. f_equal. rewrite !ip_dot by (first [apply gxl_length|apply gul_length]). unfold lam. lra. }
  destruct (maxstep_strict m n A Ar bv e HL HA Lb x u d g Lx Lu Ld Lg HF) as (s & Es & Hs & Hall).
  assert (IS : @i_smax ER m n A B C (fin bv) params (Fin tau) v = Fin s). { unfold i_smax. rewrite Id, Ig, Ex, Eu, He. exact Es. }
  pose (stp := fun k => s * (1 / 2) ^ k).
  assert (Hstp : forall k, 0 < stp k <= s). { intros k. unfold stp. pose proof (pow_half k). nra. }
  assert (ILS : forall k, @ls_stepk ER (@i_ls ER m n A B C (fin bv) params (Fin tau) v) k = Fin (stp k)). { intros k. unfold i_ls. rewrite IS. apply stepk_E. }
  assert (TX : forall k, @axpy_of ER m (Fin (stp k)) (fin d) (fin x) = fin (along x d (stp k))). { intros k. etransitivity; [apply axpy_fin|]. f_equal. by apply axpy_vlin. }
  assert (TU : forall k, @axpy_of ER m (Fin (stp k)) (fin g) (fin u) = fin (along u g (stp k))). { intros k. etransitivity; [apply axpy_fin|]. f_equal. by apply axpy_vlin. }
  assert (TF : forall k, sf (along x d (stp k)) (along u g (stp k))). { intros k. apply Hall. specialize (Hstp k). lra. }
  pose (Fb := barrier Ar bv e tau).
  assert (TV : forall k, @n_fval ER m n A (fin bv) (Fin e) (Fin tau) (fin (along x d (stp k))) (fin (along u g (stp k))) = Fin (Fb (along x d (stp k)) (along u g (stp k)))).
  { intros k. apply (fval_strict m n A Ar bv e HL HA Lb); [lra|by rewrite along_length|by rewrite along_length|apply TF]. }
  assert (TV0 : @n_fval ER m n A (fin bv) (Fin e) (Fin tau) (fin x) (fin u) = Fin (Fb x u)) by (apply (fval_strict m n A Ar bv e HL HA Lb); [lra|done|done|done]).
  pose (acc := fun k => Rleb (Fb (along x d (stp k)) (along u g (stp k))) (Fb x u - 1 / 100 * stp k * lam)).
  assert (ELS : @n_ls ER m n A (fin bv) params (Fin tau) (Fin (- lam)) (@i_ls ER m n A B C (fin bv) params (Fin tau) v) (fin x) (fin u) (fin d) (fin g) = P_Newt3.first acc 0 32).
  { assert (FE : forall p q : nat -> bool, (forall k, p k = q k) -> forall k f, P_Newt3.first p k f = P_Newt3.first q k f).
    { intros p q H k f. revert k. induction f as [|f IH]; intros k; cbn [P_Newt3.first]; [done|]. rewrite H. destruct (q k); [done|apply IH]. }
    unfold n_ls. apply FE. intros k. rewrite ILS, He, TX, TU, TV, TV0. unfold ls_flink. rewrite ILS. cbn [isnan ER er_isnan negb andb leb_].
    unfold i_ls. cbn [lsp_alpha]. change (@lit ER 1 100) with (Fin (1 / 100)). cbn [mul add ER er_mul er_add er_leb]. unfold acc. f_equal. lra. }
  assert (Lxa : forall k, length (along x d (stp k)) = m) by (intros; by rewrite along_length).
  assert (Lua : forall k, length (along u g (stp k)) = m) by (intros; by rewrite along_length).
  assert (GD : decrement (barrier Ar bv e tau) x u d g lam).
  { exists (gxl m Ar Br bv e tau x u), (gul m tau x u). split; [|done]. apply (gradient m n Ar Br bv e tau HL HB); [lra|done|done|done]. }
  assert (GN : sol = true -> newton_direction_upto m sf Fb x u d g rho /\
    exists g0 rho0, length g0 = m /\ length rho0 = m /\ newton_direction_upto m sf Fb x u (repeat 0 m) g0 rho0 /\ nrm2 rho <= ro_cg o * nrm2 rho0).
  { intros E. destruct (Hsol E) as (-> & -> & H1 & H2). split; [exact (upto_R m n Ar Br bv e HL HB Lb tau Ht x u Lx Lu HF d Ld)|].
    exists (duR m tau x u (repeat 0 m)), (rhoR m n Ar Br bv e tau x u (repeat 0 m)).
    split; [apply duR_len|]. split; [apply rhoR_len|]. split; [apply (upto_R m n Ar Br bv e HL HB Lb tau Ht x u Lx Lu HF); apply repeat_length|].
    destruct Hcg as [->|(C1 & C2 & C3)]; [exact H1|]. by apply H2. }
  assert (GU : sol = false -> g = du1 /\ exists g0 rho0 g1 rho1, length g0 = m /\ length rho0 = m /\ length g1 = m /\ length rho1 = m /\
      newton_direction_upto m sf Fb x u (repeat 0 m) g0 rho0 /\ newton_direction_upto m sf Fb x u d g1 rho1 /\ 1 / 2 * nrm2 rho0 < nrm2 rho1).
  { intros E. destruct (Huns E) as [Eg1 Hu2]. split; [done|]. exists (duR m tau x u (repeat 0 m)), (rhoR m n Ar Br bv e tau x u (repeat 0 m)), (duR m tau x u d), (rhoR m n Ar Br bv e tau x u d).
    split; [apply duR_len|]. split; [apply rhoR_len|]. split; [apply duR_len|]. split; [apply rhoR_len|].
    split; [apply (upto_R m n Ar Br bv e HL HB Lb tau Ht x u Lx Lu HF); apply repeat_length|].
    split; [exact (upto_R m n Ar Br bv e HL HB Lb tau Ht x u Lx Lu HF d Ld)|done]. }
  unfold n_iter. rewrite IG, Ex, Eu, Id, Ig, ELS. destruct (P_Newt3.first acc 0 32) as [k|] eqn:EK.
  2:{ (* the search failed *)
    pose proof (first_none _ _ _ EK) as HN.
    exists (mkIt x u d g 0 lam rho sol Search_failed). split; [done|]. split; [done|]. split.
    { split; cbn [it_x it_u it_d it_g it_t it_lam it_rho it_solved it_end]; try done.
      - intros _. exists s. split; [done|]. intros k Hk. cbv zeta. specialize (HN k ltac:(lia)). unfold acc, Rleb in HN. destruct (Rle_dec _ _) as [|Hn]; [done|].
        apply Rnot_le_lt in Hn. exact Hn.
      - split; [done|]. intros [Q _]. done.
      - split; [done|]. intros [Q _]. done. }
    cbn [it_end new_x new_u it_x it_u nx_ nu_ ndu_ nstep_]. unfold new_x, new_u. cbn [it_end it_x it_u].
    split; [done|]. split; [done|]. split; [done|]. split; [done|]. split; [done|]. split; [done|]. split; [done|]. split; [rewrite ILS; eauto|]. done. }
  destruct (first_some _ _ _ _ EK) as (_ & HK & _). unfold acc, Rleb in HK. destruct (Rle_dec _ _) as [HK'|]; [|done]. clear HK.
  rewrite ILS, TX, TU.
  assert (E2 : @two ER = Fin 2). { unfold two. by rewrite ofZ_ER. }
  assert (ED : @ltb_ ER (@div ER (@opp ER (Fin (- lam))) (@two ER)) (lo_newton_tol params) = Rltb (lam / 2) (ro_newton_tol o)).
  { rewrite E2, Hnt. cbn [opp div ER er_opp]. rewrite div_fin by lra. cbn [ltb_ ER er_ltb]. f_equal. lra. }
  rewrite ED. clear ED.
  assert (EA : @asum_of ER m (fin (along x d (stp k))) = Fin (nrm1 (along x d (stp k)))) by (by apply asum_ER).
  assert (N1 : 0 <= nrm1 (along x d (stp k))) by (apply Rsum_nonneg; intros; apply Rabs_pos).
  assert (ERt : @ltb_ ER (@div ER (@fabs ER (@sub ER (nl1_ v) (@asum_of ER m (fin (along x d (stp k)))))) (@asum_of ER m (fin (along x d (stp k))))) (lo_l1_tol params) = true <->
    first = false /\ 0 < nrm1 (along x d (stp k)) /\ Rabs (nrm1 x - nrm1 (along x d (stp k))) / nrm1 (along x d (stp k)) < ro_l1_tol o).
  { rewrite EA, El1, Hlt. set (a := nrm1 (along x d (stp k))) in *. destruct first.
    - split; [|by intros [? _]]. intros Q. exfalso. revert Q. cbn. destruct (Rle_dec 0 a); done.
    - change (@sub ER (Fin (nrm1 x)) (Fin a)) with (Fin (nrm1 x + - a)). cbn [fabs ER er_abs div].
      destruct (Req_dec a 0) as [Z|Z].
      + rewrite Z. split; [|intros (_ & ? & _); lra]. intros Q. exfalso. revert Q. cbn [er_div]. destruct (Req_EM_T 0 0); [|done].
        destruct (Req_EM_T _ 0); [done|]. destruct (Rlt_dec 0 _) as [|Hn]; [done|]. exfalso. pose proof (Rabs_pos (nrm1 x + - 0)). lra.
      + rewrite div_fin by done. cbn [ltb_ ER er_ltb]. unfold Rltb, Rminus. destruct (Rlt_dec _ _); split; try done; intros; [split; [done|]; split; [lra|done]|naive_solver]. }
  pose (why := if Rltb (lam / 2) (ro_newton_tol o) then Small_decrement
               else if @ltb_ ER (@div ER (@fabs ER (@sub ER (nl1_ v) (@asum_of ER m (fin (along x d (stp k)))))) (@asum_of ER m (fin (along x d (stp k))))) (lo_l1_tol params) then Little_change else Goes_on).
  assert (Wf : why <> Search_failed) by (unfold why; repeat case_match; done).
  exists (mkIt x u d g (stp k) lam rho sol why). split; [done|]. split; [done|].
  assert (NX : new_x (mkIt x u d g (stp k) lam rho sol why) = along x d (stp k)) by (unfold new_x; cbn [it_end it_x it_d it_t]; destruct why; done).
  assert (NU : new_u (mkIt x u d g (stp k) lam rho sol why) = along u g (stp k)) by (unfold new_u; cbn [it_end it_u it_g it_t]; destruct why; done).
  split.
  { split; rewrite ?NX, ?NU; cbn [it_x it_u it_d it_g it_t it_lam it_rho it_solved it_end]; try done.
    - intros _. split; [specialize (Hstp k); lra|]. split; [apply TF|exact HK'].
    - unfold why. unfold Rltb. destruct (Rlt_dec _ _); [split; [intros _; split; [by destruct (@ltb_ ER _ _)|done]|done]|].
      split; [by destruct (@ltb_ ER _ _)|]. intros [_ Q]. lra.
    - rewrite <- ERt. clear ERt. unfold why, Rltb. destruct (Rlt_dec _ _) as [|Hn]; [split; [done|]; intros (_ & Q & _); lra|]. apply Rnot_lt_le in Hn.
      destruct (@ltb_ ER _ _); split; try done. intros (_ & _ & Q). done. }
  rewrite NX, NU. cbn [it_end].
  assert (R1 : (fin g = fin g /\ length g = m) /\ (exists st0, Fin (stp k) = Fin st0)) by (split; eauto). destruct R1 as [R1 R2].
  unfold why. destruct (Rltb (lam / 2) (ro_newton_tol o)); cbn [nx_ nu_ ndu_ nstep_].
  - split; [done|]. split; [done|]. split; [done|]. split; [apply Lxa|]. split; [apply Lua|]. split; [apply TF|]. split; [done|]. split; [done|]. done.
  - split; [by destruct (@ltb_ ER _ _)|]. split; [done|]. split; [done|]. split; [apply Lxa|]. split; [apply Lua|]. split; [apply TF|]. split; [done|]. split; [done|].
    intros _. unfold nfin. cbn [nx_ nu_ ndx_ ndu_ nstep_ nl1_]. split; [done|]. split; [done|]. split; [apply Lxa|]. split; [apply Lua|]. split; [eauto|]. split; [eauto|]. split; [eauto|exact EA].
Qed.

Lemma loop_E tau fuel : forall first gp x u (v : @nst ER), 0 < tau -> sf x u -> nfin first gp x u v ->
  exists l gp' x' u', stage m Ar bv e o tau first fuel gp x u l gp' x' u' /\ sf x' u' /\ length x' = m /\ length u' = m /\
    let '(b, k, w) := @n_loop ER m n A B C (fin bv) params (Fin tau) fuel v in
    length l = k /\ nx_ w = fin x' /\ nu_ w = fin u' /\ (ndu_ w = fin gp' /\ length gp' = m) /\ (exists st, nstep_ w = Fin st).
Proof.
  induction fuel as [|fuel IH]; intros first gp x u v Ht HF HV.
  - exists [], gp, x, u. split; [constructor|]. destruct HV as (Ex & Eu & Lx & Lu & _ & Hdu & Hst & _). cbn [n_loop]. done.
  - destruct (iter_E tau first gp x u v Ht HF HV) as (it & Ix & Iu & GI & H). cbn [n_loop].
    destruct (@n_iter ER m n A B C (fin bv) params (Fin tau) v) as [b w]. destruct H as (Hb & Ex & Eu & Lx & Lu & HF' & Hdu & Hst & Hn). destruct b.
    + exists [it], (it_g it), (new_x it), (new_u it). split; [apply stage_stop; try done; by apply Hb|]. done.
    + assert (Hgo : it_end it = Goes_on). { destruct (it_end it); try done; exfalso; assert (false = true) by (apply Hb; done); done. }
      destruct (IH false (it_g it) (new_x it) (new_u it) w Ht HF' (Hn eq_refl)) as (l & gp' & x' & u' & HS & HF2 & Lx' & Lu' & H).
      exists (it :: l), gp', x', u'. split; [by apply stage_next|]. split; [done|]. split; [done|]. split; [done|].
      destruct (@n_loop ER m n A B C (fin bv) params (Fin tau) fuel w) as [[b' k] w']. destruct H as (Hl & H). split; [cbn [length]; by rewrite Hl|done].
Qed.
(** the state between two stages *)
Definition lfin (tau : R) (gp x u : list R) (l : @lst ER) : Prop :=
  lx_ l = fin x /\ lu_ l = fin u /\ length x = m /\ length u = m /\ (ldu_ l = fin gp /\ length gp = m) /\ ltau_ l = Fin tau /\ (exists st, lstep_ l = Fin st).
Lemma stage_E tau gp x u l : 0 < tau -> sf x u -> lfin tau gp x u l ->
  exists its gp' x' u', stage m Ar bv e o tau true (ro_max o) gp x u its gp' x' u' /\ sf x' u' /\
    lfin (tau * ro_mu o) gp' x' u' (@n_stage ER m n A B C (fin bv) params l) /\ (lcalls_ (@n_stage ER m n A B C (fin bv) params l) = lcalls_ l + length its)%nat.
Proof.
  intros Ht HF (Ex & Eu & Lx & Lu & (Edu & Ldu) & Et & (st & Est)).
  destruct (loop_E tau (n_fuel params) true gp x u (@n_start ER m l) Ht HF) as (its & gp' & x' & u' & HS & HF' & Lx' & Lu' & H).
  { unfold nfin, n_start. cbn [nx_ nu_ ndx_ ndu_ nstep_ nl1_]. split; [done|]. split; [done|]. split; [done|]. split; [done|]. split.
    - exists (@const_of RN m 0). split; [|apply (@tab_length RN)]. unfold const_of. rewrite zero_E. apply (tab_fin m (fun _ => 0)).
    - split; [eauto|]. split; [eauto|done]. }
  exists its, gp', x', u'. rewrite Hmax. split; [done|]. split; [done|]. unfold n_stage. rewrite Et.
  destruct (@n_loop ER m n A B C (fin bv) params (Fin tau) (n_fuel params) (@n_start ER m l)) as [[b k] w]. destruct H as (Hl & Ewx & Ewu & Hdu & Hst).
  unfold lfin. cbn [lx_ lu_ ldu_ ltau_ lstep_ lcalls_]. split; [|by rewrite Hl]. split; [done|]. split; [done|]. split; [done|]. split; [done|]. split; [done|]. split; [|done].
  rewrite Hmu. done.
Qed.
Lemma n_lb_shift k l : @n_lb ER m n A B C (fin bv) params (S k) l = @n_lb ER m n A B C (fin bv) params k (@n_stage ER m n A B C (fin bv) params l).
Proof. induction k as [|k IH]; [done|]. change (@n_stage ER m n A B C (fin bv) params (@n_lb ER m n A B C (fin bv) params (S k) l) = @n_stage ER m n A B C (fin bv) params (@n_lb ER m n A B C (fin bv) params k (@n_stage ER m n A B C (fin bv) params l))). by rewrite IH. Qed.
Lemma run_E k : 0 < ro_mu o -> forall tau gp x u l, 0 < tau -> sf x u -> lfin tau gp x u l ->
  exists ls gp' x' u', run m Ar bv e o tau gp x u ls x' u' /\ length ls = k /\ sf x' u' /\
    lfin (tau * ro_mu o ^ k) gp' x' u' (@n_lb ER m n A B C (fin bv) params k l) /\
    (lcalls_ (@n_lb ER m n A B C (fin bv) params k l) = lcalls_ l + length (concat ls))%nat.
Proof.
  intros Pmu. induction k as [|k IH]; intros tau gp x u l Ht HF HV.
  - exists [], gp, x, u. split; [constructor|]. split; [done|]. split; [done|]. cbn [n_lb Rpow_def.pow concat length]. rewrite Rmult_1_r. split; [done|lia].
  - destruct (stage_E tau gp x u l Ht HF HV) as (its & gp1 & x1 & u1 & HS & HF1 & HV1 & Hc1).
    destruct (IH (tau * ro_mu o) gp1 x1 u1 _ ltac:(nra) HF1 HV1) as (ls & gp' & x' & u' & HR & Hl & HF' & HV' & Hc').
    exists (its :: ls), gp', x', u'. split; [by eapply run_next|]. split; [cbn [length]; by rewrite Hl|]. split; [done|]. rewrite n_lb_shift.
    cbn [Rpow_def.pow concat]. rewrite <- Rmult_assoc. split; [done|]. rewrite Hc', Hc1, app_length. lia.
Qed.
End run.
