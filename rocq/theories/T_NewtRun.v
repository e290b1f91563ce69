(** * C82, C83: a run of l1c_l1qc_newton in exact arithmetic, and how good its result is (src/l1qc_newton.c). *)
From Coq Require Import ZArith Lia Reals Lra Psatz.
From stdpp Require Import base numbers gmap list.
From Flocq Require Import Core.Raux.
From Interval Require Import Tactic.
From Verif Require Import Mem M_Math M_CG M_LineSearch M_Status M_Newton P_Mem P_Loop P_Math P_MathR P_TVR S_Mem P_Touch P_Own P_Own2 P_CG
  P_Newton P_Newt2 P_Newt3 P_Newt5 P_Newt7 P_Newt8 L_Sum S_Vec L_Lin L_ER P_CGR S_Newt S_NewtRun P_NewtX P_NewtX2 P_NewtX3 L_Barrier L_Cert P_NewtR P_NewtRun P_NewtRun2 E_Sub T_Newton.
From Verif Require Import S_Newt.
Local Open Scope R_scope.

(** the options as the run sees them.  What CG may leave over: one half, the most that the solver accepts
    (cgres > 0.5 is refused); or cg_tol, when CG may take m steps *)
Definition options_of (m : nat) (params : @L1qcOpts ER) (o : run_opts) : Prop :=
  lo_mu params = Fin (ro_mu o) /\ lo_newton_tol params = Fin (ro_newton_tol o) /\ lo_l1_tol params = Fin (ro_l1_tol o) /\
  ro_max o = Z.to_nat (lo_newton_max_iter params - 1) /\
  (ro_cg o = 1 / 2 \/ (Z.of_nat m <= lo_cg_maxiter params)%Z /\ lo_cg_tol params = Fin (ro_cg o) /\ 0 <= ro_cg o).
(** the operators compute a matrix, its transpose and the product of the two *)
Definition computes (m n : nat) (A B C : list er -> list er) (Ar Br : list R -> list R) : Prop :=
  linmap m n Ar /\ adjoint m n Ar Br /\
  (forall v, length v = m -> A (fin v) = fin (Ar v)) /\ (forall v, length v = n -> B (fin v) = fin (Br v)) /\
  (forall v, length v = m -> C (fin v) = fin (Br (Ar v))).

(** ** C82 *)
Theorem C82_run m n A B C Ax Aty AtAx F J (bv x : list R) (e : R) Ar Br (params : @L1qcOpts ER) o c bx bb (s : @st ER) tau stages :
  @qc_call ER m n A B C Ax Aty AtAx F J (fin bv) c bx bb (fin x) s -> u_granted s -> work_granted s ->
  @starts ER m (fin x) params tau stages -> @counts_fit ER params stages ->
  computes m n A B C Ar Br -> lo_epsilon params = Fin e -> options_of m params o -> 0 < ro_mu o ->
  (exists i, nth i x 0 <> 0) -> nrm2 (resid Ar bv x) < e ->
  exists r s' u x' u' ls,
    @solve ER m n bx bb params Ax Aty AtAx s = Ok r s' /\ lb_status r = L1C_SUCCESS /\
    @seg ER s' (Ptr bx 0) (fin x') /\ length x' = m /\ lb_l1 r = Fin (nrm1 x') /\
    strictly_feasible Ar bv e x u /\ length u = m /\
    run m Ar bv e o (Rmax (gap m (nrm1 x)) 1) (repeat 0 m) x u ls x' u' /\ Z.of_nat (length ls) = Z.max 0 stages /\
    (* one call of Aty for each iteration of the run *)
    J (c + length (concat ls))%nat s'.
Proof.
  intros [HO HC Hm Hnm Hf] Hu Hw Hi Hct (HL & HB & HA & HBf & HCf) He (Omu & Ont & Olt & Omax & Ocg) Pmu Hx0 Hfeas.
  pose proof (@newton_run ER m n A B C Ax Aty AtAx F J HO (fin bv) params s c bx bb (fin x) HC Hm Hnm Hf) as H. cbv zeta in H.
  rewrite Hu in H. cbn [negb] in H. rewrite Hi in H. destruct H as [_ H]. specialize (H Hw). rewrite He in H.
  assert (Lx : length x = m) by (pose proof (@nc_lx _ _ _ _ _ _ _ _ _ _ _ HC) as Q; by rewrite fin_length in Q).
  assert (Lb : length bv = n) by (pose proof (@nc_lb _ _ _ _ _ _ _ _ _ _ _ HC) as Q; by rewrite fin_length in Q).
  pose proof (infeasible_ER m n A Ar bv e HL HA x Lx) as HI.
  destruct (@n_infeasible ER n A (fin bv) (Fin e) (fin x)). { exfalso. pose proof (proj1 HI eq_refl). lra. }
  clear HI. destruct (H Hct) as (s' & E & Sx & Ll & _ & _ & HJ). set (l0 := @n_begin ER m (fin x) tau c) in *.
  destruct (u0_ER m x Hm Lx) as (u & Eu & Lu & Hu1 & _).
  assert (Et : tau = Fin (Rmax (gap m (nrm1 x)) 1)).
  { assert (Q : tau = @n_tau0 ER m (fin x)). { unfold starts, n_init in Hi. destruct (Z.eqb _ _); [destruct (n_stages _ _ _ _); [|done]|]; by injection Hi as <- _. }
    rewrite Q. apply tau0_ER; done. }
  assert (Pt : 0 < Rmax (gap m (nrm1 x)) 1) by (pose proof (Rmax_r (gap m (nrm1 x)) 1); lra).
  assert (HF : strictly_feasible Ar bv e x u) by (split; [intros i Hi'; apply Hu1; [done|lia]|done]).
  assert (HV : lfin m (Rmax (gap m (nrm1 x)) 1) (repeat 0 m) x u l0).
  { unfold lfin, l0, n_begin. cbn [lx_ lu_ ldu_ ltau_ lstep_]. split; [done|]. split; [done|]. split; [done|]. split; [done|]. split.
    - split; [|apply repeat_length]. unfold const_of, tab, fin. rewrite zero_E. clear. generalize 0%nat. induction m as [|k IH]; intros j; cbn [seq fmap list_fmap repeat map]; [done|]. f_equal. apply IH.
    - split; [done|]. rewrite zero_E. eauto. }
  assert (Ocg' : ro_cg o = 1 / 2 \/ (m <= Z.to_nat (lo_cg_maxiter params))%nat /\ lo_cg_tol params = Fin (ro_cg o) /\ 0 <= ro_cg o).
  { destruct Ocg as [|(Q1 & Q2)]; [by left|right]. split; [lia|done]. }
  destruct (run_E m n A B C Ar Br bv e params HL HB Lb Hm HA HBf HCf He o Ont Olt Omu Omax Ocg' (Z.to_nat stages) Pmu _ _ x u l0 Pt HF HV)
    as (ls & gp' & x' & u' & HR & Hls & HF' & HV' & Hc').
  set (l := @n_lb ER m n A B C (fin bv) params (Z.to_nat stages) l0) in *. destruct HV' as (Elx & _ & Lx' & _).
  rewrite Elx in E, Sx. eexists _, s', u, x', u', ls. split; [exact E|]. split; [done|]. split; [exact Sx|]. split; [done|]. split; [cbn; by apply asum_ER|].
  split; [done|]. split; [done|]. split; [exact HR|]. split; [lia|]. rewrite Hc' in HJ. exact HJ.
Qed.

(** ** C83 *)
Lemma dot_CS v w : length v = length w -> dot v w <= nrm2 v * nrm2 w.
Proof.
  intros L. unfold dot, nrm2. rewrite <- sqrt_mult by (apply Rsum_nonneg; intros; apply pow2_ge_0).
  pose proof (Rsum_CS (length v) (fun i => nth i v 0) (fun i => nth i w 0)) as Q. cbv beta in Q.
  set (D := Rsum (length v) (fun i => nth i v 0 * nth i w 0)) in *. destruct (Rle_or_lt D 0) as [Hd|Hd].
  - pose proof (sqrt_pos (nrm2sq v * nrm2sq w)). lra.
  - rewrite <- (sqrt_pow2 D) by lra. apply sqrt_le_1_alt. unfold nrm2sq. rewrite <- L. exact Q.
Qed.
(** how far above the optimal value the new point of a Newton iteration can be: delta bounds the Newton
    decrement in the units of tau * barrier, rho is what CG left over *)
Theorem C83_certificate m n A B b e tau x u d g rho lam t delta y :
  linmap m n A -> adjoint m n A B -> length b = n -> 0 < tau ->
  length x = m -> length u = m -> length d = m -> length g = m -> length rho = m -> strictly_feasible A b e x u ->
  newton_direction_upto m (strictly_feasible A b e) (barrier A b e tau) x u d g rho -> decrement (barrier A b e tau) x u d g lam ->
  0 <= t <= 1 -> 0 <= delta < 1 -> tau * (lam + dot rho d) <= delta * delta ->
  length y = m -> nrm2 (resid A b y) <= e ->
  nrm1 (along x d t) <= nrm1 y + (2 * INR m + 1 + R_sqrt.sqrt (2 * INR m + 1) * delta + delta * delta / (2 * (1 - delta))) / tau +
    nrm2 rho * nrm2 (vlin 1 (along x d t) (-1) y).
Proof.
  intros HL HB Lb Ht Lx Lu Ld Lg Lr HF HN HD Hst Hdl Hlam Ly Hy.
  pose proof (certificate m n A B b e tau HL HB Ht Lb x u d g rho Lx Lu Ld Lg Lr HF lam t delta y HN HD Hst Hdl Hlam Ly Hy) as Q.
  pose proof (dot_CS rho (vlin 1 (along x d t) (-1) y)) as Q1. rewrite vlin_length, along_length in Q1 by lia. specialize (Q1 ltac:(lia)).
  assert (Q2 : (2 * INR m + 1 + (1 - t) * (R_sqrt.sqrt (2 * INR m + 1) * delta) + delta * delta / (2 * (1 - delta))) / tau <=
               (2 * INR m + 1 + R_sqrt.sqrt (2 * INR m + 1) * delta + delta * delta / (2 * (1 - delta))) / tau).
  { apply Rmult_le_compat_r; [apply Rlt_le, Rinv_0_lt_compat; lra|]. assert (0 <= R_sqrt.sqrt (2 * INR m + 1) * delta) by (apply Rmult_le_pos; [apply sqrt_pos|lra]). nra. }
  lra.
Qed.
Lemma stage_last m A b e o tau first k gp x u l i gp' x' u' : stage m A b e o tau first k gp x u (l ++ [i]) gp' x' u' ->
  x' = new_x i /\ exists f p, good_iteration m A b e o tau f p i.
Proof.
  revert first k gp x u. induction l as [|j l IH]; intros first k gp x u H; cbn [app] in H; inversion H; subst.
  - split; [done|]. eauto.
  - match goal with Q : stage _ _ _ _ _ _ _ _ _ _ _ [] _ _ _ |- _ => inversion Q; subst end. split; [done|]. eauto.
  - by destruct l.
  - eauto.
Qed.
Lemma run_last m A b e o tau gp x u ls l i x' u' : run m A b e o tau gp x u (ls ++ [l ++ [i]]) x' u' ->
  x' = new_x i /\ exists f p, good_iteration m A b e o (tau * ro_mu o ^ length ls) f p i.
Proof.
  revert tau gp x u. induction ls as [|j ls IH]; intros tau gp x u H; cbn [app] in H; inversion H; subst.
  - match goal with Q : run _ _ _ _ _ _ _ _ _ [] _ _ |- _ => inversion Q; subst end. cbn [length Rpow_def.pow]. rewrite Rmult_1_r. by eapply stage_last.
  - cbn [length Rpow_def.pow]. rewrite <- Rmult_assoc. eauto.
Qed.
(** the result of a run whose last iteration i moved the point along an accepted direction: the last stage
    has the parameter tau * mu^(stages - 1) *)
Theorem C83_result m n A B b e o tau gp x u ls l i x' u' delta y :
  linmap m n A -> adjoint m n A B -> length b = n -> 0 < tau -> 0 < ro_mu o ->
  run m A b e o tau gp x u (ls ++ [l ++ [i]]) x' u' -> it_end i <> Search_failed -> it_solved i = true ->
  let tl := tau * ro_mu o ^ length ls in
  0 <= delta < 1 -> tl * (it_lam i + dot (it_rho i) (it_d i)) <= delta * delta ->
  length y = m -> nrm2 (resid A b y) <= e ->
  nrm1 x' <= nrm1 y + (2 * INR m + 1 + R_sqrt.sqrt (2 * INR m + 1) * delta + delta * delta / (2 * (1 - delta))) / tl +
    nrm2 (it_rho i) * nrm2 (vlin 1 x' (-1) y).
Proof.
  intros HL HB Lb Ht Hmu HR He Hs tl Hdl Hlam Ly Hy. destruct (run_last _ _ _ _ _ _ _ _ _ _ _ _ _ _ HR) as (Ex & f & p & HG). fold tl in HG.
  assert (Htl : 0 < tl) by (apply Rmult_lt_0_compat; [done|by apply pow_lt]).
  destruct HG as [(Lx & Lu & Ld & Lg & Lr) HF HD HN _ HS _ _ _]. destruct (HN Hs) as [HN' _]. destruct (HS He) as (Hst & _).
  assert (En : x' = along (it_x i) (it_d i) (it_t i)). { rewrite Ex. unfold new_x. by destruct (it_end i). }
  rewrite En. apply (C83_certificate m n A B b e tl (it_x i) (it_u i) (it_d i) (it_g i) (it_rho i) (it_lam i) (it_t i) delta y); try done. lra.
Qed.
(** CG leaves nothing over and the stage ended because the decrement is small: with the number of stages
    chosen by the solver the result is within about mu * lbtol of the optimum, as long as
    2 * newton_tol * tau < 1 in the last stage *)
Theorem C83_small_decrement m n A B b e o tau gp x u ls l i x' u' y lbtol :
  linmap m n A -> adjoint m n A B -> length b = n -> 0 < tau -> 0 < ro_mu o ->
  run m A b e o tau gp x u (ls ++ [l ++ [i]]) x' u' -> it_end i = Small_decrement -> it_solved i = true -> ro_cg o = 0 ->
  let tl := tau * ro_mu o ^ length ls in
  gap m tl <= ro_mu o * lbtol -> 2 * ro_newton_tol o * tl <= 1 / 4 ->
  length y = m -> nrm2 (resid A b y) <= e ->
  nrm1 x' <= nrm1 y + 2 * (ro_mu o * lbtol).
Proof.
  intros HL HB Lb Ht Hmu HR He Hs Hcg tl Hgap Htol Ly Hy. destruct (run_last _ _ _ _ _ _ _ _ _ _ _ _ _ _ HR) as (Ex & f & p & HG). fold tl in HG.
  assert (Htl : 0 < tl) by (apply Rmult_lt_0_compat; [done|by apply pow_lt]).
  assert (Q := C83_result m n A B b e o tau gp x u ls l i x' u' (1 / 2) y HL HB Lb Ht Hmu HR ltac:(by rewrite He) Hs). cbv zeta in Q. fold tl in Q.
  destruct (gi_newton _ _ _ _ _ _ _ _ _ HG Hs) as (_ & g0 & rho0 & _ & _ & _ & Hrho). rewrite Hcg, Rmult_0_l in Hrho.
  assert (Hr0 : nrm2 (it_rho i) = 0) by (unfold nrm2 in *; pose proof (sqrt_pos (nrm2sq (it_rho i))); lra).
  destruct (gi_len _ _ _ _ _ _ _ _ _ HG) as (_ & _ & Ld & _ & Lr).
  assert (Hdot : dot (it_rho i) (it_d i) <= 0). { pose proof (dot_CS (it_rho i) (it_d i) ltac:(lia)) as Q1. rewrite Hr0 in Q1. lra. }
  destruct (proj1 (gi_dec _ _ _ _ _ _ _ _ _ HG) He) as [_ Hlam].
  assert (Q0 : nrm1 x' <= nrm1 y + (2 * INR m + 1 + R_sqrt.sqrt (2 * INR m + 1) * (1 / 2) + 1 / 2 * (1 / 2) / (2 * (1 - 1 / 2))) / tl + nrm2 (it_rho i) * nrm2 (vlin 1 x' (-1) y)).
  { apply Q; try done; [lra|]. apply (Rle_trans _ (tl * (2 * ro_newton_tol o))); [|lra]. apply Rmult_le_compat_l; lra. }
  rewrite Hr0 in Q0. unfold gap in Hgap. pose proof (pos_INR m) as Pm.
  assert (Hsq : R_sqrt.sqrt (2 * INR m + 1) <= 2 * INR m + 1). { rewrite <- (sqrt_square (2 * INR m + 1)) at 2 by lra. apply sqrt_le_1_alt. nra. }
  assert (Q3 : (2 * INR m + 1 + R_sqrt.sqrt (2 * INR m + 1) * (1 / 2) + 1 / 2 * (1 / 2) / (2 * (1 - 1 / 2))) / tl <= 2 * ((2 * INR m + 1) / tl)).
  { replace (2 * ((2 * INR m + 1) / tl)) with ((2 * (2 * INR m + 1)) / tl) by (field; lra). apply Rmult_le_compat_r; [apply Rlt_le, Rinv_0_lt_compat; lra|]. lra. }
  lra.
Qed.

(** ** Concrete cases *)
Module RunEx.
Import NewtEx.
Definition Br (y : list R) : list R := y ++ [0].
Lemma adj : adjoint 2 1 Ar Br.
Proof.
  split; [intros [|? [|]]; done|]. intros x y Lx Ly. destruct x as [|x1 [|x2 [|]]], y as [|y1 [|]]; try done. unfold dot, Ar, Br. simpl. lra.
Qed.
Lemma comp : computes 2 1 (@s_A ER 1) (@s_B ER 2 1) (@s_C ER 2 1) Ar Br.
Proof.
  split; [exact lin|]. split; [exact adj|]. split; [exact AL|]. split.
  - intros [|v1 [|]] L; try done. unfold s_B, const_of, tab. by rewrite zero_E.
  - intros [|v1 [|v2 [|]]] L; try done. unfold s_C, const_of, tab. by rewrite zero_E.
Qed.
(** x = (2,3), b = 2, eps = 1, mu = 10, all tolerances 1/100, two stages of at most 4 iterations, at most 10 CG steps *)
Definition o : run_opts := mkRun 10 (1/100) (1/100) 4 (1/100).
Example a_run : exists r s' u x' u' ls,
  @solve ER 2 1 0 1 (@opts ER (Fin 1) (Fin 10) (Fin (1/100)) 2) (@s_ax ER 1) (@s_aty ER 2 1 2) (@s_atax ER 2 1) (@s0 ER (Fin 2) (Fin 3) (Fin 2)) = Ok r s' /\
  lb_status r = L1C_SUCCESS /\ @seg ER s' (Ptr 0 0) (fin x') /\ run 2 Ar [2] 1 o 1 [0; 0] [2; 3] u ls x' u' /\ length ls = 2%nat.
Proof.
  destruct (C82_run 2 1 _ _ _ _ _ _ _ _ [2] [2; 3] 1 Ar Br (@opts ER (Fin 1) (Fin 10) (Fin (1/100)) 2) o _ _ _ _ _ _ (@call ER (Fin 2) (Fin 3) (Fin 2)) (proj1 (@granted ER _ _ _)) (proj2 (@granted ER _ _ _))
    (@begins ER _ _ _ _ _) (@fits ER _ _ _) comp eq_refl) as (r & s' & u & x' & u' & ls & E & Es & Sx & _ & _ & _ & _ & HR & Hl & _).
  - split; [done|]. split; [done|]. split; [done|]. split; [done|]. right. split; [cbn; lia|]. split; [done|]. cbn. lra.
  - cbn. lra.
  - exists 0%nat. cbn. lra.
  - rewrite res. unfold Rabs. destruct (Rcase_abs _); lra.
  - exists r, s', u, x', u', ls. split; [exact E|]. split; [done|]. split; [exact Sx|]. split; [|lia].
    replace (Rmax (gap 2 (nrm1 [2; 3])) 1) with 1 in HR; [exact HR|]. unfold gap, nrm1. simpl. rewrite !Rabs_pos_eq by lra.
    unfold Rmax. destruct (Rle_dec _ _); lra.
Qed.
(** one unknown, A the identity, b = 3, eps = 1 (the optimal value is 2); a Newton step at x = 5/2, u = 16/5 for tau = 17/10 *)
Definition idm (v : list R) : list R := v.
Lemma idlin : linmap 1 1 idm.
Proof. split; [done|]. intros a u v Lu Lv i Hi. destruct u as [|u1 [|]], v as [|v1 [|]]; try done. assert (i = 0%nat) as -> by lia. unfold idm, vlin. simpl. lra. Qed.
Lemma idadj : adjoint 1 1 idm idm. Proof. done. Qed.
Lemma sqrt_1 y : nrm2 [y] = Rabs y.
Proof. unfold nrm2, nrm2sq. simpl. rewrite <- sqrt_Rsqr_abs. f_equal. unfold Rsqr. lra. Qed.
Definition gx1 : R := -320/6783. Definition gu1 : R := 383/6783.
Definition d1 : R := -12/4235. Definition g1 : R := -83151/1694000.
Lemma sf1 : strictly_feasible idm [3] 1 [5/2] [16/5].
Proof. split. - intros i Hi. simpl in Hi. assert (i = 0%nat) as -> by lia. simpl. rewrite Rabs_pos_eq; lra.
  - unfold resid, idm, vlin. simpl. rewrite sqrt_1. unfold Rabs. destruct (Rcase_abs _); lra. Qed.
Lemma newt1 : newton_direction_upto 1 (strictly_feasible idm [3] 1) (barrier idm [3] 1 (17/10)) [5/2] [16/5] [d1] [g1] [0].
Proof.
  apply (sys_upto 1 1 idm idm [3] 1 (17/10) idlin idadj ltac:(lra) eq_refl); try done; [apply sf1| |];
    intros i Hi; assert (i = 0%nat) as -> by lia; unfold s11, s12, gx, gu, resid, dot, nrm2sq, vlin, idm, d1, g1; simpl; field.
Qed.
Lemma dec1 : decrement (barrier idm [3] 1 (17/10)) [5/2] [16/5] [d1] [g1] (75967/28798000).
Proof.
  exists [gx1], [gu1]. split.
  - assert (Q := gradient 1 1 idm idm [3] 1 (17/10) idlin idadj ltac:(lra) [5/2] [16/5] eq_refl eq_refl sf1).
    replace (gxl 1 idm idm [3] 1 (17/10) [5/2] [16/5]) with [gx1] in Q; [replace (gul 1 (17/10) [5/2] [16/5]) with [gu1] in Q; [exact Q|]|];
      unfold gxl, gul, tab; simpl; f_equal; unfold gx, gu, resid, nrm2sq, vlin, idm, gx1, gu1; simpl; field.
  - unfold dot, gx1, gu1, d1, g1. simpl. lra.
Qed.
(** after half the step the value is at most 1.88 above the optimum; (2m+1)/tau is 1.76 *)
Example a_certificate : forall y, Rabs (y - 3) <= 1 ->
  nrm1 (along [5/2] [d1] (1/2)) <= Rabs y + (3 + R_sqrt.sqrt 3 * (1/10) + 1/180) / (17/10).
Proof.
  intros y Hy.
  assert (Q := C83_certificate 1 1 idm idm [3] 1 (17/10) [5/2] [16/5] [d1] [g1] [0] _ (1/2) (1/10) [y] idlin idadj eq_refl ltac:(lra) eq_refl eq_refl eq_refl eq_refl eq_refl sf1 newt1 dec1).
  replace (2 * INR 1 + 1) with 3 in Q by (simpl; lra). replace (1/10 * (1/10) / (2 * (1 - 1/10))) with (1/180) in Q by lra.
  replace (nrm2 [0]) with 0 in Q by (rewrite sqrt_1; by rewrite Rabs_R0). replace (nrm1 [y]) with (Rabs y) in Q by (unfold nrm1; simpl; lra).
  rewrite Rmult_0_l, Rplus_0_r in Q. apply Q; try done; [lra|lra|unfold dot; simpl; lra|].
  unfold resid, idm, vlin. simpl. rewrite sqrt_1. replace (1 * y + -1 * 3) with (y - 3) by lra. done.
Qed.
(** a run of one stage that ends with this step, almost in full *)
Definition it1 : iteration := mkIt [5/2] [16/5] [d1] [g1] (99/100) (75967/28798000) [0] true Small_decrement.
Definition o1 : run_opts := mkRun 10 (1/100) (1/100) 4 0.
Lemma good1 : good_iteration 1 idm [3] 1 o1 (17/10) true [0] it1.
Proof.
  split; cbn [it1 it_x it_u it_d it_g it_t it_lam it_rho it_solved it_end]; try done.
  - exact sf1.
  - exact dec1.
  - intros _. split; [exact newt1|]. exists [-152817/3298000], [640/84099]. split; [done|]. split; [done|]. split.
    + apply (sys_upto 1 1 idm idm [3] 1 (17/10) idlin idadj ltac:(lra) eq_refl); try done; [apply sf1| |];
        intros i Hi; assert (i = 0%nat) as -> by lia; unfold s11, s12, gx, gu, resid, dot, nrm2sq, vlin, idm; simpl; field.
    + cbn [o1 ro_cg]. rewrite sqrt_1, Rabs_R0. lra.
  - intros _. split; [lra|]. unfold new_x, new_u. cbn [it1 it_x it_u it_d it_g it_t it_end]. split.
    + split.
      * intros i Hi. simpl in Hi. assert (i = 0%nat) as -> by lia. unfold d1, g1. simpl. rewrite Rabs_pos_eq; lra.
      * unfold resid, idm, along, vlin, d1. simpl. rewrite sqrt_1. unfold Rabs. destruct (Rcase_abs _); lra.
    + unfold barrier, resid, nrm2sq, along, vlin, idm, d1, g1. simpl. interval with (i_prec 60).
  - split; [|done]. intros _. split; [done|]. cbn [o1 ro_newton_tol]. lra.
  - split; [done|]. intros (_ & Q & _). cbn [o1 ro_newton_tol] in Q. lra.
Qed.
Lemma run1 : run 1 idm [3] 1 o1 (17/10) [0] [5/2] [16/5] ([] ++ [[] ++ [it1]]) (new_x it1) (new_u it1).
Proof. eapply run_next; [|apply run_done]. apply (stage_stop 1 idm [3] 1 o1 (17/10) true 3 it1 [0]); try done. apply good1. Qed.
Example a_result : forall y, Rabs (y - 3) <= 1 -> nrm1 (new_x it1) <= Rabs y + 4.
Proof.
  intros y Hy.
  assert (Q := C83_small_decrement 1 1 idm idm [3] 1 o1 (17/10) [0] [5/2] [16/5] [] [] it1 _ _ [y] (1/5) idlin idadj eq_refl ltac:(lra) ltac:(cbn; lra) run1 eq_refl eq_refl eq_refl).
  cbv zeta in Q. cbn [o1 ro_mu ro_newton_tol length Rpow_def.pow] in Q. unfold gap in Q. replace (nrm1 [y]) with (Rabs y) in Q by (unfold nrm1; simpl; lra).
  replace (2 * (10 * (1/5))) with 4 in Q by lra. apply Q; try done; [simpl; lra|lra|].
  unfold resid, idm, vlin. simpl. rewrite sqrt_1. replace (1 * y + -1 * 3) with (y - 3) by lra. done.
Qed.
End RunEx.

Print Assumptions C82_run.
Print Assumptions C83_certificate.
Print Assumptions C83_result.
Print Assumptions C83_small_decrement.
