(** * Feasibility of the iterates over the extended reals. *)
From Coq Require Import ZArith Lia Reals Lra Psatz.
From stdpp Require Import base numbers list.
From Verif Require Import Mem P_Mem P_Loop P_Math P_MathR P_TVR P_VCL L_Sum L_ER L_Lin S_Newt P_CG P_LineSearch M_Math M_CG M_LineSearch M_Newton P_Newton P_Newt2 P_Newt3 P_NewtX P_NewtX2.
Local Open Scope R_scope.

(** ** what every accepted step preserves is preserved by the whole solver *)
Section inv.
Context `{N : Num}.
Context (m n : nat) (A B C : list T -> list T) (bs : list T) (params : L1qcOpts).
Context (Pt : T -> Prop) (Inv : list T -> list T -> Prop).
Notation eps := (lo_epsilon params).
Context (Ht : forall tau, Pt tau -> Pt (mul tau (lo_mu params))).
Context (Hs : forall tau xs us dx du g alpha k, Pt tau -> Inv xs us -> length xs = m -> length us = m -> length dx = m -> length du = m ->
  let prm := mkLSP alpha (lit 1 2) (n_maxstep m n A eps (n_res n A bs xs) (n_f1 m xs us) (n_f2 m xs us) dx du) in
  n_ls m n A bs params tau g prm xs us dx du = Some k ->
  Inv (axpy_of m (ls_stepk prm k) dx xs) (axpy_of m (ls_stepk prm k) du us)).
Lemma inv_iter tau v : Pt tau -> nlen m v -> Inv (nx_ v) (nu_ v) -> let w := snd (n_iter m n A B C bs params tau v) in Inv (nx_ w) (nu_ w).
Proof.
  intros HP Hl HI. cbv zeta. unfold n_iter. destruct (n_ls _ _ _ _ _ _ _ _ _ _ _ _) as [k|] eqn:E; [|done].
  assert (Q := Hs tau (nx_ v) (nu_ v) _ _ _ _ k HP HI (proj1 Hl) (proj1 (proj2 Hl)) (i_dx_len m n A B C bs params tau v Hl) (i_du_len m n A B C bs params tau v Hl) E).
  case_match; exact Q.
Qed.
Lemma inv_loop tau fuel v : Pt tau -> nlen m v -> Inv (nx_ v) (nu_ v) ->
  forall b k w, n_loop m n A B C bs params tau fuel v = (b, k, w) -> Inv (nx_ w) (nu_ w).
Proof.
  intros HP. revert v. induction fuel as [|f IH]; intros v Hl HI b k w; cbn [n_loop]; [by intros [= <- <- <-]|].
  pose proof (inv_iter tau v HP Hl HI) as H1. pose proof (n_iter_len m n A B C bs params tau v Hl) as H2.
  destruct (n_iter m n A B C bs params tau v) as [b' v']. cbn [snd] in *. destruct b'; [by intros [= <- <- <-]|].
  destruct (n_loop m n A B C bs params tau f v') as [[b'' k'] w'] eqn:E. intros [= <- <- <-]. by eapply IH.
Qed.
Lemma inv_lb k l : Pt (ltau_ l) -> length (lx_ l) = m -> length (lu_ l) = m -> length (ldu_ l) = m -> Inv (lx_ l) (lu_ l) ->
  let w := n_lb m n A B C bs params k l in
  Inv (lx_ w) (lu_ w) /\ Pt (ltau_ w) /\ length (lx_ w) = m /\ length (lu_ w) = m /\ length (ldu_ w) = m.
Proof.
  intros HP L1 L2 L3 HI. induction k as [|k (I1 & I2 & I3 & I4 & I5)]; [done|]. cbn [n_lb]. set (q := n_lb m n A B C bs params k l) in *.
  cbv zeta in *. unfold n_stage.
  assert (HN : nlen m (n_start m q)). { split; [exact I3|]. split; [exact I4|]. split; [apply tab_length|exact I5]. }
  pose proof (inv_loop (ltau_ q) (n_fuel params) (n_start m q) I2 HN I1) as H1.
  pose proof (n_loop_len m n A B C bs params (ltau_ q) (n_fuel params) (n_start m q)) as H2.
  destruct (n_loop m n A B C bs params (ltau_ q) (n_fuel params) (n_start m q)) as [[b j] w]. specialize (H1 b j w eq_refl).
  destruct (H2 b j w HN eq_refl) as (? & ? & ? & ?). cbn [lx_ lu_ ltau_ ldu_]. auto.
Qed.
End inv.

Section feas.
Context (m n : nat) (A : list er -> list er) (Ar : list R -> list R) (bv : list R) (e : R) (params : @L1qcOpts ER).
Context (HL : linmap m n Ar) (HA : forall v, length v = m -> A (fin v) = fin (Ar v)) (Lb : length bv = n).
Context (He : lo_epsilon params = Fin e).
Notation eps := (Fin e).
Notation res := (@n_res ER n A (fin bv)).
Notation fval := (@n_fval ER m n A (fin bv) eps).
Notation mstep xs us dx du := (@n_maxstep ER m n A eps (res xs) (@n_f1 ER m xs us) (@n_f2 ER m xs us) dx du).

Lemma n_ls_num tau g prm (xs us dx du : list er) k : @n_ls ER m n A (fin bv) params tau g prm xs us dx du = Some k ->
  fval tau (@axpy_of ER m (@ls_stepk ER prm k) dx xs) (@axpy_of ER m (@ls_stepk ER prm k) du us) <> NaN.
Proof.
  intros H. unfold n_ls in H. rewrite He in H. destruct (first_some _ _ _ _ H) as (_ & Hp & _). apply andb_true_iff in Hp as [Hp _].
  intros E. change (@ls_stepk ER) with (@ls_stepk ER) in *. rewrite E in Hp. done.
Qed.
(** *** closed feasibility needs nothing *)
Definition closedI (xs us : list er) : Prop := exists x, xs = fin x /\ nrm2sq (resid Ar bv x) <= e * e.
Lemma closed_step tau (xs us : list er) : length xs = m -> fval tau xs us <> NaN -> closedI xs us.
Proof.
  intros Lx H. destruct (fval_num m n A bv e tau xs us H) as (H1 & y & H2 & Hy).
  destruct (fin_of xs) as [x ->]. { intros i Hi. destruct (H1 i ltac:(lia)) as (xi & E & _). eauto. }
  exists x. split; [done|]. rewrite fin_length in Lx. rewrite (fe_fin m n A Ar bv e HL HA x Lx) in H2. injection H2 as H2. lra.
Qed.

(** *** strict feasibility of the residual *)
Definition weakI (xs us : list er) : Prop := exists x, xs = fin x /\ nrm2sq (resid Ar bv x) < e * e /\
  forall i, (i < m)%nat -> er_leb (Fin (Rabs (nth i x 0))) (@at_ ER us i) = true.
(** nonnegative, +Inf or NaN *)
Lemma dmin_nn a b : nn a -> nn b -> nn (@dmin ER a b).
Proof. unfold dmin. case_match; done. Qed.
Lemma minstep_nn k (f : list er) (d : nat -> er) :
  (forall i, (i < k)%nat -> er_ltb (Fin 0) (d i) = true -> nn (er_div (er_opp (@at_ ER f i)) (d i))) -> nn (@n_minstep ER k f d).
Proof.
  unfold n_minstep. rewrite zero_E. cbn [div opp ltb_ ER pinf]. induction k as [|k IH]; intros H; [done|]. cbn [foldi].
  destruct (er_ltb (Fin 0) (d k)) eqn:E; cbn [negb]; [|apply IH; intros; apply H; [lia|done]].
  apply dmin_nn; [apply IH; intros; apply H; [lia|done]|apply H; [lia|done]].
Qed.
Lemma half_stepk alpha (s0 : er) k : exists q, 0 < q <= 1 /\ @ls_stepk ER (@mkLSP ER alpha (@lit ER 1 2) s0) k = match k with O => s0 | S _ => er_mul (Fin q) s0 end
   /\ (k = 0%nat -> q = 1).
Proof.
  induction k as [|k (q & Hq & E & E1)]; [exists 1; split; [lra|done]|].
  exists (q / 2). split; [lra|]. split; [|lia]. cbn [ls_stepk lsp_beta mul ER]. rewrite E. destruct k as [|k].
  - rewrite E1 by done. done.
  - rewrite half_E. destruct s0 as [r| | |]; cbn; unfold er_infmul; repeat (destruct (Req_EM_T _ _); try lra); repeat (destruct (Rlt_dec _ _); try lra); cbn;
      unfold er_infmul; repeat (destruct (Req_EM_T _ _); try lra); repeat (destruct (Rlt_dec _ _); try lra); try done.
    f_equal. lra.
Qed.
Lemma stepk_Fin alpha (s0 : er) k r : @ls_stepk ER (@mkLSP ER alpha (@lit ER 1 2) s0) k = Fin r -> exists q s, 0 < q <= 1 /\ s0 = Fin s /\ r = q * s.
Proof.
  intros H. destruct (half_stepk alpha s0 k) as (q & Hq & E & E1). rewrite E in H. destruct k as [|k].
  - exists q, r. rewrite E1 by done. split; [lra|]. split; [done|lra].
  - apply er_mul_Fin in H as (a & b & [= <-] & -> & ->). eauto.
Qed.

Lemma weak_step tau (xs us dx du : list er) g alpha k : (1 <= m)%nat -> weakI xs us -> length xs = m -> length us = m -> length dx = m -> length du = m ->
  let prm := @mkLSP ER alpha (@lit ER 1 2) (@n_maxstep ER m n A (lo_epsilon params) (res xs) (@n_f1 ER m xs us) (@n_f2 ER m xs us) dx du) in
  @n_ls ER m n A (fin bv) params tau g prm xs us dx du = Some k ->
  weakI (@axpy_of ER m (@ls_stepk ER prm k) dx xs) (@axpy_of ER m (@ls_stepk ER prm k) du us).
Proof.
  intros Hm (x & -> & Hr & Hbox) Lx Lu Ldx Ldu prm Hls. rewrite fin_length in Lx.
  apply n_ls_num in Hls. apply fval_num in Hls as (H1 & _). set (sk := @ls_stepk ER prm k) in *.
  assert (Ex : forall i, (i < m)%nat -> @at_ ER (@axpy_of ER m sk dx (fin x)) i = er_add (er_mul sk (@at_ ER dx i)) (Fin (nth i x 0))).
  { intros i Hi. unfold axpy_of. rewrite at_tab by done. rewrite at_fin, at_RN. done. }
  assert (Eu : forall i, (i < m)%nat -> @at_ ER (@axpy_of ER m sk du us) i = er_add (er_mul sk (@at_ ER du i)) (@at_ ER us i)).
  { intros i Hi. unfold axpy_of. by rewrite at_tab by done. }
  assert (Hsk : exists sg, sk = Fin sg).
  { destruct (H1 0%nat ltac:(lia)) as (xi & E & _). rewrite Ex in E by lia. apply er_add_Fin in E as (y & _ & E & _). apply er_mul_Fin in E as (y1 & y2 & E & _). eauto. }
  destruct Hsk as (sg & Hsk).
  destruct (fin_of dx) as [d ->].
  { intros i Hi. destruct (H1 i ltac:(lia)) as (xi & E & _). rewrite Ex in E by lia. apply er_add_Fin in E as (y & _ & E & _). apply er_mul_Fin in E as (y1 & y2 & _ & E & _). eauto. }
  rewrite fin_length in Ldx.
  destruct (stepk_Fin alpha _ k sg Hsk) as (q & s & Hq & Es & Esg). rewrite He in Es.
  assert (AT : forall v i, @at_ ER (fin v) i = Fin (nth i v 0)) by (intros v i; rewrite at_fin; by rewrite at_RN).
  destruct (root_spec n e (resid Ar bv x) (Ar d)) as (rho & Erho & Hrho & Hquad); [by apply (resid_length m n)|by apply HL|done|].
  rewrite (res_fin m n A Ar bv HL HA x Lx) in Es.
  (* the constraint values *)
  assert (F1 : forall i, (i < m)%nat -> nneg (er_opp (@at_ ER (@n_f1 ER m (fin x) us) i))).
  { intros i Hi. rewrite f1_at by done. rewrite AT. specialize (Hbox i Hi). destruct (@at_ ER us i) as [u| | |]; cbn in *; try done.
    - unfold Rleb in Hbox. destruct (Rle_dec _ _) as [Hb|]; [|done]. pose proof (Rle_abs (nth i x 0)). lra.
    - unfold er_infmul. destruct (Req_EM_T _ _); [lra|]. destruct (Rlt_dec _ _); [lra|]. done. }
  assert (F2 : forall i, (i < m)%nat -> nneg (er_opp (@at_ ER (@n_f2 ER m (fin x) us) i))).
  { intros i Hi. rewrite f2_at by done. rewrite AT. specialize (Hbox i Hi). destruct (@at_ ER us i) as [u| | |]; cbn in *; try done.
    - unfold Rleb in Hbox. destruct (Rle_dec _ _) as [Hb|]; [|done]. pose proof (Rle_abs (- nth i x 0)). rewrite Rabs_Ropp in *. lra.
    - unfold er_infmul. destruct (Req_EM_T _ _); [lra|]. destruct (Rlt_dec _ _); [lra|]. done. }
  assert (DV : forall a b, nneg a -> er_ltb (Fin 0) b = true -> nn (er_div a b) /\ (b <> PInf -> nneg (er_div a b))).
  { intros [a| | |] [b| | |]; cbn; try done; unfold Rltb; repeat (destruct (Rlt_dec _ _); try done); repeat (destruct (Req_EM_T _ _); try lra); repeat (destruct (Rle_dec _ _); try lra); try done; simpl.
    all: try (intros Ha _; assert (0 <= a / b); [|done]; apply Rmult_le_pos; [done|]; apply Rlt_le, Rinv_0_lt_compat; done).
    all: intros _ _; split; [lra|done]. }
  (* first: the step is not negative *)
  assert (Hs0 : 0 <= s).
  { assert (NN : nn (@n_maxstep ER m n A eps (fin (resid Ar bv x)) (@n_f1 ER m (fin x) us) (@n_f2 ER m (fin x) us) (fin d) du)).
    { unfold n_maxstep. assert (O1 : @one ER = Fin 1) by (unfold one, ofZ; cbn; f_equal; lra). rewrite O1. rewrite HA, Erho by done.
      set (w := @dmin ER (Fin 1) _). assert (Hw : nn w).
      { unfold w. apply dmin_nn; [simpl; lra|]. apply dmin_nn; [|simpl; lra]. apply dmin_nn; apply minstep_nn; intros i Hi Hd; apply DV; auto. }
      destruct w as [w| | |]; cbn [mul ER lit er_mul]; try done.
      - assert (0 <= w) by exact Hw. simpl. apply Rmult_le_pos; lra.
      - unfold er_infmul. destruct (Req_EM_T _ _); [done|]. destruct (Rlt_dec _ _); [done|lra]. }
    rewrite Es in NN. exact NN. }
  (* so no component of du is -Inf *)
  assert (Hdu : forall i, (i < m)%nat -> (exists r, @at_ ER du i = Fin r) \/ @at_ ER du i = PInf).
  { intros i Hi. destruct (H1 i Hi) as (xi & _ & E). rewrite Eu in E by done. rewrite Hsk in E. specialize (Hbox i Hi).
    destruct (@at_ ER du i) as [r| | |]; [eauto|auto| |done]. exfalso. cbn in E. unfold er_infmul in E.
    destruct (Req_EM_T sg 0); [done|]. destruct (Rlt_dec 0 sg); [|nra]. destruct (@at_ ER us i); done. }
  destruct (maxstep_spec nneg ltac:(by intros []) I ltac:(simpl; lra) m n A eps (fin (resid Ar bv x)) (@n_f1 ER m (fin x) us) (@n_f2 ER m (fin x) us) (fin d) du)
    as (w & Ew & Pw & W1 & W2 & _).
  { intros i Hi Hd. apply DV; [by auto|done|]. rewrite AT in *. destruct (Hdu i Hi) as [(r & ->)| ->]; done. }
  { intros i Hi Hd. apply DV; [by auto|done|]. rewrite AT in *. destruct (Hdu i Hi) as [(r & ->)| ->]; done. }
  { rewrite HA, Erho by done. simpl. lra. }
  rewrite Ew in Es. rewrite HA, Erho in W2 by done. destruct w as [w| | |]; try done. cbn in Es, W2, Pw. injection Es as Es.
  unfold Rleb in W2. destruct (Rle_dec w rho); [|done].
  assert (EX : @axpy_of ER m sk (fin d) (fin x) = fin (along x d sg)).
  { rewrite Hsk. etransitivity; [apply axpy_fin|]. f_equal. by apply axpy_vlin. }
  exists (along x d sg). split; [exact EX|]. split.
  - rewrite (resid_along_sq m n) by done. apply Hquad; [nra|].
    destruct (Req_EM_T w 0); [nra|]. assert (0 < w) by lra. nra.
  - intros i Hi. destruct (H1 i Hi) as (xi & E1 & E2). rewrite EX, AT in E1. injection E1 as ->. done.
Qed.

(** *** strict feasibility of the pair, for a positive barrier parameter *)
Definition strictI (xs us : list er) : Prop := exists x u, xs = fin x /\ us = fin u /\ length u = length x /\ strictly_feasible Ar bv e x u.
Lemma strict_step (t : R) (xs us dx du : list er) g alpha k : (1 <= m)%nat -> 0 < t -> strictI xs us -> length xs = m -> length us = m -> length dx = m -> length du = m ->
  let prm := @mkLSP ER alpha (@lit ER 1 2) (@n_maxstep ER m n A (lo_epsilon params) (res xs) (@n_f1 ER m xs us) (@n_f2 ER m xs us) dx du) in
  @n_ls ER m n A (fin bv) params (Fin t) g prm xs us dx du = Some k ->
  strictI (@axpy_of ER m (@ls_stepk ER prm k) dx xs) (@axpy_of ER m (@ls_stepk ER prm k) du us).
Proof.
  intros Hm Ht (x & u & -> & -> & Lxu & HF) Lx Lu Ldx Ldu prm Hls. rewrite fin_length in Lx, Lu.
  apply n_ls_num in Hls. pose proof (fval_num _ _ _ _ _ _ _ _ Hls) as (H1 & _). set (sk := @ls_stepk ER prm k) in *.
  assert (Ex : forall i, (i < m)%nat -> @at_ ER (@axpy_of ER m sk dx (fin x)) i = er_add (er_mul sk (@at_ ER dx i)) (Fin (nth i x 0))).
  { intros i Hi. unfold axpy_of. rewrite at_tab by done. rewrite at_fin, at_RN. done. }
  assert (Eu : forall i, (i < m)%nat -> @at_ ER (@axpy_of ER m sk du (fin u)) i = er_add (er_mul sk (@at_ ER du i)) (Fin (nth i u 0))).
  { intros i Hi. unfold axpy_of. rewrite at_tab by done. rewrite at_fin, at_RN. done. }
  assert (Hsk : exists sg, sk = Fin sg).
  { destruct (H1 0%nat ltac:(lia)) as (xi & E & _). rewrite Ex in E by lia. apply er_add_Fin in E as (y & _ & E & _). apply er_mul_Fin in E as (y1 & y2 & E & _). eauto. }
  destruct Hsk as (sg & Hsk).
  destruct (fin_of dx) as [d ->].
  { intros i Hi. destruct (H1 i ltac:(lia)) as (xi & E & _). rewrite Ex in E by lia. apply er_add_Fin in E as (y & _ & E & _). apply er_mul_Fin in E as (y1 & y2 & _ & E & _). eauto. }
  rewrite fin_length in Ldx.
  (* u is finite: otherwise the objective is not a number *)
  destruct (fin_of du) as [dd ->].
  { intros i Hi. assert (Hi' : (i < m)%nat) by lia. destruct (H1 i Hi') as (xi & E1 & E). rewrite Eu in E by done. rewrite Hsk in E.
    destruct (@at_ ER du i) as [r| | |] eqn:Ed; [eauto| | |done]; exfalso.
    all: assert (HP : @at_ ER (@axpy_of ER m sk du (fin u)) i = PInf)
      by (rewrite Eu by done; rewrite Hsk, Ed; cbn in E |- *; unfold er_infmul in *; destruct (Req_EM_T sg 0); [done|]; destruct (Rlt_dec 0 sg); done).
    all: apply Hls; rewrite fval_eq.
    all: assert (PS : pnan (@vsum_of ER (fun v => v) m (@axpy_of ER m sk du (fin u)))) by (apply (vsum_absorb _ _ _ _ i absorb_pnan Hi'); by rewrite HP).
    all: set (V1 := @vsum_of ER lg m (@n_f1 ER m _ _)).
    all: assert (P1 : pnan V1).
    1,3: apply (vsum_absorb _ _ _ _ i absorb_pnan Hi'); rewrite f1_at by done; rewrite HP, E1; unfold lg; cbn; unfold er_infmul; repeat (destruct (Req_EM_T _ _); try lra); repeat (destruct (Rlt_dec _ _); try lra); cbn; unfold er_infmul; repeat (destruct (Req_EM_T _ _); try lra); repeat (destruct (Rlt_dec _ _); try lra); done.
    all: set (sm := er_add (er_add V1 _) _).
    all: assert (PX : pnan sm) by (apply absorb_pnan; left; apply absorb_pnan; left; exact P1).
    all: clearbody sm.
    all: assert (DF : er_div (Fin 1) (Fin t) = Fin (1 / t)) by (apply div_fin; lra).
    all: try rewrite DF.
    all: assert (PM : pnan (er_mul (Fin (1 / t)) sm))
      by (destruct sm; try done; cbn; unfold er_infmul; assert (0 < 1 / t) by (apply Rdiv_lt_0_compat; lra); destruct (Req_EM_T _ _); [lra|]; destruct (Rlt_dec _ _); [done|lra]).
    all: revert PS PM; generalize (er_mul (Fin (1 / t)) sm); generalize (@vsum_of ER (fun v => v) m (@axpy_of ER m sk du (fin u))); intros [] []; done. }
  rewrite fin_length in Ldu.
  destruct (stepk_Fin alpha _ k sg Hsk) as (q & s & Hq & Es & Esg). rewrite He in Es.
  destruct (maxstep_strict m n A Ar bv e HL HA Lb x u d dd Lx Lu Ldx Ldu HF) as (s' & E' & [Hs1 Hs2] & Hall).
  rewrite Es in E'. injection E' as <-.
  exists (along x d sg), (along u dd sg). split. { rewrite Hsk. etransitivity; [apply axpy_fin|]. f_equal. by apply axpy_vlin. }
  split. { rewrite Hsk. etransitivity; [apply axpy_fin|]. f_equal. by apply axpy_vlin. }
  split. { rewrite !along_length. lia. } apply Hall. nra.
Qed.
End feas.
