(** * One Newton iteration. *)
From Coq Require Import ZArith Lia.
From stdpp Require Import base numbers gmap list.
From Verif Require Import P_Loop P_Math P_VCL P_Step P_Own P_CG P_LineSearch M_Math M_CG M_LineSearch M_Status M_Newton P_Newton P_Newt2 P_Newt3.
Local Open Scope Z_scope.

Section runs.
Context `{N : Num}.
Context (m n : nat) (A B C : list T -> list T) (Ax Aty AtAx : ptr -> ptr -> M unit).
Context (F : list nat) (J : nat -> st -> Prop) (HO : opers F J Ax Aty AtAx m n A B C).
Context (P : Prob) (bs : list T) (params : L1qcOpts).
Notation eps := (lo_epsilon params).
Context (sc bx bu bb br b1 b2 bw bd be s1 s2 bg bf dw d0 d1 d2 d3 d4 d5 d6 : nat).
Context (EP : P = mkProb (Ptr sc 0) (Z.of_nat m) (Z.of_nat n) (Ptr bb 0) eps
   (Ptr br 0) (Ptr b1 0) (Ptr b2 0) (Ptr bw 0) (Ptr bd 0) (Ptr be 0) (Ptr s1 0) (Ptr s2 0) (Ptr bg 0) (Ptr bf 0) (Ptr dw 0)
   Ax Aty AtAx).
Notation rows := (rows d0 d1 d2 d3 d4 d5 d6).
Notation allb := (allb sc bx bu bb br b1 b2 bw bd be s1 s2 bg bf d0 d1 d2 d3 d4 d5 d6).
Notation WN := (WN F sc bx bu br b1 b2 bw bd be s1 s2 bg bf d0 d1 d2 d3 d4 d5 d6).
Notation lay := (lay m n J bs sc bx bu bb br b1 b2 bw bd be s1 s2 bg bf dw d0 d1 d2 d3 d4 d5 d6).
Notation evald := (evald m n A bs params sc br b1 b2).
Context (Hd : NoDup allb) (HF : forall b, b ∈ allb -> b ∉ F).
Context (Hnm : (n <= m)%nat) (Hmax : 2 * Z.of_nat m + 1 <= INT_MAX) (Hcg : lo_cg_maxiter params < INT_MAX) (Lb : length bs = n).

Lemma newton_iter_run c s tau v :
  lay c tau (nx_ v) (nu_ v) (ndx_ v) (ndu_ v) s -> evald tau (nx_ v) (nu_ v) s ->
  INT_MIN <= ncg_ v + cgiter (i_cg m n A B C bs params tau v) <= INT_MAX ->
  exists s', newton_iter P (Ptr bx 0) (Ptr bu 0) params (nl1_ v, nstep_ v, ncg_ v) s =
     Ok (let '(b, w) := n_iter m n A B C bs params tau v in
         if b then Stop (nl1_ w, nstep_ w, ncg_ w) else Go (nl1_ w, nstep_ w, ncg_ w)) s' /\
   let '(b, w) := n_iter m n A B C bs params tau v in
   lay (S c) tau (nx_ w) (nu_ w) (ndx_ w) (ndu_ w) s' /\ (b = false -> evald tau (nx_ w) (nu_ w) s') /\ touch WN s s'.
Proof.
  intros Hl (Hsc & Hr & H1 & H2) Hi32. destruct v as [xs us dxp dup l1p step tcg]. cbn [nx_ nu_ ndx_ ndu_ nl1_ nstep_ ncg_] in *.
  set (v := mkN xs us dxp dup l1p step tcg) in *.
  assert (HFF := HF). unfold P_Newt3.allb in HFF.
  assert (Hdd := Hd). unfold P_Newt3.allb in Hdd. distinct Hdd. clear Hdd.
  set (fe := n_fe n A bs eps xs) in *. set (rs := n_res n A bs xs) in *. set (f1 := n_f1 m xs us) in *. set (f2 := n_f2 m xs us) in *.
  set (f0 := n_fval m n A bs eps tau xs us) in *.
  assert (Lrs : length rs = n) by (unfold rs, n_res; len). assert (L1 : length f1 = m) by (unfold f1, n_f1; len).
  assert (L2 : length f2 = m) by (unfold f2, n_f2; len).
  assert (Nl : nlen m v) by (repeat split; apply Hl).
  (* warm start *)
  assert (Q0 : exists t0, (if lo_warm_start_cg params =? 0 then cblas_dscal (pb_m P) zero (pb_dx P) 1
     else if lo_warm_start_cg params =? 2 then cblas_dscal (pb_m P) step (pb_dx P) 1 else ret tt) s = Ok tt t0 /\
     touch [bd] s t0 /\ seg t0 (Ptr bd 0) (i_dx0 m params v)).
  { rewrite EP. cbn [pb_m pb_dx]. unfold i_dx0. cbn [ndx_ v nstep_].
    assert (S : seg s (Ptr bd 0) dxp) by (eapply y_dx; exact Hl). assert (L : length dxp = m) by (eapply y_ldx; exact Hl).
    destruct (lo_warm_start_cg params =? 0); [|destruct (lo_warm_start_cg params =? 2)].
    - eexists. split; [by apply dscal_run|]. split; [apply touch_wr; isin|]. apply seg_wr. woklen.
    - eexists. split; [by apply dscal_run|]. split; [apply touch_wr; isin|]. apply seg_wr. woklen.
    - exists s. split; [done|]. split; [apply touch_refl|done]. }
  destruct Q0 as (t0 & E0 & T0 & S0). unfold newton_iter. rewrite (bind_ok _ _ _ _ _ E0). clear E0.
  assert (Ld0 : length (i_dx0 m params v) = m) by (apply i_dx0_len; apply Hl).
  assert (HJ0 : J c t0). { apply (op_J _ _ _ _ _ _ (os_ax _ _ _ _ _ _ _ _ _ _ HO c) [bd] s); [apply Hl|done|].
    intros b Hb. apply HFF. sub1 Hb. }
  assert (lay0 : lay c tau xs us (i_dx0 m params v) dup t0).
  { assert (Fd : bd ∉ F) by (apply HFF; isin).
    eapply lay_touch; [exact Hl|exact T0|exact HJ0|..]; try (apply (touch_seg _ _ _ _ _ _ T0); [notin|apply Hl]); try apply Hl; try assumption.
    destruct Hl as [? ? ? ? ? ? ? ? ? ? (v1 & v2 & S)]. exists v1, v2. apply (touch_seg _ _ _ _ _ _ T0); [notin|done]. }
  assert (TT : touch WN s t0) by (eapply touch_weaken; [exact T0|]; unfold P_Newt3.WN; intros b Hb; sub1 Hb).
  apply (touch_seg _ _ _ _ _ _ T0) in Hsc; [|notin]. apply (touch_seg _ _ _ _ _ _ T0) in Hr; [|notin].
  apply (touch_seg _ _ _ _ _ _ T0) in H1; [|notin]. apply (touch_seg _ _ _ _ _ _ T0) in H2; [|notin].
  clear T0 S0 HJ0 Hl.
  (* descent direction *)
  destruct (descent_dir_run m n A B C Ax Aty AtAx F J HO P eps sc bb br b1 b2 bw bd be s1 s2 bg bf dw d0 d1 d2 d3 d4 d5 d6 EP
     c t0 (i_prm params) tau fe f0 rs f1 f2 (i_dx0 m params v) dup) as (t1 & E1 & T1 & HJ1 & Sdx & Sdu & Sg1 & Sg2);
     try assumption; try apply lay0.
  { repeat (apply NoDup_cons; split; [notin|]). apply NoDup_nil; done. }
  { intros b Hb. apply HFF. sub1 Hb. }
  { lia. }
  { intros b Hb. eapply y_w; [exact lay0|]. sub1 Hb. }
  { intros b Hb. eapply y_al; [exact lay0|]. sub1 Hb. }
  fold (i_prm params). rewrite (bind_ok _ _ _ _ _ E1). clear E1. cbn [snd].
  change (n_cg m B C (i_prm params) tau fe rs f1 f2 (i_dx0 m params v)) with (i_cg m n A B C bs params tau v).
  change (n_dx m B C (i_prm params) tau fe rs f1 f2 (i_dx0 m params v)) with (i_dx m n A B C bs params tau v) in Sdx.
  change (n_dudir m B C (i_prm params) tau fe rs f1 f2 (i_dx0 m params v) dup) with (i_du m n A B C bs params tau v) in Sdu.
  rewrite (bind_ok _ _ _ (tcg + cgiter (i_cg m n A B C bs params tau v)) t1) by (by apply i32_ok).
  clear Hi32.
  set (dx := i_dx m n A B C bs params tau v) in *. set (du := i_du m n A B C bs params tau v) in *.
  assert (Ldx : length dx = m) by (by apply i_dx_len). assert (Ldu : length du = m) by (by apply i_du_len).
  assert (Fs : sc ∉ F) by (apply HFF; isin). assert (Fx : bx ∉ F) by (apply HFF; isin). assert (Fu : bu ∉ F) by (apply HFF; isin).
  assert (Fb : bb ∉ F) by (apply HFF; isin). assert (Fr : br ∉ F) by (apply HFF; isin). assert (F1 : b1 ∉ F) by (apply HFF; isin).
  assert (F2 : b2 ∉ F) by (apply HFF; isin). assert (Fd : bd ∉ F) by (apply HFF; isin). assert (Fe : be ∉ F) by (apply HFF; isin).
  assert (Ff : bf ∉ F) by (apply HFF; isin). assert (Fd0 : d0 ∉ F) by (apply HFF; isin). assert (Fd1 : d1 ∉ F) by (apply HFF; isin).
  assert (lay1 : lay (S c) tau xs us dx du t1).
  { eapply lay_touch; [exact lay0|exact T1|exact HJ1|..]; try (apply (touch_seg _ _ _ _ _ _ T1); [notin|apply lay0]); try apply lay0; try assumption.
    exists fe, f0. apply (touch_seg _ _ _ _ _ _ T1); [notin|done]. }
  assert (T1' : touch WN t0 t1) by (eapply touch_weaken; [exact T1|]; unfold P_Newt3.WN; intros b Hb; sub1 Hb).
  pose proof (touch_trans _ _ _ _ TT T1') as TT1. clear TT T1'.
  apply (touch_seg _ _ _ _ _ _ T1) in Hsc; [|notin]. apply (touch_seg _ _ _ _ _ _ T1) in Hr; [|notin].
  apply (touch_seg _ _ _ _ _ _ T1) in H1; [|notin]. apply (touch_seg _ _ _ _ _ _ T1) in H2; [|notin].
  clear T1 Sdx Sdu HJ1 lay0 Ld0 t0.
  (* maximal step *)
  destruct (find_max_step_run m n A B C Ax Aty AtAx F J HO P eps sc bb br b1 b2 bw bd be s1 s2 bg bf dw d0 d1 d2 d3 d4 d5 d6 EP
     (S c) t1 rs f1 f2 dx du) as (t2 & E2 & T2 & HJ2); try assumption; try apply lay1.
  { repeat (apply NoDup_cons; split; [notin|]). apply NoDup_nil; done. }
  { intros b Hb. apply HFF. sub1 Hb. }
  { eapply wok_le; [eapply y_w; [exact lay1|isin]|done]. }
  { isin. } { isin. }
  rewrite (bind_ok _ _ _ _ _ E2). clear E2.
  change (n_maxstep m n A eps rs f1 f2 dx du) with (i_smax m n A B C bs params tau v).
  assert (lay2 : lay (S c) tau xs us dx du t2).
  { eapply lay_touch; [exact lay1|exact T2|exact HJ2|..]; try (apply (touch_seg _ _ _ _ _ _ T2); [notin|apply lay1]); try apply lay1; try assumption.
    exists fe, f0. apply (touch_seg _ _ _ _ _ _ T2); [notin|done]. }
  assert (T2' : touch WN t1 t2) by (eapply touch_weaken; [exact T2|]; unfold P_Newt3.WN; intros b Hb; sub1 Hb).
  pose proof (touch_trans _ _ _ _ TT1 T2') as TT2. clear TT1 T2'.
  apply (touch_seg _ _ _ _ _ _ T2) in Hsc; [|notin]. apply (touch_seg _ _ _ _ _ _ T2) in Hr; [|notin].
  apply (touch_seg _ _ _ _ _ _ T2) in H1; [|notin]. apply (touch_seg _ _ _ _ _ _ T2) in H2; [|notin].
  apply (touch_seg _ _ _ _ _ _ T2) in Sg1; [|notin]. apply (touch_seg _ _ _ _ _ _ T2) in Sg2; [|notin].
  clear T2 HJ2 lay1 t1.
  (* slope *)
  assert (Sdx : seg t2 (Ptr bd 0) dx) by apply lay2. assert (Sdu : seg t2 (Ptr be 0) du) by apply lay2.
  assert (Sx : seg t2 (Ptr bx 0) xs) by apply lay2. assert (Su : seg t2 (Ptr bu 0) us) by apply lay2.
  assert (Sb : seg t2 (Ptr bb 0) bs) by apply lay2.
  rewrite EP. cbn [pb_m pb_gradf pb_dx pb_du pb_sc pb_DWORK7]. rewrite <- EP.
  change (padd (Ptr bf 0) (Z.of_nat m)) with (Ptr bf (0 + Z.of_nat m)). rewrite Z.add_0_l.
  rewrite (bind_ok _ _ _ _ _ (ddot_run t2 m _ _ _ _ Sg1 Sdx ltac:(len) ltac:(len))).
  rewrite (bind_ok _ _ _ _ _ (ddot_run t2 m _ _ _ _ Sg2 Sdu ltac:(len) ltac:(len))).
  match goal with |- context [add ?a ?b] => change (add a b) with (i_g m n A B C bs params tau v) end.
  set (g := i_g m n A B C bs params tau v) in *.
  change (padd (Ptr sc 0) 2) with (Ptr sc 2).
  fold (i_ls m n A B C bs params tau v). set (prm := i_ls m n A B C bs params tau v) in *.
  (* line search *)
  destruct (linesearch_xu_run m bx bu bd be d0 d1 dw sc 2 g prm (f_eval P) ([bb; sc; br; b1; b2] ++ F)
     (jobj m n A J bs params sc bb br b1 b2 d0 d1 (S c) tau t2) (fun _ => n_fval m n A bs eps tau) t2 xs us dx du f0 rows) with (x0 := xs) (u0 := us)
     as (r & t3 & E3 & H3); try assumption; try apply lay2; try isin.
  { repeat (apply NoDup_cons; split; [notin|]). apply NoDup_nil; done. }
  { intros b Hb. repeat (apply elem_of_cons in Hb as [->|Hb]; [notin|]). by apply elem_of_nil in Hb. }
  { eapply f_eval_objective; eassumption. }
  { split; [apply lay2|]. split; [done|]. split; [apply lay2|]. split; [apply lay2|]. split; [eexists; exact Hsc|].
    split; [exact Hr|]. split; [exact H1|]. split; [exact H2|]. intros b Hb. eapply y_al; [exact lay2|]. sub1 Hb. }
  { apply (Hsc 2%nat f0). done. }
  { done. } { done. }
  rewrite (bind_ok _ _ _ _ _ E3). clear E3.
  set (p := fun k =>
    let w := n_fval m n A bs eps tau (axpy_of m (ls_stepk prm k) dx xs) (axpy_of m (ls_stepk prm k) du us) in
    negb (isnan w) && leb_ w (ls_flink prm f0 g k)).
  assert (Ep : n_ls m n A bs params tau g prm xs us dx du = first p 0 32) by reflexivity.
  assert (PP : forall k, p k = true <-> ls_acc2 m g prm (fun _ => n_fval m n A bs eps tau) xs us dx du f0 k).
  { intros k. unfold p, ls_acc2. rewrite andb_true_iff, negb_true_iff. done. }
  assert (PN : forall k, ~ ls_acc2 m g prm (fun _ => n_fval m n A bs eps tau) xs us dx du f0 k -> p k = false).
  { intros k Hk. destruct (p k) eqn:E; [|done]. exfalso. by apply Hk, PP. }
  assert (EI : n_iter m n A B C bs params tau v =
     match first p 0 32 with
     | None => (true, mkN xs us dx du l1p (ls_stepk prm 32) (tcg + cgiter (i_cg m n A B C bs params tau v)))
     | Some k =>
      let x' := axpy_of m (ls_stepk prm k) dx xs in
      let u' := axpy_of m (ls_stepk prm k) du us in
      if ltb_ (div (opp g) two) (lo_newton_tol params) then (true, mkN x' u' dx du l1p (ls_stepk prm k) (tcg + cgiter (i_cg m n A B C bs params tau v)))
      else let l1 := asum_of m x' in
           (ltb_ (div (fabs (sub l1p l1)) l1) (lo_l1_tol params), mkN x' u' dx du l1 (ls_stepk prm k) (tcg + cgiter (i_cg m n A B C bs params tau v)))
     end) by reflexivity.
  set (tc := tcg + cgiter (i_cg m n A B C bs params tau v)) in *.
  rewrite EI. clear EI.
  destruct H3 as [(k & Hk & Hacc & Hno & -> & Sx' & Su' & Sf & HJ3 & T3)|(Hno & -> & HJ3 & T3)].
  - rewrite (first_is p 32 k Hk) by (first [by apply PP|intros j Hj; by apply PN, Hno]).
    cbv zeta. cbn [ls_status ls_step]. change (0 <? 0) with false. cbv iota.
    set (x' := axpy_of m (ls_stepk prm k) dx xs) in *. set (u' := axpy_of m (ls_stepk prm k) du us) in *.
    assert (Lx' : length x' = m) by (unfold x'; len). assert (Lu' : length u' = m) by (unfold u'; len).
    destruct HJ3 as (HJ3 & Eb & _ & _ & (w & Sw) & Sr & S1 & S2 & _).
    assert (Ew : w = n_fval m n A bs eps tau x' u').
    { pose proof (Sw 2%nat w eq_refl) as Q1. pose proof (Sf 0%nat _ eq_refl) as Q2. change (cell t3 (Ptr sc 2) (Z.of_nat 0)) with (cell t3 (Ptr sc 0) (Z.of_nat 2)) in Q2.
      rewrite Q1 in Q2. by injection Q2. }
    assert (T3' : touch WN t2 t3).
    { apply (touch_drop _ bb); [|exact Eb]. eapply touch_weaken; [exact T3|]. unfold P_Newt3.WN. intros b Hb. sub1 Hb. }
    pose proof (touch_trans _ _ _ _ TT2 T3') as TT3. clear TT2.
    assert (Hl3 : lay (S c) tau x' u' dx du t3).
    { eapply lay_touch; [exact lay2|exact T3'|exact HJ3|..]; try assumption.
      - apply (touch_seg _ _ _ _ _ _ T3); [notin|done].
      - apply (touch_seg _ _ _ _ _ _ T3); [notin|done].
      - intros i q Hi. unfold cell. rewrite Eb. by apply (Sb i q Hi).
      - eauto. }
    assert (He : evald tau x' u' t3).
    { split; [rewrite <- Ew; exact Sw|]. split; [exact Sr|]. split; [exact S1|exact S2]. }
    destruct (ltb_ (div (opp g) two) (lo_newton_tol params)).
    + exists t3. split; [done|]. cbn [nx_ nu_ ndx_ ndu_]. auto.
    + assert (E4 : l1c_dnorm1 (Z.of_nat m) (Ptr bx 0) t3 = Ok (asum_of m x') t3).
      { unfold l1c_dnorm1. apply dasum_run; [done|lia]. }
      rewrite (bind_ok _ _ _ _ _ E4). clear E4. exists t3. cbn [nx_ nu_ ndx_ ndu_]. auto.
  - rewrite (first_isn p 32) by (intros j Hj; by apply PN, Hno).
    cbn [ls_status ls_step]. change (0 <? 1) with true. cbv iota.
    destruct HJ3 as (HJ3 & Eb & _ & _ & (w & Sw) & Sr & S1 & S2 & _).
    assert (T3' : touch WN t2 t3).
    { apply (touch_drop _ bb); [|exact Eb]. eapply touch_weaken; [exact T3|]. unfold P_Newt3.WN. intros b Hb. sub1 Hb. }
    pose proof (touch_trans _ _ _ _ TT2 T3') as TT3. clear TT2.
    exists t3. split; [done|]. cbn [nx_ nu_ ndx_ ndu_]. split; [|split; [done|exact TT3]].
    eapply lay_touch; [exact lay2|exact T3'|exact HJ3|..]; try apply lay2; try (apply (touch_seg _ _ _ _ _ _ T3); [notin|done]).
    + intros i q Hi. unfold cell. rewrite Eb. by apply (Sb i q Hi).
    + eauto.
Qed.
End runs.
