(** * C58: l1qc_dct (src/l1qc_dct.c). *)
From Coq Require Import ZArith Lia Reals Lra.
From stdpp Require Import base numbers gmap list.
From Verif Require Import Globals Mem M_Math M_Memory M_Status M_CG M_LineSearch M_FFTW M_Dct1 M_Dct2 M_Dct M_TVt M_Newton M_L1qcDct
  P_Mem P_Loop S_Mem P_Touch P_Memory P_Own P_Newton P_Newt2 P_Newt3 P_Newt5 P_Newt7 P_FFTW P_Dct1s P_Dct2s P_TVR L_ER S_Dct L_Cos P_DctR S_Xform S_DctApi P_Dct P_DctA E_Dct S_L1qcDct P_L1qcDct T_Dct T_DctLife
  L_Sum S_Vec L_Lin P_NewtX P_NewtX2 P_NewtX3 P_NewtR P_Newt8 T_Newton P_DctE S_Newt.
Local Open Scope Z_scope.

Section C58.
Context `{N : Num}.
Context (fft1 : fkind -> list T -> list T) (fft2 : fkind -> nat -> nat -> list T -> list T).
Hypothesis fft1_len : forall k xs, length (fft1 k xs) = length xs.
Hypothesis fft2_len : forall k nr nc xs, length xs = (nr * nc)%nat -> length (fft2 k nr nc xs) = (nr * nc)%nat.
Implicit Types (s : st).
Notation l1qc := (l1qc_dct fft1 fft2).

(** every array of the caller still has its contents *)
Definition kept s s' : Prop := (forall b, (b < nx s)%nat -> dm s' !! b = dm s !! b) /\ im s' = im s.

Lemma setup_failed mrow mcol x n b p opts s st s1 : fits mrow mcol ->
  l1c_setup_dct_transforms n mrow mcol (lo_dct_mode opts) p ax_local s = Ok (st, ax_local) s1 -> st <> 0 ->
  l1qc mrow mcol x n b p opts s = Ok (L1C_DCT_INIT_FAILURE, None) s1.
Proof.
  intros Hf E Hne. unfold l1qc_dct. rewrite (bind_ok _ _ _ _ _ (i32_ok _ s Hf)), (bind_ok _ _ _ _ _ E).
  unfold orelse. by rewrite (proj2 (Z.eqb_neq _ _) Hne).
Qed.

(** ** Every failure of the set-up is reported as L1C_DCT_INIT_FAILURE *)
(** sizes that are not positive: nothing is read, allocated or written, not even *lb_res *)
Theorem l1qc_dct_rejects_sizes s mrow mcol x n b p opts : fits mrow mcol -> n <= 0 \/ mrow <= 0 \/ mcol <= 0 ->
  l1qc mrow mcol x n b p opts s = Ok (L1C_DCT_INIT_FAILURE, None) s.
Proof. intros Hf H. eapply setup_failed; [done|by apply dct_setup_rejects_sizes|done]. Qed.
(** an index outside the image: likewise *)
Theorem l1qc_dct_rejects_index s mrow mcol x b p opts zs : unborn s -> 0 < mrow -> 0 < mcol -> mrow * mcol <= INT_MAX ->
  ints s p zs -> (exists z, z ∈ zs /\ ~ (0 <= z < mrow * mcol)) ->
  l1qc mrow mcol x (Z.of_nat (length zs)) b p opts s = Ok (L1C_DCT_INIT_FAILURE, None) s.
Proof.
  intros Hu Hr Hc Hi Hp Hz. apply (setup_failed mrow mcol x _ b p opts s L1C_INVALID_ARGUMENT s); [split; unfold INT_MIN; nia| |done].
  apply dct_setup_decides; try done. destruct Hz as (z & Hz & _). destruct zs; [by apply elem_of_nil in Hz|simpl; lia].
Qed.
(** more pixels than an int can count: undefined before any check, whatever the other arguments *)
Theorem l1qc_dct_overflow_undefined s mrow mcol x n b p opts : ~ fits mrow mcol -> l1qc mrow mcol x n b p opts s = Ub UbOverflow.
Proof.
  intros Hf. unfold l1qc_dct, bind, i32, in_int. unfold fits in Hf.
  destruct (Z.leb_spec INT_MIN (mrow * mcol)); [|done]. destruct (Z.leb_spec (mrow * mcol) INT_MAX); [|done]. exfalso. apply Hf. lia.
Qed.
(** memory or a plan is refused during the set-up *)
Theorem l1qc_dct_setup_out_of_memory s mrow mcol x b p ms opts : accepted s mrow mcol p ms -> ~ grants s 5 ->
  forall r s', l1qc mrow mcol x (Z.of_nat (length ms)) b p opts s = Ok r s' -> r = (L1C_DCT_INIT_FAILURE, None) /\ kept s s'.
Proof.
  intros HA Hg r s' E.
  assert (Hf : fits mrow mcol) by (destruct HA; split; unfold INT_MIN; nia).
  assert (HS : forall st s1, l1c_setup_dct_transforms (Z.of_nat (length ms)) mrow mcol (lo_dct_mode opts) p ax_local s = Ok (st, ax_local) s1 -> st <> 0 ->
     (exists O, ledger [] O s s1 /\ forall k b, (k, b) ∈ O -> (nx s <= b)%nat) -> r = (L1C_DCT_INIT_FAILURE, None) /\ kept s s').
  { intros st s1 Es Hne (O & L & HO). pose proof (eq_trans (eq_sym E) (setup_failed _ _ x _ b _ _ _ _ _ Hf Es Hne)) as Q. injection Q as -> ->. split; [done|].
    split; [|apply L]. intros b0 Hb. apply (lg_dm _ _ _ _ L); [apply not_elem_of_nil|]. intros Hk. apply HO in Hk. lia. }
  assert (HSU := accepted_run s mrow mcol (lo_dct_mode opts) p ms ax_local HA). destruct HA as [Hu Hr Hc Hi Hn Hp Hms].
  destruct (one_d mrow mcol (lo_dct_mode opts)).
  - destruct (setup1_run s (Z.of_nat (length ms)) (mrow * mcol) p ax_local Hu ltac:(nia)) as [(G & _)|[(_ & _ & s1 & E1 & L)|(_ & s1 & E1 & L)]]; [done|..]; rewrite E1 in HSU.
    + apply (HS _ _ HSU); [done|]. exists []. split; [exact L|]. intros k b0 Hk. by apply elem_of_nil in Hk.
    + (* the plans of an earlier transform are destroyed again *)
      assert (FO : forall q t t', free_o q t = Ok tt t' -> dm t' = dm t /\ im t' = im t).
      { intros [|b0 o] t t' Ef; simpl in Ef; [by injection Ef as <-|]. destruct (o =? 0); [|done]. destruct (om t !! b0); [|done]. by injection Ef as <-. }
      unfold fftw_destroy_plan in HSU.
      unfold l1qc_dct in E. rewrite (bind_ok _ _ _ _ _ (i32_ok _ s Hf)) in E. apply bind_inv in E as ([st ax] & s2 & E2 & E).
      rewrite HSU in E2. apply bind_inv in E2 as ([] & t1 & Q1 & E2). apply bind_inv in E2 as ([] & t2 & Q2 & E2).
      unfold ret in E2. injection E2 as E2a E2b E2c. subst st ax t2. cbn in E. injection E as <- <-. split; [done|].
      apply FO in Q1 as [D1 I1]. apply FO in Q2 as [D2 I2]. split; [|rewrite I2, I1; apply L].
      intros b0 Hb. rewrite D2, D1. apply (lg_dm _ _ _ _ L); [apply not_elem_of_nil|apply not_elem_of_nil].
  - destruct (Z_of_nat_complete mrow ltac:(lia)) as [nr ->]. destruct (Z_of_nat_complete mcol ltac:(lia)) as [nc ->].
    assert (HG : forall i k k' b0, (k, b0) ∈ got s i k' -> (nx s <= b0)%nat).
    { intros i k k' b0 Hk. unfold got in Hk. destruct (alloc_ok _ _); [|by apply elem_of_nil in Hk]. apply elem_of_list_singleton in Hk. injection Hk as _ ->. lia. }
    destruct (setup2_run s (Z.of_nat (length ms)) nr nc p ax_local Hu ltac:(lia) ltac:(lia) ltac:(lia)) as [(G & _)|[(_ & _ & s1 & E1 & L)|(_ & s1 & E1 & L)]]; [done|..]; rewrite E1 in HSU.
    + apply (HS _ _ HSU); [done|]. eexists. split; [exact L|]. intros k b0 Hk. rewrite !elem_of_app in Hk. destruct Hk as [Hk|[Hk|[Hk|[Hk|Hk]]]]; eapply HG; exact Hk.
    + apply (HS _ _ HSU); [done|]. eexists. split; [exact L|]. intros k b0 Hk. rewrite !elem_of_app in Hk. destruct Hk as [Hk|[Hk|Hk]]; eapply HG; exact Hk.
Qed.

(** ** The output is written on success only *)
(** what the set-up's A^T returns for the measurements: where the solver starts *)
Definition start s nr nc opts ms bs : list T := fAt fft1 fft2 s nr nc (one_d (Z.of_nat nr) (Z.of_nat nc) (lo_dct_mode opts)) ms bs.
(** no int counter of the solver overflows *)
Definition counters_fit s nr nc opts ms bs : Prop := forall tau stages, starts (nr * nc) (start s nr nc opts ms bs) opts tau stages -> counts_fit opts stages.
Notation call nr nc bx ox ms bb bo mb mo opts := (l1qc (Z.of_nat nr) (Z.of_nat nc) (Ptr bx ox) (Z.of_nat (length ms)) (Ptr bb bo) (Ptr mb mo) opts).

Lemma dct_call_accepted s nr nc mb mo ms bb bo bs bx ox : dct_call s nr nc mb mo ms bb bo bs bx ox -> accepted s (Z.of_nat nr) (Z.of_nat nc) (Ptr mb mo) ms.
Proof.
  intros [Hu Hr Hc Hf Hi _ _ Hin Hn _ _ _ _]. split; try done; try lia; try (unfold INT_MAX in *; lia).
  intros k Hk. replace (Z.to_nat (Z.of_nat nr * Z.of_nat nc)) with (nr * nc)%nat by lia. by apply Hin.
Qed.
Lemma same_kept s s' : same_heap s s' -> kept s s'.
Proof. intros (E & _ & _ & Ei). split; [|done]. intros b _. by rewrite E. Qed.
Lemma grants_dec s k : grants s k \/ ~ grants s k.
Proof.
  induction k as [|k [IH|IH]]; [left; intros i; lia| |right; intros H; apply IH; intros i Hi; apply H; lia].
  destruct (alloc_ok (en s) (nx s + k)) eqn:Ek; [left|right; intros H; rewrite H in Ek by lia; done].
  intros i Hi. destruct (decide (i = k)) as [->|]; [done|]. apply IH. lia.
Qed.
Lemma work_cases s k : (forall j, (j < 18)%nat -> alloc_ok (en s) (k + j) = true) \/ (exists j, (j < 18)%nat /\ alloc_ok (en s) (k + j) = false).
Proof.
  generalize 18%nat. intros q. induction q as [|q [IH|(j & Hj & Ej)]]; [left; lia| |right; exists j; split; [lia|done]].
  destruct (alloc_ok (en s) (k + q)) eqn:Ek; [left|right; exists q; split; [lia|done]].
  intros j Hj. destruct (decide (j = q)) as [->|]; [done|]. apply IH. lia.
Qed.
(** With the set-up's requests granted: every other outcome.  The struct *lb_res is written exactly if the
    solver was run. *)
Theorem l1qc_dct_outcome s nr nc mb mo ms bb bo bs bx ox opts st lb s' :
  dct_call s nr nc mb mo ms bb bo bs bx ox -> grants s 5 -> counters_fit s nr nc opts ms bs ->
  call nr nc bx ox ms bb bo mb mo opts s = Ok (st, lb) s' ->
  (* no memory for the two arrays of l1qc_dct itself *)
  (st = L1C_OUT_OF_MEMORY /\ lb = None /\ same_heap s s') \/
  (* the solver failed *)
  (exists r, lb = Some r /\ lb_status r = st /\ (st = L1C_OUT_OF_MEMORY \/ st = L1C_INFEASIBLE_START) /\ same_heap s s') \/
  (* success: the heap is the old one, but for x_out, which holds M of the solver's coefficients eta *)
  (st = 0 /\ exists r eta, lb = Some r /\ lb_status r = 0 /\ length eta = (nr * nc)%nat /\ lb_l1 r = asum_of (nr * nc) eta /\
     same_heap (wr (Ptr bx ox) (fM fft1 fft2 s nr nc (one_d (Z.of_nat nr) (Z.of_nat nc) (lo_dct_mode opts)) eta) s) s').
Proof.
  intros HC HG Hct E. pose proof (l1qc_dct_run fft1 fft2 fft1_len fft2_len s nr nc mb mo ms bb bo bs bx ox opts HC HG) as H. cbv zeta in H.
  unfold counters_fit, start, starts in Hct.
  destruct (negb _). { destruct H as (t & E' & HS & _). pose proof (eq_trans (eq_sym E) E') as Q. injection Q as -> -> ->. left. done. }
  destruct (negb _). { pose proof (eq_trans (eq_sym E) H) as Q. discriminate Q. }
  destruct (n_init _ _ _) as [[tau stages]|]; [|pose proof (eq_trans (eq_sym E) H) as Q; discriminate Q].
  destruct H as [H1 H2]. right. destruct (work_cases s (nx s + 9)) as [Hw|Hw].
  - specialize (H2 Hw). destruct (n_infeasible _ _ _ _ _).
    + destruct H2 as (t & E' & HS & _). pose proof (eq_trans (eq_sym E) E') as Q. injection Q as -> -> ->. left. eexists. split; [done|]. split; [done|]. split; [by right|done].
    + destruct (H2 (Hct _ _ eq_refl)) as (t & E' & Ll & HS & _). pose proof (eq_trans (eq_sym E) E') as Q. injection Q as -> -> ->. right. split; [done|].
      eexists _, _. split; [done|]. split; [done|]. split; [exact Ll|]. split; [done|exact HS].
  - destruct (H1 Hw) as (t & E' & HS & _). pose proof (eq_trans (eq_sym E) E') as Q. injection Q as -> -> ->. left. eexists. split; [done|]. split; [done|]. split; [by left|done].
Qed.
(** the counters of the requests go up *)
Lemma l1qc_dct_grown s nr nc mb mo ms bb bo bs bx ox opts st lb s' :
  dct_call s nr nc mb mo ms bb bo bs bx ox -> grants s 5 -> counters_fit s nr nc opts ms bs ->
  call nr nc bx ox ms bb bo mb mo opts s = Ok (st, lb) s' -> grown s s'.
Proof.
  intros HC HG Hct E. pose proof (l1qc_dct_run fft1 fft2 fft1_len fft2_len s nr nc mb mo ms bb bo bs bx ox opts HC HG) as H. cbv zeta in H.
  unfold counters_fit, start, starts in Hct.
  destruct (negb _). { destruct H as (t & E' & _ & HS). pose proof (eq_trans (eq_sym E) E') as Q. injection Q as -> -> ->. done. }
  destruct (negb _). { pose proof (eq_trans (eq_sym E) H) as Q. discriminate Q. }
  destruct (n_init _ _ _) as [[tau stages]|]; [|pose proof (eq_trans (eq_sym E) H) as Q; discriminate Q].
  destruct H as [H1 H2]. destruct (work_cases s (nx s + 9)) as [Hw|Hw].
  - specialize (H2 Hw). destruct (n_infeasible _ _ _ _ _).
    + destruct H2 as (t & E' & _ & HS). pose proof (eq_trans (eq_sym E) E') as Q. injection Q as -> -> ->. done.
    + destruct (H2 (Hct _ _ eq_refl)) as (t & E' & _ & _ & HS). pose proof (eq_trans (eq_sym E) E') as Q. injection Q as -> -> ->. done.
  - destruct (H1 Hw) as (t & E' & _ & HS). pose proof (eq_trans (eq_sym E) E') as Q. injection Q as -> -> ->. done.
Qed.
(** whatever fails, an error code means that the caller's arrays, x_out among them, are unchanged *)
Theorem l1qc_dct_error_keeps_output s nr nc mb mo ms bb bo bs bx ox opts st lb s' :
  dct_call s nr nc mb mo ms bb bo bs bx ox -> counters_fit s nr nc opts ms bs ->
  call nr nc bx ox ms bb bo mb mo opts s = Ok (st, lb) s' -> st <> 0 -> kept s s'.
Proof.
  intros HC Hct E Hne. destruct (grants_dec s 5) as [HG|HG].
  2:{ eapply l1qc_dct_setup_out_of_memory; [by eapply dct_call_accepted|done|exact E]. }
  destruct (l1qc_dct_outcome _ _ _ _ _ _ _ _ _ _ _ _ _ _ _ HC HG Hct E) as [(_ & _ & HS)|[(r & _ & _ & _ & HS)|(E0 & _)]]; [by apply same_kept|by apply same_kept|done].
Qed.
(** the status tells the set-up from the rest *)
Theorem l1qc_dct_status s nr nc mb mo ms bb bo bs bx ox opts st lb s' :
  dct_call s nr nc mb mo ms bb bo bs bx ox -> counters_fit s nr nc opts ms bs ->
  call nr nc bx ox ms bb bo mb mo opts s = Ok (st, lb) s' ->
  st ∈ [0; L1C_DCT_INIT_FAILURE; L1C_OUT_OF_MEMORY; L1C_INFEASIBLE_START] /\ (st = L1C_DCT_INIT_FAILURE <-> ~ grants s 5).
Proof.
  intros HC Hct E. destruct (grants_dec s 5) as [HG|HG].
  - destruct (l1qc_dct_outcome _ _ _ _ _ _ _ _ _ _ _ _ _ _ _ HC HG Hct E) as [(-> & _)|[(r & _ & _ & [->| ->] & _)|(-> & _)]]; (split; [isin|split; [done|done]]).
  - destruct (l1qc_dct_setup_out_of_memory _ _ _ _ _ _ _ _ (dct_call_accepted _ _ _ _ _ _ _ _ _ _ _ HC) HG _ _ E) as [[= -> ->] _]. split; [isin|done].
Qed.

(** ** Memory *)
(** a call that gets through the set-up releases all it allocated, whether it succeeds or not *)
Theorem l1qc_dct_releases s nr nc mb mo ms bb bo bs bx ox opts st lb s' :
  dct_call s nr nc mb mo ms bb bo bs bx ox -> grants s 5 -> counters_fit s nr nc opts ms bs ->
  call nr nc bx ox ms bb bo mb mo opts s = Ok (st, lb) s' ->
  dom (dm s') = dom (dm s) /\ om s' = om s /\ pm s' = pm s /\ im s' = im s.
Proof.
  intros HC HG Hct E.
  destruct (l1qc_dct_outcome _ _ _ _ _ _ _ _ _ _ _ _ _ _ _ HC HG Hct E) as [(_ & _ & E1 & E2 & E3 & E4)|[(r & _ & _ & _ & E1 & E2 & E3 & E4)|(_ & r & eta & _ & _ & _ & _ & E1 & E2 & E3 & E4)]].
  - by rewrite E1.
  - by rewrite E1.
  - rewrite E1, E2, E3, E4. cbn [wr set_dm dm]. split; [|done]. apply leibniz_equiv. by rewrite dom_alter.
Qed.
(** so does a failed 1D set-up, if no such transform was made before in the program *)
Theorem l1qc_dct_1d_setup_releases s mrow mcol x b p ms opts : accepted s mrow mcol p ms -> one_d mrow mcol (lo_dct_mode opts) = true -> ~ grants s 5 ->
  d1_plan_EMx (g_d1 (gl s)) = Null -> d1_plan_MtEty (g_d1 (gl s)) = Null ->
  exists s', l1qc mrow mcol x (Z.of_nat (length ms)) b p opts s = Ok (L1C_DCT_INIT_FAILURE, None) s' /\ same_heap s s'.
Proof.
  intros HA Eo Hg P1 P2. destruct (dct1_failed_setup_clean s mrow mcol _ p ms ax_local HA Eo Hg P1 P2) as (st & s' & E & Hs & HH).
  exists s'. split; [|exact HH]. eapply setup_failed; [|exact E|by destruct Hs as [->| ->]]. destruct HA; split; unfold INT_MIN; nia.
Qed.
(** after an earlier 1D transform was destroyed (each l1qc_dct that succeeds makes and destroys one),
    a 1D call that is refused one of its first three arrays destroys the old plans a second time *)
Theorem l1qc_dct_1d_again_undefined s mrow mcol mode mb mo ms ax s1 s2 mrow' mcol' x b p' ms' opts :
  started s mrow mcol mode mb mo ms ax s1 -> one_d mrow mcol mode = true -> call_destroy (ax_destroy ax) s1 = Ok tt s2 ->
  accepted s2 mrow' mcol' p' ms' -> one_d mrow' mcol' (lo_dct_mode opts) = true -> ~ grants s2 3 ->
  l1qc mrow' mcol' x (Z.of_nat (length ms')) b p' opts s2 = Ub UbFree.
Proof.
  intros H Eo E2 HA Eo' Hg. unfold l1qc_dct. rewrite (bind_ok _ _ _ _ _ (i32_ok (mrow' * mcol') s2 ltac:(destruct HA; unfold INT_MIN; nia))).
  unfold bind at 1. by rewrite (dct1_failed_setup_again_undefined fft1 fft2 fft1_len fft2_len _ _ _ _ _ _ _ _ _ _ _ _ _ _ _ ax_local H Eo E2 HA Eo' Hg).
Qed.
(** a failed 2D set-up leaves allocated what it was granted, and l1qc_dct has no way to release it *)
Theorem l1qc_dct_2d_setup_leaks s mrow mcol x b p ms opts : accepted s mrow mcol p ms -> one_d mrow mcol (lo_dct_mode opts) = false -> ~ grants s 5 ->
  exists s', l1qc mrow mcol x (Z.of_nat (length ms)) b p opts s = Ok (L1C_DCT_INIT_FAILURE, None) s' /\
    forall i, (i < 3)%nat -> alloc_ok (en s) (nx s + i) = true -> dm s !! (nx s + i)%nat = None /\ is_Some (dm s' !! (nx s + i)%nat).
Proof.
  intros HA Eo Hg. destruct (dct2_failed_setup_leaks s mrow mcol _ p ms ax_local HA Eo Hg) as (st & s' & E & Hs & HH & _).
  exists s'. split; [|exact HH]. eapply setup_failed; [|exact E|by destruct Hs as [->| ->]]. destruct HA; split; unfold INT_MIN; nia.
Qed.
(** a refused request for the solver's first array is not handled at all *)
Theorem l1qc_dct_u_refused_undefined s nr nc mb mo ms bb bo bs bx ox opts : dct_call s nr nc mb mo ms bb bo bs bx ox -> grants s 5 ->
  alloc_ok (en s) (nx s + 5) = true -> alloc_ok (en s) (nx s + 6) = true -> alloc_ok (en s) (nx s + 8) = false ->
  call nr nc bx ox ms bb bo mb mo opts s = Ub UbUninit.
Proof.
  intros HC HG A1 A2 A3. pose proof (l1qc_dct_run fft1 fft2 fft1_len fft2_len s nr nc mb mo ms bb bo bs bx ox opts HC HG) as H. cbv zeta in H.
  by rewrite A1, A2, A3 in H.
Qed.
(** with all memory the call returns, unless the number of barrier stages cannot be computed *)
Theorem l1qc_dct_returns s nr nc mb mo ms bb bo bs bx ox opts tau stages : dct_call s nr nc mb mo ms bb bo bs bx ox -> (forall i, alloc_ok (en s) i = true) ->
  counters_fit s nr nc opts ms bs -> starts (nr * nc) (start s nr nc opts ms bs) opts tau stages ->
  exists st r s', call nr nc bx ox ms bb bo mb mo opts s = Ok (st, Some r) s' /\ (st = 0 \/ st = L1C_INFEASIBLE_START).
Proof.
  intros HC HG Hct Hs. pose proof (Hct _ _ Hs) as Hf. pose proof (l1qc_dct_run fft1 fft2 fft1_len fft2_len s nr nc mb mo ms bb bo bs bx ox opts HC ltac:(intros i _; apply HG)) as H. cbv zeta in H.
  rewrite !HG in H. cbn [andb negb] in H. unfold starts, start in Hs. rewrite Hs in H. destruct H as [_ H]. specialize (H ltac:(intros j _; apply HG)).
  destruct (n_infeasible _ _ _ _ _).
  - destruct H as (s' & E & _). eexists _, _, s'. split; [exact E|by right].
  - destruct (H Hf) as (s' & E & _). eexists _, _, s'. split; [exact E|by left].
Qed.
End C58.

(** ** C72: what the caller gets, in exact arithmetic *)
Section C72.
Local Open Scope R_scope.
(** the barrier iterations keep the constraint *)
Lemma lb_feasible m n A B C Ar (bv x : list R) e (params : @L1qcOpts ER) tau k c : (1 <= m)%nat ->
  linmap m n Ar -> (forall v, length v = m -> A (fin v) = fin (Ar v)) -> length bv = n -> length x = m -> lo_epsilon params = Fin e ->
  nrm2 (resid Ar bv x) <= e ->
  let l := @n_lb ER m n A B C (fin bv) params k (@n_begin ER m (fin x) tau c) in
  exists x', lx_ l = fin x' /\ nrm2 (resid Ar bv x') <= e /\ (nrm2 (resid Ar bv x) < e -> nrm2 (resid Ar bv x') < e).
Proof.
  intros Hm HL HA Lb Lx He Hfeas l. set (l0 := @n_begin ER m (fin x) tau c) in *.
  destruct (u0_ER m x Hm Lx) as (u & Eu & Lu & Hu1 & Hu2).
  assert (NS : forall v, 0 <= nrm2sq v) by (intros v; apply Rsum_pos_le; intros; apply pow2_ge_0).
  assert (He0 : 0 <= e). { pose proof (sqrt_pos (nrm2sq (resid Ar bv x))). unfold nrm2 in Hfeas. lra. }
  assert (Lf : @length er (fin x) = m) by (by rewrite fin_length).
  assert (I1 := @inv_lb ER m n A B C (fin bv) params (fun _ => True) (closedI Ar bv e) (fun _ _ => I)
     (fun tau xs us dx du g alpha k _ _ _ _ _ _ Hk => closed_step m n A Ar bv e HL HA Lb tau _ _ (@tab_length ER _ _) (n_ls_num m n A bv e params He tau g _ xs us dx du k Hk))
     k l0 I Lf ltac:(apply (@tab_length ER)) ltac:(apply (@tab_length ER))).
  destruct I1 as ((x' & Ex' & Hx') & _).
  { exists x. split; [done|]. unfold nrm2 in Hfeas. rewrite <- (sqrt_def (nrm2sq _)) by apply NS. pose proof (sqrt_pos (nrm2sq (resid Ar bv x))). nra. }
  exists x'. split; [exact Ex'|]. split.
  { unfold nrm2. rewrite <- (sqrt_square e) by done. by apply sqrt_le_1_alt. }
  intros Hst. apply nrm2_lt_inv in Hst as [He1 Hst].
  assert (I2 := @inv_lb ER m n A B C (fin bv) params (fun _ => True) (weakI m Ar bv e) (fun _ _ => I)
     (fun tau xs us dx du g alpha k _ HI L1 L2 L3 L4 Hk => weak_step m n A Ar bv e params HL HA Lb He tau xs us dx du g alpha k Hm HI L1 L2 L3 L4 Hk)
     k l0 I Lf ltac:(apply (@tab_length ER)) ltac:(apply (@tab_length ER))).
  destruct I2 as ((x'' & Ex'' & Hx'' & _) & _).
  { exists x. split; [done|]. split; [done|]. intros i Hi'. cbn [l0 n_begin lu_]. rewrite Eu, at_fin, at_RN. cbn [er_leb]. unfold Rleb.
    destruct (Rle_dec _ _) as [|Hnle]; [done|]. exfalso. apply Hnle.
    destruct (Classical_Prop.classic (exists k, nth k x 0%R <> 0%R)) as [Hz|Hz]; [left; by apply Hu1|].
    assert (Z0 : forall k, nth k x 0%R = 0%R) by (intros j; apply Classical_Prop.NNPP; intros Q; apply Hz; eauto).
    rewrite Z0, Rabs_R0, (Hu2 Z0 i Hi'). lra. }
  pose proof (eq_trans (eq_sym Ex') Ex'') as Q. apply fin_inj in Q as <-. by apply nrm2_lt.
Qed.

(** FFTW computes its documented transforms of finite data *)
Context (fft1 : fkind -> list er -> list er) (fft2 : fkind -> nat -> nat -> list er -> list er).
Hypothesis fft1_len : forall k xs, length (fft1 k xs) = length xs.
Hypothesis fft2_len : forall k nr nc xs, length xs = (nr * nc)%nat -> length (fft2 k nr nc xs) = (nr * nc)%nat.
Hypothesis fft1_exact : forall k (x : list R), fft1 k (fin x) = fin (dft1 k x).
Hypothesis fft2_exact : forall k nr nc (x : list R), length x = (nr * nc)%nat -> fft2 k nr nc (fin x) = fin (dft2 k nr nc x).
Notation call nr nc bx ox ms bb bo mb mo opts := (@l1qc_dct ER fft1 fft2 (Z.of_nat nr) (Z.of_nat nc) (Ptr bx ox) (Z.of_nat (length ms)) (Ptr bb bo) (Ptr mb mo) opts).
(** what the planner scribbled into the scatter array are numbers *)
Definition planner_finite (s : @st ER) : Prop := forall j, exists r, scrib (en s) (nx s + 3) 0 j = Fin r.
(** ... and zeros *)
Definition planner_zero (s : @st ER) : Prop := forall j, scrib (en s) (nx s + 3) 0 j = Fin 0.

Lemma planner_list (s : @st ER) m : planner_finite s -> exists e0, length e0 = m /\ @scr ER (en s) (nx s + 3) 0 m = fin e0.
Proof.
  intros H. destruct (fin_of (@scr ER (en s) (nx s + 3) 0 m)) as [v E].
  - intros i Hi. unfold scr in Hi |- *. rewrite (@tab_length ER) in Hi. rewrite at_tab by done. apply H.
  - exists v. split; [|done]. rewrite <- (fin_length v), <- E. apply (@tab_length ER).
Qed.
Lemma resid_self (b : list R) : nrm2 (vlin 1 b (-1) b) = 0.
Proof.
  unfold nrm2, nrm2sq. rewrite Rsum_0; [apply sqrt_0|]. intros i Hi. rewrite vlin_length in Hi. rewrite nth_vlin by done. ring.
Qed.
(** The recovered image reproduces every measurement up to eps in the 2-norm, strictly below it if eps is
    positive, and l1 is the l1 norm of its DCT; nothing but x_out changed. *)
Theorem l1qc_dct_reproduces_measurements (s : @st ER) nr nc mb mo ms bb bo (bv : list R) bx ox (opts : @L1qcOpts ER) (e : R) tau stages :
  @dct_call ER s nr nc mb mo ms bb bo (fin bv) bx ox -> (forall i, alloc_ok (en s) i = true) -> NoDup ms -> planner_finite s ->
  lo_epsilon opts = Fin e -> 0 <= e ->
  @starts ER (nr * nc) (@start ER fft1 fft2 s nr nc opts ms (fin bv)) opts tau stages -> @counts_fit ER opts stages ->
  exists r s' img, call nr nc bx ox ms bb bo mb mo opts s = Ok (0%Z, Some r) s' /\ length img = (nr * nc)%nat /\
    same_heap (@wr ER (Ptr bx ox) (fin img) s) s' /\
    nrm2 (resid (sample ms) bv img) <= e /\ (0 < e -> nrm2 (resid (sample ms) bv img) < e) /\
    lb_l1 r = Fin (nrm1 (xf_fwd (Z.of_nat nr) (Z.of_nat nc) (lo_dct_mode opts) img)).
Proof.
  intros HC HG ND HP He He0 Hs Hct.
  pose proof (@l1qc_dct_run ER fft1 fft2 fft1_len fft2_len s nr nc mb mo ms bb bo (fin bv) bx ox opts HC ltac:(intros i _; apply HG)) as H. cbv zeta in H.
  rewrite !HG in H. cbn [andb negb] in H. unfold starts, start in Hs. rewrite Hs in H. destruct H as [_ H]. specialize (H ltac:(intros j _; apply HG)).
  destruct HC as [Hu Hr Hc Hfit Hi Hkind Hmb Hin Hn Hb Lb Hx Hal]. rewrite fin_length in Lb. set (m := (nr * nc)%nat) in *. set (n := length ms) in *.
  assert (Hm : (1 <= m)%nat) by (unfold m; nia).
  destruct (planner_list s m HP) as (w & Lw & Ew).
  set (mode := lo_dct_mode opts) in *.
  pose proof (fun v Lv => fA_fin fft1 fft2 fft1_exact fft2_exact nr nc Hr Hc mode ms v Hin Lv) as HA. fold m in HA.
  set (A := @fA ER fft1 fft2 nr nc (one_d (Z.of_nat nr) (Z.of_nat nc) mode) ms) in *.
  set (Ar := fun x => sample ms (xf_inv (Z.of_nat nr) (Z.of_nat nc) mode x)) in *.
  assert (HL : linmap m n Ar) by (by apply meas_lin).
  rewrite (fAt_fin fft1 fft2 fft1_exact fft2_exact nr nc Hr Hc mode s ms w bv Lw Ew) in H.
  set (x0 := xf_fwd (Z.of_nat nr) (Z.of_nat nc) mode (@scatter RN ms (@at_ RN bv) w)) in *.
  assert (L0 : length x0 = m) by (apply fwd_len).
  assert (R0 : nrm2 (resid Ar bv x0) = 0).
  { unfold resid, Ar, x0. rewrite sample_scatter by done. apply resid_self. }
  assert (HI := infeasible_ER m n A Ar bv e HL HA x0 L0). rewrite He in H.
  destruct (n_infeasible _ _ _ _ _). { exfalso. pose proof (proj1 HI eq_refl). lra. }
  destruct (H Hct) as (s' & E & Ll & HS & _). clear H HI.
  set (B := @fAt ER fft1 fft2 s nr nc (one_d (Z.of_nat nr) (Z.of_nat nc) mode) ms) in *.
  destruct (lb_feasible m n A B (fun xs => B (A xs)) Ar bv x0 e opts tau (Z.to_nat stages) 0 Hm HL HA Lb L0 He ltac:(lra)) as (x' & Ex & F1 & F2).
  rewrite Ex in E, Ll, HS. rewrite fin_length in Ll. rewrite (fM_fin fft1 fft2 fft1_exact fft2_exact nr nc Hr Hc mode s x' Ll) in HS.
  eexists _, s', (xf_inv (Z.of_nat nr) (Z.of_nat nc) mode x'). split; [exact E|]. split; [apply inv_len|]. split; [exact HS|].
  split; [exact F1|]. split; [intros Hp; apply F2; lra|]. cbn [lb_l1]. rewrite fwd_inv by done. by apply asum_ER.
Qed.
(** a negative eps is reported as an infeasible start *)
Theorem l1qc_dct_negative_eps (s : @st ER) nr nc mb mo ms bb bo (bv : list R) bx ox (opts : @L1qcOpts ER) (e : R) tau stages :
  @dct_call ER s nr nc mb mo ms bb bo (fin bv) bx ox -> (forall i, alloc_ok (en s) i = true) -> NoDup ms -> planner_finite s ->
  lo_epsilon opts = Fin e -> e < 0 -> @starts ER (nr * nc) (@start ER fft1 fft2 s nr nc opts ms (fin bv)) opts tau stages ->
  exists r s', call nr nc bx ox ms bb bo mb mo opts s = Ok (L1C_INFEASIBLE_START, Some r) s' /\ same_heap s s'.
Proof.
  intros HC HG ND HP He He0 Hs.
  pose proof (@l1qc_dct_run ER fft1 fft2 fft1_len fft2_len s nr nc mb mo ms bb bo (fin bv) bx ox opts HC ltac:(intros i _; apply HG)) as H. cbv zeta in H.
  rewrite !HG in H. cbn [andb negb] in H. unfold starts, start in Hs. rewrite Hs in H. destruct H as [_ H]. specialize (H ltac:(intros j _; apply HG)).
  destruct HC as [Hu Hr Hc Hfit Hi Hkind Hmb Hin Hn Hb Lb Hx Hal]. rewrite fin_length in Lb.
  destruct (planner_list s (nr * nc) HP) as (w & Lw & Ew).
  set (mode := lo_dct_mode opts) in *.
  rewrite (fAt_fin fft1 fft2 fft1_exact fft2_exact nr nc Hr Hc mode s ms w bv Lw Ew) in H. rewrite He in H.
  set (x0 := xf_fwd (Z.of_nat nr) (Z.of_nat nc) mode (@scatter RN ms (@at_ RN bv) w)) in *.
  assert (HI := infeasible_ER (nr * nc) (length ms) _ _ bv e (meas_lin nr nc mode ms Hin) (fun v Lv => fA_fin fft1 fft2 fft1_exact fft2_exact nr nc Hr Hc mode ms v Hin Lv) x0 ltac:(apply fwd_len)).
  rewrite (proj2 HI) in H; [|pose proof (sqrt_pos (nrm2sq (resid (fun x => sample ms (xf_inv (Z.of_nat nr) (Z.of_nat nc) mode x)) bv x0))); unfold nrm2; lra].
  destruct H as (s' & E & HS & _). eexists _, s'. split; [exact E|done].
Qed.
(** measurements that are all zero, with the number of stages left to the solver: undefined behaviour *)
Theorem l1qc_dct_zero_measurements_undefined (s : @st ER) nr nc mb mo ms bb bo (bv : list R) bx ox (opts : @L1qcOpts ER) (lt mu : R) :
  @dct_call ER s nr nc mb mo ms bb bo (fin bv) bx ox -> (forall i, alloc_ok (en s) i = true) -> NoDup ms -> planner_zero s ->
  (forall i, nth i bv 0 = 0) -> 0 < lt -> 1 < mu -> lo_lbtol opts = Fin lt -> lo_mu opts = Fin mu -> lo_lbiter opts = 0%Z ->
  call nr nc bx ox ms bb bo mb mo opts s = Ub UbCast.
Proof.
  intros HC HG ND HP Hz Hl Hmu El Em Ei.
  pose proof (@l1qc_dct_run ER fft1 fft2 fft1_len fft2_len s nr nc mb mo ms bb bo (fin bv) bx ox opts HC ltac:(intros i _; apply HG)) as H. cbv zeta in H.
  rewrite !HG in H. cbn [andb negb] in H.
  destruct HC as [Hu Hr Hc Hfit Hi Hkind Hmb Hin Hn Hb Lb Hx Hal]. rewrite fin_length in Lb.
  set (mode := lo_dct_mode opts) in *.
  set (w := vec (nr * nc) (fun _ => 0)). assert (Lw : length w = (nr * nc)%nat) by apply vec_len.
  assert (Ew : @scr ER (en s) (nx s + 3) 0 (nr * nc) = fin w). { apply tab_fin'. intros i _. apply HP. }
  rewrite (fAt_fin fft1 fft2 fft1_exact fft2_exact nr nc Hr Hc mode s ms w bv Lw Ew) in H.
  set (x0 := xf_fwd (Z.of_nat nr) (Z.of_nat nc) mode (@scatter RN ms (@at_ RN bv) w)) in *.
  assert (Hw : forall j, nth j (@scatter RN ms (@at_ RN bv) w) 0 = 0).
  { intros j. rewrite <- at_RN. destruct (decide (j ∈ ms)) as [Hj|Hj].
    - apply elem_of_list_lookup in Hj as [i Hi']. pose proof (lookup_lt_Some _ _ _ Hi') as Hlt. assert (En : j = nth i ms 0%nat) by (symmetry; by apply nth_lookup_Some).
      rewrite En. rewrite (@scatter_in RN); [rewrite at_RN; apply Hz|done|done|]. change (nth i ms 0 < @length R w)%nat. rewrite Lw. apply Hin. rewrite <- En. by eapply elem_of_list_lookup_2.
    - rewrite (@scatter_out RN) by done. rewrite at_RN. unfold w. destruct (Nat.lt_ge_cases j (nr * nc)) as [Hj'|Hj'].
      + by rewrite (vec_nth _ (fun _ => 0)) by done.
      + apply nth_overflow. by rewrite vec_len. }
  assert (H0 : forall i, nth i x0 0 = 0).
  { intros i. destruct (xf_inv_m nr nc mode) as (D & _ & E2 & _). unfold x0. rewrite E2. unfold mfwd. destruct (Nat.lt_ge_cases i (nr * nc)) as [Hj'|Hj'].
    - rewrite (vec_nth _ (fun k => _)) by done. apply Rsum_0. intros j _. rewrite Hw. ring.
    - apply nth_overflow. by rewrite vec_len. }
  unfold n_init in H. rewrite Ei, El, Em in H. cbn [Z.eqb] in H.
  destruct (zero_start (nr * nc) x0 lt mu (fwd_len _ _ _ _) H0 Hl Hmu) as [_ E2]. by rewrite E2 in H.
Qed.
End C72.

(** ** Concrete cases *)
Module L1qcEx.
Section ex.
Context `{N : Num}.
(** block 0 holds the indices, block 1 the measurements, block 2 is x_out; nothing was set up *)
Definition pic (e : env) (idx : list nat) (bs xo : list T) : st :=
  mkSt (delete 0%nat (dm (state_of [[]; full bs; full xo]))) {[0%nat := Z.of_nat <$> idx]} ∅ ∅ (fun _ => true) 3 e glob0.
Lemma pic_unborn e idx bs xo : unborn (pic e idx bs xo).
Proof.
  intros b Hb. change (3 <= b)%nat in Hb. split; [|done]. cbn [pic dm]. rewrite lookup_delete_ne by lia. cbn [state_of dm]. apply not_elem_of_list_to_map_1. rewrite fst_zip by (rewrite seq_length; lia).
  rewrite elem_of_seq. simpl. lia.
Qed.
Lemma pic_call e idx bs xo nr nc : (1 <= nr)%nat -> (1 <= nc)%nat -> 2 * Z.of_nat (nr * nc) + 1 <= INT_MAX ->
  (forall k, k ∈ idx -> (k < nr * nc)%nat) -> (1 <= length idx <= nr * nc)%nat -> length bs = length idx -> length xo = (nr * nc)%nat ->
  dct_call (pic e idx bs xo) nr nc 0 0 idx 1 0 bs 2 0.
Proof.
  intros Hr Hc Hf Hin Hn Lb Lx.
  assert (D1 : forall b, b <> 0%nat -> dm (pic e idx bs xo) !! b = dm (state_of [[]; full bs; full xo]) !! b) by (intros b Hb; cbn [pic dm]; by rewrite lookup_delete_ne).
  split; try done.
  - apply pic_unborn.
  - intros i k Hi. unfold ldi. destruct (Z.leb_spec 0 (0 + Z.of_nat i)); [|lia]. cbn [pic im]. rewrite lookup_singleton.
    replace (Z.to_nat (0 + Z.of_nat i)) with i by lia. by rewrite list_lookup_fmap, Hi.
  - cbn [pic nx]. lia.
  - intros i v Hi. unfold cell. rewrite D1 by done. exact (state_of_seg [[]; full bs; full xo] 1 bs eq_refl i v Hi).
  - intros i Hi. unfold cell. rewrite D1 by done. rewrite <- Lx in Hi. exact (state_of_wok [[]; full bs; full xo] 2 (full xo) (length xo) eq_refl ltac:(unfold full; by rewrite fmap_length) i Hi).
Qed.
(** two barrier stages; dct mode as given *)
Definition opts (e mu lbtol : T) (lbiter mode : Z) : L1qcOpts := mkL1qc e mu lbtol zero lbiter lbtol 5 0 lbtol lbtol 10 0 0 mode.
Lemma opts_fit fft1 fft2 s nr nc e mu lt mode ms bs : counters_fit fft1 fft2 s nr nc (opts e mu lt 2 mode) ms bs.
Proof. intros tau stages Hs. assert (stages = 2) as -> by (cbv [starts n_init opts lo_lbiter Z.eqb] in Hs; by injection Hs). unfold counts_fit, INT_MAX. cbn. unfold n_fuel, cgm. cbn. lia. Qed.
Lemma begins m xs e mu lt mode : starts m xs (opts e mu lt 2 mode) (n_tau0 m xs) 2. Proof. done. Qed.
Lemma opts_counts e mu lt mode : counts_fit (opts e mu lt 2 mode) 2.
Proof. unfold counts_fit, INT_MAX. cbn. unfold n_fuel, cgm. cbn. lia. Qed.
(** a memory that grants the requests up to block number k *)
Definition upto (k : nat) : env := mkEnv (fun i => (i <=? k)%nat) (fun _ => true) (fun _ _ _ => zero).
End ex.
Local Open Scope R_scope.
(** a transform as asked for: exact on numbers *)
Definition val (e : er) : R := match e with Fin r => r | _ => 0 end.
Definition f1 (k : fkind) (l : list er) : list er := fin (dft1 k (map val l)).
Definition f2 (k : fkind) (nr nc : nat) (l : list er) : list er := fin (dft2 k nr nc (map val l)).
Lemma val_fin x : map val (fin x) = x.
Proof. unfold fin. rewrite map_map. apply map_id. Qed.
Lemma f1_len k xs : length (f1 k xs) = length xs. Proof. unfold f1. by rewrite fin_length, dft1_len', map_length. Qed.
Lemma f2_len k nr nc xs : length xs = (nr * nc)%nat -> length (f2 k nr nc xs) = (nr * nc)%nat.
Proof. intros H. unfold f2. rewrite fin_length. apply dft2_len'. by rewrite map_length. Qed.
Lemma f1_exact k x : f1 k (fin x) = fin (dft1 k x). Proof. unfold f1. by rewrite val_fin. Qed.
Lemma f2_exact k nr nc (x : list R) : length x = (nr * nc)%nat -> f2 k nr nc (fin x) = fin (dft2 k nr nc x). Proof. intros _. unfold f2. by rewrite val_fin. Qed.
Notation stE := (@st ER).
(** a 2 x 2 image, the 2D transform, pixels 3 and 0 measured as 1 and 2, eps = 1/2 *)
Definition pic2 (e : @env ER) : stE := @pic ER e [3; 0]%nat (fin [1; 2]) (fin [0; 0; 0; 0]).
Definition o2 (e : R) (k : Z) : @L1qcOpts ER := @opts ER (Fin e) (Fin 10) (Fin (1/100)) k dct2.
Lemma call2 e : @dct_call ER (pic2 e) 2 2 0 0 [3; 0]%nat 1 0 (fin [1; 2]) 2 0.
Proof. apply (@pic_call ER e [3; 0]%nat (fin [1; 2]) (fin [0; 0; 0; 0]) 2 2); [lia|lia|unfold INT_MAX; lia| |simpl; lia|by rewrite fin_length|by rewrite fin_length]. intros k Hk. repeat (apply elem_of_cons in Hk as [->|Hk]; [lia|]). by apply elem_of_nil in Hk. Qed.
Lemma distinct : NoDup [3; 0]%nat. Proof. apply (bool_decide_unpack _). vm_compute. done. Qed.
Lemma always_granted (s : stE) : en s = @env0 ER -> forall i, alloc_ok (en s) i = true. Proof. by intros ->. Qed.
Lemma zeros0 (s : stE) : en s = @env0 ER -> planner_zero s. Proof. intros E j. rewrite E. cbn. f_equal. lra. Qed.
Lemma zero_finite (s : stE) : planner_zero s -> planner_finite s. Proof. intros H j. eexists. apply H. Qed.
Example reproduces : exists r s' img, @l1qc_dct ER f1 f2 2 2 (Ptr 2 0) 2 (Ptr 1 0) (Ptr 0 0) (o2 (1/2) 2) (pic2 env0) = Ok (0%Z, Some r) s' /\
  length img = 4%nat /\ @seg ER s' (Ptr 2 0) (fin img) /\ @seg ER s' (Ptr 1 0) (fin [1; 2]) /\ nrm2 (resid (sample [3; 0]%nat) [1; 2] img) < 1/2.
Proof.
  destruct (l1qc_dct_reproduces_measurements f1 f2 f1_len f2_len f1_exact f2_exact (pic2 env0) 2 2 0 0 [3; 0]%nat 1 0 [1; 2] 2 0 (o2 (1/2) 2) (1/2) _ _
    (call2 _) (always_granted (pic2 env0) eq_refl) distinct (zero_finite _ (zeros0 (pic2 env0) eq_refl)) eq_refl ltac:(lra) (@begins ER _ _ _ _ _ _) (@opts_counts ER _ _ _ _)) as (r & s' & img & E & Li & (HD & _) & _ & Hs & _).
  exists r, s', img. split; [exact E|]. split; [exact Li|].
  assert (W : wok (pic2 env0) (Ptr 2 0) (length (fin img))). { rewrite fin_length, Li. exact (dc_x _ _ _ _ _ _ _ _ _ _ _ (call2 env0)). }
  split; [|split; [|apply Hs; lra]].
  - pose proof (@seg_wr ER _ _ _ W) as SW. intros i v Hi. pose proof (SW i v Hi) as Q. unfold cell in *. by rewrite HD.
  - pose proof (@seg_wr_disj ER _ _ _ _ _ W (dc_b _ _ _ _ _ _ _ _ _ _ _ (call2 env0)) ltac:(apply disj_blocks; lia)) as SW.
    intros i v Hi. pose proof (SW i v Hi) as Q. unfold cell in *. by rewrite HD.
Qed.
(** the same call with eps = -1 *)
Example negative_eps : exists r s', @l1qc_dct ER f1 f2 2 2 (Ptr 2 0) 2 (Ptr 1 0) (Ptr 0 0) (o2 (-1) 2) (pic2 env0) = Ok (L1C_INFEASIBLE_START, Some r) s' /\ same_heap (pic2 env0) s'.
Proof.
  exact (l1qc_dct_negative_eps f1 f2 f1_len f2_len f1_exact f2_exact (pic2 env0) 2 2 0 0 [3; 0]%nat 1 0 [1; 2] 2 0 (o2 (-1) 2) (-1) _ _
    (call2 _) (always_granted (pic2 env0) eq_refl) distinct (zero_finite _ (zeros0 (pic2 env0) eq_refl)) eq_refl ltac:(lra) (@begins ER _ _ _ _ _ _)).
Qed.
(** two pixels in a row, the first one measured as 0, the number of stages left to the solver *)
Definition pic1 (e : @env ER) (b : R) : stE := @pic ER e [0]%nat (fin [b]) (fin [7; 7]).
Definition o1 (k : Z) : @L1qcOpts ER := @opts ER (Fin 1) (Fin 10) (Fin (1/100)) k dct1.
Lemma call1 e b : @dct_call ER (pic1 e b) 1 2 0 0 [0]%nat 1 0 (fin [b]) 2 0.
Proof. apply (@pic_call ER e [0]%nat (fin [b]) (fin [7; 7]) 1 2); [lia|lia|unfold INT_MAX; lia| |simpl; lia|by rewrite fin_length|by rewrite fin_length]. intros k Hk. apply elem_of_cons in Hk as [->|Hk]; [lia|]. by apply elem_of_nil in Hk. Qed.
Example zero_measurements : @l1qc_dct ER f1 f2 1 2 (Ptr 2 0) 1 (Ptr 1 0) (Ptr 0 0) (o1 0) (pic1 env0 0) = Ub UbCast.
Proof.
  refine (l1qc_dct_zero_measurements_undefined f1 f2 f1_len f2_len f1_exact f2_exact (pic1 env0 0) 1 2 0 0 [0]%nat 1 0 [0] 2 0 (o1 0) (1/100) 10
    (call1 _ _) (always_granted (pic1 env0 0) eq_refl) (NoDup_singleton _) (zeros0 (pic1 env0 0) eq_refl) _ _ _ eq_refl eq_refl eq_refl); [|lra|lra].
  by intros [|[|]].
Qed.
(** the refusals.  Blocks 3-7 are the set-up's, 8 and 9 l1qc_dct's, 10 a struct, 11 is u, 12-29 the solver's *)
Lemma grants5 (b : R) k : (7 <= k)%nat -> grants (pic1 (@upto ER k) b) 5.
Proof. intros Hk i Hi. change ((3 + i <=? k)%nat = true). apply Nat.leb_le. lia. Qed.
Example u_refused b : @l1qc_dct ER f1 f2 1 2 (Ptr 2 0) 1 (Ptr 1 0) (Ptr 0 0) (o1 2) (pic1 (@upto ER 10) b) = Ub UbUninit.
Proof. by apply (@l1qc_dct_u_refused_undefined ER f1 f2 f1_len f2_len _ _ _ _ _ _ _ _ _ _ _ (o1 2) (call1 (@upto ER 10) b) (grants5 b 10 ltac:(lia))). Qed.
(** every refusal of a single request other than that of u is reported, and x_out keeps its 7s *)
Example refused b k st lb s' : (k <= 28)%nat -> @l1qc_dct ER f1 f2 1 2 (Ptr 2 0) 1 (Ptr 1 0) (Ptr 0 0) (o1 2) (pic1 (@upto ER k) b) = Ok (st, lb) s' ->
  st <> 0%Z -> @seg ER s' (Ptr 2 0) (fin [7; 7]).
Proof.
  intros Hk E Hne. destruct (@l1qc_dct_error_keeps_output ER f1 f2 f1_len f2_len _ 1 2 0 0 [0]%nat 1 0 (fin [b]) 2 0 (o1 2) st lb s' (call1 (@upto ER k) b) (@opts_fit ER f1 f2 _ _ _ _ _ _ _ _ _) E Hne) as [H _].
  intros i v Hi. unfold cell. rewrite H by (cbn; lia). destruct i as [|[|]]; [..|done]; by injection Hi as <-.
Qed.
(** the 2D set-up is refused its first plan: an error code, and three arrays that nobody can free *)
Theorem l1qc_dct_leak_refuted : exists (s : stE) s', @dct_call ER s 2 2 0 0 [3; 0]%nat 1 0 (fin [1; 2]) 2 0 /\
  @l1qc_dct ER f1 f2 2 2 (Ptr 2 0) 2 (Ptr 1 0) (Ptr 0 0) (o2 (1/2) 2) s = Ok (L1C_DCT_INIT_FAILURE, None) s' /\
  forall b, b ∈ [3; 4; 5]%nat -> dm s !! b = None /\ is_Some (dm s' !! b).
Proof.
  set (s := pic2 (@upto ER 5)).
  destruct (@l1qc_dct_2d_setup_leaks ER f1 f2 s 2 2 (Ptr 2 0) (Ptr 1 0) (Ptr 0 0) [3; 0]%nat (o2 (1/2) 2)) as (s' & E & H); [|done| |].
  - exact (@dct_call_accepted ER _ _ _ _ _ _ _ _ _ _ _ (call2 (@upto ER 5))).
  - intros G. specialize (G 3%nat ltac:(lia)). done.
  - exists s, s'. split; [apply call2|]. split; [exact E|]. intros b Hb.
    repeat (apply elem_of_cons in Hb as [->|Hb]); [apply (H 0%nat); [lia|done]|apply (H 1%nat); [lia|done]|apply (H 2%nat); [lia|done]|by apply elem_of_nil in Hb].
Qed.
(** no rows; an index outside the image *)
Example no_rows : @l1qc_dct ER f1 f2 0 2 (Ptr 2 0) 1 (Ptr 1 0) (Ptr 0 0) (o1 2) (pic1 env0 1) = Ok (L1C_DCT_INIT_FAILURE, None) (pic1 env0 1).
Proof. apply (@l1qc_dct_rejects_sizes ER f1 f2); [unfold fits, INT_MIN, INT_MAX; lia|lia]. Qed.
Example bad_index : @l1qc_dct ER f1 f2 1 2 (Ptr 2 0) 1 (Ptr 1 0) (Ptr 0 0) (o1 2) (@pic ER env0 [2]%nat (fin [1]) (fin [7; 7])) = Ok (L1C_DCT_INIT_FAILURE, None) (@pic ER env0 [2]%nat (fin [1]) (fin [7; 7])).
Proof.
  apply (@l1qc_dct_rejects_index ER f1 f2 _ 1 2 (Ptr 2 0) (Ptr 1 0) (Ptr 0 0) (o1 2) [2%Z]); try lia; try done.
  - apply (@pic_unborn ER).
  - intros i z Hi. destruct i as [|]; [|done]. by injection Hi as <-.
  - exists 2%Z. split; [left|lia].
Qed.
End L1qcEx.

Print Assumptions l1qc_dct_rejects_sizes.
Print Assumptions l1qc_dct_rejects_index.
Print Assumptions l1qc_dct_overflow_undefined.
Print Assumptions l1qc_dct_setup_out_of_memory.
Print Assumptions l1qc_dct_outcome.
Print Assumptions l1qc_dct_error_keeps_output.
Print Assumptions l1qc_dct_status.
Print Assumptions l1qc_dct_releases.
Print Assumptions l1qc_dct_1d_setup_releases.
Print Assumptions l1qc_dct_1d_again_undefined.
Print Assumptions l1qc_dct_2d_setup_leaks.
Print Assumptions l1qc_dct_u_refused_undefined.
Print Assumptions l1qc_dct_returns.
Print Assumptions l1qc_dct_reproduces_measurements.
Print Assumptions l1qc_dct_negative_eps.
Print Assumptions l1qc_dct_zero_measurements_undefined.
Print Assumptions L1qcEx.l1qc_dct_leak_refuted.
