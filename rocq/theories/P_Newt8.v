(** * More about l1c_l1qc_newton: counting, the status, and too many measurements. *)
From Coq Require Import ZArith Lia.
From stdpp Require Import base numbers gmap list.
From Verif Require Import P_Loop P_Math P_VCL P_Step P_Memory P_Own P_Own2 P_CG P_LineSearch M_Math M_Memory M_CG M_LineSearch M_Status M_Newton P_Newton P_Newt2 P_Newt3 P_Newt4 P_Newt5 P_Newt6 P_Newt7.
Local Open Scope Z_scope.

(** ** counting *)
Section count.
Context `{N : Num}.
Context (m n : nat) (A B C : list T -> list T) (bs : list T) (params : L1qcOpts).
Lemma lb_count k l : exists ks : list (nat * bool),
  let w := n_lb m n A B C bs params k l in
  length ks = k /\ Forall (fun p => (fst p <= n_fuel params)%nat /\ (snd p = true -> fst p = n_fuel params)) ks /\
  lcalls_ w = (lcalls_ l + sum_list (fst <$> ks))%nat /\
  ltn_ w = ltn_ l + Z.of_nat (sum_list (fst <$> ks) + length (filter (fun p => snd p = true) ks)).
Proof.
  induction k as [|k (ks & H1 & H2 & H3 & H4)].
  - exists []. cbn. repeat split; [constructor|lia|lia].
  - cbn [n_lb]. unfold n_stage at 1 2. cbv zeta in *. set (q := n_lb m n A B C bs params k l) in *.
    destruct (n_loop m n A B C bs params (ltau_ q) (n_fuel params) (n_start m q)) as [[b j] w] eqn:E.
    destruct (n_loop_k _ _ _ _ _ _ _ _ _ _ _ _ _ E) as (K1 & K2 & _). cbn [lcalls_ ltn_].
    exists ((j, negb b) :: ks). split; [simpl; lia|]. split; [constructor; [|done]; cbn; split; [lia|]; intros Hb; apply K2; by destruct b|].
    rewrite fmap_cons. change (sum_list ((j, negb b).1 :: ks.*1)) with (j + sum_list ks.*1)%nat. split; [lia|]. rewrite filter_cons. cbn [snd].
    destruct b; cbn [negb]; [rewrite decide_False by done|rewrite decide_True by done]; cbn [length]; lia.
Qed.
Lemma lb_tau k l : (forall j, (j <= k)%nat -> ltau_ (n_lb m n A B C bs params j l) = Nat.iter j (fun t => mul t (lo_mu params)) (ltau_ l)).
Proof.
  intros j _. induction j as [|j IH]; [done|]. cbn [n_lb Nat.iter]. unfold n_stage. destruct (n_loop _ _ _ _ _ _ _ _ _ _) as [[b i] w]. cbn [ltau_]. by rewrite IH.
Qed.
End count.

(** ** the status *)
Section status.
Context `{N : Num}.
Lemma status_cases m x n b params Ax Aty AtAx s r s' : l1c_l1qc_newton m x n b params Ax Aty AtAx s = Ok r s' ->
  lb_status r = L1C_SUCCESS \/ lb_status r = L1C_OUT_OF_MEMORY \/ lb_status r = L1C_INFEASIBLE_START.
Proof.
  unfold l1c_l1qc_newton. intros H. apply bind_inv in H as (sc & s1 & _ & H). apply bind_inv in H as (u & s2 & _ & H).
  apply bind_inv in H as ([[[tn tcg] st0] o] & s3 & Hr & H). cbv beta iota in H.
  apply bind_inv in H as ([] & s4 & _ & H). apply bind_inv in H as ([] & s5 & _ & H). apply bind_inv in H as (l1 & s6 & _ & H).
  apply bind_inv in H as ([] & s7 & _ & H). injection H as <- <-. cbn [lb_status].
  destruct (is_null u). { injection Hr as _ _ <- _ _. auto. }
  apply bind_inv in Hr as ([tau lbi] & t1 & _ & Hr). apply bind_inv in Hr as ([st1 P] & t2 & _ & Hr).
  destruct (negb (st1 =? 0)). { injection Hr as _ _ <- _ _. auto. }
  apply bind_inv in Hr as (inf & t3 & _ & Hr).
  destruct (negb (inf =? 0)). { injection Hr as _ _ <- _ _. auto. }
  apply bind_inv in Hr as ([[[? ?] ?] ?] & t4 & _ & Hr). apply bind_inv in Hr as (? & t5 & _ & Hr). injection Hr as _ _ <- _ _. auto.
Qed.
End status.

(** ** more measurements than unknowns *)
Section toomany.
Context `{N : Num}.
(** a call of the operator does not change the size of any block *)
Definition keeps_sizes (op : ptr -> ptr -> M unit) : Prop :=
  forall X D t t', op X D t = Ok tt t' -> forall b, length <$> dm t' !! b = length <$> dm t !! b.
Lemma sizes_wr p ys s b : length <$> dm (wr p ys s) !! b = length <$> dm s !! b.
Proof.
  destruct p as [|b' o]; [done|]. simpl. destruct (decide (b' = b)) as [->|].
  - rewrite lookup_alter. destruct (dm s !! b); [|done]. simpl. by rewrite inserts_length.
  - by rewrite lookup_alter_ne.
Qed.
Lemma forn_reach (I : st -> Prop) k i body s s' : I s -> (forall j t t', I t -> body j t = Ok tt t' -> I t') ->
  forn k i body s = Ok tt s' -> forall j, i <= j < i + Z.of_nat k -> exists t t', I t /\ body j t = Ok tt t'.
Proof.
  intros HI Hb. revert i s HI. induction k as [|k IH]; intros i s HI H j Hj; [lia|]. cbn [forn] in H.
  apply bind_inv in H as ([] & t & E & H). destruct (decide (j = i)) as [->|]; [eauto|].
  eapply (IH (i + 1) t); [by eapply Hb|exact H|lia].
Qed.
Lemma daxpy_too_long n a x b (l : nat) s s' c : dm s !! b = Some c -> (length c = l)%nat -> (l < n)%nat ->
  cblas_daxpy (Z.of_nat n) a x (Ptr b 0) s <> Ok tt s'.
Proof.
  intros Hc Hl Hn H. unfold cblas_daxpy, for_ in H.
  assert (RD : forall (p : ptr) j t v t1, ld p j t = Ok v t1 -> t1 = t).
  { intros p j t v t1. unfold ld. destruct (cell t p j) as [[?|]|]; by intros [=]. }
  refine (match forn_reach (fun t => length <$> dm t !! b = Some l) _ _ _ _ _ _ _ H (Z.of_nat l) _ with ex_intro _ t (ex_intro _ t' (conj Ht E)) => _ end).
  - rewrite Hc. cbn. by rewrite Hl.
  - intros j t t' Ht Hj. apply bind_inv in Hj as (v & t1 & E1 & Hj). apply bind_inv in Hj as (w & t2 & E2 & Hj).
    apply RD in E1 as ->. apply RD in E2 as ->. unfold sto in Hj. destruct (cell t (Ptr b 0) j); [|done]. assert (Hw := f_equal (fun o => match o with Ok _ z => z | Ub _ => t end) Hj). cbn beta iota in Hw. rewrite <- Hw, sizes_wr. exact Ht.
  - lia.
  - apply bind_inv in E as (v & t1 & E1 & E). apply RD in E1 as ->.
    apply bind_inv in E as (w & t2 & E2 & E). unfold ld in E2. replace (cell t (Ptr b 0) (Z.of_nat l)) with (@None (option T)) in E2; [done|].
    symmetry. unfold cell. destruct (dm t !! b) as [c'|]; [|done]. cbn in Ht. injection Ht as Ht. rewrite Z.add_0_l.
    rewrite (proj2 (Z.leb_le _ _)) by lia. rewrite Nat2Z.id. apply lookup_ge_None_2. lia.
Qed.
Lemma too_many s (m n bx bb : nat) xs params Ax Aty AtAx r s' : unborn s -> (bx < nx s)%nat ->
  seg s (Ptr bx 0) xs -> length xs = m -> (m < n)%nat -> 2 * Z.of_nat m + 1 <= INT_MAX -> keeps_sizes Ax ->
  l1c_l1qc_newton (Z.of_nat m) (Ptr bx 0) (Z.of_nat n) (Ptr bb 0) params Ax Aty AtAx s = Ok r s' ->
  lb_status r = L1C_OUT_OF_MEMORY.
Proof.
  intros Hu Hbx Hx Lx Hmn Hmax HA. set (k := nx s).
  destruct (local_own s 3 Hu) as (sA & EA & LA & GA & XA & DA & AA).
  pose proof (ledger_unborn _ _ _ _ Hu LA) as HuA.
  unfold l1c_l1qc_newton. rewrite (bind_ok _ _ _ _ _ EA). fold k. fold k in LA, XA, DA, AA.
  destruct (calloc_own [] [] sA sA (Z.of_nat m) HuA (acct_nil sA)) as (pu & sB & EB & AB & GB & YB & _ & XB).
  rewrite (bind_ok _ _ _ _ _ EB). clear EB.
  pose proof (ac_e _ _ _ _ AB) as EB. cbn [app] in EB. apply Forall_cons_1 in EB as [EB _]. rewrite XA in EB. rewrite Nat2Z.id in EB.
  destruct EB as [(Ep & _ & Ha & DB & AlB)|(Ep & _)]; cbn [e_p e_b e_n e_c] in *.
  2:{ subst pu. cbn [is_null]. rewrite (bind_ok _ _ _ (0, 0, L1C_OUT_OF_MEMORY, None) sB) by done. cbv beta iota.
      by rewrite (bind_ok _ _ _ tt sB) by done. }
  subst pu. cbn [is_null].
  pose proof (ac_l _ _ _ _ AB) as LB. unfold owns in LB. cbn [mbind list_bind app e_p own] in LB.
  pose proof (ledger_unborn _ _ _ _ HuA LB) as HuB.
  assert (Wu : wok sB (Ptr (S k) 0) m).
  { pose proof (seg_block sB (S k) (const_of m zero) DB) as Su. wokt. }
  assert (SxA : seg sA (Ptr bx 0) xs) by (apply (ledger_seg _ _ _ _ _ _ _ LA); [done|apply not_elem_of_nil|done]).
  assert (SxB : seg sB (Ptr bx 0) xs) by (apply (ledger_seg _ _ _ _ _ _ _ LB); [lia|apply not_elem_of_nil|done]).
  pose proof (newton_init_run sB m bx (S k) xs params ltac:(lia) Hmax SxB Lx Wu) as EI.
  intros H. apply bind_inv in H as ([[[tn tcg] st0] o] & s3 & Hr & H). cbv beta iota in H.
  apply bind_inv in H as ([] & s4 & _ & H). apply bind_inv in H as ([] & s5 & _ & H). apply bind_inv in H as (l1 & s6 & _ & H).
  apply bind_inv in H as ([] & s7 & _ & H). injection H as <- <-. cbn [lb_status].
  apply bind_inv in Hr as ([tau lbi] & sC & EI' & Hr). rewrite EI in EI'. clear EI. destruct (n_init m xs params) as [[? ?]|]; [|done].
  injection EI' as -> -> <-. set (sC := wr (Ptr (S k) 0) (n_u0 m xs) sB) in Hr.
  assert (TC : touch [S k] sB sC) by (unfold sC; apply touch_wr; isin).
  assert (LC : ledger [] [(KD, S k); (KD, k)] s sC).
  { apply (ledger_trans2 [] [] [S k] [(KD, S k); (KD, k)] [] s sB sC).
    - apply (ledger_trans2 [] [] [] [(KD, k)] [(KD, S k)] s sA sB); auto.
    - by apply ledger_of_touch.
    - auto.
    - intros b ->%elem_of_list_singleton. right. isin. }
  pose proof (ledger_unborn _ _ _ _ Hu LC) as HuC.
  assert (XC : nx sC = (k + 2)%nat) by (rewrite (t_nx _ _ _ TC); lia).
  assert (DscC : dm sC !! k = Some (replicate 3 None)).
  { rewrite (t_dm _ _ _ TC) by (rewrite elem_of_list_singleton; lia). rewrite (lg_dm _ _ _ _ LB), DA; [done|apply not_elem_of_nil|]. rewrite elem_of_list_singleton. intros [= Hq]. lia. }
  assert (Wsc : wok sC (Ptr k 0) 3).
  { intros i Hi. unfold cell. rewrite DscC. do 3 (destruct i as [|i]; [simpl; eauto|]). lia. }
  destruct (new_run sC m n k (Ptr bb 0) (lo_epsilon params) tau Ax Aty AtAx HuC ltac:(lia) ltac:(lia) Wsc)
    as (st1 & P & sE & EE & LE & GE & Ssc & Hz & Hdw & DE & Hcase). cbv zeta in Hcase. rewrite XC in Hcase.
  rewrite (bind_ok _ _ _ _ _ EE) in Hr. cbv beta iota in Hr.
  destruct Hcase as [(-> & _ & EP & XE & Hpm & Hbuf & _ & Hrow)|(-> & _)].
  2:{ cbn [negb] in Hr. change (negb (L1C_OUT_OF_MEMORY =? 0)) with true in Hr. cbv iota in Hr. by injection Hr as _ _ <- _ _. }
  exfalso. change (negb (0 =? 0)) with false in Hr. cbv iota in Hr. apply bind_inv in Hr as (inf & t1 & Hc & _).
  rewrite EP in Hc. unfold check_feasible_start in Hc. cbn [pb_DWORK7 pb_Ax pb_n pb_b] in Hc.
  apply bind_inv in Hc as (W & t2 & E2 & Hc). unfold ldp in E2. rewrite Hpm in E2. cbn in E2. injection E2 as <- <-.
  apply bind_inv in Hc as ([] & t3 & E3 & Hc). apply bind_inv in Hc as ([] & t4 & E4 & _).
  specialize (HA _ _ _ _ E3 (k + 2 + 11)%nat).
  pose proof (Hrow 0%nat ltac:(lia)) as Hs0. replace (k + 2 + 11 + 0)%nat with (k + 2 + 11)%nat in Hs0 by lia.
  assert (Q : exists c, dm sE !! (k + 2 + 11)%nat = Some c /\ length c = m).
  { eexists. split; [exact Hs0|]. by rewrite fmap_length, const_length. }
  destruct Q as (c & Ec & Lc). rewrite Ec in HA. destruct (dm t3 !! (k + 2 + 11)%nat) as [c'|] eqn:E'; [|done]. simpl in HA. injection HA as HA.
  refine (daxpy_too_long n _ _ _ m _ _ _ E' ltac:(lia) Hmn _). exact E4.
Qed.
End toomany.
