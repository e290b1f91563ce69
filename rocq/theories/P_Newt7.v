(** * Running l1c_l1qc_newton from the call to the return. *)
From Coq Require Import ZArith Lia.
From stdpp Require Import base numbers gmap list.
From Verif Require Import P_Loop P_Math P_VCL P_Step P_Memory P_Own P_Own2 P_CG P_LineSearch M_Math M_Memory M_CG M_LineSearch M_Status M_Newton P_Newton P_Newt2 P_Newt3 P_Newt4 P_Newt5 P_Newt6.
Local Open Scope Z_scope.

Section main.
Context `{N : Num}.
Implicit Types (s : st).

Lemma local_own s k : unborn s -> exists sA, local_d k s = Ok (Ptr (nx s) 0) sA /\ ledger [] [(KD, nx s)] s sA /\ gl sA = gl s /\
  nx sA = S (nx s) /\ dm sA !! nx s = Some (replicate k None) /\ al sA (nx s) = true.
Proof.
  intros Hu. eexists. split; [reflexivity|]. split; [|split; [done|]; split; [done|]; split; [simpl; apply lookup_insert|simpl; by rewrite Nat.eqb_refl]].
  split; simpl.
  - intros q b [= -> ->]%elem_of_list_singleton. split; [lia|]. simpl. rewrite lookup_insert. eauto.
  - apply NoDup_singleton.
  - intros b _ Hb. rewrite lookup_insert_ne; [done|]. intros <-. apply Hb. by apply elem_of_list_singleton.
  - intros b Hb. rewrite lookup_insert_ne; [done|]. intros <-. apply Hb. by apply elem_of_list_singleton.
  - done.
  - done.
  - done.
  - done.
  - lia.
  - intros b Hb. by rewrite (proj2 (Nat.eqb_neq b (nx s))) by lia.
Qed.

Lemma same_on_ledgers F W O W' O' s t t' : ledger W O s t -> ledger W' O' s t' -> gl t' = gl t ->
  (forall b, (b < nx s)%nat -> dm t' !! b = dm t !! b) -> (forall b, b ∈ F -> (b < nx s)%nat) -> same_on F t t'.
Proof.
  intros L L' G D HF. split; [|split; [done|by rewrite (lg_en _ _ _ _ L'), (lg_en _ _ _ _ L)]].
  intros b Hb. apply HF in Hb.
  assert (HO : forall k, (k, b) ∉ O) by (intros k Hk; apply (lg_own _ _ _ _ L) in Hk; lia).
  assert (HO' : forall k, (k, b) ∉ O') by (intros k Hk; apply (lg_own _ _ _ _ L') in Hk; lia).
  split; [by apply D|]. split; [by rewrite (lg_im _ _ _ _ L'), (lg_im _ _ _ _ L)|].
  split; [by rewrite (lg_pm _ _ _ _ L'), (lg_pm _ _ _ _ L)|]. split; [by rewrite (lg_om _ _ _ _ L'), (lg_om _ _ _ _ L)|].
  by rewrite (lg_al _ _ _ _ L'), (lg_al _ _ _ _ L).
Qed.

(** the end of the function: free everything, compute the norm *)
Definition n_tail (m : Z) (x : ptr) (u sc : ptr) (tn tcg status : Z) (o : option Prob) : M LBResult :=
  l1c_free_double u ;! l1qcProb_delete o ;! let* l1 := l1c_dnorm1 m x in free_d sc ;! ret (mkLB l1 tn tcg status).
Lemma tail_run W s t m bx xs bu sc tn tcg status P : unborn s ->
  ledger W (own KD (Ptr bu 0) ++ p_owns P ++ own KD (Ptr sc 0)) s t ->
  (forall p, p ∈ p_ptrs P -> forall b o, p = Ptr b o -> o = 0) ->
  (forall b o, pb_DWORK7 P = Ptr b o -> o = 0 /\ pm t !! b = Some (prows (S b) 7 7)) ->
  (bx < nx s)%nat -> seg t (Ptr bx 0) xs -> length xs = m ->
  exists s', n_tail (Z.of_nat m) (Ptr bx 0) (Ptr bu 0) (Ptr sc 0) tn tcg status (Some P) t = Ok (mkLB (asum_of m xs) tn tcg status) s' /\
    ledger W [] s s' /\ gl s' = gl t /\ (forall b, (b < nx s)%nat -> dm s' !! b = dm t !! b).
Proof.
  intros Hu L Hz Hd Hx Sx Lx. unfold n_tail.
  destruct (free_own _ _ _ _ _ Hu L) as (t1 & E1 & L1 & G1 & X1 & D1); [by intros b o [= <- <-]|].
  rewrite (bind_ok (l1c_free_double _) _ _ _ _ E1). apply free_d_pm in E1.
  destruct (delete_run _ _ _ _ _ Hu L1 Hz) as (t2 & E2 & L2 & G2 & X2 & D2).
  { intros b o Hb. rewrite E1. by apply Hd. }
  rewrite (bind_ok _ _ _ _ _ E2).
  assert (S2 : seg t2 (Ptr bx 0) xs). { intros i v Hi. unfold cell. rewrite D2, D1 by done. by apply (Sx i v Hi). }
  rewrite (bind_ok _ _ _ (asum_of m xs) t2) by (apply dasum_run; [done|lia]).
  destruct (free_own W [] s t2 (Ptr sc 0) Hu) as (t3 & E3 & L3 & G3 & X3 & D3); [by rewrite app_nil_r|by intros b o [= <- <-]|].
  rewrite (bind_ok _ _ _ _ _ E3). exists t3. split; [done|]. split; [done|]. split; [congruence|].
  intros b Hb. by rewrite D3, D2, D1.
Qed.

Context (m n : nat) (A B C : list T -> list T) (Ax Aty AtAx : ptr -> ptr -> M unit).
Context (F : list nat) (J : nat -> st -> Prop) (HO : opers F J Ax Aty AtAx m n A B C).
Context (bs : list T) (params : L1qcOpts).
Notation eps := (lo_epsilon params).
Notation cgm := (cgm params).
Notation n_fuel := (n_fuel params).
(** where the log-barrier iterations start *)
Definition n_begin (xs : list T) (tau : T) (c : nat) : lst := mkL xs (n_u0 m xs) (const_of m zero) tau zero 0 0 c.
(** the caller's side *)
Record ncall (s : st) (c : nat) (bx bb : nat) (xs : list T) : Prop := {
  nc_u : unborn s; nc_J : J c s;
  nc_x : seg s (Ptr bx 0) xs; nc_b : seg s (Ptr bb 0) bs; nc_lx : length xs = m; nc_lb : length bs = n;
  nc_al : is_aligned s (Ptr bx 0) = true;
  nc_bx : (bx < nx s)%nat; nc_bb : (bb < nx s)%nat; nc_F : forall b, b ∈ F -> (b < nx s)%nat;
  nc_ne : bx <> bb; nc_xF : bx ∉ F; nc_bF : bb ∉ F
}.
(** no int counter of the solver overflows *)
Definition counts_fit (lbiter : Z) : Prop := lo_cg_maxiter params < INT_MAX /\
  lbiter < INT_MAX /\ lbiter * (Z.of_nat n_fuel * cgm) <= INT_MAX /\ lbiter * (Z.of_nat n_fuel + 1) <= INT_MAX.
Lemma newton_run s c bx bb xs : ncall s c bx bb xs ->
  (1 <= m)%nat -> (n <= m)%nat -> 2 * Z.of_nat m + 1 <= INT_MAX ->
  let call := l1c_l1qc_newton (Z.of_nat m) (Ptr bx 0) (Z.of_nat n) (Ptr bb 0) params Ax Aty AtAx s in
  let k := nx s in
  if negb (alloc_ok (en s) (k + 1)) then call = Ub UbUninit else
  match n_init m xs params with
  | None => call = Ub UbCast
  | Some (tau, lbiter) =>
      ((exists j, (j < 18)%nat /\ alloc_ok (en s) (k + 2 + j) = false) ->
        exists s', call = Ok (mkLB (asum_of m xs) 0 0 L1C_OUT_OF_MEMORY) s' /\ ledger [] [] s s' /\ gl s' = gl s /\ J c s') /\
      ((forall j, (j < 18)%nat -> alloc_ok (en s) (k + 2 + j) = true) ->
        if n_infeasible n A bs eps xs then
          exists s', call = Ok (mkLB (asum_of m xs) 0 0 L1C_INFEASIBLE_START) s' /\ ledger F [] s s' /\ gl s' = gl s /\ J c s'
        else counts_fit lbiter ->
          let l := n_lb m n A B C bs params (Z.to_nat lbiter) (n_begin xs tau c) in
          exists s', call = Ok (mkLB (asum_of m (lx_ l)) (ltn_ l) (lcg_ l) 0) s' /\ seg s' (Ptr bx 0) (lx_ l) /\ length (lx_ l) = m /\
            ledger (bx :: F) [] s s' /\ gl s' = gl s /\ J (lcalls_ l) s')
  end.
Proof.
  intros [Hu HJ Hx Hb Lx Lb Al Hbx Hbb HFk Hne HxF HbF] Hm Hnm Hmax call k.
  destruct (local_own s 3 Hu) as (sA & EA & LA & GA & XA & DA & AA).
  pose proof (ledger_unborn _ _ _ _ Hu LA) as HuA.
  assert (EeA : en sA = en s) by apply LA.
  unfold call, l1c_l1qc_newton. rewrite (bind_ok _ _ _ _ _ EA). fold k. fold k in LA, XA, DA, AA.
  destruct (calloc_own [] [] sA sA (Z.of_nat m) HuA (acct_nil sA)) as (pu & sB & EB & AB & GB & YB & _ & XB).
  rewrite (bind_ok _ _ _ _ _ EB). clear EB.
  pose proof (ac_e _ _ _ _ AB) as EB. cbn [app] in EB. apply Forall_cons_1 in EB as [EB _]. rewrite XA in EB. rewrite Nat2Z.id in EB.
  replace (k + 1)%nat with (S k) by lia. rewrite <- EeA.
  destruct EB as [(Ep & _ & Ha & DB & AlB)|(Ep & [Hneg|Hno])]; cbn [e_p e_b e_n e_c] in *; [|lia|].
  2:{ rewrite Hno. cbn [negb]. subst pu. cbn [is_null].
      rewrite (bind_ok _ _ _ (0, 0, L1C_OUT_OF_MEMORY, None) sB) by done. cbv beta iota.
      by rewrite (bind_ok _ _ _ tt sB) by done. }
  rewrite Ha. cbn [negb]. subst pu. cbn [is_null].
  pose proof (ac_l _ _ _ _ AB) as LB. unfold owns in LB. cbn [mbind list_bind app e_p own] in LB.
  pose proof (ledger_unborn _ _ _ _ HuA LB) as HuB.
  assert (Wu : wok sB (Ptr (S k) 0) m).
  { pose proof (seg_block sB (S k) (const_of m zero) DB) as Su. wokt. }
  assert (SxA : seg sA (Ptr bx 0) xs) by (apply (ledger_seg _ _ _ _ _ _ _ LA); [done|apply not_elem_of_nil|done]).
  assert (SxB : seg sB (Ptr bx 0) xs) by (apply (ledger_seg _ _ _ _ _ _ _ LB); [lia|apply not_elem_of_nil|done]).
  pose proof (newton_init_run sB m bx (S k) xs params ltac:(lia) Hmax SxB Lx Wu) as EI.
  destruct (n_init m xs params) as [[tau lbiter]|] eqn:NI.
  2:{ unfold bind at 1. unfold bind at 1. by rewrite EI. }
  set (sC := wr (Ptr (S k) 0) (n_u0 m xs) sB) in EI.
  assert (TC : touch [S k] sB sC) by (unfold sC; apply touch_wr; isin).
  assert (LC : ledger [] [(KD, S k); (KD, k)] s sC).
  { apply (ledger_trans2 [] [] [S k] [(KD, S k); (KD, k)] [] s sB sC).
    - apply (ledger_trans2 [] [] [] [(KD, k)] [(KD, S k)] s sA sB); auto.
    - by apply ledger_of_touch.
    - auto.
    - intros b ->%elem_of_list_singleton. right. isin. }
  pose proof (ledger_unborn _ _ _ _ Hu LC) as HuC.
  assert (XC : nx sC = (k + 2)%nat) by (rewrite (t_nx _ _ _ TC); lia).
  assert (EeC : en sC = en s) by apply LC.
  assert (GC : gl sC = gl s) by (rewrite (t_gl _ _ _ TC); congruence).
  assert (SuC : seg sC (Ptr (S k) 0) (n_u0 m xs)) by (unfold sC; apply seg_wr; unfold n_u0; rewrite tab_length; exact Wu).
  assert (DscC : dm sC !! k = Some (replicate 3 None)).
  { rewrite (t_dm _ _ _ TC) by (rewrite elem_of_list_singleton; lia). rewrite (lg_dm _ _ _ _ LB), DA; [done|apply not_elem_of_nil|]. rewrite elem_of_list_singleton. intros [= Hq]. lia. }
  assert (Wsc : wok sC (Ptr k 0) 3).
  { intros i Hi. unfold cell. rewrite DscC. do 3 (destruct i as [|i]; [simpl; eauto|]). lia. }
  destruct (new_run sC m n k (Ptr bb 0) eps tau Ax Aty AtAx HuC ltac:(lia) ltac:(lia) Wsc)
    as (st0 & P & sE & EE & LE & GE & Ssc & Hz & Hdw & DE & Hcase). cbv zeta in Hcase. rewrite XC, EeC in Hcase. rewrite <- EeA in *.
  assert (LsE : ledger [] (p_owns P ++ [(KD, S k); (KD, k)]) s sE).
  { eapply ledger_trans2; [exact LC|exact LE|auto|]. intros b ->%elem_of_list_singleton. right. isin. }
  assert (PO : p_owns P ++ [(KD, S k); (KD, k)] ≡ₚ own KD (Ptr (S k) 0) ++ p_owns P ++ own KD (Ptr k 0)).
  { cbn [own]. change [(KD, S k); (KD, k)] with ([(KD, S k)] ++ [(KD, k)]). rewrite (Permutation_app_comm [(KD, S k)]).
    rewrite Permutation_app_comm. rewrite (Permutation_app_comm [(KD,k)]). cbn [app]. by rewrite <- Permutation_cons_append. }
  assert (SxE : seg sE (Ptr bx 0) xs) by (apply (ledger_seg _ _ _ _ _ _ _ LsE); [done|apply not_elem_of_nil|done]).
  assert (SbE : seg sE (Ptr bb 0) bs) by (apply (ledger_seg _ _ _ _ _ _ _ LsE); [done|apply not_elem_of_nil|done]).
  assert (JE : J c sE).
  { apply (os_same _ _ _ _ _ _ _ _ _ _ HO c s); [done|].
    eapply (same_on_ledgers F [] [] [] _ s); [apply ledger_nil|exact LsE|congruence| |done].
    intros b Hb'. apply LsE; [apply not_elem_of_nil|]. intros Hk. apply (lg_own _ _ _ _ LsE) in Hk. lia. }
  split.
  - (* out of memory *)
    intros Hj. destruct Hcase as [(_ & Hall & _)|(-> & _)].
    { exfalso. destruct Hj as (j & Hj & Ej). rewrite Hall in Ej by done. done. }
    rewrite (bind_ok _ _ _ (0, 0, L1C_OUT_OF_MEMORY, Some P) sE).
    2:{ rewrite (bind_ok _ _ _ _ _ EI). cbv beta iota. rewrite (bind_ok _ _ _ _ _ EE). done. }
    destruct (tail_run [] s sE m bx xs (S k) k 0 0 L1C_OUT_OF_MEMORY P Hu) as (s' & E' & L' & G' & D'); try assumption.
    { eapply ledger_perm; [exact PO|exact LsE]. }
    exists s'. split; [exact E'|]. split; [done|]. split; [congruence|].
    apply (os_same _ _ _ _ _ _ _ _ _ _ HO c sE); [done|]. eapply same_on_ledgers; eassumption.
  - intros Hj. destruct Hcase as [(-> & _ & EP & XE & Hpm & Hbuf & Hrow & _)|(_ & j & Hj1 & Hj2)].
    2:{ rewrite Hj in Hj2 by done. done. }
    set (q := (k + 2)%nat) in *.
    assert (Hpm' : pm sE !! (q + 10)%nat = Some (rows (q + 11) (q + 12) (q + 13) (q + 14) (q + 15) (q + 16) (q + 17))).
    { rewrite Hpm. unfold prows, rows. cbn [seq fmap list_fmap app Nat.sub replicate]. repeat f_equal; lia. }
    assert (OW : forall b, b ∈ [k; S k; q; q+1; q+2; q+3; q+4; q+5; q+6; q+7; q+8; q+9; q+11; q+12; q+13; q+14; q+15; q+16; q+17]%nat ->
       (KD, b) ∈ own KD (Ptr (S k) 0) ++ p_owns P ++ own KD (Ptr k 0)).
    { intros b Hb'. rewrite EP. unfold p_owns. cbn [pb_r pb_fu1 pb_fu2 pb_w1p pb_dx pb_du pb_sig11 pb_sig12 pb_ntgu pb_gradf pb_DWORK7 own own2D seq fmap list_fmap app].
      replace (S (q + 10)) with (q + 11)%nat by lia. replace (S (q + 11)) with (q + 12)%nat by lia. replace (S (q + 12)) with (q + 13)%nat by lia.
      replace (S (q + 13)) with (q + 14)%nat by lia. replace (S (q + 14)) with (q + 15)%nat by lia. replace (S (q + 15)) with (q + 16)%nat by lia.
      replace (S (q + 16)) with (q + 17)%nat by lia.
      repeat (apply elem_of_cons in Hb' as [->|Hb']; [isin|]). by apply elem_of_nil in Hb'. }
    assert (Hd : NoDup (allb k bx (S k) bb q (q+1) (q+2) (q+3) (q+4) (q+5) (q+6) (q+7) (q+8) (q+9) (q+11) (q+12) (q+13) (q+14) (q+15) (q+16) (q+17))%nat).
    { unfold allb. repeat (apply NoDup_cons; split; [repeat (apply not_elem_of_cons; split; [lia|]); apply not_elem_of_nil|]). apply NoDup_nil; done. }
    assert (HF : forall b, b ∈ allb k bx (S k) bb q (q+1) (q+2) (q+3) (q+4) (q+5) (q+6) (q+7) (q+8) (q+9) (q+11) (q+12) (q+13) (q+14) (q+15) (q+16) (q+17) -> b ∉ F).
    { intros b Hb' HbF'. pose proof (HFk b HbF') as HbF2. unfold allb in Hb'.
      repeat (apply elem_of_cons in Hb' as [->|Hb']; [solve [done|lia]|]). by apply elem_of_nil in Hb'. }
    set (WW := WN F k bx (S k) q (q+1) (q+2) (q+3) (q+4) (q+5) (q+6) (q+7) (q+8) (q+9) (q+11) (q+12) (q+13) (q+14) (q+15) (q+16) (q+17)) in *.
    assert (LAY : lay m n J bs k bx (S k) bb q (q+1) (q+2) (q+3) (q+4) (q+5) (q+6) (q+7) (q+8) (q+9) (q+10) (q+11) (q+12) (q+13) (q+14) (q+15) (q+16) (q+17)
        c tau xs (n_u0 m xs) (const_of m zero) (const_of m zero) sE).
    { assert (Hbuf' : forall j, (j < 10)%nat -> seg sE (Ptr (q + j) 0) (const_of (psize m n j) zero)) by (intros j Hj'; by apply Hbuf).
      assert (Hrow' : forall j, (j < 7)%nat -> seg sE (Ptr (q + 11 + j) 0) (const_of m zero)) by (intros j Hj'; by apply Hrow).
      split; try assumption.
      - apply (ledger_seg _ _ _ _ _ _ _ LE); [lia| |done]. notin.
      - exact (Hbuf' 4%nat ltac:(lia)).
      - exact (Hbuf' 5%nat ltac:(lia)).
      - unfold n_u0; len.
      - len.
      - len.
      - eauto.
      - pose proof (Hbuf' 0%nat ltac:(lia)) as Q. rewrite Nat.add_0_r in Q. cbn [psize] in Q. wokt.
      - pose proof (Hbuf' 9%nat ltac:(lia)) as Q. cbn [psize] in Q. wokt.
      - intros b Hb'.
        pose proof (Hbuf' 1%nat ltac:(lia)) as Q1. pose proof (Hbuf' 2%nat ltac:(lia)) as Q2. pose proof (Hbuf' 3%nat ltac:(lia)) as Q3.
        pose proof (Hbuf' 6%nat ltac:(lia)) as Q6. pose proof (Hbuf' 7%nat ltac:(lia)) as Q7. pose proof (Hbuf' 8%nat ltac:(lia)) as Q8. cbn [psize] in *.
        repeat (apply elem_of_cons in Hb' as [->|Hb'];
          [first [wokt | match goal with |- wok _ (Ptr (q + ?a) 0) _ => let d := eval cbv in (a - 11)%nat in
             let Q := fresh in pose proof (Hrow' d ltac:(lia)) as Q; replace (q + 11 + d)%nat with (q + a)%nat in Q by lia; wokt end]|]).
        by apply elem_of_nil in Hb'.
      - intros b Hb'.
        assert (AlE : forall b, (b < q)%nat -> is_aligned sE (Ptr b 0) = is_aligned sC (Ptr b 0)).
        { intros b0 Hb0. apply (ledger_aligned _ _ _ _ _ _ LE). lia. }
        assert (Bx : is_aligned sE (Ptr bx 0) = true). { rewrite (ledger_aligned _ _ _ _ _ _ LsE); [done|lia]. }
        assert (Bu : is_aligned sE (Ptr (S k) 0) = true). { rewrite AlE by lia. rewrite (touch_aligned _ _ _ _ TC). unfold is_aligned. by rewrite AlB. }
        repeat (apply elem_of_cons in Hb' as [->|Hb'];
          [first [done | match goal with |- is_aligned _ (Ptr (q + ?a) 0) = _ => exact (proj2 (Hbuf a ltac:(lia))) end
             | match goal with |- is_aligned _ (Ptr q 0) = _ => replace q with (q + 0)%nat by lia; exact (proj2 (Hbuf 0%nat ltac:(lia))) end
             | match goal with |- is_aligned _ (Ptr (q + ?a) 0) = _ => let d := eval cbv in (a - 11)%nat in
                replace (q + a)%nat with (q + 11 + d)%nat by lia; exact (proj2 (Hrow d ltac:(lia))) end]|]).
        by apply elem_of_nil in Hb'. }
    (* the check *)
    destruct (check_feasible_run m n A B C Ax Aty AtAx F J HO P bs eps k bx bb q (q+1) (q+2) (q+3) (q+4) (q+5) (q+6) (q+7) (q+8) (q+9) (q+10)
       (q+11) (q+12) (q+13) (q+14) (q+15) (q+16) (q+17) EP c sE xs) as (sF & EF & TF & JF); try assumption.
    { repeat (apply NoDup_cons; split; [repeat (apply not_elem_of_cons; split; [lia|]); apply not_elem_of_nil|]). apply NoDup_nil; done. }
    { intros b Hb'. apply HF. unfold allb. sub1 Hb'. }
    { eapply wok_le; [eapply y_w; [exact LAY|isin]|lia]. }
    { eapply y_al; [exact LAY|isin]. } { eapply y_al; [exact LAY|isin]. }
    set (OO := own KD (Ptr (S k) 0) ++ p_owns P ++ own KD (Ptr k 0)) in *.
    assert (LF : ledger F OO s sF).
    { eapply (ledger_trans2 F [] ([(q + 11)%nat] ++ F) OO [] s sE sF).
      - eapply ledger_perm; [exact PO|exact LsE].
      - by apply ledger_of_touch.
      - intros b Hb'. by apply elem_of_nil in Hb'.
      - intros b [Hb'|Hb']%elem_of_app; [right|left; done]. apply OW. sub1 Hb'. }
    assert (PF : pm sF = pm sE) by apply TF.
    destruct (n_infeasible n A bs eps xs) eqn:NF.
    + rewrite (bind_ok _ _ _ (0, 0, L1C_INFEASIBLE_START, Some P) sF).
      2:{ rewrite (bind_ok _ _ _ _ _ EI). cbv beta iota. rewrite (bind_ok _ _ _ _ _ EE). cbv beta iota. cbn [Z.eqb negb].
          by rewrite (bind_ok _ _ _ _ _ EF). }
      destruct (tail_run F s sF m bx xs (S k) k 0 0 L1C_INFEASIBLE_START P Hu) as (s' & E' & L' & G' & D'); try assumption.
      { intros b o Hb'. rewrite PF. by apply Hdw. }
      { apply (ledger_seg _ _ _ _ _ _ _ LF); done. }
      exists s'. split; [exact E'|]. split; [done|]. split; [rewrite G', (t_gl _ _ _ TF); congruence|].
      apply (os_same _ _ _ _ _ _ _ _ _ _ HO c sF); [done|]. eapply same_on_ledgers; eassumption.
    + intros (Hcg & Hbd1 & Hbd2 & Hbd3). set (l0 := n_begin xs tau c).
      assert (LAYF : lay m n J bs k bx (S k) bb q (q+1) (q+2) (q+3) (q+4) (q+5) (q+6) (q+7) (q+8) (q+9) (q+10) (q+11) (q+12) (q+13) (q+14) (q+15) (q+16) (q+17)
        c tau xs (n_u0 m xs) (const_of m zero) (const_of m zero) sF).
      { assert (NF' : forall b, (b < k)%nat \/ (k <= b < q + 10)%nat -> b ∉ F -> b ∉ [(q + 11)%nat] ++ F).
        { intros b Hb' HbF' [Hq|Hq]%elem_of_app; [apply elem_of_list_singleton in Hq; lia|done]. }
        assert (NFF : forall b, (k <= b)%nat -> b ∉ F). { intros b Hb' Hq. apply HFk in Hq. lia. }
        eapply lay_touch; [exact LAY|exact TF|exact JF|..]; try apply LAY.
        all: try (apply (touch_seg _ _ _ _ _ _ TF); [apply NF'; [lia|first [done|apply NFF; lia]]|apply LAY]).
        exists zero, zero. apply (touch_seg _ _ _ _ _ _ TF); [apply NF'; [lia|apply NFF; lia]|done]. }
      destruct (lb_loop_run m n A B C Ax Aty AtAx F J HO P bs params k bx (S k) bb q (q+1) (q+2) (q+3) (q+4) (q+5) (q+6) (q+7) (q+8) (q+9) (q+10)
        (q+11) (q+12) (q+13) (q+14) (q+15) (q+16) (q+17) EP Hd HF Hnm Hmax Hcg Lb (Z.to_nat lbiter) sF l0) as (sG & EG & BG & TG).
      { exists (const_of m zero). exact LAYF. }
      { done. } { done. }
      { destruct (Z.le_gt_cases 0 lbiter); [by rewrite Z2Nat.id|]. replace (Z.to_nat lbiter) with 0%nat by lia. unfold INT_MAX. lia. }
      { destruct (Z.le_gt_cases 0 lbiter); [by rewrite Z2Nat.id|]. replace (Z.to_nat lbiter) with 0%nat by lia. unfold INT_MAX. lia. }
      set (l := n_lb m n A B C bs params (Z.to_nat lbiter) l0) in *.
      assert (EG' : for_acc 1 (lbiter + 1) ((tau, zero, 0, 0) : lbv) (fun _ => lb_iter P (Ptr bx 0) (Ptr (S k) 0) params) sF =
         Ok (ltau_ l, lstep_ l, ltn_ l, lcg_ l) sG).
      { change (Ok (ltau_ l, lstep_ l, ltn_ l, lcg_ l) sG) with (Ok (let w := l in (ltau_ w, lstep_ w, ltn_ w, lcg_ w)) sG). rewrite <- EG. unfold for_acc. f_equal. lia. }
      assert (LG : ledger (bx :: F) OO s sG).
      { eapply (ledger_trans2 (bx :: F) F WW OO [] s sF sG); [exact LF|by apply ledger_of_touch|intros b Hb'; apply elem_of_cons; by right|].
        intros b Hb'. unfold WW, WN in Hb'. apply elem_of_app in Hb' as [Hb'|Hb']; [|left; apply elem_of_cons; by right].
        repeat (apply elem_of_cons in Hb' as [->|Hb']; [first [left; apply elem_of_cons; by left|right; apply OW; isin]|]). by apply elem_of_nil in Hb'. }
      assert (PG : pm sG = pm sE) by (rewrite (t_pm _ _ _ TG); done).
      destruct BG as (dx & LAYG).
      rewrite (bind_ok _ _ _ (ltn_ l, lcg_ l, L1C_SUCCESS, Some P) sG).
      2:{ rewrite (bind_ok _ _ _ _ _ EI). cbv beta iota. rewrite (bind_ok _ _ _ _ _ EE). cbv beta iota. cbn [Z.eqb negb].
          rewrite (bind_ok _ _ _ _ _ EF). cbn [Z.eqb negb]. rewrite (bind_ok _ _ _ _ _ EG').
          rewrite (bind_ok _ _ _ (Z.max 1 (lbiter + 1)) sG) by (apply i32_ok; unfold INT_MIN, INT_MAX in *; lia). done. }
      assert (SxG : seg sG (Ptr bx 0) (lx_ l)) by apply LAYG. assert (LxG : length (lx_ l) = m) by apply LAYG.
      destruct (tail_run (bx :: F) s sG m bx (lx_ l) (S k) k (ltn_ l) (lcg_ l) L1C_SUCCESS P Hu) as (s' & E' & L' & G' & D'); try assumption.
      { intros b o Hb'. rewrite PG. by apply Hdw. }
      exists s'. split; [exact E'|]. split. { intros i v Hi. unfold cell. rewrite D' by done. by apply (SxG i v Hi). }
      split; [done|]. split; [done|]. split; [rewrite G', (t_gl _ _ _ TG), (t_gl _ _ _ TF); congruence|].
      apply (os_same _ _ _ _ _ _ _ _ _ _ HO _ sG); [apply LAYG|]. eapply same_on_ledgers; eassumption.
Qed.
End main.
