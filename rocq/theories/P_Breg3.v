(** * Running l1c_breg_anistropic_TV: every allocation schedule, every outcome. *)
From Coq Require Import ZArith Lia.
From stdpp Require Import base numbers gmap list.
From Verif Require Import P_Loop P_TV P_Math P_Step P_Own P_CG M_Memory M_Status M_Bregman P_Bregman P_Breg2.
Local Open Scope Z_scope.

Section main.
Context `{N : Num}.
Implicit Types (s : st).

Lemma free8 W s0 s (p1 p2 p3 p4 p5 p6 p7 p8 : ptr) (r : Z) : unborn s0 ->
  ledger W (own KD p1 ++ own KD p2 ++ own KD p3 ++ own KD p4 ++ own KD p5 ++ own KD p6 ++ own KD p7 ++ own KD p8) s0 s ->
  (forall p, p ∈ [p1; p2; p3; p4; p5; p6; p7; p8] -> forall b o, p = Ptr b o -> o = 0) ->
  exists s', (l1c_free_double p1 ;! l1c_free_double p2 ;! l1c_free_double p3 ;!
     l1c_free_double p4 ;! l1c_free_double p5 ;! l1c_free_double p6 ;! l1c_free_double p7 ;! l1c_free_double p8 ;! ret r) s = Ok r s' /\
    ledger W [] s0 s' /\ gl s' = gl s /\ nx s' = nx s /\ (forall b, (b < nx s0)%nat -> dm s' !! b = dm s !! b).
Proof.
  intros Hu L Hz.
  destruct (free_own _ _ _ _ _ Hu L) as (t1 & E & L1 & G1 & X1 & D1); [apply Hz; isin|]. rewrite (bind_ok (l1c_free_double _) _ _ _ _ E).
  destruct (free_own _ _ _ _ _ Hu L1) as (t2 & E2 & L2 & G2 & X2 & D2); [apply Hz; isin|]. rewrite (bind_ok (l1c_free_double _) _ _ _ _ E2).
  destruct (free_own _ _ _ _ _ Hu L2) as (t3 & E3 & L3 & G3 & X3 & D3); [apply Hz; isin|]. rewrite (bind_ok (l1c_free_double _) _ _ _ _ E3).
  destruct (free_own _ _ _ _ _ Hu L3) as (t4 & E4 & L4 & G4 & X4 & D4); [apply Hz; isin|]. rewrite (bind_ok (l1c_free_double _) _ _ _ _ E4).
  destruct (free_own _ _ _ _ _ Hu L4) as (t5 & E5 & L5 & G5 & X5 & D5); [apply Hz; isin|]. rewrite (bind_ok (l1c_free_double _) _ _ _ _ E5).
  destruct (free_own _ _ _ _ _ Hu L5) as (t6 & E6 & L6 & G6 & X6 & D6); [apply Hz; isin|]. rewrite (bind_ok (l1c_free_double _) _ _ _ _ E6).
  destruct (free_own _ _ _ _ _ Hu L6) as (t7 & E7 & L7 & G7 & X7 & D7); [apply Hz; isin|]. rewrite (bind_ok (l1c_free_double _) _ _ _ _ E7).
  rewrite <- (app_nil_r (own KD p8)) in L7.
  destruct (free_own _ _ _ _ _ Hu L7) as (t8 & E8 & L8 & G8 & X8 & D8); [apply Hz; isin|]. rewrite (bind_ok (l1c_free_double _) _ _ _ _ E8).
  exists t8. split; [done|]. split; [done|]. split; [congruence|]. split; [congruence|].
  intros b Hb. by rewrite D8, D7, D6, D5, D4, D3, D2, D1.
Qed.

Definition all_granted s (k : nat) : Prop := forall j, (j < k)%nat -> alloc_ok (en s) (nx s + j) = true.
Definition some_refused s (k : nat) : Prop := exists j, (j < k)%nat /\ alloc_ok (en s) (nx s + j) = false.

Lemma breg_run s (n m : nat) bu bf fs mu tol mi mj :
  Z.of_nat (n * m) <= INT_MAX -> unborn s ->
  (some_refused s 8 ->
    exists s', l1c_breg_anistropic_TV (Z.of_nat n) (Z.of_nat m) (Ptr bu 0) (Ptr bf 0) mu tol mi mj s = Ok L1C_OUT_OF_MEMORY s' /\
      ledger [] [] s s' /\ gl s' = gl s /\ nx s' = (nx s + 8)%nat) /\
  ((2 <= n)%nat -> (2 <= m)%nat -> mi < INT_MAX -> mj < INT_MAX -> bu <> bf ->
   seg s (Ptr bf 0) fs -> length fs = (n * m)%nat -> wok s (Ptr bu 0) (n * m) -> is_aligned s (Ptr bu 0) = true ->
   all_granted s 8 ->
    exists K s', stops (breg_err n m (Z.to_nat mj) mu (mul two mu) fs) tol (Z.to_nat mi) K /\
      l1c_breg_anistropic_TV (Z.of_nat n) (Z.of_nat m) (Ptr bu 0) (Ptr bf 0) mu tol mi mj s = Ok L1C_SUCCESS s' /\
      seg s' (Ptr bu 0) (b_u (breg_at n m (Z.to_nat mj) mu (mul two mu) fs K)) /\
      ledger [bu] [] s s' /\ gl s' = gl s /\ nx s' = (nx s + 8)%nat).
Proof.
  intros Hmax Hub.
  unfold l1c_breg_anistropic_TV.
  set (Nz := Z.of_nat n * Z.of_nat m).
  assert (ENz : Nz = Z.of_nat (n * m)) by (unfold Nz; lia).
  pose proof (acct_nil s) as A0.
  destruct (calloc_own [] [] s s Nz Hub A0) as (p1 & t1 & E1 & A1 & G1 & _ & _ & X1).
  destruct (calloc_own _ _ s t1 Nz Hub A1) as (p2 & t2 & E2 & A2 & G2 & _ & _ & X2).
  destruct (calloc_own _ _ s t2 Nz Hub A2) as (p3 & t3 & E3 & A3 & G3 & _ & _ & X3).
  destruct (calloc_own _ _ s t3 Nz Hub A3) as (p4 & t4 & E4 & A4 & G4 & _ & _ & X4).
  destruct (calloc_own _ _ s t4 Nz Hub A4) as (p5 & t5 & E5 & A5 & G5 & _ & _ & X5).
  destruct (calloc_own _ _ s t5 Nz Hub A5) as (p6 & t6 & E6 & A6 & G6 & _ & _ & X6).
  destruct (calloc_own _ _ s t6 Nz Hub A6) as (p7 & t7 & E7 & A7 & G7 & _ & _ & X7).
  destruct (calloc_own _ _ s t7 Nz Hub A7) as (p8 & t8 & E8 & A8 & G8 & _ & _ & X8).
  clear A0 A1 A2 A3 A4 A5 A6 A7. cbn [app] in A8.
  assert (GG : gl t8 = gl s) by congruence. clear G1 G2 G3 G4 G5 G6 G7 G8.
  set (k := nx s) in *.
  assert (XX : nx t8 = (k + 8)%nat) by lia.
  replace (nx t1) with (k + 1)%nat in A8 by lia. replace (nx t2) with (k + 2)%nat in A8 by lia.
  replace (nx t3) with (k + 3)%nat in A8 by lia. replace (nx t4) with (k + 4)%nat in A8 by lia.
  replace (nx t5) with (k + 5)%nat in A8 by lia. replace (nx t6) with (k + 6)%nat in A8 by lia.
  replace (nx t7) with (k + 7)%nat in A8 by lia. clear X1 X2 X3 X4 X5 X6 X7 X8.
  set (z := const_of (Z.to_nat Nz) zero) in *.
  assert (EI : forall j, (j < 8)%nat -> ent_ok s t8 (mkEnt (k + j) Nz (Some <$> z) (nth j [p1; p2; p3; p4; p5; p6; p7; p8] Null))).
  { intros j Hj. pose proof (ac_e _ _ _ _ A8) as HE. rewrite Forall_forall in HE. apply HE.
    do 8 (destruct j as [|j]; [simpl; rewrite ?Nat.add_0_r; isin|]). lia. }
  assert (Hz : forall p, p ∈ [p1; p2; p3; p4; p5; p6; p7; p8] -> forall b o, p = Ptr b o -> o = 0).
  { intros p Hp b o ->. apply elem_of_list_lookup in Hp as [j Hj]. pose proof (lookup_lt_Some _ _ _ Hj) as Hl. simpl in Hl.
    eapply (ent_ptr0 s t8 _ b o (EI j ltac:(lia))). cbn [e_p]. by apply nth_lookup_Some. }
  match goal with |- context [bind (i32 Nz) ?K] => set (cont := K) end.
  rewrite (bind_ok (i32 Nz) cont s Nz s) by (apply i32_ok; unfold INT_MIN; lia). unfold cont; clear cont. cbv beta zeta.
  rewrite (bind_ok _ _ _ _ _ E1), (bind_ok _ _ _ _ _ E2), (bind_ok _ _ _ _ _ E3), (bind_ok _ _ _ _ _ E4),
    (bind_ok _ _ _ _ _ E5), (bind_ok _ _ _ _ _ E6), (bind_ok _ _ _ _ _ E7), (bind_ok _ _ _ _ _ E8).
  clear E1 E2 E3 E4 E5 E6 E7 E8.
  pose proof (ac_l _ _ _ _ A8) as L8. unfold owns in L8. cbn [mbind list_bind app e_p] in L8. rewrite app_nil_r in L8.
  split.
  - (* some allocation refused *)
    intros (j & Hj & Hno).
    assert (Hnull : nth j [p1; p2; p3; p4; p5; p6; p7; p8] Null = Null).
    { destruct (EI j Hj) as [(_ & _ & Hok & _)|(E & _)]; [|done]. simpl in Hok. fold k in Hno. congruence. }
    assert (HB : is_null p1 || is_null p2 || is_null p3 || is_null p4 || is_null p5 || is_null p6 || is_null p7 || is_null p8 = true).
    { clear - Hnull Hj. do 8 (destruct j as [|j]; [simpl in Hnull; subst; simpl; rewrite ?orb_true_r; done|]). lia. }
    rewrite HB. rewrite (bind_ok _ _ _ L1C_OUT_OF_MEMORY t8) by done.
    destruct (free8 _ _ _ _ _ _ _ _ _ _ _ L1C_OUT_OF_MEMORY Hub L8 Hz) as (t9 & EF & LF & GF & XF & DF).
    exists t9. split; [exact EF|]. split; [done|]. split; [congruence|lia].
  - intros Hn Hm Hmi Hmj Hne Hf Lf Hw Hal Hgr.
    assert (HP : forall j, (j < 8)%nat -> nth j [p1; p2; p3; p4; p5; p6; p7; p8] Null = Ptr (k + j) 0 /\
        seg t8 (Ptr (k + j) 0) z /\ is_aligned t8 (Ptr (k + j) 0) = true).
    { intros j Hj. destruct (EI j Hj) as [(E & _ & _ & Hdm & Hal')|(E & Hno)].
      - simpl in E. split; [done|]. split; [by apply seg_block|]. unfold is_aligned. simpl in Hal'. rewrite Hal'. done.
      - exfalso. destruct Hno as [Hno|Hno]; simpl in Hno; [lia|]. pose proof (Hgr j Hj) as Hg. fold k in Hg. congruence. }
    assert (Hbu : (bu < k)%nat) by (eapply wok_old; [exact Hub| |exact Hw]; nia).
    assert (Hbf : (bf < k)%nat).
    { eapply (wok_old s bf 0 (n * m)); [exact Hub|nia|]. rewrite <- Lf. by apply seg_wok. }
    pose proof (acct_seg _ _ _ _ _ _ _ A8 Hbf Hf) as Hf8. pose proof (acct_wok _ _ _ _ _ _ _ A8 Hbu Hw) as Hw8.
    assert (Hal8 : is_aligned t8 (Ptr bu 0) = true) by (by rewrite (acct_aligned _ _ _ _ _ _ A8 Hbu)).
    destruct (HP 0%nat ltac:(lia)) as (Q1 & S1 & AL1). destruct (HP 1%nat ltac:(lia)) as (Q2 & S2 & AL2).
    destruct (HP 2%nat ltac:(lia)) as (Q3 & S3 & AL3). destruct (HP 3%nat ltac:(lia)) as (Q4 & S4 & AL4).
    destruct (HP 4%nat ltac:(lia)) as (Q5 & S5 & AL5). destruct (HP 5%nat ltac:(lia)) as (Q6 & S6 & AL6).
    destruct (HP 6%nat ltac:(lia)) as (Q7 & S7 & AL7). destruct (HP 7%nat ltac:(lia)) as (Q8 & S8 & AL8).
    clear HP EI. cbn [nth] in *. rewrite Nat.add_0_r in *. subst p1 p2 p3 p4 p5 p6 p7 p8.
    cbn [is_null orb].
    set (lam := mul two mu). set (J := Z.to_nat mj). set (C := breg_at n m J mu lam fs). set (R := breg_err n m J mu lam fs).
    clearbody Nz. subst Nz.
    assert (Lz : length z = (n * m)%nat) by (unfold z; rewrite const_of_len; lia).
    pose proof (dcopy_run t8 (n * m) (Ptr bf 0) fs (Ptr bu 0) Hf8 Lf Hw8 ltac:(apply disj_blocks; done)) as E.
    assert (SV : (forall q, q ∈ [bu; k; (k + 1)%nat; (k + 2)%nat; (k + 3)%nat; (k + 4)%nat; (k + 5)%nat; (k + 6)%nat; (k + 7)%nat] -> is_aligned t8 (Ptr q 0) = true)).
    { intros q Hq. repeat (apply elem_of_cons in Hq as [->|Hq]; [assumption|]). by apply elem_of_nil in Hq. }
    assert (Hd : NoDup [bu; bf; k; (k + 1)%nat; (k + 2)%nat; (k + 3)%nat; (k + 4)%nat; (k + 5)%nat; (k + 6)%nat; (k + 7)%nat]).
    { clear - Hbu Hbf Hne. repeat (apply NoDup_cons; split; [repeat (apply not_elem_of_cons; split; [lia|]); apply not_elem_of_nil|]). apply NoDup_nil; done. }
    set (WW := bblocks bu k (k + 1) (k + 2) (k + 3) (k + 4) (k + 5) (k + 6) (k + 7)).
    set (t9 := wr (Ptr bu 0) fs t8) in *.
    assert (T9 : touch WW t8 t9) by (unfold WW, bblocks, t9; apply touch_wr; isin).
    assert (B9 : bholds t9 bu k (k + 1) (k + 2) (k + 3) (k + 4) (C 0%nat)).
    { unfold bholds, C; cbn [breg_at breg_0 b_u b_u1 b_dx b_dy b_bx b_by].
      assert (forall q, (k <= q)%nat -> seg t8 (Ptr q 0) z -> seg t9 (Ptr q 0) z).
      { intros q Hq. apply (touch_seg [bu]); [unfold t9; apply touch_wr; isin|]. apply not_elem_of_cons. split; [lia|apply not_elem_of_nil]. }
      split; [unfold t9; apply seg_wr; by rewrite Lf|].
      replace (const_of (n * m) zero) with z by (unfold z; f_equal; lia).
      repeat split; eauto with lia. }
    assert (F9 : seg t9 (Ptr bf 0) fs).
    { eapply (touch_seg [bu]); [unfold t9; apply touch_wr; isin| |exact Hf8]. apply not_elem_of_cons. split; [done|apply not_elem_of_nil]. }
    set (body := fun (_ : Z) (_ : unit) => bind (breg_iter _ _ _ _ _ _ _ _ _ _ _ _ _ _ _ _ _) _).
    destruct (brkn_rel (fun i (_ : unit) t => (bholds t bu k (k + 1) (k + 2) (k + 3) (k + 4) (C i) /\ seg t (Ptr bf 0) fs /\ touch WW t8 t) /\
           forall j, (1 <= j <= i)%nat -> ltb_ (R j) tol = false)
       (fun i (_ : unit) t => (bholds t bu k (k + 1) (k + 2) (k + 3) (k + 4) (C (S i)) /\ seg t (Ptr bf 0) fs /\ touch WW t8 t) /\
           (forall j, (1 <= j <= i)%nat -> ltb_ (R j) tol = false) /\ ltb_ (R (S i)) tol = true)
       (Z.to_nat mi) 1 tt body t9) as (i & [] & t10 & EB & HB).
    { split; [auto|]. intros; lia. }
    { intros i u0 t Hi ((Bt & Ft & Tt) & Hno). destruct u0.
      assert (HW : forall q, seg t8 (Ptr q 0) z -> wok t (Ptr q 0) (n * m)).
      { intros q Hq. apply (touch_wok _ _ _ _ _ Tt). rewrite <- Lz. by apply seg_wok. }
      destruct (iter_run t n m bu bf k (k + 1) (k + 2) (k + 3) (k + 4) (k + 5) (k + 6) (k + 7) fs (C i) mu tol lam mj Hn Hm Hmax Hmj Hd) as (t' & EQ & Bt' & Tt').
      - intros q Hq. rewrite (touch_aligned _ _ _ _ Tt). by apply SV.
      - exact Ft.
      - exact Lf.
      - by apply breg_at_len.
      - exact Bt.
      - by apply HW.
      - by apply HW.
      - by apply HW.
      - fold J in EQ, Bt'. fold WW in Tt'.
        assert (HI : (bholds t' bu k (k + 1) (k + 2) (k + 3) (k + 4) (C (S i)) /\ seg t' (Ptr bf 0) fs /\ touch WW t8 t')).
        { split; [exact Bt'|]. split; [|eapply touch_trans; eassumption].
          eapply (touch_seg WW); [exact Tt'| |exact Ft]. unfold WW, bblocks.
          clear - Hbf Hne. repeat (apply not_elem_of_cons; split; [lia|]). apply not_elem_of_nil. }
        assert (ER : sqrt_ (div (sqerr_of (n * m) (b_u (breg_S n m J mu lam fs (C i))) (b_u1 (C i))) (dot_of (n * m) (b_u1 (C i)) (b_u1 (C i)))) = R (S i)).
        { unfold R, breg_err. rewrite Nat.sub_succ, Nat.sub_0_r. done. }
        rewrite ER in EQ. unfold body. rewrite (bind_ok _ _ _ _ _ EQ).
        destruct (ltb_ (R (S i)) tol) eqn:ET.
        + exists (Stop tt), t'. split; [done|]. auto.
        + exists (Go tt), t'. split; [done|]. split; [done|]. intros j Hj.
          destruct (decide (j = S i)) as [->|]; [done|apply Hno; lia]. }
    assert (HK : exists K, stops R tol (Z.to_nat mi) K /\ bholds t10 bu k (k + 1) (k + 2) (k + 3) (k + 4) (C K) /\ touch WW t8 t10).
    { destruct HB as [(-> & (Bt & _ & Tt) & Hno)|(Hi & (Bt & _ & Tt) & Hno & Hst)].
      - exists (Z.to_nat mi). split; [|auto]. split; [lia|]. split; [intros j Hj; apply Hno; lia|auto].
      - exists (S i). split; [|auto]. split; [lia|]. split; [intros j Hj; apply Hno; lia|]. right. split; [lia|done]. }
    destruct HK as (K & HS & (Hu10 & _) & T10).
    rewrite (bind_ok _ _ _ L1C_SUCCESS t10).
    2:{ rewrite (bind_ok _ _ _ _ _ E). unfold for_brk.
        replace (Z.to_nat (mi + 1 - 1)) with (Z.to_nat mi) by (f_equal; lia). rewrite (bind_ok _ _ _ _ _ EB).
        cbn [fst]. rewrite (bind_ok _ _ _ (1 + Z.of_nat i) t10); [done|]. apply i32_ok.
        assert (i <= Z.to_nat mi)%nat by (destruct HB as [[? _]|[? _]]; lia). unfold INT_MIN, INT_MAX in *. lia. }
    assert (L10 : ledger [bu] (own KD (Ptr k 0) ++ own KD (Ptr (k + 1) 0) ++ own KD (Ptr (k + 2) 0) ++ own KD (Ptr (k + 3) 0) ++
       own KD (Ptr (k + 4) 0) ++ own KD (Ptr (k + 5) 0) ++ own KD (Ptr (k + 6) 0) ++ own KD (Ptr (k + 7) 0)) s t10).
    { eapply ledger_touch; [eapply ledger_W; [|exact L8]|exact T10|].
      - intros b Hb. by apply elem_of_nil in Hb.
      - unfold WW, bblocks. cbn [own app]. intros b Hb. apply elem_of_cons in Hb as [->|Hb]; [left; isin|right].
        repeat (apply elem_of_cons in Hb as [->|Hb]; [isin|]). by apply elem_of_nil in Hb. }
    destruct (free8 _ _ _ _ _ _ _ _ _ _ _ L1C_SUCCESS Hub L10 Hz) as (t11 & EF & LF & GF & XF & DF).
    exists K, t11. split; [done|]. split; [exact EF|]. split; [|split; [done|split]].
    + intros q v Hq. specialize (Hu10 q v Hq). unfold cell in *. by rewrite DF.
    + rewrite GF, (t_gl _ _ _ T10). done.
    + pose proof (t_nx _ _ _ T10). lia.
Qed.
End main.
