(** * C92: images with one row or one column are denoised outside the bounds of their arrays. *)
From Coq Require Import ZArith Lia.
From stdpp Require Import base numbers gmap list.
From Verif Require Import P_Loop P_TV P_Math P_Step P_Own P_CG M_TV M_Memory M_Status M_Bregman P_Bregman P_Breg2 P_Breg3 T_Bregman.
Local Open Scope Z_scope.

Section thin.
Context `{N : Num}.
Implicit Types (s : st).

Lemma bind_ub {A B} (c : M A) (k : A -> M B) s e : c s = Ub e -> bind c k s = Ub e.
Proof. intros H. unfold bind. by rewrite H. Qed.
Lemma for_ub lo hi (body : Z -> M unit) s e : lo < hi -> body lo s = Ub e -> for_ lo hi body s = Ub e.
Proof. intros H E. unfold for_. destruct (Z.to_nat (hi - lo)) eqn:K; [lia|]. cbn [forn]. by apply bind_ub. Qed.
Lemma for_brk_ub {A} lo hi (a : A) (body : Z -> A -> M (ctl A)) s e : lo < hi -> body lo a s = Ub e -> for_brk lo hi a body s = Ub e.
Proof. intros H E. unfold for_brk. destruct (Z.to_nat (hi - lo)) eqn:K; [lia|]. cbn [brkn]. by apply bind_ub. Qed.
Lemma ld_below s b i : i < 0 -> ld (Ptr b 0) i s = Ub UbOob.
Proof. intros H. unfold ld, cell. by rewrite (proj2 (Z.leb_gt 0 (0 + i))) by lia. Qed.
Lemma ld_above s b c i : dm s !! b = Some c -> Z.of_nat (length c) <= i -> ld (Ptr b 0) i s = Ub UbOob.
Proof.
  intros H Hi. unfold ld, cell. destruct (0 <=? 0 + i); [|done]. rewrite H. rewrite (lookup_ge_None_2 c) by lia. done.
Qed.
(** one column: ddiffT_z reads x[n-2] = x[-1] (TV.c:71) *)
Lemma DxT_column s (n : nat) bx bd xs alpha : (1 <= n)%nat -> Z.of_nat n <= INT_MAX -> bx <> bd -> seg s (Ptr bx 0) xs -> length xs = n -> wok s (Ptr bd 0) n ->
  l1c_DxT (Z.of_nat n) 1 alpha (Ptr bx 0) (Ptr bd 0) s = Ub UbOob.
Proof.
  intros Hn Hmax Hne Hs L Hw. unfold l1c_DxT. change 1 with (Z.of_nat 1). rewrite (bind_ok _ _ _ _ _ (restrict_nm (Ptr bd 0) (Ptr bx 0) n 1 s ltac:(apply disj_blocks; done))).
  apply for_ub; [lia|]. unfold row_body. rewrite (bind_ok _ _ _ _ _ (i32_ok (0 * Z.of_nat 1) s ltac:(unfold INT_MIN, INT_MAX; lia))). cbn [padd]. change (0 + 0 * Z.of_nat 1) with 0. unfold ddiffT_z.
  change 0 with (Z.of_nat 0) at 2. 
  destruct (Hw 0%nat ltac:(lia)) as [v Hv].
  assert (E0 : (let* a := ld (Ptr bx 0) 0 in sto (Ptr bd 0) 0 (mul (opp alpha) a)) s = Ok tt (wr (Ptr bd 0) [mul (opp alpha) (at_ xs 0)] s)).
  { rewrite (bind_ok _ _ _ _ _ (seg_ld s (Ptr bx 0) xs 0 Hs ltac:(lia))). unfold sto. change (Z.of_nat 0) with 0 in Hv. by rewrite Hv. }
  rewrite (bind_ok _ _ _ _ _ E0). rewrite (bind_ok _ _ _ tt (wr (Ptr bd 0) [mul (opp alpha) (at_ xs 0)] s)) by done. apply bind_ub. by apply ld_below.
Qed.
Lemma rhs_column s (n : nat) (bf bdx bbx bdy bby br b1 b2 : nat) dxs bxs dys bys mu lambda :
  (1 <= n)%nat -> Z.of_nat n <= INT_MAX -> NoDup [bdx; bbx; bdy; bby; br; b1; b2] ->
  (forall c, c ∈ [bdx; bbx; bdy; bby; b1] -> is_aligned s (Ptr c 0) = true) ->
  seg s (Ptr bdx 0) dxs -> length dxs = n -> seg s (Ptr bbx 0) bxs -> length bxs = n -> seg s (Ptr bdy 0) dys -> length dys = n -> seg s (Ptr bby 0) bys -> length bys = n ->
  wok s (Ptr br 0) n -> wok s (Ptr b1 0) n -> wok s (Ptr b2 0) n ->
  breg_anis_rhs (Z.of_nat n) 1 (Ptr bf 0) (Ptr bdx 0) (Ptr bbx 0) (Ptr bdy 0) (Ptr bby 0) (Ptr br 0) mu lambda (Ptr b1 0) (Ptr b2 0) s = Ub UbOob.
Proof.
  intros Hn Hmax Hd HA Hdx Ldx Hbx Lbx Hdy Ldy Hby Lby Wr W1 W2. distinct Hd. clear Hd.
  assert (A1 : is_aligned s (Ptr bdx 0) = true) by (apply HA; isin). assert (A2 : is_aligned s (Ptr bbx 0) = true) by (apply HA; isin).
  assert (A3 : is_aligned s (Ptr bdy 0) = true) by (apply HA; isin). assert (A4 : is_aligned s (Ptr bby 0) = true) by (apply HA; isin).
  assert (A5 : is_aligned s (Ptr b1 0) = true) by (apply HA; isin). clear HA.
  unfold breg_anis_rhs. replace (Z.of_nat n * 1) with (Z.of_nat n) by lia. rewrite (bind_ok _ _ _ _ _ (i32_ok (Z.of_nat n) s ltac:(unfold INT_MIN; lia))).
  pose proof (mxpy_z_run s n (Ptr bby 0) bys (Ptr bdy 0) dys (Ptr b1 0) A4 A3 A5 Hby Lby Hdy Ldy W1 ltac:(dis) ltac:(dis)) as E.
  wstep E H1 t1.
  assert (N1 : (n * 1)%nat = n) by lia.
  pose proof (DyT_run t1 (Ptr b1 0) (mxpy_of n bys dys) (Ptr b2 0) n 1 lambda ltac:(split; [rewrite N1; len|]; rewrite N1; split; [exact Hmax|]; split; [dis|]; split; wokt || assumption)) as E.
  change (Z.of_nat 1) with 1 in E. rewrite <- N1 in W2 at 1. wstep E H2 t2.
  pose proof (mxpy_z_run t2 n (Ptr bbx 0) bxs (Ptr bdx 0) dxs (Ptr b1 0) A2 A1 A5 Hbx Lbx Hdx Ldx ltac:(wokt) ltac:(dis) ltac:(dis)) as E.
  clear H1. wstep E H1 t3.
  apply bind_ub. apply (DxT_column t3 n b1 br (mxpy_of n bxs dxs)); [done|done|neq|done|len|wokt].
Qed.
(** one row: the sweep reads u[(0+1)*m] (bregman.c:242) *)
Lemma gs_row s (m : nat) bu br c us rs mu lambda : (2 <= m)%nat -> Z.of_nat m <= INT_MAX -> seg s (Ptr bu 0) us -> length us = m -> dm s !! bu = Some c -> length c = m -> seg s (Ptr br 0) rs -> length rs = m ->
  breg_anis_guass_seidel 1 (Z.of_nat m) (Ptr bu 0) (Ptr br 0) mu lambda s = Ub UbOob.
Proof.
  intros Hm Hmax Hu Lu Hc Lc Hr Lr. unfold breg_anis_guass_seidel. cbv zeta. apply bind_ub. unfold gs_upd, idx. cbn [fst snd].
  assert (I : forall z, 0 <= z <= Z.of_nat m -> i32 z s = Ok z s) by (intros z Hz; apply i32_ok; unfold INT_MIN; lia).
  unfold bind at 1 2. rewrite (I (0 * Z.of_nat m)) by lia. rewrite (I (0 * Z.of_nat m + 0)) by lia.
  change (0 * Z.of_nat m + 0) with (Z.of_nat 0). rewrite (bind_ok _ _ _ _ _ (seg_ld s (Ptr br 0) rs 0 Hr ltac:(lia))).
  unfold bind at 1 2. rewrite (I (0 * Z.of_nat m)) by lia. rewrite (I (0 * Z.of_nat m + (0 + 1))) by lia.
  change (0 * Z.of_nat m + (0 + 1)) with (Z.of_nat 1). rewrite (bind_ok _ _ _ _ _ (seg_ld s (Ptr bu 0) us 1 Hu ltac:(lia))).
  apply bind_ub. cbn [usum]. unfold idx. unfold bind at 1 2. rewrite (I ((0 + 1) * Z.of_nat m)) by lia. rewrite (I ((0 + 1) * Z.of_nat m + 0)) by lia.
  apply bind_ub. eapply ld_above; [exact Hc|lia].
Qed.

Lemma thin_run s (n m : nat) bu bf fs c mu tol mi mj :
  Z.of_nat (n * m) <= INT_MAX -> unborn s -> (1 <= n)%nat -> (1 <= m)%nat -> m = 1%nat \/ (n = 1%nat /\ 1 <= mj) -> 1 <= mi -> bu <> bf ->
  seg s (Ptr bf 0) fs -> length fs = (n * m)%nat -> dm s !! bu = Some c -> length c = (n * m)%nat -> is_aligned s (Ptr bu 0) = true -> all_granted s 8 ->
  l1c_breg_anistropic_TV (Z.of_nat n) (Z.of_nat m) (Ptr bu 0) (Ptr bf 0) mu tol mi mj s = Ub UbOob.
Proof.
  intros Hmax Hub Hn Hm Hthin Hmi Hne Hf Lf Hc Lc Hal Hgr.
  assert (Hw : wok s (Ptr bu 0) (n * m)).
  { intros i Hi. unfold cell. rewrite (proj2 (Z.leb_le 0 (0 + Z.of_nat i))) by lia. rewrite Hc. apply lookup_lt_is_Some_2. lia. }
  unfold l1c_breg_anistropic_TV.
  set (Nz := Z.of_nat n * Z.of_nat m).
  assert (ENz : Nz = Z.of_nat (n * m)) by (unfold Nz; lia).
  pose proof (acct_nil s) as A0.
  destruct (calloc_own [] [] s s Nz Hub A0) as (p1 & t1 & E1 & A1 & G1 & _ & _ & X1).
  destruct (calloc_own _ _ s t1 Nz Hub A1) as (p2 & t2 & E2 & A2 & G2 & _ & _ & X2).
  destruct (calloc_own _ _ s t2 Nz Hub A2) as (p3 & t3 & E3 & A3 & G3 & _ & _ & X3).
  destruct (calloc_own _ _ s t3 Nz Hub A3) as (p4 & t4 & E4 & A4 & G4 & _ & _ & X4).
  destruct (calloc_own _ _ s t4 Nz Hub A4) as (p5 & t5 & E5 & A5 & G5 & _ & _ & X5).
  destruct (calloc_own _ _ s t5 Nz Hub A5) as (p6 & t6 & E6 & A6 & G6 & _ & _ & X6).
  destruct (calloc_own _ _ s t6 Nz Hub A6) as (p7 & t7 & E7 & A7 & G7 & _ & _ & X7).
  destruct (calloc_own _ _ s t7 Nz Hub A7) as (p8 & t8 & E8 & A8 & G8 & _ & _ & X8).
  clear A0 A1 A2 A3 A4 A5 A6 A7. cbn [app] in A8.
  assert (GG : gl t8 = gl s) by congruence. clear G1 G2 G3 G4 G5 G6 G7 G8.
  set (k := nx s) in *.
  assert (XX : nx t8 = (k + 8)%nat) by lia.
  replace (nx t1) with (k + 1)%nat in A8 by lia. replace (nx t2) with (k + 2)%nat in A8 by lia.
  replace (nx t3) with (k + 3)%nat in A8 by lia. replace (nx t4) with (k + 4)%nat in A8 by lia.
  replace (nx t5) with (k + 5)%nat in A8 by lia. replace (nx t6) with (k + 6)%nat in A8 by lia.
  replace (nx t7) with (k + 7)%nat in A8 by lia. clear X1 X2 X3 X4 X5 X6 X7 X8.
  set (z := const_of (Z.to_nat Nz) zero) in *.
  assert (EI : forall j, (j < 8)%nat -> ent_ok s t8 (mkEnt (k + j) Nz (Some <$> z) (nth j [p1; p2; p3; p4; p5; p6; p7; p8] Null))).
  { intros j Hj. pose proof (ac_e _ _ _ _ A8) as HE. rewrite Forall_forall in HE. apply HE.
    do 8 (destruct j as [|j]; [simpl; rewrite ?Nat.add_0_r; isin|]). lia. }
  assert (Hz : forall p, p ∈ [p1; p2; p3; p4; p5; p6; p7; p8] -> forall b o, p = Ptr b o -> o = 0).
  { intros p Hp b o ->. apply elem_of_list_lookup in Hp as [j Hj]. pose proof (lookup_lt_Some _ _ _ Hj) as Hl. simpl in Hl.
    eapply (ent_ptr0 s t8 _ b o (EI j ltac:(lia))). cbn [e_p]. by apply nth_lookup_Some. }
  match goal with |- context [bind (i32 Nz) ?K] => set (cont := K) end.
  rewrite (bind_ok (i32 Nz) cont s Nz s) by (apply i32_ok; unfold INT_MIN; lia). unfold cont; clear cont. cbv beta zeta.
  rewrite (bind_ok _ _ _ _ _ E1), (bind_ok _ _ _ _ _ E2), (bind_ok _ _ _ _ _ E3), (bind_ok _ _ _ _ _ E4),
    (bind_ok _ _ _ _ _ E5), (bind_ok _ _ _ _ _ E6), (bind_ok _ _ _ _ _ E7), (bind_ok _ _ _ _ _ E8).
  clear E1 E2 E3 E4 E5 E6 E7 E8.
  pose proof (ac_l _ _ _ _ A8) as L8. unfold owns in L8. cbn [mbind list_bind app e_p] in L8. rewrite app_nil_r in L8.
  assert (HP : forall j, (j < 8)%nat -> nth j [p1; p2; p3; p4; p5; p6; p7; p8] Null = Ptr (k + j) 0 /\
      seg t8 (Ptr (k + j) 0) z /\ is_aligned t8 (Ptr (k + j) 0) = true).
  { intros j Hj. destruct (EI j Hj) as [(E & _ & _ & Hdm & Hal')|(E & Hno)].
    - simpl in E. split; [done|]. split; [by apply seg_block|]. unfold is_aligned. simpl in Hal'. rewrite Hal'. done.
    - exfalso. destruct Hno as [Hno|Hno]; simpl in Hno; [lia|]. pose proof (Hgr j Hj) as Hg. fold k in Hg. congruence. }
  assert (Hbu : (bu < k)%nat) by (eapply wok_old; [exact Hub| |exact Hw]; nia).
  assert (Hbf : (bf < k)%nat).
  { eapply (wok_old s bf 0 (n * m)); [exact Hub|nia|]. rewrite <- Lf. by apply seg_wok. }
  pose proof (acct_seg _ _ _ _ _ _ _ A8 Hbf Hf) as Hf8. pose proof (acct_wok _ _ _ _ _ _ _ A8 Hbu Hw) as Hw8.
  assert (Hal8 : is_aligned t8 (Ptr bu 0) = true) by (by rewrite (acct_aligned _ _ _ _ _ _ A8 Hbu)).
  destruct (HP 0%nat ltac:(lia)) as (Q1 & S1 & AL1). destruct (HP 1%nat ltac:(lia)) as (Q2 & S2 & AL2).
  destruct (HP 2%nat ltac:(lia)) as (Q3 & S3 & AL3). destruct (HP 3%nat ltac:(lia)) as (Q4 & S4 & AL4).
  destruct (HP 4%nat ltac:(lia)) as (Q5 & S5 & AL5). destruct (HP 5%nat ltac:(lia)) as (Q6 & S6 & AL6).
  destruct (HP 6%nat ltac:(lia)) as (Q7 & S7 & AL7). destruct (HP 7%nat ltac:(lia)) as (Q8 & S8 & AL8).
  clear HP EI. cbn [nth] in *. rewrite Nat.add_0_r in *. subst p1 p2 p3 p4 p5 p6 p7 p8.
  cbn [is_null orb].
  set (lam := mul two mu). set (J := Z.to_nat mj). set (C := breg_at n m J mu lam fs). set (R := breg_err n m J mu lam fs).
  clearbody Nz. subst Nz.
  assert (Lz : length z = (n * m)%nat) by (unfold z; rewrite const_of_len; lia).
  pose proof (dcopy_run t8 (n * m) (Ptr bf 0) fs (Ptr bu 0) Hf8 Lf Hw8 ltac:(apply disj_blocks; done)) as E.
  assert (SV : (forall q, q ∈ [bu; k; (k + 1)%nat; (k + 2)%nat; (k + 3)%nat; (k + 4)%nat; (k + 5)%nat; (k + 6)%nat; (k + 7)%nat] -> is_aligned t8 (Ptr q 0) = true)).
  { intros q Hq. repeat (apply elem_of_cons in Hq as [->|Hq]; [assumption|]). by apply elem_of_nil in Hq. }
  assert (Hd : NoDup [bu; bf; k; (k + 1)%nat; (k + 2)%nat; (k + 3)%nat; (k + 4)%nat; (k + 5)%nat; (k + 6)%nat; (k + 7)%nat]).
  { clear - Hbu Hbf Hne. repeat (apply NoDup_cons; split; [repeat (apply not_elem_of_cons; split; [lia|]); apply not_elem_of_nil|]). apply NoDup_nil; done. }
  set (WW := bblocks bu k (k + 1) (k + 2) (k + 3) (k + 4) (k + 5) (k + 6) (k + 7)).
  set (t9 := wr (Ptr bu 0) fs t8) in *.
  assert (T9 : touch WW t8 t9) by (unfold WW, bblocks, t9; apply touch_wr; isin).
  assert (B9 : bholds t9 bu k (k + 1) (k + 2) (k + 3) (k + 4) (C 0%nat)).
  { unfold bholds, C; cbn [breg_at breg_0 b_u b_u1 b_dx b_dy b_bx b_by].
    assert (forall q, (k <= q)%nat -> seg t8 (Ptr q 0) z -> seg t9 (Ptr q 0) z).
    { intros q Hq. apply (touch_seg [bu]); [unfold t9; apply touch_wr; isin|]. apply not_elem_of_cons. split; [lia|apply not_elem_of_nil]. }
    split; [unfold t9; apply seg_wr; by rewrite Lf|].
    replace (const_of (n * m) zero) with z by (unfold z; f_equal; lia).
    repeat split; eauto with lia. }
  assert (F9 : seg t9 (Ptr bf 0) fs).
  { eapply (touch_seg [bu]); [unfold t9; apply touch_wr; isin| |exact Hf8]. apply not_elem_of_cons. split; [done|apply not_elem_of_nil]. }
  apply bind_ub. rewrite (bind_ok _ _ _ _ _ E). apply bind_ub. apply for_brk_ub; [lia|]. apply bind_ub. unfold breg_iter. cbv zeta.
  destruct B9 as (Hu9 & _ & Sdx & Sdy & Sbx & Sby). unfold C in *. cbn [breg_at breg_0 b_u b_u1 b_dx b_dy b_bx b_by] in *.
  assert (Lz9 : length (const_of (n * m) zero) = (n * m)%nat) by apply const_of_len.
  assert (W9 : forall q, (k <= q)%nat -> seg t8 (Ptr q 0) z -> wok t9 (Ptr q 0) (n * m)) by (intros q Hq Sq; apply (touch_wok _ _ _ _ _ T9); rewrite <- Lz; by apply seg_wok).
  assert (A9 : forall q, q ∈ [bu; k; (k + 1)%nat; (k + 2)%nat; (k + 3)%nat; (k + 4)%nat; (k + 5)%nat; (k + 6)%nat; (k + 7)%nat] -> is_aligned t9 (Ptr q 0) = true) by (intros q Hq; rewrite (touch_aligned _ _ _ _ T9); by apply SV).
  assert (A9' : forall q, q ∈ [(k + 1)%nat; (k + 3)%nat; (k + 2)%nat; (k + 4)%nat; (k + 5)%nat] -> is_aligned t9 (Ptr q 0) = true).
  { intros q Hq. apply A9. clear - Hq. repeat (apply elem_of_cons in Hq as [->|Hq]; [isin|]). by apply elem_of_nil in Hq. }
  destruct (decide (m = 1%nat)) as [Em|Em].
  - subst m. rewrite Nat.mul_1_r in *. apply bind_ub. change (Z.of_nat 1) with 1. clear Hd.
    apply (rhs_column t9 n bf (k + 1) (k + 3) (k + 2) (k + 4) (k + 7) (k + 5) (k + 6) (const_of n zero) (const_of n zero) (const_of n zero) (const_of n zero) mu lam); eauto with lia.
    repeat (apply NoDup_cons; split; [repeat (apply not_elem_of_cons; split; [lia|]); apply not_elem_of_nil|]). by apply NoDup_nil.
  - destruct Hthin as [?|[En Hmj]]; [done|]. subst n. rewrite Nat.mul_1_l in *.
    destruct (rhs_run t9 1 m bf (k + 1) (k + 3) (k + 2) (k + 4) (k + 7) (k + 5) (k + 6) fs (const_of m zero) (const_of m zero) (const_of m zero) (const_of m zero) mu lam) as (t10 & ER & SR & TR);
      rewrite ?Nat.mul_1_l; eauto with lia.
    { clear - Hbf. repeat (apply NoDup_cons; split; [repeat (apply not_elem_of_cons; split; [lia|]); apply not_elem_of_nil|]). by apply NoDup_nil. }
    rewrite (bind_ok _ _ _ _ _ ER). apply bind_ub. apply for_ub; [lia|].
    assert (T10 : touch WW t8 t10) by (eapply touch_trans; [exact T9|]; eapply touch_weaken; [exact TR|]; unfold WW, bblocks; intros q Hq; repeat (apply elem_of_cons in Hq as [->|Hq]; [isin|]); by apply elem_of_nil in Hq).
    assert (LB : exists c', dm t10 !! bu = Some c' /\ length c' = m).
    { pose proof (t_len _ _ _ T10 bu) as Q. assert (Hc8 : dm t8 !! bu = Some c) by (by rewrite (ac_old _ _ _ _ A8 bu Hbu)). rewrite Hc8 in Q. destruct (dm t10 !! bu) as [c'|]; [|done]. exists c'. split; [done|]. simpl in Q. injection Q as Q. lia. }
    destruct LB as (c' & Hc' & Lc').
    eapply (gs_row t10 m bu (k + 7) c' fs _ mu lam); [lia|lia| |lia|exact Hc'|exact Lc'|exact SR|rewrite rhs_of_len; lia].
    eapply touch_seg; [exact TR| |exact Hu9]. clear - Hbu. repeat (apply not_elem_of_cons; split; [lia|]); apply not_elem_of_nil.
Qed.

(** What C15 says for images of at least 2 x 2 pixels (no undefined behaviour) is false for the others: with f and uk arrays of
    n*m doubles, uk not part of a larger array, all eight allocations granted and at least one iteration asked for, the call reads
    outside its arrays when the image is one column wide, and when it is one row high and max_jac_iter >= 1.  The code tests
    neither dimension. *)
Theorem C92_thin_images_refuted (n m bu bf : nat) (fs : list T) (c : list (option T)) (mu tol : T) (mi mj : Z) s :
  (1 <= n)%nat -> (1 <= m)%nat -> Z.of_nat (n * m) <= INT_MAX -> unborn s -> bu <> bf ->
  seg s (Ptr bf 0) fs -> length fs = (n * m)%nat -> dm s !! bu = Some c -> length c = (n * m)%nat -> is_aligned s (Ptr bu 0) = true ->
  (forall j, (j < 8)%nat -> alloc_ok (en s) (nx s + j) = true) -> 1 <= mi ->
  m = 1%nat \/ (n = 1%nat /\ 1 <= mj) ->
  l1c_breg_anistropic_TV (Z.of_nat n) (Z.of_nat m) (Ptr bu 0) (Ptr bf 0) mu tol mi mj s = Ub UbOob.
Proof. intros. eapply thin_run; eauto. Qed.
(** the two places: the transposed row difference of a column, and a sweep over a row *)
Theorem C92_column_difference_refuted (n bx bd : nat) (xs : list T) (alpha : T) s : (1 <= n)%nat -> Z.of_nat n <= INT_MAX -> bx <> bd ->
  seg s (Ptr bx 0) xs -> length xs = n -> wok s (Ptr bd 0) n -> l1c_DxT (Z.of_nat n) 1 alpha (Ptr bx 0) (Ptr bd 0) s = Ub UbOob.
Proof. intros. by eapply DxT_column. Qed.
Theorem C92_row_sweep_refuted (m bu br : nat) (c : list (option T)) (us rs : list T) (mu lambda : T) s : (2 <= m)%nat -> Z.of_nat m <= INT_MAX ->
  seg s (Ptr bu 0) us -> length us = m -> dm s !! bu = Some c -> length c = m -> seg s (Ptr br 0) rs -> length rs = m ->
  breg_anis_guass_seidel 1 (Z.of_nat m) (Ptr bu 0) (Ptr br 0) mu lambda s = Ub UbOob.
Proof. intros. by eapply gs_row. Qed.
End thin.

(** a row of three pixels and a column of two, in every arithmetic *)
Module ThinEx.
Section ex.
Context `{N : Num}.
Example row_case : l1c_breg_anistropic_TV 1 3 (Ptr 1 0) (Ptr 0 0) one zero 10 1 (state_of [full [one; two; zero]; fresh 3]) = Ub UbOob.
Proof.
  apply (C92_thin_images_refuted 1 3 1 0 [one; two; zero] (fresh 3) one zero 10 1); try done; try lia.
  - apply state_unborn.
  - by apply state_of_seg.
Qed.
Example column_case : l1c_breg_anistropic_TV 2 1 (Ptr 1 0) (Ptr 0 0) one zero 10 0 (state_of [full [one; two]; fresh 2]) = Ub UbOob.
Proof.
  apply (C92_thin_images_refuted 2 1 1 0 [one; two] (fresh 2) one zero 10 0); try done; try lia.
  - apply state_unborn.
  - by apply state_of_seg.
Qed.
Example difference_case : l1c_DxT 2 1 two (Ptr 0 0) (Ptr 1 0) (state_of [full [one; two]; fresh 2]) = Ub UbOob.
Proof. apply (C92_column_difference_refuted 2 0 1 [one; two]); try done; try lia; [by apply state_of_seg|by eapply state_of_wok]. Qed.
Example sweep_case : breg_anis_guass_seidel 1 2 (Ptr 0 0) (Ptr 1 0) one two (state_of [full [one; two]; full [two; two]]) = Ub UbOob.
Proof. eapply (C92_row_sweep_refuted 2 0 1 _ [one; two] [two; two]); try done; try lia; by apply state_of_seg. Qed.
End ex.
End ThinEx.
Print Assumptions C92_thin_images_refuted.
Print Assumptions C92_column_difference_refuted.
Print Assumptions C92_row_sweep_refuted.
