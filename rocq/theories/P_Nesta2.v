(** * Running l1c_nesta: every allocation schedule, every outcome. *)
From Coq Require Import ZArith Lia.
From stdpp Require Import base numbers gmap list.
From Verif Require Import Globals P_Loop P_Math P_Step P_Memory P_Own P_Own2 P_Own3 P_CG M_Math M_Memory M_Status M_Nesta P_Newton P_Newt7 P_Nesta.
Local Open Scope Z_scope.

Section alloc.
Context `{N : Num}.
Implicit Types (s : st).
Definition np_ptrs (NP : NProb) : list ptr :=
  [np_xo NP; np_xk NP; np_yk NP; np_zk NP; np_Atb NP; np_gradf NP; np_gradf_sum NP; np_dwork1 NP; np_dwork2 NP].
Definition np_owns (NP : NProb) : list (kind * nat) :=
  own KD (np_xo NP) ++ own KD (np_xk NP) ++ own KD (np_yk NP) ++ own KD (np_zk NP) ++ own KD (np_Atb NP) ++ own KD (np_gradf NP) ++
  own KD (np_gradf_sum NP) ++ own KD (np_dwork1 NP) ++ own KD (np_dwork2 NP) ++ own KO (np_self NP).
Lemma free_prob_run W O s0 s NP : unborn s0 -> ledger W (np_owns NP ++ O) s0 s ->
  (forall p, p ∈ np_self NP :: np_ptrs NP -> forall b o, p = Ptr b o -> o = 0) ->
  exists s', free_nesta_problem NP s = Ok tt s' /\ ledger W O s0 s' /\ gl s' = gl s /\ nx s' = nx s /\
    (forall b, (b < nx s0)%nat -> dm s' !! b = dm s !! b).
Proof.
  intros Hu L Hz. unfold free_nesta_problem. unfold np_owns, np_ptrs in *. rewrite <- !app_assoc in L.
  do 9 (let t := fresh "t" in let E := fresh "E" in let L' := fresh "L" in let G := fresh "G" in let X := fresh "X" in let D := fresh "D" in
    match goal with L : ledger _ _ s0 ?cur |- _ =>
      destruct (free_own _ _ _ _ _ Hu L) as (t & E & L' & G & X & D); [apply Hz; isin|];
      rewrite (bind_ok (l1c_free_double _) _ _ _ _ E); clear E L end).
  match goal with L : ledger _ _ s0 ?cur |- _ => destruct (free_o_own _ _ _ _ _ Hu L) as (t' & E' & L' & G' & X' & D' & _); [apply Hz; isin|] end.
  exists t'. split; [exact E'|]. split; [done|]. split; [congruence|]. split; [congruence|].
  intros b Hb. rewrite D'.
  repeat match goal with D : forall b, (b < nx s0)%nat -> dm ?t !! b = dm _ !! b |- context [dm ?t !! b] => rewrite (D b Hb); clear D end.
  done.
Qed.

(** the struct as _l1c_NestaProb_new leaves it, from block k on *)
Definition np0 (k m n p : nat) : NProb :=
  mkNP (Ptr k 0) (Z.of_nat m) (Z.of_nat n) (Z.of_nat p) (Ptr (k + 1) 0) (Ptr (k + 2) 0) (Ptr (k + 3) 0) (Ptr (k + 4) 0) (Ptr (k + 5) 0)
    (Ptr (k + 6) 0) (Ptr (k + 7) 0) (Ptr (k + 8) 0) (Ptr (k + 9) 0) Null (ax0 (H := N)) zero zero.
Definition nsize (m p j : nat) : nat := if (j <? 7)%nat then m else Nat.max m p.
Lemma nprob_new_run s (m n p : nat) ax : unborn s -> ax_m ax = Z.of_nat m -> ax_n ax = Z.of_nat n -> ax_p ax = Z.of_nat p ->
  exists o s', NestaProb_new ax s = Ok o s' /\ gl s' = gl s /\ (nx s' <= nx s + 10)%nat /\
    (forall b, (b < nx s)%nat -> dm s' !! b = dm s !! b) /\
    ((o = Some (np0 (nx s) m n p) /\ (forall j, (j < 10)%nat -> alloc_ok (en s) (nx s + j) = true) /\ nx s' = (nx s + 10)%nat /\
      ledger [] (np_owns (np0 (nx s) m n p)) s s' /\
      forall j, (j < 9)%nat -> seg s' (Ptr (nx s + 1 + j) 0) (const_of (nsize m p j) zero) /\ is_aligned s' (Ptr (nx s + 1 + j) 0) = true) \/
     (o = None /\ (exists j, (j < 10)%nat /\ alloc_ok (en s) (nx s + j) = false) /\ ledger [] [] s s')).
Proof.
  intros Hu Em En Ep. unfold NestaProb_new. rewrite Em, En, Ep.
  destruct (alloc_o_own s OStruct Hu) as (ps & s1 & E0 & L0 & G0 & X0 & D0 & P0 & A0 & C0).
  rewrite (bind_ok _ _ _ _ _ E0). clear E0.
  destruct C0 as [(-> & Ha & Ho)|(-> & Ha & Ho)].
  2:{ simpl. eexists None, s1. split; [reflexivity|]. split; [done|]. split; [lia|]. split; [intros; by rewrite D0|]. right. split; [done|]. split.
      - exists 0%nat. rewrite Nat.add_0_r. split; [lia|done].
      - exact L0. }
  cbn [is_null]. pose proof (ledger_unborn _ _ _ _ Hu L0) as Hu1.
  assert (He : en s1 = en s) by apply L0.
  pose proof (acct_nil s1) as B0.
  destruct (calloc_own _ _ s1 s1 (Z.of_nat m) Hu1 B0) as (p1 & t1 & E1 & A1 & G1 & _ & _ & X1).
  destruct (calloc_own _ _ s1 t1 (Z.of_nat m) Hu1 A1) as (p2 & t2 & E2 & A2 & G2 & _ & _ & X2).
  destruct (calloc_own _ _ s1 t2 (Z.of_nat m) Hu1 A2) as (p3 & t3 & E3 & A3 & G3 & _ & _ & X3).
  destruct (calloc_own _ _ s1 t3 (Z.of_nat m) Hu1 A3) as (p4 & t4 & E4 & A4 & G4 & _ & _ & X4).
  destruct (calloc_own _ _ s1 t4 (Z.of_nat m) Hu1 A4) as (p5 & t5 & E5 & A5 & G5 & _ & _ & X5).
  destruct (calloc_own _ _ s1 t5 (Z.of_nat m) Hu1 A5) as (p6 & t6 & E6 & A6 & G6 & _ & _ & X6).
  destruct (calloc_own _ _ s1 t6 (Z.of_nat m) Hu1 A6) as (p7 & t7 & E7 & A7 & G7 & _ & _ & X7).
  destruct (calloc_own _ _ s1 t7 (Z.max (Z.of_nat m) (Z.of_nat p)) Hu1 A7) as (p8 & t8 & E8 & A8 & G8 & _ & _ & X8).
  destruct (calloc_own _ _ s1 t8 (Z.max (Z.of_nat m) (Z.of_nat p)) Hu1 A8) as (p9 & t9 & E9 & A9 & G9 & _ & _ & X9).
  clear A1 A2 A3 A4 A5 A6 A7 A8. cbn [app] in A9.
  assert (GG : gl t9 = gl s) by congruence. clear G0 G1 G2 G3 G4 G5 G6 G7 G8 G9.
  rewrite (bind_ok _ _ _ _ _ E1), (bind_ok _ _ _ _ _ E2), (bind_ok _ _ _ _ _ E3), (bind_ok _ _ _ _ _ E4), (bind_ok _ _ _ _ _ E5).
  rewrite (bind_ok _ _ _ _ _ E6), (bind_ok _ _ _ _ _ E7), (bind_ok _ _ _ _ _ E8), (bind_ok _ _ _ _ _ E9).
  clear E1 E2 E3 E4 E5 E6 E7 E8 E9. cbv zeta.
  set (k := nx s) in *.
  assert (XX : nx t9 = (k + 10)%nat) by lia.
  replace (nx s1) with (k + 1 + 0)%nat in A9 by lia.
  replace (nx t1) with (k + 1 + 1)%nat in A9 by lia. replace (nx t2) with (k + 1 + 2)%nat in A9 by lia.
  replace (nx t3) with (k + 1 + 3)%nat in A9 by lia. replace (nx t4) with (k + 1 + 4)%nat in A9 by lia.
  replace (nx t5) with (k + 1 + 5)%nat in A9 by lia. replace (nx t6) with (k + 1 + 6)%nat in A9 by lia.
  replace (nx t7) with (k + 1 + 7)%nat in A9 by lia. replace (nx t8) with (k + 1 + 8)%nat in A9 by lia.
  set (NP := mkNP _ _ _ _ _ _ _ _ _ _ _ _ _ _ _ _ _).
  set (l := [p1; p2; p3; p4; p5; p6; p7; p8; p9]).
  set (zs := [Z.of_nat m; Z.of_nat m; Z.of_nat m; Z.of_nat m; Z.of_nat m; Z.of_nat m; Z.of_nat m; Z.max (Z.of_nat m) (Z.of_nat p); Z.max (Z.of_nat m) (Z.of_nat p)]).
  assert (EI : forall j, (j < 9)%nat -> ent_ok s1 t9 (mkEnt (k + 1 + j) (nth j zs 0) (Some <$> const_of (Z.to_nat (nth j zs 0)) zero) (nth j l Null))).
  { intros j Hj. pose proof (ac_e _ _ _ _ A9) as HE. rewrite Forall_forall in HE. apply HE.
    do 9 (destruct j as [|j]; [cbn [nth l zs]; isin|]). lia. }
  assert (Hz : forall q, q ∈ np_self NP :: np_ptrs NP -> forall b o, q = Ptr b o -> o = 0).
  { intros q Hq b0 o ->. apply elem_of_cons in Hq as [Hq|Hq]; [by injection Hq|].
    change (np_ptrs NP) with l in Hq. apply elem_of_list_lookup in Hq as [j Hj]. pose proof (lookup_lt_Some _ _ _ Hj) as Hl. simpl in Hl.
    eapply (ent_ptr0 s1 t9 _ b0 o (EI j ltac:(lia))). cbn [e_p]. by apply nth_lookup_Some. }
  pose proof (ac_l _ _ _ _ A9) as L9. unfold owns in L9. cbn [mbind list_bind app e_p] in L9. rewrite app_nil_r in L9.
  assert (LP : ledger [] (np_owns NP) s t9).
  { apply (ledger_perm _ ((own KD p1 ++ own KD p2 ++ own KD p3 ++ own KD p4 ++ own KD p5 ++ own KD p6 ++ own KD p7 ++ own KD p8 ++ own KD p9) ++ own KO (Ptr k 0))).
    { by rewrite <- !app_assoc. }
    eapply (ledger_trans2 [] [] []); [exact L0|exact L9| |]; intros ? H; by apply elem_of_nil in H. }
  assert (HD : forall b, (b < k)%nat -> dm t9 !! b = dm s !! b).
  { intros b0 Hb0. apply LP; [apply not_elem_of_nil|]. intros Hk. apply (lg_own _ _ _ _ LP) in Hk. lia. }
  assert (HN : forall j, (j < 9)%nat -> nth j l Null = Null -> alloc_ok (en s) (k + S j) = false).
  { intros j Hj Hn'. replace (k + S j)%nat with (k + 1 + j)%nat by lia. destruct (EI j Hj) as [(Ej & _)|(_ & [Hneg|Hno])]; cbn [e_p e_n e_b] in *.
    - congruence.
    - exfalso. clear - Hneg Hj. do 9 (destruct j as [|j]; [simpl in Hneg; lia|]). lia.
    - rewrite <- He. done. }
  assert (HS : forall j, (j < 9)%nat -> nth j l Null <> Null -> alloc_ok (en s) (k + S j) = true /\ nth j l Null = Ptr (k + S j) 0 /\
      dm t9 !! (k + 1 + j)%nat = Some (Some <$> const_of (nsize m p j) zero) /\ al t9 (k + 1 + j) = true).
  { intros j Hj Hn'. replace (k + S j)%nat with (k + 1 + j)%nat by lia. destruct (EI j Hj) as [(Ej & _ & Ha' & Hdm & Hal)|(Ej & _)]; cbn [e_p e_n e_b e_c] in *; [|done].
    rewrite <- He. split; [done|]. split; [done|]. split; [|done]. rewrite Hdm. do 2 f_equal. f_equal.
    clear - Hj. unfold nsize. do 9 (destruct j as [|j]; [cbn [nth zs Nat.ltb Nat.leb]; lia|]). lia. }
  match goal with |- context [if ?c then _ else _] => destruct c eqn:EC end.
  - (* something refused *)
    rewrite <- (app_nil_r (np_owns NP)) in LP.
    destruct (free_prob_run [] [] s t9 NP Hu LP Hz) as (s' & Ef & Lf & Gf & Xf & Df).
    rewrite (bind_ok _ _ _ _ _ Ef). eexists None, s'. split; [reflexivity|]. split; [congruence|]. split; [lia|].
    split; [intros b Hb; rewrite Df by done; by apply HD|]. right. split; [done|]. split; [|done].
    assert (NC : exists j, (j < 9)%nat /\ nth j l Null = Null).
    { clear - EC. repeat (apply orb_true_iff in EC as [EC|EC]).
      - exists 0%nat. split; [lia|]. by destruct p1. - exists 1%nat. split; [lia|]. by destruct p2.
      - exists 2%nat. split; [lia|]. by destruct p3. - exists 3%nat. split; [lia|]. by destruct p4.
      - exists 4%nat. split; [lia|]. by destruct p5. - exists 5%nat. split; [lia|]. by destruct p6.
      - exists 6%nat. split; [lia|]. by destruct p7. - exists 7%nat. split; [lia|]. by destruct p8.
      - exists 8%nat. split; [lia|]. by destruct p9. }
    destruct NC as (j & Hj & Hn'). exists (S j). split; [lia|]. by apply HN.
  - (* all granted *)
    repeat (apply orb_false_iff in EC as [EC ?]).
    assert (HA : forall j, (j < 9)%nat -> nth j l Null <> Null).
    { intros j Hj. do 9 (destruct j as [|j]; [simpl; intros ->; done|]). lia. }
    assert (ENP : NP = np0 k m n p).
    { pose proof (proj1 (proj2 (HS 0%nat ltac:(lia) (HA 0%nat ltac:(lia))))) as Q0. pose proof (proj1 (proj2 (HS 1%nat ltac:(lia) (HA 1%nat ltac:(lia))))) as Q1.
      pose proof (proj1 (proj2 (HS 2%nat ltac:(lia) (HA 2%nat ltac:(lia))))) as Q2. pose proof (proj1 (proj2 (HS 3%nat ltac:(lia) (HA 3%nat ltac:(lia))))) as Q3.
      pose proof (proj1 (proj2 (HS 4%nat ltac:(lia) (HA 4%nat ltac:(lia))))) as Q4. pose proof (proj1 (proj2 (HS 5%nat ltac:(lia) (HA 5%nat ltac:(lia))))) as Q5.
      pose proof (proj1 (proj2 (HS 6%nat ltac:(lia) (HA 6%nat ltac:(lia))))) as Q6. pose proof (proj1 (proj2 (HS 7%nat ltac:(lia) (HA 7%nat ltac:(lia))))) as Q7.
      pose proof (proj1 (proj2 (HS 8%nat ltac:(lia) (HA 8%nat ltac:(lia))))) as Q8.
      cbn [nth l] in *. unfold NP, np0. by rewrite Q0, Q1, Q2, Q3, Q4, Q5, Q6, Q7, Q8. }
    eexists _, t9. split; [reflexivity|]. split; [done|]. split; [lia|]. split; [done|]. left.
    split; [by rewrite <- ENP|]. split.
    { intros j Hj. destruct j as [|j]; [by rewrite Nat.add_0_r|]. apply HS; [lia|apply HA; lia]. }
    split; [done|]. split; [by rewrite <- ENP|]. intros j Hj. destruct (HS j Hj (HA j Hj)) as (_ & _ & Hdm & Hal). split.
    + by apply seg_block.
    + unfold is_aligned. by rewrite Hal.
Qed.
End alloc.

Section whole.
Context `{N : Num}.
Context (call : fptr -> ptr -> ptr -> M unit).
Context (m n p : nat) (A B Wt Wm : list T -> list T) (F : list nat) (J : st -> Prop) (ax : AxFuns).
Context (HA : oper F J (call (ax_Ax ax)) m n A) (HB : oper F J (call (ax_Aty ax)) n m B).
Context (HWt : oper F J (call (ax_Wtx ax)) m p Wt) (HW : oper F J (call (ax_Wz ax)) p m Wm).
Context (Hp : (1 <= p)%nat).
Implicit Types (s : st).
Definition fields_set : bool :=
  negb (fptr_is_null (ax_Wz ax) || fptr_is_null (ax_Wtx ax) || fptr_is_null (ax_Rx ax) || fptr_is_null (ax_Rty ax)).
Definition ne_L : T := mul (ax_norm_W ax) (ax_norm_W ax).
Definition npk (k bb : nat) (opts : NestaOpts) : NProb :=
  np m n p ax (Ptr k 0) (k + 1) (k + 2) (k + 3) (k + 4) (k + 5) (k + 6) (k + 7) (k + 8) (k + 9) bb (no_sigma opts) ne_L.
Lemma setup_run s k bb bs opts :
  NoDup [(k + 1)%nat; (k + 5)%nat; (k + 8)%nat; bb] -> (forall b, b ∈ [(k + 1)%nat; (k + 5)%nat; (k + 8)%nat; bb] -> b ∉ F) ->
  J s -> seg s (Ptr bb 0) bs -> length bs = n -> wok s (Ptr (k + 1) 0) m -> wok s (Ptr (k + 5) 0) m ->
  seg s (Ptr (k + 8) 0) (const_of (Nat.max m p) zero) ->
  (forall b, b ∈ [(k + 1)%nat; (k + 5)%nat; (k + 8)%nat; bb] -> is_aligned s (Ptr b 0) = true) ->
  fields_set = true ->
  exists s', nesta_setup call (np0 k m n p) (Ptr bb 0) ax opts s =
      Ok (inr (npk k bb opts, ne_mu0 m p Wt (B bs), lit 1 10,
               ne_beta (no_mu opts) (ne_mu0 m p Wt (B bs)) (no_n_continue opts), ne_beta (no_tol opts) (lit 1 10) (no_n_continue opts))) s' /\
    seg s' (Ptr (k + 1) 0) (B bs) /\ seg s' (Ptr (k + 5) 0) (B bs) /\ touch ([(k + 1)%nat; (k + 5)%nat; (k + 8)%nat] ++ F) s s' /\ J s'.
Proof.
  intros Hd HF HJ Sb Lb Wo Wa Sd Hal Hf.
  assert (Al1 := Hal (k + 1)%nat ltac:(isin)). assert (Al2 := Hal (k + 5)%nat ltac:(isin)). assert (Al3 := Hal (k + 8)%nat ltac:(isin)). assert (Al4 := Hal bb ltac:(isin)).
  assert (F1 := HF (k + 1)%nat ltac:(isin)). assert (F2 := HF (k + 5)%nat ltac:(isin)). assert (F3 := HF (k + 8)%nat ltac:(isin)). assert (F4 := HF bb ltac:(isin)).
  clear Hal HF. distinct Hd. clear Hd.
  unfold nesta_setup. unfold fields_set in Hf. apply negb_true_iff in Hf. rewrite Hf. clear Hf. cbv zeta.
  cbn [np0 np_self np_m np_n np_p np_xo np_xk np_yk np_zk np_Atb np_gradf np_gradf_sum np_dwork1 np_dwork2 np_b np_ax np_sigma np_L].
  assert (HT0 : touch ([(k + 1)%nat; (k + 5)%nat; (k + 8)%nat] ++ F) s s) by apply touch_refl.
  set (zs := const_of (Nat.max m p) zero) in *.
  assert (Wd : wok s (Ptr (k + 8) 0) (Nat.max m p)) by (unfold zs in Sd; apply seg_wok in Sd; by rewrite const_of_len in Sd).
  assert (Lz : length zs = Nat.max m p) by apply const_of_len.
  ostep HB (Ptr bb 0) (Ptr (k + 5) 0) Lb Sa HJ t1.
  pose proof (dcopy_run t1 m (Ptr (k + 5) 0) (B bs) (Ptr (k + 1) 0) Sa LA Wo ltac:(dis)) as E.
  wstep E So t2.
  (* W^T x: the first p cells of dwork1 change *)
  assert (Sd2 : seg t2 (padd (Ptr (k + 8) 0) (Z.of_nat p)) (drop p zs)).
  { rewrite <- (take_drop p zs) in Sd. apply seg_app in Sd as [_ Sd]. rewrite take_length in Sd. by replace (p `min` length zs)%nat with p in Sd by lia. }
  clear Sd. cbn [padd] in Sd2. 
  pose proof (op_run _ _ _ _ _ _ HWt t2 (Ptr (k + 1) 0) (B bs) (Ptr (k + 8) 0) HJ So LA ltac:(eapply wok_le; [exact Wd|lia]) ltac:(dis) Al1 Al3 F1 F3) as (t3 & E & HT & HJ').
  pose proof (op_len _ _ _ _ _ _ HWt (B bs) LA) as Lw.
  rewrite (bind_ok _ _ _ _ _ E). clear E HJ.
  assert (S3 : seg t3 (Ptr (k + 8) 0) (Wt (B bs) ++ drop p zs)).
  { apply seg_app. split.
    - apply (seg_of_wr _ _ _ _ _ _ HT); [assumption|]. rewrite Lw. eapply wok_le; [exact Wd|lia].
    - rewrite Lw. apply (touch_seg _ _ _ _ _ _ HT); [assumption|]. apply seg_wr_disj; [|exact Sd2|].
      + rewrite Lw. eapply wok_le; [exact Wd|lia].
      + rewrite Lw. cbn [padd]. intros _. left. lia. }
  clear Sd2. apply touch_of_wr in HT. rename S3 into S3'. xfer HT. rename S3' into S3. clear HT. rename HJ' into HJ.
  set (cs := Wt (B bs) ++ drop p zs) in *.
  assert (Lc : length cs = Nat.max m p) by (unfold cs; rewrite app_length, drop_length, Lw; lia).
  (* absolute values of the first m cells *)
  rewrite <- (take_drop m cs) in S3. apply seg_app in S3 as [S3 S4].
  assert (Lt : length (take m cs) = m) by (rewrite take_length; lia). rewrite Lt in S4.
  pose proof (abs_vec_run t3 m (Ptr (k + 8) 0) (take m cs) (Ptr (k + 8) 0) (take m cs) (src_self t3 (Ptr (k + 8) 0) (take m cs) m Lt) (dst_seg t3 (Ptr (k + 8) 0) (take m cs) m S3 Lt)) as E.
  rewrite (bind_ok _ _ _ _ _ E). clear E.
  set (t4 := wr _ _ t3).
  assert (S5 : seg t4 (Ptr (k + 8) 0) (abs_of m (take m cs) ++ drop m cs)).
  { apply seg_app. split; [apply seg_wr; rewrite abs_of_len; eapply wok_le; [exact Wd|lia]|]. rewrite abs_of_len. unfold t4.
    apply seg_wr_disj; [rewrite abs_of_len; eapply wok_le; [exact Wd|lia]|exact S4|]. rewrite abs_of_len. cbn [padd]. intros _. left. lia. }
  assert (HT4 : touch [(k + 8)%nat] t3 t4) by (apply touch_wr; left).
  clear S3 S4. clearbody t4. xfer HT4.
  rewrite (bind_ok _ _ _ _ _ (max_vec_run t4 p (Ptr (k + 8) 0) _ S5 ltac:(rewrite app_length, abs_of_len, drop_length; lia))).
  unfold ret. exists t4.
  assert (Emu : ne_mu0 m p Wt (B bs) = mul (lit 9 10) (max_of p (abs_of m (take m cs) ++ drop m cs))).
  { unfold ne_mu0, ne_ref. do 2 f_equal. fold zs. fold cs. f_equal.
    apply tab_ext. intros i Hi. f_equal. unfold at_. rewrite !nth_lookup. by rewrite lookup_take by lia. }
  rewrite Emu. split; [done|]. split; [assumption|]. split; [assumption|]. split; [exact HT0|exact HJ].
Qed.

Lemma new_fifo_run s : unborn s ->
  (alloc_ok (en s) (nx s) = true /\ exists s', new_fifo s = Ok (mkFifo (Ptr (nx s) 0) 0 (Ptr (nx s) 0)) s' /\ ledger [] [(KD, nx s)] s s' /\ gl s' = gl s /\
     nx s' = S (nx s) /\ wok s' (Ptr (nx s) 0) 10 /\ is_aligned s' (Ptr (nx s) 0) = luck (en s) (nx s) /\
     (forall b, (b < nx s)%nat -> dm s' !! b = dm s !! b)) \/
  (alloc_ok (en s) (nx s) = false /\ new_fifo s = Ub UbOob).
Proof.
  intros Hu. unfold new_fifo. destruct (malloc_own s 10 Hu) as (q & s1 & E & L & G & X & _ & _ & D & C).
  change (Z.of_nat 10) with NMEAN in E. rewrite (bind_ok _ _ _ _ _ E). clear E.
  destruct C as [(-> & Ha & Hw & Hl)|(-> & Ha)].
  - left. split; [done|]. change NMEAN with (Z.of_nat 10).
    rewrite (bind_ok _ _ _ _ _ (proj1 (init_vec_loop s1 10 (Ptr (nx s) 0) zero Hw))).
    set (s2 := wr _ _ s1). assert (HT : touch [nx s] s1 s2) by (apply touch_wr; left).
    exists s2. split; [done|]. split.
    { apply (ledger_touch [] [nx s] _ s s1); [exact L|done|]. intros b Hb. right. apply elem_of_list_singleton in Hb as ->. left. }
    split; [by rewrite (t_gl _ _ _ HT)|]. split; [by rewrite (t_nx _ _ _ HT)|].
    split; [by apply (touch_wok _ _ _ _ _ HT)|]. split.
    { rewrite (touch_aligned _ _ _ _ HT). unfold is_aligned. rewrite Hl. by destruct (luck _ _). }
    intros b Hb. rewrite (t_dm _ _ _ HT); [by apply D|]. apply not_elem_of_cons. split; [lia|apply not_elem_of_nil].
  - right. split; [done|]. unfold for_. apply bind_ub. change (Z.to_nat (NMEAN - 0)) with 10%nat. cbn [forn]. apply bind_ub. reflexivity.
Qed.

Context (HJs : forall s s', J s -> same_on F s s' -> J s').
Lemma nesta_run s bx bb bs opts :
  unborn s -> ax_m ax = Z.of_nat m -> ax_n ax = Z.of_nat n -> ax_p ax = Z.of_nat p ->
  J s -> (forall b, b ∈ F -> (b < nx s)%nat) -> (bx < nx s)%nat -> (bb < nx s)%nat -> bx <> bb -> bx ∉ F -> bb ∉ F ->
  seg s (Ptr bb 0) bs -> length bs = n -> wok s (Ptr bx 0) m -> is_aligned s (Ptr bb 0) = true -> (n <= Nat.max m p)%nat ->
  no_n_continue opts < INT_MAX ->
  let k := nx s in
  ((exists j, (j < 10)%nat /\ alloc_ok (en s) (k + j) = false) /\
     exists s', l1c_nesta call (Z.of_nat m) (Ptr bx 0) (Z.of_nat n) (Ptr bb 0) ax opts s = Ok L1C_OUT_OF_MEMORY s' /\ ledger [] [] s s' /\ gl s' = gl s) \/
  ((forall j, (j < 10)%nat -> alloc_ok (en s) (k + j) = true) /\ fields_set = false /\
     exists s', l1c_nesta call (Z.of_nat m) (Ptr bx 0) (Z.of_nat n) (Ptr bb 0) ax opts s = Ok L1C_INCONSISTENT_ARGUMENTS s' /\
       ledger [] (np_owns (np0 k m n p)) s s' /\ gl s' = gl s) \/
  ((forall j, (j < 10)%nat -> alloc_ok (en s) (k + j) = true) /\ fields_set = true /\ alloc_ok (en s) (k + 10) = false /\
     l1c_nesta call (Z.of_nat m) (Ptr bx 0) (Z.of_nat n) (Ptr bb 0) ax opts s = Ub UbOob) \/
  ((forall j, (j < 11)%nat -> alloc_ok (en s) (k + j) = true) /\ fields_set = true /\ luck (en s) (k + 10) = false /\ 1 <= no_n_continue opts /\
     l1c_nesta call (Z.of_nat m) (Ptr bx 0) (Z.of_nat n) (Ptr bb 0) ax opts s = Ub UbAlign) \/
  ((forall j, (j < 11)%nat -> alloc_ok (en s) (k + j) = true) /\ fields_set = true /\ (luck (en s) (k + 10) = true \/ no_n_continue opts <= 0) /\
     exists s', l1c_nesta call (Z.of_nat m) (Ptr bx 0) (Z.of_nat n) (Ptr bb 0) ax opts s = Ok 0 s' /\ ledger (bx :: F) [] s s' /\ J s' /\ gl s' = gl s /\
       seg s' (Ptr bx 0) (ne_result m n p A B Wt Wm bs (B bs) (no_sigma opts) ne_L (no_mu opts) (no_tol opts) (no_n_continue opts))).
Proof.
  intros Hu Em En Ep HJ HFo Hbx Hbb Hne HxF HbF Sb Lb Wx Alb Hn Hnc k. unfold l1c_nesta.
  rewrite Em, En, !Z.eqb_refl. cbn [negb orb].
  destruct (nprob_new_run s m n p ax Hu Em En Ep) as (o & s1 & E & G1 & X1' & D1 & C1). fold k in C1.
  rewrite (bind_ok _ _ _ _ _ E). clear E.
  destruct C1 as [(-> & Hg & X1 & L1 & HB1)|(-> & Hr & L1)].
  2:{ left. split; [exact Hr|]. exists s1. done. }
  right. destruct fields_set eqn:Hf.
  2:{ left. split; [done|]. split; [done|]. exists s1. unfold nesta_setup. unfold fields_set in Hf. apply negb_false_iff in Hf. rewrite Hf. done. }
  right.
  assert (FB : forall j, (k <= j)%nat -> j ∉ F). { intros j Hj HjF. apply HFo in HjF. unfold k in Hj. lia. }
  assert (J1 : J s1).
  { apply (HJs s); [done|]. split; [|split; [done|apply L1]]. intros b HbF'. apply HFo in HbF'.
    assert (HO : forall q, (q, b) ∉ np_owns (np0 k m n p)). { intros q Hq. apply (lg_own _ _ _ _ L1) in Hq. lia. }
    split_and!; [by apply D1| |by apply L1|by apply L1|by apply L1]. by rewrite (lg_im _ _ _ _ L1). }
  assert (Sb1 : seg s1 (Ptr bb 0) bs) by (apply (ledger_seg _ _ _ _ _ _ _ L1); [done|apply not_elem_of_nil|done]).
  assert (Wx1 : wok s1 (Ptr bx 0) m) by (by apply (ledger_wok _ _ _ _ _ _ _ L1)).
  assert (Alb1 : is_aligned s1 (Ptr bb 0) = true) by (by rewrite (ledger_aligned _ _ _ _ _ _ L1)).
  assert (WJ : forall j, (j < 9)%nat -> wok s1 (Ptr (k + 1 + j) 0) (nsize m p j)).
  { intros j Hj. destruct (HB1 j Hj) as [Sj _]. apply seg_wok in Sj. by rewrite const_of_len in Sj. }
  assert (AJ : forall j, (j < 9)%nat -> is_aligned s1 (Ptr (k + 1 + j) 0) = true) by (intros j Hj; by apply HB1).
  (* setup *)
  destruct (setup_run s1 k bb bs opts) as (s2 & E & So & Sa & HT2 & J2); try done.
  { repeat (apply NoDup_cons; split; [notin|]). apply NoDup_nil_2. }
  { intros b Hb. repeat (apply elem_of_cons in Hb as [->|Hb]; [first [assumption|apply FB; lia]|]). by apply elem_of_nil in Hb. }
  { pose proof (WJ 0%nat ltac:(lia)) as H. by rewrite Nat.add_0_r in H. }
  { pose proof (WJ 4%nat ltac:(lia)) as H. by replace (k + 1 + 4)%nat with (k + 5)%nat in H by lia. }
  { destruct (HB1 7%nat ltac:(lia)) as [H _]. by replace (k + 1 + 7)%nat with (k + 8)%nat in H by lia. }
  { intros b Hb. repeat (apply elem_of_cons in Hb as [->|Hb]; [|]); [| | |exact Alb1|by apply elem_of_nil in Hb].
    - pose proof (AJ 0%nat ltac:(lia)) as H. by rewrite Nat.add_0_r in H.
    - pose proof (AJ 4%nat ltac:(lia)) as H. by replace (k + 1 + 4)%nat with (k + 5)%nat in H by lia.
    - pose proof (AJ 7%nat ltac:(lia)) as H. by replace (k + 1 + 7)%nat with (k + 8)%nat in H by lia. }
  rewrite (bind_ok _ _ _ _ _ E). clear E.
  set (atb := B bs) in *. set (mu0 := ne_mu0 m p Wt atb) in *. set (bmu := ne_beta (no_mu opts) mu0 _). set (btol := ne_beta (no_tol opts) _ _).
  assert (La : length atb = m) by (by apply (op_len _ _ _ _ _ _ HB)).
  assert (LS2 : ledger (bx :: F) (np_owns (np0 k m n p)) s s2).
  { apply (ledger_touch _ ([(k + 1)%nat; (k + 5)%nat; (k + 8)%nat] ++ F) _ s s1); [|done|].
    - eapply ledger_W; [|exact L1]. intros b Hb. by apply elem_of_nil in Hb.
    - intros b Hb. apply elem_of_app in Hb as [Hb|Hb]; [right|left; by right].
      cbn [np_owns np0 np_xo np_xk np_yk np_zk np_Atb np_gradf np_gradf_sum np_dwork1 np_dwork2 np_self own app].
      repeat (apply elem_of_cons in Hb as [->|Hb]; [isin|]). by apply elem_of_nil in Hb. }
  assert (En2 : en s2 = en s) by apply LS2. assert (X2 : nx s2 = (k + 10)%nat) by (rewrite (t_nx _ _ _ HT2); done).
  assert (Hu2 : unborn s2) by (by eapply ledger_unborn).
  (* the fifo *)
  destruct (new_fifo_run s2 Hu2) as [(Ha & s3 & E & L3 & G3 & X3 & Wf & Alf & D3)|(Ha & E)]; rewrite En2, X2 in *.
  2:{ left. split; [done|]. split; [done|]. split; [done|]. by rewrite (bind_ub _ _ _ _ E). }
  right. rewrite (bind_ok _ _ _ _ _ E). clear E.
  assert (Hg11 : forall j, (j < 11)%nat -> alloc_ok (en s) (k + j) = true).
  { intros j Hj. destruct (decide (j = 10)%nat) as [->|]; [done|]. apply Hg. lia. }
  set (fv := (k + 10)%nat) in *.
  set (f0 := mkFifo (Ptr fv 0) 0 (Ptr fv 0)) in *.
  assert (LS3 : ledger (bx :: F) ([(KD, fv)] ++ np_owns (np0 k m n p)) s s3).
  { eapply (ledger_trans2 _ _ []); [exact LS2|exact L3|auto|intros ? H; by apply elem_of_nil in H]. }
  assert (J3 : J s3).
  { apply (HJs s2); [done|]. split; [|split; [done|apply L3]]. intros b HbF'. apply HFo in HbF'. unfold k in *.
    assert (HO : forall q, (q, b) ∉ [(KD, fv)]). { intros q Hq. apply (lg_own _ _ _ _ L3) in Hq. lia. }
    split_and!; [apply D3; lia| |by apply L3|by apply L3|apply L3; lia]. by rewrite (lg_im _ _ _ _ L3). }
  (* everything at s2, then at s3 *)
  assert (WK : forall j, (j < 9)%nat -> wok s3 (Ptr (k + 1 + j) 0) (nsize m p j)).
  { intros j Hj. apply (ledger_wok _ _ _ _ _ _ _ L3); [lia|]. apply (touch_wok _ _ _ _ _ HT2). by apply WJ. }
  assert (AK : forall j, (j < 9)%nat -> is_aligned s3 (Ptr (k + 1 + j) 0) = true).
  { intros j Hj. rewrite (ledger_aligned _ _ _ _ _ _ L3) by lia. rewrite (touch_aligned _ _ _ _ HT2). by apply AJ. }
  assert (So3 : seg s3 (Ptr (k + 1) 0) atb) by (apply (ledger_seg _ _ _ _ _ _ _ L3); [lia|apply not_elem_of_nil|done]).
  assert (Sa3 : seg s3 (Ptr (k + 5) 0) atb) by (apply (ledger_seg _ _ _ _ _ _ _ L3); [lia|apply not_elem_of_nil|done]).
  assert (Wx3 : wok s3 (Ptr bx 0) m) by (by apply (ledger_wok _ _ _ _ _ _ _ LS3)).
  assert (Sb3 : seg s3 (Ptr bb 0) bs).
  { apply (ledger_seg _ _ _ _ _ _ _ L3); [unfold k in *; lia|apply not_elem_of_nil|]. apply (touch_seg _ _ _ _ _ _ HT2); [|done].
    apply not_elem_of_app. split; [|done]. unfold k in *. repeat (apply not_elem_of_cons; split; [lia|]). apply not_elem_of_nil. }
  assert (Alb3 : is_aligned s3 (Ptr bb 0) = true) by (by rewrite (ledger_aligned _ _ _ _ _ _ LS3)).
  change (np_m (npk k bb opts)) with (Z.of_nat m). change (np_xo (npk k bb opts)) with (Ptr (k + 1) 0). change (np_xk (npk k bb opts)) with (Ptr (k + 2) 0).
  pose proof (WK 1%nat ltac:(lia)) as W2. replace (k + 1 + 1)%nat with (k + 2)%nat in W2 by lia. change (nsize m p 1) with m in W2.
  pose proof (dcopy_run s3 m (Ptr (k + 1) 0) atb (Ptr (k + 2) 0) So3 La W2 ltac:(apply disj_blocks; lia)) as E.
  rewrite (bind_ok _ _ _ _ _ E). clear E. set (s4 := wr _ _ s3). assert (HT4 : touch [(k + 2)%nat] s3 s4) by (apply touch_wr; left).
  assert (Sk4 : seg s4 (Ptr (k + 2) 0) atb) by (apply seg_wr; by rewrite La). clearbody s4.
  assert (HF11 : forall b, b ∈ [(k + 1)%nat; (k + 2)%nat; (k + 3)%nat; (k + 4)%nat; (k + 5)%nat; (k + 6)%nat; (k + 7)%nat; (k + 8)%nat; (k + 9)%nat; bb; fv] -> b ∉ F).
  { intros b Hb. repeat (apply elem_of_cons in Hb as [->|Hb]; [first [assumption|apply FB; lia]|]). by apply elem_of_nil in Hb. }
  assert (Hd11 : NoDup [(k + 1)%nat; (k + 2)%nat; (k + 3)%nat; (k + 4)%nat; (k + 5)%nat; (k + 6)%nat; (k + 7)%nat; (k + 8)%nat; (k + 9)%nat; bb; fv]).
  { unfold fv, k in *. repeat (apply NoDup_cons; split; [repeat (apply not_elem_of_cons; split; [lia|]); apply not_elem_of_nil|]). apply NoDup_nil_2. }
  assert (J4 : J s4).
  { apply (op_J _ _ _ _ _ _ HA [(k + 2)%nat] s3); [done|done|]. intros b Hb. apply HF11. apply elem_of_list_singleton in Hb as ->. isin. }
  destruct (decide (1 <= no_n_continue opts /\ luck (en s) fv = false)) as [[Hc1 Hl]|Hc].
  { (* the fifo is not aligned *)
    left. split; [done|]. split; [done|]. split; [done|]. split; [done|].
    apply bind_ub. unfold for_acc. replace (Z.to_nat (no_n_continue opts + 1 - 1)) with (S (Z.to_nat (no_n_continue opts - 1))) by lia. cbn [accn].
    apply bind_ub. unfold nesta_stage. apply bind_ub. unfold l1c_init_vec. apply bind_ub. unfold assume_aligned. cbn [ff_vals f0].
    rewrite (touch_aligned _ _ _ _ HT4), Alf, Hl. done. }
  right. split; [done|]. split; [done|]. split; [destruct (luck (en s) fv); [by left|right; lia]|].
  (* the stages *)
  assert (ES : exists s5 c, for_acc 1 (no_n_continue opts + 1) (mu0, lit 1 10, f0) (fun _ => nesta_stage call (npk k bb opts) (Z.of_nat m) bmu btol) s4 =
      Ok (fst (fst (Nat.iter (Z.to_nat (no_n_continue opts)) (ne_stage m n p A B Wt Wm bs atb (no_sigma opts) ne_L bmu btol) (mu0, lit 1 10, atb))),
          snd (fst (Nat.iter (Z.to_nat (no_n_continue opts)) (ne_stage m n p A B Wt Wm bs atb (no_sigma opts) ne_L bmu btol) (mu0, lit 1 10, atb))), c) s5 /\
      ff_vals c = Ptr fv 0 /\ J s5 /\
      seg s5 (Ptr (k + 2) 0) (snd (Nat.iter (Z.to_nat (no_n_continue opts)) (ne_stage m n p A B Wt Wm bs atb (no_sigma opts) ne_L bmu btol) (mu0, lit 1 10, atb))) /\
      length (snd (Nat.iter (Z.to_nat (no_n_continue opts)) (ne_stage m n p A B Wt Wm bs atb (no_sigma opts) ne_L bmu btol) (mu0, lit 1 10, atb))) = m /\
      touch ((k + 1)%nat :: wri F (k + 2) (k + 3) (k + 4) (k + 6) (k + 7) (k + 8) (k + 9) fv) s4 s5).
  { unfold for_acc. replace (no_n_continue opts + 1 - 1) with (no_n_continue opts) by lia.
    destruct (decide (1 <= no_n_continue opts)) as [Hc1|Hc1].
    2:{ replace (Z.to_nat (no_n_continue opts)) with 0%nat by lia. cbn [accn Nat.iter]. exists s4, f0. split; [done|]. split; [done|]. split; [done|]. split; [done|]. split; [done|]. apply touch_refl. }
    assert (Hl : luck (en s) fv = true) by (destruct (luck (en s) fv); [done|]; exfalso; by apply Hc).
    assert (SL : slay m p J (k + 1) (k + 2) (k + 3) (k + 4) (k + 5) (k + 6) (k + 7) (k + 8) (k + 9) bb bs atb fv atb f0 s4).
    { assert (WK4 : forall j, (j < 9)%nat -> wok s4 (Ptr (k + 1 + j) 0) (nsize m p j)) by (intros j Hj; apply (touch_wok _ _ _ _ _ HT4); by apply WK).
      assert (AK4 : forall j, (j < 9)%nat -> is_aligned s4 (Ptr (k + 1 + j) 0) = true) by (intros j Hj; rewrite (touch_aligned _ _ _ _ HT4); by apply AK).
      split; try done.
      - apply (touch_seg _ _ _ _ _ _ HT4); [|done]. apply not_elem_of_cons. split; [lia|apply not_elem_of_nil].
      - intros b Hb.
        apply elem_of_cons in Hb as [->|Hb]. { pose proof (WK4 2%nat ltac:(lia)) as H. by replace (k + 1 + 2)%nat with (k + 3)%nat in H by lia. }
        apply elem_of_cons in Hb as [->|Hb]. { pose proof (WK4 3%nat ltac:(lia)) as H. by replace (k + 1 + 3)%nat with (k + 4)%nat in H by lia. }
        apply elem_of_cons in Hb as [->|Hb]. { pose proof (WK4 5%nat ltac:(lia)) as H. by replace (k + 1 + 5)%nat with (k + 6)%nat in H by lia. }
        apply elem_of_cons in Hb as [->|Hb]. { pose proof (WK4 6%nat ltac:(lia)) as H. by replace (k + 1 + 6)%nat with (k + 7)%nat in H by lia. }
        by apply elem_of_nil in Hb.
      - intros b Hb.
        apply elem_of_cons in Hb as [->|Hb]. { pose proof (WK4 7%nat ltac:(lia)) as H. by replace (k + 1 + 7)%nat with (k + 8)%nat in H by lia. }
        apply elem_of_cons in Hb as [->|Hb]. { pose proof (WK4 8%nat ltac:(lia)) as H. by replace (k + 1 + 8)%nat with (k + 9)%nat in H by lia. }
        by apply elem_of_nil in Hb.
      - apply (touch_seg _ _ _ _ _ _ HT4); [|done]. apply not_elem_of_cons. split; [lia|apply not_elem_of_nil].
      - apply (touch_seg _ _ _ _ _ _ HT4); [|done]. apply not_elem_of_cons. split; [unfold k in *; lia|apply not_elem_of_nil].
      - by apply (touch_wok _ _ _ _ _ HT4).
      - intros b Hb.
        apply elem_of_cons in Hb as [->|Hb]. { pose proof (AK4 0%nat ltac:(lia)) as H. by rewrite Nat.add_0_r in H. }
        apply elem_of_cons in Hb as [->|Hb]. { pose proof (AK4 1%nat ltac:(lia)) as H. by replace (k + 1 + 1)%nat with (k + 2)%nat in H by lia. }
        apply elem_of_cons in Hb as [->|Hb]. { pose proof (AK4 2%nat ltac:(lia)) as H. by replace (k + 1 + 2)%nat with (k + 3)%nat in H by lia. }
        apply elem_of_cons in Hb as [->|Hb]. { pose proof (AK4 3%nat ltac:(lia)) as H. by replace (k + 1 + 3)%nat with (k + 4)%nat in H by lia. }
        apply elem_of_cons in Hb as [->|Hb]. { pose proof (AK4 5%nat ltac:(lia)) as H. by replace (k + 1 + 5)%nat with (k + 6)%nat in H by lia. }
        apply elem_of_cons in Hb as [->|Hb]. { pose proof (AK4 6%nat ltac:(lia)) as H. by replace (k + 1 + 6)%nat with (k + 7)%nat in H by lia. }
        apply elem_of_cons in Hb as [->|Hb]. { pose proof (AK4 7%nat ltac:(lia)) as H. by replace (k + 1 + 7)%nat with (k + 8)%nat in H by lia. }
        apply elem_of_cons in Hb as [->|Hb]. { pose proof (AK4 8%nat ltac:(lia)) as H. by replace (k + 1 + 8)%nat with (k + 9)%nat in H by lia. }
        apply elem_of_cons in Hb as [->|Hb]. { by rewrite (touch_aligned _ _ _ _ HT4). }
        apply elem_of_cons in Hb as [->|Hb]. { by rewrite (touch_aligned _ _ _ _ HT4), Alf. }
        by apply elem_of_nil in Hb. }
    destruct (stages_run call m n p A B Wt Wm F J ax HA HB HWt HW (Ptr k 0) (k + 1) (k + 2) (k + 3) (k + 4) (k + 5) (k + 6) (k + 7) (k + 8) (k + 9) bb bs atb (no_sigma opts) ne_L
      fv Hd11 HF11 Hn La Lb (Z.to_nat (no_n_continue opts)) 1 s4 mu0 (lit 1 10) atb f0 bmu btol SL) as (s5 & c & E & SL5 & HT5).
    exists s5, c. split; [exact E|]. destruct SL5. split; [done|]. split; [done|]. split; [done|]. split; [done|]. exact HT5. }
  destruct ES as (s5 & c & E & Ec & J5 & Sk5 & Lk5 & HT5). rewrite (bind_ok _ _ _ _ _ E). clear E.
  set (rx := snd (Nat.iter _ _ _)) in *.
  rewrite (bind_ok _ _ _ (Z.max 1 (no_n_continue opts + 1)) s5) by (apply i32_ok; unfold INT_MIN, INT_MAX in *; lia).
  (* copy to x *)
  assert (Wx5 : wok s5 (Ptr bx 0) m) by (apply (touch_wok _ _ _ _ _ HT5); by apply (touch_wok _ _ _ _ _ HT4)).
  pose proof (dcopy_run s5 m (Ptr (k + 2) 0) rx (Ptr bx 0) Sk5 Lk5 Wx5 ltac:(apply disj_blocks; unfold k in *; lia)) as E.
  rewrite (bind_ok _ _ _ _ _ E). clear E. set (s6 := wr _ _ s5). assert (HT6 : touch [bx] s5 s6) by (apply touch_wr; left).
  assert (Sx6 : seg s6 (Ptr bx 0) rx) by (apply seg_wr; by rewrite Lk5). clearbody s6.
  assert (J6 : J s6).
  { apply (op_J _ _ _ _ _ _ HA [bx] s5); [done|done|]. intros b Hb. apply elem_of_list_singleton in Hb as ->. done. }
  assert (LS6 : ledger (bx :: F) (np_owns (np0 k m n p) ++ [(KD, fv)]) s s6).
  { eapply (ledger_perm _ ([(KD, fv)] ++ np_owns (np0 k m n p))); [apply Permutation_app_comm|].
    apply (ledger_touch _ [bx] _ s s5); [|done|intros b Hb; left; apply elem_of_list_singleton in Hb as ->; left].
    eapply (ledger_touch _ _ _ s s4); [|exact HT5|].
    - apply (ledger_touch _ [(k + 2)%nat] _ s s3); [done|done|]. intros b Hb. right. apply elem_of_list_singleton in Hb as ->.
      cbn [np_owns np0 np_xo np_xk np_yk np_zk np_Atb np_gradf np_gradf_sum np_dwork1 np_dwork2 np_self own app]. isin.
    - intros b Hb. unfold wri in Hb. apply elem_of_cons in Hb as [->|Hb].
      + right. cbn [np_owns np0 np_xo np_xk np_yk np_zk np_Atb np_gradf np_gradf_sum np_dwork1 np_dwork2 np_self own app]. isin.
      + apply elem_of_app in Hb as [Hb|Hb]; [right|left; by right].
        cbn [np_owns np0 np_xo np_xk np_yk np_zk np_Atb np_gradf np_gradf_sum np_dwork1 np_dwork2 np_self own app].
        repeat (apply elem_of_cons in Hb as [->|Hb]; [isin|]). by apply elem_of_nil in Hb. }
  (* release *)
  change (np_owns (np0 k m n p)) with (np_owns (npk k bb opts)) in LS6.
  destruct (free_prob_run _ _ s s6 (npk k bb opts) Hu LS6) as (s7 & E7 & L7 & G7 & X7 & D7).
  { intros q Hq b o ->. cbn [np_ptrs npk np np_xo np_xk np_yk np_zk np_Atb np_gradf np_gradf_sum np_dwork1 np_dwork2 np_self] in Hq.
    repeat (apply elem_of_cons in Hq as [[= _ ->]|Hq]; [done|]). by apply elem_of_nil in Hq. }
  rewrite (bind_ok _ _ _ _ _ E7). cbn [snd]. rewrite Ec.
  destruct (free_own (bx :: F) [] s s7 (Ptr fv 0) Hu L7 ltac:(by intros ? ? [= _ ->])) as (s8 & E8 & L8 & G8 & X8 & D8).
  rewrite (bind_ok _ _ _ _ _ E8). exists s8. split; [done|]. split; [done|].
  assert (GG : gl s8 = gl s).
  { rewrite G8, G7, (t_gl _ _ _ HT6), (t_gl _ _ _ HT5), (t_gl _ _ _ HT4), G3, (t_gl _ _ _ HT2). done. }
  split.
  { apply (HJs s6); [done|]. eapply (same_on_ledgers F _ _ _ _ s); [exact LS6|exact L8|congruence| |done]. intros b Hb. by rewrite D8, D7 by done. }
  split; [done|]. intros i v Hi. specialize (Sx6 i v Hi). unfold cell in *. by rewrite D8, D7 by done.
Qed.
End whole.
