(** * Running l1c_l1qc_newton: every allocation schedule, every outcome. *)
From Coq Require Import ZArith Lia.
From stdpp Require Import base numbers gmap list.
From Verif Require Import P_Loop P_Math P_VCL P_Step P_Memory P_Own P_Own2 P_CG P_LineSearch M_Math M_Memory M_CG M_LineSearch M_Status M_Newton P_Newton P_Newt2 P_Newt3 P_Newt4 P_Newt5.
Local Open Scope Z_scope.

Section prob.
Context `{N : Num}.
Implicit Types (s : st).
Lemma free_d_pm p s s' : free_d p s = Ok tt s' -> pm s' = pm s.
Proof.
  unfold free_d. destruct p as [|b o]; [by intros [= <-]|]. destruct (o =? 0); [|done]. destruct (dm s !! b); [|done]. by intros [= <-].
Qed.
Definition p_owns (P : Prob) : list (kind * nat) :=
  own KD (pb_r P) ++ own KD (pb_fu1 P) ++ own KD (pb_fu2 P) ++ own KD (pb_w1p P) ++ own KD (pb_dx P) ++ own KD (pb_du P) ++
  own KD (pb_sig11 P) ++ own KD (pb_sig12 P) ++ own KD (pb_ntgu P) ++ own KD (pb_gradf P) ++ own2D 7 (pb_DWORK7 P).
Definition p_ptrs (P : Prob) : list ptr :=
  [pb_r P; pb_fu1 P; pb_fu2 P; pb_w1p P; pb_dx P; pb_du P; pb_sig11 P; pb_sig12 P; pb_ntgu P; pb_gradf P].
Lemma delete_run W O s0 s P : unborn s0 -> ledger W (p_owns P ++ O) s0 s ->
  (forall p, p ∈ p_ptrs P -> forall b o, p = Ptr b o -> o = 0) ->
  (forall b o, pb_DWORK7 P = Ptr b o -> o = 0 /\ pm s !! b = Some (prows (S b) 7 7)) ->
  exists s', l1qcProb_delete (Some P) s = Ok tt s' /\ ledger W O s0 s' /\ gl s' = gl s /\ nx s' = nx s /\
    (forall b, (b < nx s0)%nat -> dm s' !! b = dm s !! b).
Proof.
  intros Hu L Hz Hd. unfold l1qcProb_delete. unfold p_owns, p_ptrs in *. rewrite <- !app_assoc in L.
  do 10 (let t := fresh "t" in let E := fresh "E" in let L' := fresh "L" in let G := fresh "G" in let X := fresh "X" in let D := fresh "D" in
    match goal with L : ledger _ _ s0 ?cur |- _ =>
      destruct (free_own _ _ _ _ _ Hu L) as (t & E & L' & G & X & D); [apply Hz; isin|];
      rewrite (bind_ok (l1c_free_double _) _ _ _ _ E); apply free_d_pm in E; clear L end).
  match goal with L : ledger _ _ s0 ?cur |- _ => destruct (free_2D_own _ _ _ _ 7 _ Hu L) as (t' & E' & L' & G' & X' & D') end.
  { intros b o Hb. destruct (Hd b o Hb) as [H1 H2]. split; [done|]. congruence. }
  exists t'. split; [exact E'|]. split; [done|]. split; [congruence|]. split; [congruence|].
  intros b Hb. rewrite D'; [|done].
  repeat match goal with D : forall b, (b < nx s0)%nat -> dm ?t !! b = dm _ !! b |- context [dm ?t !! b] => rewrite (D b Hb); clear D end.
  done.
Qed.

Definition psize (m n : nat) (j : nat) : nat := match j with O => n | 9%nat => (2 * m)%nat | _ => m end.
Lemma new_run s (m n : nat) sc b eps tau Ax Aty AtAx : unborn s -> 2 * Z.of_nat m <= INT_MAX -> (sc < nx s)%nat -> wok s (Ptr sc 0) 3 ->
  exists t P s', l1qcProb_new (Ptr sc 0) (Z.of_nat m) (Z.of_nat n) b eps tau Ax Aty AtAx s = Ok (t, P) s' /\
    ledger [sc] (p_owns P) s s' /\ gl s' = gl s /\ seg s' (Ptr sc 0) [tau; zero; zero] /\
    (forall p, p ∈ p_ptrs P -> forall b o, p = Ptr b o -> o = 0) /\
    (forall b o, pb_DWORK7 P = Ptr b o -> o = 0 /\ pm s' !! b = Some (prows (S b) 7 7)) /\
    (forall b, b <> sc -> (b < nx s)%nat -> dm s' !! b = dm s !! b) /\
    let k := nx s in
    ((t = 0 /\ (forall j, (j < 18)%nat -> alloc_ok (en s) (k + j) = true) /\
      P = mkProb (Ptr sc 0) (Z.of_nat m) (Z.of_nat n) b eps (Ptr k 0) (Ptr (k + 1) 0) (Ptr (k + 2) 0) (Ptr (k + 3) 0) (Ptr (k + 4) 0)
           (Ptr (k + 5) 0) (Ptr (k + 6) 0) (Ptr (k + 7) 0) (Ptr (k + 8) 0) (Ptr (k + 9) 0) (Ptr (k + 10) 0) Ax Aty AtAx /\
      nx s' = (k + 18)%nat /\
      pm s' !! (k + 10)%nat = Some (prows (k + 11) 7 7) /\
      (forall j, (j < 10)%nat -> seg s' (Ptr (k + j) 0) (const_of (psize m n j) zero) /\ is_aligned s' (Ptr (k + j) 0) = true) /\
      (forall j, (j < 7)%nat -> seg s' (Ptr (k + 11 + j) 0) (const_of m zero) /\ is_aligned s' (Ptr (k + 11 + j) 0) = true) /\
      (forall j, (j < 7)%nat -> dm s' !! (k + 11 + j)%nat = Some (Some <$> const_of m zero))) \/
     (t = L1C_OUT_OF_MEMORY /\ exists j, (j < 18)%nat /\ alloc_ok (en s) (k + j) = false)).
Proof.
  intros Hu Hmax Hsc Hw. unfold l1qcProb_new.
  (* the scalars *)
  assert (Q : exists sD, (forall A (K : M A), (sto (Ptr sc 0) 0 zero ;! sto (Ptr sc 0) 1 zero ;! sto (Ptr sc 0) 2 zero ;! sto (Ptr sc 0) 0 tau ;! K) s = K sD) /\
     touch [sc] s sD /\ seg sD (Ptr sc 0) [tau; zero; zero]).
  { pose proof (sto_wok s (Ptr sc 0) 3 0 zero Hw ltac:(lia)) as E1. set (u1 := wr _ _ s) in E1.
    assert (W1 : wok u1 (Ptr sc 0) 3) by (apply (touch_wok [sc] s); [apply touch_wr; isin|done]).
    pose proof (sto_wok u1 (Ptr sc 0) 3 1 zero W1 ltac:(lia)) as E2. set (u2 := wr _ _ u1) in E2.
    assert (W2 : wok u2 (Ptr sc 0) 3) by (apply (touch_wok [sc] u1); [apply touch_wr; isin|done]).
    pose proof (sto_wok u2 (Ptr sc 0) 3 2 zero W2 ltac:(lia)) as E3. set (u3 := wr _ _ u2) in E3.
    assert (W3 : wok u3 (Ptr sc 0) 3) by (apply (touch_wok [sc] u2); [apply touch_wr; isin|done]).
    pose proof (sto_wok u3 (Ptr sc 0) 3 0 tau W3 ltac:(lia)) as E4. set (u4 := wr _ _ u3) in E4.
    exists u4. split.
    { intros A K. by rewrite (bind_ok _ _ _ _ _ E1), (bind_ok _ _ _ _ _ E2), (bind_ok _ _ _ _ _ E3), (bind_ok _ _ _ _ _ E4). }
    split.
    { eapply touch_trans; [apply (touch_wr [sc] s sc 0); isin|]. eapply touch_trans; [apply (touch_wr [sc] u1 sc 1); isin|].
      eapply touch_trans; [apply (touch_wr [sc] u2 sc 2); isin|]. apply (touch_wr [sc] u3 sc 0); isin. }
    assert (P1 : seg u1 (Ptr sc 0) [zero]) by (apply seg_wr; eapply wok_le; [exact Hw|simpl; lia]).
    assert (P2 : seg u2 (Ptr sc 0) [zero; zero]).
    { apply (seg_snoc u1 sc 0 1 (fun _ => zero) 3); [exact P1|done|lia]. }
    assert (P3 : seg u3 (Ptr sc 0) [zero; zero; zero]).
    { apply (seg_snoc u2 sc 0 2 (fun _ => zero) 3); [exact P2|done|lia]. }
    unfold u4. change (padd (Ptr sc 0) 0) with (padd (Ptr sc 0) (Z.of_nat 0)). rewrite (wr_insert u3 _ _ 0 tau P3) by (simpl; lia).
    apply seg_wr. exact W3. }
  destruct Q as (sD & EK & TD & SD). rewrite EK. clear EK.
  assert (LD : ledger [sc] [] s sD) by (by apply ledger_of_touch).
  pose proof (ledger_unborn _ _ _ _ Hu LD) as HuD.
  assert (HkD : nx sD = nx s) by apply TD. assert (HeD : en sD = en s) by apply TD. assert (HgD : gl sD = gl s) by apply TD.
  pose proof (acct_nil sD) as A0.
  destruct (calloc_own [] [] sD sD (Z.of_nat n) HuD A0) as (p1 & t1 & E1 & A1 & G1 & Y1 & _ & X1).
  destruct (calloc_own _ _ sD t1 (Z.of_nat m) HuD A1) as (p2 & t2 & E2 & A2 & G2 & Y2 & _ & X2).
  destruct (calloc_own _ _ sD t2 (Z.of_nat m) HuD A2) as (p3 & t3 & E3 & A3 & G3 & Y3 & _ & X3).
  destruct (calloc_own _ _ sD t3 (Z.of_nat m) HuD A3) as (p4 & t4 & E4 & A4 & G4 & Y4 & _ & X4).
  destruct (calloc_own _ _ sD t4 (Z.of_nat m) HuD A4) as (p5 & t5 & E5 & A5 & G5 & Y5 & _ & X5).
  destruct (calloc_own _ _ sD t5 (Z.of_nat m) HuD A5) as (p6 & t6 & E6 & A6 & G6 & Y6 & _ & X6).
  destruct (calloc_own _ _ sD t6 (Z.of_nat m) HuD A6) as (p7 & t7 & E7 & A7 & G7 & Y7 & _ & X7).
  destruct (calloc_own _ _ sD t7 (Z.of_nat m) HuD A7) as (p8 & t8 & E8 & A8 & G8 & Y8 & _ & X8).
  destruct (calloc_own _ _ sD t8 (Z.of_nat m) HuD A8) as (p9 & t9 & E9 & A9 & G9 & Y9 & _ & X9).
  destruct (calloc_own _ _ sD t9 (2 * Z.of_nat m) HuD A9) as (p10 & t10 & E10 & A10 & G10 & Y10 & _ & X10).
  assert (SC3 : seg t3 (Ptr sc 0) [tau; zero; zero]) by (apply (acct_seg _ _ _ _ _ _ _ A3); [lia|done]).
  assert (SC10 : seg t10 (Ptr sc 0) [tau; zero; zero]) by (apply (acct_seg _ _ _ _ _ _ _ A10); [lia|done]).
  clear A0 A1 A2 A3 A4 A5 A6 A7 A8 A9. cbn [app] in A10.
  assert (GG : gl t10 = gl s) by congruence. assert (YY : pm t10 = pm s) by (rewrite <- (t_pm _ _ _ TD); congruence).
  clear G1 G2 G3 G4 G5 G6 G7 G8 G9 G10 Y1 Y2 Y3 Y4 Y5 Y6 Y7 Y8 Y9 Y10.
  set (k := nx s) in *.
  assert (XX : nx t10 = (k + 10)%nat) by lia.
  rewrite HkD in A10.
  replace (nx t1) with (k + 1)%nat in A10 by lia. replace (nx t2) with (k + 2)%nat in A10 by lia.
  replace (nx t3) with (k + 3)%nat in A10 by lia. replace (nx t4) with (k + 4)%nat in A10 by lia.
  replace (nx t5) with (k + 5)%nat in A10 by lia. replace (nx t6) with (k + 6)%nat in A10 by lia.
  replace (nx t7) with (k + 7)%nat in A10 by lia. replace (nx t8) with (k + 8)%nat in A10 by lia.
  replace (nx t9) with (k + 9)%nat in A10 by lia. clear X1 X2 X3 X4 X5 X6 X7 X8 X9 X10.
  pose proof (ac_l _ _ _ _ A10) as L10. unfold owns in L10. cbn [mbind list_bind app e_p] in L10. rewrite app_nil_r in L10.
  pose proof (ledger_unborn _ _ _ _ HuD L10) as Hu10.
  destruct (calloc_2D_own t10 7 (Z.of_nat m) Hu10) as (pd & s' & E11 & L11 & G11 & D11 & C11). change (Z.of_nat 7) with 7 in E11.
  (* run *)
  rewrite (bind_ok _ _ _ _ _ E1), (bind_ok _ _ _ _ _ E2), (bind_ok _ _ _ _ _ E3).
  rewrite (bind_ok _ _ _ tt t3).
  2:{ change (sto (Ptr sc 0) 2 zero t3) with (sto (Ptr sc 0) (Z.of_nat 2) zero t3). rewrite (sto_seg t3 _ _ 2 zero SC3) by (simpl; lia). change (<[2%nat:=zero]> [tau; zero; zero]) with [tau; zero; zero]. by rewrite wr_self. }
  rewrite (bind_ok _ _ _ tt t3).
  2:{ change (sto (Ptr sc 0) 1 zero t3) with (sto (Ptr sc 0) (Z.of_nat 1) zero t3). rewrite (sto_seg t3 _ _ 1 zero SC3) by (simpl; lia). change (<[1%nat:=zero]> [tau; zero; zero]) with [tau; zero; zero]. by rewrite wr_self. }
  rewrite (bind_ok _ _ _ _ _ E4), (bind_ok _ _ _ _ _ E5), (bind_ok _ _ _ _ _ E6), (bind_ok _ _ _ _ _ E7), (bind_ok _ _ _ _ _ E8), (bind_ok _ _ _ _ _ E9).
  rewrite (bind_ok _ _ _ (2 * Z.of_nat m) t9) by (apply i32_ok; unfold INT_MIN; lia).
  rewrite (bind_ok _ _ _ _ _ E10), (bind_ok _ _ _ _ _ E11).
  clear E1 E2 E3 E4 E5 E6 E7 E8 E9 E10 E11. cbv zeta.
  set (P := mkProb _ _ _ _ _ _ _ _ _ _ _ _ _ _ _ _ _ _ _).
  set (l := [p1; p2; p3; p4; p5; p6; p7; p8; p9; p10]).
  set (zs := [Z.of_nat n; Z.of_nat m; Z.of_nat m; Z.of_nat m; Z.of_nat m; Z.of_nat m; Z.of_nat m; Z.of_nat m; Z.of_nat m; 2 * Z.of_nat m]).
  assert (EI : forall j, (j < 10)%nat -> ent_ok sD t10 (mkEnt (k + j) (nth j zs 0) (Some <$> const_of (Z.to_nat (nth j zs 0)) zero) (nth j l Null))).
  { intros j Hj. pose proof (ac_e _ _ _ _ A10) as HE. rewrite Forall_forall in HE. apply HE.
    do 10 (destruct j as [|j]; [simpl; rewrite ?Nat.add_0_r; isin|]). lia. }
  assert (Hz : forall p, p ∈ p_ptrs P -> forall b o, p = Ptr b o -> o = 0).
  { intros p Hp b0 o ->. change (p_ptrs P) with l in Hp. apply elem_of_list_lookup in Hp as [j Hj]. pose proof (lookup_lt_Some _ _ _ Hj) as Hl. simpl in Hl.
    eapply (ent_ptr0 sD t10 _ b0 o (EI j ltac:(lia))). cbn [e_p]. by apply nth_lookup_Some. }
  assert (LP : ledger [sc] (p_owns P) s s').
  { apply (ledger_perm _ ((own2D 7 pd ++ own KD p1 ++ own KD p2 ++ own KD p3 ++ own KD p4 ++ own KD p5 ++ own KD p6 ++ own KD p7 ++ own KD p8 ++ own KD p9 ++ own KD p10) ++ [])).
    { rewrite app_nil_r. unfold p_owns. cbn [P pb_r pb_fu1 pb_fu2 pb_w1p pb_dx pb_du pb_sig11 pb_sig12 pb_ntgu pb_gradf pb_DWORK7].
      rewrite Permutation_app_comm. by rewrite <- !app_assoc. }
    eapply (ledger_trans2 [sc] [sc] []); [exact LD| |auto|intros ? H; by apply elem_of_nil in H].
    eapply (ledger_trans2 [] [] []); [exact L10|exact L11| |]; intros ? H; by apply elem_of_nil in H. }
  assert (SC' : seg s' (Ptr sc 0) [tau; zero; zero]).
  { apply (ledger_seg _ _ _ _ _ _ _ L11); [lia|apply not_elem_of_nil|done]. }
  assert (HD : forall b, b <> sc -> (b < k)%nat -> dm s' !! b = dm s !! b).
  { intros b0 Hne Hb0. apply LP; [|intros Hk; apply (lg_own _ _ _ _ LP) in Hk; lia]. apply not_elem_of_cons. split; [done|apply not_elem_of_nil]. }
  assert (Hdw : forall b o, pb_DWORK7 P = Ptr b o -> o = 0 /\ pm s' !! b = Some (prows (S b) 7 7)).
  { intros b0 o Hb0. change (pb_DWORK7 P) with pd in Hb0. destruct C11 as [(Ed & _ & _ & Hpm & _)|(Ed & _)]; [|congruence].
    rewrite Ed in Hb0. injection Hb0 as <- <-. split; [done|exact Hpm]. }
  assert (EE : en t10 = en s) by (rewrite (lg_en _ _ _ _ L10); done).
  assert (HN : forall j, (j < 10)%nat -> nth j l Null = Null -> alloc_ok (en s) (k + j) = false).
  { intros j Hj Hn'. destruct (EI j Hj) as [(Ej & _)|(_ & [Hneg|Hno])]; cbn [e_p e_n e_b] in *.
    - congruence.
    - exfalso. clear - Hneg Hj. do 10 (destruct j as [|j]; [simpl in Hneg; lia|]). lia.
    - rewrite <- HeD. done. }
  assert (HS : forall j, (j < 10)%nat -> nth j l Null <> Null -> alloc_ok (en s) (k + j) = true /\ nth j l Null = Ptr (k + j) 0 /\
      dm t10 !! (k + j)%nat = Some (Some <$> const_of (psize m n j) zero) /\ al t10 (k + j) = true).
  { intros j Hj Hn'. destruct (EI j Hj) as [(Ej & _ & Ha & Hdm & Hal)|(Ej & _)]; cbn [e_p e_n e_b e_c] in *; [|done].
    rewrite <- HeD. split; [done|]. split; [done|]. split; [|done]. rewrite Hdm. do 2 f_equal. f_equal.
    clear - Hj. do 10 (destruct j as [|j]; [simpl; lia|]). lia. }
  match goal with |- context [if ?c then _ else _] => destruct c eqn:EC end.
  - (* something refused *)
    eexists _, P, s'. split; [reflexivity|]. split; [exact LP|]. split; [congruence|]. split; [exact SC'|]. split; [exact Hz|].
    split; [exact Hdw|]. split; [exact HD|]. right. split; [done|].
    assert (NC : (exists j, (j < 10)%nat /\ nth j l Null = Null) \/ pd = Null).
    { clear - EC. repeat (apply orb_true_iff in EC as [EC|EC]).
      all: match goal with |- context [is_null] => idtac | _ => idtac end.
      all: try (right; by destruct pd).
      all: left.
      - exists 0%nat. split; [lia|]. by destruct p1. - exists 1%nat. split; [lia|]. by destruct p2.
      - exists 2%nat. split; [lia|]. by destruct p3. - exists 3%nat. split; [lia|]. by destruct p4.
      - exists 4%nat. split; [lia|]. by destruct p5. - exists 5%nat. split; [lia|]. by destruct p6.
      - exists 6%nat. split; [lia|]. by destruct p7. - exists 7%nat. split; [lia|]. by destruct p8.
      - exists 8%nat. split; [lia|]. by destruct p9. - exists 9%nat. split; [lia|]. by destruct p10. }
    destruct NC as [(j & Hj & Hn')|Hn'].
    + exists j. split; [lia|]. by apply HN.
    + destruct C11 as [(Ed & _)|(_ & Hng & _)]; [congruence|].
      destruct (alloc_ok (en s) (k + 10)) eqn:E0; [|exists 10%nat; split; [lia|done]].
      assert (HX : exists j, (j < 7)%nat /\ alloc_ok (en s) (S (k + 10) + j) = false).
      { assert (HX : forall r, (forall j, (j < r)%nat -> alloc_ok (en s) (S (k + 10) + j) = true) \/ exists j, (j < r)%nat /\ alloc_ok (en s) (S (k + 10) + j) = false).
        { induction r as [|r [IH|(j & Hj & Ej)]]; [left; lia| |right; exists j; split; [lia|done]].
          destruct (alloc_ok (en s) (S (k + 10) + r)) eqn:Er; [left|right; exists r; split; [lia|done]].
          intros j Hj. destruct (decide (j = r)) as [->|]; [done|]. apply IH. lia. }
        destruct (HX 7%nat) as [Hall|]; [|done]. exfalso. apply Hng. unfold grant. rewrite EE, XX. split; [done|]. intros j Hj. split; [lia|auto]. }
      destruct HX as (j & Hj & Ej). exists (11 + j)%nat. split; [lia|]. by replace (k + (11 + j))%nat with (S (k + 10) + j)%nat by lia.
  - (* all granted *)
    repeat (apply orb_false_iff in EC as [EC ?]).
    assert (HA : forall j, (j < 10)%nat -> nth j l Null <> Null).
    { intros j Hj. do 10 (destruct j as [|j]; [simpl; intros ->; done|]). lia. }
    destruct C11 as [(Ed & (Hg0 & Hg1) & Hnx & Hpm & Hpo & Hrow)|(Ed & _)]; [|subst pd; done].
    rewrite XX, EE in *.
    eexists _, P, s'. split; [reflexivity|]. split; [exact LP|]. split; [congruence|]. split; [exact SC'|]. split; [exact Hz|].
    split; [exact Hdw|]. split; [exact HD|]. left. split; [done|]. split.
    { intros j Hj. destruct (decide (j < 10)%nat) as [Hj'|]; [by apply HS; auto|].
      destruct (decide (j = 10)%nat) as [->|]; [done|].
      replace (k + j)%nat with (S (k + 10) + (j - 11))%nat by lia. apply Hg1. lia. }
    split.
    { pose proof (proj1 (proj2 (HS 0%nat ltac:(lia) (HA 0%nat ltac:(lia))))) as Q0. pose proof (proj1 (proj2 (HS 1%nat ltac:(lia) (HA 1%nat ltac:(lia))))) as Q1.
      pose proof (proj1 (proj2 (HS 2%nat ltac:(lia) (HA 2%nat ltac:(lia))))) as Q2. pose proof (proj1 (proj2 (HS 3%nat ltac:(lia) (HA 3%nat ltac:(lia))))) as Q3.
      pose proof (proj1 (proj2 (HS 4%nat ltac:(lia) (HA 4%nat ltac:(lia))))) as Q4. pose proof (proj1 (proj2 (HS 5%nat ltac:(lia) (HA 5%nat ltac:(lia))))) as Q5.
      pose proof (proj1 (proj2 (HS 6%nat ltac:(lia) (HA 6%nat ltac:(lia))))) as Q6. pose proof (proj1 (proj2 (HS 7%nat ltac:(lia) (HA 7%nat ltac:(lia))))) as Q7.
      pose proof (proj1 (proj2 (HS 8%nat ltac:(lia) (HA 8%nat ltac:(lia))))) as Q8. pose proof (proj1 (proj2 (HS 9%nat ltac:(lia) (HA 9%nat ltac:(lia))))) as Q9.
      cbn [nth l] in *. unfold P. rewrite Q0, Q1, Q2, Q3, Q4, Q5, Q6, Q7, Q8, Q9, Ed. by rewrite Nat.add_0_r. }
    split; [lia|]. split; [rewrite Hpm; by replace (S (k + 10)) with (k + 11)%nat by lia|]. split.
    { intros j Hj. destruct (HS j Hj (HA j Hj)) as (_ & _ & Hdm & Hal). split.
      - apply seg_block. rewrite D11 by lia. done.
      - unfold is_aligned. rewrite (lg_al _ _ _ _ L11) by lia. by rewrite Hal. }
    split.
    { intros j Hj. destruct (Hrow j Hj) as (Hdm & Hal). replace (k + 11 + j)%nat with (S (k + 10) + j)%nat by lia. rewrite Nat2Z.id in Hdm. split.
      - by apply seg_block.
      - unfold is_aligned. by rewrite Hal. }
    { intros j Hj. destruct (Hrow j Hj) as (Hdm & Hal). replace (k + 11 + j)%nat with (S (k + 10) + j)%nat by lia. by rewrite Nat2Z.id in Hdm. }
Qed.
End prob.
