(** * Ledgers: composition, arrays of rows. *)
From Coq Require Import ZArith Lia.
From stdpp Require Import base numbers gmap list.
From Verif Require Import P_Loop P_Math P_Memory P_Touch P_Own M_Memory.
Local Open Scope Z_scope.

Section own2.
Context `{N : Num}.
Implicit Types (s : st) (W : list nat) (O : list (kind * nat)).

Lemma ledger_of_touch W s s' : touch W s s' -> ledger W [] s s'.
Proof.
  intros Ht. apply (ledger_touch W W [] s s); [|done|auto]. eapply ledger_W; [|apply ledger_nil]. intros b Hb. by apply elem_of_nil in Hb.
Qed.
(** the second part may also write what the first part allocated *)
Lemma ledger_trans2 W W1 W2 O1 O2 s0 s1 s2 : ledger W1 O1 s0 s1 -> ledger W2 O2 s1 s2 ->
  (forall b, b ∈ W1 -> b ∈ W) -> (forall b, b ∈ W2 -> b ∈ W \/ (KD, b) ∈ O1) -> ledger W (O2 ++ O1) s0 s2.
Proof.
  intros L1 L2 HW1 HW2.
  assert (HD : forall k b, (k, b) ∈ O1 -> (k, b) ∉ O2).
  { intros k b H1 H2. apply (lg_own _ _ _ _ L1) in H1. apply (lg_own _ _ _ _ L2) in H2. lia. }
  pose proof (lg_nx _ _ _ _ L1). pose proof (lg_nx _ _ _ _ L2).
  split.
  - intros k b Hk. apply elem_of_app in Hk as [Hk|Hk].
    + apply (lg_own _ _ _ _ L2) in Hk. split; [lia|tauto].
    + pose proof (HD k b Hk) as Hn. pose proof Hk as Hk'. apply (lg_own _ _ _ _ L1) in Hk as [? Hh]. split; [lia|].
      destruct k; simpl in *.
      * pose proof (lg_len _ _ _ _ L2 b Hn) as E. destruct Hh as [c Hc]. rewrite Hc in E. destruct (dm s2 !! b); [eauto|done].
      * by rewrite (lg_pm _ _ _ _ L2).
      * by rewrite (lg_om _ _ _ _ L2).
  - apply NoDup_app. split; [apply L2|]. split; [|apply L1].
    intros [k b] H2 H1. by apply (HD k b).
  - intros b Hb. rewrite not_elem_of_app. intros [H2 H1]. rewrite (lg_dm _ _ _ _ L2), (lg_dm _ _ _ _ L1); auto.
    intros Hb'. destruct (HW2 b Hb') as [?|?]; done.
  - intros b. rewrite not_elem_of_app. intros [H2 H1]. rewrite (lg_len _ _ _ _ L2), (lg_len _ _ _ _ L1) by done. done.
  - intros b. rewrite not_elem_of_app. intros [H2 H1]. rewrite (lg_pm _ _ _ _ L2), (lg_pm _ _ _ _ L1) by done. done.
  - intros b. rewrite not_elem_of_app. intros [H2 H1]. rewrite (lg_om _ _ _ _ L2), (lg_om _ _ _ _ L1) by done. done.
  - by rewrite (lg_im _ _ _ _ L2), (lg_im _ _ _ _ L1).
  - by rewrite (lg_en _ _ _ _ L2), (lg_en _ _ _ _ L1).
  - lia.
  - intros b Hb. rewrite (lg_al _ _ _ _ L2) by lia. by apply L1.
Qed.
(** a ledger over old blocks only is also a frame for facts about the old blocks outside W *)
Lemma ledger_seg W O s0 s b o xs : ledger W O s0 s -> (b < nx s0)%nat -> b ∉ W -> seg s0 (Ptr b o) xs -> seg s (Ptr b o) xs.
Proof.
  intros L Hb HW H i v Hi. specialize (H i v Hi). unfold cell in *. rewrite (lg_dm _ _ _ _ L); [done|done|].
  intros Hk. apply (lg_own _ _ _ _ L) in Hk. lia.
Qed.
Lemma ledger_wok W O s0 s b o n : ledger W O s0 s -> (b < nx s0)%nat -> wok s0 (Ptr b o) n -> wok s (Ptr b o) n.
Proof.
  intros L Hb H i Hi. specialize (H i Hi). unfold cell in *. destruct (0 <=? o + Z.of_nat i); [|done].
  assert (E' : length <$> dm s !! b = length <$> dm s0 !! b). { apply L. intros Hk. apply (lg_own _ _ _ _ L) in Hk. lia. }
  destruct (dm s0 !! b) as [c|], (dm s !! b) as [c'|]; simpl in *; try done.
  inversion E' as [Hl]. apply lookup_lt_is_Some_2. rewrite Hl. by apply lookup_lt_is_Some_1.
Qed.
Lemma ledger_aligned W O s0 s b o : ledger W O s0 s -> (b < nx s0)%nat -> is_aligned s (Ptr b o) = is_aligned s0 (Ptr b o).
Proof. intros L Hb. unfold is_aligned. by rewrite (lg_al _ _ _ _ L). Qed.

Definition own2D (k : nat) (p : ptr) : list (kind * nat) :=
  match p with Null => [] | Ptr b _ => (KP, b) :: ((fun j => (KD, j)) <$> seq (S b) k) end.
Lemma elem_rows b k j : (KD, j) ∈ ((fun j => (KD, j)) <$> seq b k) <-> (b <= j < b + k)%nat.
Proof.
  rewrite elem_of_list_fmap. split.
  - intros (i & [= ->] & Hi). apply elem_of_seq in Hi. lia.
  - intros H. exists j. split; [done|]. apply elem_of_seq. lia.
Qed.
Lemma nelem_rows b k j q : (q, j) ∈ ((fun j => (KD, j)) <$> seq b k) -> q = KD.
Proof. rewrite elem_of_list_fmap. by intros (i & [= -> _] & _). Qed.

Lemma calloc_2D_own s k (ncol : Z) : unborn s ->
  exists p s', l1c_calloc_double_2D (Z.of_nat k) ncol s = Ok p s' /\ ledger [] (own2D k p) s s' /\ gl s' = gl s /\
    (forall b, (b < nx s)%nat -> dm s' !! b = dm s !! b) /\
    ((p = Ptr (nx s) 0 /\ grant s k ncol /\ nx s' = (S (nx s) + k)%nat /\
      pm s' !! nx s = Some (prows (S (nx s)) k k) /\ (forall b, b <> nx s -> pm s' !! b = pm s !! b) /\
      forall j, (j < k)%nat -> dm s' !! (S (nx s) + j)%nat = Some (Some <$> const_of (Z.to_nat ncol) zero) /\
                              al s' (S (nx s) + j)%nat = true) \/
     (p = Null /\ ~ grant s k ncol /\ pm s' = pm s)).
Proof.
  intros Hu. destruct (calloc_2D_run s (Z.of_nat k) ncol Hu) as [(s' & E & _ & Hg & HS)|(s' & E & Hng & HR & Hdm & Hpm)].
  - rewrite Nat2Z.id in *. destruct HS as ((R1 & R2 & R3 & R4 & R5 & R6) & Hnx & Hdm & Hpm & Hal).
    exists (Ptr (nx s) 0), s'. split; [done|].
    assert (Dold : forall b, ~ (S (nx s) <= b < S (nx s) + k)%nat -> dm s' !! b = dm s !! b).
    { intros b Hb. rewrite Hdm, lookup_union, zrows_lookup. destruct (decide _); [lia|]. by destruct (dm s !! b). }
    assert (Dnew : forall b, (S (nx s) <= b < S (nx s) + k)%nat -> dm s' !! b = Some (Some <$> const_of (Z.to_nat ncol) zero)).
    { intros b Hb. rewrite Hdm, lookup_union, zrows_lookup. destruct (decide _); [|lia].
      destruct (Hu b ltac:(lia)) as (U & _). by rewrite U. }
    split; [|split; [done|split]].
    + cbn [own2D]. split.
      * intros q b [[= -> ->]|Hb]%elem_of_cons.
        -- split; [lia|]. simpl. rewrite Hpm, lookup_insert. eauto.
        -- pose proof (nelem_rows _ _ _ _ Hb) as ->. apply elem_rows in Hb. split; [lia|]. simpl. rewrite Dnew by lia. eauto.
      * apply NoDup_cons. split; [intros Hb; by apply nelem_rows in Hb|].
        apply (NoDup_fmap (fun j => (KD, j))); [apply NoDup_seq].
      * intros b _ [_ Hb]%not_elem_of_cons. apply Dold. intros Hb'. apply Hb. by apply elem_rows.
      * intros b [_ Hb]%not_elem_of_cons. rewrite Dold; [done|]. intros Hb'. apply Hb. by apply elem_rows.
      * intros b [Hb _]%not_elem_of_cons. rewrite Hpm, lookup_insert_ne; [done|]. congruence.
      * intros b _. by rewrite R2.
      * done.
      * done.
      * lia.
      * intros b Hb. by apply R6.
    + intros b Hb. apply Dold. lia.
    + left. split; [done|]. split; [done|]. split; [done|]. split; [by rewrite Hpm, lookup_insert|].
      split; [intros b Hb; by rewrite Hpm, lookup_insert_ne|]. intros j Hj. split; [apply Dnew; lia|by apply Hal].
  - rewrite Nat2Z.id in *. destruct HR as (R1 & R2 & R3 & R4 & R5 & R6). exists Null, s'. split; [done|]. split; [|split; [done|split]].
    + split; try done; try (intros; by apply elem_of_nil in H).
      * apply NoDup_nil; done.
      * intros b _ _. by rewrite Hdm.
      * intros b _. by rewrite Hdm.
      * intros b _. by rewrite Hpm.
      * intros b _. by rewrite R2.
    + intros b _. by rewrite Hdm.
    + right. split; [done|]. split; [|done]. intros Hg. apply Hng. split; [lia|done].
Qed.
Lemma free_2D_own W O s0 s k p : unborn s0 -> ledger W (own2D k p ++ O) s0 s ->
  (forall b o, p = Ptr b o -> o = 0 /\ pm s !! b = Some (prows (S b) k k)) ->
  exists s', l1c_free_double_2D (Z.of_nat k) p s = Ok tt s' /\ ledger W O s0 s' /\ gl s' = gl s /\ nx s' = nx s /\
    (forall b, (b < nx s0)%nat -> dm s' !! b = dm s !! b).
Proof.
  intros Hu L Ho. destruct p as [|b o].
  - exists s. split; [apply free_2D_null|]. done.
  - destruct (Ho b o eq_refl) as [-> Hpm]. cbn [own2D app] in L.
    destruct (lg_own _ _ _ _ L KP b ltac:(left)) as [Hb _].
    assert (HR : forall j, (S b <= j < S b + k)%nat -> (nx s0 <= j < nx s)%nat /\ is_Some (dm s !! j)).
    { intros j Hj. apply (lg_own _ _ _ _ L KD j). right. apply elem_of_app. left. by apply elem_rows. }
    eexists. split; [apply (free_2D_run b (S b)); [done|]|].
    { intros j Hj. apply HR. lia. }
    pose proof (lg_nd _ _ _ _ L) as ND. apply NoDup_cons in ND as [Hni ND]. apply NoDup_app in ND as (ND1 & ND2 & ND3).
    split; [|split; [done|split; [done|]]].
    + split; simpl; try (apply L; fail).
      * intros q j Hj. destruct (lg_own _ _ _ _ L q j) as [? Hh]. { right. apply elem_of_app. auto. }
        split; [done|]. destruct q; simpl in *.
        -- rewrite drop_rows_lookup. destruct (decide _) as [Hr|]; [|done]. exfalso. apply (ND2 (KD, j)); [by apply elem_rows|done].
        -- rewrite lookup_delete_ne; [done|]. intros ->. apply Hni. apply elem_of_app. auto.
        -- done.
      * done.
      * intros j Hj HO. rewrite drop_rows_lookup. destruct (decide _) as [Hr|Hr].
        -- symmetry. apply Hu. apply HR in Hr. lia.
        -- apply L; [done|]. apply not_elem_of_cons. split; [done|]. rewrite not_elem_of_app. split; [|done]. by rewrite elem_rows.
      * intros j HO. rewrite drop_rows_lookup. destruct (decide _) as [Hr|Hr].
        -- destruct (Hu j) as (U & _). { apply HR in Hr. lia. } by rewrite U.
        -- apply L. apply not_elem_of_cons. split; [done|]. rewrite not_elem_of_app. split; [|done]. by rewrite elem_rows.
      * intros j HO. destruct (decide (b = j)) as [->|Hne].
        -- rewrite lookup_delete. symmetry. apply Hu. lia.
        -- rewrite lookup_delete_ne by done. apply L. apply not_elem_of_cons. split; [congruence|].
           rewrite not_elem_of_app. split; [|done]. intros H. by apply nelem_rows in H.
      * intros j HO. apply L. apply not_elem_of_cons. split; [done|]. rewrite not_elem_of_app. split; [|done]. intros H. by apply nelem_rows in H.
    + intros j Hj. simpl. rewrite drop_rows_lookup. destruct (decide _) as [Hr|]; [|done]. apply HR in Hr. lia.
Qed.
End own2.
