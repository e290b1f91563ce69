(** * Overwriting single cells, and a ledger of owned allocations. *)
From Coq Require Import ZArith Lia.
From stdpp Require Import base numbers gmap list.
From Verif Require Export P_Loop P_Math P_Memory P_Step.
Local Open Scope Z_scope.

Section wr.
Context `{N : Num}.
Implicit Types (s : st) (p : ptr) (xs : list T).
Lemma wr_self s p xs : seg s p xs -> wr p xs s = s.
Proof.
  intros H. destruct p as [|b o]; [done|]. destruct xs as [|x xs]; [apply wr_nil|]. set (ys := x :: xs) in *.
  assert (Ho : 0 <= o). { pose proof (wok_nonneg _ _ _ (seg_wok _ _ _ H)) as Hn. simpl in Hn. apply Hn. lia. }
  clearbody ys. clear x xs.
  unfold wr. destruct s as [dm0 im0 pm0 om0 al0 nx0 en0 gl0]. unfold set_dm. simpl. f_equal.
  apply map_eq. intros i. destruct (decide (b = i)) as [<-|]; [|by rewrite lookup_alter_ne].
  rewrite lookup_alter. destruct (dm0 !! b) as [c|] eqn:Hb; [|done]. simpl. f_equal.
  assert (HC : forall k, (k < length ys)%nat -> c !! (Z.to_nat o + k)%nat = Some (Some (at_ ys k))).
  { intros k Hk. pose proof (seg_cell _ _ _ k H Hk) as E. unfold cell in E. simpl in E.
    destruct (0 <=? o + Z.of_nat k) eqn:E0; [|apply Z.leb_gt in E0; lia]. rewrite Hb in E.
    replace (Z.to_nat o + k)%nat with (Z.to_nat (o + Z.of_nat k)) by lia. done. }
  apply list_eq. intros j.
  destruct (decide (j < Z.to_nat o)%nat); [by rewrite list_lookup_inserts_lt by lia|].
  destruct (decide (j < Z.to_nat o + length ys)%nat).
  - replace j with (Z.to_nat o + (j - Z.to_nat o))%nat at 2 by lia. rewrite HC by lia.
    rewrite list_lookup_inserts.
    + rewrite list_lookup_fmap, (at_lookup ys) by lia. done.
    + rewrite fmap_length. lia.
    + pose proof (HC (j - Z.to_nat o)%nat ltac:(lia)) as E. apply lookup_lt_Some in E. lia.
  - rewrite list_lookup_inserts_ge by (rewrite fmap_length; lia). done.
Qed.
(** writing one cell of a known array *)
Lemma wr_insert s p xs k v : seg s p xs -> (k < length xs)%nat ->
  wr (padd p (Z.of_nat k)) [v] s = wr p (<[k := v]> xs) s.
Proof.
  intros H Hk. rewrite <- (wr_self s p xs H) at 1.
  pose proof (seg_wok _ _ _ H) as Hw.
  assert (Hn : nonneg p) by (eapply wok_nonneg; [exact Hw|lia]).
  assert (E : xs = take k xs ++ [at_ xs k] ++ drop (S k) xs).
  { rewrite <- (take_drop k xs) at 1. f_equal. apply (drop_S xs (at_ xs k) k). by apply at_lookup. }
  assert (E2 : <[k := v]> xs = take k xs ++ [v] ++ drop (S k) xs) by (by apply insert_take_drop).
  rewrite E2. rewrite E at 1. rewrite <- !(wr_app _ p (take k xs)) by done.
  rewrite take_length_le by lia.
  assert (Hn' : nonneg (padd p (Z.of_nat k))) by (destruct p; simpl in *; lia || done).
  rewrite <- !(wr_app _ (padd p (Z.of_nat k)) [_]) by done. simpl length.
  rewrite (wr_comm _ (padd p (Z.of_nat k)) [v]).
  - f_equal. by apply wr_overwrite.
  - done.
  - destruct p; simpl in *; lia || done.
  - rewrite padd_padd. apply disj_padd_padd. simpl. lia.
Qed.
Lemma at_insert xs k v j : (k < length xs)%nat -> at_ (<[k := v]> xs) j = if (j =? k)%nat then v else at_ xs j.
Proof.
  intros Hk. unfold at_. rewrite !nth_lookup. destruct (Nat.eqb_spec j k) as [->|Hne].
  - by rewrite list_lookup_insert.
  - by rewrite list_lookup_insert_ne.
Qed.
End wr.

(** ** Ledger of owned allocations

    [ledger W O s0 s]: between s0 and s the blocks in O were allocated and are still held; the
    contents of the blocks W may have changed; everything else is as in s0 (the globals are not
    covered). *)
Inductive kind : Type := KD | KP | KO.
Definition own (k : kind) (p : ptr) : list (kind * nat) := match p with Null => [] | Ptr b _ => [(k, b)] end.

Section ledger.
Context `{N : Num}.
Implicit Types (s : st) (p : ptr) (W : list nat) (O : list (kind * nat)).

Definition has s (k : kind) (b : nat) : Prop :=
  match k with KD => is_Some (dm s !! b) | KP => is_Some (pm s !! b) | KO => is_Some (om s !! b) end.
Record ledger W O s0 s : Prop := mkLedger {
  lg_own : forall k b, (k, b) ∈ O -> (nx s0 <= b < nx s)%nat /\ has s k b;
  lg_nd : NoDup O;
  lg_dm : forall b, b ∉ W -> (KD, b) ∉ O -> dm s !! b = dm s0 !! b;
  lg_len : forall b, (KD, b) ∉ O -> length <$> dm s !! b = length <$> dm s0 !! b;
  lg_pm : forall b, (KP, b) ∉ O -> pm s !! b = pm s0 !! b;
  lg_om : forall b, (KO, b) ∉ O -> om s !! b = om s0 !! b;
  lg_im : im s = im s0; lg_en : en s = en s0;
  lg_nx : (nx s0 <= nx s)%nat;
  lg_al : forall b, (b < nx s0)%nat -> al s b = al s0 b
}.
Lemma ledger_nil s : ledger [] [] s s.
Proof. split; try done; try (intros; by apply elem_of_nil in H). apply NoDup_nil; done. Qed.
Lemma ledger_perm W O O' s0 s : O ≡ₚ O' -> ledger W O s0 s -> ledger W O' s0 s.
Proof.
  intros HP []. split; auto.
  - intros k b. rewrite <- HP. auto.
  - by rewrite <- HP.
  - intros b Hb. rewrite <- HP. auto.
  - intros b. rewrite <- HP. auto.
  - intros b. rewrite <- HP. auto.
  - intros b. rewrite <- HP. auto.
Qed.
Lemma ledger_W W W' O s0 s : (forall b, b ∈ W -> b ∈ W') -> ledger W O s0 s -> ledger W' O s0 s.
Proof. intros HW []. split; auto. Qed.
Lemma ledger_unborn W O s0 s : unborn s0 -> ledger W O s0 s -> unborn s.
Proof.
  intros Hu L b Hb. destruct (Hu b) as (U1 & U2 & U3). { pose proof (lg_nx _ _ _ _ L). lia. }
  assert (HO : forall k, (k, b) ∉ O). { intros k Hk. apply (lg_own _ _ _ _ L) in Hk. lia. }
  repeat split.
  - pose proof (lg_len _ _ _ _ L b (HO _)) as E. rewrite U1 in E. by destruct (dm s !! b).
  - by rewrite (lg_pm _ _ _ _ L b (HO _)).
  - by rewrite (lg_om _ _ _ _ L b (HO _)).
Qed.
(** writes to W or to owned blocks *)
Lemma ledger_touch W W' O s0 s s' : ledger W O s0 s -> touch W' s s' ->
  (forall b, b ∈ W' -> b ∈ W \/ (KD, b) ∈ O) -> ledger W O s0 s'.
Proof.
  intros L Tt HW. split.
  - intros k b Hk. pose proof (lg_own _ _ _ _ L k b Hk) as [H1 H2]. split; [by rewrite (t_nx _ _ _ Tt)|].
    destruct k; simpl in *.
    + pose proof (t_len _ _ _ Tt b) as E. destruct H2 as [c Hc]. rewrite Hc in E. destruct (dm s' !! b); [eauto|done].
    + by rewrite (t_pm _ _ _ Tt).
    + by rewrite (t_om _ _ _ Tt).
  - apply L.
  - intros b Hb HO. rewrite (t_dm _ _ _ Tt); [by apply L|]. intros Hb'. by destruct (HW b Hb').
  - intros b HO. rewrite (t_len _ _ _ Tt). by apply L.
  - intros b HO. rewrite (t_pm _ _ _ Tt). by apply L.
  - intros b HO. rewrite (t_om _ _ _ Tt). by apply L.
  - rewrite (t_im _ _ _ Tt). apply L.
  - rewrite (t_en _ _ _ Tt). apply L.
  - rewrite (t_nx _ _ _ Tt). apply L.
  - intros b Hb. rewrite (t_al _ _ _ Tt). by apply L.
Qed.
Lemma ledger_trans W O1 O2 s0 s1 s2 : ledger W O1 s0 s1 -> ledger W O2 s1 s2 -> 
  (forall b, (KD, b) ∈ O1 -> b ∉ W) -> ledger W (O2 ++ O1) s0 s2.
Proof.
  intros L1 L2 HW.
  assert (HD : forall k b, (k, b) ∈ O1 -> (k, b) ∉ O2).
  { intros k b H1 H2. apply (lg_own _ _ _ _ L1) in H1. apply (lg_own _ _ _ _ L2) in H2. lia. }
  pose proof (lg_nx _ _ _ _ L1). pose proof (lg_nx _ _ _ _ L2).
  split.
  - intros k b Hk. apply elem_of_app in Hk as [Hk|Hk].
    + apply (lg_own _ _ _ _ L2) in Hk. split; [lia|tauto].
    + pose proof (HD k b Hk) as Hn. pose proof Hk as Hk'. apply (lg_own _ _ _ _ L1) in Hk as [? Hh]. split; [lia|].
      destruct k; simpl in *.
      * rewrite (lg_dm _ _ _ _ L2); [done| |done]. by apply HW.
      * by rewrite (lg_pm _ _ _ _ L2).
      * by rewrite (lg_om _ _ _ _ L2).
  - apply NoDup_app. split; [apply L2|]. split; [|apply L1].
    intros [k b] H2 H1. by apply (HD k b).
  - intros b Hb. rewrite not_elem_of_app. intros [H2 H1]. rewrite (lg_dm _ _ _ _ L2), (lg_dm _ _ _ _ L1) by done. done.
  - intros b. rewrite not_elem_of_app. intros [H2 H1]. rewrite (lg_len _ _ _ _ L2), (lg_len _ _ _ _ L1) by done. done.
  - intros b. rewrite not_elem_of_app. intros [H2 H1]. rewrite (lg_pm _ _ _ _ L2), (lg_pm _ _ _ _ L1) by done. done.
  - intros b. rewrite not_elem_of_app. intros [H2 H1]. rewrite (lg_om _ _ _ _ L2), (lg_om _ _ _ _ L1) by done. done.
  - by rewrite (lg_im _ _ _ _ L2), (lg_im _ _ _ _ L1).
  - by rewrite (lg_en _ _ _ _ L2), (lg_en _ _ _ _ L1).
  - lia.
  - intros b Hb. rewrite (lg_al _ _ _ _ L2) by lia. by apply L1.
Qed.
(** freeing an owned block of doubles (or NULL) *)
Lemma free_own W O s0 s p : unborn s0 -> ledger W (own KD p ++ O) s0 s -> (forall b o, p = Ptr b o -> o = 0) ->
  exists s', free_d p s = Ok tt s' /\ ledger W O s0 s' /\ gl s' = gl s /\ nx s' = nx s /\
    (forall b, (b < nx s0)%nat -> dm s' !! b = dm s !! b).
Proof.
  intros Hu L Ho. destruct p as [|b o]; simpl in *.
  - exists s. done.
  - rewrite (Ho b o) by done. simpl.
    destruct (lg_own _ _ _ _ L KD b ltac:(left)) as [Hb [c Hc]]. simpl in Hc. rewrite Hc.
    eexists. split; [done|]. split; [|split; [done|split; [done|]]].
    2:{ intros b' Hb'. simpl. rewrite lookup_delete_ne by lia. done. }
    pose proof (lg_nd _ _ _ _ L) as ND. apply NoDup_cons in ND as [Hni ND].
    assert (H0 : dm s0 !! b = None) by (apply Hu; lia).
    split; simpl; try (apply L; fail).
    + intros k b' Hk. destruct (lg_own _ _ _ _ L k b' ltac:(by right)) as [? Hh]. split; [done|].
      destruct k; simpl in *; try done. rewrite lookup_delete_ne; [done|]. intros ->. done.
    + done.
    + intros b' Hb' HO. destruct (decide (b = b')) as [<-|Hne]; [by rewrite lookup_delete|].
      rewrite lookup_delete_ne by done. apply L; [done|]. apply not_elem_of_cons. split; [congruence|done].
    + intros b' HO. destruct (decide (b = b')) as [<-|Hne]; [by rewrite lookup_delete, H0|].
      rewrite lookup_delete_ne by done. apply L. apply not_elem_of_cons. split; [congruence|done].
    + intros b' HO. apply L. apply not_elem_of_cons. split; [congruence|done].
    + intros b' HO. apply L. apply not_elem_of_cons. split; [congruence|done].
Qed.

(** ** allocating: an entry records the block number the request would get, its size, the initial
    contents and the pointer returned *)
Record ent := mkEnt { e_b : nat; e_n : Z; e_c : list (option T); e_p : ptr }.
Definition ent_ok s0 t (e : ent) : Prop :=
  (e_p e = Ptr (e_b e) 0 /\ 0 <= e_n e /\ alloc_ok (en s0) (e_b e) = true /\ dm t !! e_b e = Some (e_c e) /\ al t (e_b e) = true) \/
  (e_p e = Null /\ (e_n e < 0 \/ alloc_ok (en s0) (e_b e) = false)).
Definition owns (l : list ent) : list (kind * nat) := l ≫= fun e => own KD (e_p e).
Lemma owns_snoc l e : owns (l ++ [e]) = owns l ++ own KD (e_p e).
Proof. unfold owns. rewrite bind_app. simpl. by rewrite app_nil_r. Qed.
(** state after some allocations *)
Record acct W (l : list ent) s0 s : Prop := mkAcct {
  ac_l : ledger W (owns l) s0 s;
  ac_e : Forall (ent_ok s0 s) l;
  ac_b : Forall (fun e => (nx s0 <= e_b e < nx s)%nat) l;
  ac_old : forall b, (b < nx s0)%nat -> dm s !! b = dm s0 !! b
}.
Lemma acct_nil s : acct [] [] s s.
Proof. split; [apply ledger_nil|constructor|constructor|done]. Qed.
Lemma calloc_own W l s0 s n : unborn s0 -> acct W l s0 s ->
  exists p s', l1c_calloc_double n s = Ok p s' /\
    acct W (l ++ [mkEnt (nx s) n (Some <$> const_of (Z.to_nat n) zero) p]) s0 s' /\
    gl s' = gl s /\ pm s' = pm s /\ om s' = om s /\ nx s' = S (nx s).
Proof.
  intros Hu [L HE HB HO]. pose proof (ledger_unborn _ _ _ _ Hu L) as Hus.
  pose proof (lg_nx _ _ _ _ L) as Hnx.
  destruct (calloc_run s n Hus) as [(s' & E & Hn & Hok & (R1 & R2 & R3 & R4 & R5 & R6) & Enx & Epm & Eal & Edm)|(E & Hno)].
  - exists (Ptr (nx s) 0), s'. split; [done|]. split; [|auto]. split.
    + rewrite owns_snoc. simpl. apply (ledger_perm W ((KD, nx s) :: owns l)); [apply Permutation_cons_append|].
      split.
      * intros k b [[= -> ->]|Hk]%elem_of_cons.
        -- split; [lia|]. simpl. rewrite Edm, lookup_insert. eauto.
        -- destruct (lg_own _ _ _ _ L k b Hk) as [? Hh]. split; [lia|]. destruct k; simpl in *.
           ++ rewrite Edm, lookup_insert_ne by lia. done.
           ++ by rewrite Epm.
           ++ by rewrite R2.
      * apply NoDup_cons. split; [|apply L]. intros Hk. apply (lg_own _ _ _ _ L) in Hk. lia.
      * intros b Hb [Hne Hk]%not_elem_of_cons. rewrite Edm, lookup_insert_ne by congruence. by apply L.
      * intros b [Hne Hk]%not_elem_of_cons. rewrite Edm, lookup_insert_ne by congruence. by apply L.
      * intros b [Hne Hk]%not_elem_of_cons. rewrite Epm. by apply L.
      * intros b [Hne Hk]%not_elem_of_cons. rewrite R2. by apply L.
      * rewrite R1. apply L.
      * rewrite R3. apply L.
      * lia.
      * intros b Hb. rewrite R6 by lia. by apply L.
    + apply Forall_app. split.
      * rewrite Forall_forall in HE, HB |- *. intros e He. specialize (HE e He). specialize (HB e He). simpl in HB.
        destruct HE as [(P1 & P2 & P3 & P4 & P5)|?]; [left|by right].
        split; [done|]. split; [done|]. split; [done|]. rewrite Edm, lookup_insert_ne by lia. split; [done|]. rewrite R6 by lia. done.
      * apply Forall_cons; split; [|constructor]. left. simpl. rewrite <- (lg_en _ _ _ _ L), Edm, lookup_insert. auto.
    + apply Forall_app. split.
      * eapply Forall_impl; [exact HB|]. simpl. intros e ?. lia.
      * apply Forall_cons; split; [|constructor]. simpl. lia.
    + intros b Hb. rewrite Edm, lookup_insert_ne by lia. by apply HO.
  - exists Null, (tick s). split; [done|]. split; [|auto]. split.
    + rewrite owns_snoc. simpl. rewrite app_nil_r. destruct L. split; simpl; auto.
      intros k b Hk. destruct (lg_own0 k b Hk) as [? Hh]. split; [lia|]. done.
    + apply Forall_app. split.
      * done.
      * apply Forall_cons; split; [|constructor]. right. simpl. rewrite <- (lg_en _ _ _ _ L). auto.
    + apply Forall_app. split.
      * eapply Forall_impl; [exact HB|]. simpl. intros e ?. lia.
      * apply Forall_cons; split; [|constructor]. simpl. lia.
    + done.
Qed.
Lemma ent_ptr0 s0 s e b o : ent_ok s0 s e -> e_p e = Ptr b o -> o = 0.
Proof. intros [(E & _)|(E & _)]; rewrite E; congruence. Qed.

(** facts about the caller's buffers survive allocation *)
Lemma acct_seg W l s0 s b o xs : acct W l s0 s -> (b < nx s0)%nat -> seg s0 (Ptr b o) xs -> seg s (Ptr b o) xs.
Proof.
  intros A Hb H i v Hi. specialize (H i v Hi). unfold cell in *. by rewrite (ac_old _ _ _ _ A).
Qed.
Lemma acct_wok W l s0 s b o n : acct W l s0 s -> (b < nx s0)%nat -> wok s0 (Ptr b o) n -> wok s (Ptr b o) n.
Proof. intros A Hb H i Hi. specialize (H i Hi). unfold cell in *. by rewrite (ac_old _ _ _ _ A). Qed.
Lemma acct_aligned W l s0 s b o : acct W l s0 s -> (b < nx s0)%nat -> is_aligned s (Ptr b o) = is_aligned s0 (Ptr b o).
Proof. intros A Hb. unfold is_aligned. by rewrite (lg_al _ _ _ _ (ac_l _ _ _ _ A)). Qed.
(** a buffer that can be written exists *)
Lemma wok_old s b o n : unborn s -> (0 < n)%nat -> wok s (Ptr b o) n -> (b < nx s)%nat.
Proof.
  intros Hu Hn H. specialize (H 0%nat Hn). destruct (decide (b < nx s)%nat) as [|Hb]; [done|].
  destruct (Hu b ltac:(lia)) as (E & _). unfold cell in H. rewrite E in H. destruct (0 <=? o + Z.of_nat 0); by destruct H.
Qed.
Lemma seg_block s b c : dm s !! b = Some (Some <$> c) -> seg s (Ptr b 0) c.
Proof.
  intros E i v Hi. unfold cell. rewrite E. simpl. replace (0 <=? 0 + Z.of_nat i) with true by (symmetry; apply Z.leb_le; lia).
  replace (Z.to_nat (0 + Z.of_nat i)) with i by lia. rewrite list_lookup_fmap, Hi. done.
Qed.
End ledger.
