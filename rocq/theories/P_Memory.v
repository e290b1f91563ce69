(** * Allocation proofs. *)
From Coq Require Import ZArith Lia.
From stdpp Require Import base numbers gmap list.
From Verif Require Export P_Loop P_Math M_Memory.
Local Open Scope Z_scope.

Section brk.
Context `{N : Num}.
Lemma brkn_rel {A} (P Q : nat -> A -> st -> Prop) k lo (a : A) (body : Z -> A -> M (ctl A)) s :
  P 0%nat a s ->
  (forall i a s, (i < k)%nat -> P i a s ->
     exists c s', body (lo + Z.of_nat i) a s = Ok c s' /\
       match c with Go a' => P (S i) a' s' | Stop a' => Q i a' s' end) ->
  exists i a' s', brkn k lo a body s = Ok (lo + Z.of_nat i, a') s' /\
    ((i = k /\ P k a' s') \/ ((i < k)%nat /\ Q i a' s')).
Proof.
  revert lo a s P Q. induction k as [|k IH]; intros lo a s P Q H0 H; simpl.
  - exists 0%nat, a, s. rewrite Z.add_0_r. auto.
  - destruct (H 0%nat a s ltac:(lia) H0) as (c & s1 & E1 & H1). rewrite Z.add_0_r in E1.
    rewrite (bind_ok _ _ _ _ _ E1). destruct c as [a1|a1].
    + destruct (IH (lo + 1) a1 s1 (fun i => P (S i)) (fun i => Q (S i))) as (i & a' & s' & E & HH); auto.
      { intros i a2 s2 Hi HP. replace (lo + 1 + Z.of_nat i) with (lo + Z.of_nat (S i)) by lia. apply H; [lia|done]. }
      exists (S i), a', s'. replace (lo + Z.of_nat (S i)) with (lo + 1 + Z.of_nat i) by lia. split; [done|].
      destruct HH as [[-> ?]|[? ?]]; [left|right]; split; auto; lia.
    + exists 0%nat, a1, s1. rewrite Z.add_0_r. split; [done|]. right. split; [lia|done].
Qed.
End brk.

Section alloc.
Context `{N : Num}.
Implicit Types (s : st) (p q : ptr).

(** blocks from the next allocation number on do not exist yet *)
Definition unborn s : Prop := forall b, (nx s <= b)%nat -> dm s !! b = None /\ pm s !! b = None /\ om s !! b = None.

(** everything but the double blocks, the pointer blocks, alignment of new blocks and the counter is the same *)
Definition same_rest s s' : Prop :=
  im s' = im s /\ om s' = om s /\ en s' = en s /\ gl s' = gl s /\ (nx s <= nx s')%nat /\
  (forall b, (b < nx s)%nat -> al s' b = al s b).
Lemma same_rest_refl s : same_rest s s.
Proof. by repeat split. Qed.
Lemma same_rest_trans s1 s2 s3 : same_rest s1 s2 -> same_rest s2 s3 -> same_rest s1 s3.
Proof.
  intros (A1 & A2 & A3 & A4 & A5 & A6) (B1 & B2 & B3 & B4 & B5 & B6).
  repeat split; try congruence; try lia. intros b Hb. rewrite B6 by lia. by apply A6.
Qed.

Lemma alloc_d_cases n s : 
  (alloc_d n s = Ok (Ptr (nx s) 0) (tick (set_al (nx s) true (set_dm (<[nx s := replicate (Z.to_nat n) None]>) s))) /\ 0 <= n /\ alloc_ok (en s) (nx s) = true)
  \/ (alloc_d n s = Ok Null (tick s) /\ (n < 0 \/ alloc_ok (en s) (nx s) = false)).
Proof.
  unfold alloc_d. destruct (0 <=? n) eqn:E1; simpl.
  - apply Z.leb_le in E1. destruct (alloc_ok (en s) (nx s)) eqn:E2; [left|right]; auto.
  - apply Z.leb_gt in E1. right. auto.
Qed.

(** the rows b, b+1, ... of a 2D array: k blocks of c uninitialised doubles *)
Definition rows_map (b k c : nat) : gmap nat (list (option T)) :=
  list_to_map ((fun j => (j, replicate c (@None T))) <$> seq b k).
Lemma rows_lookup b k c j : rows_map b k c !! j = if decide (b <= j < b + k)%nat then Some (replicate c None) else None.
Proof.
  unfold rows_map. revert b. induction k as [|k IH]; intros b; simpl.
  - rewrite lookup_empty. destruct (decide _); [lia|done].
  - destruct (decide (b = j)) as [->|Hne].
    + rewrite lookup_insert. destruct (decide _); [done|lia].
    + rewrite lookup_insert_ne by done. rewrite IH. destruct (decide _), (decide _); auto; lia.
Qed.
Lemma rows_S b k c : rows_map b (S k) c = <[(b + k)%nat := replicate c None]> (rows_map b k c).
Proof.
  apply map_eq. intros j. rewrite rows_lookup. destruct (decide (b + k = j)%nat) as [<-|Hne].
  - rewrite lookup_insert. destruct (decide _); [done|lia].
  - rewrite lookup_insert_ne by done. rewrite rows_lookup. destruct (decide _), (decide _); auto; lia.
Qed.
(** the pointer array after k of n rows have been allocated *)
Definition prows (b k n : nat) : list (option ptr) :=
  ((fun j => Some (Ptr j 0)) <$> seq b k) ++ replicate (n - k) (Some Null).
Lemma prows_length b k n : (k <= n)%nat -> length (prows b k n) = n.
Proof. intros. unfold prows. rewrite app_length, fmap_length, seq_length, replicate_length. lia. Qed.
Lemma prows_lookup b k n j : (j < n)%nat -> (k <= n)%nat ->
  prows b k n !! j = Some (Some (if decide (j < k)%nat then Ptr (b + j) 0 else Null)).
Proof.
  intros Hj Hk. unfold prows. destruct (decide (j < k)%nat).
  - rewrite lookup_app_l by (rewrite fmap_length, seq_length; lia).
    by rewrite list_lookup_fmap, lookup_seq_lt by done.
  - rewrite lookup_app_r; rewrite fmap_length, seq_length; [|lia].
    apply lookup_replicate. split; [done|lia].
Qed.
Lemma prows_S b k n : (k < n)%nat -> <[k := Some (Ptr (b + k) 0)]> (prows b k n) = prows b (S k) n.
Proof.
  intros Hk. apply list_eq. intros j. destruct (decide (j < n)%nat).
  - destruct (decide (j = k)) as [->|].
    + rewrite list_lookup_insert by (rewrite prows_length; lia). rewrite prows_lookup by lia.
      destruct (decide _); [done|lia].
    + rewrite list_lookup_insert_ne by lia. rewrite !prows_lookup by lia.
      destruct (decide _), (decide _); auto; lia.
  - rewrite !lookup_ge_None_2; auto; rewrite ?insert_length, prows_length; lia.
Qed.

Lemma ldp_ok s b c i q : pm s !! b = Some c -> c !! i = Some (Some q) -> ldp (Ptr b 0) (Z.of_nat i) s = Ok q s.
Proof. intros Hb Hi. unfold ldp. rewrite (proj2 (Z.leb_le _ _)) by lia. rewrite Hb, Z.add_0_l, Nat2Z.id, Hi. done. Qed.
Lemma stp_ok s b c i v w : pm s !! b = Some c -> c !! i = Some w ->
  stp (Ptr b 0) (Z.of_nat i) v s = Ok tt (set_pm (alter (<[i := Some v]>) b) s).
Proof. intros Hb Hi. unfold stp. rewrite (proj2 (Z.leb_le _ _)) by lia. rewrite Hb, Z.add_0_l, Nat2Z.id, Hi. done. Qed.

(** state with k of n rows allocated, started from s0 with pointer block b *)
Definition st2D (s0 : st) (n c k : nat) (s : st) : Prop :=
  let b := nx s0 in
  same_rest s0 s /\ nx s = (S b + k)%nat /\
  dm s = rows_map (S b) k c ∪ dm s0 /\ pm s = <[b := prows (S b) k n]> (pm s0) /\
  forall j, (j < k)%nat -> al s (S b + j)%nat = true.

(** the heap without the blocks b, ..., b+n-1 *)
Definition drop_rows (b n : nat) (m : gmap nat (list (option T))) : gmap nat (list (option T)) :=
  filter (fun kv => ~ (b <= fst kv < b + n)%nat) m.
Lemma drop_rows_lookup b n m i : drop_rows b n m !! i = if decide (b <= i < b + n)%nat then None else m !! i.
Proof.
  unfold drop_rows. rewrite map_filter_lookup. destruct (m !! i); simpl; [|by destruct (decide _)].
  destruct (decide _).
  - rewrite option_guard_False; [done|]. simpl. lia.
  - rewrite option_guard_True; [done|]. simpl. lia.
Qed.
Lemma drop_rows_0 b m : drop_rows b 0 m = m.
Proof. apply map_eq. intros i. rewrite drop_rows_lookup. destruct (decide _); [lia|done]. Qed.
Lemma drop_rows_S b k m : delete (b + k)%nat (drop_rows b k m) = drop_rows b (S k) m.
Proof.
  apply map_eq. intros i. destruct (decide (i = b + k)%nat) as [->|].
  - rewrite lookup_delete, drop_rows_lookup. destruct (decide _); [done|lia].
  - rewrite lookup_delete_ne by done. rewrite !drop_rows_lookup. destruct (decide _), (decide _); auto; lia.
Qed.
Lemma drop_rows_union b k c m : (forall i, (b <= i < b + k)%nat -> m !! i = None) ->
  drop_rows b k (rows_map b k c ∪ m) = m.
Proof.
  intros H. apply map_eq. intros i. rewrite drop_rows_lookup, lookup_union, rows_lookup.
  destruct (decide _); [symmetry; auto|]. by destruct (m !! i).
Qed.

(** freeing n pointers of which the first k point to live rows and the others are NULL *)
Lemma free_rows b r n k s : (k <= n)%nat -> pm s !! b = Some (prows r k n) ->
  (forall j, (j < k)%nat -> is_Some (dm s !! (r + j)%nat)) ->
  (for_ 0 (Z.of_nat n) (fun k => let* q := ldp (Ptr b 0) k in l1c_free_double q) ;! free_p (Ptr b 0)) s
  = Ok tt (set_pm (delete b) (set_dm (drop_rows r k) s)).
Proof.
  intros Hk Hpm Hrow.
  set (I := fun j => set_dm (drop_rows r (j `min` k)) s).
  assert (EI : forall j, pm (I j) = pm s) by done.
  assert (HL : for_ 0 (Z.of_nat n) (fun k => let* q := ldp (Ptr b 0) k in l1c_free_double q) s = Ok tt (I n)).
  { replace s with (I 0%nat) at 1.
    2:{ unfold I, set_dm. simpl. rewrite drop_rows_0. by destruct s. }
    unfold for_. rewrite Z.sub_0_r, Nat2Z.id. apply (forn_inv I).
    intros j Hj. rewrite Z.add_0_l.
    rewrite (bind_ok _ _ _ (if decide (j < k)%nat then Ptr (r + j) 0 else Null) (I j)).
    2:{ eapply ldp_ok; [rewrite EI; exact Hpm|]. rewrite prows_lookup by lia. done. }
    destruct (decide (j < k)%nat).
    - unfold l1c_free_double, free_d. simpl (0 =? 0). cbv iota.
      destruct (Hrow j) as [c Hc]; [lia|].
      assert (Hd : dm (I j) !! (r + j)%nat = Some c).
      { unfold I. simpl. rewrite drop_rows_lookup. destruct (decide _); [lia|done]. }
      rewrite Hd. f_equal. unfold I, set_dm. cbn [dm im pm om al nx en gl]. f_equal.
      replace (S j `min` k)%nat with (S j) by lia. replace (j `min` k)%nat with j by lia. apply drop_rows_S.
    - unfold l1c_free_double, free_d. f_equal. unfold I. f_equal. f_equal. lia. }
  rewrite (bind_ok _ _ _ _ _ HL). unfold free_p. simpl (0 =? 0). cbv iota. rewrite EI, Hpm.
  f_equal. unfold I. replace (n `min` k)%nat with k by lia. done.
Qed.

Lemma alloc_d_frame s n p s' : alloc_d n s = Ok p s' -> same_rest s s' /\ pm s' = pm s /\ nx s' = S (nx s).
Proof.
  destruct (alloc_d_cases n s) as [(-> & _)|(-> & _)]; intros E; inversion E; subst; clear E; simpl.
  - repeat split; simpl; auto. intros b Hb. destruct (Nat.eqb_spec b (nx s)); [lia|done].
  - repeat split; simpl; auto.
Qed.

Lemma prows_0 b n : prows b 0 n = replicate n (Some Null).
Proof. unfold prows. simpl. by rewrite Nat.sub_0_r. Qed.
Lemma null_fill_step n i : (i < n)%nat ->
  <[i := Some Null]> (replicate i (Some Null) ++ replicate (n - i) None) = replicate (S i) (Some Null) ++ replicate (n - S i) (@None ptr).
Proof.
  intros Hi. replace (n - i)%nat with (S (n - S i)) by lia. simpl.
  rewrite insert_app_r_alt by (rewrite replicate_length; lia). rewrite replicate_length, Nat.sub_diag. simpl.
  rewrite app_comm_cons, replicate_cons_app. by rewrite <- app_assoc.
Qed.

(** whether the allocations that malloc_double_2D asks for would all be granted *)
Definition grant (s : st) (nrow : nat) (ncol : Z) : Prop :=
  alloc_ok (en s) (nx s) = true /\
  forall j, (j < nrow)%nat -> 0 <= ncol /\ alloc_ok (en s) (S (nx s) + j) = true.

Lemma malloc_2D_run s nrow ncol : unborn s ->
  (exists s', l1c_malloc_double_2D nrow ncol s = Ok (Ptr (nx s) 0) s' /\ 0 <= nrow /\ grant s (Z.to_nat nrow) ncol /\
              st2D s (Z.to_nat nrow) (Z.to_nat ncol) (Z.to_nat nrow) s') \/
  (exists s', l1c_malloc_double_2D nrow ncol s = Ok Null s' /\ ~ (0 <= nrow /\ grant s (Z.to_nat nrow) ncol) /\
              same_rest s s' /\ dm s' = dm s /\ pm s' = pm s).
Proof.
  intros Hub. unfold l1c_malloc_double_2D.
  destruct ((0 <=? nrow) && alloc_ok (en s) (nx s)) eqn:E0.
  2:{ right. exists (tick s). split.
      - rewrite (bind_ok _ _ _ Null (tick s)); [done|]. unfold alloc_p. by rewrite E0.
      - split; [|by repeat split; simpl; auto].
        intros [H0 [H1 _]]. rewrite (proj2 (Z.leb_le _ _)), H1 in E0 by lia. done. }
  apply andb_true_iff in E0 as [En Ea]. apply Z.leb_le in En.
  set (n := Z.to_nat nrow). assert (Hn : nrow = Z.of_nat n) by (unfold n; lia).
  set (b := nx s). set (s1 := tick (set_pm (<[b := replicate n None]>) s)).
  rewrite (bind_ok _ _ _ (Ptr b 0) s1).
  2:{ unfold alloc_p. rewrite (proj2 (Z.leb_le _ _)), Ea by lia. done. }
  cbn [is_null]. cbv iota.
  (* the pointers are set to NULL *)
  set (I := fun i => tick (set_pm (<[b := replicate i (Some Null) ++ replicate (n - i) None]>) s)).
  rewrite (bind_ok _ _ _ tt (I n)).
  2:{ assert (E : I 0%nat = s1).
      { unfold I, s1. simpl. by rewrite Nat.sub_0_r. }
      rewrite <- E. unfold for_. rewrite Z.sub_0_r. fold n. apply (forn_inv I). intros i Hi. rewrite Z.add_0_l.
      erewrite stp_ok.
      2:{ unfold I. simpl. apply lookup_insert. }
      2:{ rewrite lookup_app_r; rewrite replicate_length; [|lia]. rewrite Nat.sub_diag.
          apply lookup_replicate. split; [done|lia]. }
      f_equal. unfold I, set_pm, tick. simpl. f_equal. rewrite alter_insert. f_equal.
      by apply null_fill_step. }
  (* the rows *)
  assert (HP0 : st2D s n (Z.to_nat ncol) 0 (I n)).
  { split; [|split; [|split; [|split]]].
    - unfold I. repeat split; simpl; auto.
    - unfold I. simpl. fold b. lia.
    - unfold I, rows_map. simpl. by rewrite (left_id ∅ (∪)).
    - unfold I. simpl. fold b. f_equal. rewrite prows_0, Nat.sub_diag. simpl. by rewrite app_nil_r.
    - intros j Hj. lia. }
  set (body := fun (k : Z) (_ : bool) => _).
  destruct (brkn_rel (fun k a t => a = false /\ st2D s n (Z.to_nat ncol) k t /\
                         forall j, (j < k)%nat -> 0 <= ncol /\ alloc_ok (en s) (S b + j) = true)
                     (fun k a t => a = true /\ ~ (0 <= ncol /\ alloc_ok (en s) (S b + k) = true) /\
                         same_rest s t /\ dm t = rows_map (S b) k (Z.to_nat ncol) ∪ dm s /\
                         pm t = <[b := prows (S b) k n]> (pm s))
                     n 0 false body (I n)) as (i & a & s2 & EB & HB).
  { split; [done|]. split; [done|]. intros j Hj. lia. }
  { intros i a t Hi (-> & (HR & Hnx & Hdm & Hpm & Hal) & Hg). rewrite Z.add_0_l. subst body. cbv beta.
    assert (Hen : en t = en s) by apply HR.
    assert (Hpl : pm t !! b = Some (prows (S b) i n)) by (rewrite Hpm; apply lookup_insert).
    destruct (alloc_d_cases ncol t) as [(EA & H1 & H2)|(EA & H1)].
    - unfold l1c_malloc_double. rewrite (bind_ok _ _ _ _ _ EA).
      set (t1 := tick _).
      assert (HF := alloc_d_frame _ _ _ _ EA). destruct HF as (HF1 & HF2 & HF3). fold t1 in HF1, HF2, HF3.
      rewrite (bind_ok _ _ _ tt (set_pm (alter (<[i := Some (Ptr (nx t) 0)]>) b) t1)).
      2:{ eapply stp_ok; [rewrite HF2; exact Hpl|]. rewrite prows_lookup by lia. done. }
      set (t2 := set_pm _ t1).
      assert (Hpm2 : pm t2 = <[b := prows (S b) (S i) n]> (pm s)).
      { unfold t2. simpl. rewrite Hpm. rewrite alter_insert. f_equal. rewrite Hnx. fold b. by apply prows_S. }
      rewrite (bind_ok _ _ _ (Ptr (nx t) 0) t2).
      2:{ eapply ldp_ok; [rewrite Hpm2; apply lookup_insert|]. rewrite prows_lookup by lia.
          destruct (decide _); [|lia]. by rewrite Hnx. }
      cbn [is_null]. eexists (Go false), t2. split; [done|].
      split; [done|]. split.
      + split; [|split; [|split; [|split]]].
        * apply (same_rest_trans s t1).
          { eapply same_rest_trans; [apply HR|apply HF1]. }
          by repeat split.
        * simpl. rewrite Hnx. lia.
        * simpl. rewrite Hnx, Hdm. fold b. rewrite rows_S. by rewrite insert_union_l.
        * exact Hpm2.
        * intros j Hj. unfold t2, t1. cbn [al set_pm tick set_al set_dm]. rewrite Hnx. fold b. destruct (Nat.eqb_spec (S b + j) (S b + i)) as [|Hji]; [done|].
          apply Hal. lia.
      + intros j Hj. destruct (decide (j = i)) as [->|]; [|apply Hg; lia].
        split; [done|]. rewrite Hen, Hnx in H2. exact H2.
    - unfold l1c_malloc_double. rewrite (bind_ok _ _ _ _ _ EA).
      rewrite (bind_ok _ _ _ tt (set_pm (alter (<[i := Some Null]>) b) (tick t))).
      2:{ eapply stp_ok; [exact Hpl|]. rewrite prows_lookup by lia. done. }
      set (t2 := set_pm _ (tick t)).
      assert (Hpm2 : pm t2 = <[b := prows (S b) i n]> (pm s)).
      { unfold t2. simpl. rewrite Hpm. rewrite alter_insert. f_equal. apply list_insert_id.
        rewrite prows_lookup by lia. destruct (decide _); [lia|done]. }
      rewrite (bind_ok _ _ _ Null t2).
      2:{ eapply ldp_ok; [rewrite Hpm2; apply lookup_insert|]. rewrite prows_lookup by lia.
          destruct (decide _); [lia|done]. }
      cbn [is_null]. eexists (Stop true), t2. split; [done|].
      split; [done|]. split; [|split; [|split]].
      + intros [A1 A2]. rewrite Hen, Hnx in H1. fold b in H1. destruct H1 as [|H1]; [lia|].
        change (S b + i)%nat with (S (b + i)) in *. congruence.
      + eapply same_rest_trans; [apply HR|]. repeat split; simpl; auto.
      + exact Hdm.
      + exact Hpm2. }
  rewrite (bind_ok _ _ _ (0 + Z.of_nat i, a) s2).
  2:{ unfold for_brk. rewrite Z.sub_0_r. exact EB. }
  destruct HB as [(-> & -> & HS & Hg)|(Hi & -> & Hng & HR & Hdm & Hpm)].
  - left. exists s2. split; [done|]. split; [done|]. split; [|done]. split; [exact Ea|exact Hg].
  - right. cbv iota. exists (set_pm (delete b) (set_dm (drop_rows (S b) i) s2)). split.
    + pose proof (free_rows b (S b) n i s2 ltac:(lia)) as EF. rewrite <- Hn in EF.
      rewrite Hpm in EF. specialize (EF (lookup_insert _ _ _)).
      unfold bind in EF |- *. destruct (for_ 0 nrow _ s2).
      * rewrite EF; [done|]. intros j Hj. rewrite Hdm, lookup_union, rows_lookup.
        destruct (decide _); [|lia]. destruct (dm s !! _); simpl; eauto.
      * exfalso. discriminate EF. intros j Hj. rewrite Hdm, lookup_union, rows_lookup.
        destruct (decide _); [|lia]. destruct (dm s !! _); simpl; eauto.
    + split; [|split; [|split]].
      * intros [_ [_ G]]. destruct (G i ltac:(fold n; lia)) as [G1 G2]. by apply Hng.
      * destruct HR as (?&?&?&?&?&?). by repeat split.
      * simpl. rewrite Hdm. apply drop_rows_union. intros j Hj. apply (Hub j). fold b. lia.
      * simpl. rewrite Hpm. apply delete_insert. apply (Hub b). fold b. lia.
Qed.

(** free_double_2D on n live rows r, r+1, ... *)
Lemma free_2D_run b r n s : pm s !! b = Some (prows r n n) ->
  (forall j, (j < n)%nat -> is_Some (dm s !! (r + j)%nat)) ->
  l1c_free_double_2D (Z.of_nat n) (Ptr b 0) s = Ok tt (set_pm (delete b) (set_dm (drop_rows r n) s)).
Proof. intros Hpm Hrow. unfold l1c_free_double_2D. simpl (is_null _). cbv iota. by apply free_rows. Qed.
Lemma free_2D_null s n : l1c_free_double_2D n Null s = Ok tt s.
Proof. done. Qed.

Lemma st2D_row s n c k t j : unborn s -> st2D s n c k t -> (j < k)%nat -> dm t !! (S (nx s) + j)%nat = Some (replicate c None).
Proof.
  intros Hub (HR & Hnx & Hdm & Hpm & Hal) Hj. rewrite Hdm. apply lookup_union_Some_l. rewrite rows_lookup.
  destruct (decide _); [done|lia].
Qed.
Lemma cell_block s b c i : dm s !! b = Some c -> cell s (Ptr b 0) (Z.of_nat i) = c !! i.
Proof. intros H. unfold cell. rewrite Z.add_0_l, (proj2 (Z.leb_le _ _)) by lia. rewrite H, Nat2Z.id. done. Qed.
Lemma wok_block s b c n : dm s !! b = Some c -> (n <= length c)%nat -> wok s (Ptr b 0) n.
Proof. intros H Hn i Hi. rewrite (cell_block _ _ c) by done. apply lookup_lt_is_Some_2. lia. Qed.
(** writing a whole block *)
Lemma wr_block s b c ys : dm s !! b = Some c -> length ys = length c ->
  wr (Ptr b 0) ys s = set_dm (<[b := Some <$> ys]>) s.
Proof.
  intros Hb Hl. unfold wr. change (Z.to_nat 0) with 0%nat. unfold set_dm. f_equal.
  apply map_eq. intros i. destruct (decide (b = i)) as [->|].
  - rewrite lookup_alter, Hb, lookup_insert. simpl. f_equal.
    apply list_eq. intros j. destruct (decide (j < length c)%nat).
    + rewrite list_lookup_inserts by (rewrite ?fmap_length; lia). by rewrite Nat.sub_0_r.
    + rewrite !lookup_ge_None_2; auto; rewrite ?inserts_length, ?fmap_length; lia.
  - by rewrite lookup_alter_ne, lookup_insert_ne.
Qed.
Lemma const_length n (a : T) : length (const_of n a) = n.
Proof. apply tab_length. Qed.

(** rows b, b+1, ... holding given contents *)
Definition zrows_map (b k : nat) (c : list (option T)) : gmap nat (list (option T)) :=
  list_to_map ((fun j => (j, c)) <$> seq b k).
Lemma zrows_lookup b k c j : zrows_map b k c !! j = if decide (b <= j < b + k)%nat then Some c else None.
Proof.
  unfold zrows_map. revert b. induction k as [|k IH]; intros b; simpl.
  - rewrite lookup_empty. destruct (decide _); [lia|done].
  - destruct (decide (b = j)) as [->|Hne].
    + rewrite lookup_insert. destruct (decide _); [done|lia].
    + rewrite lookup_insert_ne by done. rewrite IH. destruct (decide _), (decide _); auto; lia.
Qed.

(** a successful calloc_double_2D *)
Definition st2Dz (s0 : st) (n c : nat) (s : st) : Prop :=
  let b := nx s0 in
  same_rest s0 s /\ nx s = (S b + n)%nat /\
  dm s = zrows_map (S b) n (Some <$> const_of c zero) ∪ dm s0 /\ pm s = <[b := prows (S b) n n]> (pm s0) /\
  forall j, (j < n)%nat -> al s (S b + j)%nat = true.

Lemma calloc_2D_run s nrow ncol : unborn s ->
  (exists s', l1c_calloc_double_2D nrow ncol s = Ok (Ptr (nx s) 0) s' /\ 0 <= nrow /\ grant s (Z.to_nat nrow) ncol /\
              st2Dz s (Z.to_nat nrow) (Z.to_nat ncol) s') \/
  (exists s', l1c_calloc_double_2D nrow ncol s = Ok Null s' /\ ~ (0 <= nrow /\ grant s (Z.to_nat nrow) ncol) /\
              same_rest s s' /\ dm s' = dm s /\ pm s' = pm s).
Proof.
  intros Hub. unfold l1c_calloc_double_2D.
  destruct (malloc_2D_run s nrow ncol Hub) as [(s1 & E1 & Hn0 & Hg & HS)|(s1 & E1 & Hng & HS)].
  2:{ right. exists s1. rewrite (bind_ok _ _ _ _ _ E1). auto. }
  left. rewrite (bind_ok _ _ _ _ _ E1). cbn [is_null]. cbv iota.
  set (n := Z.to_nat nrow) in *. set (c := Z.to_nat ncol) in *. set (b := nx s) in *.
  pose proof HS as (HR & Hnx & Hdm & Hpm & Hal). fold b in Hnx, Hdm, Hpm, Hal.
  destruct (forn_rel (fun j t => same_rest s t /\ nx t = nx s1 /\ pm t = pm s1 /\ al t = al s1 /\
       forall i, dm t !! i = if decide (S b <= i < S b + j)%nat then Some (Some <$> const_of c zero) else dm s1 !! i)
     n 0 (fun i => let* q := ldp (Ptr b 0) i in l1c_init_vec ncol q zero) s1) as (s2 & E2 & H2).
  - repeat split; try done; try apply HR. intros i. destruct (decide _); [lia|done].
  - intros j t Hj (TR & Tnx & Tpm & Tal & Tdm). rewrite Z.add_0_l.
    rewrite (bind_ok _ _ _ (Ptr (S b + j) 0) t).
    2:{ eapply ldp_ok; [rewrite Tpm, Hpm; apply lookup_insert|]. rewrite prows_lookup by lia. destruct (decide _); [done|lia]. }
    assert (Hrow : dm t !! (S b + j)%nat = Some (replicate c None)).
    { rewrite Tdm. destruct (decide _); [lia|]. apply (st2D_row s n c n); auto. }
    destruct (Hg) as [_ Hg2]. destruct (Hg2 j Hj) as [Hc0 _].
    replace ncol with (Z.of_nat c) by (unfold c; lia).
    eexists. split.
    { apply init_vec_run.
      - unfold is_aligned. rewrite Tal, Hal by done. done.
      - eapply wok_block; [exact Hrow|]. by rewrite replicate_length. }
    rewrite (wr_block _ _ _ _ Hrow) by (by rewrite const_length, replicate_length).
    split; [|split; [|split; [|split]]]; try done.
    intros i. simpl. destruct (decide (i = S b + j)%nat) as [->|].
    * rewrite lookup_insert. destruct (decide _); [done|lia].
    * rewrite lookup_insert_ne by done. rewrite Tdm. destruct (decide _), (decide _); auto; lia.
  - destruct H2 as (TR & Tnx & Tpm & Tal & Tdm). exists s2. split.
    { rewrite (bind_ok _ _ _ tt s2); [done|]. unfold for_. rewrite Z.sub_0_r. exact E2. }
    split; [done|]. split; [done|]. split; [done|]. split; [by rewrite Tnx|]. split; [|split].
    + fold b. apply map_eq. intros i. rewrite Tdm, lookup_union, zrows_lookup, Hdm, lookup_union, rows_lookup.
      destruct (decide _); [|done]. by destruct (dm s !! i).
    + by rewrite Tpm, Hpm.
    + intros j Hj. rewrite Tal. by apply Hal.
Qed.

Lemma calloc_run s n : unborn s ->
  (exists s', l1c_calloc_double n s = Ok (Ptr (nx s) 0) s' /\ 0 <= n /\ alloc_ok (en s) (nx s) = true /\
     same_rest s s' /\ nx s' = S (nx s) /\ pm s' = pm s /\ al s' (nx s) = true /\
     dm s' = <[nx s := Some <$> const_of (Z.to_nat n) zero]> (dm s)) \/
  (l1c_calloc_double n s = Ok Null (tick s) /\ (n < 0 \/ alloc_ok (en s) (nx s) = false)).
Proof.
  intros Hub. unfold l1c_calloc_double, l1c_malloc_double.
  destruct (alloc_d_cases n s) as [(E & H1 & H2)|(E & H1)]; [left|right].
  - pose proof (alloc_d_frame _ _ _ _ E) as (F1 & F2 & F3).
    rewrite (bind_ok _ _ _ _ _ E). cbn [is_null]. set (s1 := tick _) in *. set (k := Z.to_nat n).
    assert (Hb : dm s1 !! nx s = Some (replicate k None)) by apply lookup_insert.
    eexists. split.
    { replace n with (Z.of_nat k) by (unfold k; lia). erewrite (bind_ok _ _ _ tt); [reflexivity|].
      apply init_vec_run.
      - unfold is_aligned, s1. simpl. by rewrite Nat.eqb_refl.
      - eapply wok_block; [exact Hb|]. by rewrite replicate_length. }
    rewrite (wr_block _ _ _ _ Hb) by (by rewrite const_length, replicate_length).
    split; [done|]. split; [done|]. split; [|split; [|split; [|split]]]; try done.
    + simpl. by rewrite Nat.eqb_refl.
    + simpl. by rewrite insert_insert.
  - rewrite (bind_ok _ _ _ _ _ E). auto.
Qed.
End alloc.
