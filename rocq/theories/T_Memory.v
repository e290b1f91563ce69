(** * C10: two-dimensional allocation is all-or-nothing. *)
From Coq Require Import ZArith Lia Reals.
From stdpp Require Import base numbers gmap list.
From Verif Require Import Mem M_Math M_Memory P_Mem P_Loop P_Math S_Mem P_Memory.
Local Open Scope Z_scope.

(** A live 2D array at [p]: one array of pointers, holding pairwise distinct rows; every row and the
    pointer array are new (not allocated in the old state s), every row is aligned and holds [c],
    and nothing else changed. *)
Definition new_2D `{Num} (s s' : st) (p : ptr) (nrow : nat) (c : list (option T)) (rows : list nat) : Prop :=
  exists b, p = Ptr b 0 /\ length rows = nrow /\ NoDup rows /\
    pm s !! b = None /\ pm s' = <[b := (fun r => Some (Ptr r 0)) <$> rows]> (pm s) /\
    (forall r, r ∈ rows -> dm s !! r = None /\ dm s' !! r = Some c /\ al s' r = true) /\
    (forall r, r ∉ rows -> dm s' !! r = dm s !! r) /\ om s' = om s /\ im s' = im s /\ gl s' = gl s.

(** nothing leaked: the live allocations and their contents are as before *)
Definition unchanged `{Num} (s s' : st) : Prop :=
  dm s' = dm s /\ pm s' = pm s /\ om s' = om s /\ im s' = im s /\ gl s' = gl s.

(** the environment grants the pointer array (allocation number nx s) and each of the rows *)
Definition granted `{Num} (s : st) (nrow ncol : Z) : Prop :=
  0 <= nrow /\ alloc_ok (en s) (nx s) = true /\
  forall j, (j < Z.to_nat nrow)%nat -> 0 <= ncol /\ alloc_ok (en s) (S (nx s) + j) = true.

Section c10.
Context `{N : Num}.

Lemma prows_full b n : prows b n n = (fun r => Some (Ptr r 0)) <$> seq b n.
Proof. unfold prows. rewrite Nat.sub_diag. simpl. by rewrite app_nil_r. Qed.

Theorem C10_malloc_2D (s : st) (nrow ncol : Z) : unborn s ->
  exists p s', l1c_malloc_double_2D nrow ncol s = Ok p s' /\
    (granted s nrow ncol -> exists rows, new_2D s s' p (Z.to_nat nrow) (replicate (Z.to_nat ncol) None) rows) /\
    (~ granted s nrow ncol -> p = Null /\ unchanged s s').
Proof.
  intros Hub. destruct (malloc_2D_run s nrow ncol Hub) as [(s1 & E & Hn & Hg & HS)|(s1 & E & Hng & HR & Hdm & Hpm)].
  - exists (Ptr (nx s) 0), s1. split; [done|]. split; [|intros Hx; exfalso; apply Hx; split; [done|exact Hg]].
    intros _. pose proof HS as (HR & Hnx & Hdm & Hpm & Hal). destruct HR as (?&?&?&?&?&?).
    exists (seq (S (nx s)) (Z.to_nat nrow)), (nx s). split; [done|].
    split; [apply seq_length|]. split; [apply NoDup_seq|].
    split; [apply Hub; lia|]. split; [by rewrite Hpm, prows_full|]. split; [|split; [|done]].
    + intros r Hr. apply elem_of_seq in Hr. split; [apply Hub; lia|]. split.
      * rewrite Hdm. apply lookup_union_Some_l. rewrite rows_lookup. destruct (decide _); [done|lia].
      * replace r with (S (nx s) + (r - S (nx s)))%nat by lia. apply Hal. lia.
    + intros r Hr. rewrite elem_of_seq in Hr. rewrite Hdm, lookup_union, rows_lookup.
      destruct (decide _); [lia|]. by destruct (dm s !! r).
  - exists Null, s1. split; [done|]. split; [|intros _].
    + intros (H1 & H2 & H3). exfalso. apply Hng. split; [done|]. by split.
    + destruct HR as (?&?&?&?&?&?). by repeat split.
Qed.

Theorem C10_calloc_2D (s : st) (nrow ncol : Z) : unborn s ->
  exists p s', l1c_calloc_double_2D nrow ncol s = Ok p s' /\
    (granted s nrow ncol -> exists rows, new_2D s s' p (Z.to_nat nrow) (replicate (Z.to_nat ncol) (Some zero)) rows) /\
    (~ granted s nrow ncol -> p = Null /\ unchanged s s').
Proof.
  intros Hub. destruct (calloc_2D_run s nrow ncol Hub) as [(s1 & E & Hn & Hg & HS)|(s1 & E & Hng & HR & Hdm & Hpm)].
  - exists (Ptr (nx s) 0), s1. split; [done|]. split; [|intros Hx; exfalso; apply Hx; split; [done|exact Hg]].
    intros _. pose proof HS as (HR & Hnx & Hdm & Hpm & Hal). destruct HR as (?&?&?&?&?&?).
    assert (EC : Some <$> const_of (Z.to_nat ncol) zero = replicate (Z.to_nat ncol) (Some zero)).
    { apply list_eq. intros j. rewrite list_lookup_fmap. destruct (decide (j < Z.to_nat ncol)%nat).
      - unfold const_of. rewrite tab_lookup by done. symmetry. by apply lookup_replicate.
      - rewrite !lookup_ge_None_2; auto; rewrite ?const_length, ?replicate_length; lia. }
    exists (seq (S (nx s)) (Z.to_nat nrow)), (nx s). split; [done|].
    split; [apply seq_length|]. split; [apply NoDup_seq|].
    split; [apply Hub; lia|]. split; [by rewrite Hpm, prows_full|]. split; [|split; [|done]].
    + intros r Hr. apply elem_of_seq in Hr. split; [apply Hub; lia|]. split.
      * rewrite Hdm. apply lookup_union_Some_l. rewrite zrows_lookup. rewrite EC. destruct (decide _); [done|lia].
      * replace r with (S (nx s) + (r - S (nx s)))%nat by lia. apply Hal. lia.
    + intros r Hr. rewrite elem_of_seq in Hr. rewrite Hdm, lookup_union, zrows_lookup.
      destruct (decide _); [lia|]. by destruct (dm s !! r).
  - exists Null, s1. split; [done|]. split; [|intros _].
    + intros (H1 & H2 & H3). exfalso. apply Hng. split; [done|]. by split.
    + destruct HR as (?&?&?&?&?&?). by repeat split.
Qed.

(** The rows of the pointer array are freed one by one, in any state where the array is still intact. *)
Lemma free_any_rows b rows s : NoDup rows -> pm s !! b = Some ((fun r => Some (Ptr r 0)) <$> rows) ->
  (forall r, r ∈ rows -> is_Some (dm s !! r)) ->
  exists s', l1c_free_double_2D (Z.of_nat (length rows)) (Ptr b 0) s = Ok tt s' /\
    pm s' = delete b (pm s) /\ om s' = om s /\ im s' = im s /\ gl s' = gl s /\
    (forall r, dm s' !! r = if decide (r ∈ rows) then None else dm s !! r).
Proof.
  intros Hnd Hpm Hrow. unfold l1c_free_double_2D. cbn [is_null]. cbv iota.
  destruct (forn_rel (fun j t => pm t = pm s /\ om t = om s /\ im t = im s /\ gl t = gl s /\
      forall r, dm t !! r = if decide (r ∈ take j rows) then None else dm s !! r)
      (length rows) 0 (fun k => let* q := ldp (Ptr b 0) k in l1c_free_double q) s) as (t & E & T1 & T2 & T3 & T4 & T5).
  - split; [done|]. split; [done|]. split; [done|]. split; [done|]. intros r. destruct (decide _) as [H|]; [|done]. by rewrite take_0 in H; apply elem_of_nil in H.
  - intros j t Hj (T1 & T2 & T3 & T4 & T5). rewrite Z.add_0_l.
    destruct (lookup_lt_is_Some_2 rows j Hj) as [r Hr].
    rewrite (bind_ok _ _ _ (Ptr r 0) t).
    2:{ eapply ldp_ok; [rewrite T1; exact Hpm|]. rewrite list_lookup_fmap, Hr. done. }
    assert (Hnot : r ∉ take j rows).
    { intros Hin. apply elem_of_list_lookup in Hin as [i Hi]. rewrite lookup_take_Some in Hi. destruct Hi as [Hi Hij].
      assert (i = j) by (eapply NoDup_lookup; eauto). lia. }
    destruct (Hrow r) as [c Hc]; [by eapply elem_of_list_lookup_2|].
    exists (set_dm (delete r) t). split.
    { unfold l1c_free_double, free_d. simpl (0 =? 0). cbv iota. rewrite T5. destruct (decide _); [done|]. by rewrite Hc. }
    repeat split; auto. intros r'. simpl. rewrite (take_S_r _ _ _ Hr). destruct (decide (r' = r)) as [->|Hne].
    + rewrite lookup_delete. destruct (decide _) as [|Hn]; [done|]. destruct Hn. apply elem_of_app. right. by apply elem_of_list_singleton.
    + rewrite lookup_delete_ne by done. rewrite T5. destruct (decide (r' ∈ take j rows)), (decide (r' ∈ take j rows ++ [r])) as [Hin|Hin]; auto.
      * destruct Hin. by apply elem_of_app; left.
      * apply elem_of_app in Hin as [|Hin]; [done|]. by apply elem_of_list_singleton in Hin.
  - exists (set_pm (delete b) t). split.
    { rewrite (bind_ok _ _ _ tt t). 2:{ unfold for_. rewrite Z.sub_0_r, Nat2Z.id. exact E. }
      unfold free_p. simpl (0 =? 0). cbv iota. by rewrite T1, Hpm. }
    rewrite take_ge in T5 by lia. simpl. rewrite T1. auto.
Qed.

(** free_double_2D releases exactly what was allocated: in any later state t that still has the
    pointer array and the rows (whatever their contents), the call ends without undefined behaviour
    and removes the rows and the pointer array, and nothing else; on NULL it does nothing. *)
Theorem C10_free_2D (s s' : st) (p : ptr) (nrow : nat) (c : list (option T)) (rows : list nat) (t : st) :
  new_2D s s' p nrow c rows ->
  (forall b, p = Ptr b 0 -> pm t !! b = pm s' !! b) ->
  (forall r, r ∈ rows -> is_Some (dm t !! r)) ->
  exists t', l1c_free_double_2D (Z.of_nat nrow) p t = Ok tt t' /\
    (forall r, dm t' !! r = if decide (r ∈ rows) then None else dm t !! r) /\
    (forall b, p = Ptr b 0 -> pm t' = delete b (pm t)) /\ om t' = om t /\ im t' = im t /\ gl t' = gl t.
Proof.
  intros (b & -> & Hlen & Hnd & Hb & Hpm & Hin & Hout & _) Hp Hr.
  destruct (free_any_rows b rows t Hnd) as (t' & E & T1 & T2 & T3 & T4 & T5).
  - rewrite (Hp b) by done. rewrite Hpm. apply lookup_insert.
  - done.
  - exists t'. rewrite <- Hlen. split; [done|]. split; [done|]. split; [|done]. intros b' [= <-]. done.
Qed.

(** in particular, freeing right after the allocation brings back the old heap *)
Theorem C10_malloc_free (s : st) (nrow ncol : Z) : unborn s ->
  exists p s' s'', l1c_malloc_double_2D nrow ncol s = Ok p s' /\ l1c_free_double_2D nrow p s' = Ok tt s'' /\ unchanged s s''.
Proof.
  intros Hub. destruct (malloc_2D_run s nrow ncol Hub) as [(s1 & E & Hn & Hg & HS)|(s1 & E & Hng & HR & Hdm & Hpm)].
  - destruct (C10_malloc_2D s nrow ncol Hub) as (p & s' & E' & H1 & _).
    destruct H1 as [rows H1]. { split; [done|exact Hg]. }
    rewrite E in E'. inversion E'; subst p s'; clear E'.
    destruct (C10_free_2D s s1 _ _ _ rows s1 H1) as (t' & F1 & F2 & F3 & F4 & F5 & F6); auto.
    + destruct H1 as (b & _ & _ & _ & _ & _ & H1 & _). intros r Hr. destruct (H1 r Hr) as (_ & -> & _). eauto.
    + exists (Ptr (nx s) 0), s1, t'. rewrite <- (Z2Nat.id nrow Hn) at 2. split; [done|]. split; [done|].
      destruct H1 as (b & [= <-] & _ & _ & Hb & Hpm & Hin & Hout & Ho & Hi & Hgl).
      split; [|split; [|by rewrite F4, F5, F6]].
      * apply map_eq. intros r. rewrite F2. destruct (decide _) as [Hr|Hr].
        -- symmetry. by apply Hin.
        -- by apply Hout.
      * rewrite (F3 _ eq_refl), Hpm. by apply delete_insert.
  - exists Null, s1, s1. split; [done|]. split; [done|]. destruct HR as (?&?&?&?&?&?). by repeat split.
Qed.

Theorem C10_free_null (s : st) (nrow : Z) : l1c_free_double_2D nrow Null s = Ok tt s.
Proof. done. Qed.
End c10.

(** *** examples: 3 rows of 2 columns; every allocation granted, then only the third row refused *)
Definition st_grant (ok : nat -> bool) : @st RN := mkSt ∅ ∅ ∅ ∅ (fun _ => false) 5 (mkEnv ok (fun _ => true) (fun _ _ _ => zero)) glob0.
Example C10_ex_unborn ok : unborn (st_grant ok).
Proof. intros b _. repeat split; apply lookup_empty. Qed.
Example C10_ex_granted : granted (st_grant (fun _ => true)) 3 2.
Proof. repeat split; simpl; lia. Qed.
Example C10_ex_refused : ~ granted (st_grant (fun k => negb (Nat.eqb k 8))) 3 2.
Proof. intros (_ & _ & H). destruct (H 2%nat) as [_ H2]; [simpl; lia|]. discriminate H2. Qed.
(** the run itself: NULL, and no block of doubles or pointers is left *)
Example C10_ex_refused_run :
  match l1c_malloc_double_2D 3 2 (st_grant (fun k => negb (Nat.eqb k 8))) with
  | Ok Null s' => size (dm s') = 0%nat /\ size (pm s') = 0%nat
  | _ => False
  end.
Proof. vm_compute. auto. Qed.

Print Assumptions C10_malloc_2D.
Print Assumptions C10_calloc_2D.
Print Assumptions C10_free_2D.
Print Assumptions C10_malloc_free.
Print Assumptions C10_free_null.
