(** * Rules for loops. *)
From Coq Require Import ZArith Lia.
From stdpp Require Import base numbers gmap list.
From Verif Require Export P_Mem.
Local Open Scope Z_scope.

Section loops.
Context `{N : Num}.
Implicit Types (s : st) (p q : ptr) (xs ys : list T).

Lemma tab_app a b f : tab (a + b) f = tab a f ++ tab b (fun j => f (a + j)%nat).
Proof.
  induction b as [|b IH]; [rewrite Nat.add_0_r; simpl; by rewrite app_nil_r|].
  rewrite Nat.add_succ_r, !tab_S, IH. by rewrite <- app_assoc.
Qed.

(** ** Sequential loops *)
Lemma for_inv (I : nat -> st) (lo hi : Z) (body : Z -> M unit) :
  (forall i, (i < Z.to_nat (hi - lo))%nat -> body (lo + Z.of_nat i) (I i) = Ok tt (I (S i))) ->
  for_ lo hi body (I 0%nat) = Ok tt (I (Z.to_nat (hi - lo))).
Proof. apply forn_inv. Qed.

(** relational version *)
Lemma forn_rel (P : nat -> st -> Prop) k lo (body : Z -> M unit) s :
  P 0%nat s ->
  (forall i s, (i < k)%nat -> P i s -> exists s', body (lo + Z.of_nat i) s = Ok tt s' /\ P (S i) s') ->
  exists s', forn k lo body s = Ok tt s' /\ P k s'.
Proof.
  revert lo s P. induction k as [|k IH]; intros lo s P H0 H; simpl; [by exists s|].
  destruct (H 0%nat s ltac:(lia) H0) as (s1 & E1 & H1). rewrite Z.add_0_r in E1.
  rewrite (bind_ok _ _ _ _ _ E1).
  apply (IH (lo + 1) s1 (fun i => P (S i))); [done|]. intros i s2 Hi HP.
  replace (lo + 1 + Z.of_nat i) with (lo + Z.of_nat (S i)) by lia. apply H; [lia|done].
Qed.

Lemma accn_inv {A} (I : nat -> A) (k : nat) (lo : Z) (body : Z -> A -> M A) s :
  (forall i, (i < k)%nat -> body (lo + Z.of_nat i) (I i) s = Ok (I (S i)) s) ->
  accn k lo (I 0%nat) body s = Ok (I k) s.
Proof.
  revert lo I. induction k as [|k IH]; intros lo I H; simpl; [done|].
  specialize (H 0%nat ltac:(lia)) as H0. rewrite Z.add_0_r in H0.
  rewrite (bind_ok _ _ _ _ _ H0).
  apply (IH (lo + 1) (fun i => I (S i))). intros i Hi.
  replace (lo + 1 + Z.of_nat i) with (lo + Z.of_nat (S i)) by lia. apply H. lia.
Qed.
Lemma accn_rel {A} (P : nat -> A -> st -> Prop) k lo (a : A) (body : Z -> A -> M A) s :
  P 0%nat a s ->
  (forall i a s, (i < k)%nat -> P i a s ->
     exists a' s', body (lo + Z.of_nat i) a s = Ok a' s' /\ P (S i) a' s') ->
  exists a' s', accn k lo a body s = Ok a' s' /\ P k a' s'.
Proof.
  revert lo a s P. induction k as [|k IH]; intros lo a s P H0 H; simpl; [by exists a, s|].
  destruct (H 0%nat a s ltac:(lia) H0) as (a1 & s1 & E1 & H1). rewrite Z.add_0_r in E1.
  rewrite (bind_ok _ _ _ _ _ E1).
  apply (IH (lo + 1) a1 s1 (fun i => P (S i))); [done|]. intros i a2 s2 Hi HP.
  replace (lo + 1 + Z.of_nat i) with (lo + Z.of_nat (S i)) by lia. apply H; [lia|done].
Qed.

(** left fold over indices: the value computed by an accumulator loop *)
Fixpoint foldi {A} (k : nat) (g : nat -> A -> A) (a : A) : A :=
  match k with O => a | S k' => g k' (foldi k' g a) end.
Lemma for_acc_fold {A} (n : nat) (a : A) (body : Z -> A -> M A) (g : nat -> A -> A) s :
  (forall i a, (i < n)%nat -> body (Z.of_nat i) a s = Ok (g i a) s) ->
  for_acc 0 (Z.of_nat n) a body s = Ok (foldi n g a) s.
Proof.
  intros H. unfold for_acc. rewrite Z.sub_0_r, Nat2Z.id.
  change a with (foldi 0 g a) at 1. apply (accn_inv (fun i => foldi i g a)).
  intros i Hi. rewrite Z.add_0_l. simpl. by apply H.
Qed.
Lemma foldi_ext {A} n (g h : nat -> A -> A) a :
  (forall i a, (i < n)%nat -> g i a = h i a) -> foldi n g a = foldi n h a.
Proof. intros H. induction n as [|n IH]; simpl; [done|]. rewrite IH by (intros; apply H; lia). apply H. lia. Qed.

(** ** Loops over lists of indices, in any order *)
Definition wrs (q : Z -> ptr) (v : Z -> list T) (l : list Z) s : st :=
  foldl (fun s i => wr (q i) (v i) s) s l.

Lemma forn_is_list k lo body s : forn k lo body s = for_list (zr lo k) body s.
Proof.
  revert lo s. induction k as [|k IH]; intros lo s; simpl; [done|].
  unfold bind. destruct (body lo s); [|done]. apply IH.
Qed.
Lemma for_is_list lo hi body s : for_ lo hi body s = for_list (range lo hi) body s.
Proof. apply forn_is_list. Qed.
Lemma elem_of_zr i lo k : i ∈ zr lo k <-> lo <= i < lo + Z.of_nat k.
Proof.
  revert lo. induction k as [|k IH]; intros lo; simpl.
  - split; [by intros ?%elem_of_nil|lia].
  - rewrite elem_of_cons, IH. lia.
Qed.
Lemma elem_of_range i lo hi : i ∈ range lo hi <-> lo <= i < hi.
Proof. unfold range. rewrite elem_of_zr. lia. Qed.
Lemma NoDup_zr lo k : NoDup (zr lo k).
Proof.
  revert lo. induction k as [|k IH]; intros lo; simpl; constructor; [|done].
  rewrite elem_of_zr. lia.
Qed.
Lemma NoDup_range lo hi : NoDup (range lo hi).
Proof. apply NoDup_zr. Qed.

(** [I l s]: before running the iterations in [l] (in that order) *)
Lemma for_list_run (I : list Z -> st -> Prop) (q : Z -> ptr) (v : Z -> list T) body l s :
  (forall i l s, I (i :: l) s -> body i s = Ok tt (wr (q i) (v i) s) /\ I l (wr (q i) (v i) s)) ->
  I l s -> for_list l body s = Ok tt (wrs q v l s).
Proof.
  intros H. revert s. induction l as [|i l IH]; intros s HI; simpl; [done|].
  destruct (H _ _ _ HI) as [E HI']. rewrite (bind_ok _ _ _ _ _ E). apply IH. done.
Qed.

Lemma wok_wrs (q : Z -> ptr) (v : Z -> list T) l s p n :
  (forall i, i ∈ l -> wok s (q i) (length (v i))) -> wok s p n -> wok (wrs q v l s) p n.
Proof.
  revert s. induction l as [|i l IH]; intros s Hw Hp; simpl; [done|].
  apply IH.
  - intros j Hj. apply wok_wr; apply Hw; rewrite elem_of_cons; auto.
  - apply wok_wr; [|done]. apply Hw. rewrite elem_of_cons; auto.
Qed.

Lemma wrs_perm (q : Z -> ptr) (v : Z -> list T) l l' s :
  l ≡ₚ l' -> NoDup l ->
  (forall i, i ∈ l -> wok s (q i) (length (v i))) ->
  (forall i j, i ∈ l -> j ∈ l -> i <> j -> disj (q i) (length (v i)) (q j) (length (v j))) ->
  wrs q v l s = wrs q v l' s.
Proof.
  intros HP. revert s. induction HP as [|i l l' HP IH|i j l|l1 l2 l3 H1 IH1 H2 IH2]; intros s Hnd Hw Hd; simpl.
  - done.
  - apply NoDup_cons in Hnd as [Hni Hnd]. apply IH; [done| |].
    + intros k Hk. apply wok_wr; apply Hw; rewrite elem_of_cons; auto.
    + intros; apply Hd; rewrite ?elem_of_cons; auto.
  - apply NoDup_cons in Hnd as [Hni Hnd].
    rewrite wr_comm'; [done|..].
    + apply Hw. rewrite !elem_of_cons; auto.
    + apply Hw. rewrite !elem_of_cons; auto.
    + apply Hd; rewrite ?elem_of_cons; auto. intros ->. apply Hni. rewrite elem_of_cons; auto.
  - rewrite IH1; [|done..]. apply IH2.
    + by rewrite <- H1.
    + intros k Hk. apply Hw. by rewrite H1.
    + intros k k' Hk Hk'. apply Hd; by rewrite H1.
Qed.

(** Any order of the iterations gives the same outcome as the sequential loop. *)
Lemma for_perm (I : list Z -> st -> Prop) (q : Z -> ptr) (v : Z -> list T) body lo hi l s :
  (forall i l s, I (i :: l) s -> body i s = Ok tt (wr (q i) (v i) s) /\ I l (wr (q i) (v i) s)) ->
  I (range lo hi) s -> I l s ->
  l ≡ₚ range lo hi ->
  (forall i, lo <= i < hi -> wok s (q i) (length (v i))) ->
  (forall i j, lo <= i < hi -> lo <= j < hi -> i <> j -> disj (q i) (length (v i)) (q j) (length (v j))) ->
  for_list l body s = for_ lo hi body s.
Proof.
  intros H H1 H2 HP Hw Hd. rewrite for_is_list.
  rewrite (for_list_run I q v _ l s H H2), (for_list_run I q v _ (range lo hi) s H H1). f_equal.
  symmetry. apply wrs_perm; [by symmetry|apply NoDup_range|..].
  - intros i Hi. apply Hw. by apply elem_of_range.
  - intros i j Hi Hj. apply Hd; by apply elem_of_range.
Qed.

(** ** Consecutive writes are one write *)
Lemma wrs_rows_gen (m : nat) (f : nat -> T) p (k lo : nat) s :
  wok s p ((lo + k) * m) ->
  wrs (fun i => padd p (i * Z.of_nat m)) (fun i => tab m (fun j => f (Z.to_nat i * m + j)%nat))
      (zr (Z.of_nat lo) k) (wr p (tab (lo * m) f) s)
  = wr p (tab ((lo + k) * m) f) s.
Proof.
  revert lo. induction k as [|k IH]; intros lo Hw; simpl.
  - by rewrite Nat.add_0_r.
  - rewrite <- (Nat2Z.inj_mul lo m).
    assert (E : wr (padd p (Z.of_nat (lo * m))) (tab m (fun j => f (Z.to_nat (Z.of_nat lo) * m + j)%nat)) (wr p (tab (lo * m) f) s)
                = wr p (tab (S lo * m) f) s).
    { replace (S lo * m)%nat with (lo * m + m)%nat by lia.
      rewrite tab_app. rewrite Nat2Z.id.
      rewrite <- wr_app'; rewrite ?app_length, ?tab_length; [done|].
      eapply wok_le; [exact Hw|]. nia. }
    rewrite E. replace (Z.of_nat lo + 1) with (Z.of_nat (S lo)) by lia.
    rewrite IH; [do 2 f_equal; lia|]. eapply wok_le; [exact Hw|]. lia.
Qed.
Lemma wrs_rows (n m : nat) (f : nat -> T) p s :
  wok s p (n * m) ->
  wrs (fun i => padd p (i * Z.of_nat m)) (fun i => tab m (fun j => f (Z.to_nat i * m + j)%nat))
      (range 0 (Z.of_nat n)) s
  = wr p (tab (n * m) f) s.
Proof.
  intros Hw. unfold range. rewrite Z.sub_0_r, Nat2Z.id.
  pose proof (wrs_rows_gen m f p n 0 s Hw) as E.
  change (tab (0 * m) f) with (@nil T) in E. rewrite wr_nil in E. exact E.
Qed.
Lemma wrs_cells_gen (f : nat -> T) p (k lo : nat) s :
  wok s p (lo + k) ->
  wrs (fun i => padd p i) (fun i => [f (Z.to_nat i)]) (zr (Z.of_nat lo) k) s
  = wr (padd p (Z.of_nat lo)) (tab k (fun j => f (lo + j)%nat)) s.
Proof.
  revert lo s. induction k as [|k IH]; intros lo s Hw; simpl.
  - change (tab 0 (fun j => f (lo + j)%nat)) with (@nil T). by rewrite wr_nil.
  - replace (Z.of_nat lo + 1) with (Z.of_nat (S lo)) by lia.
    assert (Hc : wok s (padd p (Z.of_nat lo)) (length [f (Z.to_nat (Z.of_nat lo))])).
    { eapply wok_padd; [exact Hw|simpl; lia]. }
    rewrite IH.
    2:{ apply wok_wr; [done|]. eapply wok_le; [exact Hw|]. lia. }
    rewrite Nat2Z.id. change (S k) with (1 + k)%nat. rewrite (tab_app 1 k).
    rewrite <- wr_app'.
    + change (tab 1 (fun j => f (lo + j)%nat)) with [f (lo + 0)%nat].
      simpl length. rewrite padd_padd, Nat.add_0_r.
      replace (Z.of_nat lo + Z.of_nat 1) with (Z.of_nat (S lo)) by lia. f_equal.
      apply tab_ext. intros j _. f_equal. lia.
    + rewrite app_length, !tab_length. eapply wok_padd; [exact Hw|]. lia.
Qed.
Lemma wrs_cells (n : nat) (f : nat -> T) p s :
  wok s p n ->
  wrs (fun i => padd p i) (fun i => [f (Z.to_nat i)]) (range 0 (Z.of_nat n)) s = wr p (tab n f) s.
Proof.
  intros Hw. unfold range. rewrite Z.sub_0_r, Nat2Z.id.
  pose proof (wrs_cells_gen f p n 0 s Hw) as E. simpl in E. rewrite padd_0 in E. exact E.
Qed.
End loops.

Section loops2.
Context `{N : Num}.
Implicit Types (s : st) (p q : ptr) (xs ys : list T).

Lemma ld_seg s p xs i : seg s p xs -> 0 <= i < Z.of_nat (length xs) -> ld p i s = Ok (at_ xs (Z.to_nat i)) s.
Proof. intros H Hi. rewrite <- (seg_ld s p xs) by (auto; lia). by rewrite Z2Nat.id by lia. Qed.
Lemma sto_wok s p n i v : wok s p n -> 0 <= i < Z.of_nat n -> sto p i v s = Ok tt (wr (padd p i) [v] s).
Proof. intros H Hi. pose proof (wok_sto s p n (Z.to_nat i) v H ltac:(lia)) as E. by rewrite Z2Nat.id in E by lia. Qed.

Lemma disj_padd p n q k a l : disj p n q k -> (a + l <= n)%nat -> disj (padd p (Z.of_nat a)) l q k.
Proof. destruct p, q; simpl; auto. intros H Hl Hb. specialize (H Hb). lia. Qed.
Lemma disj_padd' p n q k a l : disj p n q k -> 0 <= a -> (Z.to_nat a + l <= n)%nat -> disj (padd p a) l q k.
Proof. intros H Ha Hl. rewrite <- (Z2Nat.id a) by lia. by apply disj_padd with n. Qed.
Lemma disj_padd_padd p a b n k :
  a + Z.of_nat n <= b \/ b + Z.of_nat k <= a -> disj (padd p a) n (padd p b) k.
Proof. destruct p; simpl; auto. intros H _. lia. Qed.
Lemma wok_padd' s p n k l : wok s p n -> 0 <= k -> (Z.to_nat k + l <= n)%nat -> wok s (padd p k) l.
Proof. intros H Hk Hl. rewrite <- (Z2Nat.id k) by lia. eapply wok_padd; eauto. Qed.
Lemma seg_padd s p xs k l :
  seg s p xs -> (k + l <= length xs)%nat -> seg s (padd p (Z.of_nat k)) (tab l (fun j => at_ xs (k + j)%nat)).
Proof.
  intros H Hl. apply (seg_ext _ _ _ l); [|by rewrite tab_length].
  intros i Hi. rewrite cell_padd, <- Nat2Z.inj_add, at_tab by done. apply seg_cell; [done|lia].
Qed.

(** input [xs] at X readable, output range D of length L writable *)
Definition ready s X xs D (L : nat) : Prop := seg s X xs /\ wok s D L.
Lemma ready_wr s X xs D L ys k :
  disj D L X (length xs) -> ready s X xs D L -> 0 <= k -> (Z.to_nat k + length ys <= L)%nat ->
  ready (wr (padd D k) ys s) X xs D L.
Proof.
  intros Hd [Hs Hw] Hk Hl.
  assert (wok s (padd D k) (length ys)) by (eapply wok_padd'; eauto).
  split; [|by apply wok_wr]. apply seg_wr_disj; auto. eapply disj_padd'; eauto.
Qed.

Lemma for_cells_I (I : st -> Prop) p f n lo body s :
  (forall s i v, I s -> (i < n)%nat -> I (wr (padd p (Z.of_nat i)) [v] s)) ->
  (forall s, I s -> wok s p n) ->
  (forall s i, I s -> (i < n)%nat -> body (lo + Z.of_nat i) s = sto p (Z.of_nat i) (f i) s) ->
  I s ->
  forn n lo body s = Ok tt (wr p (tab n f) s).
Proof.
  intros HS HW HB HI.
  assert (HI' : forall i, (i <= n)%nat -> I (wr p (tab i f) s)).
  { intros i Hi. induction i as [|i IH].
    - change (tab 0 f) with (@nil T). by rewrite wr_nil.
    - rewrite tab_S. rewrite <- wr_app'.
      + rewrite tab_length. apply HS; [|lia]. apply IH. lia.
      + rewrite app_length, tab_length. simpl. eapply wok_le; [by apply HW|lia]. }
  transitivity (forn n lo body (wr p (tab 0 f) s)).
  { change (tab 0 f) with (@nil T). by rewrite wr_nil. }
  apply (forn_inv (fun i => wr p (tab i f) s)).
  intros i Hi. rewrite HB by (auto; apply HI'; lia).
  rewrite (sto_wok _ _ n) by (auto; lia || apply HW, HI'; lia).
  f_equal. rewrite tab_S, <- wr_app', tab_length; [done|].
  rewrite app_length, tab_length. simpl. eapply wok_le; [by apply HW|lia].
Qed.

Lemma for_cells0 (I : st -> Prop) p f n body s :
  (forall s i v, I s -> (i < n)%nat -> I (wr (padd p (Z.of_nat i)) [v] s)) ->
  (forall s, I s -> wok s p n) ->
  (forall s i, I s -> (i < n)%nat -> body (Z.of_nat i) s = sto p (Z.of_nat i) (f i) s) ->
  I s ->
  for_ 0 (Z.of_nat n) body s = Ok tt (wr p (tab n f) s).
Proof.
  intros. unfold for_. rewrite Z.sub_0_r, Nat2Z.id.
  eapply for_cells_I with (I := I); eauto.
Qed.

(** overwrite the last element *)
Lemma wr_last s p n f v :
  wok s p (S n) ->
  wr (padd p (Z.of_nat n)) [v] (wr p (tab (S n) f) s) = wr p (tab n f ++ [v]) s.
Proof.
  intros Hw. rewrite tab_S.
  assert (Hn : nonneg p) by (eapply wok_nonneg; [exact Hw|lia]).
  rewrite <- !(wr_app s p (tab n f)), !tab_length by done.
  apply wr_overwrite; [|done]. destruct p; simpl in *; [done|lia].
Qed.
Lemma tab_snoc n f v : tab n f ++ [v] = tab (S n) (fun i => if (i <? n)%nat then f i else v).
Proof.
  rewrite tab_S. rewrite Nat.ltb_irrefl. f_equal.
  apply tab_ext. intros i Hi. by rewrite (proj2 (Nat.ltb_lt _ _)).
Qed.

(** parallel loop writing one cell (or one row) per iteration, body independent of the order *)
Lemma for_rows (I : st -> Prop) (n m : nat) p f body s :
  (forall s i, I s -> (i < n)%nat -> I (wr (padd p (Z.of_nat (i * m))) (tab m (fun j => f (i * m + j)%nat)) s)) ->
  (forall s, I s -> wok s p (n * m)) ->
  (forall s i, I s -> (i < n)%nat ->
     body (Z.of_nat i) s = Ok tt (wr (padd p (Z.of_nat (i * m))) (tab m (fun j => f (i * m + j)%nat)) s)) ->
  I s ->
  for_ 0 (Z.of_nat n) body s = Ok tt (wr p (tab (n * m) f) s) /\
  forall l, l ≡ₚ range 0 (Z.of_nat n) -> for_list l body s = for_ 0 (Z.of_nat n) body s.
Proof.
  intros HS HW HB HI.
  set (q := fun i => padd p (i * Z.of_nat m)).
  set (v := fun i => tab m (fun j => f (Z.to_nat i * m + j)%nat)).
  assert (HR : forall i l s, (forall j, j ∈ i :: l -> 0 <= j < Z.of_nat n) /\ I s ->
     body i s = Ok tt (wr (q i) (v i) s) /\ ((forall j, j ∈ l -> 0 <= j < Z.of_nat n) /\ I (wr (q i) (v i) s))).
  { intros i l s0 [Hl Hs]. assert (Hi : 0 <= i < Z.of_nat n) by (apply Hl; rewrite elem_of_cons; auto).
    assert (E : body i s0 = Ok tt (wr (q i) (v i) s0)).
    { pose proof (HB s0 (Z.to_nat i) Hs ltac:(lia)) as E.
      rewrite Z2Nat.id in E by lia. rewrite E. unfold q, v.
      replace (i * Z.of_nat m) with (Z.of_nat (Z.to_nat i * m)) by lia. done. }
    split; [done|]. split.
    - intros j Hj. apply Hl. rewrite elem_of_cons; auto.
    - pose proof (HS s0 (Z.to_nat i) Hs ltac:(lia)) as E'. unfold q, v.
      replace (i * Z.of_nat m) with (Z.of_nat (Z.to_nat i * m)) by lia. done. }
  split.
  - rewrite for_is_list. rewrite (for_list_run (fun l s => (forall j, j ∈ l -> 0 <= j < Z.of_nat n) /\ I s) q v _ _ _ HR).
    + f_equal. apply wrs_rows. by apply HW.
    + split; [|done]. intros j. by rewrite elem_of_range.
  - intros l Hl. eapply (for_perm (fun l s => (forall j, j ∈ l -> 0 <= j < Z.of_nat n) /\ I s) q v); eauto.
    + split; [|done]. intros j. by rewrite elem_of_range.
    + split; [|done]. intros j. rewrite Hl. by rewrite elem_of_range.
    + intros i Hi. unfold q, v. rewrite tab_length. eapply wok_padd'; [by apply HW|nia|]. nia.
    + intros i j Hi Hj Hne. unfold q, v. rewrite !tab_length. apply disj_padd_padd. nia.
Qed.
End loops2.

Ltac do_ld H :=
  match goal with
  | |- context [bind (ld ?p ?i) ?k ?s] =>
      rewrite (bind_ok (ld p i) k s _ s (ld_seg s p _ i H ltac:(lia)))
  end.

Section loops3.
Context `{N : Num}.
Implicit Types (s : st) (p q : ptr) (xs ys : list T).

(** parallel loop writing one cell per iteration; each iteration may read its own cell *)
Lemma for_cells_par (J : st -> Prop) (n : nat) p ys f body s :
  (forall s i v, J s -> (i < n)%nat -> J (wr (padd p (Z.of_nat i)) [v] s)) ->
  (forall s, J s -> wok s p n) ->
  (forall s i, J s -> (i < n)%nat -> (forall v, ys !! i = Some v -> cell s p (Z.of_nat i) = Some (Some v)) ->
     body (Z.of_nat i) s = sto p (Z.of_nat i) (f i) s) ->
  J s -> seg s p ys ->
  for_ 0 (Z.of_nat n) body s = Ok tt (wr p (tab n f) s) /\
  forall l, l ≡ₚ range 0 (Z.of_nat n) -> for_list l body s = for_ 0 (Z.of_nat n) body s.
Proof.
  intros HS HW HB HJ Hys.
  set (q := fun i => padd p i).
  set (v := fun i => [f (Z.to_nat i)]).
  set (I := fun (l : list Z) s => J s /\ NoDup l /\
     forall i, i ∈ l -> 0 <= i < Z.of_nat n /\
       forall w, ys !! Z.to_nat i = Some w -> cell s p i = Some (Some w)).
  assert (HR : forall i l s, I (i :: l) s -> body i s = Ok tt (wr (q i) (v i) s) /\ I l (wr (q i) (v i) s)).
  { intros i l s0 (H1 & H2 & H3).
    destruct (H3 i ltac:(rewrite elem_of_cons; auto)) as [Hi Hc].
    assert (Hw : wok s0 (padd p i) 1) by (eapply wok_padd'; [by apply HW|lia|lia]).
    assert (E : body i s0 = Ok tt (wr (q i) (v i) s0)).
    { pose proof (HB s0 (Z.to_nat i) H1 ltac:(lia)) as E.
      rewrite Z2Nat.id in E by lia. rewrite E.
      - unfold q, v. apply (sto_wok _ _ n); [by apply HW|lia].
      - intros w Hw'. by apply Hc. }
    split; [done|]. apply NoDup_cons in H2 as [Hni Hnd]. split; [|split; [done|]].
    - unfold q, v. pose proof (HS s0 (Z.to_nat i) (f (Z.to_nat i)) H1 ltac:(lia)) as E'.
      by rewrite Z2Nat.id in E' by lia.
    - intros j Hj. destruct (H3 j ltac:(rewrite elem_of_cons; auto)) as [Hj' Hcj]. split; [done|].
      intros w Hw'. unfold q, v. rewrite cell_wr_other; [by apply Hcj|done|].
      destruct p as [|b o]; [done|]. simpl. rewrite Nat.eqb_refl. simpl.
      assert (i <> j) by (intros ->; done).
      destruct (o + i <=? o + j) eqn:E1; [|done]. apply Z.ltb_ge. apply Z.leb_le in E1. lia. }
  assert (HI : forall l, l ≡ₚ range 0 (Z.of_nat n) -> I l s).
  { intros l Hl. split; [done|]. split; [rewrite Hl; apply NoDup_range|].
    intros i Hi. rewrite Hl in Hi. apply elem_of_range in Hi. split; [done|].
    intros w Hw'. apply Hys in Hw'. by rewrite Z2Nat.id in Hw' by lia. }
  split.
  - rewrite for_is_list. rewrite (for_list_run I q v _ _ _ HR) by (by apply HI).
    f_equal. apply wrs_cells. by apply HW.
  - intros l Hl. eapply (for_perm I q v); eauto.
    + intros i Hi. eapply wok_padd'; [by apply HW|lia|simpl; lia].
    + intros i j Hi Hj Hne. apply disj_padd_padd. simpl. lia.
Qed.
End loops3.
