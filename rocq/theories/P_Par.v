(** * Non-interfering loop bodies may run in parallel. *)
From Coq Require Import ZArith Lia.
From stdpp Require Import base list relations.
From Verif Require Import P_Loop S_Par.
Local Open Scope Z_scope.

Section par.
Context `{N : Num}.
Implicit Types (s : st) (p : ptr) (q : prog).
Notation place := (nat * Z)%type.

(** ** Running programs *)
Lemma run_pseq q1 q2 s : run (pseq q1 q2) s = (run q1 ;! run q2) s.
Proof.
  revert s. induction q1 as [|e|p i k IH|p i v k IH]; intros s; simpl; try done.
  - unfold bind. destruct (ld p i s); [|done]. rewrite IH. done.
  - unfold bind. destruct (sto p i v s); [|done]. rewrite IH. done.
Qed.
Lemma run_pforn k lo (body : Z -> prog) (b : Z -> M unit) s :
  (forall i s, lo <= i < lo + Z.of_nat k -> run (body i) s = b i s) ->
  run (pforn k lo body) s = forn k lo b s.
Proof.
  revert lo s. induction k as [|k IH]; intros lo s H; simpl; [done|].
  rewrite run_pseq. unfold bind. rewrite H by lia. destruct (b lo s); [|done].
  apply IH. intros i s1 Hi. apply H. lia.
Qed.
Lemma run_pfor lo hi (body : Z -> prog) (b : Z -> M unit) s :
  (forall i s, lo <= i < hi -> run (body i) s = b i s) ->
  run (pfor lo hi body) s = for_ lo hi b s.
Proof. intros H. apply run_pforn. intros i s1 Hi. apply H. lia. Qed.
Lemma run_p32 z k s : run (p32 z k) s = (let* y := i32 z in run (k y)) s.
Proof. unfold p32, i32. destruct (in_int z); done. Qed.
Lemma run_thread (body : Z -> prog) (b : Z -> M unit) l s :
  (forall i s, i ∈ l -> run (body i) s = b i s) -> run (thread body l) s = for_list l b s.
Proof.
  revert s. induction l as [|i l IH]; intros s H; simpl; [done|].
  rewrite run_pseq. unfold bind. rewrite H by apply elem_of_cons, or_introl, eq_refl.
  destruct (b i s); [|done]. apply IH. intros j s1 Hj. apply H. apply elem_of_cons. auto.
Qed.

(** ** Footprints: [R] may be read, [W] may be read and written *)
Fixpoint fp (R W : place -> Prop) (q : prog) : Prop :=
  match q with
  | PRet | PUb _ => True
  | PLd p i k => (forall a, addr p i = Some a -> R a \/ W a) /\ forall v, fp R W (k v)
  | PSto p i v k => (forall a, addr p i = Some a -> W a) /\ fp R W k
  end.
Lemma fp_mono (R W R' W' : place -> Prop) q :
  (forall a, R a -> R' a \/ W' a) -> (forall a, W a -> W' a) -> fp R W q -> fp R' W' q.
Proof.
  intros HR HW. induction q as [|e|p i k IH|p i v k IH]; simpl; try done.
  - intros [H1 H2]. split; [|auto]. intros a Ha. destruct (H1 a Ha); auto.
  - intros [H1 H2]. split; auto.
Qed.
Lemma fp_pseq R W q1 q2 : fp R W q1 -> fp R W q2 -> fp R W (pseq q1 q2).
Proof.
  intros H1 H2. induction q1 as [|e|p i k IH|p i v k IH]; simpl in *; try done.
  - destruct H1 as [Ha Hk]. split; auto.
  - destruct H1 as [Ha Hk]. split; auto.
Qed.
Lemma fp_pforn R W k lo body :
  (forall i, lo <= i < lo + Z.of_nat k -> fp R W (body i)) -> fp R W (pforn k lo body).
Proof.
  revert lo. induction k as [|k IH]; intros lo H; simpl; [done|].
  apply fp_pseq; [apply H; lia|]. apply IH. intros i Hi. apply H. lia.
Qed.
Lemma fp_pfor R W lo hi body : (forall i, lo <= i < hi -> fp R W (body i)) -> fp R W (pfor lo hi body).
Proof. intros H. apply fp_pforn. intros i Hi. apply H. lia. Qed.
Lemma fp_p32 R W z k : (in_int z = true -> fp R W (k z)) -> fp R W (p32 z k).
Proof. unfold p32. destruct (in_int z); [auto|done]. Qed.
Lemma fp_thread R W body l : (forall i, i ∈ l -> fp R W (body i)) -> fp R W (thread body l).
Proof.
  induction l as [|i l IH]; intros H; simpl; [done|].
  apply fp_pseq; [apply H, elem_of_cons; auto|]. apply IH. intros j Hj. apply H, elem_of_cons; auto.
Qed.

(** ** One store against the accesses of another program *)
Lemma cell_addr_Some s p i x : cell s p i = Some x -> exists a, addr p i = Some a.
Proof. destruct p; simpl; [done|eauto]. Qed.
Lemma cell_wr1 s p i v r j :
  is_Some (cell s p i) -> addr p i <> addr r j -> cell (wr (padd p i) [v] s) r j = cell s r j.
Proof.
  intros Hc Hn. apply cell_wr_other.
  - intros k Hk. rewrite cell_padd. simpl in Hk. assert (k = 0%nat) as -> by lia. by rewrite Z.add_0_r.
  - destruct p as [|b o], r as [|b' o']; simpl in *; try done.
    destruct (Nat.eqb_spec b b') as [->|]; [|done]. simpl.
    apply not_true_is_false. intros E.
    apply Hn. f_equal. f_equal. rewrite andb_true_iff, Z.leb_le, Z.ltb_lt in E. lia.
Qed.
Lemma acc_wr1 s p i v r j : is_Some (cell s p i) -> is_Some (cell s r j) -> is_Some (cell (wr (padd p i) [v] s) r j).
Proof.
  intros Hc Hq.
  assert (W1 : wok s (padd p i) 1).
  { intros k Hk. assert (k = 0%nat) as -> by lia. rewrite cell_padd. by rewrite Z.add_0_r. }
  assert (W2 : wok s (padd r j) 1).
  { intros k Hk. assert (k = 0%nat) as -> by lia. rewrite cell_padd. by rewrite Z.add_0_r. }
  pose proof (wok_wr s (padd p i) [v] (padd r j) 1 W1 W2 0%nat ltac:(lia)) as H.
  rewrite cell_padd, Z.add_0_r in H. done.
Qed.
Lemma wr1_comm s p i v r j w :
  is_Some (cell s p i) -> is_Some (cell s r j) -> addr p i <> addr r j ->
  wr (padd p i) [v] (wr (padd r j) [w] s) = wr (padd r j) [w] (wr (padd p i) [v] s).
Proof.
  intros Hp Hq Hn. apply wr_comm'.
  - intros k Hk. simpl in Hk. assert (k = 0%nat) as -> by lia. rewrite cell_padd. by rewrite Z.add_0_r.
  - intros k Hk. simpl in Hk. assert (k = 0%nat) as -> by lia. rewrite cell_padd. by rewrite Z.add_0_r.
  - destruct p as [|b o], r as [|b' o']; simpl in *; try done. intros ->.
    assert (o + i <> o' + j) by congruence. lia.
Qed.

(** a cell outside the footprint's [W] keeps its content *)
Lemma run_cell R W q s s' p i :
  fp R W q -> run q s = Ok tt s' -> (forall a, addr p i = Some a -> ~ W a) -> cell s' p i = cell s p i.
Proof.
  intros Hf Hr Hn. revert s Hr. induction q as [|e|p1 i1 k IH|p1 i1 v k IH]; intros s Hr; simpl in *.
  - by injection Hr as <-.
  - done.
  - destruct Hf as [Ha Hk]. unfold bind, ld in Hr.
    destruct (cell s p1 i1) as [[v|]|]; try done. by apply (IH v).
  - destruct Hf as [Ha Hk]. unfold bind, sto in Hr.
    destruct (cell s p1 i1) as [x|] eqn:E; try done.
    rewrite (IH Hk _ Hr). apply cell_wr1; [by rewrite E|].
    intros Eq. destruct (cell_addr_Some _ _ _ _ E) as [a Ea]. apply (Hn a); [congruence|]. by apply Ha.
Qed.
(** ... and a store outside [R] and [W] can be moved across it *)
Lemma run_frame R W q s s' p i v :
  fp R W q -> run q s = Ok tt s' -> is_Some (cell s p i) -> (forall a, addr p i = Some a -> ~ R a /\ ~ W a) ->
  run q (wr (padd p i) [v] s) = Ok tt (wr (padd p i) [v] s').
Proof.
  intros Hf Hr Hc Hn. revert s Hr Hc. induction q as [|e|p1 i1 k IH|p1 i1 w k IH]; intros s Hr Hc; simpl in *.
  - by injection Hr as <-.
  - done.
  - destruct Hf as [Ha Hk]. unfold bind, ld in *.
    destruct (cell s p1 i1) as [[w|]|] eqn:E; try done.
    assert (Hne : addr p i <> addr p1 i1).
    { intros Eq. destruct (cell_addr_Some _ _ _ _ E) as [a Ea]. destruct (Hn a); [congruence|]. destruct (Ha a Ea); auto. }
    rewrite cell_wr1, E by done. by apply IH.
  - destruct Hf as [Ha Hk]. unfold bind, sto in *.
    destruct (cell s p1 i1) as [x|] eqn:E; try done.
    assert (Hne : addr p i <> addr p1 i1).
    { intros Eq. destruct (cell_addr_Some _ _ _ _ E) as [a Ea]. destruct (Hn a); [congruence|]. auto. }
    rewrite cell_wr1, E by done. rewrite wr1_comm by (try done; by rewrite E). apply IH; [done|done|].
    apply acc_wr1; [by rewrite E|done].
Qed.

(** footprints that do not interfere *)
Definition apart (R1 W1 R2 W2 : place -> Prop) : Prop :=
  forall a, (W1 a -> ~ R2 a /\ ~ W2 a) /\ (W2 a -> ~ R1 a /\ ~ W1 a).

Lemma run_swap R1 W1 R2 W2 q1 q2 s s' :
  fp R1 W1 q1 -> fp R2 W2 q2 -> apart R1 W1 R2 W2 ->
  (run q1 ;! run q2) s = Ok tt s' -> (run q2 ;! run q1) s = Ok tt s'.
Proof.
  intros F1 F2 Hap H. apply bind_inv in H as ([] & s1 & E1 & E2). unfold bind.
  revert s s1 E1 E2. induction q2 as [|e|p i k IH|p i v k IH]; intros s s1 E1 E2; simpl in *.
  - injection E2 as <-. done.
  - done.
  - destruct F2 as [Ha Hk]. unfold bind, ld in *.
    rewrite (run_cell R1 W1 q1 s s1 p i F1 E1) in E2 by (intros a Ea Hw; destruct (Hap a) as [G _]; destruct (G Hw); destruct (Ha a Ea); auto).
    destruct (cell s p i) as [[w|]|] eqn:E; try done. by apply (IH w) with s1.
  - destruct F2 as [Ha Hk]. unfold bind, sto in *.
    rewrite (run_cell R1 W1 q1 s s1 p i F1 E1) in E2 by (intros a Ea Hw; destruct (Hap a) as [G _]; destruct (G Hw); auto).
    destruct (cell s p i) as [x|] eqn:E; try done.
    apply (IH Hk) with (wr (padd p i) [v] s1); [|done].
    apply (run_frame R1 W1); [done|done|by rewrite E|]. intros a Ea. apply (Hap a). auto.
Qed.

(** ** Any order of whole iterations *)
Section order.
Context (body : Z -> prog) (R W : Z -> place -> Prop).
Definition free_of (l : list Z) : Prop :=
  (forall i, i ∈ l -> fp (R i) (W i) (body i)) /\
  (forall i j, i ∈ l -> j ∈ l -> i <> j -> forall a, W i a -> ~ R j a /\ ~ W j a).

Lemma free_sub l l' : free_of l -> (forall i, i ∈ l' -> i ∈ l) -> free_of l'.
Proof. intros [H1 H2] H. split; [auto|]. intros i j Hi Hj. apply H2; auto. Qed.

Lemma thread_perm l l' s s' :
  l ≡ₚ l' -> NoDup l -> free_of l -> run (thread body l) s = Ok tt s' -> run (thread body l') s = Ok tt s'.
Proof.
  intros HP. revert s s'. induction HP as [|i l l' HP IH|i j l|l1 l2 l3 H1 IH1 H2 IH2]; intros s s' Hnd HF H; simpl in *.
  - done.
  - rewrite run_pseq in *. apply bind_inv in H as ([] & s1 & E1 & E2). rewrite (bind_ok _ _ _ _ _ E1).
    apply IH; [by inversion Hnd| |done]. eapply free_sub; [exact HF|]. intros k Hk. apply elem_of_cons. auto.
  - assert (Hij : j <> i). { apply NoDup_cons in Hnd as [Hn _]. rewrite elem_of_cons in Hn. auto. }
    rewrite run_pseq in *. apply bind_inv in H as ([] & s1 & E1 & E2). rewrite run_pseq in E2.
    apply bind_inv in E2 as ([] & s2 & E2 & E3).
    destruct HF as [F G].
    assert (E : (run (body i) ;! run (body j)) s = Ok tt s2).
    { apply (run_swap (R j) (W j) (R i) (W i)).
      - apply F. rewrite !elem_of_cons; auto.
      - apply F. rewrite !elem_of_cons; auto.
      - intros a. split; intros Ha; eapply G; eauto; rewrite !elem_of_cons; auto.
      - by rewrite (bind_ok _ _ _ _ _ E1). }
    apply bind_inv in E as ([] & s3 & E4 & E5). rewrite (bind_ok _ _ _ _ _ E4), run_pseq.
    by rewrite (bind_ok _ _ _ _ _ E5).
  - apply IH2.
    + by rewrite <- H1.
    + eapply free_sub; [exact HF|]. intros k Hk. by rewrite H1.
    + by apply IH1.
Qed.
End order.

(** ** Interleaved accesses *)
(** running the rest of the threads one after the other *)
Fixpoint run_all (qs : list prog) : M unit :=
  match qs with [] => ret tt | q :: l => run q ;! run_all l end.
Lemma run_all_app l1 l2 s : run_all (l1 ++ l2) s = (run_all l1 ;! run_all l2) s.
Proof.
  revert s. induction l1 as [|q l1 IH]; intros s; simpl; [done|].
  unfold bind. destruct (run q s); [|done]. by rewrite IH.
Qed.
Lemma run_all_threads body ls s : run_all (thread body <$> ls) s = run (thread body (concat ls)) s.
Proof.
  revert s. induction ls as [|l ls IH]; intros s; simpl; [done|].
  assert (E : forall l2 s, run (thread body (l ++ l2)) s = (run (thread body l) ;! run (thread body l2)) s).
  { clear. induction l as [|i l IH]; intros l2 s; simpl; [done|]. rewrite !run_pseq. unfold bind.
    rewrite run_pseq. unfold bind. destruct (run (body i) s); [|done]. by rewrite IH. }
  rewrite E. unfold bind. destruct (run (thread body l) s); [|done]. apply IH.
Qed.

(** the threads [qs] have footprints [RW], pairwise apart *)
Definition quiet (qs : list prog) (RW : list ((place -> Prop) * (place -> Prop))) : Prop :=
  Forall2 (fun q rw => fp rw.1 rw.2 q) qs RW /\
  forall j1 j2 rw1 rw2, j1 <> j2 -> RW !! j1 = Some rw1 -> RW !! j2 = Some rw2 ->
    apart rw1.1 rw1.2 rw2.1 rw2.2.

Lemma run_all_cell l s s' p i :
  (forall q, q ∈ l -> exists R W, fp R W q /\ forall a, addr p i = Some a -> ~ W a) ->
  run_all l s = Ok tt s' -> cell s' p i = cell s p i.
Proof.
  revert s. induction l as [|q l IH]; intros s H Hr; simpl in *; [by injection Hr as <-|].
  apply bind_inv in Hr as ([] & s1 & E1 & E2).
  rewrite (IH _ (fun q Hq => H q (elem_of_list_further _ _ _ Hq)) E2).
  destruct (H q (elem_of_list_here _ _)) as (R & W & F & G). eapply run_cell; eauto.
Qed.
Lemma run_all_frame l s s' p i v :
  (forall q, q ∈ l -> exists R W, fp R W q /\ forall a, addr p i = Some a -> ~ R a /\ ~ W a) ->
  is_Some (cell s p i) ->
  run_all l s = Ok tt s' -> run_all l (wr (padd p i) [v] s) = Ok tt (wr (padd p i) [v] s').
Proof.
  revert s. induction l as [|q l IH]; intros s H Hc Hr; simpl in *; [by injection Hr as <-|].
  apply bind_inv in Hr as ([] & s1 & E1 & E2).
  destruct (H q (elem_of_list_here _ _)) as (R & W & F & G).
  rewrite (bind_ok _ _ _ _ _ (run_frame R W q s s1 p i v F E1 Hc G)).
  apply IH; [intros; apply H, elem_of_list_further; done| |done].
  rewrite (run_cell R W q s s1 p i F E1); [done|]. intros a Ha. by apply G.
Qed.

(** the other threads, seen from thread [j] *)
Lemma quiet_others qs RW j q :
  quiet qs RW -> qs !! j = Some q -> exists rw, RW !! j = Some rw /\ fp rw.1 rw.2 q /\
    forall q', q' ∈ take j qs -> exists R W, fp R W q' /\
      (forall a, rw.1 a -> ~ W a) /\ (forall a, rw.2 a -> ~ R a /\ ~ W a).
Proof.
  intros [HF HA] Hj. destruct (Forall2_lookup_l _ _ _ _ _ HF Hj) as (rw & Ej & Fj).
  exists rw. split; [done|]. split; [done|]. intros q' Hq.
  apply elem_of_list_lookup in Hq as [k Hk].
  assert (k < j)%nat. { apply lookup_lt_Some in Hk. rewrite take_length in Hk. lia. }
  rewrite lookup_take in Hk by done.
  destruct (Forall2_lookup_l _ _ _ _ _ HF Hk) as (rw' & Ek & Fk).
  exists rw'.1, rw'.2. split; [done|].
  pose proof (HA j k rw rw' ltac:(lia) Ej Ek) as Hap. split.
  - intros a Ha Hw. destruct (Hap a) as [_ G]. by destruct (G Hw).
  - intros a Ha. by apply (Hap a).
Qed.
Lemma quiet_insert qs RW j q q' rw :
  quiet qs RW -> qs !! j = Some q -> RW !! j = Some rw -> fp rw.1 rw.2 q' -> quiet (<[j := q']> qs) RW.
Proof.
  intros [HF HA] Hj Hr Hq. split; [|done].
  rewrite <- (list_insert_id RW j rw Hr). by apply Forall2_insert.
Qed.

(** the invariant: finishing the threads one after the other leads to [s'] *)
Definition inv RW s' (c : conf) : Prop := quiet c.1 RW /\ run_all c.1 c.2 = Ok tt s'.

Lemma split_at qs j q s s' :
  qs !! j = Some q -> run_all qs s = Ok tt s' ->
  exists s1, run_all (take j qs) s = Ok tt s1 /\ (run q ;! run_all (drop (S j) qs)) s1 = Ok tt s'.
Proof.
  intros Hj H. rewrite <- (take_drop_middle _ _ _ Hj), run_all_app in H.
  apply bind_inv in H as ([] & s1 & E1 & E2). eauto.
Qed.
Lemma join_at qs j q q' s s1 s' :
  qs !! j = Some q -> run_all (take j qs) s = Ok tt s1 -> (run q' ;! run_all (drop (S j) qs)) s1 = Ok tt s' ->
  run_all (<[j := q']> qs) s = Ok tt s'.
Proof.
  intros Hj E1 E2. assert (Hlt := lookup_lt_Some _ _ _ Hj).
  rewrite insert_take_drop by done. rewrite run_all_app. rewrite (bind_ok _ _ _ _ _ E1). done.
Qed.

Lemma inv_ok RW s' c : inv RW s' c -> ~ bad c /\ ~ race c.
Proof.
  intros [HQ HR]. split.
  - intros Hb. destruct Hb as [qs s j e Hj|qs s j p i k Hj Hc|qs s j p i v k Hj Hc]; simpl in *.
    + destruct (split_at _ _ _ _ _ Hj HR) as (s1 & _ & E). done.
    + destruct (split_at _ _ _ _ _ Hj HR) as (s1 & E1 & E).
      destruct (quiet_others _ _ _ _ HQ Hj) as (rw & _ & [Fa _] & G).
      assert (Ec : cell s1 p i = cell s p i).
      { apply (run_all_cell (take j qs)); [|done]. intros q Hq. destruct (G q Hq) as (R & W & F & G1 & G2).
        exists R, W. split; [done|]. intros a Ha. destruct (Fa a Ha); [by apply G1|by apply G2]. }
      simpl in E. unfold bind, ld in E. rewrite Ec in E. by destruct Hc as [Hc|Hc]; rewrite Hc in E.
    + destruct (split_at _ _ _ _ _ Hj HR) as (s1 & E1 & E).
      destruct (quiet_others _ _ _ _ HQ Hj) as (rw & _ & [Fa _] & G).
      assert (Ec : cell s1 p i = cell s p i).
      { apply (run_all_cell (take j qs)); [|done]. intros q Hq. destruct (G q Hq) as (R & W & F & G1 & G2).
        exists R, W. split; [done|]. intros a Ha. by apply G2, Fa. }
      simpl in E. unfold bind, sto in E. rewrite Ec, Hc in E. done.
  - destruct c as [qs s]. intros (j1 & j2 & q1 & q2 & w1 & w2 & a & Hne & H1 & H2 & N1 & N2 & Hw). simpl in *.
    destruct HQ as [HF HA].
    destruct (Forall2_lookup_l _ _ _ _ _ HF H1) as (rw1 & E1 & F1).
    destruct (Forall2_lookup_l _ _ _ _ _ HF H2) as (rw2 & E2 & F2).
    pose proof (HA _ _ _ _ Hne E1 E2 a) as [G1 G2].
    assert (X : forall q w rw, next q = Some (w, a) -> fp rw.1 rw.2 q -> (rw.1 a \/ rw.2 a) /\ (w = true -> rw.2 a)).
    { clear. intros q w rw Hn Hf. destruct q as [| |p i k|p i v k]; simpl in *; try done;
        destruct (addr p i) as [a'|] eqn:Ea; try done; injection Hn as <- <-; destruct Hf as [Hf _]; split; auto; done. }
    destruct (X _ _ _ N1 F1) as [X1 Y1], (X _ _ _ N2 F2) as [X2 Y2].
    destruct Hw as [-> | ->]; [destruct (G1 (Y1 eq_refl))|destruct (G2 (Y2 eq_refl))]; tauto.
Qed.

Lemma inv_step RW s' c c' : inv RW s' c -> pstep c c' -> inv RW s' c'.
Proof.
  intros [HQ HR] Hst. destruct Hst as [qs s j p i k v Hj Hc|qs s j p i v k Hj Hc]; simpl in *.
  - destruct (split_at _ _ _ _ _ Hj HR) as (s1 & E1 & E).
    destruct (quiet_others _ _ _ _ HQ Hj) as (rw & Hrw & [Fa Fk] & G).
    assert (Ec : cell s1 p i = cell s p i).
    { apply (run_all_cell (take j qs)); [|done]. intros q Hq. destruct (G q Hq) as (R & W & F & G1 & G2).
      exists R, W. split; [done|]. intros a Ha. destruct (Fa a Ha); [by apply G1|by apply G2]. }
    split; [by eapply quiet_insert|].
    eapply join_at; [done|done|]. simpl in E. unfold bind, ld in E |- *. rewrite Ec, Hc in E. done.
  - destruct (split_at _ _ _ _ _ Hj HR) as (s1 & E1 & E).
    destruct (quiet_others _ _ _ _ HQ Hj) as (rw & Hrw & [Fa Fk] & G).
    assert (Ec : cell s1 p i = cell s p i).
    { apply (run_all_cell (take j qs)); [|done]. intros q Hq. destruct (G q Hq) as (R & W & F & G1 & G2).
      exists R, W. split; [done|]. intros a Ha. by apply G2, Fa. }
    split; [by eapply quiet_insert|].
    eapply join_at; [done| |].
    { simpl. apply run_all_frame; [|done|exact E1]. intros q Hq. destruct (G q Hq) as (R & W & F & G1 & G2).
      exists R, W. split; [done|]. intros a Ha. by apply G2, Fa. }
    simpl in E. unfold bind, sto in E |- *. rewrite Ec in E. destruct Hc as [x Hx]. rewrite Hx in E. done.
Qed.

Lemma inv_final RW s' c : inv RW s' c -> nf pstep c -> c.2 = s' /\ Forall (fun q => q = PRet) c.1.
Proof.
  intros HI Hnf. destruct (inv_ok _ _ _ HI) as [Hb _]. destruct HI as [_ HR].
  assert (HA : Forall (fun q => q = PRet) c.1).
  { apply Forall_lookup. intros j q Hj. destruct c as [qs s]. simpl in *. destruct q as [|e|p i k|p i v k].
    - done.
    - exfalso. apply Hb. by eapply bad_ub.
    - exfalso. destruct (cell s p i) as [[v|]|] eqn:E.
      + apply Hnf. eexists. by eapply pstep_ld.
      + apply Hb. eapply bad_ld; eauto.
      + apply Hb. eapply bad_ld; eauto.
    - exfalso. destruct (cell s p i) as [x|] eqn:E.
      + apply Hnf. eexists. eapply pstep_sto; eauto.
      + apply Hb. eapply bad_sto; eauto. }
  split; [|done]. destruct c as [qs s]. simpl in *. clear Hnf Hb.
  induction HA as [|q l -> HA IH]; simpl in *; [by injection HR|]. by apply IH.
Qed.

(** *** termination *)
Definition tstep (q q' : prog) : Prop :=
  match q with PLd p i k => exists v, q' = k v | PSto p i v k => q' = k | _ => False end.
Definition lstep (l l' : list prog) : Prop := exists j q q', l !! j = Some q /\ tstep q q' /\ l' = <[j := q']> l.
Lemma tstep_sn q : sn tstep q.
Proof.
  induction q as [|e|p i k IH|p i v k IH]; apply Acc_intro; intros q' Hq; unfold flip, tstep in Hq.
  - destruct Hq.
  - destruct Hq.
  - destruct Hq as [v ->]. apply IH.
  - rewrite Hq. apply IH.
Qed.
Lemma lstep_sn l : sn lstep l.
Proof.
  induction l as [|q l IH].
  - constructor. intros l' (j & q & q' & H & _). done.
  - pose proof (tstep_sn q) as Hq. revert l IH. induction Hq as [q _ IHq]. intros l Hl.
    induction Hl as [l Hl IHl]. constructor. intros l' (j & q1 & q2 & Hj & Ht & ->).
    destruct j as [|j]; simpl in *.
    + injection Hj as ->. apply IHq; [done|]. by constructor.
    + apply IHl. exists j, q1, q2. done.
Qed.
Lemma pstep_sn c : sn pstep c.
Proof.
  assert (H : forall l, sn lstep l -> forall s, sn pstep (l, s)).
  { intros l Hl. induction Hl as [l _ IH]. intros s. constructor. intros [l' s'] Hst.
    apply IH. unfold flip in *. inversion Hst; subst; eexists _, _, _; (split; [done|]; split; [|done]); simpl; eauto. }
  destruct c. apply H, lstep_sn.
Qed.

(** ** The rule for parallel loops *)
Theorem parallel_rule (body : Z -> prog) (R W : Z -> place -> Prop) (lo hi : Z) (b : Z -> M unit) s s' :
  (forall i s, lo <= i < hi -> run (body i) s = b i s) ->
  (forall i, lo <= i < hi -> fp (R i) (W i) (body i)) ->
  (forall i j, lo <= i < hi -> lo <= j < hi -> i <> j -> forall a, W i a -> ~ R j a /\ ~ W j a) ->
  for_ lo hi b s = Ok tt s' ->
  parallel body lo hi s s' /\ forall l, l ≡ₚ range lo hi -> for_list l b s = Ok tt s'.
Proof.
  intros Hb Hf Hd Hs.
  assert (HF : forall l, l ≡ₚ range lo hi -> free_of body R W l).
  { intros l Hl. split.
    - intros i Hi. apply Hf. apply elem_of_range. by rewrite <- Hl.
    - intros i j Hi Hj. apply Hd; apply elem_of_range; by rewrite <- Hl. }
  assert (HP : forall l, l ≡ₚ range lo hi -> run (thread body l) s = Ok tt s').
  { intros l Hl. apply (thread_perm body R W (range lo hi)); [by rewrite Hl|apply NoDup_range|by apply HF|].
    rewrite (run_thread body b); [by rewrite <- for_is_list|]. intros i s1 Hi. apply Hb. by apply elem_of_range. }
  split.
  - intros ls Hl c0. split; [apply pstep_sn|].
    set (RW := (fun l => ((fun a => exists i, i ∈ l /\ R i a), (fun a => exists i, i ∈ l /\ W i a))) <$> ls
      : list ((place -> Prop) * (place -> Prop))).
    assert (HI : inv RW s' c0).
    { split; simpl.
      - split.
        + apply Forall2_fmap_l, Forall2_fmap_r, Forall_Forall2_diag, Forall_forall.
          intros l Hin. simpl. apply fp_thread. intros i Hi.
          apply (fp_mono (R i) (W i)); [eauto|eauto|]. apply Hf, elem_of_range. rewrite <- Hl.
          apply elem_of_list_In, in_concat. exists l. split; by apply elem_of_list_In.
        + intros j1 j2 rw1 rw2 Hne H1 H2. unfold RW in H1, H2. rewrite !list_lookup_fmap in H1, H2.
          destruct (ls !! j1) as [l1|] eqn:L1; [|done]. destruct (ls !! j2) as [l2|] eqn:L2; [|done].
          injection H1 as <-. injection H2 as <-. simpl.
          assert (Hno : forall i1 i2, i1 ∈ l1 -> i2 ∈ l2 -> i1 <> i2 /\ lo <= i1 < hi /\ lo <= i2 < hi).
          { intros i1 i2 I1 I2. split; [|split].
            - intros ->. assert (ND : NoDup (concat ls)) by (rewrite Hl; apply NoDup_range).
              clear - ND L1 L2 I1 I2 Hne. revert j1 j2 L1 L2 Hne.
              induction ls as [|l ls IH]; intros [|j1] [|j2] L1 L2 Hne; simpl in *; try done.
              + injection L1 as ->. apply NoDup_app in ND as (_ & ND & _). apply (ND i2 I1).
                apply elem_of_list_In, in_concat. exists l2. split; apply elem_of_list_In; [|done].
                by eapply elem_of_list_lookup_2.
              + injection L2 as ->. apply NoDup_app in ND as (_ & ND & _). apply (ND i2 I2).
                apply elem_of_list_In, in_concat. exists l1. split; apply elem_of_list_In; [|done].
                by eapply elem_of_list_lookup_2.
              + apply NoDup_app in ND as (_ & _ & ND). eapply IH; eauto.
            - apply elem_of_range. rewrite <- Hl. apply elem_of_list_In, in_concat. exists l1. split; apply elem_of_list_In; [|done].
              by eapply elem_of_list_lookup_2.
            - apply elem_of_range. rewrite <- Hl. apply elem_of_list_In, in_concat. exists l2. split; apply elem_of_list_In; [|done].
              by eapply elem_of_list_lookup_2. }
          intros a. split; intros (i & Hi & Ha); split; intros (i' & Hi' & Ha').
          * destruct (Hno i i' Hi Hi') as (G1 & G2 & G3). by destruct (Hd i i' G2 G3 G1 a Ha).
          * destruct (Hno i i' Hi Hi') as (G1 & G2 & G3). by destruct (Hd i i' G2 G3 G1 a Ha).
          * destruct (Hno i' i Hi' Hi) as (G1 & G2 & G3). by destruct (Hd i i' G3 G2 (not_eq_sym G1) a Ha).
          * destruct (Hno i' i Hi' Hi) as (G1 & G2 & G3). by destruct (Hd i i' G3 G2 (not_eq_sym G1) a Ha).
      - rewrite run_all_threads. by apply HP. }
    intros c Hc. assert (HI' : inv RW s' c).
    { clearbody c0. induction Hc as [c|c c1 c2 H1 H2 IH]; [done|]. apply IH. by eapply inv_step. }
    destruct (inv_ok _ _ _ HI'). split; [done|]. split; [done|]. by apply (inv_final RW).
  - intros l Hl. rewrite <- (run_thread body b); [by apply HP|].
    intros i s1 Hi. apply Hb, elem_of_range. by rewrite <- Hl.
Qed.

(** ** Addresses *)
Lemma addr_padd p k i : addr (padd p k) i = addr p (k + i).
Proof. destruct p; simpl; [done|]. by rewrite Z.add_assoc. Qed.
Lemma addr_inj p i j a : addr p i = Some a -> addr p j = Some a -> i = j.
Proof. destruct p; simpl; [done|]. intros [= <-] [= E]. lia. Qed.
Lemma overlap_addr p n r k i j a :
  overlap p n r k = false -> 0 <= i < n -> 0 <= j < k -> addr p i = Some a -> addr r j = Some a -> False.
Proof.
  destruct p as [|b o], r as [|b' o']; simpl; try done. intros H Hi Hj [= <-] [= -> E].
  rewrite Nat.eqb_refl in H. simpl in H.
  assert (0 <? n = true) by lia. assert (0 <? k = true) by lia. assert (o <? o' + k = true) by lia.
  assert (o' <? o + n = true) by lia. by rewrite H0, H1, H2, H3 in H.
Qed.
End par.
