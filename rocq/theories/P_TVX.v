(** * When the difference operators are undefined. *)
From Coq Require Import ZArith Lia.
From stdpp Require Import base numbers list.
From Verif Require Import P_Loop M_TV P_TV S_Mem.
Local Open Scope Z_scope.

Section tvx.
Context `{N : Num}.

Lemma for_ub_first lo hi (body : Z -> M unit) s e :
  lo < hi -> body lo s = Ub e -> for_ lo hi body s = Ub e.
Proof.
  intros H E. unfold for_. destruct (Z.to_nat (hi - lo)) as [|k] eqn:Ek; [lia|].
  simpl. by rewrite (bind_ub _ _ _ _ E).
Qed.
Lemma row_body0 f m alpha X D s : row_body f m alpha X D 0 s = f m alpha X D s.
Proof. unfold row_body. rewrite (bind_ok _ _ _ _ _ (i32_ok (0 * m) s ltac:(unfold INT_MIN, INT_MAX; lia))). by rewrite Z.mul_0_l, !padd_0. Qed.

Lemma ld_cases s p i : (exists v, ld p i s = Ok v s) \/ (exists e, ld p i s = Ub e).
Proof. unfold ld. destruct (cell s p i) as [[v|]|]; eauto. Qed.
Lemma sto_cases s p i v : sto p i v s = Ok tt (wr (padd p i) [v] s) \/ (exists e, sto p i v s = Ub e).
Proof. unfold sto. destruct (cell s p i); eauto. Qed.

Lemma not_safe_ub {A} (m : M A) s e : m s = Ub e -> ~ safe m s.
Proof. intros H (a & s' & E). congruence. Qed.

(** row-wise operators fail in the first row *)
Lemma row_fails f n m alpha X D s :
  (1 <= n)%nat -> disj D (n * m) X (n * m) -> (exists e, f (Z.of_nat m) alpha X D s = Ub e) ->
  exists e, (restrict D (Z.of_nat n * Z.of_nat m) X (Z.of_nat n * Z.of_nat m) ;!
   for_ 0 (Z.of_nat n) (row_body f (Z.of_nat m) alpha X D)) s = Ub e.
Proof.
  intros Hn Hd [e He]. exists e. rewrite (bind_ok _ _ _ _ _ (restrict_nm D X n m s Hd)).
  apply for_ub_first; [lia|]. by rewrite row_body0.
Qed.

Lemma ddiff_fail0 s X D alpha : whole s D 0 -> ddiff_z 0 alpha X D s = Ub UbOob.
Proof.
  intros H. unfold ddiff_z. change (for_ 1 0 _) with (fun s : st => Ok tt s). unfold bind at 1.
  apply sto_out. eapply whole_out; [exact H|lia].
Qed.

(** if the last access of a row is out of bounds, the row fails *)
Lemma bind_fail {A B} (m : M A) (k : A -> M B) (P : st -> Prop) s :
  P s -> (forall s a s', P s -> m s = Ok a s' -> P s') -> (forall a s, P s -> exists e, k a s = Ub e) ->
  exists e, bind m k s = Ub e.
Proof.
  intros H0 Hm Hk. unfold bind. destruct (m s) as [a s'|e] eqn:E; [|by exists e].
  apply Hk. eapply Hm; eauto.
Qed.
Lemma bind_keep {A B} (m : M A) (k : A -> M B) (P : st -> Prop) :
  (forall s a s', P s -> m s = Ok a s' -> P s') ->
  (forall a s b s', P s -> k a s = Ok b s' -> P s') ->
  forall s b s', P s -> bind m k s = Ok b s' -> P s'.
Proof.
  intros Hm Hk s b s' H0. unfold bind. destruct (m s) as [a s1|e] eqn:E; [|done]. eauto.
Qed.
Lemma ld_keep (P : st -> Prop) p i : forall s a s', P s -> ld p i s = Ok a s' -> P s'.
Proof. intros s a s' H. unfold ld. destruct (cell s p i) as [[v|]|]; [|done..]. by intros [= <- <-]. Qed.
Lemma sto_keep p n q i v : forall s a s', whole s p n -> sto q i v s = Ok a s' -> whole s' p n.
Proof. intros s a s' H. unfold sto. destruct (cell s q i); [|done]. intros [= <- <-]. by apply whole_wr. Qed.
Lemma forn_keep (P : st -> Prop) k lo (body : Z -> M unit) :
  (forall i s a s', P s -> body i s = Ok a s' -> P s') ->
  forall s a s', P s -> forn k lo body s = Ok a s' -> P s'.
Proof.
  intros Hb. revert lo. induction k as [|k IH]; intros lo s a s' H; simpl; [by intros [= <- <-]|].
  eapply bind_keep; eauto.
Qed.

Lemma ddiffT_fail s X D alpha n m : (m <= 1)%nat -> whole s X (n * m) ->
  exists e, ddiffT_z (Z.of_nat m) alpha X D s = Ub e.
Proof.
  intros Hm HX. unfold ddiffT_z.
  apply (bind_fail _ _ (fun s => whole s X (n * m))); [done| |].
  { apply bind_keep; [apply ld_keep|intros a; apply sto_keep]. }
  intros _ s1 H1. apply (bind_fail _ _ (fun s => whole s X (n * m))); [done| |].
  { apply forn_keep. intros i. apply bind_keep; [apply ld_keep|intros a].
    apply bind_keep; [apply ld_keep|intros b; apply sto_keep]. }
  intros _ s2 H2. exists UbOob. apply bind_ub, ld_out. eapply whole_out; [exact H2|lia].
Qed.
Lemma ddiff2_fail s X D alpha n m : (m <= 1)%nat -> whole s X (n * m) ->
  exists e, ddiff2_z (Z.of_nat m) alpha X D s = Ub e.
Proof.
  intros Hm HX. unfold ddiff2_z.
  apply (bind_fail _ _ (fun s => whole s X (n * m))); [done| |].
  { apply bind_keep; [apply ld_keep|intros a]. apply bind_keep; [apply ld_keep|intros b; apply sto_keep]. }
  intros _ s1 H1. apply (bind_fail _ _ (fun s => whole s X (n * m))); [done| |].
  { apply forn_keep. intros i. apply bind_keep; [apply ld_keep|intros a].
    apply bind_keep; [apply ld_keep|intros b]. apply bind_keep; [apply ld_keep|intros c; apply sto_keep]. }
  intros _ s2 H2. apply (bind_fail _ _ (fun s => whole s X (n * m))); [done|apply ld_keep|].
  intros v3 s3 H3. exists UbOob. apply bind_ub, ld_out. eapply whole_out; [exact H3|lia].
Qed.

(** ** exactly when each operator is defined on whole arrays *)
Definition tv_blocks s X xs D (n m : nat) : Prop :=
  length xs = (n * m)%nat /\ Z.of_nat (n * m) <= INT_MAX /\ seg s X xs /\
  whole s X (n * m) /\ whole s D (n * m) /\ disj D (n * m) X (n * m).
Lemma tv_blocks_pre s X xs D n m : tv_blocks s X xs D n m -> tv_pre s X xs D n m.
Proof. intros (Hl & HM & Hs & HX & HD & Hd). repeat split; auto. by apply whole_wok. Qed.

Lemma restrict_0 D X n m s : (n * m = 0)%nat ->
  restrict D (Z.of_nat n * Z.of_nat m) X (Z.of_nat n * Z.of_nat m) s = Ok tt s.
Proof. intros H. apply restrict_nm. rewrite H. destruct D, X; simpl; auto; lia. Qed.

Lemma Dx_safe_iff s X xs D n m alpha : tv_blocks s X xs D n m ->
  safe (l1c_Dx (Z.of_nat n) (Z.of_nat m) alpha X D) s <-> n = 0%nat \/ (1 <= m)%nat.
Proof.
  intros HB. split.
  - intros HS. destruct (decide (1 <= m)%nat); [by right|]. left.
    destruct n as [|n]; [done|]. exfalso. assert (m = 0%nat) as -> by lia.
    destruct HB as (Hl & HM & Hs & HX & HD & Hd).
    destruct (row_fails ddiff_z (S n) 0 alpha X D s) as [e He]; [lia|done| |].
    { exists UbOob. apply ddiff_fail0. by rewrite Nat.mul_0_r in HD. }
    exact (not_safe_ub _ _ _ He HS).
  - intros H. destruct (decide (1 <= m)%nat).
    + eexists _, _. eapply Dx_run; [by eapply tv_blocks_pre|done].
    + assert (n = 0%nat) as -> by lia. exists tt, s. unfold l1c_Dx.
      rewrite (bind_ok _ _ _ _ _ (restrict_0 D X 0 m s eq_refl)). done.
Qed.
Lemma DxT_safe_iff s X xs D n m alpha : tv_blocks s X xs D n m ->
  safe (l1c_DxT (Z.of_nat n) (Z.of_nat m) alpha X D) s <-> n = 0%nat \/ (2 <= m)%nat.
Proof.
  intros HB. split.
  - intros HS. destruct (decide (2 <= m)%nat); [by right|]. left.
    destruct n as [|n]; [done|]. exfalso.
    destruct HB as (Hl & HM & Hs & HX & HD & Hd).
    destruct (row_fails ddiffT_z (S n) m alpha X D s) as [e He]; [lia|done| |].
    { eapply ddiffT_fail; [lia|exact HX]. }
    exact (not_safe_ub _ _ _ He HS).
  - intros H. destruct (decide (2 <= m)%nat).
    + eexists _, _. eapply DxT_run; [by eapply tv_blocks_pre|done].
    + assert (n = 0%nat) as -> by lia. exists tt, s. unfold l1c_DxT.
      rewrite (bind_ok _ _ _ _ _ (restrict_0 D X 0 m s eq_refl)). done.
Qed.
Lemma DxTDx_safe_iff s X xs D n m alpha : tv_blocks s X xs D n m ->
  safe (l1c_DxTDx (Z.of_nat n) (Z.of_nat m) alpha X D) s <-> n = 0%nat \/ (2 <= m)%nat.
Proof.
  intros HB. split.
  - intros HS. destruct (decide (2 <= m)%nat); [by right|]. left.
    destruct n as [|n]; [done|]. exfalso.
    destruct HB as (Hl & HM & Hs & HX & HD & Hd).
    destruct (row_fails ddiff2_z (S n) m alpha X D s) as [e He]; [lia|done| |].
    { eapply ddiff2_fail; [lia|exact HX]. }
    exact (not_safe_ub _ _ _ He HS).
  - intros H. destruct (decide (2 <= m)%nat).
    + eexists _, _. eapply DxTDx_run; [by eapply tv_blocks_pre|done].
    + assert (n = 0%nat) as -> by lia. exists tt, s. unfold l1c_DxTDx.
      rewrite (bind_ok _ _ _ _ _ (restrict_0 D X 0 m s eq_refl)). done.
Qed.
Lemma Dy_safe_iff s X xs D n m alpha : tv_blocks s X xs D n m -> Z.of_nat m <= INT_MAX ->
  safe (l1c_Dy (Z.of_nat n) (Z.of_nat m) alpha X D) s <-> m = 0%nat \/ (1 <= n)%nat.
Proof.
  intros HB Hm. split.
  - intros HS. destruct (decide (1 <= n)%nat); [by right|]. left.
    destruct m as [|m]; [done|]. exfalso. assert (n = 0%nat) as -> by lia.
    destruct HB as (Hl & HM & Hs & HX & HD & Hd).
    apply (not_safe_ub (l1c_Dy (Z.of_nat 0) (Z.of_nat (S m)) alpha X D) s UbOob); [|done].
    unfold l1c_Dy. rewrite (bind_ok _ _ _ _ _ (restrict_0 D X 0 (S m) s eq_refl)).
    change (for_ 0 (Z.of_nat 0 - 1) (Dy_body1 (Z.of_nat (S m)) alpha X D)) with (fun s : st => Ok tt s).
    unfold bind at 1.
    rewrite (bind_ok _ _ _ _ _ (i32_ok ((Z.of_nat 0 - 1) * Z.of_nat (S m)) s ltac:(unfold INT_MAX, INT_MIN in *; lia))).
    rewrite (bind_ok _ _ _ _ _ (i32_ok (Z.of_nat 0 * Z.of_nat (S m)) s ltac:(unfold INT_MAX, INT_MIN in *; lia))).
    apply for_ub_first; [lia|]. unfold Dy_body2. apply sto_out. eapply whole_out; [exact HD|lia].
  - intros H. destruct (decide (1 <= n)%nat).
    + eexists _, _. eapply Dy_run; [by eapply tv_blocks_pre|done].
    + assert (n = 0%nat) as -> by lia. destruct H as [->|]; [|lia].
      exists tt, s. unfold l1c_Dy.
      rewrite (bind_ok _ _ _ _ _ (restrict_0 D X 0 0 s eq_refl)). done.
Qed.
Lemma DyT_safe_iff s X D n m alpha :
  Z.of_nat n <= INT_MAX -> Z.of_nat m <= INT_MAX -> INT_MAX < Z.of_nat (n * m) -> disj D (n * m) X (n * m) ->
  l1c_DyT (Z.of_nat n) (Z.of_nat m) alpha X D s = Ub UbOverflow /\
  l1c_DyTDy (Z.of_nat n) (Z.of_nat m) alpha X D s = Ub UbOverflow.
Proof.
  intros Hn Hm HO Hd. unfold l1c_DyT, l1c_DyTDy.
  rewrite !(bind_ok _ _ _ _ _ (restrict_nm D X n m s Hd)).
  assert (E : i32 (Z.of_nat n * Z.of_nat m) s = Ub UbOverflow).
  { unfold i32, in_int. rewrite (proj2 (andb_false_iff _ _)); [done|]. right. apply Z.leb_gt. lia. }
  split; by apply bind_ub.
Qed.
End tvx.
