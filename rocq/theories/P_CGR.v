(** * Conjugate gradients in exact arithmetic: orthogonality, finite termination, special values. *)
From Coq Require Import ZArith Lia Reals Lra.
From stdpp Require Import base list.
From Verif Require Import Mem P_Mem P_Loop P_Math P_MathR P_TVR P_Touch P_CG L_Sum S_Vec L_Lin L_ER.
Local Open Scope R_scope.
Local Notation sqrt := R_sqrt.sqrt.

(** ** Best-so-far scan *)
Section best.
Context `{N : Num} `{!OrdNum N}.
Lemma ltb_not_nan_r a b : ltb_ a b = true -> isnan b = false.
Proof. intros H. destruct (isnan b) eqn:E; [|done]. rewrite (ltb_nan_r _ _ E) in H. done. Qed.
Lemma ltb_not_nan_l a b : ltb_ a b = true -> isnan a = false.
Proof. intros H. destruct (isnan a) eqn:E; [|done]. rewrite (ltb_nan_l _ _ E) in H. done. Qed.
Lemma besti_min (rel : nat -> T) k j : (j <= k)%nat -> ltb_ (rel j) (rel (besti rel k)) = false.
Proof.
  induction k as [|k IH]; intros Hj; simpl.
  - replace j with 0%nat by lia. apply ltb_irr.
  - destruct (ltb_ (rel (S k)) (rel (besti rel k))) eqn:E.
    + destruct (decide (j = S k)) as [->|]; [apply ltb_irr|].
      apply (ltb_tr _ (rel (besti rel k))); [by eapply ltb_not_nan_r|apply IH; lia|by apply ltb_asym].
    + destruct (decide (j = S k)) as [->|]; [done|apply IH; lia].
Qed.
Lemma besti_first (rel : nat -> T) k i : (i < besti rel k)%nat ->
  isnan (rel i) = true \/ ltb_ (rel (besti rel k)) (rel i) = true.
Proof.
  induction k as [|k IH]; simpl; [lia|].
  destruct (ltb_ (rel (S k)) (rel (besti rel k))) eqn:E; [|auto].
  intros Hi. destruct (isnan (rel i)) eqn:En; [auto|]. right.
  destruct (ltb_ (rel (S k)) (rel i)) eqn:E2; [done|].
  rewrite (ltb_tr _ (rel i) (rel (besti rel k))) in E; auto. apply besti_min. lia.
Qed.
End best.
Lemma besti_const `{N : Num} (rel : nat -> T) k :
  (forall j, (1 <= j <= k)%nat -> ltb_ (rel j) (rel 0%nat) = false) -> besti rel k = 0%nat.
Proof.
  induction k as [|k IH]; intros H; simpl; [done|]. rewrite IH by (intros; apply H; lia).
  rewrite H by lia. done.
Qed.

(** ** Real arithmetic *)
Section real.
Context (n : nat) (L : list R -> list R) (xs bs : list R).
Let C k := @cg_at RN n L xs bs k.
Let r k := @tr RN (C k). Let p k := @tp RN (C k). Let d k : R := @td RN (C k).
Lemma d_ip k : d k = ip n (r k) (r k).
Proof. unfold d, r. destruct k; simpl; apply dot_of_ip. Qed.
Let al k : R := d k / ip n (p k) (L (p k)).
Let be k : R := d (S k) / d k.
Lemma r_S k : r (S k) = @axpy_of RN n (- al k) (L (p k)) (r k).
Proof. unfold r, al. simpl. rewrite dot_of_ip. done. Qed.
Lemma p_S k : p (S k) = @axpby_of RN n 1 (r (S k)) (be k) (p k).
Proof. unfold p, r, be, d, C. cbn [cg_at]. unfold cg_S. cbn [tp tr td tx]. by rewrite one_RN. Qed.
Lemma p_0 : p 0 = r 0. Proof. done. Qed.

Section spd.
Context (Lx : length xs = n).
Context (LL : forall u, length u = n -> length (L u) = n).
Context (Lsym : forall u v, length u = n -> length v = n -> ip n (L u) v = ip n u (L v)).
Context (Lpos : forall u, length u = n -> ip n u u <> 0 -> 0 < ip n u (L u)).
Lemma len_r k : length (r k) = n. Proof. apply (cg_len (N := RN) n L xs bs Lx k). Qed.
Lemma len_p k : length (p k) = n. Proof. apply (cg_len (N := RN) n L xs bs Lx k). Qed.

Definition cg_inv k : Prop :=
  (forall i, (i <= k)%nat -> ip n (p i) (r i) = d i) /\
  (forall i j, (i < j)%nat -> (j <= k)%nat -> ip n (r i) (r j) = 0 /\ ip n (p i) (L (p j)) = 0 /\ ip n (r j) (p i) = 0).
Lemma p_nonzero k : ip n (p k) (r k) = d k -> d k <> 0 -> 0 < ip n (p k) (L (p k)).
Proof.
  intros H Hd. apply Lpos; [apply len_p|]. intros E. apply Hd. rewrite <- H.
  rewrite ip_sym. apply ip_0_r. by apply ip_self_0.
Qed.
Lemma cg_orth k : (forall i, (i < k)%nat -> d i <> 0) -> cg_inv k.
Proof.
  induction k as [|k IH]; intros Hd.
  - split; [|intros; lia]. intros i Hi. replace i with 0%nat by lia. rewrite p_0, d_ip. done.
  - destruct IH as [I1 I2]; [auto|].
    assert (Pk : 0 < ip n (p k) (L (p k))) by (apply p_nonzero; [apply I1; lia|apply Hd; lia]).
    assert (Hdk : d k <> 0) by (apply Hd; lia).
    assert (Hal : al k * ip n (p k) (L (p k)) = d k) by (unfold al; field; lra).
    (* A p_k against r_i *)
    assert (Ar : forall i, (i <= k)%nat -> ip n (L (p k)) (r i) = if (i =? k)%nat then ip n (p k) (L (p k)) else 0).
    { assert (Ap : forall i, (i <= k)%nat -> ip n (L (p k)) (p i) = if (i =? k)%nat then ip n (p k) (L (p k)) else 0).
      { intros i Hi. destruct (Nat.eqb_spec i k) as [->|Hne]; [apply ip_sym|].
        rewrite ip_sym. apply (I2 i k); lia. }
      intros i Hi. destruct i as [|i].
      - rewrite <- p_0. by apply Ap.
      - assert (E : ip n (L (p k)) (p (S i)) = ip n (L (p k)) (r (S i)) + be i * ip n (L (p k)) (p i)).
        { rewrite p_S, ip_axpby_r. lra. }
        rewrite (Ap i) in E by lia. rewrite Ap in E by lia. destruct (Nat.eqb_spec i k); [lia|]. lra. }
    assert (Rr : forall i, (i <= k)%nat -> ip n (r i) (r (S k)) = 0).
    { intros i Hi. rewrite r_S, ip_axpy_r. rewrite (ip_sym n (r i) (L (p k))), Ar by done.
      destruct (Nat.eqb_spec i k) as [->|Hne]; [rewrite <- d_ip; lra|].
      destruct (I2 i k) as (E & _); [lia|lia|]. rewrite E. lra. }
    assert (Rp : forall i, (i <= k)%nat -> ip n (r (S k)) (p i) = 0).
    { intros i Hi. rewrite r_S, ip_axpy_l. rewrite Lsym by apply len_p.
      destruct (decide (i = k)) as [->|Hne].
      - rewrite (ip_sym n (r k)), I1 by lia. lra.
      - destruct (I2 i k) as (_ & E1 & E2); [lia|lia|]. rewrite E2.
        rewrite <- Lsym by apply len_p. rewrite ip_sym, E1. lra. }
    assert (Pr : ip n (p (S k)) (r (S k)) = d (S k)).
    { rewrite p_S, ip_axpby_l. rewrite (ip_sym n (p k)), Rp by lia. rewrite <- d_ip. lra. }
    assert (Pp : forall i, (i <= k)%nat -> ip n (p i) (L (p (S k))) = 0).
    { intros i Hi.
      assert (Pi : 0 < ip n (p i) (L (p i))) by (apply p_nonzero; [apply I1; lia|apply Hd; lia]).
      assert (Hdi : d i <> 0) by (apply Hd; lia).
      assert (Hai : al i <> 0).
      { unfold al. apply Rmult_integral_contrapositive_currified; [done|]. apply Rinv_neq_0_compat. lra. }
      rewrite <- Lsym by apply len_p. rewrite p_S, ip_axpby_r.
      (* alpha_i * A p_i = r_i - r_{i+1} *)
      assert (E : ip n (r (S i)) (r (S k)) = - al i * ip n (L (p i)) (r (S k)) + ip n (r i) (r (S k))) by (rewrite (r_S i), ip_axpy_l; done).
      rewrite (Rr i Hi) in E.
      destruct (decide (i = k)) as [->|Hne].
      - rewrite <- d_ip in E. rewrite (Lsym (p k) (p k)) by apply len_p.
        assert (E' : ip n (L (p k)) (r (S k)) = - d (S k) / al k) by (apply (Rmult_eq_reg_l (al k)); [field_simplify; lra|done]).
        rewrite E'. unfold be, al. field. lra.
      - rewrite Rr in E by lia. rewrite (Lsym (p i) (p k)) by apply len_p.
        destruct (I2 i k) as (_ & E1 & _); [lia|lia|]. rewrite E1.
        assert (al i * ip n (L (p i)) (r (S k)) = 0) by lra.
        assert (ip n (L (p i)) (r (S k)) = 0) by (destruct (Rmult_integral _ _ H); [done|done]). lra. }
    split.
    + intros i Hi. destruct (decide (i = S k)) as [->|]; [done|apply I1; lia].
    + intros i j Hij Hj. destruct (decide (j = S k)) as [->|]; [|apply I2; lia].
      split; [apply Rr; lia|]. split; [apply Pp; lia|apply Rp; lia].
Qed.
Lemma cg_terminates : exists k, (k <= n)%nat /\ d k = 0 /\ forall i, (i < k)%nat -> d i <> 0 /\ 0 < ip n (p i) (L (p i)).
Proof.
  assert (HE : exists k, (k <= n)%nat /\ d k = 0 /\ forall i, (i < k)%nat -> d i <> 0).
  { assert (Hor : forall m, (exists k, (k < m)%nat /\ d k = 0 /\ forall i, (i < k)%nat -> d i <> 0) \/ (forall i, (i < m)%nat -> d i <> 0)).
    { induction m as [|m [(k & Hk & E & Hi)|IH]]; [right; lia| |].
      - left. exists k. auto.
      - destruct (Req_dec (d m) 0) as [E|E].
        + left. exists m. auto.
        + right. intros i Hi. destruct (decide (i = m)) as [->|]; [done|apply IH; lia]. }
    destruct (Hor (S n)) as [(k & Hk & E & Hi)|Hall]; [exists k; split; [lia|auto]|].
    exfalso. assert (S n <= n)%nat; [|lia].
    destruct (cg_orth n) as [_ I2]; [intros; apply Hall; lia|].
    apply (orthogonal_le n (S n) r).
    - intros i j Hi Hj Hne. destruct (decide (i < j)%nat).
      + apply I2; lia.
      + rewrite ip_sym. apply I2; lia.
    - intros i Hi. rewrite <- d_ip. by apply Hall. }
  destruct HE as (k & Hk & E & Hi). exists k. split; [done|]. split; [done|].
  intros i Hlt. split; [by apply Hi|]. apply p_nonzero; [|by apply Hi]. apply (cg_orth k Hi). lia.
Qed.
End spd.
End real.

(** ** Extended reals: any linear operator, special values included *)
(** L is linear on vectors of length n *)
Definition linear (n : nat) (L : list R -> list R) : Prop :=
  (forall u, length u = n -> length (L u) = n) /\
  (forall a u v, length u = n -> length v = n ->
     forall i, (i < n)%nat -> nth i (L (vlin a u 1 v)) 0 = a * nth i (L u) 0 + nth i (L v) 0).
Lemma nth_map_seq (f : nat -> R) k i : (i < k)%nat -> nth i (map f (seq 0 k)) 0 = f i.
Proof.
  intros H. rewrite (nth_indep (map f (seq 0 k)) 0 (f 0%nat)) by (rewrite map_length, seq_length; done).
  rewrite map_nth, seq_nth by done. done.
Qed.
Lemma vlin_axpy n (a : R) (u v : list R) : length u = n -> @axpy_of RN n a u v = vlin a u 1 v.
Proof.
  intros Hu. apply (list_eq_nth n).
  - apply (@axpy_of_len RN).
  - unfold vlin. rewrite map_length, seq_length. done.
  - intros i Hi. rewrite nth_axpy by done. unfold vlin.
    rewrite nth_map_seq by lia. lra.
Qed.

Section ext.
Context (n : nat) (L : list R -> list R) (A : list er -> list er) (xv bv : list R).
Context (HL : linear n L) (HA : forall v, length v = n -> A (fin v) = fin (L v)).
Context (Lx : length xv = n) (Lb : length bv = n) (Hb : ip n bv bv <> 0).
Let C k := @cg_at ER n A (fin xv) (fin bv) k.
Let rel k := @cg_rel ER n A (fin xv) (fin bv) k.
(** r = b - A x *)
Definition resid (x r : list R) : Prop := forall i, (i < n)%nat -> nth i r 0 = nth i bv 0 - nth i (L x) 0.
Definition good (c : @trj ER) : Prop := exists x r p, c = @mkTrj ER (fin x) (fin r) (fin p) (Fin (ip n r r)) /\
  length x = n /\ length r = n /\ length p = n /\ resid x r.
Definition edge (c : @trj ER) : Prop := exists x r pp, c = @mkTrj ER (fin x) (fin r) pp (Fin (ip n r r)) /\
  length x = n /\ length r = n /\ ip n r r = 0 /\ resid x r /\ forall i, (i < n)%nat -> @at_ ER pp i = NaN.
Definition bad (c : @trj ER) : Prop := (forall i, (i < n)%nat -> nonfin (@at_ ER (tr c) i)) /\ pnan (td c).
Lemma n_pos : (0 < n)%nat.
Proof. destruct n; [|lia]. exfalso. apply Hb. done. Qed.
Lemma good_0 : good (C 0).
Proof.
  exists xv, (@axpby_of RN n (@one RN) bv (- @one RN) (L xv)), (@axpby_of RN n (@one RN) bv (- @one RN) (L xv)).
  split.
  - unfold C. simpl cg_at. unfold cg_0. rewrite HA by done. rewrite one_ER.
    change (@opp ER (Fin (@one RN))) with (Fin (- @one RN)). rewrite axpby_fin, dot_fin, dot_of_ip. done.
  - split; [done|]. split; [apply (@axpby_of_len RN)|]. split; [apply (@axpby_of_len RN)|].
    intros i Hi. rewrite nth_axpby by done. rewrite one_RN. lra.
Qed.
Lemma step_good c : good c -> good (@cg_S ER n A c) \/ edge (@cg_S ER n A c) \/ bad (@cg_S ER n A c).
Proof.
  intros (x & r & p & -> & L1 & L2 & L3 & HR). unfold cg_S. cbn [tx tr tp td].
  rewrite HA by done. rewrite dot_fin, dot_of_ip.
  destruct (Req_dec (ip n p (L p)) 0) as [E0|E0].
  - (* p'Ap = 0: alpha is +Inf or NaN *)
    right. right.
    assert (Hnf : nonfin (@opp ER (@div ER (Fin (ip n r r)) (Fin (ip n p (L p)))))).
    { apply nonfin_opp. rewrite E0. simpl. destruct (Req_EM_T 0 0); [|done]. repeat case_match; done. }
    assert (HB : forall i, (i < n)%nat -> nonfin (@at_ ER (@axpy_of ER n (@opp ER (@div ER (Fin (ip n r r)) (Fin (ip n p (L p))))) (fin (L p)) (fin r)) i)).
    { intros i Hi. unfold axpy_of. rewrite (@at_tab ER) by done. apply nonfin_add_l. by apply nonfin_mul_l. }
    split; cbn [tx tr tp td]; [exact HB|]. apply (dot_self_nonfin _ _ 0 n_pos). apply HB. apply n_pos.
  - assert (ED : @div ER (Fin (ip n r r)) (Fin (ip n p (L p))) = Fin (ip n r r / ip n p (L p))) by (by apply div_fin).
    rewrite ED. change (@opp ER (Fin (ip n r r / ip n p (L p)))) with (Fin (- (ip n r r / ip n p (L p)))).
    rewrite !axpy_fin, dot_fin, dot_of_ip.
    set (a := ip n r r / ip n p (L p)). set (x' := @axpy_of RN n a p x). set (r' := @axpy_of RN n (- a) (L p) r).
    assert (HR' : resid x' r').
    { intros i Hi. unfold x', r'. rewrite nth_axpy by done. rewrite (vlin_axpy n) by done.
      rewrite (proj2 HL) by done. rewrite HR by done. lra. }
    destruct (Req_dec (ip n r r) 0) as [Er|Er].
    + right. left. exists x', r'. eexists. split; [reflexivity|].
      split; [apply (@axpy_of_len RN)|]. split; [apply (@axpy_of_len RN)|].
      assert (E' : ip n r' r' = 0).
      { assert (Ea : a = 0) by (unfold a; rewrite Er; lra).
        unfold r'. rewrite Ea. unfold ip. apply Rsum_0. intros i Hi. rewrite nth_axpy by done.
        rewrite (ip_self_0 n r Er i Hi). lra. }
      split; [exact E'|]. split; [exact HR'|].
      intros i Hi. unfold axpby_of. rewrite (@at_tab ER) by done. rewrite E', Er.
      assert (EN : @div ER (Fin 0) (Fin 0) = NaN).
      { simpl. destruct (Req_EM_T 0 0); [|done]. done. }
      rewrite EN. apply er_add_nan_r.
    + left. exists x', r'. exists (@axpby_of RN n (@one RN) r' (ip n r' r' / ip n r r) p).
      split.
      * assert (EB : @div ER (Fin (ip n r' r')) (Fin (ip n r r)) = Fin (ip n r' r' / ip n r r)) by (by apply div_fin).
        rewrite EB, one_ER, axpby_fin. done.
      * split; [apply (@axpy_of_len RN)|]. split; [apply (@axpy_of_len RN)|]. split; [apply (@axpby_of_len RN)|]. exact HR'.
Qed.
Lemma step_bad c : bad c -> bad (@cg_S ER n A c).
Proof.
  intros [H1 H2]. unfold cg_S.
  assert (Hnf : nonfin (@opp ER (@div ER (td c) (@dot_of ER n (tp c) (A (tp c)))))) by (apply nonfin_opp; by apply nonfin_div).
  set (a := @opp ER (@div ER (td c) (@dot_of ER n (tp c) (A (tp c))))) in *.
  assert (HB : forall i, (i < n)%nat -> nonfin (@at_ ER (@axpy_of ER n a (A (tp c)) (tr c)) i)).
  { intros i Hi. unfold axpy_of. rewrite (@at_tab ER) by done. apply nonfin_add_r. by apply H1. }
  split; cbn [tx tr tp td]; [exact HB|]. apply (dot_self_nonfin _ _ 0 n_pos). apply HB. apply n_pos.
Qed.
Lemma step_edge c : edge c -> bad (@cg_S ER n A c).
Proof.
  intros (x & r & pp & -> & L1 & L2 & E0 & HR & HP). unfold cg_S. cbn [tx tr tp td].
  rewrite (dot_nan n pp _ 0 n_pos) by (apply HP, n_pos).
  assert (HB : forall i, (i < n)%nat -> nonfin (@at_ ER (@axpy_of ER n (@opp ER (@div ER (Fin (ip n r r)) NaN)) (A pp) (fin r)) i)).
  { intros i Hi. unfold axpy_of. rewrite (@at_tab ER) by done. done. }
  split; cbn [tx tr tp td]; [exact HB|]. apply (dot_self_nonfin _ _ 0 n_pos). apply HB. apply n_pos.
Qed.
Lemma traj_cases k : good (C k) \/ edge (C k) \/ bad (C k).
Proof.
  induction k as [|k IH]; [left; apply good_0|]. change (C (S k)) with (@cg_S ER n A (C k)).
  destruct IH as [H|[H|H]]; [by apply step_good|right; right; by apply step_edge|right; right; by apply step_bad].
Qed.
Lemma bb_pos : 0 < ip n bv bv. Proof. pose proof (ip_self_nonneg n bv). lra. Qed.
Lemma rel_val k x r pp d : C k = @mkTrj ER x r pp (Fin d) -> 0 <= d -> rel k = Fin (sqrt (d / ip n bv bv)).
Proof.
  intros E Hd. unfold rel, cg_rel. fold (C k). rewrite E. cbn [td]. rewrite dot_fin, dot_of_ip.
  assert (ED : @div ER (Fin d) (Fin (ip n bv bv)) = Fin (d / ip n bv bv)) by (by apply div_fin).
  rewrite ED. apply sqrt_fin. pose proof bb_pos. apply Rmult_le_pos; [done|]. left. by apply Rinv_0_lt_compat.
Qed.
Lemma rel_bad k : bad (C k) -> pnan (rel k).
Proof.
  intros [_ H]. unfold rel, cg_rel. fold (C k). rewrite dot_fin, dot_of_ip. pose proof bb_pos.
  destruct (td (C k)); simpl in *; try done. destruct (Rle_dec 0 (ip n bv bv)); [done|lra].
Qed.
Definition fine (c : @trj ER) : Prop := exists x r pp, c = @mkTrj ER (fin x) (fin r) pp (Fin (ip n r r)) /\ length x = n /\ length r = n /\ resid x r.
Lemma fine_cases k : fine (C k) \/ bad (C k).
Proof.
  destruct (traj_cases k) as [(x & r & p & E & H)|[(x & r & p & E & H)|H]]; [left|left|by right].
  - exists x, r, (fin p). naive_solver.
  - exists x, r, p. naive_solver.
Qed.
Lemma fine_rel k : fine (C k) -> exists d, rel k = Fin d.
Proof. intros (x & r & pp & E & _). eexists. apply (rel_val k _ _ _ _ E). apply ip_self_nonneg. Qed.
Lemma best_fine k : fine (C (besti rel k)).
Proof.
  induction k as [|k IH]; cbn [besti].
  - destruct good_0 as (x & r & p & E & H). exists x, r, (fin p). naive_solver.
  - destruct (@ltb_ ER (rel (S k)) (rel (besti rel k))) eqn:EL; [|done].
    destruct (fine_cases (S k)) as [H|H]; [done|]. exfalso.
    destruct (fine_rel _ IH) as [d Ed]. rewrite Ed in EL.
    pose proof (ltb_pnan _ d (rel_bad _ H)) as EF. simpl in EL. congruence.
Qed.

(** the ER iterates are the real ones until the residual vanishes *)
Let D k := @cg_at RN n L xv bv k.
Lemma real_link k :
  (forall i, (i < k)%nat -> @td RN (D i) <> 0 /\ ip n (@tp RN (D i)) (L (@tp RN (D i))) <> 0) ->
  C k = @mkTrj ER (fin (@tx RN (D k))) (fin (@tr RN (D k))) (fin (@tp RN (D k))) (Fin (@td RN (D k))).
Proof.
  induction k as [|k IH]; intros H.
  - unfold C, D. simpl cg_at. unfold cg_0. rewrite HA by done. rewrite one_ER.
    change (@opp ER (Fin (@one RN))) with (Fin (- @one RN)). rewrite axpby_fin, dot_fin. done.
  - specialize (IH ltac:(intros i Hi; apply H; lia)).
    change (C (S k)) with (@cg_S ER n A (C k)). change (D (S k)) with (@cg_S RN n L (D k)). rewrite IH.
    destruct (H k ltac:(lia)) as [H1 H2].
    assert (LP : length (@tp RN (D k)) = n) by (apply (cg_len (N := RN) n L xv bv Lx k)).
    unfold cg_S. cbn [tx tr tp td]. rewrite HA by done. rewrite dot_fin, dot_of_ip.
    assert (ED : @div ER (Fin (@td RN (D k))) (Fin (ip n (@tp RN (D k)) (L (@tp RN (D k))))) = Fin (@td RN (D k) / ip n (@tp RN (D k)) (L (@tp RN (D k))))) by (by apply div_fin).
    rewrite ED. set (a := @td RN (D k) / ip n (@tp RN (D k)) (L (@tp RN (D k)))).
    change (@opp ER (Fin a)) with (Fin (- a)). rewrite !axpy_fin, dot_fin.
    set (r' := @axpy_of RN n (- a) (L (@tp RN (D k))) (@tr RN (D k))).
    assert (EB : @div ER (Fin (@dot_of RN n r' r')) (Fin (@td RN (D k))) = Fin (@dot_of RN n r' r' / @td RN (D k))) by (by apply div_fin).
    rewrite EB, one_ER, axpby_fin. done.
Qed.
End ext.

Lemma nz_dec n (u : list R) : (exists i, (i < n)%nat /\ nth i u 0 <> 0) \/ (forall i, (i < n)%nat -> nth i u 0 = 0).
Proof.
  induction n as [|n [(i & Hi & H)|IH]]; [right; lia|left; exists i; auto|].
  destruct (Req_dec (nth n u 0) 0) as [E|E].
  - right. intros i Hi. destruct (decide (i = n)) as [->|]; [done|apply IH; lia].
  - left. exists n. auto.
Qed.
(** in real arithmetic the recurrence keeps r = b - L x *)
Lemma real_resid n L xv bv k : linear n L -> length xv = n ->
  resid n L bv (@tx RN (@cg_at RN n L xv bv k)) (@tr RN (@cg_at RN n L xv bv k)).
Proof.
  intros HL Lx. induction k as [|k IH].
  - intros i Hi. cbn [cg_at]. unfold cg_0. cbn [tx tr]. rewrite nth_axpby by done. rewrite one_RN. simpl. lra.
  - destruct (cg_len (N := RN) n L xv bv Lx k) as (L1 & L2 & L3).
    intros i Hi. cbn [cg_at]. unfold cg_S. cbn [tx tr]. rewrite nth_axpy by done. rewrite (vlin_axpy n) by done.
    rewrite (proj2 HL) by done. rewrite IH by done. simpl. lra.
Qed.
