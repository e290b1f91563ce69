(** * The log-barrier solver over the extended reals: feasibility. *)
From Coq Require Import ZArith Lia Reals Lra Psatz.
From stdpp Require Import base numbers list.
From Verif Require Import Mem P_Mem P_Loop P_Math P_MathR P_TVR P_VCL L_Sum L_ER L_Lin S_Newt P_CG P_LineSearch M_Math M_CG M_LineSearch M_Newton P_Newton P_Newt2 P_Newt3.
Local Open Scope R_scope.

(** ** sums *)
Definition absorb (Q : er -> Prop) : Prop := forall a b, Q a \/ Q b -> Q (er_add a b).
Definition isn (e : er) : Prop := e = NaN.
Lemma absorb_nan : absorb isn. Proof. intros a b [->| ->]; [by destruct b|by destruct a]. Qed.
Lemma absorb_nonfin : absorb nonfin. Proof. intros a b [H|H]; [by apply nonfin_add_l|by apply nonfin_add_r]. Qed.
Definition mnan (e : er) : Prop := e = NInf \/ e = NaN.
Lemma absorb_pnan : absorb pnan. Proof. intros a b; destruct a, b; simpl; intros [H|H]; done. Qed.
Lemma absorb_mnan : absorb mnan. Proof. intros a b; unfold mnan; destruct a, b; simpl; intros [[H|H]|[H|H]]; try done; auto. Qed.
Lemma foldi_absorb Q n (g : nat -> er) a i : absorb Q -> (i < n)%nat -> Q (g i) -> Q (foldi n (fun i a => er_add a (g i)) a).
Proof.
  intros HQ Hi Hg. induction n as [|n IH]; [lia|]. cbn [foldi]. apply HQ. destruct (decide (i = n)) as [->|]; [by right|left; apply IH; lia].
Qed.
Lemma fold4_ER (g : er -> er) (xs : list er) q :
  foldi q (fun k sv => @zip4 ER er_add sv (@map4 ER g (@four ER xs k))) (Fin 0, Fin 0, Fin 0, Fin 0)
    = (foldi q (fun k a => er_add a (g (@at_ ER xs (4 * k)%nat))) (Fin 0), foldi q (fun k a => er_add a (g (@at_ ER xs (4 * k + 1)%nat))) (Fin 0),
       foldi q (fun k a => er_add a (g (@at_ ER xs (4 * k + 2)%nat))) (Fin 0), foldi q (fun k a => er_add a (g (@at_ ER xs (4 * k + 3)%nat))) (Fin 0)).
Proof. induction q as [|q IH]; [done|]. cbn [foldi]. rewrite IH. done. Qed.
Lemma zero_E : @zero ER = Fin 0. Proof. unfold zero, ofZ. cbn [lit ER]. f_equal. lra. Qed.
Lemma vsum_ER (g : er -> er) n (xs : list er) : let q := (n / 4)%nat in
  @vsum_of ER g n xs = er_add (foldi (n - 4 * q) (fun i a => er_add a (g (@at_ ER xs (4 * q + i)))) (Fin 0))
   (er_add (er_add (foldi q (fun k a => er_add a (g (@at_ ER xs (4 * k)%nat))) (Fin 0)) (foldi q (fun k a => er_add a (g (@at_ ER xs (4 * k + 1)%nat))) (Fin 0)))
           (er_add (foldi q (fun k a => er_add a (g (@at_ ER xs (4 * k + 2)%nat))) (Fin 0)) (foldi q (fun k a => er_add a (g (@at_ ER xs (4 * k + 3)%nat))) (Fin 0)))).
Proof. intros q. unfold vsum_of. rewrite zero_E. apply (f_equal2 er_add); [done|]. exact (f_equal (@horizontal_add ER) (fold4_ER g xs (n / 4))). Qed.
Lemma vsum_absorb Q g n (xs : list er) i : absorb Q -> (i < n)%nat -> Q (g (@at_ ER xs i)) -> Q (@vsum_of ER g n xs).
Proof.
  intros HQ Hi Hg. rewrite vsum_ER. set (q := (n / 4)%nat). pose proof (Nat.div_mod i 4 ltac:(lia)) as Hd. pose proof (Nat.mod_upper_bound i 4 ltac:(lia)) as Hm.
  pose proof (div4_le n) as H4. fold q in H4.
  destruct (decide (i < 4 * q)%nat) as [Hlt|Hge].
  - apply HQ. right. assert (Hk : (i / 4 < q)%nat) by lia. set (k := (i / 4)%nat) in *.
    destruct (i mod 4)%nat as [|[|[|[|r]]]] eqn:Er; [| | | |lia].
    + apply HQ. left. apply HQ. left. apply (foldi_absorb Q q (fun k => g (@at_ ER xs (4 * k)%nat)) _ k HQ Hk). by replace (4 * k)%nat with i by lia.
    + apply HQ. left. apply HQ. right. apply (foldi_absorb Q q (fun k => g (@at_ ER xs (4 * k + 1)%nat)) _ k HQ Hk). by replace (4 * k + 1)%nat with i by lia.
    + apply HQ. right. apply HQ. left. apply (foldi_absorb Q q (fun k => g (@at_ ER xs (4 * k + 2)%nat)) _ k HQ Hk). by replace (4 * k + 2)%nat with i by lia.
    + apply HQ. right. apply HQ. right. apply (foldi_absorb Q q (fun k => g (@at_ ER xs (4 * k + 3)%nat)) _ k HQ Hk). by replace (4 * k + 3)%nat with i by lia.
  - apply HQ. left. apply (foldi_absorb Q (n - 4 * q) (fun j => g (@at_ ER xs (4 * q + j)%nat)) _ (i - 4 * q) HQ ltac:(lia)). by replace (4 * q + (i - 4 * q))%nat with i by lia.
Qed.
Lemma foldi_add_fin n (g : nat -> er) (h : nat -> R) (a : R) : (forall i, (i < n)%nat -> g i = Fin (h i)) ->
  foldi n (fun i a => er_add a (g i)) (Fin a) = Fin (a + Rsum n h).
Proof.
  intros H. rewrite (foldi_fin n _ (fun i a => a + h i)); [|intros i x Hi; rewrite (H i Hi); done]. f_equal. apply foldi_Rsum.
Qed.
Lemma vsum_fin g n (xs : list er) (h : nat -> R) : (forall i, (i < n)%nat -> g (@at_ ER xs i) = Fin (h i)) -> @vsum_of ER g n xs = Fin (Rsum n h).
Proof.
  intros H. rewrite vsum_ER. set (q := (n / 4)%nat). pose proof (div4_le n) as H4. fold q in H4.
  rewrite (foldi_add_fin _ _ (fun i => h (4 * q + i)%nat)) by (intros; apply H; lia).
  rewrite (foldi_add_fin _ _ (fun k => h (4 * k)%nat)) by (intros; apply H; lia).
  rewrite (foldi_add_fin _ _ (fun k => h (4 * k + 1)%nat)) by (intros; apply H; lia).
  rewrite (foldi_add_fin _ _ (fun k => h (4 * k + 2)%nat)) by (intros; apply H; lia).
  rewrite (foldi_add_fin _ _ (fun k => h (4 * k + 3)%nat)) by (intros; apply H; lia).
  cbn [er_add]. f_equal. replace (Rsum n h) with (Rsum (4 * q + (n - 4 * q)) h) by (f_equal; lia).
  rewrite Rsum_split, Rsum_4, !Rsum_plus. lra.
Qed.

(** ** finite results come from finite arguments *)
Lemma er_mul_Fin a b r : er_mul a b = Fin r -> exists x y, a = Fin x /\ b = Fin y /\ r = x * y.
Proof. destruct a, b; simpl; unfold er_infmul; repeat case_match; try done. intros [= <-]. eauto. Qed.
Lemma er_add_Fin a b r : er_add a b = Fin r -> exists x y, a = Fin x /\ b = Fin y /\ r = x + y.
Proof. destruct a, b; simpl; try done. intros [= <-]. eauto. Qed.
Lemma er_opp_Fin a r : er_opp a = Fin r -> a = Fin (- r).
Proof. destruct a; simpl; try done. intros [= <-]. f_equal. lra. Qed.
Lemma er_log_Fin a r : er_log a = Fin r -> exists x, a = Fin x /\ 0 < x /\ r = ln x.
Proof. destruct a as [x| | |]; simpl; try done. destruct (Rlt_dec x 0); [done|]. destruct (Req_EM_T x 0); [done|]. intros [= <-]. exists x. split; [done|]. split; [lra|done]. Qed.
(** the argument of a logarithm that is a number *)
Definition nneg (e : er) : Prop := match e with Fin r => 0 <= r | PInf => True | _ => False end.
Lemma er_log_num a : er_log a <> NaN -> nneg a.
Proof. destruct a as [x| | |]; simpl; try done. destruct (Rlt_dec x 0); [done|]. intros _. lra. Qed.
Lemma oppone_E : @opp ER one = Fin (-1). Proof. cbn [opp ER one ofZ lit]. unfold one, ofZ. cbn. f_equal. lra. Qed.
Lemma fin_of (xs : list er) : (forall i, (i < length xs)%nat -> exists r, @at_ ER xs i = Fin r) -> exists v, xs = fin v.
Proof.
  induction xs as [|e xs IH]; intros H; [by exists []|]. destruct IH as [v ->].
  { intros i Hi. destruct (H (S i)) as [r Hr]; [simpl; lia|]. by exists r. }
  destruct (H 0%nat) as [r Hr]; [simpl; lia|]. cbn in Hr. subst e. by exists (r :: v).
Qed.
Lemma Rsum_pos_le n f : (forall i, (i < n)%nat -> 0 <= f i) -> 0 <= Rsum n f.
Proof. intros H. induction n as [|n IH]; simpl; [lra|]. assert (0 <= Rsum n f) by (apply IH; intros; apply H; lia). specialize (H n ltac:(lia)). lra. Qed.

(** lengths and values of the residual *)
Lemma nth_vlin a u b v i : (i < length u)%nat -> nth i (vlin a u b v) 0 = a * nth i u 0 + b * nth i v 0.
Proof. intros H. unfold vlin. rewrite (nth_indep _ 0 (a * nth 0 u 0 + b * nth 0 v 0)) by (rewrite map_length, seq_length; done).
  rewrite (map_nth (fun i => a * nth i u 0 + b * nth i v 0)). by rewrite seq_nth. Qed.
Lemma vlin_length a u b v : length (vlin a u b v) = length u.
Proof. unfold vlin. by rewrite map_length, seq_length. Qed.
Lemma axpy_len m (a : R) (u v : list R) : @length R (@axpy_of RN m a u v) = m.
Proof. exact (@tab_length RN m _). Qed.
Lemma axpy_vlin m (a : R) (u v : list R) : length u = m -> @axpy_of RN m a u v = vlin a u 1 v.
Proof.
  intros H. apply (list_eq_nth m); [apply axpy_len|by rewrite vlin_length|]. intros i Hi. rewrite nth_axpy by done. rewrite nth_vlin by lia. lra.
Qed.

Section feas.
Context (m n : nat) (A : list er -> list er) (Ar : list R -> list R) (bv : list R) (e : R).
Context (HL : linmap m n Ar) (HA : forall v, length v = m -> A (fin v) = fin (Ar v)) (Lb : length bv = n).
Notation eps := (Fin e).
Notation res := (@n_res ER n A (fin bv)).
Notation fe := (@n_fe ER n A (fin bv) eps).
Notation fval := (@n_fval ER m n A (fin bv) eps).
Notation sq := (fun x => nrm2sq (resid Ar bv x)).

Lemma resid_length x : length x = m -> length (resid Ar bv x) = n.
Proof. intros H. unfold resid. rewrite vlin_length. by apply HL. Qed.
Lemma res_fin x : length x = m -> res (fin x) = fin (resid Ar bv x).
Proof.
  intros H. unfold n_res. rewrite oppone_E, HA by done. etransitivity; [apply axpy_fin|]. f_equal.
  apply (list_eq_nth n); [apply axpy_len|by apply resid_length|]. intros i Hi. rewrite nth_axpy by done. unfold resid. rewrite nth_vlin by (rewrite (proj1 HL); done). lra.
Qed.
Lemma dot_sq (v : list R) : length v = n -> @dot_of RN n v v = nrm2sq v.
Proof. intros H. etransitivity; [apply dot_of_ip|]. unfold ip, nrm2sq. rewrite H. apply Rsum_ext. intros. ring. Qed.
Lemma half_E : @lit ER 1 2 = Fin (1 / 2). Proof. done. Qed.
Lemma fe_fin x : length x = m -> fe (fin x) = Fin (1 / 2 * (sq x - e * e)).
Proof.
  intros H. unfold n_fe. rewrite res_fin by done. rewrite half_E.
  replace (@dot_of ER n (fin (resid Ar bv x)) (fin (resid Ar bv x))) with (Fin (sq x)); [done|].
  symmetry. etransitivity; [apply dot_fin|]. f_equal. apply dot_sq. by apply resid_length.
Qed.
Lemma f1_at (xs us : list er) i : (i < m)%nat -> @at_ ER (@n_f1 ER m xs us) i = er_add (er_mul (Fin (-1)) (@at_ ER us i)) (@at_ ER xs i).
Proof. intros H. unfold n_f1. rewrite oppone_E. unfold axpy_of. by rewrite at_tab. Qed.
Lemma f2_at (xs us : list er) i : (i < m)%nat -> @at_ ER (@n_f2 ER m xs us) i = er_add (er_mul (Fin (-1)) (@at_ ER xs i)) (er_mul (Fin (-1)) (@at_ ER us i)).
Proof. intros H. unfold n_f2. rewrite oppone_E. unfold axpby_of. by rewrite at_tab. Qed.

(** *** a finite objective value *)
Definition lg (v : er) : er := er_log (er_mul v (Fin (-1))).
Lemma fval_eq tau (xs us : list er) : fval tau xs us =
  er_sub (@vsum_of ER (fun v => v) m us)
    (er_mul (er_div (Fin 1) tau) (er_add (er_add (@vsum_of ER lg m (@n_f1 ER m xs us)) (@vsum_of ER lg m (@n_f2 ER m xs us))) (er_log (er_opp (fe xs))))).
Proof.
  unfold n_fval. rewrite oppone_E. replace (@one ER) with (Fin 1); [done|]. unfold one, ofZ. cbn. f_equal. lra.
Qed.
Lemma vsum_Fin g k (xs : list er) r i : @vsum_of ER g k xs = Fin r -> (i < k)%nat -> exists y, g (@at_ ER xs i) = Fin y.
Proof.
  intros H Hi. destruct (g (@at_ ER xs i)) eqn:E; [eauto|..];
  (assert (Hn : nonfin (@vsum_of ER g k xs)) by (apply (vsum_absorb _ _ _ _ i absorb_nonfin Hi); by rewrite E); by rewrite H in Hn).
Qed.
Lemma nrm2_lt v : 0 <= e -> nrm2sq v < e * e -> nrm2 v < e.
Proof.
  intros He H. unfold nrm2. rewrite <- (sqrt_square e) by done. apply sqrt_lt_1_alt. split; [|done].
  unfold nrm2sq. apply Rsum_pos_le. intros. apply pow2_ge_0.
Qed.
Lemma nrm2_lt_inv v : nrm2 v < e -> 0 < e /\ nrm2sq v < e * e.
Proof.
  intros H. unfold nrm2 in H. assert (0 <= nrm2sq v) by (apply Rsum_pos_le; intros; apply pow2_ge_0).
  pose proof (sqrt_pos (nrm2sq v)). split; [lra|]. rewrite <- (sqrt_def (nrm2sq v)) by done. nra.
Qed.
Lemma fval_finite tau (xs us : list er) r : 0 <= e -> length xs = m -> length us = m -> fval tau xs us = Fin r ->
  exists x u, xs = fin x /\ us = fin u /\ length u = length x /\ strictly_feasible Ar bv e x u.
Proof.
  intros He Lx Lu. rewrite fval_eq. intros H. unfold er_sub in H. apply er_add_Fin in H as (y1 & y2 & H1 & H2 & _).
  apply er_opp_Fin in H2. apply er_mul_Fin in H2 as (c & y3 & _ & H2 & _).
  apply er_add_Fin in H2 as (y4 & y5 & H2 & H3 & _). apply er_add_Fin in H2 as (y6 & y7 & H4 & H5 & _).
  assert (Q : forall i, (i < m)%nat -> exists xi ui, @at_ ER xs i = Fin xi /\ @at_ ER us i = Fin ui /\ Rabs xi < ui).
  { intros i Hi. destruct (vsum_Fin _ _ _ _ i H4 Hi) as (z1 & Z1). destruct (vsum_Fin _ _ _ _ i H5 Hi) as (z2 & Z2).
    apply er_log_Fin in Z1 as (w1 & Z1 & P1 & _). apply er_log_Fin in Z2 as (w2 & Z2 & P2 & _).
    rewrite f1_at in Z1 by done. rewrite f2_at in Z2 by done.
    apply er_mul_Fin in Z1 as (a1 & a2 & Z1 & [= <-] & Ew1). apply er_mul_Fin in Z2 as (a3 & a4 & Z2 & [= <-] & Ew2).
    apply er_add_Fin in Z1 as (b1 & b2 & Z1 & Z1' & Eb1). apply er_mul_Fin in Z1 as (c1 & c2 & [= <-] & Z1 & Ec1).
    apply er_add_Fin in Z2 as (b3 & b4 & Z2 & Z2' & Eb3). apply er_mul_Fin in Z2' as (c3 & c4 & [= <-] & Z2' & Ec3).
    exists b2, c2. split; [done|]. split; [done|]. rewrite Z1 in Z2'. injection Z2' as <-. rewrite Z1' in Z2. cbn in Z2. injection Z2 as <-.
    apply Rabs_def1; lra. }
  destruct (fin_of xs) as [x ->]. { intros i Hi. destruct (Q i ltac:(lia)) as (xi & ui & E & _). eauto. }
  destruct (fin_of us) as [u ->]. { intros i Hi. destruct (Q i ltac:(lia)) as (xi & ui & _ & E & _). eauto. }
  rewrite fin_length in Lx, Lu. exists x, u. split; [done|]. split; [done|]. split; [lia|]. split.
  - intros i Hi. destruct (Q i ltac:(lia)) as (xi & ui & E1 & E2 & Hlt). rewrite at_fin in E1, E2. injection E1 as E1. injection E2 as E2.
    rewrite at_RN in E1, E2. rewrite E1, E2. done.
  - rewrite fe_fin in H3 by done. apply er_log_Fin in H3 as (w & Hw & Pw & _). cbn in Hw. injection Hw as Hw.
    apply nrm2_lt; [done|]. lra.
Qed.
(** the converse: at a strictly feasible point the computed value is the barrier objective *)
Lemma fval_strict (t : R) x u : t <> 0 -> length x = m -> length u = m -> strictly_feasible Ar bv e x u ->
  fval (Fin t) (fin x) (fin u) = Fin (barrier Ar bv e t x u).
Proof.
  intros Ht Lx Lu [H1 H2]. apply nrm2_lt_inv in H2 as [He H2]. rewrite fval_eq. rewrite fe_fin by done.
  rewrite (vsum_fin _ _ _ (fun i => nth i u 0)) by (intros i Hi; rewrite at_fin; by rewrite at_RN).
  rewrite (vsum_fin lg _ _ (fun i => ln (nth i u 0 - nth i x 0))).
  2:{ intros i Hi. rewrite f1_at by done. rewrite !at_fin, !at_RN. cbn. specialize (H1 i ltac:(lia)). apply Rabs_def2 in H1.
      destruct (Rlt_dec _ 0); [exfalso; lra|]. destruct (Req_EM_T _ 0); [exfalso; lra|]. do 2 f_equal. lra. }
  rewrite (vsum_fin lg _ _ (fun i => ln (nth i u 0 + nth i x 0))).
  2:{ intros i Hi. rewrite f2_at by done. rewrite !at_fin, !at_RN. cbn. specialize (H1 i ltac:(lia)). apply Rabs_def2 in H1.
      destruct (Rlt_dec _ 0); [exfalso; lra|]. destruct (Req_EM_T _ 0); [exfalso; lra|]. do 2 f_equal. lra. }
  rewrite div_fin by done. cbn [er_add er_opp er_log er_mul er_sub]. destruct (Rlt_dec _ 0); [exfalso; lra|]. destruct (Req_EM_T _ 0); [exfalso; lra|].
  cbn. f_equal. unfold barrier. rewrite Lx. replace (- (1 / 2 * (sq x - e * e))) with ((e * e - sq x) / 2) by lra. lra.
Qed.
(** *** an objective value that is a number *)
Lemma vsum_num g k (xs : list er) i : @vsum_of ER g k xs <> NaN -> (i < k)%nat -> g (@at_ ER xs i) <> NaN.
Proof. intros H Hi E. apply H. by apply (vsum_absorb isn g k xs i absorb_nan Hi). Qed.
Lemma fval_num tau (xs us : list er) : fval tau xs us <> NaN ->
  (forall i, (i < m)%nat -> exists xi, @at_ ER xs i = Fin xi /\ er_leb (Fin (Rabs xi)) (@at_ ER us i) = true) /\
  exists y, fe xs = Fin y /\ y <= 0.
Proof.
  rewrite fval_eq. intros H.
  assert (H1 : @vsum_of ER lg m (@n_f1 ER m xs us) <> NaN). { intros E. apply H. rewrite E. cbn [er_add]. rewrite er_mul_nan_r. unfold er_sub. cbn [er_opp]. apply er_add_nan_r. }
  assert (H2 : @vsum_of ER lg m (@n_f2 ER m xs us) <> NaN). { intros E. apply H. rewrite E. rewrite er_add_nan_r. cbn [er_add]. rewrite er_mul_nan_r. unfold er_sub. cbn [er_opp]. apply er_add_nan_r. }
  assert (H3 : er_log (er_opp (fe xs)) <> NaN). { intros E. apply H. rewrite E. rewrite er_add_nan_r. cbn [er_add]. rewrite er_mul_nan_r. unfold er_sub. cbn [er_opp]. apply er_add_nan_r. }
  clear H. split.
  - intros i Hi. pose proof (vsum_num _ _ _ i H1 Hi) as Z1. pose proof (vsum_num _ _ _ i H2 Hi) as Z2.
    apply er_log_num in Z1, Z2. rewrite f1_at in Z1 by done. rewrite f2_at in Z2 by done.
    destruct (@at_ ER xs i) as [x| | |], (@at_ ER us i) as [u| | |]; cbn in Z1, Z2; unfold er_infmul in Z1, Z2;
      repeat (destruct (Req_EM_T _ _); try lra); repeat (destruct (Rlt_dec _ _); try lra); cbn in Z1, Z2; unfold er_infmul in Z1, Z2;
      repeat (destruct (Req_EM_T _ _); try lra); repeat (destruct (Rlt_dec _ _); try lra); try done.
    + exists x. split; [done|]. cbn. unfold Rleb. destruct (Rle_dec (Rabs x) u) as [|Hn]; [done|]. exfalso. apply Hn. apply Rabs_le. lra.
    + exists x. split; done.
  - apply er_log_num in H3. unfold n_fe in *. rewrite half_E in *.
    pose proof (dot_self_fp n (res xs)) as Hf. destruct (@dot_of ER n (res xs) (res xs)) as [r| | |]; cbn in *; try done.
    + eexists. split; [done|]. cbn in H3. lra.
    + unfold er_infmul in H3. destruct (Req_EM_T _ _); [lra|]. destruct (Rlt_dec _ _); [done|lra].
Qed.
End feas.
