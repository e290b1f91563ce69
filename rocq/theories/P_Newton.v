(** * Running the pieces of the log-barrier solver: exact results for every arithmetic. *)
From Coq Require Import ZArith Lia.
From stdpp Require Import base numbers gmap list.
From Verif Require Import P_Loop P_Math P_VCL P_Step P_Own P_CG P_LineSearch M_Math M_CG M_LineSearch M_Status M_Newton.
Local Open Scope Z_scope.

(** *** the quantities the solver computes, as functions *)
Section pure.
Context `{N : Num}.
Context (m n : nat) (A B C : list T -> list T) (bs : list T) (eps : T).

Definition n_res (xs : list T) : list T := axpy_of n (opp one) bs (A xs).
Definition n_f1 (xs us : list T) : list T := axpy_of m (opp one) us xs.
Definition n_f2 (xs us : list T) : list T := axpby_of m (opp one) xs (opp one) us.
Definition n_fe (xs : list T) : T :=
  mul (lit 1 2) (sub (dot_of n (n_res xs) (n_res xs)) (mul eps eps)).
Definition n_fval (tau : T) (xs us : list T) : T :=
  sub (vsum_of (fun v => v) m us)
      (mul (div one tau)
           (add (add (vsum_of (fun v => log_ (mul v (opp one))) m (n_f1 xs us))
                     (vsum_of (fun v => log_ (mul v (opp one))) m (n_f2 xs us)))
                (log_ (opp (n_fe xs))))).

(** gradient and Hessian blocks at index i *)
Section hess.
Context (tau fe : T) (f1 f2 atr : list T).
Definition h_ntgz (i : nat) : T :=
  add (sub (div one (at_ f1 i)) (div one (at_ f2 i))) (mul (div one fe) (at_ atr i)).
Definition h_ntgu (i : nat) : T := sub (sub (opp tau) (div one (at_ f1 i))) (div one (at_ f2 i)).
Definition h_s11 (i : nat) : T :=
  add (mul (div one (at_ f1 i)) (div one (at_ f1 i))) (mul (div one (at_ f2 i)) (div one (at_ f2 i))).
Definition h_s12 (i : nat) : T :=
  add (mul (opp (div one (at_ f1 i))) (div one (at_ f1 i))) (mul (div one (at_ f2 i)) (div one (at_ f2 i))).
Definition h_sigx (i : nat) : T := sub (h_s11 i) (div (mul (h_s12 i) (h_s12 i)) (h_s11 i)).
Definition h_w1p (i : nat) : T := sub (h_ntgz i) (mul (div (h_s12 i) (h_s11 i)) (h_ntgu i)).
Definition h_g1 (i : nat) : T := mul (div (opp one) tau) (h_ntgz i).
Definition h_g2 (i : nat) : T := mul (div (opp one) tau) (h_ntgu i).
End hess.
(** the operator given to CG *)
Definition n_H11 (sigx atr : list T) (ofe ofes : T) (z : list T) : list T :=
  xmypz_of m sigx z (axpby_of m (mul (dot_of m atr z) ofes) atr (opp ofe) (C z)).
Definition n_du (s11 s12 ntgu dx : list T) : list T :=
  tab m (fun i => sub (mul (div one (at_ s11 i)) (at_ ntgu i)) (mul (div (at_ s12 i) (at_ s11 i)) (at_ dx i))).

(** first index k = 1 .. mi with rel k < tol, or mi *)
Fixpoint cg_stop (rel : nat -> T) (tol : T) (k mi : nat) : nat :=
  match mi with
  | O => k
  | S j => if ltb_ (rel (S k)) tol then S k else cg_stop rel tol (S k) j
  end.

(** the step bounds *)
Definition n_minstep (f : list T) (d : nat -> T) : T :=
  foldi m (fun i mn => if negb (ltb_ zero (d i)) then mn else dmin mn (div (opp (at_ f i)) (d i))) pinf.
Definition n_root (r Adx : list T) : T :=
  let aqe := dot_of n Adx Adx in
  let bqe := mul two (dot_of n r Adx) in
  let cqe := sub (dot_of n r r) (mul eps eps) in
  let root := div (add (opp bqe) (sqrt_ (sub (mul bqe bqe) (mul (mul (ofZ 4) aqe) cqe)))) (mul two aqe) in
  if isnan root then one else root.
Definition n_maxstep (r f1 f2 dx du : list T) : T :=
  let u1 := n_minstep f1 (fun i => sub (at_ dx i) (at_ du i)) in
  let u2 := n_minstep f2 (fun i => sub (opp (at_ dx i)) (at_ du i)) in
  mul (dmin one (dmin (dmin u1 u2) (n_root r (A dx)))) (lit 99 100).

(** initialisation *)
Definition n_xmax (xs : list T) : T := foldi m (fun i mx => dmax mx (fabs (at_ xs i))) ninf.
Definition n_u0 (xs : list T) : list T :=
  tab m (fun i => add (mul (lit 95 100) (fabs (at_ xs i))) (mul (lit 10 100) (n_xmax xs))).
Definition n_tau0 (xs : list T) : T := dmax (div (ofZ (2 * Z.of_nat m + 1)) (asum_of m xs)) one.
Definition n_stages (xs : list T) (lbtol mu : T) : option Z :=
  toint (ceil_ (div (sub (sub (log_ (add (mul two (ofZ (Z.of_nat m))) one)) (log_ lbtol)) (log_ (n_tau0 xs))) (log_ mu))).
Definition n_infeasible (xs : list T) : bool := ltb_ zero (sub (nrm2_of n (n_res xs)) eps).

(** the descent direction: from tau, the residual and the constraint values, with CG started at dx0 *)
Section dir.
Context (prm : CgParams) (tau fe : T) (rs f1 f2 dx0 du0 : list T).
Definition n_op : list T -> list T := n_H11 (tab m (h_sigx f1 f2)) (B rs) (div one fe) (div one (mul fe fe)).
Definition n_rhs : list T := tab m (h_w1p tau fe f1 f2 (B rs)).
Definition n_rel : nat -> T := cg_rel m n_op dx0 n_rhs.
Definition n_iters : nat := cg_stop n_rel (cgp_tol prm) 0 (Z.to_nat (cgp_max_iter prm)).
Definition n_cg : CgResults :=
  mkCgR (n_rel (besti n_rel n_iters)) (if 0 <=? cgp_max_iter prm then Z.of_nat n_iters else cgp_max_iter prm).
Definition n_dx : list T := tx (cg_at m n_op dx0 n_rhs (besti n_rel n_iters)).
Definition n_cgfail : bool := ltb_ (lit 1 2) (cgres n_cg).
Definition n_dudir : list T :=
  if n_cgfail then du0
  else n_du (tab m (h_s11 f1 f2)) (tab m (h_s12 f1 f2)) (tab m (h_ntgu tau f1 f2)) n_dx.
End dir.
Lemma n_dx_len prm tau fe rs f1 f2 dx0 : length dx0 = m -> length (n_dx prm tau fe rs f1 f2 dx0) = m.
Proof. intros H. unfold n_dx. by apply (cg_len m). Qed.
Lemma n_dudir_len prm tau fe rs f1 f2 dx0 du0 : length du0 = m -> length (n_dudir prm tau fe rs f1 f2 dx0 du0) = m.
Proof. intros H. unfold n_dudir, n_du. destruct n_cgfail; [done|]. apply tab_length. Qed.

Lemma cg_stop_stops rel tol mi k : (forall j, (1 <= j <= k)%nat -> ltb_ (rel j) tol = false) ->
  stops rel tol (k + mi) (cg_stop rel tol k mi).
Proof.
  revert k. induction mi as [|mi IH]; intros k Hk; cbn [cg_stop].
  - rewrite Nat.add_0_r. split; [lia|]. split; [intros j Hj; apply Hk; lia|auto].
  - destruct (ltb_ (rel (S k)) tol) eqn:E.
    + split; [lia|]. split; [intros j Hj; apply Hk; lia|]. right. split; [lia|done].
    + replace (k + S mi)%nat with (S k + mi)%nat by lia. apply IH. intros j Hj.
      destruct (decide (j = S k)) as [->|]; [done|]. apply Hk. lia.
Qed.
Lemma stops_unique rel tol mi K K' : stops rel tol mi K -> stops rel tol mi K' -> K = K'.
Proof.
  intros (H1 & H2 & H3) (G1 & G2 & G3).
  destruct (Nat.lt_trichotomy K K') as [H|[H|H]]; [|done|].
  - destruct H3 as [->|[Ha Hb]]; [lia|]. rewrite G2 in Hb by lia. done.
  - destruct G3 as [->|[Ha Hb]]; [lia|]. rewrite H2 in Hb by lia. done.
Qed.
Lemma stops_cg_stop rel tol mi K : stops rel tol mi K -> K = cg_stop rel tol 0 mi.
Proof. intros H. eapply stops_unique; [exact H|]. apply (cg_stop_stops rel tol mi 0). intros; lia. Qed.
End pure.
Global Hint Unfold n_res n_f1 n_f2 : newton.

(** *** the operators as callbacks, whose invariant may count the calls of the adjoint *)
Section ops.
Context `{N : Num}.
(** s and s' agree on everything the blocks F hold, and on the globals and the environment *)
Definition same_on (F : list nat) (s s' : st) : Prop :=
  (forall b, b ∈ F -> dm s' !! b = dm s !! b /\ im s' !! b = im s !! b /\ pm s' !! b = pm s !! b /\
     om s' !! b = om s !! b /\ al s' b = al s b) /\ gl s' = gl s /\ en s' = en s.
Lemma same_touch F W s s' : touch W s s' -> (forall b, b ∈ W -> b ∉ F) -> same_on F s s'.
Proof.
  intros Ht HW. split; [|split; [apply (t_gl _ _ _ Ht)|apply (t_en _ _ _ Ht)]]. intros b Hb. repeat split.
  - apply (t_dm _ _ _ Ht). intros HbW. by apply (HW b).
  - by rewrite (t_im _ _ _ Ht).
  - by rewrite (t_pm _ _ _ Ht).
  - by rewrite (t_om _ _ _ Ht).
  - by rewrite (t_al _ _ _ Ht).
Qed.
Lemma same_trans F s1 s2 s3 : same_on F s1 s2 -> same_on F s2 s3 -> same_on F s1 s3.
Proof.
  intros (H1 & G1 & E1) (H2 & G2 & E2). split; [|split; congruence].
  intros b Hb. destruct (H1 b Hb) as (a1 & a2 & a3 & a4 & a5), (H2 b Hb) as (b1 & b2 & b3 & b4 & b5). repeat split; congruence.
Qed.
(** The measurement operator A (m unknowns, n measurements), its adjoint B and C = B after A.  They
    may keep private data in the blocks F; [J c] is their invariant after c calls of the adjoint. *)
Record opers (F : list nat) (J : nat -> st -> Prop) (Ax Aty AtAx : ptr -> ptr -> M unit) (m n : nat)
    (A B C : list T -> list T) : Prop := {
  os_ax : forall c, oper F (J c) Ax m n A;
  os_atax : forall c, oper F (J c) AtAx m m C;
  os_aty : forall c s X xs D, J c s -> seg s X xs -> length xs = n -> wok s D m -> disj D m X n ->
    is_aligned s X = true -> is_aligned s D = true -> outside X F -> outside D F ->
    exists s', Aty X D s = Ok tt s' /\ touch F (wr D (B xs) s) s' /\ J (S c) s';
  os_len : forall xs, length xs = n -> length (B xs) = m;
  os_same : forall c s s', J c s -> same_on F s s' -> J c s'
}.
Lemma sto_seg s p xs k v : seg s p xs -> (k < length xs)%nat ->
  sto p (Z.of_nat k) v s = Ok tt (wr p (<[k := v]> xs) s).
Proof.
  intros H Hk. rewrite <- (wr_insert s p xs k v H Hk). apply (sto_wok s p (length xs)); [by apply seg_wok|lia].
Qed.
Lemma touch_wr_both F s s' p zs : touch F s s' -> touch F (wr p zs s) (wr p zs s').
Proof.
  intros Ht. destruct p as [|b o]; [done|]. destruct Ht. split; simpl; try done.
  - intros b' Hb'. destruct (decide (b = b')) as [->|]; [|rewrite !lookup_alter_ne by done; auto].
    rewrite !lookup_alter. by rewrite t_dm.
  - intros b'. destruct (decide (b = b')) as [->|]; [|rewrite !lookup_alter_ne by done; auto].
    rewrite !lookup_alter. specialize (t_len b'). destruct (dm s' !! b'), (dm s !! b'); simpl in *; try done.
    inversion t_len. f_equal. rewrite !inserts_length. done.
Qed.
(** one more entry of an array that is being filled *)
Lemma seg_snoc s b o k f L : seg s (Ptr b o) (tab k f) -> wok s (Ptr b o) L -> (k < L)%nat ->
  seg (wr (Ptr b (o + Z.of_nat k)) [f k] s) (Ptr b o) (tab (S k) f).
Proof.
  intros Hs Hw Hk. change (Ptr b (o + Z.of_nat k)) with (padd (Ptr b o) (Z.of_nat k)).
  rewrite <- (wr_self s (Ptr b o) (tab k f) Hs) at 1. rewrite tab_S.
  replace (Z.of_nat k) with (Z.of_nat (length (tab k f))) at 1 by (by rewrite tab_length).
  assert (wok s (Ptr b o) (length (tab k f ++ [f k]))).
  { eapply wok_le; [exact Hw|]. rewrite app_length, tab_length. simpl. lia. }
  rewrite wr_app' by done. by apply seg_wr.
Qed.
Lemma xmypz_of_len k xs ys zs : length (xmypz_of k xs ys zs) = k.
Proof. apply tab_length. Qed.
End ops.
Global Hint Rewrite @xmypz_of_len : len.

Section runs.
Context `{N : Num}.
Context (m n : nat) (A B C : list T -> list T) (Ax Aty AtAx : ptr -> ptr -> M unit).
Context (F : list nat) (J : nat -> st -> Prop) (HO : opers F J Ax Aty AtAx m n A B C).
Context (P : Prob) (bs : list T) (eps : T).
Context (sc bx bu bb br b1 b2 bw bd be s1 s2 bg bf dw d0 d1 d2 d3 d4 d5 d6 : nat).
Context (EP : P = mkProb (Ptr sc 0) (Z.of_nat m) (Z.of_nat n) (Ptr bb 0) eps
   (Ptr br 0) (Ptr b1 0) (Ptr b2 0) (Ptr bw 0) (Ptr bd 0) (Ptr be 0) (Ptr s1 0) (Ptr s2 0) (Ptr bg 0) (Ptr bf 0) (Ptr dw 0)
   Ax Aty AtAx).

Lemma f_eval_run c s xs us tau v1 v2 :
  NoDup [bx; bu; bb; sc; br; b1; b2] -> (forall b, b ∈ [bx; bu; bb; sc; br; b1; b2] -> b ∉ F) ->
  J c s -> seg s (Ptr bx 0) xs -> seg s (Ptr bu 0) us -> seg s (Ptr bb 0) bs ->
  length xs = m -> length us = m -> length bs = n ->
  seg s (Ptr sc 0) [tau; v1; v2] -> wok s (Ptr br 0) n -> wok s (Ptr b1 0) m -> wok s (Ptr b2 0) m ->
  (forall b, b ∈ [bx; bu; br; b1; b2] -> is_aligned s (Ptr b 0) = true) ->
  exists s', f_eval P (Ptr bx 0) (Ptr bu 0) s = Ok (n_fval m n A bs eps tau xs us) s' /\
    touch ([sc; br; b1; b2] ++ F) s s' /\ J c s' /\
    seg s' (Ptr sc 0) [tau; n_fe n A bs eps xs; n_fval m n A bs eps tau xs us] /\
    seg s' (Ptr br 0) (n_res n A bs xs) /\ seg s' (Ptr b1 0) (n_f1 m xs us) /\ seg s' (Ptr b2 0) (n_f2 m xs us).
Proof.
  intros Hd HF HJ Hx Hu Hb Lx Lu Lb Hs Wr W1 W2 Hal.
  distinct Hd.
  assert (Fx : bx ∉ F) by (apply HF; isin). assert (Fu : bu ∉ F) by (apply HF; isin).
  assert (Fb : bb ∉ F) by (apply HF; isin). assert (Fs : sc ∉ F) by (apply HF; isin).
  assert (Fr : br ∉ F) by (apply HF; isin). assert (F1 : b1 ∉ F) by (apply HF; isin). assert (F2 : b2 ∉ F) by (apply HF; isin).
  assert (AX : is_aligned s (Ptr bx 0) = true) by (apply Hal; isin). assert (AU : is_aligned s (Ptr bu 0) = true) by (apply Hal; isin).
  assert (AR : is_aligned s (Ptr br 0) = true) by (apply Hal; isin). assert (A1 : is_aligned s (Ptr b1 0) = true) by (apply Hal; isin).
  assert (A2 : is_aligned s (Ptr b2 0) = true) by (apply Hal; isin). clear Hal HF Hd.
  assert (TT : touch ([sc; br; b1; b2] ++ F) s s) by apply touch_refl.
  pose proof (os_ax _ _ _ _ _ _ _ _ _ _ HO c) as HA.
  rewrite EP. unfold f_eval. cbn [pb_sc pb_m pb_n pb_b pb_epsilon pb_r pb_fu1 pb_fu2 pb_Ax].
  ostep HA (Ptr bx 0) (Ptr br 0) Lx Hr HJ t1.
  pose proof (daxpy_run t1 n (opp one) _ _ _ _ (src_disj t1 (Ptr br 0) _ _ (Ptr bb 0) _ Lb Hb ltac:(dis)) Hr LA) as E.
  wstep E Hr' t2. clear Hr. rename Hr' into Hr. fold (n_res n A bs xs) in Hr.
  pose proof (daxpy_z_run t2 m (opp one) _ _ _ _ _ AU AX A1 Hu Hx Lu Lx ltac:(dis) ltac:(dis) W1) as E.
  wstep E H1 t3. fold (n_f1 m xs us) in H1.
  pose proof (daxpby_z_run t3 m (opp one) _ _ (opp one) _ _ _ AX AU A2 Hx Hu Lx Lu ltac:(dis) ltac:(dis) W2) as E.
  wstep E H2 t4. fold (n_f2 m xs us) in H2.
  assert (Lr : length (n_res n A bs xs) = n) by (unfold n_res; len).
  rewrite (bind_ok _ _ _ _ _ (ddot_run t4 n _ _ _ _ Hr Hr ltac:(lia) ltac:(lia))).
  match goal with |- context [sto (Ptr sc 0) 1 ?v] => change v with (n_fe n A bs eps xs); set (fe := n_fe n A bs eps xs) end.
  assert (E : sto (Ptr sc 0) 1 fe t4 = Ok tt (wr (Ptr sc 0) [tau; fe; v2] t4)).
  { apply (sto_seg t4 (Ptr sc 0) [tau; v1; v2] 1 fe Hs). simpl. lia. }
  wstep E Hs' t5. clear Hs. rename Hs' into Hs.
  rewrite (bind_ok _ _ _ _ _ (vcl_logsum_run t5 m _ _ _ A1 H1 ltac:(unfold n_f1; len))).
  rewrite (bind_ok _ _ _ _ _ (vcl_logsum_run t5 m _ _ _ A2 H2 ltac:(unfold n_f2; len))).
  rewrite (bind_ok _ _ _ _ _ (ld_seg t5 _ _ 1 Hs ltac:(simpl; lia))).
  rewrite (bind_ok _ _ _ _ _ (vcl_sum_run t5 m _ _ AU Hu ltac:(len))).
  rewrite (bind_ok _ _ _ _ _ (ld_seg t5 _ _ 0 Hs ltac:(simpl; lia))).
  match goal with |- context [sto (Ptr sc 0) 2 ?v] => change v with (n_fval m n A bs eps tau xs us); set (fv := n_fval m n A bs eps tau xs us) end.
  assert (E : sto (Ptr sc 0) 2 fv t5 = Ok tt (wr (Ptr sc 0) [tau; fe; fv] t5)).
  { apply (sto_seg t5 (Ptr sc 0) [tau; fe; v2] 2 fv Hs). simpl. lia. }
  wstep E Hs' t6. clear Hs. rename Hs' into Hs.
  rewrite (ld_seg t6 _ _ 2 Hs ltac:(simpl; lia)).
  exists t6. split; [done|]. auto 10.
Qed.

(** the reduced Hessian is an operator with private data atr and sigx *)
Definition hinv (c : nat) (sigx atr : list T) (s : st) : Prop :=
  J c s /\ seg s (Ptr d0 0) sigx /\ seg s (Ptr d2 0) atr /\ is_aligned s (Ptr d0 0) = true /\ is_aligned s (Ptr d2 0) = true.
Lemma H11_oper c sigx atr ofe ofes : length sigx = m -> length atr = m -> d0 <> d2 -> d0 ∉ F -> d2 ∉ F ->
  oper ([d0; d2] ++ F) (hinv c sigx atr)
    (fun z y => H11pfun (Z.of_nat m) z y (mkHD ofe ofes (Ptr d2 0) (Ptr d0 0) AtAx)) m m (n_H11 m C sigx atr ofe ofes).
Proof.
  intros Ls La Hne F0 F2. pose proof (os_atax _ _ _ _ _ _ _ _ _ _ HO c) as HC. split.
  - intros s X xs D (HJ & Hs & Ha & AL0 & AL2) Hx Lx Wd Hd ALX ALD OX OD.
    assert (E : exists s', H11pfun (Z.of_nat m) X D (mkHD ofe ofes (Ptr d2 0) (Ptr d0 0) AtAx) s = Ok tt s' /\
       touch F (wr D (n_H11 m C sigx atr ofe ofes xs) s) s' /\ J c s').
    2:{ destruct E as (s' & E & Tt & HJ'). exists s'. split; [done|].
        assert (TD : forall b, b ∈ [d0; d2] -> forall v, seg s (Ptr b 0) v -> seg s' (Ptr b 0) v).
        { intros b Hb v Hv.
          assert (b ∉ F) by (repeat (apply elem_of_cons in Hb as [->|Hb]; [assumption|]); by apply elem_of_nil in Hb).
          apply (touch_seg _ _ _ _ _ _ Tt); [done|]. destruct D as [|bD oD]; [done|].
          apply (touch_seg [bD] s); [apply touch_wr; isin| |done].
          cbn [outside] in OD. rewrite not_elem_of_app in OD. destruct OD as [OD _]. apply not_elem_of_cons. split; [|apply not_elem_of_nil].
          intros ->. done. }
        split; [|split; [done|]].
        - eapply touch_weaken; [exact Tt|]. intros b Hb. isin.
        - split; [apply TD; [isin|done]|]. split; [apply TD; [isin|done]|].
          rewrite !(touch_aligned _ _ _ _ Tt), !is_aligned_wr. done. }
    unfold H11pfun. cbn [hd_atr hd_one_by_fe hd_one_by_fe_sqrd hd_AtAx hd_sigx].
    assert (OXF : outside X F). { destruct X; [done|]. cbn [outside] in *. rewrite not_elem_of_app in OX. tauto. }
    assert (ODF : outside D F). { destruct D; [done|]. cbn [outside] in *. rewrite not_elem_of_app in OD. tauto. }
    destruct D as [|bD oD].
    { (* a null destination has no cells: m = 0 *)
      assert (m = 0%nat) as Em. { destruct m as [|m']; [done|]. exfalso. specialize (Wd 0%nat ltac:(lia)). cbn [cell] in Wd. by destruct Wd. }
      rewrite (bind_ok _ _ _ _ _ (ddot_run s m _ _ _ _ Ha Hx ltac:(lia) ltac:(lia))).
      destruct (op_run _ _ _ _ _ _ HC s X xs Null HJ Hx Lx Wd Hd ALX ALD OXF ODF) as (t1 & E & Tt & HJ1).
      rewrite (bind_ok _ _ _ _ _ E). exists t1. rewrite Em. split; [|split; [exact Tt|exact HJ1]].
      unfold l1c_daxpby. 
      rewrite (bind_ok _ _ _ tt t1). 
      2:{ cbn [Z.of_nat]. rewrite (bind_ok _ _ _ _ _ (assume_ok t1 (Ptr d2 0) ltac:(rewrite (touch_aligned _ _ _ _ Tt); done))).
          rewrite (bind_ok _ _ _ _ _ (assume_ok t1 Null eq_refl)).
          rewrite (bind_ok _ _ _ tt t1) by (apply (restrict_ok Null 0 (Ptr d2 0) 0 t1); done). done. }
      done. }
    assert (DX : exists bX oX, X = Ptr bX oX \/ m = 0%nat).
    { destruct X as [|bX oX]; [|exists bX, oX; auto]. exists 0%nat, 0. right. destruct xs as [|v xs]; [done|]. exfalso.
      pose proof (seg_cell _ _ _ 0 Hx ltac:(simpl; lia)). done. }
    assert (Nd : bD <> d0 /\ bD <> d2).
    { cbn [outside] in OD. rewrite not_elem_of_app, !not_elem_of_cons in OD. tauto. }
    destruct Nd as [Nd0 Nd2].
    rewrite (bind_ok _ _ _ _ _ (ddot_run s m _ _ _ _ Ha Hx ltac:(lia) ltac:(lia))).
    destruct (op_run _ _ _ _ _ _ HC s X xs (Ptr bD oD) HJ Hx Lx Wd Hd ALX ALD OXF ODF) as (t1 & E & Tt & HJ1).
    pose proof (op_len _ _ _ _ _ _ HC xs Lx) as LA.
    rewrite (bind_ok _ _ _ _ _ E). clear E.
    assert (S1 : seg t1 (Ptr bD oD) (C xs)).
    { apply (touch_seg _ _ _ _ _ _ Tt); [exact ODF|]. apply seg_wr. by rewrite LA. }
    assert (SX : seg t1 X xs).
    { destruct X as [|bX oX]; [done|]. apply (touch_seg _ _ _ _ _ _ Tt); [exact OXF|].
      apply seg_wr_disj; rewrite ?LA; [done|done|]. by rewrite Lx. }
    assert (SA : seg t1 (Ptr d2 0) atr).
    { apply (touch_seg _ _ _ _ _ _ Tt); [done|]. apply seg_wr_disj; rewrite ?LA; [done|done|]. apply disj_blocks. auto. }
    assert (SS : seg t1 (Ptr d0 0) sigx).
    { apply (touch_seg _ _ _ _ _ _ Tt); [done|]. apply seg_wr_disj; rewrite ?LA; [done|done|]. apply disj_blocks. auto. }
    assert (AL : forall p, is_aligned s p = true -> is_aligned t1 p = true).
    { intros p Hp. by rewrite (touch_aligned _ _ _ _ Tt), is_aligned_wr. }
    rewrite (bind_ok _ _ _ _ _ (daxpby_run t1 m _ _ _ _ _ _ (AL _ AL2) (AL _ ALD) SA S1 La LA ltac:(apply disj_blocks; auto))).
    set (ys := axpby_of m _ atr _ (C xs)).
    assert (Ly : length ys = m) by (unfold ys; len).
    assert (W1 : wok t1 (Ptr bD oD) m) by (rewrite <- LA; by apply seg_wok).
    assert (EV : vcl_dxMy_pz (Z.of_nat m) (Ptr d0 0) X (Ptr bD oD) (wr (Ptr bD oD) ys t1) =
       Ok tt (wr (Ptr bD oD) (xmypz_of m sigx xs ys) (wr (Ptr bD oD) ys t1))).
    { apply vcl_dxMy_pz_run; try (rewrite is_aligned_wr; auto; fail); try assumption.
      - apply seg_wr_disj; rewrite ?Ly; [done|done|]. apply disj_blocks. auto.
      - apply seg_wr_disj; rewrite ?Ly; [done|done|]. by rewrite Lx.
      - apply seg_wr. by rewrite Ly.
      - apply disj_blocks. auto. }
    rewrite EV. clear EV. rewrite wr_overwrite' by (rewrite ?Ly; first [done|len]).
    eexists. split; [done|]. split.
    + unfold n_H11. fold ys.
      rewrite <- (wr_overwrite' s (Ptr bD oD) (C xs)) by (rewrite ?LA; first [done|len]).
      by apply touch_wr_both.
    + apply (op_J _ _ _ _ _ _ HC [bD] t1); [done|apply touch_wr; isin|]. intros b Hb. apply elem_of_cons in Hb as [->|Hb]; [exact ODF|by apply elem_of_nil in Hb].
  - intros W s s' (HJ & Hs & Ha & AL0 & AL2) Ht HW.
    assert (NW : d0 ∉ W /\ d2 ∉ W). { split; intros H; apply (HW _ H); isin. }
    split; [|split; [|split; [|split]]].
    + apply (op_J _ _ _ _ _ _ HC W s); [done|done|]. intros b Hb HbF. apply (HW b Hb). isin.
    + apply (touch_seg _ _ _ _ _ _ Ht); [tauto|done].
    + apply (touch_seg _ _ _ _ _ _ Ht); [tauto|done].
    + by rewrite (touch_aligned _ _ _ _ Ht).
    + by rewrite (touch_aligned _ _ _ _ Ht).
  - intros xs Lx. unfold n_H11. len.
Qed.

(** *** gradient and Hessian blocks *)
Definition hblocks : list nat := [bf; d0; bw; s1; s2; bg].
Lemma hess_grad_run s tau fe v2 f1 f2 atr :
  NoDup [sc; b1; b2; d2; bf; d0; bw; s1; s2; bg] -> 2 * Z.of_nat m <= INT_MAX ->
  seg s (Ptr sc 0) [tau; fe; v2] -> seg s (Ptr b1 0) f1 -> seg s (Ptr b2 0) f2 -> seg s (Ptr d2 0) atr ->
  length f1 = m -> length f2 = m -> length atr = m ->
  wok s (Ptr bf 0) (2 * m) -> (forall b, b ∈ [d0; bw; s1; s2; bg] -> wok s (Ptr b 0) m) ->
  exists s', hess_grad P (Ptr d0 0) (Ptr d2 0) s = Ok tt s' /\ touch hblocks s s' /\
    seg s' (Ptr bf 0) (tab m (h_g1 tau fe f1 f2 atr)) /\ seg s' (Ptr bf (Z.of_nat m)) (tab m (h_g2 tau f1 f2)) /\
    seg s' (Ptr d0 0) (tab m (h_sigx f1 f2)) /\ seg s' (Ptr bw 0) (tab m (h_w1p tau fe f1 f2 atr)) /\
    seg s' (Ptr s1 0) (tab m (h_s11 f1 f2)) /\ seg s' (Ptr s2 0) (tab m (h_s12 f1 f2)) /\
    seg s' (Ptr bg 0) (tab m (h_ntgu tau f1 f2)).
Proof.
  intros Hd Hmax Hsc H1 H2 Ha L1 L2 La Wf HW. distinct Hd. clear Hd.
  rewrite EP. unfold hess_grad. cbn [pb_sc pb_m].
  rewrite (bind_ok _ _ _ _ _ (ld_seg s _ _ 0 Hsc ltac:(simpl; lia))).
  rewrite (bind_ok _ _ _ _ _ (ld_seg s _ _ 1 Hsc ltac:(simpl; lia))).
  change (at_ [tau; fe; v2] (Z.to_nat 0)) with tau. change (at_ [tau; fe; v2] (Z.to_nat 1)) with fe.
  set (PP := mkProb _ _ _ _ _ _ _ _ _ _ _ _ _ _ _ _ _ _ _).
  unfold for_. rewrite Z.sub_0_r, Nat2Z.id.
  destruct (forn_rel (fun i t => touch hblocks s t /\
    seg t (Ptr bf 0) (tab i (h_g1 tau fe f1 f2 atr)) /\ seg t (Ptr bf (Z.of_nat m)) (tab i (h_g2 tau f1 f2)) /\
    seg t (Ptr d0 0) (tab i (h_sigx f1 f2)) /\ seg t (Ptr bw 0) (tab i (h_w1p tau fe f1 f2 atr)) /\
    seg t (Ptr s1 0) (tab i (h_s11 f1 f2)) /\ seg t (Ptr s2 0) (tab i (h_s12 f1 f2)) /\
    seg t (Ptr bg 0) (tab i (h_ntgu tau f1 f2))) m 0 (hess_body PP (Ptr d0 0) (Ptr d2 0) tau fe (div (opp one) tau)) s)
    as (s' & E & HI).
  { split; [apply touch_refl|]. repeat split; apply seg_nil. }
  2:{ rewrite E. exists s'. split; [done|]. exact HI. }
  intros i t Hi (Tt & G1 & G2 & X & Y & S1 & S2 & S3). rewrite Z.add_0_l. unfold hblocks in *.
  assert (Wf' : wok t (Ptr bf 0) (2 * m)) by (by apply (touch_wok _ _ _ _ _ Tt)).
  assert (WX : wok t (Ptr d0 0) m) by (apply (touch_wok _ _ _ _ _ Tt), HW; isin).
  assert (WY : wok t (Ptr bw 0) m) by (apply (touch_wok _ _ _ _ _ Tt), HW; isin).
  assert (WS1 : wok t (Ptr s1 0) m) by (apply (touch_wok _ _ _ _ _ Tt), HW; isin).
  assert (WS2 : wok t (Ptr s2 0) m) by (apply (touch_wok _ _ _ _ _ Tt), HW; isin).
  assert (WS3 : wok t (Ptr bg 0) m) by (apply (touch_wok _ _ _ _ _ Tt), HW; isin).
  assert (T1 : seg t (Ptr b1 0) f1) by (apply (touch_seg _ _ _ _ _ _ Tt); [notin|done]).
  assert (T2 : seg t (Ptr b2 0) f2) by (apply (touch_seg _ _ _ _ _ _ Tt); [notin|done]).
  assert (Ta : seg t (Ptr d2 0) atr) by (apply (touch_seg _ _ _ _ _ _ Tt); [notin|done]).
  clear Hsc H1 H2 Ha Wf HW.
  unfold hess_body. unfold PP. cbn [pb_fu1 pb_fu2 pb_gradf pb_m pb_w1p pb_sig11 pb_sig12 pb_ntgu].
  rewrite (bind_ok _ _ _ _ _ (ld_seg t _ _ (Z.of_nat i) T1 ltac:(lia))).
  rewrite (bind_ok _ _ _ _ _ (ld_seg t _ _ (Z.of_nat i) T2 ltac:(lia))).
  rewrite (bind_ok _ _ _ _ _ (ld_seg t _ _ (Z.of_nat i) Ta ltac:(lia))).
  rewrite !Nat2Z.id. cbv zeta.
  fold (h_ntgz fe f1 f2 atr i) (h_ntgu tau f1 f2 i) (h_s11 f1 f2 i) (h_s12 f1 f2 i).
  fold (h_g1 tau fe f1 f2 atr i) (h_g2 tau f1 f2 i) (h_sigx f1 f2 i) (h_w1p tau fe f1 f2 atr i).
  (* the two halves of gradf *)
  rewrite (bind_ok _ _ _ _ _ (sto_wok t (Ptr bf 0) (2 * m) (Z.of_nat i) _ Wf' ltac:(lia))).
  rewrite (bind_ok _ _ _ (Z.of_nat i + Z.of_nat m) _) by (apply i32_ok; unfold INT_MIN; lia).
  set (t1 := wr (padd (Ptr bf 0) (Z.of_nat i)) [h_g1 tau fe f1 f2 atr i] t).
  assert (C1 : wok t (padd (Ptr bf 0) (Z.of_nat i)) (length [h_g1 tau fe f1 f2 atr i])) by (eapply wok_padd; [exact Wf'|simpl; lia]).
  assert (Wf1 : wok t1 (Ptr bf 0) (2 * m)) by (by apply wok_wr).
  assert (Wh : wok t1 (Ptr bf (Z.of_nat m)) m) by (apply (wok_padd t1 (Ptr bf 0) (2 * m) m m Wf1); lia).
  rewrite (bind_ok _ _ _ _ _ (sto_wok t1 (Ptr bf 0) (2 * m) (Z.of_nat i + Z.of_nat m) (h_g2 tau f1 f2 i) Wf1 ltac:(lia))).
  cbn [padd]. rewrite !Z.add_0_l.
  assert (G1' : seg t1 (Ptr bf 0) (tab (S i) (h_g1 tau fe f1 f2 atr))).
  { unfold t1. apply (seg_snoc t bf 0 i _ (2 * m)); [done|done|lia]. }
  assert (G2' : seg t1 (Ptr bf (Z.of_nat m)) (tab i (h_g2 tau f1 f2))).
  { unfold t1. apply seg_wr_disj; [done|done|]. cbn [padd disj length]. rewrite tab_length. intros _. lia. }
  assert (TT1 : touch [bf] t t1) by (unfold t1; apply touch_wr; isin).
  set (t2 := wr (Ptr bf (Z.of_nat i + Z.of_nat m)) [h_g2 tau f1 f2 i] t1).
  assert (C2 : wok t1 (Ptr bf (Z.of_nat i + Z.of_nat m)) (length [h_g2 tau f1 f2 i])).
  { replace (Ptr bf (Z.of_nat i + Z.of_nat m)) with (padd (Ptr bf 0) (Z.of_nat (i + m))) by (simpl; f_equal; lia).
    eapply wok_padd; [exact Wf1|simpl; lia]. }
  assert (G2'' : seg t2 (Ptr bf (Z.of_nat m)) (tab (S i) (h_g2 tau f1 f2))).
  { unfold t2. rewrite Z.add_comm. apply (seg_snoc t1 bf (Z.of_nat m) i _ m); [done|done|lia]. }
  assert (G1'' : seg t2 (Ptr bf 0) (tab (S i) (h_g1 tau fe f1 f2 atr))).
  { unfold t2. apply seg_wr_disj; [done|done|]. cbn [padd disj length]. rewrite tab_length. intros _. lia. }
  assert (TT2 : touch [bf] t t2) by (eapply touch_trans; [exact TT1|unfold t2; apply touch_wr; isin]).
  clear TT1 G1 G2 G1' G2' C1 C2 Wf1 Wh T1 T2 Ta. clearbody t2. clear t1. 
  xfer TT2. clear TT2 Wf'. rename G1'' into G1, G2'' into G2.
  Ltac hstep t b i t' X WX :=
    rewrite (bind_ok _ _ _ _ _ (sto_wok t (Ptr b 0) _ (Z.of_nat i) _ WX ltac:(lia))); cbn [padd];
    match goal with |- context [wr (Ptr b (0 + Z.of_nat i)) [?v] t] =>
      let HT := fresh "HT" in let X' := fresh "X'" in
      assert (HT : touch [b] t (wr (Ptr b (0 + Z.of_nat i)) [v] t)) by (apply touch_wr; isin);
      pose proof (seg_snoc t b 0 i _ _ X WX ltac:(lia)) as X';
      cbv beta in X'; clear X; rename X' into X;
      remember (wr (Ptr b (0 + Z.of_nat i)) [v] t) as t' eqn:Heqt'; clear Heqt'; xfer HT; clear HT
    end.
  hstep t2 d0 i t3 X WX.
  hstep t3 bw i t4 Y WY.
  hstep t4 s1 i t5 S1 WS1.
  hstep t5 s2 i t6 S2 WS2.
  rewrite (sto_wok t6 (Ptr bg 0) _ (Z.of_nat i) _ WS3 ltac:(lia)). cbn [padd].
  pose proof (seg_snoc t6 bg 0 i _ _ S3 WS3 ltac:(lia)) as S3'.
  eexists. split; [reflexivity|]. 
  assert (HT : touch [bg] t6 (wr (Ptr bg (0 + Z.of_nat i)) [h_ntgu tau f1 f2 i] t6)) by (apply touch_wr; isin).
  clear S3. xfer HT. auto 10.
Qed.

Lemma du_loop s d11 d12 g dx :
  NoDup [s1; s2; bg; bd; be] ->
  seg s (Ptr s1 0) d11 -> seg s (Ptr s2 0) d12 -> seg s (Ptr bg 0) g -> seg s (Ptr bd 0) dx ->
  length d11 = m -> length d12 = m -> length g = m -> length dx = m -> wok s (Ptr be 0) m ->
  for_ 0 (Z.of_nat m) (du_body P) s = Ok tt (wr (Ptr be 0) (n_du m d11 d12 g dx) s) /\
  forall l, l ≡ₚ range 0 (Z.of_nat m) -> for_list l (du_body P) s = for_ 0 (Z.of_nat m) (du_body P) s.
Proof.
  intros Hd H1 H2 Hg Hx L1 L2 Lg Lx We. distinct Hd. clear Hd.
  apply (for_elem m (Ptr be 0) [] [(Ptr s1 0, d11); (Ptr s2 0, d12); (Ptr bg 0, g); (Ptr bd 0, dx)]).
  - intros q zs Hq. repeat (apply elem_of_cons in Hq as [[= -> ->]|Hq]; [split; [assumption|right; split; [assumption|dis]]|]).
    by apply elem_of_nil in Hq.
  - apply seg_nil.
  - done.
  - intros s0 i Hi Hs. rewrite EP. unfold du_body. cbn [pb_sig11 pb_sig12 pb_ntgu pb_dx pb_du].
    rewrite (bind_ok _ _ _ _ _ (Hs (Ptr s1 0) d11 ltac:(isin))), (bind_ok _ _ _ _ _ (Hs (Ptr bg 0) g ltac:(isin))).
    by rewrite (bind_ok _ _ _ _ _ (Hs (Ptr s2 0) d12 ltac:(isin))), (bind_ok _ _ _ _ _ (Hs (Ptr bd 0) dx ltac:(isin))).
Qed.

(** *** the descent direction *)
Definition rows : list (option ptr) :=
  [Some (Ptr d0 0); Some (Ptr d1 0); Some (Ptr d2 0); Some (Ptr d3 0); Some (Ptr d4 0); Some (Ptr d5 0); Some (Ptr d6 0)].
Lemma descent_dir_run c s prm tau fe v2 rs f1 f2 dx0 du0 :
  NoDup [sc; br; b1; b2; bw; bd; be; s1; s2; bg; bf; d0; d2; d3; d4; d5; d6] ->
  (forall b, b ∈ [sc; br; b1; b2; bw; bd; be; s1; s2; bg; bf; d0; d2; d3; d4; d5; d6] -> b ∉ F) ->
  2 * Z.of_nat m <= INT_MAX -> cgp_max_iter prm < INT_MAX ->
  J c s -> seg s (Ptr sc 0) [tau; fe; v2] -> seg s (Ptr br 0) rs -> seg s (Ptr b1 0) f1 -> seg s (Ptr b2 0) f2 ->
  seg s (Ptr bd 0) dx0 -> seg s (Ptr be 0) du0 ->
  length rs = n -> length f1 = m -> length f2 = m -> length dx0 = m -> length du0 = m ->
  wok s (Ptr bf 0) (2 * m) -> (forall b, b ∈ [bw; s1; s2; bg; d0; d2; d3; d4; d5; d6] -> wok s (Ptr b 0) m) ->
  (forall b, b ∈ [br; bw; bd; d0; d2; d3; d4; d5; d6] -> is_aligned s (Ptr b 0) = true) ->
  pm s !! dw = Some rows ->
  exists s', descent_dir P prm s =
      Ok (if n_cgfail m B C prm tau fe rs f1 f2 dx0 then L1C_CGSOLVE_FAILURE else 0, n_cg m B C prm tau fe rs f1 f2 dx0) s' /\
    touch ([bw; bd; be; s1; s2; bg; bf; d0; d2; d3; d4; d5; d6] ++ F) s s' /\ J (S c) s' /\
    seg s' (Ptr bd 0) (n_dx m B C prm tau fe rs f1 f2 dx0) /\
    seg s' (Ptr be 0) (n_dudir m B C prm tau fe rs f1 f2 dx0 du0) /\
    seg s' (Ptr bf 0) (tab m (h_g1 tau fe f1 f2 (B rs))) /\ seg s' (Ptr bf (Z.of_nat m)) (tab m (h_g2 tau f1 f2)).
Proof.
  intros Hd HF Hmax Hmi HJ Hsc Hr H1 H2 Hdx Hdu Lr L1 L2 Ldx Ldu Wf HW Hal Hpm.
  assert (Hn : forall b, b ∈ [sc; br; b1; b2; bw; bd; be; s1; s2; bg; bf; d0; d2; d3; d4; d5; d6] -> b ∉ F) by exact HF.
  distinct Hd. clear Hd.
  assert (Fs : sc ∉ F) by (apply HF; isin). assert (Fr : br ∉ F) by (apply HF; isin).
  assert (F1 : b1 ∉ F) by (apply HF; isin). assert (F2 : b2 ∉ F) by (apply HF; isin).
  assert (Fw : bw ∉ F) by (apply HF; isin). assert (Fd : bd ∉ F) by (apply HF; isin).
  assert (Fe : be ∉ F) by (apply HF; isin). assert (Fs1 : s1 ∉ F) by (apply HF; isin).
  assert (Fs2 : s2 ∉ F) by (apply HF; isin). assert (Fg : bg ∉ F) by (apply HF; isin).
  assert (Ff : bf ∉ F) by (apply HF; isin). assert (Fd0 : d0 ∉ F) by (apply HF; isin).
  assert (Fd2 : d2 ∉ F) by (apply HF; isin). assert (Fd3 : d3 ∉ F) by (apply HF; isin).
  assert (Fd4 : d4 ∉ F) by (apply HF; isin). assert (Fd5 : d5 ∉ F) by (apply HF; isin).
  assert (Fd6 : d6 ∉ F) by (apply HF; isin). clear HF Hn.
  assert (TT : touch ([bw; bd; be; s1; s2; bg; bf; d0; d2; d3; d4; d5; d6] ++ F) s s) by apply touch_refl.
  pose proof (os_atax _ _ _ _ _ _ _ _ _ _ HO (S c)) as HC.
  rewrite EP. unfold descent_dir.
  cbn [pb_sc pb_DWORK7 pb_Aty pb_r pb_AtAx pb_m pb_dx pb_w1p].
  rewrite (bind_ok _ _ _ _ _ (ld_seg s _ _ 1 Hsc ltac:(simpl; lia))). change (at_ [tau; fe; v2] (Z.to_nat 1)) with fe.
  rewrite (bind_ok _ _ _ (Ptr d0 0) s) by (by apply (ldp_ok s dw rows 0)).
  rewrite (bind_ok _ _ _ (Ptr d1 0) s) by (by apply (ldp_ok s dw rows 1)).
  rewrite (bind_ok _ _ _ (Ptr d2 0) s) by (by apply (ldp_ok s dw rows 2)).
  destruct (os_aty _ _ _ _ _ _ _ _ _ _ HO c s (Ptr br 0) rs (Ptr d2 0)) as (t1 & E & HT & HJ1); try assumption; try (apply Hal; isin).
  { apply HW; isin. } { dis. }
  pose proof (os_len _ _ _ _ _ _ _ _ _ _ HO rs Lr) as LB.
  rewrite (bind_ok _ _ _ _ _ E). clear E HJ.
  assert (W2 : wok s (Ptr d2 0) m) by (apply HW; isin).
  assert (Ha : seg t1 (Ptr d2 0) (B rs)) by (apply (seg_of_wr _ _ _ _ _ _ HT); [assumption|by rewrite LB]).
  apply touch_of_wr in HT.
  assert (HW1 : forall b, b ∈ [bw; s1; s2; bg; d0; d2; d3; d4; d5; d6] -> wok t1 (Ptr b 0) m)
    by (intros b Hb; apply (touch_wok _ _ _ _ _ HT); by apply HW).
  assert (Hal1 : forall b, b ∈ [br; bw; bd; d0; d2; d3; d4; d5; d6] -> is_aligned t1 (Ptr b 0) = true)
    by (intros b Hb; rewrite (touch_aligned _ _ _ _ HT); by apply Hal).
  clear HW Hal W2. xfer HT. clear HT.
  destruct (hess_grad_run t1 tau fe v2 f1 f2 (B rs)) as (t2 & E & HT & G1 & G2 & X & Y & S1 & S2 & S3); try assumption.
  { repeat (apply NoDup_cons; split; [notin|]). apply NoDup_nil; done. }
  { intros b Hb. apply HW1. repeat (apply elem_of_cons in Hb as [->|Hb]; [isin|]). by apply elem_of_nil in Hb. }
  rewrite EP in E. rewrite (bind_ok _ _ _ _ _ E). clear E. unfold hblocks in HT.
  assert (HW2 : forall b, b ∈ [bw; s1; s2; bg; d0; d2; d3; d4; d5; d6] -> wok t2 (Ptr b 0) m)
    by (intros b Hb; apply (touch_wok _ _ _ _ _ HT); by apply HW1).
  assert (Hal2 : forall b, b ∈ [br; bw; bd; d0; d2; d3; d4; d5; d6] -> is_aligned t2 (Ptr b 0) = true)
    by (intros b Hb; rewrite (touch_aligned _ _ _ _ HT); by apply Hal1).
  clear HW1 Hal1. xfer HT. 
  assert (HJ2 : J (S c) t2) by exact HJ1.
  clear HT HJ1.
  set (sx := tab m (h_sigx f1 f2)) in *. set (w := tab m (h_w1p tau fe f1 f2 (B rs))) in *.
  assert (Lsx : length sx = m) by (unfold sx; len). assert (Lw : length w = m) by (unfold w; len).
  pose proof (H11_oper (S c) sx (B rs) (div one fe) (div one (mul fe fe)) Lsx LB ltac:(neq) Fd0 Fd2) as HH.
  match type of HH with oper ?F0 ?J0 ?o _ _ ?A0 => destruct (cgsolve_run m bd bw d3 d4 d5 d6 (Ptr dw 3) F0 J0 o A0 t2 dx0 w prm) as (K & t3 & HS & E & Sdx & HT & HJ3) end; try exact HH; try assumption.
  { repeat (apply NoDup_cons; split; [notin|]). apply NoDup_nil; done. }
  { intros b Hb. repeat (apply elem_of_cons in Hb as [->|Hb]; [notin|]). by apply elem_of_nil in Hb. }
  { split; [done|]. split; [done|]. split; [done|]. split; apply Hal2; isin. }
  { apply HW2; isin. } { apply HW2; isin. } { apply HW2; isin. } { apply HW2; isin. }
  { intros b Hb. apply Hal2. repeat (apply elem_of_cons in Hb as [->|Hb]; [isin|]). by apply elem_of_nil in Hb. }
  { unfold ldp. simpl. by rewrite Hpm. } { unfold ldp. simpl. by rewrite Hpm. }
  { unfold ldp. simpl. by rewrite Hpm. } { unfold ldp. simpl. by rewrite Hpm. }
  cbv zeta in E, Sdx. change (padd (Ptr dw 0) 3) with (Ptr dw 3).
  rewrite (bind_ok _ _ _ _ _ E). clear E.
  assert (EK : K = n_iters m B C prm tau fe rs f1 f2 dx0) by (by apply stops_cg_stop).
  subst K. clear HS.
  match goal with |- context [mkCgR ?a ?b] => change (mkCgR a b) with (n_cg m B C prm tau fe rs f1 f2 dx0) end.
  change (tx _) with (n_dx m B C prm tau fe rs f1 f2 dx0) in Sdx.
  assert (HJ4 : J (S c) t3) by apply HJ3. clear HJ3 HH.
  assert (Ldx' : length (n_dx m B C prm tau fe rs f1 f2 dx0) = m) by (by apply n_dx_len).
  clear Hdx. xfer HT. clear HT.
  change (ltb_ (lit 1 2) (cgres (n_cg m B C prm tau fe rs f1 f2 dx0))) with (n_cgfail m B C prm tau fe rs f1 f2 dx0).
  unfold n_dudir. destruct (n_cgfail m B C prm tau fe rs f1 f2 dx0).
  - exists t3. split; [done|]. auto 10.
  - destruct (du_loop t3 _ _ _ _ ltac:(repeat (apply NoDup_cons; split; [notin|]); apply NoDup_nil; done) S1 S2 S3 Sdx ltac:(len) ltac:(len) ltac:(len) Ldx' ltac:(wokt)) as [E _].
    rewrite EP in E. rewrite (bind_ok _ _ _ _ _ E). clear E.
    set (dus := n_du _ _ _ _ _).
    assert (Lu : length dus = m) by (unfold dus, n_du; len).
    pose proof (op_J _ _ _ _ _ _ HC [be] t3 (wr (Ptr be 0) dus t3) HJ4 ltac:(apply touch_wr; isin) ltac:(avoid)) as HJ5.
    assert (HT : touch [be] t3 (wr (Ptr be 0) dus t3)) by (apply touch_wr; isin).
    assert (Sdu : seg (wr (Ptr be 0) dus t3) (Ptr be 0) dus) by (apply seg_wr; rewrite Lu; wokt).
    clear HJ4 Hdu. xfer HT. eexists. split; [done|]. auto 10.
Qed.
End runs.
