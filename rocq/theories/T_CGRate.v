(** * C81: how fast the conjugate-gradient solver converges (src/cgsolve.c:63-161). *)
From Coq Require Import ZArith Lia Reals Lra.
From stdpp Require Import base numbers gmap list.
From Verif Require Import Mem M_Math M_CG P_Mem P_Loop P_Math S_Mem P_Touch P_Step P_Memory P_MathR P_TVR P_CG P_CGR L_Sum S_Vec L_Lin L_ER P_CGRate T_CG.
Local Open Scope Z_scope.

(** ** Specification *)
Section spec.
Local Open Scope R_scope.
(** every eigenvalue of the symmetric L lies in [lo, hi] *)
Definition spectrum_in (n : nat) (L : list R -> list R) (lo hi : R) : Prop :=
  forall v, length v = n -> lo * dot v v <= dot v (L v) <= hi * dot v v.
(** b - L x, and the energy (x-z)' L (x-z) *)
Definition left_over (L : list R -> list R) (b x : list R) : list R := vlin 1 b (-1) (L x).
Definition energy (L : list R -> list R) (x z : list R) : R := dot (vlin 1 x (-1) z) (L (vlin 1 x (-1) z)).
(** what k iterations are worth; hi/lo is the condition number *)
Definition cg_factor (lo hi : R) (k : nat) : R := 2 * (1 - R_sqrt.sqrt (lo / hi)) ^ k.
End spec.

Section proof.
Local Open Scope R_scope.
Context (n : nat) (L : list R -> list R) (lo hi : R).
Lemma spd_ip : spd n L -> spectrum_in n L lo hi ->
  (forall u v, length u = n -> length v = n -> ip n (L u) v = ip n u (L v)) /\
  (forall u, length u = n -> lo * ip n u u <= ip n u (L u) <= hi * ip n u u).
Proof.
  intros ((HLL & _) & Hs & _) HB. split.
  - intros u v Hu Hv. rewrite !ip_dot; auto.
  - intros u Hu. rewrite !ip_dot by done. by apply HB.
Qed.
Lemma lo_le_hi : (0 < n)%nat -> spectrum_in n L lo hi -> lo <= hi.
Proof.
  intros Hn HB. destruct (HB (repeat 1 n) (repeat_length _ _)) as [B1 B2].
  assert (0 < dot (repeat 1 n) (repeat 1 n)).
  { rewrite <- (ip_dot n) by apply repeat_length. pose proof (ip_self_nonneg n (repeat 1 n)).
    enough (ip n (repeat 1 n) (repeat 1 n) <> 0) by lra. apply nz_ip; [apply repeat_length|]. exists 0%nat. destruct n; [lia|]. simpl. lra. }
  nra.
Qed.
Lemma ip_left_over b x r : length b = n -> length r = n -> resid n L b x r -> ip n r r = dot (left_over L b x) (left_over L b x).
Proof. intros Lb Lr HR. unfold left_over. rewrite <- (resid_vlin n L b x r) by done. by apply ip_dot. Qed.
Lemma energy_ip x z : length x = n -> energy L x z = ip n (@axpby_of RN n 1 x (-1) z) (L (@axpby_of RN n 1 x (-1) z)).
Proof.
  intros Lx. unfold energy. replace (@axpby_of RN n 1 x (-1) z) with (vlin 1 x (-1) z).
  - rewrite ip_dot; [done|]. unfold vlin. by rewrite map_length, seq_length.
  - apply (list_eq_nth n); [unfold vlin; by rewrite map_length, seq_length|apply (@tab_length RN)|].
    intros i Hi. rewrite nth_axpby by done. unfold vlin. rewrite nth_map_seq by lia. done.
Qed.
End proof.

(** ** The call.  L is symmetric positive definite with spectrum in [lo, hi], b is not zero, the tolerance t is
    positive. *)
Theorem C81_cg_rate (n : nat) (bx bb br bp bh bq wb : nat) F J ax A (s : @st ER) (xv bv : list R) prm (L : list R -> list R) (lo hi t : R) :
  @cg_call ER n bx bb br bp bh bq wb F J ax A s (fin xv) (fin bv) -> @cgp_max_iter ER prm < INT_MAX -> 0 <= @cgp_max_iter ER prm ->
  spd n L -> (0 < lo)%R -> spectrum_in n L lo hi -> (forall v, length v = n -> A (fin v) = fin (L v)) ->
  (exists i, nth i bv 0%R <> 0%R) -> @cgp_tol ER prm = Fin t -> (0 < t)%R -> (exists i, nth i (L xv) 0%R <> nth i bv 0%R) ->
  exists res s' xv' K, @cgsolve ER (Z.of_nat n) (Ptr bx 0) (Ptr bb 0) (Ptr wb 0) ax prm s = Ok res s' /\
    length xv' = n /\ @seg ER s' (Ptr bx 0) (fin xv') /\
    (* K iterations were made and the reported number is the relative residual of the result *)
    @cgiter ER res = Z.of_nat K /\ Z.of_nat K <= @cgp_max_iter ER prm /\ @cgres ER res = Fin (nrm2 (left_over L bv xv') / nrm2 bv) /\
    (* the residual after K iterations *)
    (nrm2sq (left_over L bv xv') <= hi / lo * cg_factor lo hi K * nrm2sq (left_over L bv xv))%R /\
    (* the solution xst exists, the result is not further from it than the start *)
    (exists xst, length xst = n /\ L xst = bv) /\
    (forall xst, length xst = n -> L xst = bv -> (energy L xv' xst <= energy L xv xst)%R) /\
    (* if the bound for some k <= max_iter is below the tolerance, then CG stops at k or earlier, below the tolerance *)
    (forall k, (1 <= k)%nat -> Z.of_nat k <= @cgp_max_iter ER prm ->
       (hi / lo * cg_factor lo hi k * nrm2sq (left_over L bv xv) < t ^ 2 * nrm2sq bv)%R ->
       (K <= k)%nat /\ (nrm2 (left_over L bv xv') / nrm2 bv < t)%R).
Proof.
  intros HC Hm Hm0 Hspd Hlo HB HA Hb Et Htp (i0 & Hi0).
  pose proof Hspd as (HL & Hs & Hp). pose proof (proj1 HL) as HLL. destruct (spd_ip n L lo hi Hspd HB) as [Isym Ibnd].
  pose proof (cc_len _ _ _ _ _ _ _ _ _ _ _ _ _ _ _ HC) as [Lx Lb]. rewrite fin_length in Lx, Lb.
  pose proof (nz_ip n bv Lb Hb) as Hbb. pose proof (bb_pos n bv Hbb) as Hpos.
  assert (Hn : (0 < n)%nat).
  { destruct n; [|lia]. destruct Hb as (i & Hi). destruct bv; [destruct i; done|done]. }
  pose proof (lo_le_hi n L lo hi Hn HB) as Hle. assert (Hhi : (0 < hi)%R) by lra.
  set (D := fun k => @cg_at RN n L xv bv k).
  assert (LD : forall k, length (@tx RN (D k)) = n /\ length (@tr RN (D k)) = n /\ length (@tp RN (D k)) = n) by (intros k; apply (cg_len (N := RN) n L xv bv Lx k)).
  assert (Ipos : forall u, length u = n -> ip n u u <> 0%R -> (0 < ip n u (L u))%R).
  { intros u Hu Hne. rewrite ip_dot by done. apply Hp; [done|].
    destruct (nz_dec n u) as [(i & _ & H)|H]; [by exists i|]. destruct Hne. by apply ip_0_r. }
  destruct (cg_terminates n L xv bv Lx Isym Ipos) as (k0 & Hk0 & E0 & Hi0').
  assert (Ed : forall k, @td RN (D k) = ip n (@tr RN (D k)) (@tr RN (D k))) by (intros; apply d_ip).
  assert (Hres : forall k, resid n L bv (@tx RN (D k)) (@tr RN (D k))) by (intros; by apply real_resid).
  (* the solution *)
  assert (Hst : exists xst, length xst = n /\ L xst = bv).
  { exists (@tx RN (D k0)). split; [apply LD|]. apply (list_eq_nth n); [apply HLL; apply LD|done|]. intros i Hi.
    pose proof (Hres k0 i Hi) as Q. assert (E0' : @td RN (D k0) = 0%R) by exact E0. rewrite Ed in E0'. rewrite (ip_self_0 n _ E0' i Hi) in Q. lra. }
  assert (Hk1 : (1 <= k0)%nat).
  { destruct k0 as [|k0]; [|lia]. exfalso. apply Hi0. destruct (decide (i0 < n)%nat) as [Hi|Hi].
    - assert (E0' : @td RN (D 0%nat) = 0%R) by exact E0. rewrite Ed in E0'. pose proof (Hres 0%nat i0 Hi) as HR0.
      rewrite (ip_self_0 n _ E0' i0 Hi) in HR0. change (@tx RN (D 0%nat)) with xv in HR0. lra.
    - rewrite !nth_overflow; [done|lia|rewrite HLL by done; lia]. }
  destruct (@cg_facts ER _ _ _ _ _ _ _ _ _ _ _ _ _ _ _ prm HC Hm) as (K & s' & (HK & Hno & Hstop) & E & Sx & Ht & HJ).
  set (rel := @cg_rel ER n A (fin xv) (fin bv)) in *.
  (* up to k0 the iterates are the real ones *)
  assert (HD : forall j, (j <= k0)%nat -> @cg_at ER n A (fin xv) (fin bv) j = @mkTrj ER (fin (@tx RN (D j))) (fin (@tr RN (D j))) (fin (@tp RN (D j))) (Fin (@td RN (D j)))).
  { intros j Hj. apply (real_link n L A xv bv HA Lx Lb j). intros i Hi. destruct (Hi0' i ltac:(lia)) as [Q1 Q2].
    split; [exact Q1|apply Rgt_not_eq; exact Q2]. }
  assert (Erel : forall j, (j <= k0)%nat -> rel j = Fin (R_sqrt.sqrt (@td RN (D j) / ip n bv bv))).
  { intros j Hj. eapply (rel_val n A xv bv Hbb j); [by rewrite HD|]. rewrite Ed. apply ip_self_nonneg. }
  assert (HKk : (K <= k0)%nat).
  { destruct (decide (K <= k0)%nat) as [|Hgt]; [done|]. specialize (Hno k0 ltac:(lia)). rewrite Erel, Et in Hno by lia.
    assert (E0' : @td RN (D k0) = 0%R) by exact E0. rewrite E0' in Hno. unfold Rdiv in Hno. rewrite Rmult_0_l, sqrt_0 in Hno. simpl in Hno. apply Rltb_false in Hno. lra. }
  assert (Hnz : forall i, (i < k0)%nat -> @td RN (D i) <> 0%R) by (intros i Hi; by destruct (Hi0' i Hi)).
  set (k := besti rel K) in *. assert (Hk : (k <= K)%nat) by apply besti_le.
  assert (Edot : forall j, @td RN (D j) = nrm2sq (left_over L bv (@tx RN (D j)))).
  { intros j. rewrite Ed. rewrite (ip_left_over n L bv (@tx RN (D j))); [|done|apply LD|apply Hres].
    unfold dot, nrm2sq. apply Rsum_ext. intros. lra. }
  assert (Ebb : ip n bv bv = nrm2sq bv) by (unfold ip, nrm2sq; rewrite Lb; apply Rsum_ext; intros; lra).
  (* the result is at least as good as the last iterate *)
  assert (Hmin : forall j, (j <= K)%nat -> (@td RN (D k) <= @td RN (D j))%R).
  { intros j Hj. assert (Q : @ltb_ ER (rel j) (rel k) = false) by (by apply besti_min). rewrite !Erel in Q by lia. simpl in Q. apply Rltb_false in Q.
    apply sqrt_le_0 in Q; [| |].
    - apply (Rmult_le_reg_r (/ ip n bv bv)); [by apply Rinv_0_lt_compat|exact Q].
    - apply Rmult_le_pos; [rewrite Ed; apply ip_self_nonneg|left; by apply Rinv_0_lt_compat].
    - apply Rmult_le_pos; [rewrite Ed; apply ip_self_nonneg|left; by apply Rinv_0_lt_compat]. }
  assert (Hrate : forall j, (j <= k0)%nat -> (@td RN (D j) <= hi / lo * cg_factor lo hi j * nrm2sq (left_over L bv xv))%R).
  { intros j Hj. destruct Hst as (xst & Lst & Est).
    assert (Q : (ip n (@tr RN (D j)) (@tr RN (D j)) <= 2 * (hi / lo) * (1 - R_sqrt.sqrt (lo / hi)) ^ j * ip n (@tr RN (D 0%nat)) (@tr RN (D 0%nat)))%R)
      by exact (resid_rate n L lo hi HL Isym Hlo Ibnd xv bv xst Lx Lst ltac:(by rewrite Est) k0 Hnz j Hj Hhi Hle).
    rewrite <- !Ed in Q. assert (E00 : @td RN (D 0%nat) = nrm2sq (left_over L bv xv)) by exact (Edot 0%nat). rewrite E00 in Q. unfold cg_factor. lra. }
  eexists _, s', (@tx RN (D k)), K. split; [exact E|]. split; [apply LD|]. cbn [cgiter cgres]. rewrite (proj2 (Z.leb_le 0 _)) by lia.
  split; [rewrite HD in Sx by lia; exact Sx|]. split; [done|]. split; [lia|].
  assert (Enrm : (nrm2 (left_over L bv (@tx RN (D k))) / nrm2 bv)%R = R_sqrt.sqrt (@td RN (D k) / ip n bv bv)).
  { rewrite Edot, Ebb. unfold nrm2. symmetry. apply sqrt_div; [|rewrite <- Ebb; done]. unfold nrm2sq. apply Rsum_nonneg. intros. apply pow2_ge_0. }
  split; [rewrite Enrm; apply Erel; lia|].
  split; [rewrite <- Edot; apply (Rle_trans _ (@td RN (D K))); [by apply Hmin|by apply Hrate]|].
  split; [done|]. split.
  - intros xst Lst Est. rewrite !(energy_ip n) by (done || apply LD).
    assert (Hmono : forall j, (j <= k0)%nat -> (ip n (@axpby_of RN n 1 (@tx RN (D j)) (-1) xst) (L (@axpby_of RN n 1 (@tx RN (D j)) (-1) xst)) <=
       ip n (@axpby_of RN n 1 xv (-1) xst) (L (@axpby_of RN n 1 xv (-1) xst)))%R).
    { induction j as [|j IH]; intros Hj; [apply Rle_refl|].
      eapply Rle_trans; [|apply IH; lia].
      apply (energy_mono n L lo hi HL Isym Hlo Ibnd xv bv xst Lx Lst ltac:(by rewrite Est) k0 Hnz j). lia. }
    apply Hmono. lia.
  - intros j Hj1 Hj2 Hj.
    assert (Hsm : forall i, (i <= k0)%nat -> (@td RN (D i) < t ^ 2 * nrm2sq bv)%R -> (R_sqrt.sqrt (@td RN (D i) / ip n bv bv) < t)%R).
    { intros i Hi Q. rewrite <- (sqrt_pow2 t) by lra. apply sqrt_lt_1.
      - apply Rmult_le_pos; [rewrite Ed; apply ip_self_nonneg|left; by apply Rinv_0_lt_compat].
      - apply pow2_ge_0.
      - apply (Rmult_lt_reg_r (ip n bv bv)); [done|]. unfold Rdiv. rewrite Rmult_assoc, Rinv_l by lra. rewrite Ebb in *. lra. }
    assert (HKj : (K <= j)%nat).
    { destruct (decide (K <= j)%nat) as [|Hgt]; [done|]. exfalso. specialize (Hno j ltac:(lia)). rewrite Erel, Et in Hno by lia. simpl in Hno. apply Rltb_false in Hno.
      assert (Hjk : (j <= k0)%nat) by lia. pose proof (Hsm j Hjk ltac:(eapply Rle_lt_trans; [apply Hrate; lia|exact Hj])). lra. }
    split; [done|]. rewrite Enrm.
    destruct Hstop as [EK|[HK1 Htol]].
    + (* K = max_iter <= j <= max_iter *)
      apply Hsm; [lia|]. assert (K = j) by lia. subst j. eapply Rle_lt_trans; [apply (Hmin K); lia|]. eapply Rle_lt_trans; [by apply Hrate|exact Hj].
    + rewrite Erel, Et in Htol by lia. simpl in Htol. apply Rltb_true in Htol. eapply Rle_lt_trans; [|exact Htol].
      apply sqrt_le_1_alt. apply Rmult_le_compat_r; [left; by apply Rinv_0_lt_compat|]. apply Hmin. lia.
Qed.

(** ** Example: the call of CgEx (L = 2 I), of which only the spectrum bounds 1 and 4 are used.  From (1,1) with
    b = (3,4) and tolerance 1/10 it stops within ten iterations, below the tolerance. *)
Module CGRateEx.
Import CgEx.
Lemma within : spectrum_in 2 L 1 4.
Proof.
  intros v Lv. rewrite <- !(ip_dot 2) by done. unfold L. rewrite ip_axpy_r, one_RN. pose proof (ip_self_nonneg 2 v). split; lra.
Qed.
Lemma ten : exists res s' xv' K, @cgsolve ER 2 (Ptr 0 0) (Ptr 1 0) (Ptr 9 0) ax (@mkCgP ER 0 10 (Fin (1/10))) s0 = Ok res s' /\
  @seg ER s' (Ptr 0 0) (fin xv') /\ @cgiter ER res = Z.of_nat K /\ (K <= 10)%nat /\ (nrm2 (left_over L [3%R; 4%R] xv') / nrm2 [3%R; 4%R] < 1/10)%R.
Proof.
  destruct (C81_cg_rate 2 0 1 2 3 4 5 9 [] (fun _ => True) ax A s0 [1%R; 1%R] [3%R; 4%R] (@mkCgP ER 0 10 (Fin (1/10))) L 1 4 (1/10) call)
    as (res & s' & xv' & K & E & _ & Sx & EK & _ & _ & _ & _ & _ & H); [done|done|apply pd|lra|apply within|apply AL|exists 0%nat; simpl; lra|done|lra| |].
  - exists 0%nat. unfold L. rewrite nth_axpy by lia. rewrite one_RN. simpl. lra.
  - exists res, s', xv', K. split; [exact E|]. split; [exact Sx|]. split; [exact EK|]. apply H; [lia|simpl; lia|].
    unfold cg_factor. replace (1 / 4)%R with ((1/2) * (1/2))%R by lra. rewrite sqrt_square by lra.
    assert (EL : L [1%R; 1%R] = [2%R; 2%R]).
    { apply (list_eq_nth 2); [apply (@axpy_of_len RN)|done|]. intros i Hi. unfold L. rewrite nth_axpy, one_RN by done. destruct i as [|[|i]]; [simpl; lra|simpl; lra|lia]. }
    unfold left_over. rewrite EL. unfold nrm2sq, vlin. simpl. lra.
Qed.
End CGRateEx.
Print Assumptions C81_cg_rate.
