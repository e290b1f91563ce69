(** * C19-C23: the conjugate-gradient solvers. *)
From Coq Require Import ZArith Lia Reals Lra.
From Coq Require Floats.
From stdpp Require Import base numbers gmap list.
From Verif Require Import Mem M_Math M_CG P_Mem P_Loop P_Math S_Mem P_Touch P_Step P_Memory P_MathR P_TVR P_CG P_CGR L_Sum S_Vec L_Lin L_ER.
Local Open Scope Z_scope.

(** ** Specification *)
(** A call of l1c_cgsolve: separate aligned arrays x, b and the four scratch rows reached through Dwork,
    and an operator callback that computes [A] (any function of vectors) and may use private memory F. *)
Record cg_call `{N : Num} (n : nat) (bx bb br bp bh bq wb : nat) (F : list nat) (J : st -> Prop)
    (ax : ptr -> ptr -> M unit) (A : list T -> list T) (s : st) (xs bs : list T) : Prop := {
  cc_sep : NoDup [bx; bb; br; bp; bh; bq];
  cc_F : forall c, c ∈ [bx; bb; br; bp; bh; bq] -> c ∉ F;
  cc_op : oper F J ax n n A; cc_J : J s;
  cc_x : seg s (Ptr bx 0) xs; cc_b : seg s (Ptr bb 0) bs; cc_len : length xs = n /\ length bs = n;
  cc_wk : wok s (Ptr br 0) n /\ wok s (Ptr bp 0) n /\ wok s (Ptr bh 0) n /\ wok s (Ptr bq 0) n;
  cc_al : forall c, c ∈ [bx; bb; br; bp; bh; bq] -> is_aligned s (Ptr c 0) = true;
  cc_w : exists wc, pm s !! wb = Some wc /\ wc !! 0%nat = Some (Some (Ptr br 0)) /\ wc !! 1%nat = Some (Some (Ptr bp 0)) /\
           wc !! 2%nat = Some (Some (Ptr bh 0)) /\ wc !! 3%nat = Some (Some (Ptr bq 0))
}.
(** the same with the inverse diagonal bm and a fifth scratch row bz *)
Record pcg_call `{N : Num} (n : nat) (bx bb br bp bh bq bm bz wb : nat) (F : list nat) (J : st -> Prop)
    (ax : ptr -> ptr -> M unit) (A : list T -> list T) (s : st) (xs bs ms : list T) : Prop := {
  pc_sep : NoDup [bx; bb; br; bp; bh; bq; bm; bz];
  pc_F : forall c, c ∈ [bx; bb; br; bp; bh; bq; bm; bz] -> c ∉ F;
  pc_op : oper F J ax n n A; pc_J : J s;
  pc_x : seg s (Ptr bx 0) xs; pc_b : seg s (Ptr bb 0) bs; pc_m : seg s (Ptr bm 0) ms;
  pc_lens : length xs = n /\ length bs = n /\ length ms = n;
  pc_wk : wok s (Ptr br 0) n /\ wok s (Ptr bp 0) n /\ wok s (Ptr bh 0) n /\ wok s (Ptr bq 0) n /\ wok s (Ptr bz 0) n;
  pc_al : forall c, c ∈ [bx; bb; br; bp; bh; bq; bm; bz] -> is_aligned s (Ptr c 0) = true;
  pc_w : exists wc, pm s !! wb = Some wc /\ wc !! 0%nat = Some (Some (Ptr br 0)) /\ wc !! 1%nat = Some (Some (Ptr bp 0)) /\
           wc !! 2%nat = Some (Some (Ptr bh 0)) /\ wc !! 3%nat = Some (Some (Ptr bq 0)) /\ wc !! 4%nat = Some (Some (Ptr bz 0))
}.

(** symmetric positive definite *)
Definition spd (n : nat) (L : list R -> list R) : Prop :=
  linear n L /\
  (forall u v, length u = n -> length v = n -> dot (L u) v = dot u (L v)) /\
  (forall u, length u = n -> (exists i, nth i u 0%R <> 0%R) -> (0 < dot u (L u))%R).

(** ** C20: the best visited iterate, for every arithmetic.
    [cg_at n A xs bs k] is iterate number k of the recurrence started at xs (iterate 0), and
    [cg_rel n A xs bs k] = sqrt(delta_k / b'b) its computed relative residual.
    K is the number of iterations: up to the first k >= 1 with cg_rel k < tol, at most max_iter. *)
Section any.
Context `{N : Num}.
Context (n : nat) (bx bb br bp bh bq wb : nat) (F : list nat) (J : st -> Prop).
Context (ax : ptr -> ptr -> M unit) (A : list T -> list T) (s : st) (xs bs : list T) (prm : CgParams).
Let run := cgsolve (Z.of_nat n) (Ptr bx 0) (Ptr bb 0) (Ptr wb 0) ax prm s.
Lemma cg_facts : cg_call n bx bb br bp bh bq wb F J ax A s xs bs -> cgp_max_iter prm < INT_MAX ->
  exists K s', stops (cg_rel n A xs bs) (cgp_tol prm) (Z.to_nat (cgp_max_iter prm)) K /\
    let k := besti (cg_rel n A xs bs) K in
    run = Ok (mkCgR (cg_rel n A xs bs k) (if 0 <=? cgp_max_iter prm then Z.of_nat K else cgp_max_iter prm)) s' /\
    seg s' (Ptr bx 0) (tx (cg_at n A xs bs k)) /\ touch ([bx; br; bp; bh; bq] ++ F) s s' /\ J s'.
Proof.
  intros [H1 H2 H3 H4 H5 H6 [H7 H8] (H9 & H10 & H11 & H12) H13 (wc & W & W0 & W1 & W2 & W3)] Hm.
  apply (cgsolve_run n bx bb br bp bh bq (Ptr wb 0) F J ax A s xs bs prm); try assumption.
  - by eapply (ldp_ok _ _ _ 0).
  - by eapply (ldp_ok _ _ _ 1).
  - by eapply (ldp_ok _ _ _ 2).
  - by eapply (ldp_ok _ _ _ 3).
Qed.

Theorem C20_best_visited `{!OrdNum N} :
  cg_call n bx bb br bp bh bq wb F J ax A s xs bs -> cgp_max_iter prm < INT_MAX ->
  exists res s' K k, run = Ok res s' /\
    (* the iterations performed *)
    stops (cg_rel n A xs bs) (cgp_tol prm) (Z.to_nat (cgp_max_iter prm)) K /\
    cgiter res = (if 0 <=? cgp_max_iter prm then Z.of_nat K else cgp_max_iter prm) /\
    (* x and cgres belong to the same visited iterate k *)
    (k <= K)%nat /\ seg s' (Ptr bx 0) (tx (cg_at n A xs bs k)) /\ cgres res = cg_rel n A xs bs k /\
    (* no visited iterate is better, and every earlier one is worse or NaN *)
    (forall j, (j <= K)%nat -> ltb_ (cg_rel n A xs bs j) (cgres res) = false) /\
    (forall j, (j < k)%nat -> isnan (cg_rel n A xs bs j) = true \/ ltb_ (cgres res) (cg_rel n A xs bs j) = true) /\
    (* b is unchanged; only x, the scratch rows and the operator's own memory are written *)
    seg s' (Ptr bb 0) bs /\ touch ([bx; br; bp; bh; bq] ++ F) s s' /\ J s'.
Proof.
  intros HC Hm. destruct (cg_facts HC Hm) as (K & s' & HS & E & Sx & Ht & HJ).
  eexists _, s', K, (besti (cg_rel n A xs bs) K). split; [exact E|]. split; [exact HS|]. split; [done|].
  split; [apply besti_le|]. split; [exact Sx|]. split; [done|].
  split; [intros j Hj; by apply besti_min|]. split; [intros j Hj; by apply besti_first|].
  split; [|done]. apply (touch_seg _ _ _ _ _ _ Ht); [|apply (cc_b _ _ _ _ _ _ _ _ _ _ _ _ _ _ _ HC)].
  pose proof (cc_sep _ _ _ _ _ _ _ _ _ _ _ _ _ _ _ HC) as D. distinct D.
  assert (bb ∉ F) by (apply (cc_F _ _ _ _ _ _ _ _ _ _ _ _ _ _ _ HC); isin). notin.
Qed.
End any.

(** ** C19: cgres is the true relative residual, exact arithmetic with infinities and NaN.
    No assumption that the run meets no zero division. *)
Lemma nz_ip n v : length v = n -> (exists i, nth i v 0%R <> 0%R) -> ip n v v <> 0%R.
Proof.
  intros Hl (i & Hi) E. apply Hi. destruct (decide (i < n)%nat) as [Hlt|].
  - by apply (ip_self_0 n v E).
  - apply nth_overflow. lia.
Qed.
Lemma rel_nrm n (r b : list R) : length r = n -> length b = n -> ip n b b <> 0%R ->
  R_sqrt.sqrt (ip n r r / ip n b b) = (nrm2 r / nrm2 b)%R.
Proof.
  intros H1 H2 H3. unfold nrm2, nrm2sq. rewrite H1, H2.
  assert (E : forall v, ip n v v = Rsum n (fun i => (nth i v 0 ^ 2)%R)) by (intros; apply Rsum_ext; intros; lra).
  rewrite <- !E. pose proof (ip_self_nonneg n b). apply sqrt_div; [apply ip_self_nonneg|lra].
Qed.
Lemma resid_vlin n L bv x r : length bv = n -> length r = n -> resid n L bv x r -> r = vlin 1 bv (-1) (L x).
Proof.
  intros Lb Lr H. apply (list_eq_nth n); [done|unfold vlin; by rewrite map_length, seq_length|].
  intros i Hi. unfold vlin. rewrite nth_map_seq by lia. rewrite H by done. lra.
Qed.

Theorem C19_true_residual (n : nat) (bx bb br bp bh bq wb : nat) F J ax A (s : @st ER) (xv bv : list R) prm (L : list R -> list R) :
  @cg_call ER n bx bb br bp bh bq wb F J ax A s (fin xv) (fin bv) -> @cgp_max_iter ER prm < INT_MAX ->
  linear n L -> (forall v, length v = n -> A (fin v) = fin (L v)) -> (exists i, nth i bv 0%R <> 0%R) ->
  exists res s' xv', @cgsolve ER (Z.of_nat n) (Ptr bx 0) (Ptr bb 0) (Ptr wb 0) ax prm s = Ok res s' /\
    length xv' = n /\ @seg ER s' (Ptr bx 0) (fin xv') /\
    @cgres ER res = Fin (nrm2 (vlin 1 bv (-1) (L xv')) / nrm2 bv)%R.
Proof.
  intros HC Hm HL HA Hb.
  pose proof (cc_len _ _ _ _ _ _ _ _ _ _ _ _ _ _ _ HC) as [Lx Lb]. rewrite fin_length in Lx, Lb.
  pose proof (nz_ip n bv Lb Hb) as Hbb.
  destruct (@cg_facts ER _ _ _ _ _ _ _ _ _ _ _ _ _ _ _ prm HC Hm) as (K & s' & HS & E & Sx & Ht & HJ).
  assert (HF : fine n L bv (@cg_at ER n A (fin xv) (fin bv) (besti (@cg_rel ER n A (fin xv) (fin bv)) K)))
    by exact (best_fine n L A xv bv HL HA Lx Lb Hbb K).
  destruct HF as (x & r & pp & EC & L1 & L2 & HR).
  set (k := besti (@cg_rel ER n A (fin xv) (fin bv)) K) in *.
  eexists _, s', x. split; [exact E|]. split; [done|].
  split; [rewrite EC in Sx; exact Sx|]. cbn [cgres].
  pose proof (rel_val n A xv bv Hbb k _ _ _ _ EC (ip_self_nonneg n r)) as ER1.
  transitivity (Fin (R_sqrt.sqrt (ip n r r / ip n bv bv))); [exact ER1|]. f_equal.
  rewrite (rel_nrm n) by done. by rewrite (resid_vlin n L bv x r).
Qed.

(** ** C21: a symmetric positive definite system is solved within n iterations *)
(** the recurrence: some iterate k <= n has residual zero *)
Theorem C21_residual_vanishes (n : nat) (L : list R -> list R) (xv bv : list R) :
  spd n L -> length xv = n -> length bv = n ->
  exists k, (k <= n)%nat /\ vlin 1 bv (-1) (L (@tx RN (@cg_at RN n L xv bv k))) = repeat 0%R n.
Proof.
  intros (HL & Hs & Hp) Lx Lb. pose proof (proj1 HL) as HLL.
  destruct (cg_terminates n L xv bv Lx) as (k & Hk & E & Hi).
  { intros u v Hu Hv. rewrite !ip_dot; auto. }
  { intros u Hu Hne. rewrite ip_dot by done. apply Hp; [done|].
    destruct (nz_dec n u) as [(i & _ & H)|H]; [by exists i|]. destruct Hne. by apply ip_0_r. }
  exists k. split; [done|]. destruct (cg_len (N := RN) n L xv bv Lx k) as (L1 & L2 & L3).
  rewrite <- (resid_vlin n L bv _ (@tr RN (@cg_at RN n L xv bv k))); [|done|done|by apply real_resid].
  rewrite d_ip in E. apply (list_eq_nth n); [done|apply repeat_length|].
  intros i Hi'. rewrite (ip_self_0 n _ E i Hi'), nth_repeat. done.
Qed.
(** the call: with max_iter >= n it returns the solution or stops below the tolerance *)
Theorem C21_solved (n : nat) (bx bb br bp bh bq wb : nat) F J ax A (s : @st ER) (xv bv : list R) prm (L : list R -> list R) :
  @cg_call ER n bx bb br bp bh bq wb F J ax A s (fin xv) (fin bv) -> @cgp_max_iter ER prm < INT_MAX ->
  spd n L -> (forall v, length v = n -> A (fin v) = fin (L v)) -> (exists i, nth i bv 0%R <> 0%R) ->
  Z.of_nat n <= @cgp_max_iter ER prm ->
  exists res s' xv', @cgsolve ER (Z.of_nat n) (Ptr bx 0) (Ptr bb 0) (Ptr wb 0) ax prm s = Ok res s' /\
    length xv' = n /\ @seg ER s' (Ptr bx 0) (fin xv') /\
    ((@cgres ER res = Fin 0 /\ forall i, nth i (L xv') 0%R = nth i bv 0%R) \/ er_ltb (@cgres ER res) (@cgp_tol ER prm) = true) /\
    ((exists t, @cgp_tol ER prm = Fin t /\ (0 < t)%R) -> (exists i, nth i (L xv) 0%R <> nth i bv 0%R) -> 0 <= @cgiter ER res <= Z.of_nat n).
Proof.
  intros HC Hm (HL & Hs & Hp) HA Hb Hn. pose proof (proj1 HL) as HLL.
  pose proof (cc_len _ _ _ _ _ _ _ _ _ _ _ _ _ _ _ HC) as [Lx Lb]. rewrite fin_length in Lx, Lb.
  pose proof (nz_ip n bv Lb Hb) as Hbb.
  destruct (cg_terminates n L xv bv Lx) as (k0 & Hk0 & E0 & Hi0).
  { intros u v Hu Hv. rewrite !ip_dot; auto. }
  { intros u Hu Hne. rewrite ip_dot by done. apply Hp; [done|].
    destruct (nz_dec n u) as [(i & _ & H)|H]; [by exists i|]. destruct Hne. by apply ip_0_r. }
  assert (EL : @cg_rel ER n A (fin xv) (fin bv) k0 = Fin 0).
  { transitivity (Fin (R_sqrt.sqrt (0 / ip n bv bv))).
    { eapply (rel_val n A xv bv Hbb k0 _ _ _ 0); [|lra].
      rewrite (real_link n L A xv bv HA Lx Lb k0); [|intros i Hi; destruct (Hi0 i Hi) as [Q1 Q2]; split; [exact Q1|apply Rgt_not_eq; exact Q2]].
      f_equal. f_equal. exact E0. }
    f_equal. replace (0 / ip n bv bv)%R with 0%R by (unfold Rdiv; lra). apply sqrt_0. }
  destruct (@cg_facts ER _ _ _ _ _ _ _ _ _ _ _ _ _ _ _ prm HC Hm) as (K & s' & HS & E & Sx & Ht & HJ).
  assert (HF : fine n L bv (@cg_at ER n A (fin xv) (fin bv) (besti (@cg_rel ER n A (fin xv) (fin bv)) K)))
    by exact (best_fine n L A xv bv HL HA Lx Lb Hbb K).
  destruct HF as (x & r & pp & EC & L1 & L2 & HR).
  set (k := besti (@cg_rel ER n A (fin xv) (fin bv)) K) in *.
  eexists _, s', x. split; [exact E|]. split; [done|].
  split; [rewrite EC in Sx; exact Sx|]. cbn [cgres cgiter].
  pose proof (rel_val n A xv bv Hbb k _ _ _ _ EC (ip_self_nonneg n r)) as ER1.
  pose proof (bb_pos n bv Hbb) as Hpos.
  assert (Hmin : forall j, (j <= K)%nat -> @ltb_ ER (@cg_rel ER n A (fin xv) (fin bv) j) (@cg_rel ER n A (fin xv) (fin bv) k) = false)
    by (intros j Hj; by apply besti_min).
  destruct HS as (HK & Hno & Hst).
  split.
  - destruct (decide (k0 <= K)%nat) as [Hle|Hgt].
    + left. specialize (Hmin k0 Hle). rewrite EL, ER1 in Hmin. simpl in Hmin. apply Rltb_false in Hmin.
      pose proof (sqrt_pos (ip n r r / ip n bv bv)) as Hsq.
      assert (Hz : R_sqrt.sqrt (ip n r r / ip n bv bv) = 0%R) by (apply Rle_antisym; [exact Hmin|exact Hsq]).
      split; [rewrite <- Hz; exact ER1|].
      assert (Hrr : ip n r r = 0%R).
      { assert (0 <= ip n r r / ip n bv bv)%R.
        { apply Rmult_le_pos; [apply ip_self_nonneg|]. left. by apply Rinv_0_lt_compat. }
        apply sqrt_eq_0 in Hz; [|done]. apply (Rmult_eq_reg_r (/ ip n bv bv)); [|apply Rinv_neq_0_compat; lra].
        unfold Rdiv in Hz. lra. }
      intros i. destruct (decide (i < n)%nat) as [Hi|Hi].
      * pose proof (HR i Hi) as HRi. rewrite (ip_self_0 n r Hrr i Hi) in HRi. lra.
      * rewrite !nth_overflow; [done|lia|rewrite HLL by done; lia].
    + right. destruct Hst as [->|[HK1 Htol]]; [lia|]. specialize (Hmin K ltac:(lia)).
      destruct (er_ltb (@cg_rel ER n A (fin xv) (fin bv) k) (@cgp_tol ER prm)) eqn:EB; [done|].
      assert (Hc : @ltb_ ER (@cg_rel ER n A (fin xv) (fin bv) K) (@cgp_tol ER prm) = false).
      { apply (ltb_tr _ (@cg_rel ER n A (fin xv) (fin bv) k)); [|done|done].
        assert (EE : @cg_rel ER n A (fin xv) (fin bv) k = Fin (R_sqrt.sqrt (ip n r r / ip n bv bv))) by exact ER1.
        rewrite EE. done. }
      congruence.
  - intros (t & Et & Htp) (i0 & Hi0'). rewrite (proj2 (Z.leb_le 0 _)) by lia.
    split; [lia|]. destruct (decide (K <= n)%nat) as [|Hgt]; [lia|]. exfalso.
    (* the loop would have stopped at k0, or at n >= 1 *)
    destruct k0 as [|k0].
    + apply Hi0'. destruct (decide (i0 < n)%nat) as [Hi|Hi].
      * rewrite d_ip in E0. pose proof (real_resid n L xv bv 0 HL Lx i0 Hi) as HR0.
        rewrite (ip_self_0 n _ E0 i0 Hi) in HR0. cbn [cg_at] in HR0. unfold cg_0 in HR0. cbn [tx] in HR0. lra.
      * rewrite !nth_overflow; [done|lia|rewrite HLL by done; lia].
    + specialize (Hno (S k0) ltac:(lia)). rewrite EL, Et in Hno. simpl in Hno. apply Rltb_false in Hno. lra.
Qed.

(** the iteration count needs a start that is not yet exact: from an exact start the first step is 0/0,
    every later residual is NaN and all max_iter iterations are run *)
Theorem C21_exact_start_runs_on (n : nat) (bx bb br bp bh bq wb : nat) F J ax A (s : @st ER) (xv bv : list R) prm (L : list R -> list R) :
  @cg_call ER n bx bb br bp bh bq wb F J ax A s (fin xv) (fin bv) -> 0 <= @cgp_max_iter ER prm < INT_MAX ->
  linear n L -> (forall v, length v = n -> A (fin v) = fin (L v)) -> (exists i, nth i bv 0%R <> 0%R) ->
  L xv = bv ->
  exists res s', @cgsolve ER (Z.of_nat n) (Ptr bx 0) (Ptr bb 0) (Ptr wb 0) ax prm s = Ok res s' /\
    @seg ER s' (Ptr bx 0) (fin xv) /\ @cgres ER res = Fin 0 /\ @cgiter ER res = @cgp_max_iter ER prm.
Proof.
  intros HC Hm HL HA Hb Hex. pose proof (proj1 HL) as HLL.
  pose proof (cc_len _ _ _ _ _ _ _ _ _ _ _ _ _ _ _ HC) as [Lx Lb]. rewrite fin_length in Lx, Lb.
  pose proof (nz_ip n bv Lb Hb) as Hbb.
  set (C := @cg_at ER n A (fin xv) (fin bv)). set (R := @cg_rel ER n A (fin xv) (fin bv)).
  (* iterate 0: r = p = 0 *)
  set (r0 := @axpby_of RN n (@one RN) bv (- @one RN)%R (L xv)).
  assert (Hr0 : forall i, (i < n)%nat -> nth i r0 0%R = 0%R).
  { intros i Hi. unfold r0. rewrite nth_axpby by done. rewrite one_RN, Hex. lra. }
  assert (Ez : ip n r0 r0 = 0%R) by (by apply ip_0_r).
  assert (E0 : C 0%nat = @mkTrj ER (fin xv) (fin r0) (fin r0) (Fin 0)).
  { unfold C. cbn [cg_at]. unfold cg_0. rewrite HA by done. rewrite one_ER.
    change (@opp ER (Fin (@one RN))) with (Fin (- @one RN)). rewrite axpby_fin. fold r0. rewrite dot_fin, dot_of_ip, Ez. done. }
  assert (Lr0 : length r0 = n) by apply (@axpby_of_len RN).
  assert (HB : forall k, bad n (C (S k))).
  { assert (H1 : bad n (C 1%nat)).
    { change (C 1%nat) with (@cg_S ER n A (C 0%nat)). rewrite E0. unfold cg_S. cbn [tx tr tp td].
      rewrite HA by done. rewrite dot_fin, dot_of_ip.
      assert (Ez2 : ip n r0 (L r0) = 0%R) by (rewrite ip_sym; by apply ip_0_r). rewrite Ez2.
      assert (EN : @opp ER (@div ER (Fin 0) (Fin 0)) = NaN).
      { simpl. destruct (Req_EM_T 0 0); done. }
      rewrite EN.
      assert (HN : forall i, (i < n)%nat -> nonfin (@at_ ER (@axpy_of ER n NaN (fin (L r0)) (fin r0)) i)).
      { intros i Hi. unfold axpy_of. rewrite (@at_tab ER) by done. done. }
      split; cbn [tr td]; [exact HN|]. apply (dot_self_nonfin _ _ 0 (n_pos n L A xv bv HL HA Lx Lb Hbb)). apply HN. apply (n_pos n L A xv bv HL HA Lx Lb Hbb). }
    induction k as [|k IH]; [exact H1|]. change (C (S (S k))) with (@cg_S ER n A (C (S k))). by apply (step_bad n L A xv bv HL HA Lx Lb Hbb). }
  assert (HR0 : R 0%nat = Fin 0).
  { transitivity (Fin (R_sqrt.sqrt (0 / ip n bv bv))); [apply (rel_val n A xv bv Hbb 0 _ _ _ 0 E0); lra|].
    f_equal. replace (0 / ip n bv bv)%R with 0%R by (unfold Rdiv; lra). apply sqrt_0. }
  assert (HRk : forall k, (1 <= k)%nat -> pnan (R k)).
  { intros [|k] Hk; [lia|]. apply (rel_bad n A xv bv Hbb). apply HB. }
  destruct (@cg_facts ER _ _ _ _ _ _ _ _ _ _ _ _ _ _ _ prm HC (proj2 Hm)) as (K & s' & HS & E & Sx & Ht & HJ).
  assert (EK : besti (@cg_rel ER n A (fin xv) (fin bv)) K = 0%nat).
  { apply (@besti_const ER). intros j Hj. apply ltb_pnan_l. apply HRk. lia. }
  cbv zeta in E, Sx. rewrite EK in E, Sx. eexists _, s'. split; [exact E|]. cbn [cgres cgiter].
  split; [change (@seg ER s' (Ptr bx 0) (tx (C 0%nat))) in Sx; rewrite E0 in Sx; exact Sx|]. split; [exact HR0|].
  rewrite (proj2 (Z.leb_le 0 _)) by lia. destruct HS as (HK & _ & [->|[H1 H2]]); [lia|].
  exfalso. pose proof (ltb_pnan_l _ (@cgp_tol ER prm) (HRk K H1)) as EF. assert (EE : true = false) by (rewrite <- H2; exact EF). done.
Qed.

(** ** C23: a zero right-hand side is not solved.  Any operator, any start (special values included). *)
Theorem C23_zero_rhs (n : nat) (bx bb br bp bh bq wb : nat) F J ax A (s : @st ER) (xs : list er) prm :
  @cg_call ER n bx bb br bp bh bq wb F J ax A s xs (repeat (Fin 0) n) -> 0 <= @cgp_max_iter ER prm < INT_MAX ->
  exists res s', @cgsolve ER (Z.of_nat n) (Ptr bx 0) (Ptr bb 0) (Ptr wb 0) ax prm s = Ok res s' /\
    @seg ER s' (Ptr bx 0) xs /\ (@cgres ER res = PInf \/ @cgres ER res = NaN) /\ @cgiter ER res = @cgp_max_iter ER prm.
Proof.
  intros HC Hm.
  set (bs := repeat (Fin 0) n) in *. set (R := @cg_rel ER n A xs bs).
  assert (Hbb : @dot_of ER n bs bs = Fin 0).
  { assert (Eb : bs = fin (repeat 0%R n)) by (unfold bs, fin; clear; induction n as [|n' IH]; [done|simpl; by rewrite IH]).
    rewrite Eb, dot_fin, dot_of_ip. f_equal. apply ip_0_r. intros i _. apply nth_repeat. }
  assert (HP : forall k, pnan (R k)).
  { intros k. unfold R, cg_rel. rewrite Hbb. apply nn_div0. destruct k; apply dot_self_nn. }
  destruct (@cg_facts ER _ _ _ _ _ _ _ _ _ _ _ _ _ _ _ prm HC (proj2 Hm)) as (K & s' & HS & E & Sx & Ht & HJ).
  assert (EK : besti (@cg_rel ER n A xs bs) K = 0%nat).
  { apply (@besti_const ER). intros j Hj. apply ltb_pnan_l. apply HP. }
  cbv zeta in E, Sx. rewrite EK in E, Sx. eexists _, s'. split; [exact E|]. cbn [cgres cgiter].
  split; [exact Sx|]. split.
  - change (R 0%nat = PInf \/ R 0%nat = NaN). specialize (HP 0%nat). destruct (R 0%nat); simpl in HP; first [done|auto].
  - rewrite (proj2 (Z.leb_le 0 _)) by lia. destruct HS as (HK & _ & [->|[H1 H2]]); [lia|].
    exfalso. pose proof (ltb_pnan_l _ (@cgp_tol ER prm) (HP K)) as EF. assert (EE : true = false) by (rewrite <- H2; exact EF). done.
Qed.

(** ** C22: preconditioned CG *)
(** what it does: for every arithmetic, its cgres with no iteration is sqrt(r'(M_inv r)/b'b) *)
Theorem C22_precond_initial `{N : Num} (n : nat) (bx bb br bp bh bq bm bz wb : nat) F J ax A s (xs bs ms : list T) prm :
  pcg_call n bx bb br bp bh bq bm bz wb F J ax A s xs bs ms -> cgp_max_iter prm <= 0 ->
  exists s', let r := axpby_of n one bs (opp one) (A xs) in
    cgsolve_diag_precond (Z.of_nat n) (Ptr bx 0) (Ptr bb 0) (Ptr bm 0) (Ptr wb 0) ax prm s =
      Ok (mkCgR (sqrt_ (div (dot_of n r (xmuly_of n r ms)) (dot_of n bs bs))) (cgp_max_iter prm)) s' /\
    seg s' (Ptr bx 0) xs.
Proof.
  intros [H1 H2 H3 H4 H5 H6 Hm (H7 & H8 & H8') (H9 & H10 & H11 & H12 & Hz) H13 (wc & W & W0 & W1 & W2 & W3 & W4)] Hmi.
  destruct (cgsolve_pc_run n bx bb br bp bh bq wb wc F J ax A s xs bs prm bm bz ms) as (K & s' & HS & E & Sx & Ht & HJ); try assumption.
  { unfold INT_MAX. lia. }
  destruct HS as (HK & _ & _). assert (K = 0%nat) as -> by lia. cbn [besti] in E, Sx.
  exists s'. cbv zeta. split; [|exact Sx]. rewrite E.
  assert (EZ : (if 0 <=? cgp_max_iter prm then Z.of_nat 0 else cgp_max_iter prm) = cgp_max_iter prm).
  { destruct (Z.leb_spec 0 (cgp_max_iter prm)); lia. }
  rewrite EZ. done.
Qed.

(** Witnesses in binary64 (all numbers below are exact except the last bits of 4.95).
    (1) A = 1, b = 1, x = 0, M_inv = 1/4, max_iter = 0: cgres is 1/2 but the residual is 1.
    (2) A = diag(1,100), b = (10,1), x = 0, M_inv = (100,100), max_iter = 1: the start has relative
        residual 1, the point returned has one above 4. *)
Module PcgEx.
Import PrimFloat.
Definition f (z : Z) : float := fofZ z.
(** the operator diag(1,100) on two entries, and the identity on one *)
Definition ax2 (X D : ptr) : @M FN unit :=
  bind (@ld FN X 0) (fun v => bind (@sto FN D 0 v) (fun _ =>
  bind (@ld FN X 1) (fun w => @sto FN D 1 (PrimFloat.mul (f 100) w)))).
Definition ax1 (X D : ptr) : @M FN unit := bind (@ld FN X 0) (fun v => @sto FN D 0 v).
Definition work (s : @st FN) : @st FN :=
  set_pm (<[20%nat := [Some (Ptr 2 0); Some (Ptr 3 0); Some (Ptr 4 0); Some (Ptr 5 0); Some (Ptr 7 0)]]>) s.
Definition s1 : @st FN := work (state_of [full [f 0 : @T FN]; full [f 1 : @T FN]; fresh 1; fresh 1; fresh 1; fresh 1;
   full [PrimFloat.div (f 1) (f 4) : @T FN]; fresh 1]).
Definition s2 : @st FN := work (state_of [full [f 0 : @T FN; f 0]; full [f 10 : @T FN; f 1]; fresh 2; fresh 2; fresh 2; fresh 2;
   full [f 100 : @T FN; f 100]; fresh 2]).
Definition run1 : @M FN CgResults := @cgsolve_diag_precond FN 1 (Ptr 0 0) (Ptr 1 0) (Ptr 6 0) (Ptr 20 0) ax1 (@mkCgP FN 0 0 (f 0)).
Definition run2 : @M FN CgResults := @cgsolve_diag_precond FN 2 (Ptr 0 0) (Ptr 1 0) (Ptr 6 0) (Ptr 20 0) ax2 (@mkCgP FN 0 1 (f 0)).
(** squared residual |b - A x|^2 of the x left in block 0 for example 2 *)
Definition res2 (x : list (option (@T FN))) : float :=
  match x with
  | [Some x0; Some x1] =>
      let a := PrimFloat.sub (f 10) x0 in let b := PrimFloat.sub (f 1) (PrimFloat.mul (f 100) x1) in
      PrimFloat.add (PrimFloat.mul a a) (PrimFloat.mul b b)
  | _ => PrimFloat.nan
  end.
End PcgEx.
Theorem C22_precond_refuted :
  (* (1) x is returned unchanged at 0, where |b - A x| / |b| = 1, and cgres is 1/2 *)
  option_map (@cgres FN) (result PcgEx.run1 PcgEx.s1) = Some (PrimFloat.div (PcgEx.f 1) (PcgEx.f 2)) /\
  after PcgEx.run1 PcgEx.s1 0 = Some [Some (PcgEx.f 0)] /\
  (* (2) |b|^2 = 101, the start x = 0 has squared residual 101; the point returned has more than 16 times that *)
  match after PcgEx.run2 PcgEx.s2 0 with
  | Some x => PrimFloat.ltb (PrimFloat.mul (PcgEx.f 16) (PcgEx.f 101)) (PcgEx.res2 x) = true
  | None => False
  end.
Proof. split; [|split]; vm_compute; reflexivity. Qed.

(** *** a concrete call meeting the hypotheses: the operator x -> 2x on two entries, started at (1,1) with b = (3,4) *)
Module CgEx.
(** D = X; D = 1*X + D *)
Definition ax (X D : ptr) : @M ER unit := bind (@cblas_dcopy ER 2 X D) (fun _ => @cblas_daxpy ER 2 (@one ER) X D).
Definition A (xs : list (@T ER)) : list (@T ER) := @axpy_of ER 2 (@one ER) xs xs.
Definition L (u : list R) : list R := @axpy_of RN 2 (@one RN) u u.
Lemma op : @oper ER [] (fun _ => True) ax 2 2 A.
Proof.
  split; try done.
  intros s X xs D _ Hx Lx HD Hdis _ _ _ _.
  pose proof (@dcopy_run ER s 2 X xs D Hx Lx HD Hdis) as E1.
  assert (Hx1 : @seg ER (wr D xs s) X xs) by (apply seg_wr_disj; [by rewrite Lx|done|by rewrite Lx]).
  assert (HD1 : @seg ER (wr D xs s) D xs) by (apply seg_wr; by rewrite Lx).
  pose proof (@daxpy_run ER (wr D xs s) 2 (@one ER) X xs D xs (src_disj _ _ _ _ _ _ Lx Hx1 Hdis) HD1 Lx) as E2.
  exists (wr D (A xs) (wr D xs s)). split; [|split; [|done]].
  - unfold ax. rewrite (bind_ok _ _ _ _ _ E1). exact E2.
  - rewrite (wr_overwrite' s D xs (A xs)); [apply touch_refl|by rewrite Lx|by rewrite Lx].
Qed.
Lemma lin : linear 2 L.
Proof.
  split; [intros; apply (@axpy_of_len RN)|]. intros a u v Hu Hv i Hi. unfold L. rewrite !nth_axpy by done.
  unfold vlin. rewrite nth_map_seq by lia. lra.
Qed.
Lemma pd : spd 2 L.
Proof.
  split; [apply lin|]. split.
  - intros u v Hu Hv. rewrite <- !(ip_dot 2) by (done || apply (@axpy_of_len RN)). unfold L.
    rewrite ip_axpy_l, ip_axpy_r. lra.
  - intros u Hu (i & Hi). rewrite <- (ip_dot 2) by done. unfold L. rewrite ip_axpy_r, one_RN.
    pose proof (ip_self_nonneg 2 u). pose proof (nz_ip 2 u Hu (ex_intro _ i Hi)). lra.
Qed.
Lemma AL v : length v = 2%nat -> A (fin v) = fin (L v).
Proof. intros _. unfold A, L. apply axpy_fin. Qed.
Definition s0 : @st ER :=
  set_pm (<[9%nat := [Some (Ptr 2 0); Some (Ptr 3 0); Some (Ptr 4 0); Some (Ptr 5 0)]]>)
    (@state_of ER [@full ER (fin [1%R; 1%R]); @full ER (fin [3%R; 4%R]); fresh 2; fresh 2; fresh 2; fresh 2]).
Lemma call : @cg_call ER 2 0 1 2 3 4 5 9 [] (fun _ => True) ax A s0 (fin [1%R; 1%R]) (fin [3%R; 4%R]).
Proof.
  split; try done.
  - repeat constructor; set_solver.
  - intros b Hb. apply not_elem_of_nil.
  - apply op.
  - apply (@state_of_seg ER); done.
  - apply (@state_of_seg ER); done.
  - repeat split; eapply (@state_of_wok ER); try done; simpl; lia.
  - eexists. split; [reflexivity|]. done.
Qed.
(** so b = (3,4) is nonzero, the start (1,1) is not exact, and 2 <= max_iter = 10 gives the solution (3/2, 2) *)
Lemma solved : exists res s' xv', @cgsolve ER 2 (Ptr 0 0) (Ptr 1 0) (Ptr 9 0) ax (@mkCgP ER 0 10 (Fin 0)) s0 = Ok res s' /\
   length xv' = 2%nat /\ @seg ER s' (Ptr 0 0) (fin xv') /\ @cgres ER res = Fin 0 /\ forall i, nth i (L xv') 0%R = nth i [3%R; 4%R] 0%R.
Proof.
  destruct (C21_solved 2 0 1 2 3 4 5 9 [] (fun _ => True) ax A s0 [1%R; 1%R] [3%R; 4%R] (@mkCgP ER 0 10 (Fin 0)) L call)
    as (res & s' & xv' & E & Lx & Sx & [[H1 H2]|H] & _); [done|apply pd|apply AL|exists 0%nat; simpl; lra|simpl; lia| |].
  - exists res, s', xv'. auto.
  - destruct (C19_true_residual 2 0 1 2 3 4 5 9 [] (fun _ => True) ax A s0 [1%R; 1%R] [3%R; 4%R] (@mkCgP ER 0 10 (Fin 0)) L call)
      as (res1 & s1 & xv1 & E1 & _ & _ & Hr); [done|apply lin|apply AL|exists 0%nat; simpl; lra|].
    assert (HE : res1 = res) by (rewrite E in E1; by inversion E1). subst res1. rewrite Hr in H.
    simpl in H. apply Rltb_true in H. exfalso. apply (Rlt_not_le _ _ H).
    apply Rmult_le_pos; [apply sqrt_pos|]. left. apply Rinv_0_lt_compat. apply sqrt_lt_R0. unfold nrm2sq. simpl. lra.
Qed.
(** the preconditioned solver with M^{-1} = (1, 1/2) in block 6 and the fifth scratch row in block 7 *)
Definition s0p : @st ER :=
  set_pm (<[9%nat := [Some (Ptr 2 0); Some (Ptr 3 0); Some (Ptr 4 0); Some (Ptr 5 0); Some (Ptr 7 0)]]>)
    (@state_of ER [@full ER (fin [1%R; 1%R]); @full ER (fin [3%R; 4%R]); fresh 2; fresh 2; fresh 2; fresh 2;
                   @full ER (fin [1%R; (1/2)%R]); fresh 2]).
Lemma call_pc : @pcg_call ER 2 0 1 2 3 4 5 6 7 9 [] (fun _ => True) ax A s0p (fin [1%R; 1%R]) (fin [3%R; 4%R]) (fin [1%R; (1/2)%R]).
Proof.
  split; try done.
  - repeat constructor; set_solver.
  - intros b Hb. apply not_elem_of_nil.
  - apply op.
  - apply (@state_of_seg ER); done.
  - apply (@state_of_seg ER); done.
  - apply (@state_of_seg ER); done.
  - repeat split; eapply (@state_of_wok ER); try done; simpl; lia.
  - eexists. split; [reflexivity|]. done.
Qed.
End CgEx.

Print Assumptions C19_true_residual.
Print Assumptions C20_best_visited.
Print Assumptions C21_residual_vanishes.
Print Assumptions C21_solved.
Print Assumptions C21_exact_start_runs_on.
Print Assumptions C22_precond_initial.
Print Assumptions C22_precond_refuted.
Print Assumptions C23_zero_rhs.
