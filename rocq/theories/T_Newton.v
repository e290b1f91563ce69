(** * C27-C29, C33-C38, C64: the log-barrier solver l1c_l1qc_newton as a whole (src/l1qc_newton.c). *)
From Coq Require Import ZArith Lia Reals Lra Psatz.
From stdpp Require Import base numbers gmap list.
From Flocq Require Import Core.Raux.
From Verif Require Import Mem M_Math M_CG M_LineSearch M_Status M_Newton P_Mem P_Loop P_Math P_MathR P_TVR S_Mem P_Touch P_Own P_Own2 P_CG
  P_Newton P_Newt2 P_Newt3 P_Newt5 P_Newt7 P_Newt8 L_Sum S_Vec L_Lin L_ER P_CGR S_Newt P_NewtX P_NewtX2 P_NewtX3 L_Barrier P_NewtR E_Sub T_Bregman.
Local Open Scope Z_scope.

(** A call of the solver.  A, B and C are what the operators Ax, Aty and AtAx of the caller compute; c counts
    the calls of Aty.  x (m entries, aligned) and b (n entries) are separate arrays that are not the
    operators' private memory F. *)
Record qc_call `{N : Num} (m n : nat) (A B C : list T -> list T) (Ax Aty AtAx : ptr -> ptr -> M unit) (F : list nat) (J : nat -> st -> Prop)
    (bs : list T) (c bx bb : nat) (xs : list T) (s : st) : Prop := {
  qc_op : opers F J Ax Aty AtAx m n A B C;
  qc_nc : ncall m n F J bs s c bx bb xs;
  qc_m : (1 <= m)%nat; qc_nm : (n <= m)%nat; qc_fit : 2 * Z.of_nat m + 1 <= INT_MAX
}.
Definition solve `{N : Num} (m n bx bb : nat) (params : L1qcOpts) (Ax Aty AtAx : ptr -> ptr -> M unit) : M LBResult :=
  l1c_l1qc_newton (Z.of_nat m) (Ptr bx 0) (Z.of_nat n) (Ptr bb 0) params Ax Aty AtAx.
(** The allocation requests: the first one is for u, then there are 18 more.  (Block number nx s is the
    struct on the stack, which is no request.) *)
Definition u_granted `{N : Num} (s : st) : Prop := alloc_ok (en s) (nx s + 1) = true.
Definition work_granted `{N : Num} (s : st) : Prop := forall j, (j < 18)%nat -> alloc_ok (en s) (nx s + 2 + j) = true.
Definition work_refused `{N : Num} (s : st) : Prop := exists j, (j < 18)%nat /\ alloc_ok (en s) (nx s + 2 + j) = false.
(** the conversion of the number of barrier stages to int is defined, and stages is that number *)
Definition starts `{N : Num} (m : nat) (xs : list T) (params : L1qcOpts) (tau : T) (stages : Z) : Prop := n_init m xs params = Some (tau, stages).

Lemma ledger_same `{N : Num} W s s' : ledger W [] s s' -> same_blocks s s' /\ forall b, b ∉ W -> dm s' !! b = dm s !! b.
Proof. intros HL. split; [split_and!; intros; apply HL; apply not_elem_of_nil|]. intros b Hb. apply HL; [done|apply not_elem_of_nil]. Qed.
Lemma same_seg `{N : Num} s s' b xs : dm s' !! b = dm s !! b -> seg s (Ptr b 0) xs -> seg s' (Ptr b 0) xs.
Proof. intros E H i v Hi. unfold cell. rewrite E. by apply H. Qed.

(** ** C27 *)
Theorem C27_infeasible_start `{N : Num} m n A B C Ax Aty AtAx F J bs params c bx bb xs s tau stages :
  qc_call m n A B C Ax Aty AtAx F J bs c bx bb xs s -> u_granted s -> work_granted s -> starts m xs params tau stages ->
  (* ||A x - b|| - eps > 0 as computed *)
  ltb_ zero (sub (nrm2_of n (axpy_of n (opp one) bs (A xs))) (lo_epsilon params)) = true ->
  exists s', solve m n bx bb params Ax Aty AtAx s = Ok (mkLB (asum_of m xs) 0 0 L1C_INFEASIBLE_START) s' /\
    seg s' (Ptr bx 0) xs /\ seg s' (Ptr bb 0) bs /\ same_blocks s s' /\ (forall b, b ∉ F -> dm s' !! b = dm s !! b) /\ J c s'.
Proof.
  intros [HO HC Hm Hnm Hf] Hu Hw Hi Hinf.
  pose proof (newton_run m n A B C Ax Aty AtAx F J HO bs params s c bx bb xs HC Hm Hnm Hf) as H. cbv zeta in H.
  rewrite Hu in H. cbn [negb] in H. rewrite Hi in H. destruct H as [_ H]. specialize (H Hw). unfold n_infeasible, n_res in H. rewrite Hinf in H.
  destruct H as (s' & E & HL & _ & HJ). exists s'. split; [exact E|]. destruct (ledger_same _ _ _ HL) as [HS HD].
  split; [apply (same_seg s); [apply HD; apply HC|apply HC]|]. split; [apply (same_seg s); [apply HD; apply HC|apply HC]|]. done.
Qed.
Section exact.
Local Open Scope R_scope.
Context (m n : nat) (A : list er -> list er) (Ar : list R -> list R) (bv : list R) (e : R).
Context (HL : linmap m n Ar) (HA : forall v, length v = m -> A (fin v) = fin (Ar v)) (Lb : length bv = n).
Lemma infeasible_ER x : length x = m -> @n_infeasible ER n A (fin bv) (Fin e) (fin x) = true <-> e < nrm2 (resid Ar bv x).
Proof.
  intros Lx. unfold n_infeasible. rewrite (res_fin m n A Ar bv HL HA x Lx).
  assert (E : @nrm2_of ER n (fin (resid Ar bv x)) = Fin (nrm2 (resid Ar bv x))).
  { unfold nrm2_of. rewrite dot_fin. cbn [sqrt_ ER]. rewrite sqrt_fin.
    - unfold nrm2. do 2 f_equal. apply dot_sq. by apply (resid_length m n).
    - erewrite dot_sq by (by apply (resid_length m n)). apply Rsum_pos_le. intros. apply pow2_ge_0. }
  rewrite E, zero_E. cbn [ltb_ sub ER er_sub er_opp er_add er_ltb]. unfold Rltb. destruct (Rlt_dec _ _); split; intros; try done; lra.
Qed.
End exact.
(** in exact arithmetic: rejected iff the start is infeasible *)
Theorem C27_exact m n A B C Ax Aty AtAx F J (bv x : list R) (e : R) Ar (params : @L1qcOpts ER) c bx bb (s : @st ER) tau stages :
  @qc_call ER m n A B C Ax Aty AtAx F J (fin bv) c bx bb (fin x) s -> u_granted s -> work_granted s -> @starts ER m (fin x) params tau stages ->
  linmap m n Ar -> (forall v, length v = m -> A (fin v) = fin (Ar v)) -> lo_epsilon params = Fin e -> @counts_fit ER params stages ->
  exists r s', @solve ER m n bx bb params Ax Aty AtAx s = Ok r s' /\ same_blocks s s' /\ @seg ER s' (Ptr bb 0) (fin bv) /\
    (lb_status r = L1C_INFEASIBLE_START <-> (e < nrm2 (resid Ar bv x))%R) /\
    (lb_status r = L1C_INFEASIBLE_START -> @seg ER s' (Ptr bx 0) (fin x)) /\
    (lb_status r <> L1C_INFEASIBLE_START -> lb_status r = L1C_SUCCESS).
Proof.
  intros [HO HC Hm Hnm Hf] Hu Hw Hi HL HA He Hct.
  pose proof (@newton_run ER m n A B C Ax Aty AtAx F J HO (fin bv) params s c bx bb (fin x) HC Hm Hnm Hf) as H. cbv zeta in H.
  rewrite Hu in H. cbn [negb] in H. rewrite Hi in H. destruct H as [_ H]. specialize (H Hw). rewrite He in H.
  assert (Lx : length x = m) by (pose proof (@nc_lx _ _ _ _ _ _ _ _ _ _ _ HC) as Q; by rewrite fin_length in Q).
  pose proof (infeasible_ER m n A Ar bv e HL HA x Lx) as HI.
  destruct (@n_infeasible ER n A (fin bv) (Fin e) (fin x)).
  - destruct H as (s' & E & HLd & _ & _). eexists _, s'. split; [exact E|]. destruct (ledger_same _ _ _ HLd) as [HS HD]. split; [done|].
    split; [apply (same_seg s); [apply HD; apply HC|apply HC]|]. split; [split; [intros _; by apply HI|done]|]. split; [|done].
    intros _. apply (same_seg s); [apply HD; apply HC|apply HC].
  - destruct (H Hct) as (s' & E & _ & _ & HLd & _). eexists _, s'. split; [exact E|]. destruct (ledger_same _ _ _ HLd) as [HS HD]. split; [done|].
    split. { apply (same_seg s); [|apply HC]. apply HD. apply not_elem_of_cons. split; [|apply HC]. pose proof (nc_ne _ _ _ _ _ _ _ _ _ _ HC). auto. }
    split; [|done]. split; [done|]. intros Q. apply HI in Q. done.
Qed.

(** ** C29 *)
Theorem C29_stays_feasible m n A B C Ax Aty AtAx F J (bv x : list R) (e : R) Ar (params : @L1qcOpts ER) c bx bb (s : @st ER) tau stages :
  @qc_call ER m n A B C Ax Aty AtAx F J (fin bv) c bx bb (fin x) s -> u_granted s -> work_granted s -> @starts ER m (fin x) params tau stages ->
  linmap m n Ar -> (forall v, length v = m -> A (fin v) = fin (Ar v)) -> lo_epsilon params = Fin e -> @counts_fit ER params stages ->
  (nrm2 (resid Ar bv x) <= e)%R ->
  exists r s' x', @solve ER m n bx bb params Ax Aty AtAx s = Ok r s' /\ lb_status r = L1C_SUCCESS /\
    @seg ER s' (Ptr bx 0) (fin x') /\ length x' = m /\ lb_l1 r = Fin (nrm1 x') /\
    (nrm2 (resid Ar bv x') <= e)%R /\ ((nrm2 (resid Ar bv x) < e)%R -> (nrm2 (resid Ar bv x') < e)%R).
Proof.
  intros [HO HC Hm Hnm Hf] Hu Hw Hi HL HA He Hct Hfeas.
  pose proof (@newton_run ER m n A B C Ax Aty AtAx F J HO (fin bv) params s c bx bb (fin x) HC Hm Hnm Hf) as H. cbv zeta in H.
  rewrite Hu in H. cbn [negb] in H. rewrite Hi in H. destruct H as [_ H]. specialize (H Hw). rewrite He in H.
  assert (Lx : length x = m) by (pose proof (@nc_lx _ _ _ _ _ _ _ _ _ _ _ HC) as Q; by rewrite fin_length in Q).
  assert (Lb : length bv = n) by (pose proof (@nc_lb _ _ _ _ _ _ _ _ _ _ _ HC) as Q; by rewrite fin_length in Q).
  pose proof (infeasible_ER m n A Ar bv e HL HA x Lx) as HI.
  destruct (@n_infeasible ER n A (fin bv) (Fin e) (fin x)). { exfalso. pose proof (proj1 HI eq_refl). lra. }
  clear HI. destruct (H Hct) as (s' & E & Sx & Ll & _). set (l0 := @n_begin ER m (fin x) tau c) in *.
  destruct (u0_ER m x Hm Lx) as (u & Eu & Lu & Hu1 & Hu2).
  assert (NS : forall v, (0 <= nrm2sq v)%R) by (intros v; apply Rsum_pos_le; intros; apply pow2_ge_0).
  assert (He0 : (0 <= e)%R). { pose proof (sqrt_pos (nrm2sq (resid Ar bv x))). unfold nrm2 in Hfeas. lra. }
  assert (I1 := @inv_lb ER m n A B C (fin bv) params (fun _ => True) (closedI Ar bv e) (fun _ _ => I)
     (fun tau xs us dx du g alpha k _ _ _ _ _ _ Hk => closed_step m n A Ar bv e HL HA Lb tau _ _ (@tab_length ER _ _) (n_ls_num m n A bv e params He tau g _ xs us dx du k Hk))
     (Z.to_nat stages) l0 I ltac:(apply HC) ltac:(apply (@tab_length ER)) ltac:(apply (@tab_length ER))).
  destruct I1 as ((x' & Ex' & Hx') & _).
  { exists x. split; [done|]. unfold nrm2 in Hfeas. rewrite <- (sqrt_def (nrm2sq _)) by apply NS. pose proof (sqrt_pos (nrm2sq (resid Ar bv x))). nra. }
  set (l := @n_lb ER m n A B C (fin bv) params (Z.to_nat stages) l0) in *.
  assert (Lx' : length x' = m) by (rewrite Ex', fin_length in Ll; done).
  rewrite Ex' in E, Sx. eexists _, s', x'. split; [exact E|]. split; [done|]. split; [exact Sx|]. split; [done|]. split; [cbn; by apply asum_ER|]. split.
  { unfold nrm2. rewrite <- (sqrt_square e) by done. by apply sqrt_le_1_alt. }
  intros Hst. apply nrm2_lt_inv in Hst as [He1 Hst].
  assert (I2 := @inv_lb ER m n A B C (fin bv) params (fun _ => True) (weakI m Ar bv e) (fun _ _ => I)
     (fun tau xs us dx du g alpha k _ HI L1 L2 L3 L4 Hk => weak_step m n A Ar bv e params HL HA Lb He tau xs us dx du g alpha k Hm HI L1 L2 L3 L4 Hk)
     (Z.to_nat stages) l0 I ltac:(apply HC) ltac:(apply (@tab_length ER)) ltac:(apply (@tab_length ER))).
  destruct I2 as ((x'' & Ex'' & Hx'' & _) & _).
  { exists x. split; [done|]. split; [done|]. intros i Hi'. cbn [l0 n_begin lu_]. rewrite Eu, at_fin, at_RN. cbn [er_leb]. unfold Rleb.
    destruct (Rle_dec _ _) as [|Hnle]; [done|]. exfalso. apply Hnle.
    destruct (Classical_Prop.classic (exists k, nth k x 0%R <> 0%R)) as [Hz|Hz]; [left; by apply Hu1|].
    assert (Z0 : forall k, nth k x 0%R = 0%R) by (intros k; apply Classical_Prop.NNPP; intros Q; apply Hz; eauto).
    rewrite Z0, Rabs_R0, (Hu2 Z0 i Hi'). lra. }
  fold l in Ex''. rewrite Ex' in Ex''. apply fin_inj in Ex'' as <-. by apply nrm2_lt.
Qed.

(** ** C37 *)
Theorem C37_first_request_refused `{N : Num} m n A B C Ax Aty AtAx F J bs params c bx bb xs s :
  qc_call m n A B C Ax Aty AtAx F J bs c bx bb xs s -> alloc_ok (en s) (nx s + 1) = false ->
  solve m n bx bb params Ax Aty AtAx s = Ub UbUninit.
Proof.
  intros [HO HC Hm Hnm Hf] Hu.
  pose proof (newton_run m n A B C Ax Aty AtAx F J HO bs params s c bx bb xs HC Hm Hnm Hf) as H. cbv zeta in H. by rewrite Hu in H.
Qed.
Theorem C37_later_request_refused `{N : Num} m n A B C Ax Aty AtAx F J bs params c bx bb xs s tau stages :
  qc_call m n A B C Ax Aty AtAx F J bs c bx bb xs s -> u_granted s -> work_refused s -> starts m xs params tau stages ->
  exists s', solve m n bx bb params Ax Aty AtAx s = Ok (mkLB (asum_of m xs) 0 0 L1C_OUT_OF_MEMORY) s' /\
    same_blocks s s' /\ forall b, dm s' !! b = dm s !! b.
Proof.
  intros [HO HC Hm Hnm Hf] Hu Hw Hi.
  pose proof (newton_run m n A B C Ax Aty AtAx F J HO bs params s c bx bb xs HC Hm Hnm Hf) as H. cbv zeta in H.
  rewrite Hu in H. cbn [negb] in H. rewrite Hi in H. destruct H as [H _]. destruct (H Hw) as (s' & E & HL & _).
  exists s'. split; [exact E|]. destruct (ledger_same _ _ _ HL) as [HS HD]. split; [done|]. intros b. apply HD. apply not_elem_of_nil.
Qed.
(** whatever the outcome, a call that returns has released everything and has written only x and the
    operators' private memory *)
Theorem C37_released `{N : Num} m n A B C Ax Aty AtAx F J bs params c bx bb xs s r s' :
  qc_call m n A B C Ax Aty AtAx F J bs c bx bb xs s ->
  (forall tau stages, starts m xs params tau stages -> counts_fit params stages) ->
  solve m n bx bb params Ax Aty AtAx s = Ok r s' ->
  same_blocks s s' /\ forall b, b <> bx -> b ∉ F -> dm s' !! b = dm s !! b.
Proof.
  intros [HO HC Hm Hnm Hf] Hct E. unfold starts in Hct.
  pose proof (newton_run m n A B C Ax Aty AtAx F J HO bs params s c bx bb xs HC Hm Hnm Hf) as H. cbv zeta in H. fold (solve m n bx bb params Ax Aty AtAx s) in H.
  rewrite E in H. destruct (alloc_ok (en s) (nx s + 1)); cbn [negb] in H; [|done].
  destruct (n_init m xs params) as [[tau stages]|]; [|done]. destruct H as [H1 H2].
  assert (HX : work_granted s \/ work_refused s).
  { unfold work_granted, work_refused. generalize 18%nat. intros k. induction k as [|k [IH|(j & Hj & Ej)]]; [left; lia| |right; exists j; split; [lia|done]].
    destruct (alloc_ok (en s) (nx s + 2 + k)) eqn:Ek; [left|right; exists k; split; [lia|done]].
    intros j Hj. destruct (decide (j = k)) as [->|]; [done|]. apply IH. lia. }
  assert (Fin_ : forall W, ledger W [] s s' -> (forall b, b ∈ W -> b = bx \/ b ∈ F) ->
     same_blocks s s' /\ forall b, b <> bx -> b ∉ F -> dm s' !! b = dm s !! b).
  { intros W HL HW. destruct (ledger_same _ _ _ HL) as [HS HD]. split; [done|]. intros b Hb HbF. apply HD. intros Hq. destruct (HW b Hq); done. }
  destruct HX as [HX|HX].
  - specialize (H2 HX). destruct (n_infeasible _ _ _ _ _).
    + destruct H2 as (t & [= _ <-] & HL & _). apply (Fin_ F HL). auto.
    + destruct (H2 (Hct _ _ eq_refl)) as (t & [= _ <-] & _ & _ & HL & _). apply (Fin_ _ HL). intros b [->|Hb]%elem_of_cons; auto.
  - destruct (H1 HX) as (t & [= _ <-] & HL & _). apply (Fin_ _ HL). intros b Hb. by apply elem_of_nil in Hb.
Qed.

(** ** C64: a zero start *)
(** the barrier parameter is computed as (2m+1)/0; with the number of stages left to the solver the
    conversion of -Inf to int is undefined, before the start has been checked for feasibility *)
Theorem C64_zero_start m n A B C Ax Aty AtAx F J bs (x : list R) (lt mu : R) (params : @L1qcOpts ER) c bx bb (s : @st ER) :
  @qc_call ER m n A B C Ax Aty AtAx F J bs c bx bb (fin x) s -> u_granted s ->
  (forall i, nth i x 0%R = 0%R) -> (0 < lt)%R -> (1 < mu)%R -> lo_lbtol params = Fin lt -> lo_mu params = Fin mu -> lo_lbiter params = 0 ->
  @solve ER m n bx bb params Ax Aty AtAx s = Ub UbCast.
Proof.
  intros [HO HC Hm Hnm Hf] Hu Hx Hl Hmu El Em Ei.
  pose proof (@newton_run ER m n A B C Ax Aty AtAx F J HO bs params s c bx bb (fin x) HC Hm Hnm Hf) as H. cbv zeta in H.
  rewrite Hu in H. cbn [negb] in H. unfold n_init in H. rewrite Ei, El, Em in H. cbn [Z.eqb] in H.
  assert (Lx : length x = m) by (pose proof (@nc_lx _ _ _ _ _ _ _ _ _ _ _ HC) as Q; by rewrite fin_length in Q).
  destruct (zero_start m x lt mu Lx Hx Hl Hmu) as [_ E2]. by rewrite E2 in H.
Qed.

(** ** C33 *)
Theorem C33_initial_pair (s : @st ER) m bx bu (x : list R) (params : @L1qcOpts ER) r s' :
  bx <> bu -> (1 <= m)%nat -> 2 * Z.of_nat m + 1 <= INT_MAX -> @seg ER s (Ptr bx 0) (fin x) -> length x = m -> wok s (Ptr bu 0) m ->
  @newton_init ER (Z.of_nat m) (Ptr bx 0) (Ptr bu 0) params s = Ok r s' ->
  exists u, @seg ER s' (Ptr bu 0) (fin u) /\ length u = m /\
    ((forall i, (i < m)%nat -> (Rabs (nth i x 0) < nth i u 0)%R) <-> exists i, nth i x 0%R <> 0%R) /\
    ((forall i, nth i x 0%R = 0%R) -> forall i, (i < m)%nat -> nth i u 0%R = 0%R).
Proof.
  intros Hne Hm Hf Sx Lx Wu E. rewrite (@newton_init_run ER s m bx bu (fin x)) in E; try done; [|by rewrite fin_length].
  destruct (n_init _ _ _); [|done]. assert (Es := f_equal (fun o => match o with Ok _ z => z | Ub _ => s end) E). cbn beta iota in Es. subst s'.
  destruct (u0_ER m x Hm Lx) as (u & Eu & Lu & H1 & H2).
  exists u. rewrite Eu. split; [apply seg_wr; by rewrite fin_length, Lu|]. split; [done|].
  assert (D : (exists i, nth i x 0%R <> 0%R) \/ (forall i, nth i x 0%R = 0%R)).
  { destruct (Classical_Prop.classic (exists k, nth k x 0%R <> 0%R)) as [Hz|Hz]; [by left|]. right. intros k. apply Classical_Prop.NNPP. intros Q. apply Hz. eauto. }
  split.
  - split; [|done]. intros H. destruct D as [D|D]; [done|]. exfalso. specialize (H 0%nat ltac:(lia)). rewrite (H2 D 0%nat) in H by lia. pose proof (Rabs_pos (nth 0 x 0%R)). lra.
  - intros Hx. by apply H2.
Qed.

(** ** C34 *)
Section C34.
Local Open Scope R_scope.
(** (2m+1)/tau, the duality gap of the point that minimises the barrier objective for tau *)
Definition gap (m : nat) (tau : R) : R := (2 * INR m + 1) / tau.
Lemma Zceil_bounds y : IZR (Zceil y) - 1 < y <= IZR (Zceil y).
Proof. split; [|apply Zceil_ub]. pose proof (Zfloor_lb (- y)) as H1. pose proof (Zfloor_ub (- y)). unfold Zceil. rewrite opp_IZR. lra. Qed.
(** tau0 and the number of stages as computed at entry *)
Theorem C34_stage_count (s : @st ER) m bx bu (x : list R) (params : @L1qcOpts ER) (lt mu : R) tau stages s' :
  bx <> bu -> (2 * Z.of_nat m + 1 <= INT_MAX)%Z -> @seg ER s (Ptr bx 0) (fin x) -> length x = m -> wok s (Ptr bu 0) m ->
  (exists i, nth i x 0 <> 0) -> 0 < lt -> 1 < mu -> lo_lbtol params = Fin lt -> lo_mu params = Fin mu -> lo_lbiter params = 0%Z ->
  @newton_init ER (Z.of_nat m) (Ptr bx 0) (Ptr bu 0) params s = Ok (tau, stages) s' ->
  exists tau0, tau = Fin tau0 /\ tau0 = Rmax (gap m (nrm1 x)) 1 /\
    gap m (tau0 * Rpower mu (IZR stages)) <= lt /\
    (* the last of the stages runs with tau0 * mu^(stages-1) *)
    lt < gap m (tau0 * Rpower mu (IZR stages - 1)) <= mu * lt.
Proof.
  intros Hne Hf Sx Lx Wu Hx Hl Hmu El Em Ei E. rewrite (@newton_init_run ER s m bx bu (fin x)) in E; try done; [|by rewrite fin_length].
  unfold n_init in E. rewrite Ei, El, Em in E. cbn [Z.eqb] in E. rewrite (stages_ER m x lt mu Lx Hx Hl Hmu), (tau0_ER m x Lx Hx) in E.
  set (t0 := Rmax ((2 * INR m + 1) / nrm1 x) 1) in *. set (y := (ln (2 * INR m + 1) - ln lt - ln t0) / ln mu) in *. cbv zeta in E.
  destruct (in_int (Zceil y)); [|done].
  assert (E1 := f_equal (fun o => match o with Ok r _ => r | Ub _ => (NaN, 0%Z) end) E). cbn beta iota in E1. injection E1 as <- <-. clear E.
  exists t0. split; [done|]. split; [done|]. pose proof (Zceil_bounds y) as [B1 B2]. set (k := IZR (Zceil y)) in *.
  assert (Ht0 : 1 <= t0) by apply Rmax_r. pose proof (pos_INR m) as Pm.
  assert (Lmu : 0 < ln mu) by (rewrite <- ln_1; apply ln_increasing; lra).
  assert (Ey : y * ln mu = ln (2 * INR m + 1) - ln lt - ln t0) by (unfold y; field; lra).
  assert (P1 : forall z, 0 < Rpower mu z) by (intros; apply exp_pos).
  assert (LN : forall z, ln (gap m (t0 * Rpower mu z)) = ln (2 * INR m + 1) - ln t0 - z * ln mu).
  { intros z. unfold gap. specialize (P1 z). unfold Rdiv. rewrite ln_mult; [|lra|apply Rinv_0_lt_compat; nra].
    rewrite ln_Rinv by nra. rewrite ln_mult by lra. unfold Rpower. rewrite ln_exp. lra. }
  assert (GP : forall z, 0 < gap m (t0 * Rpower mu z)).
  { intros z. specialize (P1 z). unfold gap. apply Rdiv_lt_0_compat; nra. }
  assert (L1 : gap m (t0 * Rpower mu k) <= lt).
  { destruct (Rle_or_lt (gap m (t0 * Rpower mu k)) lt) as [|Q]; [done|]. apply ln_increasing in Q; [|done]. rewrite LN in Q. nra. }
  split; [done|]. split.
  - apply ln_lt_inv; [done|apply GP|]. rewrite LN. nra.
  - replace (gap m (t0 * Rpower mu (k - 1))) with (mu * gap m (t0 * Rpower mu k)); [apply Rmult_le_compat_l; lra|].
    unfold gap. unfold Rminus. rewrite Rpower_plus, Rpower_Ropp, Rpower_1 by lra. specialize (P1 k). field. repeat split; lra.
Qed.
(** a stage that returns hands on tau * mu, also to the struct read by the next stage *)
Theorem C34_next_tau `{N : Num} P x u params tau step tn tcg s r s' :
  lb_iter P x u params (tau, step, tn, tcg) s = Ok r s' ->
  fst (fst (fst r)) = mul tau (lo_mu params) /\ cell s' (pb_sc P) 0 = Some (Some (mul tau (lo_mu params))).
Proof.
  unfold lb_iter. intros H. apply bind_inv in H as ([] & s1 & _ & H). apply bind_inv in H as (? & s2 & _ & H).
  apply bind_inv in H as ([i [[l1 st] cg]] & s3 & _ & H). cbv beta iota in H. apply bind_inv in H as (tn' & s4 & _ & H).
  apply bind_inv in H as ([] & s5 & E & H). assert (H1 := f_equal (fun o => match o with Ok a _ => Some a | Ub _ => None end) H).
  assert (H2 := f_equal (fun o => match o with Ok _ z => z | Ub _ => s end) H). cbn beta iota in H1, H2. injection H1 as <-. split; [done|]. rewrite <- H2 in *. clear H H2 s'. rename s5 into s'.
  unfold sto in E. destruct (cell s4 (pb_sc P) 0) as [o|] eqn:Ec; [|done].
  assert (H3 := f_equal (fun o => match o with Ok _ z => z | Ub _ => s end) E). cbn beta iota in H3. subst s'.
  destruct (pb_sc P) as [|b o']; [done|]. unfold cell in *. simpl. rewrite lookup_alter. rewrite Z.add_0_r in *.
  destruct (0 <=? o')%Z; [|done]. destruct (dm s4 !! b) as [cc|]; [|done]. simpl. apply list_lookup_insert. by apply lookup_lt_is_Some_1.
Qed.
Theorem C34_stage_tau `{N : Num} P x u params tau step tn tcg (j : nat) s r s' :
  for_acc 1 (Z.of_nat j + 1) ((tau, step, tn, tcg) : lbv) (fun _ => lb_iter P x u params) s = Ok r s' ->
  fst (fst (fst r)) = Nat.iter j (fun t => mul t (lo_mu params)) tau.
Proof.
  unfold for_acc. replace (Z.to_nat (Z.of_nat j + 1 - 1)) with j by lia. generalize 1%Z. revert tau step tn tcg s.
  induction j as [|j IH]; intros tau step tn tcg s i H; cbn [accn] in H.
  - assert (H1 := f_equal (fun o => match o with Ok a _ => Some a | Ub _ => None end) H). cbn in H1. by injection H1 as <-.
  - apply bind_inv in H as ([[[tau1 st1] tn1] cg1] & s1 & E & H). apply C34_next_tau in E as [E _]. cbn [fst] in E. subst tau1.
    apply IH in H. rewrite H. symmetry. apply (Nat.iter_succ_r j (fun t => mul t (lo_mu params))).
Qed.
(** the guarantee at the point that the last stage aims at *)
Theorem C34_gap_at_exit m n A B b e tau0 mu lt stages x u g h :
  linmap m n A -> adjoint m n A B -> length b = n -> length x = m -> length u = m ->
  0 < tau0 -> 1 < mu -> gap m (tau0 * Rpower mu (stages - 1)) <= mu * lt ->
  strictly_feasible A b e x u ->
  (* the gradient of the barrier objective of the last stage vanishes at (x,u) *)
  is_gradient (barrier A b e (tau0 * Rpower mu (stages - 1))) x u g h -> (forall i, (i < m)%nat -> nth i g 0 = 0 /\ nth i h 0 = 0) ->
  forall xs, length xs = m -> nrm2 (resid A b xs) <= e -> nrm1 x <= nrm1 xs + mu * lt.
Proof.
  intros HL HB Lb Lx Lu Ht Hmu Hg HF HG Hz xs Ls Hs. set (t := tau0 * Rpower mu (stages - 1)) in *.
  assert (0 < t) by (apply Rmult_lt_0_compat; [done|apply exp_pos]).
  pose proof (barrier_gap m n A B b e t HL HB ltac:(lra) x u g h xs H Lx Lu HF HG Hz Ls Hs) as Q. unfold gap in Hg. lra.
Qed.
End C34.

(** ** C35 *)
(** every Newton step calls Aty exactly once, so the operators' own count c tells the number of steps
    performed; total_newton_iter is what the call reports *)
Theorem C35_counting `{N : Num} m n A B C Ax Aty AtAx F J bs params c bx bb xs s tau stages :
  qc_call m n A B C Ax Aty AtAx F J bs c bx bb xs s -> u_granted s -> work_granted s -> starts m xs params tau stages -> counts_fit params stages ->
  ltb_ zero (sub (nrm2_of n (axpy_of n (opp one) bs (A xs))) (lo_epsilon params)) = false ->
  (* for each stage the number of steps, and whether the stage was cut off by the limit *)
  exists (ks : list (nat * bool)) r s', solve m n bx bb params Ax Aty AtAx s = Ok r s' /\
    Z.of_nat (length ks) = Z.max 0 stages /\
    Forall (fun k => Z.of_nat (fst k) <= Z.max 0 (lo_newton_max_iter params - 1) /\
                     (snd k = true -> Z.of_nat (fst k) = Z.max 0 (lo_newton_max_iter params - 1))) ks /\
    J (c + sum_list (fst <$> ks))%nat s' /\
    lb_newton r = Z.of_nat (sum_list (fst <$> ks)) + Z.of_nat (length (filter (fun k => snd k = true) ks)).
Proof.
  intros [HO HC Hm Hnm Hf] Hu Hw Hi Hct Hfe.
  pose proof (newton_run m n A B C Ax Aty AtAx F J HO bs params s c bx bb xs HC Hm Hnm Hf) as H. cbv zeta in H.
  rewrite Hu in H. cbn [negb] in H. rewrite Hi in H. destruct H as [_ H]. specialize (H Hw). unfold n_infeasible, n_res in H. rewrite Hfe in H.
  destruct (H Hct) as (s' & E & _ & _ & _ & _ & HJ).
  destruct (lb_count m n A B C bs params (Z.to_nat stages) (n_begin m xs tau c)) as (ks & L & HK & E1 & E2). cbv zeta in E1, E2.
  exists ks. eexists _, s'. split; [exact E|]. split; [lia|]. split.
  { eapply Forall_impl; [exact HK|]. intros k [H1 H2]. unfold n_fuel in *. split; [lia|]. intros Q. rewrite H2 by done. lia. }
  rewrite E1 in HJ. split; [exact HJ|]. cbn [lb_newton]. rewrite E2. cbn [n_begin ltn_]. lia.
Qed.

(** ** C36 *)
(** the documented L1C_CGSOLVE_FAILURE is never returned, with whatever operators *)
Theorem C36_status `{N : Num} m x n b params Ax Aty AtAx s r s' :
  l1c_l1qc_newton m x n b params Ax Aty AtAx s = Ok r s' ->
  lb_status r ∈ [L1C_SUCCESS; L1C_OUT_OF_MEMORY; L1C_INFEASIBLE_START] /\ lb_status r <> L1C_CGSOLVE_FAILURE.
Proof. intros H. destruct (status_cases _ _ _ _ _ _ _ _ _ _ _ H) as [E|[E|E]]; rewrite E; split; try done; isin. Qed.

(** ** C38 *)
Theorem C38_in_bounds `{N : Num} m n A B C Ax Aty AtAx F J bs params c bx bb xs s :
  qc_call m n A B C Ax Aty AtAx F J bs c bx bb xs s ->
  (forall tau stages, starts m xs params tau stages -> counts_fit params stages) ->
  (* the only undefined behaviour is that of C37 (no memory for u) and of C64 (conversion to int) *)
  safe (solve m n bx bb params Ax Aty AtAx) s \/
  (solve m n bx bb params Ax Aty AtAx s = Ub UbUninit /\ ~ u_granted s) \/
  (solve m n bx bb params Ax Aty AtAx s = Ub UbCast /\ lo_lbiter params = 0).
Proof.
  intros [HO HC Hm Hnm Hf] Hct. unfold starts in Hct.
  pose proof (newton_run m n A B C Ax Aty AtAx F J HO bs params s c bx bb xs HC Hm Hnm Hf) as H. cbv zeta in H.
  unfold u_granted. destruct (alloc_ok (en s) (nx s + 1)); cbn [negb] in H; [|right; left; done].
  destruct (n_init m xs params) as [[tau stages]|] eqn:Ei.
  2:{ right; right. split; [done|]. unfold n_init in Ei. destruct (Z.eqb_spec (lo_lbiter params) 0); done. }
  left. destruct H as [H1 H2].
  assert (HX : work_granted s \/ work_refused s).
  { unfold work_granted, work_refused. generalize 18%nat. intros k. induction k as [|k [IH|(j & Hj & Ej)]]; [left; lia| |right; exists j; split; [lia|done]].
    destruct (alloc_ok (en s) (nx s + 2 + k)) eqn:Ek; [left|right; exists k; split; [lia|done]].
    intros j Hj. destruct (decide (j = k)) as [->|]; [done|]. apply IH. lia. }
  destruct HX as [HX|HX].
  - specialize (H2 HX). destruct (n_infeasible _ _ _ _ _); [destruct H2 as (t & E & _)|destruct (H2 (Hct _ _ eq_refl)) as (t & E & _)]; by eexists _, t.
  - destruct (H1 HX) as (t & E & _). by eexists _, t.
Qed.
(** with more measurements than unknowns the call cannot return, unless it runs out of memory first *)
Theorem C38_too_many_measurements `{N : Num} m n bx bb xs params Ax Aty AtAx s r s' :
  unborn s -> (bx < nx s)%nat -> seg s (Ptr bx 0) xs -> length xs = m -> (m < n)%nat -> 2 * Z.of_nat m + 1 <= INT_MAX ->
  keeps_sizes Ax -> solve m n bx bb params Ax Aty AtAx s = Ok r s' -> lb_status r = L1C_OUT_OF_MEMORY.
Proof. apply too_many. Qed.

(** ** Concrete cases: two unknowns, the first one is measured (operators of E_Sub.v).
    Blocks 0, 1, 2: x, b, and the operators' call counter. *)
Module NewtEx.
Section ex.
Context `{N : Num}.
Definition s0 (x1 x2 b1 : T) : st := state_of [full [x1; x2]; full [b1]; full [zero]].
Lemma call (x1 x2 b1 : T) : qc_call 2 1 (s_A 1) (s_B 2 1) (s_C 2 1) (s_ax 1) (s_aty 2 1 2) (s_atax 2 1) [2%nat] (s_J 2) [b1] 0 0 1 [x1; x2] (s0 x1 x2 b1).
Proof.
  split; [apply sub_opers; lia| |lia|lia|unfold INT_MAX; lia].
  split; try done; try (apply state_of_seg; done); try (simpl; lia).
  - apply state_unborn.
  - intros b ->%elem_of_list_singleton. simpl. lia.
  - notin.
  - notin.
Qed.
Lemma granted x1 x2 b1 : u_granted (s0 x1 x2 b1) /\ work_granted (s0 x1 x2 b1). Proof. by split. Qed.
(** two barrier stages of at most 4 Newton steps and 10 CG steps *)
Definition opts (e mu lbtol : T) (lbiter : Z) : L1qcOpts := mkL1qc e mu lbtol zero lbiter lbtol 5 0 lbtol lbtol 10 0 0 1.
Lemma begins x1 x2 e mu lt : starts 2 [x1; x2] (opts e mu lt 2) (n_tau0 2 [x1; x2]) 2. Proof. done. Qed.
Lemma fits e mu lt : counts_fit (opts e mu lt 2) 2.
Proof. unfold counts_fit, INT_MAX. cbn. unfold n_fuel, cgm. cbn. lia. Qed.
(** so every vector x and every measurement can be given to the solver, with all memory granted *)
Lemma in_bounds x1 x2 b1 e mu lt : safe (solve 2 1 0 1 (opts e mu lt 2) (s_ax 1) (s_aty 2 1 2) (s_atax 2 1)) (s0 x1 x2 b1).
Proof.
  destruct (C38_in_bounds _ _ _ _ _ _ _ _ _ _ _ (opts e mu lt 2) _ _ _ _ _ (call x1 x2 b1)) as [H|[[_ H]|[_ H]]]; [|done| |done].
  - intros tau k Hs. assert (E := begins x1 x2 e mu lt). unfold starts in *. rewrite E in Hs. injection Hs as <- <-. apply fits.
  - by destruct H.
Qed.
End ex.
Local Open Scope R_scope.
Definition Ar (x : list R) : list R := take 1 x.
Lemma lin : linmap 2 1 Ar.
Proof.
  split; [intros [|? [|]]; simpl; intros; done|]. intros a u v Lu Lv i Hi. destruct u as [|u1 [|u2 [|]]], v as [|v1 [|v2 [|]]]; try done.
  assert (i = 0%nat) as -> by lia. unfold vlin. simpl. lra.
Qed.
Lemma AL v : length v = 2%nat -> @s_A ER 1 (fin v) = fin (Ar v).
Proof. intros H. unfold s_A, Ar, fin. by rewrite <- fmap_take. Qed.
Lemma res (x1 x2 b1 : R) : nrm2 (resid Ar [b1] [x1; x2]) = Rabs (x1 - b1).
Proof. unfold resid, nrm2, nrm2sq, vlin. simpl. rewrite <- sqrt_Rsqr_abs. f_equal. unfold Rsqr. lra. Qed.
(** C27: x = (2,3), b = 9, eps = 1 *)
Example infeasible : exists r s', @solve ER 2 1 0 1 (@opts ER (Fin 1) (Fin 10) (Fin (1/100)) 2) (@s_ax ER 1) (@s_aty ER 2 1 2) (@s_atax ER 2 1) (@s0 ER (Fin 2) (Fin 3) (Fin 9)) = Ok r s' /\
   lb_status r = L1C_INFEASIBLE_START /\ @seg ER s' (Ptr 0 0) (fin [2; 3]).
Proof.
  destruct (C27_exact 2 1 _ _ _ _ _ _ _ _ [9] [2; 3] 1 Ar (@opts ER (Fin 1) (Fin 10) (Fin (1/100)) 2) _ _ _ _ _ _ (@call ER (Fin 2) (Fin 3) (Fin 9)) (proj1 (@granted ER _ _ _)) (proj2 (@granted ER _ _ _))
    (@begins ER _ _ _ _ _) lin AL eq_refl (@fits ER _ _ _)) as (r & s' & E & _ & _ & H1 & H2 & _).
  assert (Hs : lb_status r = L1C_INFEASIBLE_START). { apply H1. rewrite res. unfold Rabs. destruct (Rcase_abs _); lra. }
  exists r, s'. split; [exact E|]. split; [done|]. by apply H2.
Qed.
(** C29: x = (2,3), b = 2, eps = 1: strictly feasible on return *)
Example feasible : exists r s' x', @solve ER 2 1 0 1 (@opts ER (Fin 1) (Fin 10) (Fin (1/100)) 2) (@s_ax ER 1) (@s_aty ER 2 1 2) (@s_atax ER 2 1) (@s0 ER (Fin 2) (Fin 3) (Fin 2)) = Ok r s' /\
   lb_status r = L1C_SUCCESS /\ @seg ER s' (Ptr 0 0) (fin x') /\ nrm2 (resid Ar [2] x') < 1.
Proof.
  destruct (C29_stays_feasible 2 1 _ _ _ _ _ _ _ _ [2] [2; 3] 1 Ar (@opts ER (Fin 1) (Fin 10) (Fin (1/100)) 2) _ _ _ _ _ _ (@call ER (Fin 2) (Fin 3) (Fin 2)) (proj1 (@granted ER _ _ _)) (proj2 (@granted ER _ _ _))
    (@begins ER _ _ _ _ _) lin AL eq_refl (@fits ER _ _ _)) as (r & s' & x' & E & Es & Sx & _ & _ & _ & Hs).
  - rewrite res. unfold Rabs. destruct (Rcase_abs _); lra.
  - exists r, s', x'. split; [exact E|]. split; [done|]. split; [exact Sx|]. apply Hs. rewrite res. unfold Rabs. destruct (Rcase_abs _); lra.
Qed.
(** C34: x = (2,3), lbtol = 1/100, mu = 10: tau0 = 1, three stages *)
Example three_stages : exists s', @newton_init ER 2 (Ptr 0 0) (Ptr 1 0) (@opts ER (Fin 1) (Fin 10) (Fin (1/100)) 0) (@state_of ER [@full ER (fin [2; 3]); fresh 2]) = Ok (Fin 1, 3%Z) s'.
Proof.
  eexists. rewrite (@newton_init_run ER _ 2 0 1 (fin [2; 3])); try done; [|by apply (@state_of_seg ER)|eapply (@state_of_wok ER); [done|simpl; lia]].
  assert (Hx : exists i, nth i [2; 3] 0 <> 0) by (exists 0%nat; simpl; lra).
  assert (E1 : nrm1 [2; 3] = 5) by (unfold nrm1; simpl; rewrite !Rabs_pos_eq by lra; lra).
  assert (ER1 : Rmax ((2 * INR 2 + 1) / 5) 1 = 1). { replace ((2 * INR 2 + 1) / 5) with 1 by (simpl; lra). unfold Rmax. by destruct (Rle_dec _ _). }
  assert (ET : @n_tau0 ER 2 (fin [2; 3]) = Fin 1) by (rewrite (tau0_ER 2 [2; 3] eq_refl Hx), E1; f_equal; exact ER1).
  unfold n_init. change (lo_lbiter _) with 0%Z. cbn [Z.eqb]. rewrite ET.
  change (lo_lbtol (opts _ _ _ _)) with (Fin (1/100)). change (lo_mu (opts _ _ _ _)) with (Fin 10).
  rewrite (stages_ER 2 [2; 3] (1/100) 10 eq_refl Hx) by lra. cbv zeta. rewrite E1.
  set (y := ((ln (2 * INR 2 + 1) - ln (1 / 100) - ln (Rmax ((2 * INR 2 + 1) / 5) 1)) / ln 10)).
  assert (Ey : Zceil y = 3%Z).
  { apply Zceil_imp.
    assert (E5 : 2 * INR 2 + 1 = 5) by (simpl; lra). assert (L0 : 0 < ln 10) by (rewrite <- ln_1; apply ln_increasing; lra).
    assert (Ly : y = ln 500 / ln 10). { unfold y. rewrite ER1, E5, ln_1. f_equal. replace 500 with (5 * 100) by lra. rewrite ln_mult by lra.
      replace (1 / 100) with (/ 100) by lra. rewrite ln_Rinv by lra. lra. }
    assert (L2 : ln 100 = 2 * ln 10) by (replace 100 with (10 * 10) by lra; rewrite ln_mult by lra; lra).
    assert (L3 : ln 1000 = 3 * ln 10) by (replace 1000 with (100 * 10) by lra; rewrite ln_mult by lra; lra).
    assert (ln 100 < ln 500 < ln 1000) by (split; apply ln_increasing; lra). rewrite Ly. cbn [Z.sub Z.add Z.opp Z.pos_sub]. 
    assert (Q : ln 500 = (ln 500 / ln 10) * ln 10) by (field; lra). split; [change (IZR (3 - 1)) with 2|]; nra. }
  rewrite Ey. done.
Qed.
End NewtEx.

Print Assumptions C27_infeasible_start.
Print Assumptions C27_exact.
Print Assumptions C29_stays_feasible.
Print Assumptions C33_initial_pair.
Print Assumptions C34_stage_count.
Print Assumptions C34_next_tau.
Print Assumptions C34_stage_tau.
Print Assumptions C34_gap_at_exit.
Print Assumptions C35_counting.
Print Assumptions C36_status.
Print Assumptions C37_first_request_refused.
Print Assumptions C37_later_request_refused.
Print Assumptions C37_released.
Print Assumptions C38_in_bounds.
Print Assumptions C38_too_many_measurements.
Print Assumptions C64_zero_start.
