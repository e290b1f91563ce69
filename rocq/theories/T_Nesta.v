(** * C39-C45, C65-C67: NESTA (src/nesta.c). *)
From Coq Require Import ZArith Lia Reals Lra Psatz.
From stdpp Require Import base numbers gmap list.
From Verif Require Import Globals Mem M_Math M_Memory M_Status M_Nesta P_Mem P_Loop P_Math P_MathR P_TVR P_Memory S_Mem P_Touch P_Own P_Own2 P_Own3 P_CG
  P_Newton P_Newt7 L_Sum S_Vec L_Lin L_ER P_CGR S_Newt P_NewtX P_NewtX2 P_NewtR L_Barrier S_Nesta L_Nesta P_Nesta P_Nesta2 P_Nesta3 P_NestaF P_NestaR E_Op T_Bregman T_Newton.
Local Open Scope Z_scope.

(** The fields Ax, Aty, Wtx, Wz of the transform compute A, B, Wt, Wm; they may use the blocks F for
    themselves, and J says what F looks like between calls. *)
Record nesta_ops `{N : Num} (call : fptr -> ptr -> ptr -> M unit) (m n p : nat) (A B Wt Wm : list T -> list T) (F : list nat) (J : st -> Prop) (ax : AxFuns) : Prop := {
  nop_A : oper F J (call (ax_Ax ax)) m n A; nop_B : oper F J (call (ax_Aty ax)) n m B;
  nop_Wt : oper F J (call (ax_Wtx ax)) m p Wt; nop_W : oper F J (call (ax_Wz ax)) p m Wm;
  nop_J : forall s s', J s -> same_on F s s' -> J s'; nop_p : (1 <= p)%nat
}.
(** A call of l1c_nesta: x and b are separate arrays of m and n doubles, b is aligned and holds bs, the
    sizes are those of the transform. *)
Record nesta_call `{N : Num} (call : fptr -> ptr -> ptr -> M unit) (m n p : nat) (A B Wt Wm : list T -> list T) (F : list nat) (J : st -> Prop) (ax : AxFuns)
    (bx bb : nat) (bs : list T) (opts : NestaOpts) (s : st) : Prop := {
  nc_ops : nesta_ops call m n p A B Wt Wm F J ax;
  nc_m : ax_m ax = Z.of_nat m; nc_n : ax_n ax = Z.of_nat n; nc_p : ax_p ax = Z.of_nat p; nc_np : (n <= Nat.max m p)%nat;
  nc_unborn : unborn s; nc_J : J s; nc_F : forall b, b ∈ F -> (b < nx s)%nat;
  nc_bx : (bx < nx s)%nat; nc_bb : (bb < nx s)%nat; nc_ne : bx <> bb; nc_xF : bx ∉ F; nc_bF : bb ∉ F;
  nc_b : seg s (Ptr bb 0) bs; nc_lb : length bs = n; nc_x : wok s (Ptr bx 0) m; nc_al : is_aligned s (Ptr bb 0) = true;
  nc_cont : no_n_continue opts < INT_MAX
}.
Definition nesta `{N : Num} call (m n : nat) (bx bb : nat) ax opts : M Z :=
  l1c_nesta call (Z.of_nat m) (Ptr bx 0) (Z.of_nat n) (Ptr bb 0) ax opts.
(** none of Wz, Wtx, Rx, Rty is NULL *)
Definition complete `{N : Num} (ax : AxFuns) : Prop := forall f, f ∈ [ax_Wz ax; ax_Wtx ax; ax_Rx ax; ax_Rty ax] -> f <> FNull.
(** requests are numbered from nx s; the eleventh is the plain malloc of the queue *)
Definition granted `{N : Num} (s : st) (k : nat) : Prop := forall j, (j < k)%nat -> alloc_ok (en s) (nx s + j) = true.
Definition refused `{N : Num} (s : st) (k : nat) : Prop := exists j, (j < k)%nat /\ alloc_ok (en s) (nx s + j) = false.
Definition queue_aligned `{N : Num} (s : st) : Prop := luck (en s) (nx s + 10) = true.

Lemma complete_fields `{N : Num} ax : complete ax <-> fields_set ax = true.
Proof.
  unfold complete, fields_set. rewrite negb_true_iff, !orb_false_iff. unfold fptr_is_null. split.
  - intros H. assert (H1 := H (ax_Wz ax) ltac:(isin)). assert (H2 := H (ax_Wtx ax) ltac:(isin)). assert (H3 := H (ax_Rx ax) ltac:(isin)). assert (H4 := H (ax_Rty ax) ltac:(isin)).
    split_and!; [destruct (ax_Wz ax)|destruct (ax_Wtx ax)|destruct (ax_Rx ax)|destruct (ax_Rty ax)]; done.
  - intros [[[H1 H2] H3] H4] f Hf. repeat (apply elem_of_cons in Hf as [->|Hf]; [by intros E; rewrite E in *|]). by apply elem_of_nil in Hf.
Qed.

(** ** C45, C65 *)
Theorem C45_size_mismatch `{N : Num} call m n x b ax opts s :
  n <> ax_n ax \/ m <> ax_m ax -> l1c_nesta call m x n b ax opts s = Ok L1C_INVALID_ARGUMENT s.
Proof.
  intros H. unfold l1c_nesta. destruct (Z.eqb_spec n (ax_n ax)), (Z.eqb_spec m (ax_m ax)); try done. by destruct H.
Qed.
Theorem C45_out_of_memory `{N : Num} call m n p A B Wt Wm F J ax bx bb bs opts s :
  nesta_call call m n p A B Wt Wm F J ax bx bb bs opts s -> refused s 10 ->
  exists s', nesta call m n bx bb ax opts s = Ok L1C_OUT_OF_MEMORY s' /\ same_blocks s s' /\ forall b, dm s' !! b = dm s !! b.
Proof.
  intros [[HA HB HWt HW HJs Hp] Em En Ep Hn Hu HJ HF Hbx Hbb Hne HxF HbF Sb Lb Wx Al Hc] (j & Hj & Ej).
  destruct (nesta_run call m n p A B Wt Wm F J ax HA HB HWt HW Hp HJs s bx bb bs opts) as [H|[H|[H|[H|H]]]]; try done.
  - destruct H as (_ & s' & E & HL & _). exists s'. split; [exact E|]. destruct (ledger_same _ _ _ HL) as [HS HD]. split; [done|]. intros b. apply HD. apply not_elem_of_nil.
  - destruct H as (H & _). by rewrite H in Ej by lia.
  - destruct H as (H & _). by rewrite H in Ej by lia.
  - destruct H as (H & _). by rewrite H in Ej by lia.
  - destruct H as (H & _). by rewrite H in Ej by lia.
Qed.
(** a transform without Wz, Wtx, Rx or Rty is rejected, but the ten blocks of the problem stay allocated *)
Theorem C45_incomplete_transform_leaks `{N : Num} call m n p A B Wt Wm F J ax bx bb bs opts s :
  nesta_call call m n p A B Wt Wm F J ax bx bb bs opts s -> granted s 10 -> ~ complete ax ->
  exists s', nesta call m n bx bb ax opts s = Ok L1C_INCONSISTENT_ARGUMENTS s' /\
    is_Some (om s' !! nx s) /\ forall j, (1 <= j <= 9)%nat -> is_Some (dm s' !! (nx s + j)%nat).
Proof.
  intros [[HA HB HWt HW HJs Hp] Em En Ep Hn Hu HJ HF Hbx Hbb Hne HxF HbF Sb Lb Wx Al Hc] Hg Hn'.
  assert (Hf : fields_set ax <> true) by (by rewrite <- complete_fields).
  destruct (nesta_run call m n p A B Wt Wm F J ax HA HB HWt HW Hp HJs s bx bb bs opts) as [H|[H|[H|[H|H]]]]; try done.
  - destruct H as ((j & Hj & Ej) & _). by rewrite Hg in Ej.
  - destruct H as (_ & _ & s' & E & HL & _). exists s'. split; [exact E|]. split.
    + apply (lg_own _ _ _ _ HL KO (nx s)). cbn [np_owns np0 np_xo np_xk np_yk np_zk np_Atb np_gradf np_gradf_sum np_dwork1 np_dwork2 np_self own app]. isin.
    + intros j Hj. apply (lg_own _ _ _ _ HL KD (nx s + j)%nat). cbn [np_owns np0 np_xo np_xk np_yk np_zk np_Atb np_gradf np_gradf_sum np_dwork1 np_dwork2 np_self own app].
      destruct j as [|[|[|[|[|[|[|[|[|[|j]]]]]]]]]]; try lia; isin.
  - destruct H as (_ & H & _). done.
  - destruct H as (_ & H & _). done.
  - destruct H as (_ & H & _). done.
Qed.
(** the result of malloc for the queue is used without a test *)
Theorem C45_queue_refused `{N : Num} call m n p A B Wt Wm F J ax bx bb bs opts s :
  nesta_call call m n p A B Wt Wm F J ax bx bb bs opts s -> granted s 10 -> complete ax -> alloc_ok (en s) (nx s + 10) = false ->
  nesta call m n bx bb ax opts s = Ub UbOob.
Proof.
  intros [[HA HB HWt HW HJs Hp] Em En Ep Hn Hu HJ HF Hbx Hbb Hne HxF HbF Sb Lb Wx Al Hc] Hg Hf%complete_fields Hr.
  destruct (nesta_run call m n p A B Wt Wm F J ax HA HB HWt HW Hp HJs s bx bb bs opts) as [H|[H|[H|[H|H]]]]; try done.
  - destruct H as ((j & Hj & Ej) & _). by rewrite Hg in Ej.
  - destruct H as (_ & H & _). congruence.
  - apply H.
  - destruct H as (H & _). by rewrite H in Hr by lia.
  - destruct H as (H & _). by rewrite H in Hr by lia.
Qed.
(** and it is passed on as aligned to 64 bytes, which malloc does not promise *)
Theorem C65_queue_not_aligned `{N : Num} call m n p A B Wt Wm F J ax bx bb bs opts s :
  nesta_call call m n p A B Wt Wm F J ax bx bb bs opts s -> granted s 11 -> complete ax -> ~ queue_aligned s -> 1 <= no_n_continue opts ->
  nesta call m n bx bb ax opts s = Ub UbAlign.
Proof.
  intros [[HA HB HWt HW HJs Hp] Em En Ep Hn Hu HJ HF Hbx Hbb Hne HxF HbF Sb Lb Wx Al Hc] Hg Hf%complete_fields Hr Hc1. unfold queue_aligned in Hr.
  destruct (nesta_run call m n p A B Wt Wm F J ax HA HB HWt HW Hp HJs s bx bb bs opts) as [H|[H|[H|[H|H]]]]; try done.
  - destruct H as ((j & Hj & Ej) & _). by rewrite Hg in Ej by lia.
  - destruct H as (_ & H & _). congruence.
  - destruct H as (_ & _ & H & _). by rewrite Hg in H by lia.
  - apply H.
  - destruct H as (_ & _ & [H|H] & _); [done|lia].
Qed.
(** otherwise the call returns 0, has released everything and has written only x and the operators' memory *)
Theorem C45_success_releases `{N : Num} call m n p A B Wt Wm F J ax bx bb bs opts s :
  nesta_call call m n p A B Wt Wm F J ax bx bb bs opts s -> granted s 11 -> complete ax -> queue_aligned s \/ no_n_continue opts <= 0 ->
  exists s' xs, nesta call m n bx bb ax opts s = Ok 0 s' /\ same_blocks s s' /\ (forall b, b <> bx -> b ∉ F -> dm s' !! b = dm s !! b) /\
    seg s' (Ptr bx 0) xs /\ length xs = m /\ J s'.
Proof.
  intros [[HA HB HWt HW HJs Hp] Em En Ep Hn Hu HJ HF Hbx Hbb Hne HxF HbF Sb Lb Wx Al Hc] Hg Hf%complete_fields Hr. unfold queue_aligned in Hr.
  destruct (nesta_run call m n p A B Wt Wm F J ax HA HB HWt HW Hp HJs s bx bb bs opts) as [H|[H|[H|[H|H]]]]; try done.
  - destruct H as ((j & Hj & Ej) & _). by rewrite Hg in Ej by lia.
  - destruct H as (_ & H & _). congruence.
  - destruct H as (_ & _ & H & _). by rewrite Hg in H by lia.
  - destruct H as (_ & _ & H1 & H2 & _). destruct Hr; [congruence|lia].
  - destruct H as (_ & _ & _ & s' & E & HL & J' & _ & Sx). eexists s', _. split; [exact E|]. destruct (ledger_same _ _ _ HL) as [HS HD]. split; [done|].
    split. { intros b Hb HbF'. apply HD. apply not_elem_of_cons. done. }
    split; [exact Sx|]. split; [|done]. unfold ne_result. 
    assert (LB : length (B bs) = m) by (by apply (op_len _ _ _ _ _ _ HB)). generalize (ne_mu0 m p Wt (B bs)). intros mu0. generalize (lit 1 10). intros t0.
    induction (Z.to_nat (no_n_continue opts)) as [|j IH]; [done|]. change (Nat.iter (S j) ?f ?a) with (f (Nat.iter j f a)).
    destruct (Nat.iter j _ _) as [[mu' tol'] x']. cbn [snd] in IH. cbn [ne_stage snd].
    generalize (Z.to_nat MAX_INNER_ITER), 0%nat. intros fu k0. set (v := mkI x' _ _). assert (Hv : length (i_x v) = m) by done. clearbody v. revert k0 v Hv.
    induction fu as [|fu IH2]; intros k0 v Hv; [done|]. cbn [ne_loop]. destruct (ne_stop _ _ _ _ _); [apply tab_length|]. apply IH2. apply tab_length.
Qed.
(** the outcome of a call that returns *)
Lemma nesta_outcome `{N : Num} call m n p A B Wt Wm F J ax bx bb bs opts s s' :
  nesta_call call m n p A B Wt Wm F J ax bx bb bs opts s -> nesta call m n bx bb ax opts s = Ok 0 s' ->
  seg s' (Ptr bx 0) (ne_result m n p A B Wt Wm bs (B bs) (no_sigma opts) (ne_L ax) (no_mu opts) (no_tol opts) (no_n_continue opts)).
Proof.
  intros [[HA HB HWt HW HJs Hp] Em En Ep Hn Hu HJ HF Hbx Hbb Hne HxF HbF Sb Lb Wx Al Hc] E. unfold nesta in E.
  destruct (nesta_run call m n p A B Wt Wm F J ax HA HB HWt HW Hp HJs s bx bb bs opts) as [H|[H|[H|[H|H]]]]; try done.
  - destruct H as (_ & t & E' & _). rewrite E in E'. done.
  - destruct H as (_ & _ & t & E' & _). rewrite E in E'. done.
  - destruct H as (_ & _ & _ & E'). rewrite E in E'. done.
  - destruct H as (_ & _ & _ & _ & E'). rewrite E in E'. done.
  - destruct H as (_ & _ & _ & t & E' & _ & _ & _ & H). rewrite E in E'. by injection E' as <-.
Qed.

Local Open Scope R_scope.
(** [real_op m n A Ar B Br]: on finite vectors A computes the linear map Ar from R^m to R^n and B its adjoint Br *)
Record real_op (m n : nat) (A B : list er -> list er) (Ar Br : list R -> list R) : Prop := {
  ro_lin : linmap m n Ar; ro_adj : adjoint m n Ar Br;
  ro_A : forall v, length v = m -> A (fin v) = fin (Ar v); ro_B : forall v, length v = n -> B (fin v) = fin (Br v)
}.
(** the first smoothing parameter is positive: w = W^T A^T b has a non-zero entry among its first m, or a positive one *)
Definition starts_positive (m : nat) (w : list R) : Prop :=
  exists i, (i < length w)%nat /\ ((i < m)%nat /\ nth i w 0 <> 0 \/ 0 < nth i w 0).
Lemma starts_pos m w : starts_positive m w <-> exists i, (i < length w)%nat /\ 0 < (if (i <? m)%nat then Rabs (nth i w 0) else nth i w 0).
Proof.
  split; intros (i & Hi & H); exists i; (split; [done|]).
  - destruct (Nat.ltb_spec i m) as [Hm|Hm]; destruct H as [[H1 H2]|H]; try lia; try done; apply Rabs_pos_lt; lra.
  - destruct (Nat.ltb_spec i m) as [Hm|Hm]; [left|by right]. split; [done|]. intros E. rewrite E, Rabs_R0 in H. lra.
Qed.

(** ** C40 *)
Theorem C40_feasible call m n p A B Wt Wm F J ax bx bb (bv : list R) (opts : @NestaOpts ER) (s s' : @st ER) Ar Br Wr Vr (sg mu nw : R) :
  @nesta_call ER call m n p A B Wt Wm F J ax bx bb (fin bv) opts s ->
  real_op m n A B Ar Br -> unit_rows n Ar Br -> real_op m p Wt Wm Wr Vr ->
  no_sigma opts = Fin sg -> 0 < sg -> no_mu opts = Fin mu -> 0 < mu -> ax_norm_W ax = Fin nw -> nw <> 0 ->
  (no_n_continue opts <= 0)%Z \/ starts_positive m (Wr (Br bv)) ->
  @nesta ER call m n bx bb ax opts s = Ok 0%Z s' ->
  exists x, @seg ER s' (Ptr bx 0) (fin x) /\ length x = m /\ feasible Ar bv sg x.
Proof.
  intros HC [HA HB EA EB] HI [HW HV EW EV] Es Hs Em Hm Ew Hw Hst E.
  assert (Lb : length bv = n) by (pose proof (@nc_lb _ _ _ _ _ _ _ _ _ _ _ _ _ _ _ _ _ HC) as Q; by rewrite fin_length in Q).
  pose proof (@nesta_outcome ER _ _ _ _ _ _ _ _ _ _ _ _ _ _ _ _ _ HC E) as Sx.
  assert (Hp : (1 <= p)%nat) by apply (@nop_p _ _ _ _ _ _ _ _ _ _ _ _ (@nc_ops _ _ _ _ _ _ _ _ _ _ _ _ _ _ _ _ _ HC)).
  assert (EL : @ne_L ER ax = Fin (nw * nw)) by (unfold ne_L; rewrite Ew; done).
  assert (HL : 0 < nw * nw) by nra.
  rewrite Es, Em, EL in Sx. rewrite EB in Sx by done.
  destruct (result_feasible m n p A B Wt Wm Ar Br Wr Vr bv sg (nw * nw) HA HB HI HW HV EA EB EW EV Lb Hs HL mu (no_tol opts) (no_n_continue opts) Hp Hm) as (x & Ex & Lx & Fx).
  { destruct Hst as [H|H]; [by left|right]. apply starts_pos in H. rewrite (proj1 HW) in H by (by apply HB). done. }
  rewrite Ex in Sx. by exists x.
Qed.

(** ** C66, C67: no finite component is left *)
Definition nothing_finite (m : nat) (s : @st ER) (x : ptr) : Prop :=
  exists xs, @seg ER s x xs /\ length xs = m /\ forall i r, nth i xs NaN <> Fin r.
Lemma allbad_nf m s b xs : @seg ER s (Ptr b 0) xs -> allbad m xs -> nothing_finite m s (Ptr b 0).
Proof.
  intros Sx [L H]. exists xs. split; [done|]. split; [done|]. intros i r E. destruct (decide (i < m)%nat) as [Hi|Hi].
  - specialize (H i Hi). assert (E2 : @at_ ER xs i = Fin r). { rewrite <- E. apply (nth_indep (A := er)). by rewrite L. } by rewrite E2 in H.
  - rewrite nth_overflow in E; [done|]. enough (@length er xs <= i)%nat by done. rewrite L. lia.
Qed.
(** the value of the first smoothing parameter: over the entries of w = W^T A^T b, the first m with absolute values *)
Lemma mu0_max m p Wt (x : list R) Wr : (1 <= p)%nat -> length x = m -> (forall v, length v = m -> length (Wr v) = p /\ Wt (fin v) = fin (Wr v)) ->
  exists M, @ne_mu0 ER m p Wt (fin x) = Fin (9 / 10 * M) /\
    (forall i, (i < p)%nat -> (if (i <? m)%nat then Rabs (nth i (Wr x) 0) else nth i (Wr x) 0) <= M) /\
    exists i, (i < p)%nat /\ M = (if (i <? m)%nat then Rabs (nth i (Wr x) 0) else nth i (Wr x) 0).
Proof.
  intros Hp Lx HW. destruct (HW x Lx) as [LW EW]. unfold ne_mu0.
  assert (Hr : forall i, (i < p)%nat -> @at_ ER (@ne_ref ER m p Wt (fin x)) i = Fin (nth i (Wr x) 0)).
  { intros i Hi. unfold ne_ref. rewrite EW. rewrite (@at_app_l ER) by (rewrite fin_length; lia). by rewrite at_fin, at_RN. }
  destruct (max_fin p (map (fun i => if (i <? m)%nat then Rabs (nth i (Wr x) 0) else nth i (Wr x) 0) (seq 0 p))
     (@abs_of ER m (@ne_ref ER m p Wt (fin x)) ++ drop m (@ne_ref ER m p Wt (fin x))) Hp) as (M & EM & H1 & i & Hi & H2).
  { intros i Hi. rewrite nth_map_seq by done. destruct (Nat.ltb_spec i m) as [Hi'|Hi'].
    - rewrite (@at_app_l ER) by (by rewrite abs_of_len). unfold abs_of. rewrite (@at_tab ER) by done. by rewrite Hr.
    - replace i with (length (@abs_of ER m (@ne_ref ER m p Wt (fin x))) + (i - m))%nat at 1 by (rewrite abs_of_len; lia). rewrite (@at_app_r ER).
      unfold at_. rewrite nth_lookup, lookup_drop, <- nth_lookup. replace (m + (i - m))%nat with i by lia. exact (Hr i Hi). }
  exists M. rewrite EM. split; [done|]. split.
  - intros j Hj. specialize (H1 j Hj). by rewrite nth_map_seq in H1.
  - exists i. split; [done|]. by rewrite nth_map_seq in H2.
Qed.
Theorem C66_zero_start call m n p A B Wt Wm F J ax bx bb (bv : list R) (opts : @NestaOpts ER) (s s' : @st ER) Br Wr (mu : R) :
  @nesta_call ER call m n p A B Wt Wm F J ax bx bb (fin bv) opts s -> (1 <= m)%nat ->
  (forall v, length v = n -> length (Br v) = m /\ B (fin v) = fin (Br v)) -> (forall v, length v = m -> length (Wr v) = p /\ Wt (fin v) = fin (Wr v)) ->
  no_mu opts = Fin mu -> 0 < mu -> (1 <= no_n_continue opts)%Z -> ~ starts_positive m (Wr (Br bv)) ->
  @nesta ER call m n bx bb ax opts s = Ok 0%Z s' -> nothing_finite m s' (Ptr bx 0).
Proof.
  intros HC Hm1 HB HW Em Hm Hc Hst E.
  assert (Lb : length bv = n) by (pose proof (@nc_lb _ _ _ _ _ _ _ _ _ _ _ _ _ _ _ _ _ HC) as Q; by rewrite fin_length in Q).
  pose proof (@nesta_outcome ER _ _ _ _ _ _ _ _ _ _ _ _ _ _ _ _ _ HC E) as Sx.
  assert (Hp : (1 <= p)%nat) by apply (@nop_p _ _ _ _ _ _ _ _ _ _ _ _ (@nc_ops _ _ _ _ _ _ _ _ _ _ _ _ _ _ _ _ _ HC)).
  eapply allbad_nf; [exact Sx|]. unfold ne_result. destruct (HB bv Lb) as [LB EB]. rewrite EB. destruct (HW (Br bv) LB) as [LW EW].
  destruct (mu0_max m p Wt (Br bv) Wr Hp LB HW) as (M & EM & H1 & i & Hi & H2).
  assert (M0 : M = 0).
  { specialize (H1 0%nat ltac:(lia)). destruct (Nat.ltb_spec 0 m); [|lia]. pose proof (Rabs_pos (nth 0 (Wr (Br bv)) 0)).
    apply Rle_antisym; [|lra]. apply Rnot_lt_le. intros HM. apply Hst. apply starts_pos. exists i. rewrite LW. split; [done|]. by rewrite <- H2. }
  assert (E0 : @ne_mu0 ER m p Wt (fin (Br bv)) = Fin 0) by (rewrite EM, M0; f_equal; lra).
  rewrite E0, Em. rewrite beta_zero by done. apply stages_bad; [lia|]. intros j Hj. rewrite iter_zero by done. apply bad_nan.
Qed.
Theorem C67_zero_norm call m n p A B Wt Wm F J ax bx bb (bs : list er) (opts : @NestaOpts ER) (s s' : @st ER) :
  @nesta_call ER call m n p A B Wt Wm F J ax bx bb bs opts s -> ax_norm_W ax = Fin 0 -> (1 <= no_n_continue opts)%Z ->
  @nesta ER call m n bx bb ax opts s = Ok 0%Z s' -> nothing_finite m s' (Ptr bx 0).
Proof.
  intros HC Ew Hc E. pose proof (@nesta_outcome ER _ _ _ _ _ _ _ _ _ _ _ _ _ _ _ _ _ HC E) as Sx.
  eapply allbad_nf; [exact Sx|]. unfold ne_result. apply stages_bad; [lia|]. intros i Hi. apply bad_L0. unfold ne_L. rewrite Ew. cbn. f_equal. lra.
Qed.

(** ** C42, C43: smoothing and tolerance *)
(** the first part of l1c_nesta followed by its continuation loop (P_Nesta3.nesta_parts): the smoothing parameter
    at the start, and the parameters after the loop *)
Definition first_mu `{N : Num} call bb ax opts : M (option T) :=
  let* o := nesta_begin call (Ptr bb 0) ax opts in
  ret (match o with inr ((_, mu, _, _, _), _) => Some mu | inl _ => None end).
Definition last_mu_tol `{N : Num} call (m bb : nat) ax opts : M (option (T * T)) :=
  let* o := nesta_begin call (Ptr bb 0) ax opts in
  match o with inr (v, f) => let* r := nesta_stages call (Z.of_nat m) (no_n_continue opts) v f in ret (Some (fst r)) | inl _ => ret None end.
(** l1c_nesta is built from the same parts *)
Lemma nesta_is `{N : Num} call (m n bx bb : nat) ax opts s : ax_m ax = Z.of_nat m -> ax_n ax = Z.of_nat n ->
  nesta call m n bx bb ax opts s =
  (let* o := nesta_begin call (Ptr bb 0) ax opts in
   match o with
   | inl status => ret status
   | inr (v, f) =>
       let* r := nesta_stages call (Z.of_nat m) (no_n_continue opts) v f in
       i32 (Z.max 1 (no_n_continue opts + 1)) ;!
       cblas_dcopy (Z.of_nat m) (np_xk (fst (fst (fst (fst v))))) (Ptr bx 0) ;!
       free_nesta_problem (fst (fst (fst (fst v)))) ;! free_d (ff_vals (snd r)) ;! ret 0%Z
   end) s.
Proof. intros Em En. unfold nesta. rewrite nesta_parts, Em, En, !Z.eqb_refl. done. Qed.


Theorem C42_continuation_ends call m n p A B Wt Wm F J ax bx bb (bv : list R) (opts : @NestaOpts ER) (s : @st ER) Br Wr (mu tol : R) :
  @nesta_call ER call m n p A B Wt Wm F J ax bx bb (fin bv) opts s -> granted s 11 -> complete ax -> queue_aligned s ->
  (forall v, length v = n -> length (Br v) = m /\ B (fin v) = fin (Br v)) -> (forall v, length v = m -> length (Wr v) = p /\ Wt (fin v) = fin (Wr v)) ->
  no_mu opts = Fin mu -> 0 < mu -> no_tol opts = Fin tol -> 0 < tol -> (1 <= no_n_continue opts)%Z -> starts_positive m (Wr (Br bv)) ->
  exists s', @last_mu_tol ER call m bb ax opts s = Ok (Some (Fin mu, Fin tol)) s'.
Proof.
  intros [[HA HB HWt HW HJs Hp] Em En Ep Hn Hu HJ HF Hbx Hbb Hne HxF HbF Sb Lb Wx Al Hc] Hg Hf%complete_fields Hr HBr HWr Emu Hmu Etol Htol Hc1 Hst.
  destruct (@begin_run ER call m n p A B Wt Wm F J ax HA HB HWt HW Hp HJs s bx bb (fin bv) opts Hu Em En Ep HJ HF Hbx Hbb Hne HxF HbF Sb Lb Wx Al Hg Hf Hr) as (s1 & E1 & SL).
  unfold last_mu_tol. rewrite (bind_ok _ _ _ _ _ E1). unfold nesta_stages, for_acc. replace (Z.to_nat (no_n_continue opts + 1 - 1)) with (Z.to_nat (no_n_continue opts)) by lia.
  assert (Lbv : length bv = n) by (by rewrite fin_length in Lb). destruct (HBr bv Lbv) as [LB EB]. destruct (HWr (Br bv) LB) as [LW _].
  set (k := nx s) in *.
  destruct (@stages_run ER call m n p A B Wt Wm F J ax HA HB HWt HW (Ptr k 0) (k + 1) (k + 2) (k + 3) (k + 4) (k + 5) (k + 6) (k + 7) (k + 8) (k + 9) bb (fin bv) (B (fin bv)) (no_sigma opts) (@ne_L ER ax) (k + 10)) with
    (j := Z.to_nat (no_n_continue opts)) (k := 1%Z) (s := s1) (mu := @ne_mu0 ER m p Wt (B (fin bv))) (tol := @lit ER 1 10) (x := B (fin bv))
    (c := mkFifo (Ptr (k + 10) 0) 0 (Ptr (k + 10) 0)) (bmu := @ne_beta ER (no_mu opts) (@ne_mu0 ER m p Wt (B (fin bv))) (no_n_continue opts)) (btol := @ne_beta ER (no_tol opts) (@lit ER 1 10) (no_n_continue opts)) as (s' & c' & E & _ & _).
  { unfold k in *. repeat (apply NoDup_cons; split; [repeat (apply not_elem_of_cons; split; [lia|]); apply not_elem_of_nil|]). apply NoDup_nil_2. }
  { assert (FB : forall j, (k <= j)%nat -> j ∉ F) by (intros j Hj HjF; apply HF in HjF; unfold k in Hj; lia).
    intros b Hb. repeat (apply elem_of_cons in Hb as [->|Hb]; [first [assumption|apply FB; lia]|]). by apply elem_of_nil in Hb. }
  { done. } { rewrite EB. by rewrite fin_length. } { done. } { exact SL. }
  rewrite (bind_ok _ _ _ _ _ E). unfold ret. exists s'. do 2 f_equal. cbn [fst snd].
  destruct (mu0_max m p Wt (Br bv) Wr Hp LB HWr) as (M & EM & H1 & _).
  apply starts_pos in Hst as (i & Hi & Hpos). rewrite LW in Hi. specialize (H1 i Hi).
  rewrite EB, EM, Emu, Etol.
  destruct (beta_fin n bv Lbv mu (9 / 10 * M) (no_n_continue opts) Hmu ltac:(lra) Hc1) as (bm & Ebm & _ & Pm). rewrite Ebm.
  change (@lit ER 1 10) with (Fin (1 / 10)).
  destruct (beta_fin n bv Lbv tol (1 / 10) (no_n_continue opts) Htol ltac:(lra) Hc1) as (bt & Ebt & _ & Pt). rewrite Ebt.
  assert (Q : forall j mu tol x, fst (Nat.iter j (@ne_stage ER m n p A B Wt Wm (fin bv) (fin (Br bv)) (no_sigma opts) (@ne_L ER ax) (Fin bm) (Fin bt)) (Fin mu, Fin tol, x)) = (Fin (mu * bm ^ j), Fin (tol * bt ^ j))).
  { clear. intros j mu tol x. induction j as [|j IH]; [cbn [Nat.iter nat_rect fst Rpow_def.pow]; rewrite !Rmult_1_r; done|].
    change (Nat.iter (S j) ?f ?a) with (f (Nat.iter j f a)). destruct (Nat.iter j _ _) as [[mu' tol'] x']. cbn [fst] in IH. injection IH as -> ->.
    unfold ne_stage. cbn [fst mul ER er_mul Rpow_def.pow]. f_equal; f_equal; ring. }
  rewrite (Q (Z.to_nat (no_n_continue opts))). cbn [fst snd]. by rewrite Pm, Pt.
Qed.

Theorem C43_initial_smoothing call m n p A B Wt Wm F J ax bx bb (bv : list R) (opts : @NestaOpts ER) (s : @st ER) Br Wr :
  @nesta_call ER call m n p A B Wt Wm F J ax bx bb (fin bv) opts s -> granted s 11 -> complete ax -> queue_aligned s ->
  (forall v, length v = n -> length (Br v) = m /\ B (fin v) = fin (Br v)) -> (forall v, length v = m -> length (Wr v) = p /\ Wt (fin v) = fin (Wr v)) ->
  (p <= m)%nat ->
  exists M s', @first_mu ER call bb ax opts s = Ok (Some (Fin (9 / 10 * M))) s' /\
    (forall i, (i < p)%nat -> Rabs (nth i (Wr (Br bv)) 0) <= M) /\ exists i, (i < p)%nat /\ M = Rabs (nth i (Wr (Br bv)) 0).
Proof.
  intros [[HA HB HWt HW HJs Hp] Em En Ep Hn Hu HJ HF Hbx Hbb Hne HxF HbF Sb Lb Wx Al Hc] Hg Hf%complete_fields Hr HBr HWr Hpm.
  destruct (@begin_run ER call m n p A B Wt Wm F J ax HA HB HWt HW Hp HJs s bx bb (fin bv) opts Hu Em En Ep HJ HF Hbx Hbb Hne HxF HbF Sb Lb Wx Al Hg Hf Hr) as (s1 & E1 & _).
  unfold first_mu. rewrite (bind_ok _ _ _ _ _ E1).
  assert (Lbv : length bv = n) by (by rewrite fin_length in Lb). destruct (HBr bv Lbv) as [LB EB].
  destruct (mu0_max m p Wt (Br bv) Wr Hp LB HWr) as (M & EM & H1 & i & Hi & H2). exists M, s1. rewrite EB, EM. split; [done|]. split.
  - intros j Hj. specialize (H1 j Hj). destruct (Nat.ltb_spec j m); [done|lia].
  - exists i. split; [done|]. destruct (Nat.ltb_spec i m); [done|lia].
Qed.

(** ** C39, C41: one projection, one evaluation *)
(** The memory of a call of the projection: the arrays xx, g (inputs), vk (result), A^T b, the two work vectors and b are separate *)
Record proj_call `{N : Num} (call : fptr -> ptr -> ptr -> M unit) (m n : nat) (A B : list T -> list T) (F : list nat) (J : st -> Prop)
    (NP : NProb) (bx bg bv at' d1 d2 bb : nat) (xs g atb bs : list T) (s : st) : Prop := {
  pc_A : oper F J (call (ax_Ax (np_ax NP))) m n A; pc_B : oper F J (call (ax_Aty (np_ax NP))) n m B;
  pc_m : np_m NP = Z.of_nat m; pc_n : np_n NP = Z.of_nat n;
  pc_at : np_Atb NP = Ptr at' 0; pc_d1 : np_dwork1 NP = Ptr d1 0; pc_d2 : np_dwork2 NP = Ptr d2 0; pc_b : np_b NP = Ptr bb 0;
  pc_nd : NoDup [bx; bg; bv; at'; d1; d2; bb]; pc_F : forall b, b ∈ [bx; bg; bv; at'; d1; d2; bb] -> b ∉ F; pc_J : J s;
  pc_sx : seg s (Ptr bx 0) xs; pc_sg : seg s (Ptr bg 0) g; pc_sa : seg s (Ptr at' 0) atb; pc_sb : seg s (Ptr bb 0) bs;
  pc_lx : length xs = m; pc_lg : length g = m; pc_la : length atb = m; pc_lb : length bs = n;
  pc_wv : wok s (Ptr bv 0) m; pc_w1 : wok s (Ptr d1 0) m; pc_w2 : wok s (Ptr d2 0) n;
  pc_al : forall b, b ∈ [bx; bg; bv; d1; d2; bb] -> is_aligned s (Ptr b 0) = true
}.
Theorem C39_projection call m n A B F J NP bx bg bv at' d1 d2 bb (xv gv bvec : list R) (s : @st ER) Ar Br (sg L mu : R) :
  @proj_call ER call m n A B F J NP bx bg bv at' d1 d2 bb (fin xv) (fin gv) (fin (Br bvec)) (fin bvec) s ->
  real_op m n A B Ar Br -> unit_rows n Ar Br -> np_sigma NP = Fin sg -> 0 < sg -> np_L NP = Fin L -> 0 < L -> 0 < mu ->
  exists s' v, @nesta_project ER call NP (Fin mu) (Ptr bx 0) (Ptr bg 0) (Ptr bv 0) s = Ok tt s' /\ @seg ER s' (Ptr bv 0) (fin v) /\
    length v = m /\ feasible Ar bvec sg v /\
    forall x, length x = m -> feasible Ar bvec sg x ->
      prox (L / mu) xv gv v + L / mu / 2 * nrm2sq (vlin 1 x (-1) v) <= prox (L / mu) xv gv x.
Proof.
  intros [HA HB Em En Ea E1 E2 Eb Hd HF HJ Sx Sg Sa Sb Lx Lg La Lb Wv W1 W2 Hal] [Hlin Hadj EA EB] HI Es Hs EL HL Hmu.
  destruct NP as [self m' n' p' xo xk yk zk at'' gr gs d1' d2' bb' ax' sg' L']. cbn [np_ax np_m np_n np_Atb np_dwork1 np_dwork2 np_b np_sigma np_L] in *. subst m' n' at'' d1' d2' bb' sg' L'.
  pose proof (@project_run ER call m n m A B F J ax' HA HB self 0 0 0 0 at' 0 0 d1 d2 bb (fin bvec) (fin (Br bvec)) (Fin sg) (Fin L) s (Fin mu) bx bg bv (fin xv) (fin gv)
    Hd HF HJ Sx Sg Sa Sb Lx Lg La Lb Wv W1 W2 Hal) as (s' & E & Sv & _).
  rewrite fin_length in *.
  rewrite (proj_fin m n A B Ar Br bvec sg L Hlin Hadj EA EB Lb Hs HL mu xv gv Hmu Lx Lg) in Sv.
  assert (HLm : 0 < L / mu) by (by apply Rdiv_lt_0_compat).
  exists s', (pr_v Ar Br bvec sg (L / mu) xv gv). split; [exact E|]. split; [exact Sv|].
  split; [by apply (pr_len m n Ar Br bvec sg (L / mu) Hlin xv gv)|]. split.
  - by apply (pr_feasible m n Ar Br bvec sg (L / mu)).
  - intros x Lx' Fx. by apply (pr_min m n Ar Br bvec sg (L / mu)).
Qed.
(** The memory of an evaluation: xk holds the point; gradf and the two work vectors can be written *)
Record eval_call `{N : Num} (call : fptr -> ptr -> ptr -> M unit) (m p : nat) (Wt Wm : list T -> list T) (F : list nat) (J : st -> Prop)
    (NP : NProb) (xk gr d1 d2 : nat) (xs : list T) (s : st) : Prop := {
  ec_Wt : oper F J (call (ax_Wtx (np_ax NP))) m p Wt; ec_W : oper F J (call (ax_Wz (np_ax NP))) p m Wm;
  ec_m : np_m NP = Z.of_nat m; ec_p : np_p NP = Z.of_nat p;
  ec_x : np_xk NP = Ptr xk 0; ec_g : np_gradf NP = Ptr gr 0; ec_d1 : np_dwork1 NP = Ptr d1 0; ec_d2 : np_dwork2 NP = Ptr d2 0;
  ec_nd : NoDup [xk; gr; d1; d2]; ec_F : forall b, b ∈ [xk; gr; d1; d2] -> b ∉ F; ec_J : J s;
  ec_sx : seg s (Ptr xk 0) xs; ec_lx : length xs = m;
  ec_wg : wok s (Ptr gr 0) m; ec_w1 : wok s (Ptr d1 0) p; ec_w2 : wok s (Ptr d2 0) p;
  ec_al : forall b, b ∈ [xk; gr; d1; d2] -> is_aligned s (Ptr b 0) = true
}.
(** the smoothed 1-norm is unique, so the statement determines the value *)
Theorem C41_evaluation call m p Wt Wm F J NP xk gr d1 d2 (xv : list R) (s : @st ER) Wr Vr (mu : R) :
  @eval_call ER call m p Wt Wm F J NP xk gr d1 d2 (fin xv) s -> real_op m p Wt Wm Wr Vr -> 0 < mu ->
  exists s' f g, @nesta_feval ER call NP (Fin mu) s = Ok (Fin (f xv)) s' /\ @seg ER s' (Ptr gr 0) (fin g) /\
    (forall x, length x = m -> is_smooth_norm mu (Wr x) (f x) /\ 0 <= nrm1 (Wr x) - f x <= INR p * (mu / 2)) /\
    gradient_at f xv g.
Proof.
  intros [HWt HW Em Ep Ex Eg E1 E2 Hd HF HJ Sx Lx Wg W1 W2 Hal] [Hlin Hadj EW EV] Hmu.
  destruct NP as [self m' n' p' xo xk' yk zk at'' gr' gs d1' d2' bb' ax' sg' L']. cbn [np_ax np_m np_n np_p np_xk np_gradf np_Atb np_dwork1 np_dwork2 np_b np_sigma np_L] in *. subst m' p' xk' gr' d1' d2'.
  pose proof (@feval_run ER call m 0 p Wt Wm F J ax' HWt HW self 0 xk 0 0 0 gr 0 d1 d2 0 sg' L' s (Fin mu) (fin xv)
    Hd HF HJ Sx Lx Wg W1 W2 Hal) as (s' & E & Sg & _).
  rewrite fin_length in *.
  rewrite (fx_fin m 0 p Wt Wr [] Hlin EW eq_refl mu xv Hmu Lx) in E. rewrite (grad_fin m 0 p Wt Wm Wr Vr [] Hlin EW EV eq_refl mu xv Hmu Lx) in Sg.
  exists s', (fun x => smooth mu (Wr x)), (Vr (clips mu (Wr xv))). split; [exact E|]. split; [exact Sg|]. split.
  - intros x Lx'. split; [by apply smooth_spec|]. assert (LW : length (Wr x) = p) by (by apply Hlin). pose proof (smooth_gap mu Hmu (Wr x)) as Q. by rewrite LW in Q.
  - by apply (smooth_grad mu Hmu m p).
Qed.

(** ** C44: the mean of the last ten values *)
Theorem C44_mean_of_last_ten (vs : list R) (s : @st ER) : @unborn ER s -> alloc_ok (en s) (nx s) = true -> vs <> [] ->
  exists s', (let* f := @new_fifo ER in let* f := @push_all ER f (fin vs) in @mean_fifo ER f) s = Ok (Fin (mean_last 10 vs)) s'.
Proof.
  intros Hu Ha Hne. destruct (@new_fifo_at ER s Hu Ha) as (s1 & c & E & H1). rewrite (bind_ok _ _ _ _ _ E).
  destruct (@push_all_run ER (fin vs) s1 (nx s) _ _ H1) as (c2 & s2 & E2 & _ & H2). rewrite (bind_ok _ _ _ _ _ E2).
  exists s2. rewrite (@mean_run ER s2 (nx s) _ _ H2). by rewrite mean_pushes.
Qed.
(** The memory of the inner loop: x0 is the prox centre xo, x the point in xk, gs the weighted gradient sum, and the queue c
    has received the values vs in this stage. *)
Inductive nesta_work `{N : Num} (call : fptr -> ptr -> ptr -> M unit) (m n p : nat) (A B Wt Wm : list T -> list T) (F : list nat) (J : st -> Prop)
    (NP : NProb) (bs atb x0 x gs vs : list T) (c : Fifo) (s : st) : Prop :=
  NestaWork ax self xo xk yk zk at' gr gsb d1 d2 bb sigma L fv
    (nw_ops : nesta_ops call m n p A B Wt Wm F J ax)
    (nw_NP : NP = mkNP self (Z.of_nat m) (Z.of_nat n) (Z.of_nat p) (Ptr xo 0) (Ptr xk 0) (Ptr yk 0) (Ptr zk 0) (Ptr at' 0) (Ptr gr 0) (Ptr gsb 0)
                     (Ptr d1 0) (Ptr d2 0) (Ptr bb 0) ax sigma L)
    (nw_nd : NoDup [xo; xk; yk; zk; at'; gr; gsb; d1; d2; bb; fv])
    (nw_F : forall b, b ∈ [xo; xk; yk; zk; at'; gr; gsb; d1; d2; bb; fv] -> b ∉ F)
    (nw_n : (n <= Nat.max m p)%nat) (nw_a : length atb = m) (nw_b : length bs = n)
    (nw_lay : nlay m p J xo xk yk zk at' gr gsb d1 d2 bb bs atb fv x0 (mkI x gs (f_pushes f_reset vs)) c s).
(** the first iteration of a stage never stops: the mean of no values is not a number *)
Theorem C44_first_iteration call m n p A B Wt Wm F J NP bs atb x0 x gs c (mu tol : er) (k : nat) (s : @st ER) :
  @nesta_work ER call m n p A B Wt Wm F J NP bs atb x0 x gs [] c s ->
  exists c' s', @nesta_iter ER call NP (Z.of_nat m) mu tol (Z.of_nat k) c s = Ok (Go c') s'.
Proof.
  intros [ax self xo xk yk zk at' gr gsb d1 d2 bb sigma L fv [HA HB HWt HW HJs Hp] -> Hd HF Hn La Lb Hl].
  destruct (@iter_run ER call m n p A B Wt Wm F J ax HA HB HWt HW self xo xk yk zk at' gr gsb d1 d2 bb bs atb sigma L fv Hd HF Hn La Lb s x0 _ c mu tol k Hl) as (s' & c' & E & _ & _).
  exists c', s'. unfold ne_stop in E. cbn [i_x i_f] in E. change (f_pushes f_reset []) with (@f_reset ER) in E. rewrite mean_empty in E. 
  assert (E0 : @ltb_ ER (@div ER (@fabs ER (@sub ER (@ne_fx ER p Wt mu x) NaN)) NaN) tol = false).
  { generalize (@fabs ER (@sub ER (@ne_fx ER p Wt mu x) NaN)). intros e. by destruct e. }
  rewrite E0 in E. exact E.
Qed.
(** later ones compare the value f at the current point with the mean of the last ten before it, and queue f *)
Theorem C44_stopping_test call m n p A B Wt Wm F J NP bs atb x0 (xv : list R) gs (vs : list R) c (mu tol : R) (k : nat) (s : @st ER) Wr Vr :
  @nesta_work ER call m n p A B Wt Wm F J NP bs atb x0 (fin xv) gs (fin vs) c s -> real_op m p Wt Wm Wr Vr -> 0 < mu -> length xv = m ->
  vs <> [] -> mean_last 10 vs <> 0 ->
  exists c' s' f, is_smooth_norm mu (Wr xv) f /\
    @nesta_iter ER call NP (Z.of_nat m) (Fin mu) (Fin tol) (Z.of_nat k) c s =
      Ok (if Rlt_dec (Rabs (f - mean_last 10 vs) / mean_last 10 vs) tol then Stop c' else Go c') s' /\
    @mean_fifo ER c' s' = Ok (Fin (mean_last 10 (vs ++ [f]))) s'.
Proof.
  intros [ax self xo xk yk zk at' gr gsb d1 d2 bb sigma L fv [HA HB HWt HW HJs Hp] -> Hd HF Hn La Lb Hl] [Hlin Hadj EW EV] Hmu Lx Hne Hm0.
  destruct (@iter_run ER call m n p A B Wt Wm F J ax HA HB HWt HW self xo xk yk zk at' gr gsb d1 d2 bb bs atb sigma L fv Hd HF Hn La Lb s x0 _ c (Fin mu) (Fin tol) k Hl) as (s' & c' & E & Hl' & _).
  pose proof (fx_fin m 0 p Wt Wr [] Hlin EW eq_refl mu xv Hmu Lx) as Ef.
  exists c', s', (smooth mu (Wr xv)). split; [by apply smooth_spec|]. split.
  - etransitivity; [exact E|]. unfold ne_stop. cbn [i_x i_f]. rewrite Ef, mean_pushes by done. 
    assert (E1 : @div ER (@fabs ER (@sub ER (Fin (smooth mu (Wr xv))) (Fin (mean_last 10 vs)))) (Fin (mean_last 10 vs)) = Fin (Rabs (smooth mu (Wr xv) - mean_last 10 vs) / mean_last 10 vs)) by (apply div_fin; done).
    rewrite E1. cbn [ltb_ ER er_ltb]. unfold Rltb. destruct (Rlt_dec _ _); done.
  - pose proof (nl_f _ _ _ _ _ _ _ _ _ _ _ _ _ _ _ _ _ _ _ _ Hl') as Hf. rewrite (@mean_run ER s' fv _ _ Hf). f_equal. cbn [ne_step i_f i_x]. rewrite Ef.
    rewrite <- (mean_pushes (vs ++ [smooth mu (Wr xv)])) by (by destruct vs). f_equal. unfold f_pushes, fin. rewrite map_app, fold_left_app. done.
Qed.

(** The concrete cases are in T_NestaE.v. *)
Print Assumptions C39_projection.
Print Assumptions C40_feasible.
Print Assumptions C41_evaluation.
Print Assumptions C42_continuation_ends.
Print Assumptions C43_initial_smoothing.
Print Assumptions C44_mean_of_last_ten.
Print Assumptions C44_first_iteration.
Print Assumptions C44_stopping_test.
Print Assumptions C45_size_mismatch.
Print Assumptions C45_out_of_memory.
Print Assumptions C45_incomplete_transform_leaks.
Print Assumptions C45_queue_refused.
Print Assumptions C45_success_releases.
Print Assumptions C65_queue_not_aligned.
Print Assumptions C66_zero_start.
Print Assumptions C67_zero_norm.
