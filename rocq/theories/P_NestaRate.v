(** * The trace of NESTA's inner loop in exact arithmetic, and its rate. *)
From Coq Require Import ZArith Lia Reals Lra Psatz.
From stdpp Require Import base list.
From Verif Require Import Mem M_Math M_Nesta P_Mem P_Loop P_Math P_MathR P_TVR L_Sum S_Vec L_Lin L_ER P_CGR S_Newt P_NewtX P_NewtX2 P_NewtR L_Barrier P_Touch S_Nesta L_Nesta P_Nesta P_Nesta2 P_NestaF P_NestaR L_Rate S_NestaRate L_Min.
Local Open Scope R_scope.
Local Notation sqrt := R_sqrt.sqrt.

Section trace.
Context (m n p : nat) (A B Wt Wm : list er -> list er) (Ar Br Wr Vr : list R -> list R) (bv : list R) (sg L : R).
Context (HA : linmap m n Ar) (HB : adjoint m n Ar Br) (HI : unit_rows n Ar Br) (HW : linmap m p Wr) (HV : adjoint m p Wr Vr).
Context (EA : forall v, length v = m -> A (fin v) = fin (Ar v)) (EB : forall v, length v = n -> B (fin v) = fin (Br v)).
Context (EW : forall v, length v = m -> Wt (fin v) = fin (Wr v)) (EV : forall v, length v = p -> Wm (fin v) = fin (Vr v)).
Context (Lb : length bv = n) (Hsg : 0 < sg) (HL : 0 < L).
Context (HN : forall v, length v = m -> nrm2sq (Wr v) <= L * nrm2sq v).
Notation bs := (fin bv).
Notation atb := (fin (Br bv)).

Lemma step_fin (mu : R) (xo x g : list R) f k : 0 < mu -> length xo = m -> length x = m -> length g = m ->
  @ne_step ER m n p A B Wt Wm bs atb (Fin sg) (Fin L) (Fin mu) (fin xo) k (@mkI ER (fin x) (fin g) f) =
  @mkI ER (fin (xk k (zk Ar Br bv sg L mu xo (Gk Wr Vr mu k x g)) (yk Ar Br Wr Vr bv sg L mu x))) (fin (Gk Wr Vr mu k x g)) (@f_push ER f (Fin (fs Wr mu x))).
Proof.
  intros Hmu Lo Lx Lg. pose proof (gs_len m p Wr Vr mu HW HV x Lx) as LG.
  assert (EG : @ne_grad ER p Wt Wm (Fin mu) (fin x) = fin (gs Wr Vr mu x)) by (by apply (grad_fin m n p Wt Wm Wr Vr bv)).
  assert (Egs : @ne_gs ER m p Wt Wm (Fin mu) k (@mkI ER (fin x) (fin g) f) = fin (Gk Wr Vr mu k x g)).
  { unfold ne_gs. cbn [i_x i_gs]. rewrite EG. rewrite ofZ_ER. cbn [lit ER mul er_mul]. rewrite axpy_fin. f_equal. unfold Gk.
    apply (list_eq_nth m); [apply axpy_len|by rewrite vlin_length|]. intros i Hi. rewrite nth_axpy, nth_vlin by lia. rewrite plus_IZR, <- INR_IZR_INZ. lra. }
  assert (LG' : length (Gk Wr Vr mu k x g) = m) by (unfold Gk; by rewrite vlin_length).
  assert (HLm : 0 < L / mu) by (by apply Rdiv_lt_0_compat).
  assert (Ey : @ne_y ER m n p A B Wt Wm bs atb (Fin sg) (Fin L) (Fin mu) (@mkI ER (fin x) (fin g) f) = fin (yk Ar Br Wr Vr bv sg L mu x)).
  { unfold ne_y. cbn [i_x]. rewrite EG. by apply (proj_fin m n A B Ar Br bv sg L). }
  assert (Ez : @ne_z ER m n p A B Wt Wm bs atb (Fin sg) (Fin L) (Fin mu) (fin xo) k (@mkI ER (fin x) (fin g) f) = fin (zk Ar Br bv sg L mu xo (Gk Wr Vr mu k x g))).
  { unfold ne_z. rewrite Egs. by apply (proj_fin m n A B Ar Br bv sg L). }
  unfold ne_step. rewrite Ey, Ez, Egs. cbn [i_x i_f]. rewrite (fx_fin m n p Wt Wr bv) by done. destruct (tau_E k) as [Et _]. rewrite Et.
  rewrite one_ER. cbn [sub ER er_sub er_add er_opp]. rewrite one_RN, axpby_fin. f_equal. f_equal. unfold xk.
  destruct (pr_len m n Ar Br bv sg (L / mu) HA xo (Gk Wr Vr mu k x g) Lo LG') as (_ & _ & Lz). fold (zk Ar Br bv sg L mu xo (Gk Wr Vr mu k x g)) in Lz.
  apply (list_eq_nth m); [apply (@tab_length RN)|by rewrite vlin_length|]. intros i Hi. rewrite nth_axpby, nth_vlin by lia. lra.
Qed.

(** the iterates *)
Fixpoint itr (mu : R) (xo : list R) (k : nat) : list R * list R :=
  match k with
  | O => (xo, repeat 0 m)
  | S k => let '(x, G) := itr mu xo k in (xk k (zk Ar Br bv sg L mu xo (Gk Wr Vr mu k x G)) (yk Ar Br Wr Vr bv sg L mu x), Gk Wr Vr mu k x G)
  end.
Lemma itr_est mu xo k : 0 < mu -> length xo = m -> feasible Ar bv sg xo -> est m Ar Wr bv sg L mu xo k (fst (itr mu xo k)) (snd (itr mu xo k)).
Proof.
  intros Hmu Lo Fo. induction k as [|k IH].
  - apply (est_start m n); try done; [apply repeat_length|]. intros i Hi. cbn [itr snd]. apply nth_repeat.
  - cbn [itr]. destruct (itr mu xo k) as [x G]. cbn [fst snd] in *. apply (est_step m n p Ar Br Wr Vr bv sg L mu); done.
Qed.
Lemma itr_feasible mu xo k : 0 < mu -> length xo = m -> feasible Ar bv sg xo -> length (fst (itr mu xo k)) = m /\ feasible Ar bv sg (fst (itr mu xo k)).
Proof.
  intros Hmu Lo Fo. destruct (itr_est mu xo k Hmu Lo Fo) as (c & y & z & Ly & Lz & _ & Fy & Fz & -> & _). rewrite vlin_length. split; [done|].
  pose proof (pos_INR k). assert (0 < 2 / (INR k + 2) <= 1).
  { split; [apply Rdiv_lt_0_compat; lra|]. apply (Rmult_le_reg_r (INR k + 2)); [lra|]. unfold Rdiv. rewrite Rmult_assoc, Rinv_l by lra. lra. }
  apply (feasible_convex m n); try done; lra.
Qed.
Definition vals (mu : R) (xo : list R) (k : nat) : list R := map (fun j => fs Wr mu (fst (itr mu xo j))) (seq 0 k).
Definition istate (mu : R) (xo : list R) (k : nat) : @inner ER :=
  @mkI ER (fin (fst (itr mu xo k))) (fin (snd (itr mu xo k))) (@f_pushes ER (@f_reset ER) (fin (vals mu xo k))).
Lemma istate_S mu xo k : 0 < mu -> length xo = m -> feasible Ar bv sg xo ->
  @ne_step ER m n p A B Wt Wm bs atb (Fin sg) (Fin L) (Fin mu) (fin xo) k (istate mu xo k) = istate mu xo (S k).
Proof.
  intros Hmu Lo Fo. destruct (est_len _ _ _ _ _ _ _ _ _ _ _ (itr_est mu xo k Hmu Lo Fo)) as [Lx LG]. unfold istate. rewrite step_fin by done. cbn [itr]. 
  unfold vals. rewrite seq_S, map_app. unfold f_pushes, fin. rewrite map_app, fold_left_app. cbn [map fold_left plus]. destruct (itr mu xo k) as [x G]. done.
Qed.
Lemma fs_nonneg mu x : 0 < mu -> 0 <= fs Wr mu x.
Proof.
  intros Hmu. apply Rsum_nonneg. intros i _. pose proof (hub_max mu Hmu (nth i (Wr x) 0) 0) as Q. rewrite Rabs_R0 in Q. lra.
Qed.
Lemma stop_settled mu tol xo k : 0 < mu -> length xo = m -> feasible Ar bv sg xo ->
  @ne_stop ER p Wt (Fin mu) (Fin tol) (istate mu xo k) = true <-> settled tol (fun j => fs Wr mu (fst (itr mu xo j))) k.
Proof.
  intros Hmu Lo Fo. destruct (itr_feasible mu xo k Hmu Lo Fo) as [Lx _]. unfold ne_stop, settled, istate. cbn [i_x i_f]. rewrite (fx_fin m n p Wt Wr bv) by done.
  fold (vals mu xo k). change (smooth mu (Wr (fst (itr mu xo k)))) with (fs Wr mu (fst (itr mu xo k))). set (f := fs Wr mu (fst (itr mu xo k))). destruct k as [|k].
  - change (fin (vals mu xo 0)) with (@nil er). change (@f_pushes ER (@f_reset ER) []) with (@f_reset ER). rewrite mean_empty. cbn. split; [done|lia].
  - assert (Hne : vals mu xo (S k) <> []) by (unfold vals; by cbn [seq map]). rewrite mean_pushes by done.
    assert (HM : 0 <= mean_last 10 (vals mu xo (S k))).
    { unfold mean_last. set (l := last_n 10 (vals mu xo (S k))). apply Rmult_le_pos.
      - apply Rsum_nonneg. intros i Hi. assert (Q : nth i l 0 ∈ vals mu xo (S k)).
        { rewrite <- (firstn_skipn (length (vals mu xo (S k)) - 10) (vals mu xo (S k))). apply elem_of_app. right.
          change (skipn _ _) with l. apply elem_of_list_In, nth_In. done. }
        unfold vals in Q. apply elem_of_list_In, in_map_iff in Q as (j & <- & _). by apply fs_nonneg.
      - destruct (length l) as [|q]; [cbn [INR]; rewrite Rinv_0; lra|]. apply Rlt_le, Rinv_0_lt_compat, lt_0_INR. lia. }
    set (M := mean_last 10 (vals mu xo (S k))) in *. destruct (Req_dec M 0) as [E0|E0].
    + rewrite E0. cbn [sub fabs ER er_sub er_add er_opp er_abs div]. split; [|lra]. intros H. exfalso. revert H.
      generalize (Rabs_pos (f + - 0)). generalize (Rabs (f + - 0)). intros r Hr. unfold er_div. destruct (Req_EM_T 0 0) as [_|]; [|lra].
      destruct (Req_EM_T r 0); [done|]. destruct (Rlt_dec 0 r); [done|lra].
    + cbn [sub fabs ER er_sub er_add er_opp er_abs div]. rewrite div_fin by done. cbn [ltb_ ER er_ltb]. unfold Rltb.
      assert (Ed : Rabs (f + - M) / M * M = Rabs (f - M)) by (unfold Rminus; field; done).
      destruct (Rlt_dec (Rabs (f + - M) / M) tol) as [H|H]; split; try done.
      * intros _. split; [lia|]. split; [lra|]. rewrite <- Ed. apply Rmult_lt_compat_r; lra.
      * intros (_ & _ & H'). exfalso. apply H. apply (Rmult_lt_reg_r M); [lra|]. rewrite Ed. done.
Qed.
Lemma loop_trace mu tol xo fuel k : 0 < mu -> length xo = m -> feasible Ar bv sg xo -> (1 <= fuel)%nat ->
  exists K, @ne_loop ER m n p A B Wt Wm bs atb (Fin sg) (Fin L) (Fin mu) (Fin tol) (fin xo) fuel k (istate mu xo k) = istate mu xo K /\
    (k < K <= k + fuel)%nat /\ (forall j, (k <= j)%nat -> (S j < K)%nat -> ~ settled tol (fun j => fs Wr mu (fst (itr mu xo j))) j) /\
    ((K < k + fuel)%nat -> settled tol (fun j => fs Wr mu (fst (itr mu xo j))) (K - 1)).
Proof.
  intros Hmu Lo Fo. revert k. induction fuel as [|fu IH]; intros k Hf; [lia|]. cbn [ne_loop]. rewrite istate_S by done.
  pose proof (stop_settled mu tol xo k Hmu Lo Fo) as HS. destruct (ne_stop _ _ _ _ _).
  - exists (S k). split; [done|]. split; [lia|]. split; [intros; lia|]. intros _. replace (S k - 1)%nat with k by lia. by apply HS.
  - assert (Hn : ~ settled tol (fun j => fs Wr mu (fst (itr mu xo j))) k) by (intros H; apply HS in H; done).
    destruct fu as [|fu].
    + exists (S k). split; [done|]. split; [lia|]. split; [|lia]. intros; lia.
    + destruct (IH (S k) ltac:(lia)) as (K & E & HK & H1 & H2). exists K. split; [exact E|]. split; [lia|]. split.
      * intros j Hj1 Hj2. destruct (decide (j = k)) as [->|]; [done|]. apply H1; lia.
      * intros H. apply H2. lia.
Qed.
Lemma istate_0 mu (xo : list R) : istate mu xo 0 = @mkI ER (fin xo) (@const_of ER m (@zero ER)) (@f_reset ER).
Proof.
  unfold istate. cbn [itr fst snd]. f_equal. rewrite zero_E. unfold const_of. rewrite (tab_fin' m _ (fun _ => 0)) by done. f_equal.
  symmetry. apply (list_eq_nth m); [apply (@tab_length RN)|apply repeat_length|]. intros i Hi. rewrite nth_tab by done. symmetry. apply nth_repeat.
Qed.
Lemma trace_rate mu xo k v : 0 < mu -> length xo = m -> feasible Ar bv sg xo -> (1 <= k)%nat -> minimiser m Ar bv sg (fs Wr mu) v ->
  fs Wr mu (fst (itr mu xo k)) - fs Wr mu v <= rate p (sqrt L) mu k (nrm2 (vlin 1 v (-1) xo)).
Proof.
  intros Hmu Lo Fo Hk (Lv & Fv & Hv). pose proof (est_rate m n p Ar Wr Vr bv sg L mu HW HV Lb HL Hmu HN xo k _ _ v Lo (itr_est mu xo k Hmu Lo Fo) Hk Lv Fv Hv) as Q.
  eapply Rle_trans; [exact Q|]. apply Req_le. unfold rate. pose proof (pos_INR k). rewrite sqrt_mult by (try apply pos_INR; lra).
  unfold dsq. fold (nrm2 (vlin 1 v (-1) xo)). assert (E1 : sqrt L ^ 2 = L) by (apply pow2_sqrt; lra). rewrite E1.
  assert (E2 : nrm2sq (vlin 1 v (-1) xo) = nrm2 (vlin 1 v (-1) xo) ^ 2) by (rewrite <- nrm2_sq; ring). rewrite E2. field. lra.
Qed.
Lemma rate_mono q nw mu k D D' : 0 <= nw -> 0 < mu -> 0 <= D -> D <= D' -> rate q nw mu k D <= rate q nw mu k D'.
Proof.
  intros Hn Hm HD Hle. unfold rate. pose proof (pos_INR k). assert (0 <= sqrt (INR q)) by apply sqrt_pos. unfold Rdiv. apply Rplus_le_compat.
  - apply Rmult_le_compat_r; [left; apply Rinv_0_lt_compat; lra|]. apply Rmult_le_compat_l; [|done]. apply Rmult_le_pos; [|done]. lra.
  - apply Rmult_le_compat_r; [left; apply Rinv_0_lt_compat; nra|]. apply Rmult_le_compat_l.
    + apply Rmult_le_pos; [lra|]. apply Rmult_le_pos; [apply pow2_ge_0|]. left. by apply Rinv_0_lt_compat.
    + cbn [Rpow_def.pow]. rewrite !Rmult_1_r. apply Rmult_le_compat; lra.
Qed.
Lemma stage_good (bm bt mu tol : R) (xo : list R) : 0 < mu * bm -> length xo = m -> feasible Ar bv sg xo ->
  exists f X K, @ne_stage ER m n p A B Wt Wm bs atb (Fin sg) (Fin L) (Fin bm) (Fin bt) (Fin mu, Fin tol, fin xo) = (Fin (mu * bm), Fin (tol * bt), fin (X K)) /\
    X 0%nat = xo /\ good_run m p Ar bv sg Wr (sqrt L) (mu * bm) (tol * bt) f X K.
Proof.
  intros Hm Lo Fo. set (mu' := mu * bm) in *. set (tol' := tol * bt).
  destruct (loop_trace mu' tol' xo (Z.to_nat MAX_INNER_ITER) 0 Hm Lo Fo) as (K & EK & HK & H2 & H3); [unfold MAX_INNER_ITER; lia|].
  rewrite istate_0 in EK. set (X := fun k => fst (itr mu' xo k)). exists (fs Wr mu'), X, K.
  unfold ne_stage. cbn [mul ER er_mul]. fold mu' tol'. rewrite EK. cbn [i_x istate]. split; [done|]. split; [done|].
  assert (EM : (MAX_INNER_ITER = 10000)%Z) by done. rewrite EM in *. split.
  - intros x Lx. by apply smooth_spec.
  - intros k. by apply itr_feasible.
  - lia.
  - intros k Hk. apply H2; lia.
  - intros H. apply H3. lia.
  - intros k v Hk Hv. exact (trace_rate mu' xo k v Hm Lo Fo Hk Hv).
  - intros c Hc HC'. destruct (minimiser_exists m n p Ar Br Wr bv sg L mu' c) as (v & Hv); try done. split; [by exists v|].
    intros k w Hk Lw Fw. pose proof (trace_rate mu' xo k v Hm Lo Fo Hk Hv) as Q. pose proof Hv as (Lv & Fv & Hv'). specialize (Hv' w Lw Fw).
    destruct (itr_feasible mu' xo k Hm Lo Fo) as [LX _]. fold (X k) in Q, LX. change (fst (itr mu' xo k)) with (X k) in *.
    pose proof (smooth_gap mu' Hm (Wr (X k))) as [_ H2']. rewrite (proj1 HW) in H2' by done. pose proof (f_le_1 Wr mu' Hm w) as H4.
    pose proof (minimiser_near m n p Ar Wr bv sg mu' c HW Lb Hm Hc HC' v xo Hv Lo Fo) as H5.
    pose proof (rate_mono p (sqrt L) mu' k _ _ (sqrt_pos L) Hm (nrm2_nonneg _) H5) as H6. unfold fs in *. change (X 0%nat) with xo. lra.
Qed.
Lemma stages_good (bm bt mu tol : R) (xo : list R) nc : 0 < mu -> 0 < bm -> length xo = m -> feasible Ar bv sg xo ->
  exists Y, Y 0%nat = xo /\ (forall j, length (Y j) = m /\ feasible Ar bv sg (Y j)) /\
    (forall j, (j <= nc)%nat -> Nat.iter j (@ne_stage ER m n p A B Wt Wm bs atb (Fin sg) (Fin L) (Fin bm) (Fin bt)) (Fin mu, Fin tol, fin xo) = (Fin (mu * bm ^ j), Fin (tol * bt ^ j), fin (Y j))) /\
    forall j, (j < nc)%nat -> exists f X K, X 0%nat = Y j /\ X K = Y (S j) /\ good_run m p Ar bv sg Wr (sqrt L) (mu * bm ^ (S j)) (tol * bt ^ (S j)) f X K.
Proof.
  intros Hmu Hb Lo Fo. induction nc as [|nc (Y & E0 & HY & HI' & HS)].
  - exists (fun _ => xo). split; [done|]. split; [done|]. split; [|intros j Hj; lia]. intros j Hj. replace j with 0%nat by lia. cbn [Nat.iter nat_rect Rpow_def.pow]. by rewrite !Rmult_1_r.
  - assert (Hm : 0 < mu * bm ^ nc * bm) by (apply Rmult_lt_0_compat; [apply Rmult_lt_0_compat; [done|by apply pow_lt]|done]).
    destruct (HY nc) as [Ly Fy]. destruct (stage_good bm bt (mu * bm ^ nc) (tol * bt ^ nc) (Y nc) Hm Ly Fy) as (f & X & K & E & EX & HG).
    assert (E1 : mu * bm ^ nc * bm = mu * bm ^ S nc) by (cbn [Rpow_def.pow]; ring). assert (E2 : tol * bt ^ nc * bt = tol * bt ^ S nc) by (cbn [Rpow_def.pow]; ring).
    rewrite E1, E2 in E, HG. exists (fun j => if (j <=? nc)%nat then Y j else X K). split; [done|]. split.
    { intros j. destruct (j <=? nc)%nat; [apply HY|]. apply (gr_X _ _ _ _ _ _ _ _ _ _ _ _ HG). }
    split.
    + intros j Hj. destruct (Nat.leb_spec j nc) as [Hle|Hgt]; [by apply HI'|]. replace j with (S nc) by lia. change (Nat.iter (S nc) ?f ?a) with (f (Nat.iter nc f a)). rewrite HI' by lia. exact E.
    + intros j Hj. destruct (Nat.leb_spec (S j) nc) as [Hle|Hgt].
      * destruct (Nat.leb_spec j nc); [|lia]. apply HS. lia.
      * destruct (Nat.leb_spec j nc); [|lia]. replace j with nc by lia. by exists f, X, K.
Qed.
Lemma beta_geo (final start : R) nc : 0 < final -> 0 < start -> (1 <= nc)%Z ->
  exists be, @ne_beta ER (Fin final) (Fin start) nc = Fin be /\ 0 < be /\ forall j, start * be ^ j = geo start final (Z.to_nat nc) j.
Proof.
  intros Hf Hs Hn. unfold ne_beta. rewrite ofZ_ER. cbn [div ER]. rewrite div_fin by lra. assert (Hq : 0 < final / start) by (by apply Rdiv_lt_0_compat).
  cbn [log_ ER er_log]. destruct (Rlt_dec (final / start) 0); [lra|]. destruct (Req_EM_T (final / start) 0); [lra|].
  assert (Hz : 0 < IZR nc) by (apply IZR_lt; lia). rewrite div_fin by lra. cbn [exp_ ER er_exp].
  eexists. split; [reflexivity|]. split; [apply exp_pos|]. intros j. unfold geo, Rpower. f_equal.
  assert (Ep : forall x k, exp x ^ k = exp (INR k * x)).
  { intros x k. induction k as [|k IH]; [cbn [Rpow_def.pow INR]; rewrite Rmult_0_l; symmetry; apply exp_0|]. rewrite S_INR. cbn [Rpow_def.pow]. rewrite IH, <- exp_plus. f_equal. lra. }
  rewrite Ep. f_equal. rewrite (INR_IZR_INZ (Z.to_nat nc)), Z2Nat.id by lia. field. lra.
Qed.
(** the whole call *)
Lemma result_staged (mu tol : R) nc : (1 <= p)%nat -> 0 < mu -> 0 < tol -> (1 <= nc)%Z ->
  (exists i, (i < p)%nat /\ 0 < (if (i <? m)%nat then Rabs (nth i (Wr (Br bv)) 0) else nth i (Wr (Br bv)) 0)) ->
  exists x, @ne_result ER m n p A B Wt Wm bs atb (Fin sg) (Fin L) (Fin mu) (Fin tol) nc = fin x /\ length x = m /\ feasible Ar bv sg x /\
    staged m p Ar bv sg Wr (sqrt L) mu tol (Z.to_nat nc) (Br bv) x.
Proof.
  intros Hp Hmu Htol Hn (i & Hi & Hw). unfold ne_result. pose proof (start_feasible n Ar Br bv sg HI Lb Hsg) as F0. assert (LB : length (Br bv) = m) by (by apply HB).
  destruct (mu0_fin m n p Wt Ar Br Wr bv HB HW EW Lb Hp) as (M & E & H1 & H1'). assert (HM : 0 < M) by (specialize (H1 i Hi); lra).
  rewrite E. destruct (beta_geo mu (9 / 10 * M) nc Hmu ltac:(lra) ltac:(lia)) as (bm & Eb & Hb & Em). rewrite Eb.
  assert (El : @lit ER 1 10 = Fin (1 / 10)) by done. rewrite El.
  destruct (beta_geo tol (1 / 10) nc Htol ltac:(lra) ltac:(lia)) as (bt & Ebt & Hbt & Et). rewrite Ebt.
  destruct (stages_good bm bt (9 / 10 * M) (1 / 10) (Br bv) (Z.to_nat nc) ltac:(lra) Hb LB F0) as (Y & E0 & HY & HI' & HS).
  exists (Y (Z.to_nat nc)). split; [by rewrite HI'|]. split; [apply HY|]. split; [apply HY|].
  exists M, Y. split; [split; rewrite (proj1 HW) by done; done|]. do 3 (split; [done|]). intros j Hj. rewrite <- Em, <- Et. by apply HS.
Qed.
End trace.

(** the last stage *)
Lemma geo_end a b nc : 0 < a -> 0 < b -> (1 <= nc)%nat -> geo a b nc nc = b.
Proof.
  intros Ha Hb Hn. unfold geo. assert (0 < INR nc) by (apply lt_0_INR; lia). replace (INR nc / INR nc) with 1 by (field; lra).
  rewrite Rpower_1 by (by apply Rdiv_lt_0_compat). field. lra.
Qed.
Lemma staged_last m p Ar bv sg Wr nw mu tol nc start x : 0 < mu -> 0 < tol -> (1 <= nc)%nat -> staged m p Ar bv sg Wr nw mu tol nc start x ->
  exists f X K, good_run m p Ar bv sg Wr nw mu tol f X K /\ x = X K /\ (nc = 1%nat -> X 0%nat = start).
Proof.
  intros Hmu Ht Hn (M & Y & HL & HM & E0 & Ex & HS). destruct nc as [|nc]; [lia|]. destruct (HS nc ltac:(lia)) as (f & X & K & E1 & E2 & HG).
  rewrite !geo_end in HG by (lra || lia). exists f, X, K. split; [done|]. split; [congruence|]. intros Q. injection Q as ->. congruence.
Qed.
Lemma good_near m p Ar bv sg Wr nw mu tol f X K : linmap m p Wr -> 0 < mu -> good_run m p Ar bv sg Wr nw mu tol f X K ->
  forall v w, minimiser m Ar bv sg f v -> length w = m -> feasible Ar bv sg w ->
    nrm1 (Wr (X K)) <= nrm1 (Wr w) + INR p * (mu / 2) + rate p nw mu K (nrm2 (vlin 1 v (-1) (X 0%nat))).
Proof.
  intros HW Hm HG v w Hv Lw Fw. pose proof (gr_rate _ _ _ _ _ _ _ _ _ _ _ _ HG K v) as Q. pose proof (gr_K _ _ _ _ _ _ _ _ _ _ _ _ HG). specialize (Q ltac:(lia) Hv).
  destruct (gr_X _ _ _ _ _ _ _ _ _ _ _ _ HG K) as [LX _].
  assert (EF : forall x, length x = m -> f x = smooth mu (Wr x)).
  { intros x Lx. destruct (gr_f _ _ _ _ _ _ _ _ _ _ _ _ HG x Lx) as [(u & Lu & Hu & E1) H1]. destruct (smooth_spec mu Hm (Wr x)) as [(u' & Lu' & Hu' & E2) H2].
    apply Rle_antisym; [rewrite E1; by apply H2|rewrite E2; by apply H1]. }
  pose proof Hv as (Lv & Fv & Hv'). pose proof (Hv' w Lw Fw) as H1. rewrite (EF w Lw), (EF v Lv) in H1. rewrite (EF _ LX), (EF v Lv) in Q.
  pose proof (smooth_gap mu Hm (Wr (X K))) as [_ H2]. rewrite (proj1 HW) in H2 by done. pose proof (smooth_gap mu Hm (Wr w)) as [H3 _]. lra.
Qed.
