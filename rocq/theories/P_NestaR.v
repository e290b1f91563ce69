(** * NESTA in exact arithmetic with NaN and infinities. *)
From Coq Require Import ZArith Lia Reals Lra Psatz.
From stdpp Require Import base list.
From Verif Require Import Mem M_Math M_Nesta P_Mem P_Loop P_Math P_MathR P_TVR L_Sum S_Vec L_Lin L_ER P_CGR S_Newt P_NewtX P_NewtX2 P_NewtR L_Barrier P_Touch S_Nesta L_Nesta P_Nesta.
Local Open Scope R_scope.
Local Notation sqrt := R_sqrt.sqrt.

Lemma dmax_E (a b : R) : @dmax ER (Fin a) (Fin b) = Fin (Rmax a b).
Proof. unfold dmax, Rmax. cbn [ltb_ ER er_ltb]. unfold Rltb. destruct (Rlt_dec b a), (Rle_dec a b); try done; try lra. Qed.
Lemma sqerr_fin n u v : @sqerr_of ER n (fin u) (fin v) = Fin (@sqerr_of RN n u v).
Proof. apply (foldi_fin n). intros i x _. by rewrite !at_fin. Qed.
Lemma max_fin n (u : list R) (xs : list er) : (1 <= n)%nat -> (forall i, (i < n)%nat -> @at_ ER xs i = Fin (nth i u 0)) ->
  exists M, @max_of ER n xs = Fin M /\ (forall i, (i < n)%nat -> nth i u 0 <= M) /\ exists i, (i < n)%nat /\ M = nth i u 0.
Proof.
  intros Hn HX. destruct n as [|n]; [lia|]. clear Hn. unfold max_of. replace (S n - 1)%nat with n by lia.
  induction n as [|n IH].
  - exists (nth 0 u 0). cbn [foldi]. rewrite HX by lia. split; [done|]. split; [|exists 0%nat; split; [lia|done]]. intros i Hi. replace i with 0%nat by lia. lra.
  - destruct IH as (M & E & H1 & i0 & Hi0 & H2); [intros i Hi; apply HX; lia|]. cbn [foldi]. rewrite E. rewrite HX by lia. cbn [ltb_ ER er_ltb]. unfold Rltb.
    destruct (Rlt_dec M (nth (S n) u 0)) as [Hl|Hl].
    + exists (nth (S n) u 0). split; [done|]. split; [|exists (S n); split; [lia|done]]. intros i Hi. destruct (decide (i = S n)) as [->|]; [lra|]. specialize (H1 i ltac:(lia)). lra.
    + exists M. split; [done|]. split; [|exists i0; split; [lia|done]]. intros i Hi. destruct (decide (i = S n)) as [->|]; [lra|]. apply H1. lia.
Qed.

Section lift.
Context (m n p : nat) (A B Wt Wm : list er -> list er) (Ar Br Wr Vr : list R -> list R) (bv : list R) (sg L : R).
Context (HA : linmap m n Ar) (HB : adjoint m n Ar Br) (HI : unit_rows n Ar Br) (HW : linmap m p Wr) (HV : adjoint m p Wr Vr).
Context (EA : forall v, length v = m -> A (fin v) = fin (Ar v)) (EB : forall v, length v = n -> B (fin v) = fin (Br v)).
Context (EW : forall v, length v = m -> Wt (fin v) = fin (Wr v)) (EV : forall v, length v = p -> Wm (fin v) = fin (Vr v)).
Context (Lb : length bv = n) (Hsg : 0 < sg) (HL : 0 < L).
Notation bs := (fin bv).
Notation atb := (fin (Br bv)).
Lemma proj_fin (mu : R) (xx g : list R) : 0 < mu -> length xx = m -> length g = m ->
  @ne_proj ER m n A B bs atb (Fin sg) (Fin L) (Fin mu) (fin xx) (fin g) = fin (pr_v Ar Br bv sg (L / mu) xx g).
Proof.
  intros Hmu Lx Lg. set (Lm := L / mu). assert (HLm : 0 < Lm) by (by apply Rdiv_lt_0_compat).
  assert (ELm : @div ER (Fin L) (Fin mu) = Fin Lm) by (apply div_fin; lra).
  assert (Eq : @ne_q ER m (Fin L) (Fin mu) (fin xx) (fin g) = fin (pr_q Lm xx g)).
  { unfold ne_q. rewrite ELm. rewrite oppone_E. cbn [div ER]. rewrite div_fin by lra. rewrite axpy_fin. f_equal. rewrite axpy_vlin by done. unfold pr_q. f_equal. }
  unfold ne_proj. cbv zeta. rewrite Eq. destruct (pr_len m n Ar Br bv sg Lm HA xx g Lx Lg) as (Lq & Lr & Lv). unfold pr_v. cbv zeta. set (q := pr_q Lm xx g) in *.
  rewrite EA by done. assert (LAq : length (Ar q) = n) by (by apply HA). rewrite EB by done.
  assert (Es : @sqrt_ ER (@sqerr_of ER n bs (fin (Ar q))) = Fin (nrm2 (resid Ar bv q))).
  { rewrite sqerr_fin. cbn [sqrt_ ER]. rewrite sqerr_RN. rewrite sqrt_fin by (apply Rsum_nonneg; intros; apply pow2_ge_0). f_equal. unfold nrm2, nrm2sq. rewrite Lr. f_equal.
    apply Rsum_ext. intros i Hi. unfold resid. rewrite nth_vlin by lia. lra. }
  assert (El : @ne_lambda ER n A bs (Fin sg) (Fin L) (Fin mu) (fin q) = Fin (pr_lam Ar bv sg Lm q)).
  { unfold ne_lambda. rewrite ELm. rewrite EA by done. rewrite Es. rewrite one_ER, zero_ER. cbn [div ER]. rewrite div_fin by lra. cbn [sub mul ER er_mul er_sub er_add er_opp].
    rewrite dmax_E. rewrite one_RN, zero_RN. unfold pr_lam. do 2 f_equal. }
  assert (Hlam : 0 <= pr_lam Ar bv sg Lm q) by apply Rmax_l.
  assert (Ea : @ne_a1 ER n A bs (Fin sg) (Fin L) (Fin mu) (fin q) = Fin (pr_a Ar bv sg Lm q)).
  { unfold ne_a1. rewrite El, ELm. cbn [add ER er_add div]. rewrite div_fin by lra. done. }
  rewrite Ea, El, ELm. rewrite one_ER. cbn [div ER]. rewrite div_fin by lra. cbn [sub mul opp ER er_mul er_sub er_add er_opp]. rewrite !axpy_fin. f_equal.
  set (lam := pr_lam Ar bv sg Lm q) in *. set (a := pr_a Ar bv sg Lm q).
  assert (Ec : lam / Lm * (@one RN + - a) = a). { rewrite one_RN. unfold a, pr_a. fold lam. field. lra. }
  rewrite Ec. assert (LB : forall y, length y = n -> length (Br y) = m) by apply HB.
  pose proof (adjoint_linmap m n Ar Br HA HB) as HBl.
  apply (list_eq_nth m); [apply axpy_len|by rewrite vlin_length|]. intros i Hi. rewrite !nth_axpy by done. rewrite nth_vlin by lia.
  unfold resid. rewrite (linmap_vlin n m Br) by done. rewrite nth_vlin by (rewrite LB; done). lra.
Qed.
Lemma u_fin (mu : R) (x : list R) : 0 < mu -> length x = m -> @ne_u ER p (Fin mu) (Wt (fin x)) = fin (clips mu (Wr x)).
Proof.
  intros Hmu Lx. rewrite EW by done. assert (Lw : length (Wr x) = p) by (by apply HW). unfold ne_u.
  rewrite (tab_fin' p _ (fun i => clip mu (nth i (Wr x) 0))).
  - f_equal. apply (list_eq_nth p); [apply (@tab_length RN)|unfold clips; by rewrite map_length|]. intros i Hi. rewrite nth_tab by done. rewrite nth_clips by lia. done.
  - intros i Hi. rewrite at_fin, at_RN. change (@fabs ER (Fin (nth i (Wr x) 0))) with (Fin (Rabs (nth i (Wr x) 0))). rewrite dmax_E. cbn [div ER]. rewrite div_fin; [done|].
    pose proof (Rmax_l mu (Rabs (nth i (Wr x) 0))). lra.
Qed.
Lemma clips_length mu w : length (clips mu w) = length w. Proof. apply map_length. Qed.
Lemma grad_fin (mu : R) (x : list R) : 0 < mu -> length x = m -> @ne_grad ER p Wt Wm (Fin mu) (fin x) = fin (Vr (clips mu (Wr x))).
Proof.
  intros Hmu Lx. unfold ne_grad. rewrite u_fin by done. apply EV. rewrite clips_length. by apply HW.
Qed.
Lemma fx_fin (mu : R) (x : list R) : 0 < mu -> length x = m -> @ne_fx ER p Wt (Fin mu) (fin x) = Fin (smooth mu (Wr x)).
Proof.
  intros Hmu Lx. unfold ne_fx. rewrite u_fin by done. assert (Lw : length (Wr x) = p) by (by apply HW). rewrite EW by done.
  set (u := clips mu (Wr x)). assert (Lu : length u = p) by (unfold u; by rewrite clips_length).
  unfold nrm2_of. rewrite !dot_fin. cbn [sqrt_ ER]. rewrite sqrt_fin by (rewrite dot_of_ip; apply ip_self_nonneg). cbn [lit ER mul sub er_mul er_sub er_add er_opp].
  rewrite sqrt_sqrt by (rewrite dot_of_ip; apply ip_self_nonneg). f_equal. rewrite !dot_of_ip. unfold ip, smooth. rewrite Lw.
  transitivity (Rsum p (fun i => nth i u 0 * nth i (Wr x) 0) - 1 / 2 * mu * Rsum p (fun i => nth i u 0 * nth i u 0)); [lra|].
  rewrite <- Rsum_scal, <- Rsum_minus. apply Rsum_ext. intros i Hi. unfold u. rewrite nth_clips by lia. unfold hub. lra.
Qed.

(** *** feasibility of every iterate *)
Definition finI (v : @inner ER) : Prop := exists x g, i_x v = fin x /\ length x = m /\ feasible Ar bv sg x /\ i_gs v = fin g /\ length g = m.
Lemma tau_E k : @ne_tau ER k = Fin (2 / (INR k + 3)) /\ 0 < 2 / (INR k + 3) <= 1.
Proof.
  pose proof (pos_INR k) as Hk. unfold ne_tau, two. rewrite !ofZ_ER. cbn [div ER]. rewrite plus_IZR, <- INR_IZR_INZ.
  rewrite div_fin by lra. split; [done|]. split; [apply Rdiv_lt_0_compat; lra|]. apply (Rmult_le_reg_r (INR k + 3)); [lra|]. unfold Rdiv. rewrite Rmult_assoc, Rinv_l; lra.
Qed.
Lemma step_feasible (mu : R) (xo : list R) k v : 0 < mu -> length xo = m -> finI v ->
  finI (@ne_step ER m n p A B Wt Wm bs atb (Fin sg) (Fin L) (Fin mu) (fin xo) k v).
Proof.
  intros Hmu Lo (x & g & Ex & Lx & _ & Eg & Lg).
  assert (LV : forall u, length u = p -> length (Vr u) = m) by apply HV. assert (LWx : length (Wr x) = p) by (by apply HW).
  assert (HLm : 0 < L / mu) by (by apply Rdiv_lt_0_compat).
  set (G := Vr (clips mu (Wr x))). assert (LG : length G = m) by (apply LV; by rewrite clips_length).
  assert (EG : @ne_grad ER p Wt Wm (Fin mu) (@i_x ER v) = fin G) by (rewrite Ex; by apply grad_fin).
  assert (Egs : exists g', @ne_gs ER m p Wt Wm (Fin mu) k v = fin g' /\ length g' = m).
  { unfold ne_gs. rewrite EG, Eg. rewrite ofZ_ER. cbn [lit ER mul er_mul]. rewrite axpy_fin. eexists. split; [reflexivity|]. apply axpy_len. }
  destruct Egs as (g' & Egs & Lg').
  assert (Ey : @ne_y ER m n p A B Wt Wm bs atb (Fin sg) (Fin L) (Fin mu) v = fin (pr_v Ar Br bv sg (L / mu) x G)).
  { unfold ne_y. rewrite EG, Ex. by apply proj_fin. }
  assert (Ez : @ne_z ER m n p A B Wt Wm bs atb (Fin sg) (Fin L) (Fin mu) (fin xo) k v = fin (pr_v Ar Br bv sg (L / mu) xo g')).
  { unfold ne_z. rewrite Egs. by apply proj_fin. }
  unfold ne_step. rewrite Ey, Ez, Egs. destruct (tau_E k) as [Et Ht]. rewrite Et. set (t := 2 / (INR k + 3)) in *.
  rewrite one_ER. cbn [sub ER er_sub er_add er_opp]. rewrite one_RN, axpby_fin.
  destruct (pr_len m n Ar Br bv sg (L / mu) HA x G Lx LG) as (_ & _ & Ly).
  destruct (pr_len m n Ar Br bv sg (L / mu) HA xo g' Lo Lg') as (_ & _ & Lz).
  set (y := pr_v Ar Br bv sg (L / mu) x G) in *. set (z := pr_v Ar Br bv sg (L / mu) xo g') in *.
  exists (vlin t z (1 - t) y), g'. cbn [i_x i_gs]. split.
  { f_equal. apply (list_eq_nth m); [apply (@tab_length RN)|by rewrite vlin_length|]. intros i Hi. rewrite nth_axpby, nth_vlin by lia. lra. }
  split; [by rewrite vlin_length|]. split; [|done].
  apply (feasible_convex m n); try done; try lra.
  - by apply (pr_feasible m n Ar Br bv sg (L / mu)).
  - by apply (pr_feasible m n Ar Br bv sg (L / mu)).
Qed.
Lemma loop_feasible (mu : R) tol (xo : list R) fuel k v : 0 < mu -> length xo = m -> finI v ->
  finI (@ne_loop ER m n p A B Wt Wm bs atb (Fin sg) (Fin L) (Fin mu) tol (fin xo) fuel k v).
Proof.
  intros Hmu Lo. revert k v. induction fuel as [|fu IH]; intros k v HI'; cbn [ne_loop]; [done|].
  destruct (ne_stop _ _ _ _ _); [by apply step_feasible|]. apply IH. by apply step_feasible.
Qed.
Definition stageI (v : er * er * list er) : Prop := exists mu x, fst (fst v) = Fin mu /\ 0 < mu /\ snd v = fin x /\ length x = m /\ feasible Ar bv sg x.
Lemma stage_feasible (bm : R) btol v : 0 < bm -> stageI v -> stageI (@ne_stage ER m n p A B Wt Wm bs atb (Fin sg) (Fin L) (Fin bm) btol v).
Proof.
  intros Hb (mu & x & E1 & Hmu & E2 & Lx & Fx). destruct v as [[mu' tol] x']. cbn [fst snd] in E1, E2. subst mu' x'. unfold ne_stage. cbn [mul ER er_mul].
  assert (Hm : 0 < mu * bm) by (by apply Rmult_lt_0_compat).
  destruct (loop_feasible (mu * bm) (er_mul tol btol) x (Z.to_nat MAX_INNER_ITER) 0 (@mkI ER (fin x) (@const_of ER m zero) f_reset) Hm Lx) as (y & g & Ey & Ly & Fy & _).
  - exists x, (repeat 0 m). cbn [i_x i_gs]. split; [done|]. split; [done|]. split; [done|]. split; [|apply repeat_length].
    rewrite zero_E. unfold const_of. rewrite (tab_fin' m _ (fun _ => 0)) by done. f_equal. apply (list_eq_nth m); [apply (@tab_length RN)|apply repeat_length|].
    intros i Hi. rewrite nth_tab by done. symmetry. apply nth_repeat.
  - exists (mu * bm), y. cbn [fst snd]. done.
Qed.
Lemma start_feasible : feasible Ar bv sg (Br bv).
Proof.
  unfold feasible. replace (resid Ar bv (Br bv)) with (vlin 0 bv 0 bv).
  - rewrite nrm2_scal by lra. lra.
  - unfold resid. rewrite HI by done. apply (list_eq_nth n); rewrite ?vlin_length; try done. intros i Hi. rewrite !nth_vlin by lia. lra.
Qed.

(** *** the initial smoothing parameter *)
Lemma ref_at i : (i < p)%nat -> @at_ ER (@ne_ref ER m p Wt atb) i = Fin (nth i (Wr (Br bv)) 0).
Proof.
  intros Hi. unfold ne_ref. assert (LB : length (Br bv) = m) by (by apply HB). rewrite EW by done. rewrite (@at_app_l ER) by (rewrite fin_length, (proj1 HW) by done; done).
  rewrite at_fin, at_RN. done.
Qed.
Lemma mu0_fin : (1 <= p)%nat -> exists M, @ne_mu0 ER m p Wt atb = Fin (9 / 10 * M) /\
  (forall i, (i < p)%nat -> (if (i <? m)%nat then Rabs (nth i (Wr (Br bv)) 0) else nth i (Wr (Br bv)) 0) <= M) /\
  exists i, (i < p)%nat /\ M = (if (i <? m)%nat then Rabs (nth i (Wr (Br bv)) 0) else nth i (Wr (Br bv)) 0).
Proof.
  intros Hp. unfold ne_mu0. set (w := Wr (Br bv)).
  destruct (max_fin p (map (fun i => if (i <? m)%nat then Rabs (nth i w 0) else nth i w 0) (seq 0 p)) (@abs_of ER m (@ne_ref ER m p Wt atb) ++ drop m (@ne_ref ER m p Wt atb)) Hp) as (M & E & H1 & i & Hi & H2).
  { intros i Hi. rewrite nth_map_seq by done. destruct (Nat.ltb_spec i m) as [Hm|Hm].
    - rewrite (@at_app_l ER) by (by rewrite abs_of_len). unfold abs_of. rewrite (@at_tab ER) by done. rewrite ref_at by done. done.
    - replace i with (length (@abs_of ER m (@ne_ref ER m p Wt atb)) + (i - m))%nat at 1 by (rewrite abs_of_len; lia). rewrite (@at_app_r ER).
      unfold at_. rewrite nth_lookup, lookup_drop, <- nth_lookup. replace (m + (i - m))%nat with i by lia. exact (ref_at i Hi). }
  exists M. rewrite E. cbn [lit ER mul er_mul]. split; [done|]. split.
  - intros j Hj. specialize (H1 j Hj). by rewrite nth_map_seq in H1.
  - exists i. split; [done|]. by rewrite nth_map_seq in H2.
Qed.
(** *** the factors *)
Lemma beta_fin (final start : R) nc : 0 < final -> 0 < start -> (1 <= nc)%Z ->
  exists be, @ne_beta ER (Fin final) (Fin start) nc = Fin be /\ 0 < be /\ start * be ^ (Z.to_nat nc) = final.
Proof.
  intros Hf Hs Hn. unfold ne_beta. rewrite ofZ_ER. cbn [div ER]. rewrite div_fin by lra. assert (Hq : 0 < final / start) by (by apply Rdiv_lt_0_compat).
  cbn [log_ ER er_log]. destruct (Rlt_dec (final / start) 0); [lra|]. destruct (Req_EM_T (final / start) 0); [lra|].
  assert (Hz : 0 < IZR nc) by (apply IZR_lt; lia). rewrite div_fin by lra. cbn [exp_ ER er_exp].
  eexists. split; [reflexivity|]. split; [apply exp_pos|].
  assert (Ep : forall x k, exp x ^ k = exp (INR k * x)).
  { intros x k. induction k as [|k IH]; [cbn [Rpow_def.pow INR]; rewrite Rmult_0_l; symmetry; apply exp_0|]. rewrite S_INR. cbn [Rpow_def.pow]. rewrite IH, <- exp_plus. f_equal. lra. }
  rewrite Ep. rewrite INR_IZR_INZ, Z2Nat.id by lia. replace (IZR nc * (ln (final / start) / IZR nc)) with (ln (final / start)) by (field; lra).
  rewrite exp_ln by done. field. lra.
Qed.
Lemma stages_mu (bm bt : R) (j : nat) (mu tol : R) x :
  fst (Nat.iter j (@ne_stage ER m n p A B Wt Wm bs atb (Fin sg) (Fin L) (Fin bm) (Fin bt)) (Fin mu, Fin tol, x)) = (Fin (mu * bm ^ j), Fin (tol * bt ^ j)).
Proof.
  induction j as [|j IH]; [cbn [Nat.iter nat_rect fst Rpow_def.pow]; rewrite !Rmult_1_r; done|].
  change (Nat.iter (S j) ?f ?a) with (f (Nat.iter j f a)). destruct (Nat.iter j _ _) as [[mu' tol'] x']. cbn [fst] in IH. injection IH as -> ->.
  unfold ne_stage. cbn [fst mul ER er_mul Rpow_def.pow]. f_equal; f_equal; ring.
Qed.
Lemma result_feasible (mu : R) tol nc : (1 <= p)%nat -> 0 < mu ->
  (nc <= 0)%Z \/ (exists i, (i < p)%nat /\ 0 < (if (i <? m)%nat then Rabs (nth i (Wr (Br bv)) 0) else nth i (Wr (Br bv)) 0)) ->
  exists x, @ne_result ER m n p A B Wt Wm bs atb (Fin sg) (Fin L) (Fin mu) tol nc = fin x /\ length x = m /\ feasible Ar bv sg x.
Proof.
  intros Hp Hmu HC. unfold ne_result. pose proof start_feasible as F0. assert (LB : length (Br bv) = m) by (by apply HB).
  destruct (decide (nc <= 0)%Z) as [Hn|Hn].
  - replace (Z.to_nat nc) with 0%nat by lia. cbn [Nat.iter nat_rect snd]. exists (Br bv). done.
  - destruct HC as [|(i & Hi & Hw)]; [lia|]. destruct (mu0_fin Hp) as (M & E & H1 & _). assert (HM : 0 < M) by (specialize (H1 i Hi); lra).
    rewrite E. destruct (beta_fin mu (9 / 10 * M) nc Hmu ltac:(lra) ltac:(lia)) as (bm & Eb & Hb & _). rewrite Eb.
    set (bt := @ne_beta ER tol _ _). clearbody bt. 
    assert (HS : stageI (Nat.iter (Z.to_nat nc) (@ne_stage ER m n p A B Wt Wm bs atb (Fin sg) (Fin L) (Fin bm) bt) (Fin (9 / 10 * M), @lit ER 1 10, atb))).
    { induction (Z.to_nat nc) as [|j IH].
      - exists (9 / 10 * M), (Br bv). cbn [Nat.iter nat_rect fst snd]. split; [done|]. split; [lra|]. done.
      - apply stage_feasible; done. }
    destruct HS as (mu' & x & _ & _ & Ex & Lx & Fx). exists x. done.
Qed.
End lift.

(** ** a smoothing parameter that is not a number, or L = 0: nothing finite is left *)
Section bad.
Context (m n p : nat) (A B Wt Wm : list er -> list er) (bs atb : list er) (sigma L : er).
(** L/mu is zero or not finite in the sense that -1/(L/mu) is not finite *)
Definition bad_step (mu : er) : Prop := nonfin (er_div (Fin (-1)) (er_div L mu)).
Definition allbad (x : list er) : Prop := length x = m /\ forall i, (i < m)%nat -> nonfin (@at_ ER x i).
Lemma nonfin_mul_r a b : nonfin b -> nonfin (er_mul a b).
Proof. destruct a, b; simpl; try done; unfold er_infmul; repeat case_match; done. Qed.
Lemma proj_bad mu xx g : bad_step mu -> allbad (@ne_proj ER m n A B bs atb sigma L mu xx g).
Proof.
  intros Hb. split; [apply (@ne_proj_len ER)|]. intros i Hi. unfold ne_proj. cbv zeta.
  assert (Hq : nonfin (@at_ ER (@ne_q ER m L mu xx g) i)).
  { unfold ne_q, axpy_of. rewrite (@at_tab ER) by done. rewrite oppone_E. apply nonfin_add_l. apply nonfin_mul_l. exact Hb. }
  set (q := @ne_q ER m L mu xx g) in *. unfold axpy_of. rewrite !(@at_tab ER) by done. apply nonfin_add_r. apply nonfin_add_r. done.
Qed.
Lemma step_bad mu xo k v : bad_step mu -> allbad (i_x (@ne_step ER m n p A B Wt Wm bs atb sigma L mu xo k v)).
Proof.
  intros Hb. cbn [ne_step i_x]. split; [apply (@axpby_of_len ER)|]. intros i Hi. unfold axpby_of. rewrite (@at_tab ER) by done.
  apply nonfin_add_l. apply nonfin_mul_r. apply proj_bad; done.
Qed.
Lemma loop_bad mu tol xo fuel k v : bad_step mu -> (1 <= fuel)%nat -> allbad (i_x (@ne_loop ER m n p A B Wt Wm bs atb sigma L mu tol xo fuel k v)).
Proof.
  intros Hb. revert k v. induction fuel as [|fu IH]; intros k v Hf; [lia|]. cbn [ne_loop]. destruct (ne_stop _ _ _ _ _); [by apply step_bad|].
  destruct fu as [|fu]; [by apply step_bad|]. apply IH. lia.
Qed.
Lemma stages_bad bmu btol j mu tol x : (1 <= j)%nat -> (forall i, (1 <= i)%nat -> bad_step (Nat.iter i (fun e => er_mul e bmu) mu)) ->
  allbad (snd (Nat.iter j (@ne_stage ER m n p A B Wt Wm bs atb sigma L bmu btol) (mu, tol, x))).
Proof.
  intros Hj Hm. destruct j as [|j]; [lia|]. clear Hj.
  assert (E : fst (fst (Nat.iter j (@ne_stage ER m n p A B Wt Wm bs atb sigma L bmu btol) (mu, tol, x))) = Nat.iter j (fun e => er_mul e bmu) mu).
  { induction j as [|j IH]; [done|]. change (Nat.iter (S j) ?f ?a) with (f (Nat.iter j f a)). destruct (Nat.iter j (@ne_stage ER _ _ _ _ _ _ _ _ _ _ _ _ _) _) as [[mu' tol'] x'].
    cbn [fst] in IH. subst mu'. done. }
  change (Nat.iter (S j) ?f ?a) with (f (Nat.iter j f a)). destruct (Nat.iter j (@ne_stage ER _ _ _ _ _ _ _ _ _ _ _ _ _) _) as [[mu' tol'] x']. cbn [fst] in E. subst mu'.
  unfold ne_stage. cbn [snd]. apply loop_bad; [apply (Hm (S j)); lia|unfold MAX_INNER_ITER; lia].
Qed.
(** L = 0 *)
Lemma bad_L0 mu : L = Fin 0 -> bad_step mu.
Proof.
  unfold bad_step. intros ->. destruct mu as [r| | |]; cbn [er_div]; try done.
  - destruct (Req_EM_T r 0) as [->|Hr].
    + destruct (Req_EM_T 0 0); [done|done].
    + cbn [er_div]. destruct (Req_EM_T (0 / r) 0) as [|H]; [|exfalso; apply H; unfold Rdiv; lra]. destruct (Req_EM_T (-1) 0); [lra|]. destruct (Rlt_dec 0 (-1)); [lra|done].
  - destruct (Req_EM_T 0 0); [|done]. destruct (Req_EM_T (-1) 0); [lra|]. destruct (Rlt_dec 0 (-1)); [lra|done].
  - destruct (Req_EM_T 0 0); [|done]. destruct (Req_EM_T (-1) 0); [lra|]. destruct (Rlt_dec 0 (-1)); [lra|done].
Qed.
Lemma bad_nan : bad_step NaN.
Proof. unfold bad_step. by destruct L. Qed.
(** a zero initial parameter: 0 * exp(log(mu/0)/n) = 0 * Inf is not a number *)
Lemma beta_zero (mu : R) nc : 0 < mu -> (1 <= nc)%Z -> @ne_beta ER (Fin mu) (Fin 0) nc = PInf.
Proof.
  intros Hmu Hn. unfold ne_beta. rewrite ofZ_ER. cbn [div ER er_div]. destruct (Req_EM_T 0 0); [|done]. destruct (Req_EM_T mu 0); [lra|]. destruct (Rlt_dec 0 mu); [|lra].
  cbn [log_ ER er_log er_div]. assert (0 < IZR nc) by (apply IZR_lt; lia). destruct (Rle_dec 0 (IZR nc)); [done|lra].
Qed.
Lemma iter_zero j : (1 <= j)%nat -> Nat.iter j (fun e => er_mul e PInf) (Fin 0) = NaN.
Proof.
  intros Hj. destruct j as [|j]; [lia|]. clear Hj. induction j as [|j IH].
  - cbn. unfold er_infmul. destruct (Req_EM_T 0 0); done.
  - change (Nat.iter (S (S j)) ?f ?a) with (f (Nat.iter (S j) f a)). by rewrite IH.
Qed.
End bad.
