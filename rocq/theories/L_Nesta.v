(** * The mathematics behind NESTA: the projection step and the smoothed norm. *)
From Coq Require Import ZArith Lia Reals Lra Psatz.
From stdpp Require Import base list.
From Verif Require Import Mem P_Mem P_Loop P_Math P_MathR P_TVR L_Sum S_Vec L_Lin L_ER P_CGR S_Newt P_NewtX P_NewtX2 L_Barrier S_Nesta.
Local Open Scope R_scope.
Local Notation sqrt := R_sqrt.sqrt.

(** ** vectors *)
Lemma dot_vlin_r a u b v w : length u = length w -> dot w (vlin a u b v) = a * dot w u + b * dot w v.
Proof.
  intros L. unfold dot. rewrite <- !Rsum_scal, <- Rsum_plus. apply Rsum_ext. intros i Hi. rewrite nth_vlin by lia. lra.
Qed.
Lemma dot_vlin_l a u b v w : length v = length u -> length w = length u -> dot (vlin a u b v) w = a * dot u w + b * dot v w.
Proof.
  intros L1 L2. rewrite dot_sym by (by rewrite vlin_length). rewrite dot_vlin_r by done.
  rewrite (dot_sym w u), (dot_sym w v) by lia. done.
Qed.
Lemma nrm2sq_dot v : nrm2sq v = dot v v.
Proof. unfold nrm2sq, dot. apply Rsum_ext. intros. lra. Qed.
Lemma nrm2sq_nonneg v : 0 <= nrm2sq v.
Proof. apply Rsum_nonneg. intros. apply pow2_ge_0. Qed.
Lemma nrm2_sq v : nrm2 v * nrm2 v = nrm2sq v.
Proof. unfold nrm2. apply sqrt_sqrt, nrm2sq_nonneg. Qed.
Lemma nrm2_nonneg v : 0 <= nrm2 v. Proof. apply sqrt_pos. Qed.
Lemma dot_CS u v : length u = length v -> dot u v <= nrm2 u * nrm2 v.
Proof.
  intros L. pose proof (Rsum_CS (length u) (fun i => nth i u 0) (fun i => nth i v 0)) as H.
  cbv beta in H. fold (dot u v) in H.
  assert (E : Rsum (length u) (fun i => nth i v 0 ^ 2) = nrm2sq v) by (unfold nrm2sq; by rewrite L). cbv beta in H. fold (nrm2sq u) in H. rewrite E in H.
  rewrite <- !nrm2_sq in H. pose proof (nrm2_nonneg u). pose proof (nrm2_nonneg v).
  destruct (Rle_dec (dot u v) (nrm2 u * nrm2 v)) as [|N]; [done|]. exfalso. apply Rnot_le_lt in N. assert (H2 : 0 <= nrm2 u * nrm2 v) by (by apply Rmult_le_pos).
  replace (nrm2 u * nrm2 u * (nrm2 v * nrm2 v)) with ((nrm2 u * nrm2 v) * (nrm2 u * nrm2 v)) in H by ring. set (P := nrm2 u * nrm2 v) in *. clear - H N H2. nra.
Qed.
Lemma linmap_vlin m n A a u b v : linmap m n A -> length u = m -> length v = m -> A (vlin a u b v) = vlin a (A u) b (A v).
Proof.
  intros [HL HA] Lu Lv. apply (list_eq_nth n).
  - apply HL. by rewrite vlin_length.
  - rewrite vlin_length. by apply HL.
  - intros i Hi. rewrite nth_vlin by (by rewrite HL).
    assert (E0 : forall i, (i < n)%nat -> forall w, length w = m -> nth i (A (vlin 1 w 1 (vlin (-1) w 1 v))) 0 = nth i (A v) 0).
    { intros j Hj w Lw. f_equal. f_equal. apply (list_eq_nth m); [by rewrite vlin_length|done|]. intros k Hk. rewrite !nth_vlin by (rewrite ?vlin_length; lia). lra. }
    assert (Z : forall w, length w = m -> nth i (A (vlin (-1) w 1 w)) 0 = 0). { intros w Lw. rewrite HA by done. lra. }
    assert (S : forall w, length w = m -> nth i (A (vlin b w 0 w)) 0 = b * nth i (A w) 0).
    { intros w Lw. transitivity (nth i (A (vlin b w 1 (vlin (-1) w 1 w))) 0).
      - f_equal. f_equal. apply (list_eq_nth m); [by rewrite vlin_length|by rewrite vlin_length|]. intros k Hk. rewrite !nth_vlin by (rewrite ?vlin_length; lia). lra.
      - rewrite HA by (rewrite ?vlin_length; lia). rewrite Z by done. lra. }
    transitivity (nth i (A (vlin a u 1 (vlin b v 0 v))) 0).
    + f_equal. f_equal. apply (list_eq_nth m); [by rewrite vlin_length|by rewrite vlin_length|]. intros k Hk. rewrite !nth_vlin by (rewrite ?vlin_length; lia). lra.
    + rewrite HA by (rewrite ?vlin_length; lia). rewrite S by done. lra.
Qed.
Lemma adjoint_linmap m n A B : linmap m n A -> adjoint m n A B -> linmap n m B.
Proof.
  intros HA HB. split; [apply HB|]. intros a u v Lu Lv i Hi. destruct HB as [LB HB].
  assert (E : forall y, length y = n -> nth i (B y) 0 = dot (A (ebas m i)) y).
  { intros y Ly. rewrite HB by (done || apply ebas_length). rewrite dot_sym by (rewrite ebas_length, LB; done). rewrite dot_ebas by (done || by apply LB). done. }
  rewrite !E by (rewrite ?vlin_length; done). rewrite dot_vlin_r; [lra|]. rewrite (proj1 HA) by apply ebas_length. lia.
Qed.
Lemma resid_vlin2 m n A b a x c y : linmap m n A -> length x = m -> length y = m -> length b = n -> a + c = 1 ->
  resid A b (vlin a x c y) = vlin a (resid A b x) c (resid A b y).
Proof.
  intros HA Lx Ly Lb E. unfold resid. rewrite (linmap_vlin m n) by done. pose proof (proj1 HA x Lx). pose proof (proj1 HA y Ly).
  apply (list_eq_nth n); rewrite ?vlin_length; try done. intros i Hi. rewrite !nth_vlin by (rewrite ?vlin_length; lia). replace c with (1 - a) by lra. lra.
Qed.
(** the feasible set is convex *)
Lemma feasible_convex m n A b sigma a x c y : linmap m n A -> length x = m -> length y = m -> length b = n ->
  0 <= a -> 0 <= c -> a + c = 1 -> feasible A b sigma x -> feasible A b sigma y -> feasible A b sigma (vlin a x c y).
Proof.
  intros HA Lx Ly Lb Ha Hc E Fx Fy. unfold feasible in *. rewrite (resid_vlin2 m n) by done.
  set (u := resid A b x) in *. set (v := resid A b y) in *.
  assert (Lu : length u = n) by (unfold u, resid; rewrite vlin_length; by apply HA).
  assert (Lv : length v = n) by (unfold v, resid; rewrite vlin_length; by apply HA).
  pose proof (nrm2_nonneg u). pose proof (nrm2_nonneg v). pose proof (nrm2_nonneg (vlin a u c v)).
  assert (H2 : nrm2 (vlin a u c v) * nrm2 (vlin a u c v) <= (a * nrm2 u + c * nrm2 v) * (a * nrm2 u + c * nrm2 v)).
  { rewrite nrm2_sq, nrm2sq_dot. rewrite dot_vlin_l by (rewrite ?vlin_length; lia). rewrite !dot_vlin_r by lia. rewrite (dot_sym v u) by lia.
    rewrite <- !nrm2sq_dot, <- !nrm2_sq. pose proof (dot_CS u v ltac:(lia)). assert (0 <= a * c) by (by apply Rmult_le_pos).
    assert (a * c * dot u v <= a * c * (nrm2 u * nrm2 v)) by (by apply Rmult_le_compat_l). nra. }
  assert (nrm2 (vlin a u c v) <= a * nrm2 u + c * nrm2 v).
  { destruct (Rle_dec (nrm2 (vlin a u c v)) (a * nrm2 u + c * nrm2 v)) as [|N]; [done|]. exfalso. apply Rnot_le_lt in N.
    assert (0 <= a * nrm2 u) by (by apply Rmult_le_pos). assert (0 <= c * nrm2 v) by (by apply Rmult_le_pos). nra. }
  assert (a * sigma + c * sigma = sigma) by (rewrite <- Rmult_plus_distr_r, E; lra).
  assert (a * nrm2 u <= a * sigma) by (by apply Rmult_le_compat_l). assert (c * nrm2 v <= c * sigma) by (by apply Rmult_le_compat_l). lra.
Qed.

(** ** the projection step *)
Section project.
Context (m n : nat) (A B : list R -> list R) (b : list R) (sigma Lm : R).
Context (HA : linmap m n A) (HB : adjoint m n A B) (HI : unit_rows n A B) (Lb : length b = n) (Hs : 0 < sigma) (HL : 0 < Lm).
Definition pr_q (xx g : list R) : list R := vlin (-1 / Lm) g 1 xx.
Definition pr_lam (q : list R) : R := Rmax 0 (Lm * (nrm2 (resid A b q) / sigma - 1)).
Definition pr_a (q : list R) : R := pr_lam q / (Lm + pr_lam q).
Definition pr_v (xx g : list R) : list R := let q := pr_q xx g in vlin 1 q (- pr_a q) (B (resid A b q)).
Lemma pr_a_range q : 0 <= pr_a q < 1.
Proof.
  unfold pr_a. assert (0 <= pr_lam q) by apply Rmax_l. split.
  - apply Rmult_le_pos; [done|]. apply Rlt_le, Rinv_0_lt_compat. lra.
  - apply (Rmult_lt_reg_r (Lm + pr_lam q)); [lra|]. unfold Rdiv. rewrite Rmult_assoc, Rinv_l by lra. lra.
Qed.
Lemma pr_a_cases q : (pr_a q = 0 /\ nrm2 (resid A b q) <= sigma) \/ (0 < nrm2 (resid A b q) /\ (1 - pr_a q) * nrm2 (resid A b q) = sigma).
Proof.
  unfold pr_a, pr_lam. set (r := nrm2 (resid A b q)). assert (0 <= r) by apply nrm2_nonneg. unfold Rmax.
  destruct (Rle_dec 0 (Lm * (r / sigma - 1))) as [H1|H1].
  - assert (r / sigma - 1 >= 0) by nra. assert (Hr : r >= sigma).
    { assert (r / sigma * sigma = r) by (field; lra). nra. }
    right. split; [lra|]. replace (Lm + Lm * (r / sigma - 1)) with (Lm * r / sigma) by (field; lra).
    field. lra.
  - left. split; [unfold Rdiv; lra|]. assert (r / sigma * sigma = r) by (field; lra). nra.
Qed.
Lemma pr_len xx g : length xx = m -> length g = m -> length (pr_q xx g) = m /\ length (resid A b (pr_q xx g)) = n /\ length (pr_v xx g) = m.
Proof.
  intros Lx Lg. assert (Lq : length (pr_q xx g) = m) by (unfold pr_q; by rewrite vlin_length). split; [done|].
  split; [unfold resid; rewrite vlin_length; by apply HA|]. unfold pr_v. by rewrite vlin_length.
Qed.
Lemma pr_resid xx g : length xx = m -> length g = m ->
  resid A b (pr_v xx g) = vlin (1 - pr_a (pr_q xx g)) (resid A b (pr_q xx g)) 0 b.
Proof.
  intros Lx Lg. destruct (pr_len xx g Lx Lg) as (Lq & Lr & Lv). unfold pr_v. set (q := pr_q xx g) in *. set (r := resid A b q) in *. set (a := pr_a q).
  assert (LB : length (B r) = m) by (by apply HB).
  unfold resid at 1. rewrite (linmap_vlin m n) by done. rewrite HI by done. pose proof (proj1 HA q Lq) as LA.
  apply (list_eq_nth n); rewrite ?vlin_length; try done. intros i Hi. rewrite !nth_vlin by (rewrite ?vlin_length; lia).
  assert (Er : nth i r 0 = nth i (A q) 0 - nth i b 0) by (unfold r, resid; rewrite nth_vlin by lia; lra). lra.
Qed.
Lemma nrm2_scal c u v : 0 <= c -> nrm2 (vlin c u 0 v) = c * nrm2 u.
Proof.
  intros Hc. unfold nrm2. replace (nrm2sq (vlin c u 0 v)) with (c * c * nrm2sq u).
  - rewrite sqrt_mult by (nra || apply nrm2sq_nonneg). rewrite sqrt_square by done. done.
  - unfold nrm2sq. rewrite vlin_length, <- Rsum_scal. apply Rsum_ext. intros i Hi. rewrite nth_vlin by done. lra.
Qed.
Lemma pr_feasible xx g : length xx = m -> length g = m -> feasible A b sigma (pr_v xx g).
Proof.
  intros Lx Lg. unfold feasible. rewrite pr_resid by done. set (q := pr_q xx g). pose proof (pr_a_range q).
  rewrite nrm2_scal by lra. destruct (pr_a_cases q) as [[E H1]|[_ E]]; [rewrite E; lra|lra].
Qed.
(** strong minimality *)
Lemma pr_min xx g x : length xx = m -> length g = m -> length x = m -> feasible A b sigma x ->
  prox Lm xx g (pr_v xx g) + Lm / 2 * nrm2sq (vlin 1 x (-1) (pr_v xx g)) <= prox Lm xx g x.
Proof.
  intros Lx Lg Lx' Fx. destruct (pr_len xx g Lx Lg) as (Lq & Lr & Lv). pose proof (pr_resid xx g Lx Lg) as ER.
  set (v := pr_v xx g) in *. set (q := pr_q xx g) in *. set (r := resid A b q) in *. set (a := pr_a q) in *.
  assert (Ha : 0 <= a < 1) by apply pr_a_range. assert (LB : length (B r) = m) by (by apply HB).
  set (d := vlin 1 x (-1) v). assert (Ld : length d = m) by (unfold d; by rewrite vlin_length).
  (* prox x - prox v = Lm/2 |d|^2 + Lm <v - q, d> *)
  assert (E1 : prox Lm xx g x - prox Lm xx g v = Lm / 2 * nrm2sq d + Lm * dot (vlin 1 v (-1) q) d).
  { unfold prox. rewrite !nrm2sq_dot. unfold dot. rewrite !vlin_length. rewrite Lx', Lv, Lg, Ld.
    rewrite <- !Rsum_scal. rewrite <- !Rsum_plus, <- Rsum_minus. apply Rsum_ext. intros i Hi. unfold d. rewrite !nth_vlin by lia.
    unfold q, pr_q. rewrite nth_vlin by lia. field. lra. }
  (* <v - q, d> = - a <r, A d> and A d = (A x - b) - (A v - b) *)
  assert (E2 : dot (vlin 1 v (-1) q) d = - a * dot r (A d)).
  { transitivity (dot (vlin (- a) (B r) 0 q) d).
    - f_equal. apply (list_eq_nth m); rewrite ?vlin_length; try done. intros i Hi. rewrite !nth_vlin by lia. unfold v, pr_v. fold q r a. rewrite nth_vlin by lia. lra.
    - rewrite dot_vlin_l by lia. rewrite (dot_sym (B r) d) by lia. rewrite <- (proj2 HB) by done. rewrite (dot_sym r) by (rewrite (proj1 HA); done). lra. }
  assert (E3 : A d = vlin 1 (resid A b x) (-1) (resid A b v)).
  { unfold d. rewrite (linmap_vlin m n) by done. unfold resid. pose proof (proj1 HA x Lx'). pose proof (proj1 HA v Lv).
    apply (list_eq_nth n); rewrite ?vlin_length; try done. intros i Hi. rewrite !nth_vlin by (rewrite ?vlin_length; lia). lra. }
  assert (Lrx : length (resid A b x) = n) by (unfold resid; rewrite vlin_length; by apply HA).
  assert (E4 : dot r (A d) = dot r (resid A b x) - (1 - a) * nrm2sq r).
  { rewrite E3, dot_vlin_r by lia. rewrite ER. rewrite dot_vlin_r by lia. rewrite <- nrm2sq_dot. lra. }
  assert (E5 : a * dot r (A d) <= 0).
  { rewrite E4. pose proof (dot_CS r (resid A b x) ltac:(lia)) as HCS. unfold feasible in Fx. rewrite <- nrm2_sq.
    pose proof (nrm2_nonneg r). assert (nrm2 r * nrm2 (resid A b x) <= nrm2 r * sigma) by (by apply Rmult_le_compat_l).
    destruct (pr_a_cases q) as [[E _]|[Hp E]]; fold a in E; [rewrite E; lra|]. fold r in E, Hp.
    assert (E' : (1 - a) * (nrm2 r * nrm2 r) = nrm2 r * sigma) by (rewrite <- E; ring). rewrite E'.
    assert (dot r (resid A b x) - nrm2 r * sigma <= 0) by lra. assert (0 <= a) by lra. clear - H1 H2. nra. }
  assert (E6 : Lm * dot (vlin 1 v (-1) q) d >= 0). { rewrite E2. assert (0 <= - a * dot r (A d)) by lra. apply Rle_ge, Rmult_le_pos; lra. }
  lra.
Qed.
End project.

(** ** the smoothed norm *)
Lemma Rabs_le_inv a b : Rabs a <= b -> - b <= a <= b.
Proof. unfold Rabs. destruct (Rcase_abs a); lra. Qed.
Section huber.
Context (mu : R) (Hmu : 0 < mu).
Definition clip (w : R) : R := w / Rmax mu (Rabs w).
Definition hub (w : R) : R := clip w * w - mu / 2 * (clip w * clip w).
Lemma Rmax_pos w : 0 < Rmax mu (Rabs w).
Proof. pose proof (Rmax_l mu (Rabs w)). lra. Qed.
Lemma clip_cases w : (Rabs w <= mu /\ clip w = w / mu) \/ (mu < w /\ clip w = 1) \/ (w < - mu /\ clip w = -1).
Proof.
  unfold clip, Rmax. destruct (Rle_dec mu (Rabs w)) as [H|H].
  - unfold Rabs in *. destruct (Rcase_abs w).
    + destruct (Req_dec (- w) mu) as [E|E]; [left|right; right].
      * split; [lra|]. rewrite E. done.
      * split; [lra|]. field. lra.
    + destruct (Req_dec w mu) as [E|E]; [left|right; left].
      * split; [lra|]. rewrite E. done.
      * split; [lra|]. field. lra.
  - left. split; [lra|done].
Qed.
Lemma clip_box w : Rabs (clip w) <= 1.
Proof.
  destruct (clip_cases w) as [[H ->]|[[H ->]|[H ->]]].
  - unfold Rdiv. rewrite Rabs_mult, (Rabs_pos_eq (/ mu)) by (apply Rlt_le, Rinv_0_lt_compat; lra).
    apply (Rmult_le_reg_r mu); [done|]. rewrite Rmult_assoc, Rinv_l by lra. lra.
  - rewrite Rabs_R1. lra.
  - rewrite Rabs_left by lra. lra.
Qed.
(** the maximum over |u| <= 1 is at clip w *)
Lemma hub_max w u : Rabs u <= 1 -> u * w - mu / 2 * (u * u) <= hub w.
Proof.
  intros Hu. apply Rabs_le_inv in Hu. unfold hub. destruct (clip_cases w) as [[H ->]|[[H ->]|[H ->]]].
  - apply Rabs_le_inv in H. replace (w / mu * w - mu / 2 * (w / mu * (w / mu))) with (w * w / (2 * mu)) by (field; lra).
    apply (Rmult_le_reg_r (2 * mu)); [lra|]. replace (w * w / (2 * mu) * (2 * mu)) with (w * w) by (field; lra). pose proof (Rle_0_sqr (w - mu * u)) as Q. unfold Rsqr in Q. nra.
  - assert (0 <= (1 - u) * (w - mu / 2 * (1 + u))); [|lra]. apply Rmult_le_pos; [lra|]. assert (mu * (1 + u) <= mu * 2) by (apply Rmult_le_compat_l; lra). lra.
  - assert (0 <= (1 + u) * (- w - mu / 2 * (1 - u))); [|lra]. apply Rmult_le_pos; [lra|]. assert (mu * (1 - u) <= mu * 2) by (apply Rmult_le_compat_l; lra). lra.
Qed.
Lemma clip_lip w e : Rabs (clip (w + e) - clip w) <= Rabs e / mu.
Proof.
  assert (forall x y, x <= y -> 0 <= clip y - clip x <= (y - x) / mu).
  { intros x y Hxy. assert (E : (y - x) / mu * mu = y - x) by (field; lra).
    destruct (clip_cases x) as [[H1 ->]|[[H1 ->]|[H1 ->]]]; destruct (clip_cases y) as [[H2 ->]|[[H2 ->]|[H2 ->]]];
      try (apply Rabs_le_inv in H1); try (apply Rabs_le_inv in H2);
      assert (Ex : x / mu * mu = x) by (field; lra); assert (Ey : y / mu * mu = y) by (field; lra);
      split; nra. }
  unfold Rabs at 2. destruct (Rcase_abs e).
  - specialize (H (w + e) w ltac:(lra)). replace (w - (w + e)) with (- e) in H by lra. apply Rabs_le. lra.
  - specialize (H w (w + e) ltac:(lra)). replace (w + e - w) with e in H by lra. apply Rabs_le. lra.
Qed.
Lemma hub_quad w e : Rabs (hub (w + e) - hub w - e * clip w) <= e * e / mu.
Proof.
  assert (H1 := hub_max (w + e) (clip w) (clip_box w)). assert (H2 := hub_max w (clip (w + e)) (clip_box (w + e))). unfold hub in *.
  assert (H3 := clip_lip w e). set (c := clip w) in *. set (c' := clip (w + e)) in *.
  assert (H4 : Rabs (e * (c' - c)) <= e * e / mu).
  { rewrite Rabs_mult. replace (e * e / mu) with (Rabs e * (Rabs e / mu)).
    - apply Rmult_le_compat_l; [apply Rabs_pos|done].
    - replace (Rabs e * (Rabs e / mu)) with (Rabs e * Rabs e / mu) by (field; lra). rewrite <- Rabs_mult, Rabs_pos_eq by nra. done. }
  assert (Hq : 0 <= e * e / mu). { unfold Rdiv. apply Rmult_le_pos; [nra|apply Rlt_le, Rinv_0_lt_compat; done]. }
  apply Rabs_le_inv in H4. apply Rabs_le. lra.
Qed.
Lemma drv_hub w v : derivable_pt_lim (fun t => hub (w + t * v)) 0 (clip w * v).
Proof.
  intros eps Heps. set (K := v * v / mu + 1). assert (HK : 0 < K).
  { unfold K. assert (0 <= v * v / mu); [|lra]. unfold Rdiv. apply Rmult_le_pos; [nra|apply Rlt_le, Rinv_0_lt_compat; done]. }
  assert (Hd : 0 < eps / K) by (by apply Rdiv_lt_0_compat). exists (mkposreal _ Hd). intros h Hh Hlt. cbn [pos] in Hlt.
  rewrite Rplus_0_l, Rmult_0_l, Rplus_0_r. pose proof (hub_quad w (h * v)) as Q.
  replace ((hub (w + h * v) - hub w) / h - clip w * v) with ((hub (w + h * v) - hub w - h * v * clip w) / h) by (field; done).
  unfold Rdiv at 1. rewrite Rabs_mult, Rabs_inv. 
  assert (Ha : 0 < Rabs h) by (by apply Rabs_pos_lt).
  assert (Eh : h * h = Rabs h * Rabs h) by (rewrite <- Rabs_mult, Rabs_pos_eq; nra).
  apply (Rmult_lt_reg_r (Rabs h)); [done|]. rewrite Rmult_assoc, Rinv_l, Rmult_1_r by lra.
  eapply Rle_lt_trans; [exact Q|]. replace (h * v * (h * v) / mu) with (Rabs h * Rabs h * (K - 1)) by (unfold K; rewrite <- Eh; field; lra).
  assert (Rabs h * K < eps). { apply (Rmult_lt_reg_r (/ K)); [by apply Rinv_0_lt_compat|]. rewrite Rmult_assoc, Rinv_r by lra. rewrite Rmult_1_r. done. }
  nra.
Qed.
Lemma hub_gap w : 0 <= Rabs w - hub w <= mu / 2.
Proof.
  unfold hub. destruct (clip_cases w) as [[H ->]|[[H ->]|[H ->]]].
  - replace (w / mu * w - mu / 2 * (w / mu * (w / mu))) with (w * w / (2 * mu)) by (field; lra).
    assert (E : w * w / (2 * mu) * (2 * mu) = w * w) by (field; lra). set (z := w * w / (2 * mu)) in *.
    assert (Hw : w * w = Rabs w * Rabs w) by (rewrite <- Rabs_mult, Rabs_pos_eq; nra). pose proof (Rabs_pos w). split; [nra|].
    assert (0 <= (mu - Rabs w) * (mu - Rabs w)) by apply Rle_0_sqr. nra.
  - rewrite Rabs_pos_eq by lra. lra.
  - rewrite Rabs_left by lra. lra.
Qed.
(** vectors *)
Definition smooth (w : list R) : R := Rsum (length w) (fun i => hub (nth i w 0)).
Definition clips (w : list R) : list R := map clip w.
Lemma nth_clips w i : (i < length w)%nat -> nth i (clips w) 0 = clip (nth i w 0).
Proof. intros Hi. unfold clips. rewrite (nth_indep _ 0 (clip 0)) by (by rewrite map_length). apply map_nth. Qed.
Lemma smooth_spec w : is_smooth_norm mu w (smooth w).
Proof.
  split.
  - exists (clips w). split; [apply map_length|]. split.
    + intros i Hi. unfold clips in Hi. rewrite map_length in Hi. rewrite nth_clips by done. apply clip_box.
    + unfold smooth, dual_value, nrm2sq, dot. replace (length (clips w)) with (length w) by (symmetry; apply map_length). rewrite <- Rsum_scal, <- Rsum_minus. apply Rsum_ext. intros i Hi. rewrite (nth_clips w i Hi). unfold hub. lra.
  - intros u Lu Hu. unfold smooth, dual_value, nrm2sq, dot. rewrite Lu, <- Rsum_scal, <- Rsum_minus. apply Rsum_le. intros i Hi.
    pose proof (hub_max (nth i w 0) (nth i u 0) (Hu i ltac:(lia))). lra.
Qed.
Lemma smooth_gap w : 0 <= nrm1 w - smooth w <= INR (length w) * (mu / 2).
Proof.
  unfold nrm1, smooth. rewrite <- Rsum_minus. split.
  - apply Rsum_nonneg. intros i _. apply hub_gap.
  - rewrite <- Rsum_const. apply Rsum_le. intros i _. apply hub_gap.
Qed.
Lemma smooth_grad m p W Wm x : linmap m p W -> adjoint m p W Wm -> length x = m ->
  gradient_at (fun x => smooth (W x)) x (Wm (clips (W x))).
Proof.
  intros HW HM Lx. assert (Lw : length (W x) = p) by (by apply HW). assert (Lc : length (clips (W x)) = p) by (unfold clips; by rewrite map_length).
  split; [rewrite Lx; by apply HM|]. intros d Ld. rewrite Lx in Ld. assert (Lwd : length (W d) = p) by (by apply HW).
  rewrite dot_sym by (rewrite (proj1 HM), Ld by done; done). rewrite <- (proj2 HM) by done. unfold dot. rewrite Lwd.
  apply (drv_ext (fun t => Rsum p (fun i => hub (nth i (W x) 0 + t * nth i (W d) 0)))).
  - intros t. unfold smooth, along. rewrite (linmap_vlin m p) by done. rewrite vlin_length, Lwd. apply Rsum_ext. intros i Hi. rewrite nth_vlin by lia. f_equal. lra.
  - apply drv_Rsum. intros i Hi. rewrite nth_clips by lia. rewrite (Rmult_comm (nth i (W d) 0)). apply drv_hub.
Qed.
End huber.
