(** * A smoothed 1-norm has a minimiser among the points with ||A x - b|| <= sigma. *)
From Coq Require Import Reals Lra Psatz Lia.
From stdpp Require Import base list.
From Verif Require Import L_Sum S_Vec L_Lin S_Newt P_NewtX P_NewtX2 L_Barrier S_Nesta L_Nesta L_Rate S_NestaRate.
Local Open Scope R_scope.
Local Notation sqrt := R_sqrt.sqrt.

(** ** A Lipschitz function has a minimum over a box *)
Definition boxed (n : nat) (B : R) (x : list R) : Prop := length x = n /\ forall i, (i < n)%nat -> - B <= nth i x 0 <= B.
Definition dist1 (n : nat) (x y : list R) : R := Rsum n (fun i => Rabs (nth i x 0 - nth i y 0)).
Lemma dist1_tail n a x y : dist1 (S n) (a :: x) (a :: y) = dist1 n x y.
Proof. unfold dist1. rewrite Rsum_S_l. cbn [nth]. rewrite Rminus_diag_eq by done. rewrite Rabs_R0. lra. Qed.
Lemma dist1_head n a c x : dist1 (S n) (a :: x) (c :: x) = Rabs (a - c).
Proof. unfold dist1. rewrite Rsum_S_l. cbn [nth]. rewrite Rsum_0; [lra|]. intros i _. rewrite Rminus_diag_eq by done. apply Rabs_R0. Qed.
Lemma boxed_cons n B a x : - B <= a <= B -> boxed n B x -> boxed (S n) B (a :: x).
Proof. intros Ha [Lx Hx]. split; [simpl; lia|]. intros [|i] Hi; cbn [nth]; [done|]. apply Hx. lia. Qed.
Lemma box_min n : forall (G : list R -> R) (K B : R), 0 <= B -> (forall x y, length x = n -> length y = n -> G x - G y <= K * dist1 n x y) ->
  exists x, boxed n B x /\ forall y, boxed n B y -> G x <= G y.
Proof.
  induction n as [|n IH]; intros G K B HB HG.
  - exists []. split; [split; [done|]; intros i Hi; lia|]. intros y [Ly _]. destruct y; [lra|done].
  - assert (Hin : forall a, exists x, boxed n B x /\ forall y, boxed n B y -> G (a :: x) <= G (a :: y)).
    { intros a. apply (IH (fun x => G (a :: x)) K B HB). intros x y Lx Ly. rewrite <- (dist1_tail n a). apply HG; simpl; lia. }
    set (E := fun a r => exists x, boxed n B x /\ r = - G (a :: x)).
    assert (Eb : forall a, bound (E a)). { intros a. destruct (Hin a) as (x & Hx & Hm). exists (- G (a :: x)). intros r (y & Hy & ->). specialize (Hm y Hy). lra. }
    assert (En : forall a, exists r, E a r). { intros a. destruct (Hin a) as (x & Hx & _). exists (- G (a :: x)), x. done. }
    set (H := fun a => - proj1_sig (completeness (E a) (Eb a) (En a))).
    assert (HH : forall a, exists x, boxed n B x /\ H a = G (a :: x) /\ forall y, boxed n B y -> H a <= G (a :: y)).
    { intros a. destruct (Hin a) as (x & Hx & Hm). exists x. split; [done|]. unfold H. destruct (completeness (E a) (Eb a) (En a)) as [l [Hu Hl]]. cbn [proj1_sig].
      assert (El : l = - G (a :: x)). { apply Rle_antisym; [apply Hl; intros r (y & Hy & ->); specialize (Hm y Hy); lra|apply Hu; by exists x]. }
      split; [lra|]. intros y Hy. specialize (Hm y Hy). lra. }
    assert (HL : forall a c, H a - H c <= K * Rabs (a - c)).
    { intros a c. destruct (HH a) as (_ & _ & _ & H1). destruct (HH c) as (x & Hx & E2 & _). specialize (H1 x Hx). rewrite E2.
      assert (Lx : length x = n) by apply Hx. pose proof (HG (a :: x) (c :: x) ltac:(simpl; lia) ltac:(simpl; lia)) as Q. rewrite dist1_head in Q. lra. }
    assert (HK : 0 <= K). { pose proof (HL 0 1) as Q1. pose proof (HL 1 0) as Q2. rewrite Rabs_minus_sym in Q1. replace (Rabs (1 - 0)) with 1 in * by (rewrite Rminus_0_r, Rabs_R1; done). lra. }
    assert (HC : forall a, continuity_pt H a).
    { intros a eps Heps. exists (eps / (K + 1)). split; [apply Rdiv_lt_0_compat; lra|]. intros c [_ Hc]. cbn in *. unfold R_dist in *.
      assert (Q : Rabs (H c - H a) <= K * Rabs (c - a)). { apply Rabs_le. pose proof (HL c a). pose proof (HL a c) as Q. rewrite Rabs_minus_sym in Q. lra. }
      eapply Rle_lt_trans; [exact Q|]. pose proof (Rabs_pos (c - a)). apply Rle_lt_trans with ((K + 1) * Rabs (c - a)); [nra|].
      apply (Rmult_lt_compat_l (K + 1)) in Hc; [|lra]. replace ((K + 1) * (eps / (K + 1))) with eps in Hc by (field; lra). done. }
    destruct (continuity_ab_min H (- B) B) as (a & Ha & Hab); [lra|by intros; apply HC|].
    destruct (HH a) as (x & Hx & Ex & _). exists (a :: x). split; [by apply boxed_cons|].
    intros y [Ly Hy]. destruct y as [|c y]; [done|]. destruct (HH c) as (_ & _ & _ & Hc).
    assert (Hcy : boxed n B y). { split; [simpl in Ly; lia|]. intros i Hi. apply (Hy (S i)). lia. }
    specialize (Hc y Hcy). specialize (Ha c (Hy 0%nat ltac:(lia))). lra.
Qed.

(** ** Norms *)
Lemma nrm2_tri u v : length u = length v -> nrm2 (vlin 1 u 1 v) <= nrm2 u + nrm2 v.
Proof.
  intros L. pose proof (nrm2_nonneg u). pose proof (nrm2_nonneg v). apply Rsqr_incr_0_var; [|lra]. unfold Rsqr. rewrite nrm2_sq, nrm2sq_dot.
  rewrite dot_vlin_r by (by rewrite vlin_length). rewrite !dot_vlin_l by done. pose proof (dot_CS u v L). pose proof (dot_CS v u ltac:(done)). rewrite <- !nrm2sq_dot, <- !nrm2_sq. nra.
Qed.
Lemma nrm2_1 x : nrm2 x <= nrm1 x.
Proof.
  apply Rsqr_incr_0_var; [|unfold nrm1; apply Rsum_nonneg; intros; apply Rabs_pos]. unfold Rsqr. rewrite nrm2_sq. unfold nrm2sq, nrm1.
  induction (length x) as [|k IH]; [cbn [Rsum]; lra|]. cbn [Rsum]. assert (0 <= Rsum k (fun i => Rabs (nth i x 0))) by (apply Rsum_nonneg; intros; apply Rabs_pos).
  pose proof (Rabs_pos (nth k x 0)). assert (nth k x 0 ^ 2 = Rabs (nth k x 0) * Rabs (nth k x 0)) by (rewrite <- Rabs_mult; rewrite Rabs_pos_eq; [ring|nra]). nra.
Qed.
Lemma coord_nrm2 x i : Rabs (nth i x 0) <= nrm2 x.
Proof.
  destruct (Nat.lt_ge_cases i (length x)) as [Hi|Hi]; [|rewrite nth_overflow by done; rewrite Rabs_R0; apply nrm2_nonneg].
  apply Rsqr_incr_0_var; [|apply nrm2_nonneg]. unfold Rsqr. rewrite nrm2_sq, <- Rabs_mult. rewrite Rabs_pos_eq by nra.
  pose proof (Rsum_term_le (length x) (fun i => nth i x 0 ^ 2) i ltac:(intros; nra) Hi) as Q. cbn beta in Q. unfold nrm2sq. nra.
Qed.

(** ** The minimiser *)
Section minimum.
Context (m n p : nat) (A B W V : list R -> list R) (b : list R) (sg L mu c : R).
Context (HA : linmap m n A) (HB : adjoint m n A B) (HI : unit_rows n A B) (HW : linmap m p W) (HV : adjoint m p W V).
Context (Lb : length b = n) (Hsg : 0 < sg) (HL : 0 < L) (Hmu : 0 < mu) (Hc : 0 < c).
Context (HN : forall v, length v = m -> nrm2sq (W v) <= L * nrm2sq v).
(** W is injective, with a bound *)
Context (HC : forall v, length v = m -> c * nrm2 v <= nrm2 (W v)).
Notation f := (fs W mu).
Notation feas := (feasible A b sg).
Lemma B_iso y : length y = n -> nrm2 (B y) = nrm2 y.
Proof. intros Ly. unfold nrm2. f_equal. rewrite !nrm2sq_dot. rewrite <- (proj2 HB) by (done || by apply HB). by rewrite HI. Qed.
Lemma A_short d : length d = m -> nrm2 (A d) <= nrm2 d.
Proof.
  intros Ld. assert (LA : length (A d) = n) by (by apply HA). pose proof (nrm2_nonneg (A d)) as H0. destruct (Rle_lt_or_eq_dec _ _ H0) as [H1|<-]; [|apply nrm2_nonneg].
  apply (Rmult_le_reg_r (nrm2 (A d))); [done|]. rewrite nrm2_sq, nrm2sq_dot. rewrite (proj2 HB) by done. rewrite <- (B_iso (A d)) by done. apply dot_CS. rewrite Ld. symmetry. by apply HB.
Qed.
Definition rho x := nrm2 (resid A b x).
Lemma rho_lip x y : length x = m -> length y = m -> rho x - rho y <= nrm2 (vlin 1 x (-1) y).
Proof.
  intros Lx Ly. assert (LA : forall z, length z = m -> length (A z) = n) by apply HA. unfold rho.
  assert (E : resid A b x = vlin 1 (resid A b y) 1 (A (vlin 1 x (-1) y))).
  { rewrite (linmap_vlin m n) by done. unfold resid. pose proof (LA x Lx). pose proof (LA y Ly). apply (list_eq_nth n); rewrite ?vlin_length; try done.
    intros i Hi. rewrite !nth_vlin by (rewrite ?vlin_length; lia). lra. }
  rewrite E. pose proof (nrm2_tri (resid A b y) (A (vlin 1 x (-1) y))) as Q. unfold resid in Q at 1. rewrite vlin_length, !LA in Q by (by rewrite ?vlin_length). specialize (Q eq_refl).
  pose proof (A_short (vlin 1 x (-1) y) ltac:(by rewrite vlin_length)). lra.
Qed.
(** a feasible point as near as the residual asks for *)
Lemma repair x : length x = m -> exists x', length x' = m /\ feas x' /\ nrm2 (vlin 1 x' (-1) x) <= Rmax 0 (rho x - sg).
Proof.
  intros Lx. destruct (Rle_dec (rho x) sg) as [H|H].
  - exists x. split; [done|]. split; [done|]. replace (vlin 1 x (-1) x) with (vlin 0 x 0 x); [rewrite nrm2_scal by lra; rewrite Rmult_0_l; apply Rmax_l|].
    apply (list_eq_nth m); rewrite ?vlin_length; try done. intros i Hi. rewrite !nth_vlin by lia. lra.
  - apply Rnot_le_lt in H. set (a := 1 - sg / rho x). assert (Hq : 0 < sg / rho x) by (apply Rdiv_lt_0_compat; lra).
    assert (Hq1 : sg / rho x < 1) by (apply (Rmult_lt_reg_r (rho x)); [lra|]; unfold Rdiv; rewrite Rmult_assoc, Rinv_l by lra; lra).
    assert (LA : length (A x) = n) by (by apply HA). assert (Lr : length (resid A b x) = n) by (unfold resid; by rewrite vlin_length). assert (LBr : length (B (resid A b x)) = m) by (by apply HB).
    exists (vlin 1 x (- a) (B (resid A b x))). split; [by rewrite vlin_length|]. split.
    + unfold feasible. replace (resid A b (vlin 1 x (- a) (B (resid A b x)))) with (vlin (sg / rho x) (resid A b x) 0 b).
      * rewrite nrm2_scal by lra. fold (rho x). apply Req_le. field. lra.
      * unfold resid at 2. rewrite (linmap_vlin m n) by done. rewrite HI by done. apply (list_eq_nth n); rewrite ?vlin_length; try done.
        intros i Hi. rewrite !nth_vlin by (rewrite ?vlin_length; lia). assert (Er : nth i (resid A b x) 0 = nth i (A x) 0 - nth i b 0) by (unfold resid; rewrite nth_vlin by lia; lra). unfold a. lra.
    + replace (nrm2 (vlin 1 (vlin 1 x (- a) (B (resid A b x))) (-1) x)) with (nrm2 (vlin a (B (resid A b x)) 0 x)).
      * rewrite nrm2_scal by (unfold a; lra). rewrite B_iso by done. fold (rho x). eapply Rle_trans; [|apply Rmax_r]. apply Req_le. unfold a. field. lra.
      * unfold nrm2. f_equal. unfold nrm2sq. rewrite !vlin_length, LBr, Lx. apply Rsum_ext. intros i Hi. rewrite !nth_vlin by (rewrite ?vlin_length; lia). ring.
Qed.
Definition C0 := sqrt (INR p * L).
Lemma f_lip x y : length x = m -> length y = m -> f x - f y <= C0 * nrm2 (vlin 1 x (-1) y).
Proof. intros Lx Ly. exact (fs_lip m p W L mu HW HL Hmu HN x y Lx Ly). Qed.
(** the penalised objective *)
Definition pen x := f x + C0 * Rmax 0 (rho x - sg).
Lemma nrm2_dist1 x y : length x = m -> nrm2 (vlin 1 x (-1) y) <= dist1 m x y.
Proof.
  intros Lx. eapply Rle_trans; [apply nrm2_1|]. apply Req_le. unfold nrm1, dist1. rewrite vlin_length, Lx. apply Rsum_ext. intros i Hi. rewrite nth_vlin by lia. f_equal. lra.
Qed.
Lemma pen_lip x y : length x = m -> length y = m -> pen x - pen y <= (2 * C0) * dist1 m x y.
Proof.
  intros Lx Ly. pose proof (f_lip x y Lx Ly) as H1. pose proof (rho_lip x y Lx Ly) as H2. pose proof (nrm2_dist1 x y Lx) as H3. assert (H0 : 0 <= C0) by apply sqrt_pos.
  assert (H4 : Rmax 0 (rho x - sg) - Rmax 0 (rho y - sg) <= nrm2 (vlin 1 x (-1) y)). { pose proof (nrm2_nonneg (vlin 1 x (-1) y)). unfold Rmax. destruct (Rle_dec 0 (rho x - sg)), (Rle_dec 0 (rho y - sg)); lra. }
  unfold pen. set (D := nrm2 (vlin 1 x (-1) y)) in *. set (D1 := dist1 m x y) in *.
  assert (C0 * D <= C0 * D1) by (by apply Rmult_le_compat_l). assert (C0 * (Rmax 0 (rho x - sg) - Rmax 0 (rho y - sg)) <= C0 * D) by (by apply Rmult_le_compat_l). lra.
Qed.
Lemma coercive x : length x = m -> c * nrm2 x <= f x + INR p * (mu / 2).
Proof.
  intros Lx. pose proof (smooth_gap mu Hmu (W x)) as [_ H2]. rewrite (proj1 HW) in H2 by done. pose proof (HC x Lx). pose proof (nrm2_1 (W x)). unfold fs. lra.
Qed.
Lemma f_le_1 x : f x <= nrm1 (W x).
Proof. unfold fs. pose proof (smooth_gap mu Hmu (W x)). lra. Qed.
Lemma start_feas : feas (B b).
Proof.
  unfold feasible. replace (resid A b (B b)) with (vlin 0 b 0 b).
  - rewrite nrm2_scal by lra. lra.
  - unfold resid. rewrite HI by done. apply (list_eq_nth n); rewrite ?vlin_length; try done. intros i Hi. rewrite !nth_vlin by lia. lra.
Qed.
Lemma minimiser_exists : exists v, minimiser m A b sg f v.
Proof.
  assert (LB : length (B b) = m) by (by apply HB). set (R0 := (f (B b) + INR p * (mu / 2)) / c).
  assert (HR : forall x, length x = m -> f x <= f (B b) -> nrm2 x <= R0).
  { intros x Lx Hx. pose proof (coercive x Lx). apply (Rmult_le_reg_l c); [done|]. unfold R0. replace (c * ((f (B b) + INR p * (mu / 2)) / c)) with (f (B b) + INR p * (mu / 2)) by (field; lra). lra. }
  assert (H0 : 0 <= R0) by (eapply Rle_trans; [apply nrm2_nonneg|]; apply (HR (B b) LB); lra).
  destruct (box_min m pen (2 * C0) R0 H0 pen_lip) as (x & [Lx _] & Hx).
  destruct (repair x Lx) as (v & Lv & Fv & Dv). exists v. split; [done|]. split; [done|].
  assert (Hv : forall w, length w = m -> feas w -> boxed m R0 w -> f v <= f w).
  { intros w Lw Fw Bw. pose proof (f_lip v x Lv Lx) as H1. assert (HC0 : 0 <= C0) by apply sqrt_pos. pose proof (Hx w Bw) as H2. unfold pen in H2.
    rewrite (Rmax_left 0 (rho w - sg)) in H2 by (unfold feasible in Fw; unfold rho; lra).
    assert (C0 * nrm2 (vlin 1 v (-1) x) <= C0 * Rmax 0 (rho x - sg)) by (by apply Rmult_le_compat_l). lra. }
  assert (Hb : forall w, length w = m -> f w <= f (B b) -> boxed m R0 w).
  { intros w Lw Hw. split; [done|]. intros i Hi. apply Rabs_le_inv. eapply Rle_trans; [apply coord_nrm2|]. by apply HR. }
  intros w Lw Fw. destruct (Rle_dec (f w) (f (B b))) as [Q|Q]; [apply Hv; try done; by apply Hb|].
  apply Rnot_le_lt in Q. pose proof (Hv (B b) LB start_feas (Hb (B b) LB ltac:(lra))). lra.
Qed.
(** how far it is from a feasible point *)
Lemma minimiser_near v x : minimiser m A b sg f v -> length x = m -> feas x -> nrm2 (vlin 1 v (-1) x) <= (nrm1 (W x) + INR p * (mu / 2)) / c + nrm2 x.
Proof.
  intros (Lv & Fv & Hv) Lx Fx. pose proof (Hv x Lx Fx) as H1. pose proof (coercive v Lv) as H2. pose proof (f_le_1 x) as H3.
  assert (Hn : nrm2 v <= (nrm1 (W x) + INR p * (mu / 2)) / c).
  { apply (Rmult_le_reg_l c); [done|]. replace (c * ((nrm1 (W x) + INR p * (mu / 2)) / c)) with (nrm1 (W x) + INR p * (mu / 2)) by (field; lra). lra. }
  assert (E : nrm2 (vlin (-1) x 0 x) = nrm2 x). { unfold nrm2. f_equal. unfold nrm2sq. rewrite vlin_length. apply Rsum_ext. intros i Hi. rewrite nth_vlin by done. ring. }
  pose proof (nrm2_tri v (vlin (-1) x 0 x) ltac:(rewrite vlin_length; lia)) as Q. rewrite E in Q.
  replace (vlin 1 v (-1) x) with (vlin 1 v 1 (vlin (-1) x 0 x)); [lra|]. apply (list_eq_nth m); rewrite ?vlin_length; try done. intros i Hi. rewrite !nth_vlin by (rewrite ?vlin_length; lia). lra.
Qed.
End minimum.
