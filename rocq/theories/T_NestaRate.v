(** * C68: how close the result of l1c_nesta is to the optimum (exact arithmetic). *)
From Coq Require Import ZArith Lia Reals Lra Psatz.
From stdpp Require Import base numbers gmap list.
From Verif Require Import Globals Mem M_Math M_Memory M_Status M_Nesta P_Mem P_Loop P_Math P_MathR P_TVR P_Memory S_Mem P_Touch P_Own P_Own2 P_Own3 P_CG
  P_Newton P_Newt7 L_Sum S_Vec L_Lin L_ER P_CGR S_Newt P_NewtX P_NewtX2 P_NewtR L_Barrier S_Nesta L_Nesta P_Nesta P_Nesta2 P_Nesta3 P_NestaF P_NestaR L_Rate S_NestaRate P_NestaRate E_Op T_Bregman T_Newton T_Nesta T_NestaE.
Local Open Scope R_scope.
Local Notation sqrt := R_sqrt.sqrt.

(** the result comes out of n_continue stages, started at A^T b *)
Theorem C68_stages call m n p A B Wt Wm F J ax bx bb (bv : list R) (opts : @NestaOpts ER) (s s' : @st ER) Ar Br Wr Vr (sg mu tol nw : R) :
  @nesta_call ER call m n p A B Wt Wm F J ax bx bb (fin bv) opts s ->
  real_op m n A B Ar Br -> unit_rows n Ar Br -> real_op m p Wt Wm Wr Vr ->
  no_sigma opts = Fin sg -> 0 < sg -> no_mu opts = Fin mu -> 0 < mu -> no_tol opts = Fin tol -> 0 < tol ->
  ax_norm_W ax = Fin nw -> 0 < nw -> (forall v, length v = m -> nrm2 (Wr v) <= nw * nrm2 v) ->
  (1 <= no_n_continue opts)%Z -> starts_positive m (Wr (Br bv)) ->
  @nesta ER call m n bx bb ax opts s = Ok 0%Z s' ->
  exists x, @seg ER s' (Ptr bx 0) (fin x) /\ length x = m /\ feasible Ar bv sg x /\ staged m p Ar bv sg Wr nw mu tol (Z.to_nat (no_n_continue opts)) (Br bv) x.
Proof.
  intros HC [HA HB EA EB] HI [HW HV EW EV] Es Hs Em Hm Et Ht Ew Hw HN Hnc Hst E.
  assert (Lb : length bv = n) by (pose proof (@nc_lb _ _ _ _ _ _ _ _ _ _ _ _ _ _ _ _ _ HC) as Q; by rewrite fin_length in Q).
  pose proof (@nesta_outcome ER _ _ _ _ _ _ _ _ _ _ _ _ _ _ _ _ _ HC E) as Sx.
  assert (Hp : (1 <= p)%nat) by apply (@nop_p _ _ _ _ _ _ _ _ _ _ _ _ (@nc_ops _ _ _ _ _ _ _ _ _ _ _ _ _ _ _ _ _ HC)).
  assert (EL : @ne_L ER ax = Fin (nw * nw)) by (unfold ne_L; rewrite Ew; done).
  assert (HL : 0 < nw * nw) by nra. assert (Er : sqrt (nw * nw) = nw) by (apply sqrt_square; lra).
  assert (HN2 : forall v, length v = m -> nrm2sq (Wr v) <= nw * nw * nrm2sq v).
  { intros v Lv. rewrite <- !nrm2_sq. pose proof (HN v Lv) as Q. pose proof (nrm2_nonneg (Wr v)). pose proof (nrm2_nonneg v).
    replace (nw * nw * (nrm2 v * nrm2 v)) with ((nw * nrm2 v) * (nw * nrm2 v)) by ring. by apply Rmult_le_compat. }
  rewrite Es, Em, Et, EL in Sx. rewrite EB in Sx by done.
  destruct (result_staged m n p A B Wt Wm Ar Br Wr Vr bv sg (nw * nw) HA HB HI HW HV EA EB EW EV Lb Hs HL HN2 mu tol (no_n_continue opts) Hp Hm Ht Hnc) as (x & Ex & Lx & Fx & HS).
  { apply starts_pos in Hst. rewrite (proj1 HW) in Hst by (by apply HB). done. }
  rewrite Er in HS. rewrite Ex in Sx. by exists x.
Qed.
Theorem C68_rate call m n p A B Wt Wm F J ax bx bb (bv : list R) (opts : @NestaOpts ER) (s s' : @st ER) Ar Br Wr Vr (sg mu tol nw : R) :
  @nesta_call ER call m n p A B Wt Wm F J ax bx bb (fin bv) opts s ->
  real_op m n A B Ar Br -> unit_rows n Ar Br -> real_op m p Wt Wm Wr Vr ->
  no_sigma opts = Fin sg -> 0 < sg -> no_mu opts = Fin mu -> 0 < mu -> no_tol opts = Fin tol -> 0 < tol ->
  ax_norm_W ax = Fin nw -> 0 < nw -> (forall v, length v = m -> nrm2 (Wr v) <= nw * nrm2 v) ->
  (1 <= no_n_continue opts)%Z -> starts_positive m (Wr (Br bv)) ->
  @nesta ER call m n bx bb ax opts s = Ok 0%Z s' ->
  exists f X K, good_run m p Ar bv sg Wr nw mu tol f X K /\ @seg ER s' (Ptr bx 0) (fin (X K)) /\ (no_n_continue opts = 1%Z -> X 0%nat = Br bv) /\
    (* the 1-norm itself, against every point that meets the constraint *)
    forall v w, minimiser m Ar bv sg f v -> length w = m -> feasible Ar bv sg w ->
      nrm1 (Wr (X K)) <= nrm1 (Wr w) + INR p * (mu / 2) + rate p nw mu K (nrm2 (vlin 1 v (-1) (X 0%nat))).
Proof.
  intros HC HA HI HW Es Hs Em Hm Et Ht Ew Hw HN Hnc Hst E.
  destruct (C68_stages _ _ _ _ _ _ _ _ _ _ _ _ _ _ _ _ _ _ _ _ _ _ _ _ _ HC HA HI HW Es Hs Em Hm Et Ht Ew Hw HN Hnc Hst E) as (x & Sx & Lx & Fx & HS).
  assert (H1 : (1 <= Z.to_nat (no_n_continue opts))%nat) by lia.
  destruct (staged_last _ _ _ _ _ _ _ _ _ _ _ _ Hm Ht H1 HS) as (f & X & K & HG & -> & H0). destruct HW as [HW _ _ _].
  exists f, X, K. split; [done|]. split; [done|]. split; [intros Q; apply H0; lia|]. by apply (good_near m p Ar bv sg Wr nw mu tol).
Qed.

(** ** A concrete case: two unknowns, the first one measured as 3 up to 1/10, W the identity, one stage.  The optimum of the
    smoothed problem is (2.9, 0), at distance 1/10 of the starting point A^T b = (3, 0). *)
Module RateEx.
Import NestaEx.
Lemma best f : (forall x, length x = 2%nat -> is_smooth_norm (1 / 100) x (f x)) -> minimiser 2 Ar [3] (1 / 10) f [29 / 10; 0].
Proof.
  intros Hf. assert (HR : forall x, length x = 2%nat -> feasible Ar [3] (1 / 10) x <-> Rabs (nth 0 x 0 - 3) <= 1 / 10).
  { intros x Lx. destruct x as [|x0 [|x1 [|]]]; try done. unfold feasible, nrm2, resid, Ar, A0, at_, vlin, nrm2sq. cbn [length seq map nth Rsum].
    replace (0 + (1 * x0 + -1 * 3) ^ 2) with ((x0 - 3) * (x0 - 3)) by ring. change (R_sqrt.sqrt ((x0 - 3) * (x0 - 3))) with (R_sqrt.sqrt (Rsqr (x0 - 3))). rewrite sqrt_Rsqr_abs. done. }
  split; [done|]. split; [apply HR; [done|]; cbn [nth]; unfold Rabs; destruct (Rcase_abs _); lra|].
  intros w Lw Fw. apply HR in Fw; [|done]. destruct (Hf [29 / 10; 0] eq_refl) as [(u & Lu & Hu & ->) _]. destruct (Hf w Lw) as [_ Hw].
  destruct u as [|u0 [|u1 [|]]]; try done. destruct w as [|w0 [|w1 [|]]]; try done. cbn [nth] in Fw.
  pose proof (Hu 0%nat ltac:(simpl; lia)) as H0. cbn [nth] in H0.
  eapply Rle_trans; [|apply (Hw [Rabs u0; 0] eq_refl)].
  - unfold dual_value, dot, nrm2sq. cbn [length nth Rsum]. pose proof (Rle_abs u0). pose proof (Rabs_pos u0).
    assert (Rabs u0 ^ 2 = u0 ^ 2) by apply pow2_abs. apply Rabs_le_inv in Fw. assert (Rabs u0 * (29 / 10) <= Rabs u0 * w0) by (apply Rmult_le_compat_l; lra).
    pose proof (pow2_ge_0 u1). lra.
  - intros [|[|i]] Hi; cbn [nth length] in *; [rewrite Rabs_Rabsolu; done|rewrite Rabs_R0; lra|lia].
Qed.
Example c68 : exists s' x K, @nesta ER (@call ER) 2 1 0 1 (@ax ER (Fin 1)) (o 1) (@s0 ER (Fin 3)) = Ok 0%Z s' /\ @seg ER s' (Ptr 0 0) (fin x) /\ (1 <= K)%nat /\
  nrm1 x <= 29 / 10 + 1 / 100 + rate 2 1 (1 / 100) K (1 / 10).
Proof.
  assert (HC := @ncall ER (Fin 1) (Fin 3) (Fin (1 / 100)) (Fin (1 / 1000)) (Fin (1 / 10)) 1 eq_refl).
  destruct (@C45_success_releases ER _ _ _ _ _ _ _ _ _ _ _ _ _ _ _ _ HC (@gr ER _) (@comp ER _) (or_introl eq_refl)) as (s' & xs & E & _).
  destruct (C68_rate (@call ER) 2 1 2 (@A0 ER) (@B0 ER) (@W0 ER) (@W0 ER) [] (fun _ => True) (@ax ER (Fin 1)) 0 1 [3] (o 1) (@s0 ER (Fin 3)) s' Ar Br (fun x => x) (fun x => x) (1 / 10) (1 / 100) (1 / 1000) 1) as (f & X & K & [Hf HX HK _ _ _ _] & Sx & E0 & HR);
    [exact HC|exact rop|exact rows|exact rW|done|lra|done|lra|done|lra|done|lra|intros; lra|done|exact start|exact E|].
  exists s', (X K), K. split; [exact E|]. split; [exact Sx|]. split; [lia|]. pose proof (best f Hf) as Hb.
  pose proof (HR [29 / 10; 0] [29 / 10; 0] Hb eq_refl (proj1 (proj2 Hb))) as Q. rewrite (E0 eq_refl) in Q.
  replace (nrm2 (vlin 1 [29 / 10; 0] (-1) (Br [3]))) with (1 / 10) in Q.
  - eapply Rle_trans; [exact Q|]. apply Rplus_le_compat_r. unfold nrm1. cbn [length nth Rsum INR]. rewrite Rabs_R0, Rabs_pos_eq by lra. lra.
  - unfold nrm2, nrm2sq, vlin, Br, B0, at_. cbn [length seq map nth Rsum]. rewrite z.
    replace (0 + (1 * (29 / 10) + -1 * 3) ^ 2 + (1 * 0 + -1 * 0) ^ 2) with (1 / 10 * (1 / 10)) by field. symmetry. apply sqrt_square. lra.
Qed.
End RateEx.
Print Assumptions C68_rate.
