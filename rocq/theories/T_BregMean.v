(** * C98: the TV denoiser and the mean brightness of the image. *)
From Coq Require Import ZArith Lia Reals Lra Psatz.
From stdpp Require Import base numbers list.
From Verif Require Import Mem M_Status S_Mem P_Mem P_Loop P_Math P_MathR P_TV P_TVR M_Bregman P_Own P_Touch P_Bregman P_Breg2 P_Breg3 L_Sum S_Vec S_Img L_Lin L_ER P_CG P_CGR P_BregR P_BregX T_TV T_Bregman T_BregTol T_BregScale.
Local Open Scope R_scope.

(** ** C98.  Real arithmetic.  [tvobj n m mu f v] is |Dx v|_1 + |Dy v|_1 + mu/2 |v - f|^2.  An image that minimises it has the mean of f. *)
Theorem C98_optimum_keeps_mean (n m : nat) (mu : R) (f u : list R) : (2 <= n)%nat -> (2 <= m)%nat -> 0 < mu -> length f = (n * m)%nat -> length u = (n * m)%nat ->
  (forall v, length v = (n * m)%nat -> tvobj n m mu f u <= tvobj n m mu f v) ->
  Rsum (n * m) (fun k => nth k u 0) = Rsum (n * m) (fun k => nth k f 0).
Proof.
  intros Hn Hm Hmu Lf Lu H. set (S := Rsum (n * m) (fun k => nth k u 0 - nth k f 0)).
  assert (ES : Rsum (n * m) (fun k => nth k u 0) - Rsum (n * m) (fun k => nth k f 0) = S) by (unfold S; by rewrite <- Rsum_minus).
  assert (N0 : 0 < INR (n * m)) by (apply lt_0_INR; nia).
  set (e := - S / INR (n * m)). specialize (H (shf e u) ltac:(by rewrite shf_len)).
  rewrite !(tvobj_alt n m mu Hn Hm f 1 (le_n 1) Lf) in H. rewrite !(Dx_shf n m e Hn Hm), !(Dy_shf n m e Hn Hm) in H by done.
  assert (Q : Rsum (n * m) (fun k => (nth k (shf e u) 0 - nth k f 0) ^ 2) = Rsum (n * m) (fun k => (nth k u 0 - nth k f 0) ^ 2) - S ^ 2 / INR (n * m)).
  { rewrite (Rsum_ext _ _ (fun k => (nth k u 0 - nth k f 0) ^ 2 + (2 * e * (nth k u 0 - nth k f 0) + e ^ 2))) by (intros k Hk; rewrite shf_nth by lia; ring).
    rewrite !Rsum_plus, Rsum_scal, Rsum_const. fold S. unfold e. field. lra. }
  rewrite Q in H. assert (P : 0 <= S ^ 2 / INR (n * m)) by (apply Rmult_le_pos; [apply pow2_ge_0|left; by apply Rinv_0_lt_compat]).
  assert (Z : S ^ 2 / INR (n * m) = 0) by nra. assert (S2 : S ^ 2 = 0) by (replace (S ^ 2) with (S ^ 2 / INR (n * m) * INR (n * m)) by (field; lra); rewrite Z; ring).
  assert (S0 : S = 0) by nra. lra.
Qed.

(** ** C98, refuted for the denoiser.  Extended reals.  "The denoised image has the mean of the given one" is false, by at least 1/(5 mu), for all mu and tol:
    there are a 2 x 2 image f and an image u that the denoiser, with one sweep per iteration, returns for f however many iterations it is allowed,
    and the pixels of u sum to at least 9/(10 mu) more than those of f. *)
Theorem C98_mean_kept_refuted (mu tol : R) : 0 < mu -> 0 < tol ->
  exists f u : list R, length f = 4%nat /\ length u = 4%nat /\ Rsum 4 (fun k => nth k f 0) + 9 / 10 / mu <= Rsum 4 (fun k => nth k u 0) /\
  forall (bu bf : nat) (mi : Z) (s : @st ER), (2 <= mi)%Z -> @breg_call ER 2 2 bu bf (map Fin f) mi 1 s -> memory_granted s ->
    exists s', @l1c_breg_anistropic_TV ER 2 2 (Ptr bu 0) (Ptr bf 0) (Fin mu) (Fin tol) mi 1 s = Ok L1C_SUCCESS s' /\ @seg ER s' (Ptr bu 0) (map Fin u).
Proof.
  intros Hmu Htol. exists (im mu (/ (mu * tol)) 0 0 0 (5/4)), (im mu (/ (mu * tol)) (4/5) (11/25) (11/25) (241/500)).
  split; [done|]. split; [done|]. split.
  { assert (M : 0 < / mu) by (by apply Rinv_0_lt_compat). unfold im. cbn. unfold Rdiv. lra. }
  intros bu bf mi s. apply bright22; done.
Qed.
(** the optimum of the image 4 0 / 4 0 for mu = 1 is 3 1 / 3 1 *)
Example C98_optimum_case : length Ex.f = 4%nat /\ length Ex.u = 4%nat /\ forall v, length v = (2 * 2)%nat -> tvobj 2 2 1 Ex.f Ex.u <= tvobj 2 2 1 Ex.f v.
Proof.
  split; [done|]. split; [done|]. intros v Lv.
  pose proof (fx_min 2 2 1 2 ltac:(lia) ltac:(lia) ltac:(lra) ltac:(lra) Ex.f 1 (le_n 1) Ex.c eq_refl ltac:(by repeat split) (Ex.fixed 1) v Lv) as H.
  change (b_u Ex.c) with Ex.u in H.
  assert (0 <= Rsum (2 * 2) (fun k => (nth k v 0 - nth k Ex.u 0) ^ 2)) by (apply Rsum_nonneg; intros; apply pow2_ge_0). lra.
Qed.
(** memory and call for any 2 x 2 image f, 20 iterations; for mu = 1 and tol = 1/1000 the proof takes f = 1000 1000 1000 1001.25 *)
Example C98_mean_case : forall f : list R, length f = 4%nat -> let s := @state_of ER [@full ER (map Fin f); @fresh ER 4] in
  @breg_call ER 2 2 1 0 (map Fin f) 20 1 s /\ memory_granted s.
Proof. exact C96_case. Qed.
