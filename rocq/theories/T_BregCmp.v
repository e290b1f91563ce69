(** * C100: the TV problem respects the order of images. *)
From Coq Require Import ZArith Lia Reals Lra Psatz.
From stdpp Require Import base numbers list.
From Verif Require Import Mem M_Status S_Mem P_Mem P_Loop P_Math P_MathR P_TV P_TVR M_Bregman P_Own P_Touch P_Bregman P_Breg2 P_Breg3 L_Sum S_Vec S_Img S_Dct L_Cos L_Lin L_ER P_CG P_CGR P_BregR P_BregX T_TV T_Bregman T_BregTol T_BregScale T_BregMean.
Local Open Scope R_scope.

Section C100.
Context (n m : nat) (mu : R) (Hmu : 0 < mu).
(** u solves the TV problem for f *)
Definition tv_opt (f u : list R) : Prop := length u = (n * m)%nat /\ forall v, length v = (n * m)%nat -> tvobj n m mu f u <= tvobj n m mu f v.

Lemma px_vec g i j : (i < n)%nat -> (j < m)%nat -> px m (S_Dct.vec (n * m) g) i j = g (i * m + j)%nat.
Proof. intros Hi Hj. unfold px. apply vec_nth. nia. Qed.
Lemma lattice_abs a b c d : Rabs (Rmin a b - Rmin c d) + Rabs (Rmax a b - Rmax c d) <= Rabs (a - c) + Rabs (b - d).
Proof. unfold Rmin, Rmax. repeat destruct Rle_dec; unfold Rabs; repeat destruct Rcase_abs; lra. Qed.
Lemma lattice_sq a b f g : f <= g -> (Rmin a b - f) ^ 2 + (Rmax a b - g) ^ 2 <= (a - f) ^ 2 + (b - g) ^ 2.
Proof. intros H. unfold Rmin, Rmax. destruct Rle_dec; nra. Qed.
Lemma mid_abs a b c d : Rabs ((a + b) / 2 - (c + d) / 2) <= (Rabs (a - c) + Rabs (b - d)) / 2.
Proof. unfold Rabs; repeat destruct Rcase_abs; lra. Qed.

Lemma opt_unique f u v : tv_opt f u -> tv_opt f v -> forall k, (k < n * m)%nat -> nth k u 0 = nth k v 0.
Proof.
  intros [Lu Hu] [Lv Hv].
  set (w := S_Dct.vec (n * m) (fun k => (nth k u 0 + nth k v 0) / 2)). assert (Lw : length w = (n * m)%nat) by apply vec_len.
  set (Q := Rsum n (fun i => Rsum m (fun j => (px m u i j - px m v i j) ^ 2))).
  assert (H : tvobj n m mu f w + mu / 8 * Q <= tvobj n m mu f u * / 2 + tvobj n m mu f v * / 2).
  { unfold tvobj, Q. rewrite <- !Rsum_scal, <- !Rsum_scal_r, <- !Rsum_plus. apply Rsum_le. intros i Hi. rewrite <- !Rsum_scal, <- !Rsum_scal_r, <- !Rsum_plus. apply Rsum_le. intros j Hj.
    destruct (Nat.ltb_spec (j + 1) m); destruct (Nat.ltb_spec (i + 1) n); cbn [when]; unfold w; rewrite ?px_vec by lia; unfold px;
    repeat match goal with |- context [Rabs ((?a + ?b) / 2 - (?c + ?d) / 2)] => pose proof (mid_abs a b c d); generalize dependent (Rabs ((a + b) / 2 - (c + d) / 2)); intros end; nra. }
  pose proof (Hu w Lw). pose proof (Hv w Lw).
  assert (Q0 : 0 <= Q) by (apply Rsum_nonneg; intros; apply Rsum_nonneg; intros; apply pow2_ge_0).
  assert (QZ : Q = 0) by nra.
  intros k Hk. assert (m <> 0)%nat by nia.
  assert (Hi : (k / m < n)%nat) by (apply Nat.div_lt_upper_bound; nia). assert (Hj : (k mod m < m)%nat) by (by apply Nat.mod_upper_bound).
  assert (T : (px m u (k / m) (k mod m) - px m v (k / m) (k mod m)) ^ 2 <= Q).
  { unfold Q. eapply Rle_trans; [|apply (Rsum_term_le n (fun i => Rsum m (fun j => (px m u i j - px m v i j) ^ 2)) (k / m)); [intros; apply Rsum_nonneg; intros; apply pow2_ge_0|done]].
    cbv beta. apply (Rsum_term_le m (fun j => (px m u (k / m) j - px m v (k / m) j) ^ 2)); [intros; apply pow2_ge_0|done]. }
  unfold px in T. replace (k / m * m + k mod m)%nat with k in T by (rewrite (Nat.div_mod k m) at 1 by done; lia). rewrite QZ in T. nra.
Qed.
(** ** C100.  Real arithmetic. *)
(** a pointwise brighter image has a pointwise brighter optimum *)
Theorem C100_order f g u v : tv_opt f u -> tv_opt g v -> (forall k, (k < n * m)%nat -> nth k f 0 <= nth k g 0) ->
  forall k, (k < n * m)%nat -> nth k u 0 <= nth k v 0.
Proof.
  intros HU HV Hfg. pose proof HU as [Lu Hu]. pose proof HV as [Lv Hv].
  set (p := S_Dct.vec (n * m) (fun k => Rmin (nth k u 0) (nth k v 0))). set (q := S_Dct.vec (n * m) (fun k => Rmax (nth k u 0) (nth k v 0))).
  assert (Lp : length p = (n * m)%nat) by apply vec_len. assert (Lq : length q = (n * m)%nat) by apply vec_len.
  assert (H : tvobj n m mu f p + tvobj n m mu g q <= tvobj n m mu f u + tvobj n m mu g v).
  { unfold tvobj. rewrite <- !Rsum_plus. apply Rsum_le. intros i Hi. rewrite <- !Rsum_plus. apply Rsum_le. intros j Hj.
    pose proof (lattice_sq (px m u i j) (px m v i j) (px m f i j) (px m g i j)) as S. unfold px at 1 2 in S. specialize (S ltac:(apply Hfg; nia)).
    destruct (Nat.ltb_spec (j + 1) m); destruct (Nat.ltb_spec (i + 1) n); cbn [when]; unfold p, q; rewrite ?px_vec by lia; unfold px in *;
    repeat match goal with |- context [Rabs (Rmin ?a ?b - Rmin ?c ?d)] => pose proof (lattice_abs a b c d); generalize dependent (Rabs (Rmin a b - Rmin c d)); intros; generalize dependent (Rabs (Rmax a b - Rmax c d)); intros end; nra. }
  pose proof (Hu p Lp) as H1. pose proof (Hv q Lq) as H2.
  assert (HP : tv_opt f p). { split; [done|]. intros w Lw. specialize (Hu w Lw). lra. }
  intros k Hk. rewrite (opt_unique f u p HU HP k Hk). unfold p. rewrite vec_nth by done. apply Rmin_r.
Qed.
Lemma opt_shift e f u : length f = (n * m)%nat -> tv_opt f u -> tv_opt (shf e f) (shf e u).
Proof.
  intros Lf [Lu Hu]. split; [by rewrite shf_len|].
    assert (E : forall e f v, length f = (n * m)%nat -> length v = (n * m)%nat -> tvobj n m mu (shf e f) (shf e v) = tvobj n m mu f v).
    { clear. intros e f v Lf Lv. unfold tvobj. apply Rsum_ext. intros i Hi. apply Rsum_ext. intros j Hj. 
      destruct (Nat.ltb_spec (j + 1) m); destruct (Nat.ltb_spec (i + 1) n); cbn [when]; unfold px; rewrite ?shf_nth by nia;
      repeat match goal with |- context [Rabs (e + ?a - (e + ?b))] => replace (e + a - (e + b)) with (a - b) by ring end; ring. }
    intros w Lw. rewrite E by done. rewrite <- (E (- e) (shf e f) w) by (by rewrite ?shf_len).
    assert (X : shf (- e) (shf e f) = f).
    { apply (nth_ext _ _ 0 0); [by rewrite !shf_len|]. intros k Hk. rewrite !shf_len in Hk. rewrite !shf_nth by (rewrite ?shf_len; lia). lra. }
    rewrite X. apply Hu. by rewrite shf_len.
Qed.
(** images that differ by at most e in every pixel have optima that do *)
Theorem C100_stable e f g u v : length f = (n * m)%nat -> length g = (n * m)%nat -> tv_opt f u -> tv_opt g v -> (forall k, (k < n * m)%nat -> Rabs (nth k f 0 - nth k g 0) <= e) ->
  forall k, (k < n * m)%nat -> Rabs (nth k u 0 - nth k v 0) <= e.
Proof.
  intros Lf Lg HU HV HE.
  intros k Hk. destruct HU as [Lu HU0] eqn:EU. destruct HV as [Lv HV0] eqn:EV.
  assert (A : nth k u 0 <= nth k (shf e v) 0).
  { apply (C100_order f (shf e g)); [done|by apply opt_shift| |done]. intros l Hl. rewrite shf_nth by lia. specialize (HE l Hl). pose proof (Rle_abs (nth l f 0 - nth l g 0)). lra. }
  assert (B : nth k v 0 <= nth k (shf e u) 0).
  { apply (C100_order g (shf e f)); [done|by apply opt_shift| |done]. intros l Hl. rewrite shf_nth by lia. specialize (HE l Hl). rewrite Rabs_minus_sym in HE. pose proof (Rle_abs (nth l g 0 - nth l f 0)). lra. }
  rewrite shf_nth in A, B by lia. apply Rabs_le. lra.
Qed.
(** the optimum stays in the range of the image *)
Theorem C100_range lo hi f u : tv_opt f u -> (forall k, (k < n * m)%nat -> lo <= nth k f 0 <= hi) -> forall k, (k < n * m)%nat -> lo <= nth k u 0 <= hi.
Proof.
  intros HU HF k Hk.
  assert (C : forall c, tv_opt (S_Dct.vec (n * m) (fun _ => c)) (S_Dct.vec (n * m) (fun _ => c))).
  { intros c. split; [apply vec_len|]. intros v Lv. apply Rsum_le. intros i Hi. apply Rsum_le. intros j Hj.
    destruct (Nat.ltb_spec (j + 1) m); destruct (Nat.ltb_spec (i + 1) n); cbn [when]; rewrite ?px_vec by lia; rewrite ?Rminus_eq_0, ?Rabs_R0;
    repeat match goal with |- context [Rabs ?x] => pose proof (Rabs_pos x); generalize dependent (Rabs x); intros end;
    match goal with |- context [(?x - c) ^ 2] => pose proof (pow2_ge_0 (x - c)) end; nra. }
  split.
  - pose proof (C100_order _ f _ u (C lo) HU) as H. specialize (H ltac:(intros l Hl; rewrite vec_nth by done; apply HF; done) k Hk). by rewrite vec_nth in H.
  - pose proof (C100_order f _ u _ HU (C hi)) as H. specialize (H ltac:(intros l Hl; rewrite vec_nth by done; apply HF; done) k Hk). by rewrite vec_nth in H.
Qed.
End C100.

(** ** The same for the denoiser, once it is at rest: extended reals, an iteration (src/bregman.c:354-435) that reproduces u, d and b has a u in the range of f *)
Theorem C100_rest_in_range (n m bu bf b0 bdx bdy bbx bby b1 b2 br : nat) (f u u1 dx dy bx by_ : list R) (mj : Z) (mu : R) (tol : er) (s s' : @st ER) (stop : bool) (lo hi : R) :
  0 < mu -> (1 <= mj)%Z ->
  @iter_mem ER n m bu bf b0 bdx bdy bbx bby b1 b2 br (map Fin f) (map Fin u) (map Fin u1) (map Fin dx) (map Fin dy) (map Fin bx) (map Fin by_) mj s ->
  @breg_iter ER (Z.of_nat n) (Z.of_nat m) (Z.of_nat (n * m)) (Ptr bu 0) (Ptr bf 0) (Fin mu) tol (@mul ER (@two ER) (Fin mu)) mj
      (Ptr b0 0) (Ptr bdx 0) (Ptr bdy 0) (Ptr bbx 0) (Ptr bby 0) (Ptr b1 0) (Ptr b2 0) (Ptr br 0) s = Ok stop s' ->
  @seg ER s' (Ptr bu 0) (map Fin u) -> @seg ER s' (Ptr bdx 0) (map Fin dx) -> @seg ER s' (Ptr bdy 0) (map Fin dy) ->
  @seg ER s' (Ptr bbx 0) (map Fin bx) -> @seg ER s' (Ptr bby 0) (map Fin by_) ->
  (forall k, (k < n * m)%nat -> lo <= nth k f 0 <= hi) -> forall k, (k < n * m)%nat -> lo <= nth k u 0 <= hi.
Proof.
  intros Hmu Hmj HM E U DX DY BX BY HF. apply (C100_range n m mu Hmu lo hi f u); [|done].
  split.
  - pose proof (im_len _ _ _ _ _ _ _ _ _ _ _ _ _ _ _ _ _ _ _ _ _ HM) as HL. apply Forall_cons in HL as [_ HL]. apply Forall_cons in HL as [HL _]. cbn [T ER] in HL. by rewrite map_length in HL.
  - intros v Lv. pose proof (C16_fixed_state_optimal n m bu bf b0 bdx bdy bbx bby b1 b2 br f u u1 dx dy bx by_ mj mu tol s Hmu Hmj HM stop s' E U DX DY BX BY v Lv) as H.
    assert (0 <= Rsum (n * m) (fun k => (nth k v 0 - nth k u 0) ^ 2)) by (apply Rsum_nonneg; intros; apply pow2_ge_0). nra.
Qed.

(** ** Concrete case: the images 4 0 / 4 0 and 5 1 / 5 1 with mu = 1 have the optima 3 1 / 3 1 and 4 2 / 4 2 *)
Example C100_case : tv_opt 2 2 1 Ex.f Ex.u /\ tv_opt 2 2 1 (shf 1 Ex.f) (shf 1 Ex.u) /\ Ex.f = [4; 0; 4; 0] /\ Ex.u = [3; 1; 3; 1] /\
  (forall k, (k < 2 * 2)%nat -> nth k Ex.f 0 <= nth k (shf 1 Ex.f) 0) /\ (forall k, (k < 2 * 2)%nat -> Rabs (nth k Ex.f 0 - nth k (shf 1 Ex.f) 0) <= 1) /\
  (forall k, (k < 2 * 2)%nat -> 0 <= nth k Ex.f 0 <= 4).
Proof.
  assert (H : tv_opt 2 2 1 Ex.f Ex.u). { split; [done|]. apply C98_optimum_case. }
  split; [done|]. split; [by apply opt_shift|]. split; [done|]. split; [done|]. split; [|split].
  - intros k Hk. rewrite shf_nth by done. lra.
  - intros k Hk. rewrite shf_nth by done. apply Rabs_le. lra.
  - intros [|[|[|[|k]]]] Hk; cbn; try lra. lia.
Qed.
(** for that image and every number of sweeps there is an iteration that reproduces its state *)
Example C100_rest_case (mj : Z) : (1 <= mj < INT_MAX)%Z ->
  let s := it_st Ex.f Ex.u Ex.u Ex.dx Ex.z Ex.bx Ex.z in
  exists stop s', @breg_iter ER 2 2 4 (Ptr 0 0) (Ptr 1 0) (Fin 1) (Fin 0) (@mul ER (@two ER) (Fin 1)) mj
      (Ptr 2 0) (Ptr 3 0) (Ptr 4 0) (Ptr 5 0) (Ptr 6 0) (Ptr 7 0) (Ptr 8 0) (Ptr 9 0) s = Ok stop s' /\
    @seg ER s' (Ptr 0 0) (map Fin Ex.u) /\ @seg ER s' (Ptr 3 0) (map Fin Ex.dx) /\ @seg ER s' (Ptr 4 0) (map Fin Ex.z) /\
    @seg ER s' (Ptr 5 0) (map Fin Ex.bx) /\ @seg ER s' (Ptr 6 0) (map Fin Ex.z).
Proof. exact (C16_case mj). Qed.

Print Assumptions C100_order.
Print Assumptions C100_stable.
Print Assumptions C100_range.
Print Assumptions C100_rest_in_range.
