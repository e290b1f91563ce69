(** * C89: the finite difference operators and the split Bregman kernels in IEEE binary64.

    src/TV.c and src/bregman.c are run on Flocq's binary64 arithmetic, as in T_Round.v.  [uro] = 2^-53,
    [eta] = 2^-1075, [gam k] = (1 + 2^-53)^k - 1, [huge] = 2^1024; [V xs] are the real values of an array of doubles. *)
From Coq Require Import ZArith Reals Lra Lia Psatz.
From Flocq Require Import Core BinarySingleNaN.
From stdpp Require Import base numbers list.
From Verif Require Import Num NumB S_Round L_Round L_RoundTV S_Vec S_Mem Mem P_Mem P_Loop M_Math P_Math M_TV P_TV P_TVR P_TVX P_Touch L_Sum
  M_Bregman P_Bregman P_Breg2 T_TV T_Round T_Bregman.
Local Open Scope R_scope.
Local Notation sqrt := R_sqrt.sqrt.

Section C89.
Context (flog fexp fceil : b64 -> b64).
Notation BN := (BN_with flog fexp fceil).
Notation A xs i := (@at_ BN xs i).
Implicit Types (s : @st BN) (u v xs : list b64) (alpha : b64).

(** [op] run on doubles against [opR] run on the exact real values of the same inputs *)
Definition tracks (op : Z -> Z -> b64 -> ptr -> ptr -> @M BN unit) (opR : Z -> Z -> R -> ptr -> ptr -> @M RN unit) (n m : nat) alpha u : Prop :=
  exists (Du : list b64) (E : list R),
    @computes BN (op (Z.of_nat n) (Z.of_nat m) alpha) (n * m) u Du /\
    @computes RN (opR (Z.of_nat n) (Z.of_nat m) (val alpha)) (n * m) (V u) E /\
    (forall k, (k < n * m)%nat -> finite (nth k Du (@zero BN)) ->
       Rabs (val (nth k Du (@zero BN)) - nth k E 0) <= gam 2 * Rabs (nth k E 0) + eta) /\
    (forall M, clean u -> finite alpha -> (forall k, Rabs (nth k (V u) 0) <= M) -> 4 * (Rabs (val alpha) + 1) * (M + 1) < huge -> clean Du).

Lemma at_nth xs k : nth k xs (@zero BN) = A xs k. Proof. done. Qed.
Lemma nthV u k : nth k (V u) 0 = val (A u k). Proof. apply V_nth. Qed.
Lemma atRN u k : @at_ RN (V u) k = val (A u k). Proof. rewrite at_RN. apply V_nth. Qed.
Lemma zeroV : val (@zero BN) = 0. Proof. apply (zero_val flog fexp fceil). Qed.
Lemma zeroF : finite (@zero BN). Proof. apply (zero_val flog fexp fceil). Qed.
Lemma eta0 : 0 <= eta. Proof. pose proof eta_pos. lra. Qed.
Lemma clean_upto xs L : clean xs -> @length (@T BN) xs = L -> forall i, (i < L)%nat -> finite (A xs i).
Proof. intros H <- i Hi. by apply (clean_at flog fexp fceil). Qed.
(** an output that is alpha * (p - q), alpha * p, -alpha * p or 0, pointwise *)
Inductive shape alpha u : b64 -> R -> Prop :=
  | sh_zero : shape alpha u (@zero BN) 0
  | sh_diff p q : (p = @zero BN \/ exists i, p = A u i) -> (q = @zero BN \/ exists i, q = A u i) -> shape alpha u (@mul BN alpha (@sub BN p q)) (val alpha * (val p - val q))
  | sh_scale i : shape alpha u (@mul BN alpha (A u i)) (val alpha * val (A u i))
  | sh_neg i : shape alpha u (@mul BN (@opp BN alpha) (A u i)) (- val alpha * val (A u i)).
Lemma shape_close alpha u x e : shape alpha u x e -> finite x -> Rabs (val x - e) <= gam 2 * Rabs e + eta.
Proof.
  intros H F. destruct H as [|p q _ _|i|i].
  - rewrite zeroV, Rminus_0_r, Rabs_R0. pose proof eta0. lra.
  - by apply (diff_close flog fexp fceil).
  - by apply (scale_close flog fexp fceil).
  - rewrite <- (opp_val flog fexp fceil). by apply (scale_close flog fexp fceil).
Qed.
Lemma at_fin u i : clean u -> finite (A u i).
Proof. intros H. destruct (decide (i < length u)%nat) as [L|L]; [by apply (clean_at flog fexp fceil)|]. unfold at_. rewrite nth_overflow; [apply zeroF|]. apply Nat.nlt_ge. exact L. Qed.
Lemma shape_fin alpha u x e M : shape alpha u x e -> clean u -> finite alpha -> (forall k, Rabs (nth k (V u) 0) <= M) -> 4 * (Rabs (val alpha) + 1) * (M + 1) < huge -> finite x.
Proof.
  intros H HC Fa HM HH. assert (M0 : 0 <= M) by (eapply Rle_trans; [apply Rabs_pos|apply (HM 0%nat)]).
  assert (HP : forall p, (p = @zero BN \/ exists i, p = A u i) -> finite p /\ Rabs (val p) <= M).
  { intros p [->|(i & ->)]; [rewrite zeroV, Rabs_R0; split; [apply zeroF|done]|]. split; [by apply at_fin|]. rewrite <- nthV. apply HM. }
  destruct H as [|p q Hp Hq|i|i].
  - apply zeroF.
  - apply HP in Hp as [? ?]. apply HP in Hq as [? ?]. by apply (diff_fin flog fexp fceil) with M.
  - destruct (HP (A u i)) as [? ?]; [by right; exists i|]. by apply (scale_fin flog fexp fceil) with M.
  - destruct (HP (A u i)) as [? ?]; [by right; exists i|]. apply (scale_fin flog fexp fceil) with M; [by apply (opp_fin flog fexp fceil)|done|done|]. by rewrite (opp_val flog fexp fceil), Rabs_Ropp.
Qed.
Lemma tracks_of op opR (r : nat -> nat -> b64 -> list b64 -> list b64) (rR : nat -> nat -> R -> list R -> list R) n m alpha u :
  @computes BN (op (Z.of_nat n) (Z.of_nat m) alpha) (n * m) u (r n m alpha u) ->
  @computes RN (opR (Z.of_nat n) (Z.of_nat m) (val alpha)) (n * m) (V u) (rR n m (val alpha) (V u)) ->
  (forall k, (k < n * m)%nat -> shape alpha u (A (r n m alpha u) k) (nth k (rR n m (val alpha) (V u)) 0)) ->
  tracks op opR n m alpha u.
Proof.
  intros HB HR HS. exists (r n m alpha u), (rR n m (val alpha) (V u)). split; [done|]. split; [done|]. split.
  - intros k Hk F. rewrite at_nth in F |- *. by apply (shape_close alpha u); [apply HS|].
  - intros M HC Fa HM HH. apply (clean_at flog fexp fceil). intros k Hk. pose proof (eq_ind _ (fun l => (k < l)%nat) Hk _ (proj1 HB)) as Hk'. by eapply shape_fin; [apply HS| | | |].
Qed.

Lemma Dx_shape n m alpha u k : (2 <= m)%nat -> (k < n * m)%nat -> shape alpha u (A (@Dx_of BN n m alpha u) k) (nth k (@Dx_of RN n m (val alpha) (V u)) 0).
Proof.
  intros Hm Hk. unfold Dx_of, row_of. rewrite (@at_tab BN), nth_tab by done. unfold ddiff_at. destruct (_ <? _)%nat; [|rewrite zero_RN; constructor].
  rewrite !atRN. cbn [mul sub RN]. apply sh_diff; right; by eexists.
Qed.
Lemma DxT_shape n m alpha u k : (2 <= m)%nat -> (k < n * m)%nat -> shape alpha u (A (@DxT_of BN n m alpha u) k) (nth k (@DxT_of RN n m (val alpha) (V u)) 0).
Proof.
  intros Hm Hk. unfold DxT_of, row_of. rewrite (@at_tab BN), nth_tab by done. unfold ddiffT_at. destruct (_ =? _)%nat; [rewrite atRN; apply sh_neg|].
  destruct (_ <? _)%nat; [|rewrite atRN; apply sh_scale]. rewrite !atRN. cbn [mul sub RN]. apply sh_diff; right; by eexists.
Qed.
Lemma Dy_shape n m alpha u k : (k < n * m)%nat -> shape alpha u (A (@Dy_of BN n m alpha u) k) (nth k (@Dy_of RN n m (val alpha) (V u)) 0).
Proof.
  intros Hk. unfold Dy_of. rewrite (@at_tab BN), nth_tab by done. destruct (_ <? _)%nat; [|rewrite zero_RN; constructor].
  rewrite !atRN. cbn [mul sub RN]. apply sh_diff; right; by eexists.
Qed.
Lemma DyT_shape n m alpha u k : (k < n * m)%nat -> shape alpha u (A (@DyT_of BN n m alpha u) k) (nth k (@DyT_of RN n m (val alpha) (V u)) 0).
Proof.
  intros Hk. rewrite DyT_RN by done. unfold DyT_of. rewrite (@at_tab BN) by done. rewrite !nthV.
  replace (if (k <? m)%nat then 0 else val (A u (k - m))) with (val (if (k <? m)%nat then @zero BN else A u (k - m))) by (destruct (k <? m)%nat; [apply zeroV|done]).
  replace (if (k <? (n - 1) * m)%nat then val (A u k) else 0) with (val (if (k <? (n - 1) * m)%nat then A u k else @zero BN)) by (destruct (k <? (n - 1) * m)%nat; [done|apply zeroV]).
  apply sh_diff; [destruct (k <? m)%nat|destruct (k <? (n - 1) * m)%nat]; eauto.
Qed.
Ltac comp R := split; [apply tab_length|]; intros ? ? ? ? ? ?; apply R; [repeat split; auto|..]; try lia.
Lemma comps `{N : Num} n m a (u : list T) : (2 <= n)%nat -> (2 <= m)%nat -> fits n m -> length u = (n * m)%nat ->
  computes (l1c_Dx (Z.of_nat n) (Z.of_nat m) a) (n * m) u (Dx_of n m a u) /\ computes (l1c_DxT (Z.of_nat n) (Z.of_nat m) a) (n * m) u (DxT_of n m a u) /\
  computes (l1c_Dy (Z.of_nat n) (Z.of_nat m) a) (n * m) u (Dy_of n m a u) /\ computes (l1c_DyT (Z.of_nat n) (Z.of_nat m) a) (n * m) u (DyT_of n m a u) /\
  computes (l1c_DxTDx (Z.of_nat n) (Z.of_nat m) a) (n * m) u (DxTDx_of n m a u) /\ computes (l1c_DyTDy (Z.of_nat n) (Z.of_nat m) a) (n * m) u (DyTDy_of n m a u).
Proof. intros Hn Hm Hf Hu. split_and!; [comp Dx_run|comp DxT_run|comp Dy_run|comp DyT_run|comp DxTDx_run|comp DyTDy_run]. Qed.

(** ** first differences: two roundings each, whatever the image *)
Theorem C89_differences (n m : nat) alpha u : (2 <= n)%nat -> (2 <= m)%nat -> fits n m -> length u = (n * m)%nat ->
  tracks (@l1c_Dx BN) (@l1c_Dx RN) n m alpha u /\ tracks (@l1c_DxT BN) (@l1c_DxT RN) n m alpha u /\
  tracks (@l1c_Dy BN) (@l1c_Dy RN) n m alpha u /\ tracks (@l1c_DyT BN) (@l1c_DyT RN) n m alpha u.
Proof.
  intros Hn Hm Hf Hu. destruct (@comps BN n m alpha u Hn Hm Hf Hu) as (B1 & B2 & B3 & B4 & _).
  destruct (@comps RN n m (val alpha) (V u) Hn Hm Hf ltac:(by rewrite V_length)) as (R1 & R2 & R3 & R4 & _). split_and!.
  - apply (tracks_of _ _ (@Dx_of BN) (@Dx_of RN)); [done|done|]. intros k Hk. by apply Dx_shape.
  - apply (tracks_of _ _ (@DxT_of BN) (@DxT_of RN)); [done|done|]. intros k Hk. by apply DxT_shape.
  - apply (tracks_of _ _ (@Dy_of BN) (@Dy_of RN)); [done|done|]. intros k Hk. by apply Dy_shape.
  - apply (tracks_of _ _ (@DyT_of BN) (@DyT_of RN)); [done|done|]. intros k Hk. by apply DyT_shape.
Qed.

(** ** second differences: four roundings, relative to the size of the image *)
Definition tracks2 (op : Z -> Z -> b64 -> ptr -> ptr -> @M BN unit) (opR : Z -> Z -> R -> ptr -> ptr -> @M RN unit) (n m : nat) alpha u : Prop :=
  exists (Du : list b64) (E : list R),
    @computes BN (op (Z.of_nat n) (Z.of_nat m) alpha) (n * m) u Du /\
    @computes RN (opR (Z.of_nat n) (Z.of_nat m) (val alpha)) (n * m) (V u) E /\
    forall M k, (forall k, Rabs (nth k (V u) 0) <= M) -> (k < n * m)%nat -> finite (nth k Du (@zero BN)) ->
       Rabs (val (nth k Du (@zero BN)) - nth k E 0) <= gam 4 * (4 * val alpha ^ 2 * M) + eta * (1 + 8 * M).
Lemma two_RN' : @two RN = 2. Proof. apply two_RN. Qed.
Lemma close2 alpha (a b c : b64) M e : e = val alpha ^ 2 * (- val a + val c - val b) ->
  Rabs (val a) <= M -> Rabs (val b) <= M -> Rabs (val c) <= 2 * M -> finite (@mul BN (@mul BN alpha alpha) (@sub BN (@add BN (@opp BN a) c) b)) ->
  Rabs (val (@mul BN (@mul BN alpha alpha) (@sub BN (@add BN (@opp BN a) c) b)) - e) <= gam 4 * (4 * val alpha ^ 2 * M) + eta * (1 + 8 * M).
Proof.
  intros -> Ha Hb Hc F. destruct (second_close flog fexp fceil alpha a b c (4 * M) F ltac:(lra)) as [_ Q]. eapply Rle_trans; [exact Q|]. right. ring.
Qed.
Lemma close1 alpha (a b : b64) M e : e = val alpha ^ 2 * (val a - val b) ->
  Rabs (val a) <= M -> Rabs (val b) <= M -> finite (@mul BN (@mul BN alpha alpha) (@sub BN a b)) ->
  Rabs (val (@mul BN (@mul BN alpha alpha) (@sub BN a b)) - e) <= gam 4 * (4 * val alpha ^ 2 * M) + eta * (1 + 8 * M).
Proof.
  intros -> Ha Hb F. pose proof (edge_close flog fexp fceil alpha a b (4 * M) F) as Q. pose proof (Rabs_pos (val a)). eapply Rle_trans; [apply Q; lra|]. right. ring.
Qed.
Lemma dbl alpha (a b x : b64) : finite (@mul BN (@mul BN alpha alpha) (@sub BN (@add BN (@opp BN a) (@mul BN (@two BN) x)) b)) -> val (@mul BN (@two BN) x) = 2 * val x.
Proof. intros F. destruct (second_close flog fexp fceil alpha a b _ _ F (Rle_refl _)) as [Q _]. by apply double_val. Qed.
Theorem C89_second_differences (n m : nat) alpha u : (2 <= n)%nat -> (2 <= m)%nat -> fits n m -> length u = (n * m)%nat ->
  tracks2 (@l1c_DxTDx BN) (@l1c_DxTDx RN) n m alpha u /\ tracks2 (@l1c_DyTDy BN) (@l1c_DyTDy RN) n m alpha u.
Proof.
  intros Hn Hm Hf Hu. destruct (@comps BN n m alpha u Hn Hm Hf Hu) as (_ & _ & _ & _ & B1 & B2).
  destruct (@comps RN n m (val alpha) (V u) Hn Hm Hf ltac:(by rewrite V_length)) as (_ & _ & _ & _ & R1 & R2). split.
  - exists (@DxTDx_of BN n m alpha u), (@DxTDx_of RN n m (val alpha) (V u)). split; [done|]. split; [done|]. intros M k HM Hk.
    assert (HA : forall i, Rabs (val (A u i)) <= M) by (intros i; rewrite <- nthV; apply HM). assert (M0 : 0 <= M) by (eapply Rle_trans; [apply Rabs_pos|apply (HM 0%nat)]).
    rewrite at_nth. unfold DxTDx_of, row_of. rewrite (@at_tab BN), nth_tab by done. unfold ddiff2_at. rewrite two_RN'. destruct (_ =? _)%nat; [|destruct (_ <? _)%nat].
    + intros F. apply close1; [|done|done|done]. rewrite !atRN. cbn [mul sub RN]. ring.
    + intros F. pose proof (dbl _ _ _ _ F) as D. apply close2; [|done|done| |done]; [|rewrite D, Rabs_mult, (Rabs_pos_eq 2) by lra; specialize (HA (k - k mod m + k mod m)%nat); lra].
      rewrite D, !atRN. cbn [mul sub add opp RN]. ring.
    + intros F. apply close1; [|done|done|done]. rewrite !atRN. cbn [mul sub RN]. ring.
  - exists (@DyTDy_of BN n m alpha u), (@DyTDy_of RN n m (val alpha) (V u)). split; [done|]. split; [done|]. intros M k HM Hk.
    assert (HA : forall i, Rabs (val (A u i)) <= M) by (intros i; rewrite <- nthV; apply HM). assert (M0 : 0 <= M) by (eapply Rle_trans; [apply Rabs_pos|apply (HM 0%nat)]).
    rewrite at_nth, DyTDy_RN by done. unfold DyTDy_of. rewrite (@at_tab BN) by done. rewrite !nthV.
    set (a := if (k <? m)%nat then @zero BN else A u (k - m)). set (b := if (k <? (n - 1) * m)%nat then A u (k + m) else @zero BN).
    assert (Ea : (if (k <? m)%nat then 0 else val (A u (k - m))) = val a) by (unfold a; destruct (k <? m)%nat; [by rewrite zeroV|done]).
    assert (Eb : (if (k <? (n - 1) * m)%nat then val (A u (k + m)) else 0) = val b) by (unfold b; destruct (k <? (n - 1) * m)%nat; [done|by rewrite zeroV]).
    assert (Ba : Rabs (val a) <= M) by (unfold a; destruct (k <? m)%nat; [by rewrite zeroV, Rabs_R0|done]).
    assert (Bb : Rabs (val b) <= M) by (unfold b; destruct (k <? (n - 1) * m)%nat; [done|by rewrite zeroV, Rabs_R0]).
    rewrite Ea, Eb. clearbody a b. pose proof (HA k) as Ak. destruct (_ || _)%nat; intros F.
    + apply close2; [ring|done|done|lra|done].
    + pose proof (dbl _ _ _ _ F) as D. apply close2; [rewrite D; ring|done|done|rewrite D, Rabs_mult, (Rabs_pos_eq 2) by lra; lra|done].
Qed.

(** ** the computed operators are adjoint up to rounding *)
Lemma pair_err (L : nat) (xs : list b64) (E w : list R) : length xs = L -> length E = L -> length w = L ->
  (forall k, (k < L)%nat -> Rabs (val (A xs k) - nth k E 0) <= gam 2 * Rabs (nth k E 0) + eta) ->
  Rabs (dot (V xs) w - dot E w) <= gam 2 * (nrm2 E * nrm2 w) + eta * nrm1 w.
Proof.
  intros Lx LE Lw H. unfold dot. rewrite V_length, Lx, LE, <- Rsum_minus.
  eapply Rle_trans; [apply Rsum_abs|]. apply Rle_trans with (Rsum L (fun k => gam 2 * (Rabs (nth k E 0) * Rabs (nth k w 0)) + eta * Rabs (nth k w 0))).
  - apply Rsum_le. intros k Hk. rewrite nthV. replace (val (A xs k) * nth k w 0 - nth k E 0 * nth k w 0) with ((val (A xs k) - nth k E 0) * nth k w 0) by ring.
    rewrite Rabs_mult. replace (gam 2 * (Rabs (nth k E 0) * Rabs (nth k w 0)) + eta * Rabs (nth k w 0)) with ((gam 2 * Rabs (nth k E 0) + eta) * Rabs (nth k w 0)) by ring.
    apply Rmult_le_compat_r; [apply Rabs_pos|by apply H].
  - rewrite Rsum_plus, !Rsum_scal. unfold nrm1. rewrite Lw. apply Rplus_le_compat_r. apply Rmult_le_compat_l; [apply gam_nonneg|].
    pose proof (Rsum_CS L (fun k => Rabs (nth k E 0)) (fun k => Rabs (nth k w 0))) as Q. cbv beta in Q.
    unfold nrm2, nrm2sq. rewrite LE, Lw. rewrite <- sqrt_mult; [|apply Rsum_nonneg; intros; apply pow2_ge_0..].
    rewrite (Rsum_ext L (fun i => Rabs (nth i E 0) ^ 2) (fun i => nth i E 0 ^ 2)) in Q by (intros; by rewrite pow2_abs).
    rewrite (Rsum_ext L (fun i => Rabs (nth i w 0) ^ 2) (fun i => nth i w 0 ^ 2)) in Q by (intros; by rewrite pow2_abs).
    rewrite <- (sqrt_pow2 (Rsum L (fun i => Rabs (nth i E 0) * Rabs (nth i w 0)))); [by apply sqrt_le_1_alt|].
    apply Rsum_nonneg. intros i _. apply Rmult_le_pos; apply Rabs_pos.
Qed.
Lemma nrm2_of (E w : list R) (a : R) : nrm2sq E <= 4 * a ^ 2 * nrm2sq w -> nrm2 E <= 2 * Rabs a * nrm2 w.
Proof.
  intros H. unfold nrm2. assert (0 <= nrm2sq w) by (apply Rsum_nonneg; intros; apply pow2_ge_0).
  rewrite <- (sqrt_pow2 (2 * Rabs a)) by (pose proof (Rabs_pos a); lra). rewrite <- sqrt_mult; [|apply pow2_ge_0|done]. apply sqrt_le_1_alt.
  replace ((2 * Rabs a) ^ 2) with (4 * a ^ 2) by (rewrite <- (pow2_abs a); ring). done.
Qed.
Lemma adjoint_close n m (a : R) (Du Dv u v : list b64) (E Et : list R) : length u = (n * m)%nat -> length v = (n * m)%nat -> length Du = (n * m)%nat -> length Dv = (n * m)%nat ->
  length E = (n * m)%nat -> length Et = (n * m)%nat ->
  (forall k, (k < n * m)%nat -> Rabs (val (A Du k) - nth k E 0) <= gam 2 * Rabs (nth k E 0) + eta) ->
  (forall k, (k < n * m)%nat -> Rabs (val (A Dv k) - nth k Et 0) <= gam 2 * Rabs (nth k Et 0) + eta) ->
  nrm2sq E <= 4 * a ^ 2 * nrm2sq (V u) -> nrm2sq Et <= 4 * a ^ 2 * nrm2sq (V v) -> dot E (V v) = dot (V u) Et ->
  Rabs (dot (V Du) (V v) - dot (V u) (V Dv)) <= 4 * Rabs a * gam 2 * (nrm2 (V u) * nrm2 (V v)) + eta * (nrm1 (V u) + nrm1 (V v)).
Proof.
  intros Lu Lv LD LDt LE LEt H1 H2 N1 N2 EQ. pose proof (pair_err _ Du E (V v) LD LE ltac:(by rewrite V_length) H1) as P1. pose proof (pair_err _ Dv Et (V u) LDt LEt ltac:(by rewrite V_length) H2) as P2.
  apply nrm2_of in N1, N2.
  assert (SY : forall x y : list R, length x = length y -> dot x y = dot y x) by (intros x y Q; unfold dot; rewrite Q; apply Rsum_ext; intros; ring).
  rewrite (SY (V u) (V Dv)) by (rewrite !V_length; congruence). rewrite (SY (V u) Et) in EQ by (rewrite V_length; congruence).
  replace (dot (V Du) (V v) - dot (V Dv) (V u)) with ((dot (V Du) (V v) - dot E (V v)) - (dot (V Dv) (V u) - dot Et (V u))) by lra.
  unfold Rminus at 1. eapply Rle_trans; [apply Rabs_triang|]. rewrite Rabs_Ropp.
  pose proof (sqrt_pos (nrm2sq (V u))) as Q1. pose proof (sqrt_pos (nrm2sq (V v))) as Q2. fold (nrm2 (V u)) in Q1. fold (nrm2 (V v)) in Q2.
  assert (S1 : nrm2 E * nrm2 (V v) <= 2 * Rabs a * (nrm2 (V u) * nrm2 (V v))) by (rewrite <- Rmult_assoc; by apply Rmult_le_compat_r).
  assert (S2 : nrm2 Et * nrm2 (V u) <= 2 * Rabs a * (nrm2 (V u) * nrm2 (V v))) by (rewrite (Rmult_comm (nrm2 (V u))), <- Rmult_assoc; by apply Rmult_le_compat_r).
  pose proof (gam_nonneg 2) as G.
  apply (Rmult_le_compat_l (gam 2)) in S1; [|done]. apply (Rmult_le_compat_l (gam 2)) in S2; [|done]. lra.
Qed.
Theorem C89_adjoint (n m : nat) alpha u v : (2 <= n)%nat -> (2 <= m)%nat -> fits n m -> length u = (n * m)%nat -> length v = (n * m)%nat ->
  exists Dxu DxTv Dyu DyTv : list b64,
    @computes BN (@l1c_Dx BN (Z.of_nat n) (Z.of_nat m) alpha) (n * m) u Dxu /\ @computes BN (@l1c_DxT BN (Z.of_nat n) (Z.of_nat m) alpha) (n * m) v DxTv /\
    @computes BN (@l1c_Dy BN (Z.of_nat n) (Z.of_nat m) alpha) (n * m) u Dyu /\ @computes BN (@l1c_DyT BN (Z.of_nat n) (Z.of_nat m) alpha) (n * m) v DyTv /\
    (clean Dxu -> clean DxTv -> Rabs (dot (V Dxu) (V v) - dot (V u) (V DxTv)) <=
       4 * Rabs (val alpha) * gam 2 * (nrm2 (V u) * nrm2 (V v)) + eta * (nrm1 (V u) + nrm1 (V v))) /\
    (clean Dyu -> clean DyTv -> Rabs (dot (V Dyu) (V v) - dot (V u) (V DyTv)) <=
       4 * Rabs (val alpha) * gam 2 * (nrm2 (V u) * nrm2 (V v)) + eta * (nrm1 (V u) + nrm1 (V v))).
Proof.
  intros Hn Hm Hf Hu Hv. destruct (@comps BN n m alpha u Hn Hm Hf Hu) as (B1 & _ & B3 & _). destruct (@comps BN n m alpha v Hn Hm Hf Hv) as (_ & B2 & _ & B4 & _).
  exists (@Dx_of BN n m alpha u), (@DxT_of BN n m alpha v), (@Dy_of BN n m alpha u), (@DyT_of BN n m alpha v).
  split; [done|]. split; [done|]. split; [done|]. split; [done|].
  assert (LVu : @length R (V u) = (n * m)%nat) by (by rewrite V_length). assert (LVv : @length R (V v) = (n * m)%nat) by (by rewrite V_length). split.
  - intros C1 C2. pose proof (clean_upto _ _ C1 (proj1 B1)) as C1'. pose proof (clean_upto _ _ C2 (proj1 B2)) as C2'.
    apply (adjoint_close n m (val alpha) _ _ _ _ (@Dx_of RN n m (val alpha) (V u)) (@DxT_of RN n m (val alpha) (V v))); try apply (@tab_length BN); try apply (@tab_length RN); auto.
    + intros k Hk. apply (shape_close alpha u); [by apply Dx_shape|by apply C1'].
    + intros k Hk. apply (shape_close alpha v); [by apply DxT_shape|by apply C2'].
    + apply Dx_bound; [lia|done].
    + apply DxT_bound; [lia|done].
    + by apply Dx_adjoint.
  - intros C1 C2. pose proof (clean_upto _ _ C1 (proj1 B3)) as C1'. pose proof (clean_upto _ _ C2 (proj1 B4)) as C2'.
    apply (adjoint_close n m (val alpha) _ _ _ _ (@Dy_of RN n m (val alpha) (V u)) (@DyT_of RN n m (val alpha) (V v))); try apply (@tab_length BN); try apply (@tab_length RN); auto.
    + intros k Hk. apply (shape_close alpha u); [by apply Dy_shape|by apply C1'].
    + intros k Hk. apply (shape_close alpha v); [by apply DyT_shape|by apply C2'].
    + by apply Dy_bound.
    + by apply DyT_bound.
    + apply Dy_adjoint; [lia|done|done].
Qed.

(** ** the shrinkage: one rounding, none up to twice the threshold *)
Theorem C89_shrink s (x d : ptr) xs (n : nat) (g : b64) :
  is_aligned s x = true -> is_aligned s d = true -> @seg BN s x xs -> length xs = n -> wok s d n -> disj d n x n -> clean xs -> finite g -> 0 <= val g ->
  exists ds : list b64, @breg_shrink1 BN (Z.of_nat n) x d g s = Ok tt (@wr BN d ds s) /\ length ds = n /\ clean ds /\
    forall i, (i < n)%nat -> let di := nth i (V ds) 0 in let xi := nth i (V xs) 0 in
      Rabs (di - soft (val g) xi) <= uro * Rabs (soft (val g) xi) /\ (Rabs xi <= 2 * val g -> di = soft (val g) xi) /\ Rabs di <= Rabs xi /\ 0 <= xi * di.
Proof.
  intros Ax Ad Hx Lx Wd Hd HC Fg Hg. exists (@shrink_of BN n g xs). split; [by apply (@shrink1_run BN)|]. split; [apply (@tab_length BN)|].
  assert (Q : forall i, (i < n)%nat -> A (@shrink_of BN n g xs) i = @shrink BN g (A xs i)) by (intros i Hi; by apply (@at_tab BN)).
  rewrite (clean_at flog fexp fceil), Lx in HC. split.
  - apply (clean_at flog fexp fceil). unfold shrink_of. rewrite (@tab_length BN). intros i Hi. rewrite (@at_tab BN) by done. apply (shrink_close flog fexp fceil); auto.
  - intros i Hi di xi. unfold di, xi. rewrite !nthV, Q by done. apply (shrink_close flog fexp fceil); auto.
Qed.

(** ** the multipliers left by one iteration *)
Definition subgradient_at (g : R) (d b : b64) : Prop := finite b ->
  finite d /\ Rabs (val b) <= g + 2 * uro * (g + Rabs (val d)) /\
  (0 < val d -> Rabs (val b - g) <= 2 * uro * (g + Rabs (val d))) /\ (val d < 0 -> Rabs (val b + g) <= 2 * uro * (g + Rabs (val d))) /\
  (Rabs (val d) < g -> Rabs (val b) <= g /\ (0 < val d -> val b = g) /\ (val d < 0 -> val b = - g)).
Theorem C89_multipliers n m bu bf b0 bdx bdy bbx bby b1 b2 br (f u u1 dx dy bx by_ : list b64) mj s (mu tol lambda : b64) :
  @iter_mem BN n m bu bf b0 bdx bdy bbx bby b1 b2 br f u u1 dx dy bx by_ mj s ->
  finite (@div BN (@one BN) lambda) -> 0 <= val (@div BN (@one BN) lambda) ->
  exists stop s' (dx' dy' bx' by' : list b64),
    @breg_iter BN (Z.of_nat n) (Z.of_nat m) (Z.of_nat (n * m)) (Ptr bu 0) (Ptr bf 0) mu tol lambda mj
      (Ptr b0 0) (Ptr bdx 0) (Ptr bdy 0) (Ptr bbx 0) (Ptr bby 0) (Ptr b1 0) (Ptr b2 0) (Ptr br 0) s = Ok stop s' /\
    @seg BN s' (Ptr bdx 0) dx' /\ @seg BN s' (Ptr bdy 0) dy' /\ @seg BN s' (Ptr bbx 0) bx' /\ @seg BN s' (Ptr bby 0) by' /\
    Forall (fun l => length l = (n * m)%nat) [dx'; dy'; bx'; by'] /\
    forall k, (k < n * m)%nat -> subgradient_at (val (@div BN (@one BN) lambda)) (nth k dx' (@zero BN)) (nth k bx' (@zero BN)) /\
                                 subgradient_at (val (@div BN (@one BN) lambda)) (nth k dy' (@zero BN)) (nth k by' (@zero BN)).
Proof.
  intros [Hn Hm Hf Hmj HD HA HL Sf Su Su1 Sdx Sdy Sbx Sby (W1 & W2 & Wr)] Fg Hg.
  repeat match goal with H : Forall _ (_ :: _) |- _ => apply Forall_cons in H as [? HL] end.
  destruct (@iter_run BN s n m bu bf b0 bdx bdy bbx bby b1 b2 br f (@mkBst BN u u1 dx dy bx by_) mu tol lambda mj) as (s' & E & (_ & _ & Q1 & Q2 & Q3 & Q4) & _); auto.
  { by unfold blen. } { by unfold bholds. }
  unfold breg_S in Q1, Q2, Q3, Q4. cbn [b_u b_u1 b_dx b_dy b_bx b_by] in Q1, Q2, Q3, Q4.
  match type of Q3 with @seg _ _ _ (mxpy_of _ _ ?z) => set (zx := z) in * end. match type of Q4 with @seg _ _ _ (mxpy_of _ _ ?z) => set (zy := z) in * end. clearbody zx zy.
  eexists _, s', _, _, _, _. split; [exact E|]. split; [exact Q1|]. split; [exact Q2|]. split; [exact Q3|]. split; [exact Q4|].
  split; [repeat (apply Forall_cons; split; [apply (@tab_length BN)|]); by apply Forall_nil|].
  intros k Hk. assert (R : forall z, subgradient_at (val (@div BN (@one BN) lambda)) (A (@shrink_of BN (n * m) (@div BN (@one BN) lambda) z) k)
    (A (@mxpy_of BN (n * m) (@shrink_of BN (n * m) (@div BN (@one BN) lambda) z) z) k)).
  { intros z. set (g := @div BN (@one BN) lambda) in *. pose proof (@at_tab BN (n * m) (fun i => @shrink BN g (A z i)) k Hk) as E1. fold (@shrink_of BN (n * m) g z) in E1.
    set (ds := @shrink_of BN (n * m) g z) in *. clearbody ds. pose proof (@at_tab BN (n * m) (fun i => @add BN (@opp BN (A ds i)) (A z i)) k Hk) as E2. fold (@mxpy_of BN (n * m) ds z) in E2.
    rewrite E2, E1. intros F. by apply (mult_sub flog fexp fceil). }
  split; apply R.
Qed.
End C89.

(** ** Concrete cases *)
Module RoundTVEx.
Import RoundEx.
(** a 2 x 2 image *)
Definition img : list b64 := [k 1; k 4; k (-2); k 7].
Lemma img_clean : clean img. Proof. repeat constructor; apply kf; vm_compute; discriminate. Qed.
Lemma img_max j : Rabs (nth j (V img) 0) <= 7.
Proof. unfold img, V. destruct j as [|[|[|[|j]]]]; cbn [map nth]; kvs; [| | | |destruct j]; (try (rewrite (Rabs_left (-2)) by lra)); rewrite ?Rabs_R0, ?Rabs_pos_eq by lra; lra. Qed.
Example differences_case : exists Du : list b64, @computes B (@l1c_Dx B 2 2 (k 3)) 4 img Du /\ clean Du /\ Rabs (val (nth 0 Du (@zero B)) - 9) <= gam 2 * 9 + eta.
Proof.
  destruct (C89_differences id64 id64 id64 2 2 (k 3) img) as ((Du & E & H1 & H2 & H3 & H4) & _); [lia|lia|unfold fits; vm_compute; discriminate|done|].
  exists Du. split; [exact H1|].
  assert (HC : clean Du). { apply (H4 7); [apply img_clean|apply kf; vm_compute; discriminate|apply img_max|]. apply big. kvs. rewrite Rabs_pos_eq by lra. lra. }
  split; [done|].
  assert (F : finite (nth 0 Du (@zero B))). { apply (clean_upto id64 id64 id64 Du 4 HC (proj1 H1)). lia. }
  pose proof (H3 0%nat ltac:(lia) F) as Q.
  assert (EE : E = @Dx_of RN 2 2 (val (k 3)) (V img)).
  { pose proof (proj1 (@comps RN 2 2 (val (k 3)) (V img) ltac:(lia) ltac:(lia) ltac:(unfold fits; vm_compute; discriminate) eq_refl)) as HH.
    apply (@computes_det RN _ _ _ _ _ (@state_of RN [@full RN (V img); @fresh RN 4]) (Ptr 0 0) (Ptr 1 0) H2 HH); [by apply (@state_of_seg RN)|by eapply (@state_of_wok RN)|by apply disj_blocks]. }
  rewrite EE in Q. unfold Dx_of, row_of in Q. rewrite nth_tab in Q by lia. unfold ddiff_at in Q. rewrite !at_RN in Q. cbn [Nat.modulo Nat.divmod Nat.sub Nat.add fst snd Nat.ltb Nat.leb img V map nth mul sub RN] in Q.
  revert Q. kvs. replace (3 * (4 - 1)) with 9 by ring. rewrite (Rabs_pos_eq 9) by lra. done.
Qed.
(** hypotheses of the other operator theorems *)
Example operator_hyps : (2 <= 2)%nat /\ fits 2 2 /\ length img = (2 * 2)%nat /\ clean (@Dx_of B 2 2 (k 3) img) /\ clean (@DxT_of B 2 2 (k 3) img) /\ clean (@Dy_of B 2 2 (k 3) img) /\
  clean (@DyT_of B 2 2 (k 3) img) /\ clean (@DxTDx_of B 2 2 (k 3) img) /\ clean (@DyTDy_of B 2 2 (k 3) img).
Proof. split; [lia|]. split; [unfold fits; vm_compute; discriminate|]. split; [done|]. split_and!; (repeat constructor); vm_compute; reflexivity. Qed.
(** 5 shrunk by 3 is exactly 2 *)
Definition sh : @st B := @state_of B [@full B [k 5; k (-2); k 100]; @fresh B 3].
Example shrink_case : exists ds, @breg_shrink1 B 3 (Ptr 0 0) (Ptr 1 0) (k 3) sh = Ok tt (@wr B (Ptr 1 0) ds sh) /\ clean ds /\ nth 0 (V ds) 0 = 2 /\ nth 1 (V ds) 0 = 0.
Proof.
  destruct (C89_shrink id64 id64 id64 sh (Ptr 0 0) (Ptr 1 0) [k 5; k (-2); k 100] 3 (k 3)) as (ds & E & L & HC & H); try done.
  - by apply (@state_of_seg B).
  - by eapply (@state_of_wok B).
  - repeat constructor; apply kf; vm_compute; discriminate.
  - kvs. lra.
  - exists ds. split; [exact E|]. split; [done|]. destruct (H 0%nat ltac:(lia)) as (_ & Q0 & _). destruct (H 1%nat ltac:(lia)) as (_ & Q1 & _). revert Q0 Q1. cbn [V map nth]. kvs.
    rewrite (Rabs_pos_eq 5), (Rabs_left (-2)) by lra. intros Q0 Q1. rewrite Q0, Q1 by lra. unfold soft. rewrite (Rabs_pos_eq 5), (Rabs_left (-2)) by lra.
    destruct (Rle_dec 5 3), (Rle_dec (- -2) 3), (Rle_dec 0 5); lra.
Qed.
(** the state breg_anistropic_TV starts from: u = f, everything else 0; the image has one jump of 2^53 + 2 *)
Definition jump : list b64 := [k 0; k (2 ^ 53 + 2); k 0; k (2 ^ 53 + 2)].
Definition z4 : list b64 := [k 0; k 0; k 0; k 0].
Definition sj : @st B := @state_of B [@full B jump; @full B jump; @full B z4; @full B z4; @full B z4; @full B z4; @full B z4; @fresh B 4; @fresh B 4; @fresh B 4].
Lemma sj_mem : @iter_mem B 2 2 0 1 2 3 4 5 6 7 8 9 jump jump z4 z4 z4 z4 z4 0 sj.
Proof.
  constructor; try done; try lia.
  - apply NoDup_ListNoDup. apply (seq_NoDup 10 0).
  - repeat (apply Forall_cons; split; [done|]). by apply Forall_nil.
  - by apply (@state_of_seg B).
  - by apply (@state_of_seg B).
  - by apply (@state_of_seg B).
  - by apply (@state_of_seg B).
  - by apply (@state_of_seg B).
  - by apply (@state_of_seg B).
  - by apply (@state_of_seg B).
  - split_and!; by eapply (@state_of_wok B).
Qed.
Lemma g1 : @div B (@one B) (k 1) = k 1. Proof. apply B2SF_inj. vm_compute. reflexivity. Qed.
Example multipliers_case (mu tol : b64) : exists stop s' (dx' bx' : list b64),
    @breg_iter B 2 2 4 (Ptr 0 0) (Ptr 1 0) mu tol (k 1) 0 (Ptr 2 0) (Ptr 3 0) (Ptr 4 0) (Ptr 5 0) (Ptr 6 0) (Ptr 7 0) (Ptr 8 0) (Ptr 9 0) sj = Ok stop s' /\
    @seg B s' (Ptr 3 0) dx' /\ @seg B s' (Ptr 5 0) bx' /\ subgradient_at 1 (nth 0 dx' (@zero B)) (nth 0 bx' (@zero B)).
Proof.
  destruct (C89_multipliers id64 id64 id64 2 2 0 1 2 3 4 5 6 7 8 9 jump jump z4 z4 z4 z4 z4 0 sj mu tol (k 1)) as (stop & s' & dx' & dy' & bx' & by' & E & H1 & _ & H2 & _ & _ & H3).
  - apply sj_mem.
  - rewrite g1. apply kf. vm_compute. discriminate.
  - rewrite g1. kvs. lra.
  - exists stop, s', dx', bx'. split; [exact E|]. split; [done|]. split; [done|]. rewrite g1 in H3. destruct (H3 0%nat ltac:(lia)) as [Q _]. by rewrite kv in Q by (vm_compute; discriminate).
Qed.
(** Without the rounding terms the bound is false: one iteration without inner sweeps on that image, lambda = 1, leaves
    b_x = 2 where exact arithmetic guarantees |b_x| <= 1/lambda = 1. *)
Theorem C89_multiplier_bound_refuted (mu tol : b64) : exists stop s' (bx' : list b64),
    @breg_iter B 2 2 4 (Ptr 0 0) (Ptr 1 0) mu tol (k 1) 0 (Ptr 2 0) (Ptr 3 0) (Ptr 4 0) (Ptr 5 0) (Ptr 6 0) (Ptr 7 0) (Ptr 8 0) (Ptr 9 0) sj = Ok stop s' /\
    @seg B s' (Ptr 5 0) bx' /\ nth 0 (V bx') 0 = 2 /\ val (@div B (@one B) (k 1)) = 1.
Proof.
  destruct sj_mem as [Hn Hm Hf Hmj HD HA HL Sf Su Su1 Sdx Sdy Sbx Sby (W1 & W2 & Wr)].
  destruct (@iter_run B sj 2 2 0 1 2 3 4 5 6 7 8 9 jump (@mkBst B jump z4 z4 z4 z4 z4) mu tol (k 1) 0 Hn Hm Hf Hmj HD HA Sf eq_refl) as (s' & E & (_ & _ & _ & _ & Q & _) & _).
  { repeat split; reflexivity. }
  { split; [exact Su|]. split; [exact Su1|]. split; [exact Sdx|]. split; [exact Sdy|]. split; [exact Sbx|exact Sby]. }
  { exact W1. } { exact W2. } { exact Wr. }
  eexists _, s', _. split; [exact E|]. split; [exact Q|]. rewrite g1. split; [|by rewrite kv by (vm_compute; discriminate)].
  rewrite (V_nth id64 id64 id64). unfold breg_S. cbn [b_u b_bx b_by b_dx b_dy Z.to_nat sweeps].
  match goal with |- val ?x = _ => assert (X : x = k 2) by (apply B2SF_inj; vm_compute; reflexivity); rewrite X end.
  rewrite kv by (vm_compute; discriminate). done.
Qed.
End RoundTVEx.
