(** * C97: the TV denoiser commutes with changes of unit, of sign and of brightness. *)
From Coq Require Import ZArith Lia Reals Lra Psatz.
From stdpp Require Import base numbers list.
From Verif Require Import Mem M_Status S_Mem P_Mem P_Loop P_Math P_MathR P_TV P_TVR M_Bregman P_Own P_Touch P_Bregman P_Breg2 P_Breg3 L_Sum S_Vec S_Img L_Lin L_ER P_CG P_CGR P_BregR P_BregX T_TV T_Bregman.
Local Open Scope R_scope.

Ltac eqR := match goal with |- ?x = ?y => change (@eq R x y) end.
(** ** Scaling *)
Definition scl (t : R) (l : list R) : list R := map (Rmult t) l.
Lemma scl_len t l : length (scl t l) = length l. Proof. apply map_length. Qed.
Lemma scl_nth t l i : nth i (scl t l) 0 = t * nth i l 0.
Proof. unfold scl. rewrite <- (Rmult_0_r t) at 1. apply map_nth. Qed.
Lemma scl_at t l i : @at_ RN (scl t l) i = t * @at_ RN l i.
Proof. rewrite !at_RN. apply scl_nth. Qed.
Lemma scl_tab n t (g h : nat -> R) : (forall i, (i < n)%nat -> g i = t * h i) -> @tab RN n g = scl t (@tab RN n h).
Proof.
  intros H. apply (list_eq_nth n); [apply (@tab_length RN)|rewrite scl_len; apply (@tab_length RN)|]. intros i Hi.
  rewrite scl_nth, !nth_tab by done. by apply H.
Qed.
Lemma Dx_scl n m (a a' t r : R) u : a * t = r * a' -> @Dx_of RN n m a (scl t u) = scl r (@Dx_of RN n m a' u).
Proof.
  intros E. apply scl_tab. intros i Hi. unfold ddiff_at. rewrite !scl_at, !zero_RN. destruct (_ <? _)%nat; [|ring]. cbn [mul sub RN].
  replace (r * (a' * (@at_ RN u (i - i mod m + i mod m + 1) - @at_ RN u (i - i mod m + i mod m)))) with ((r * a') * (@at_ RN u (i - i mod m + i mod m + 1) - @at_ RN u (i - i mod m + i mod m))) by ring. rewrite <- E. ring.
Qed.
Lemma DxT_scl n m (a a' t r : R) u : a * t = r * a' -> @DxT_of RN n m a (scl t u) = scl r (@DxT_of RN n m a' u).
Proof.
  intros E. apply scl_tab. intros i Hi. unfold ddiffT_at. rewrite !scl_at. cbn [mul sub opp RN]. destruct (_ =? _)%nat; [|destruct (_ <? _)%nat]; rewrite <- ?Rmult_assoc.
  - replace (r * - a') with (- (a * t)) by (rewrite E; ring). ring.
  - rewrite <- E. ring.
  - rewrite <- E. ring.
Qed.
Lemma Dy_scl n m (a a' t r : R) u : a * t = r * a' -> @Dy_of RN n m a (scl t u) = scl r (@Dy_of RN n m a' u).
Proof.
  intros E. apply scl_tab. intros i Hi. rewrite !scl_at, !zero_RN. destruct (_ <? _)%nat; [|ring]. cbn [mul sub RN].
  rewrite <- Rmult_assoc, <- E. ring.
Qed.
Lemma DyT_scl n m (a a' t r : R) u : a * t = r * a' -> @DyT_of RN n m a (scl t u) = scl r (@DyT_of RN n m a' u).
Proof.
  intros E. apply scl_tab. intros i Hi. rewrite !scl_at, !zero_RN. cbn [mul sub RN].
  rewrite <- Rmult_assoc, <- E. destruct (_ <? _)%nat; destruct (_ <? _)%nat; ring.
Qed.
Lemma axpy_scl n (a a' t r : R) u v : a * t = r * a' -> @axpy_of RN n a (scl t u) (scl r v) = scl r (@axpy_of RN n a' u v).
Proof. intros E. apply scl_tab. intros i Hi. rewrite !scl_at. cbn [add mul RN]. rewrite Rmult_plus_distr_l. rewrite <- (Rmult_assoc r a'), <- E. ring. Qed.
Lemma mxpy_scl n t u v : @mxpy_of RN n (scl t u) (scl t v) = scl t (@mxpy_of RN n u v).
Proof. apply scl_tab. intros i Hi. rewrite !scl_at. cbn [add opp RN]. ring. Qed.
Lemma const_scl n t : @const_of RN n (@zero RN) = scl t (@const_of RN n (@zero RN)).
Proof. apply scl_tab. intros i Hi. rewrite zero_RN. ring. Qed.
Lemma shrink_scl1 t g x : t <> 0 -> 0 <= g -> @shrink RN (Rabs t * g) (t * x) = t * @shrink RN g x.
Proof.
  intros Ht Hg. rewrite !shrink_RN. unfold Rabs, Rmax. destruct (Rcase_abs t).
  - destruct (Rle_dec 0 (t * x)), (Rle_dec 0 x); repeat (destruct (Rle_dec _ _)); nra.
  - destruct (Rle_dec 0 (t * x)), (Rle_dec 0 x); repeat (destruct (Rle_dec _ _)); nra.
Qed.
Lemma shrink_scl n t g u : t <> 0 -> 0 <= g -> @shrink_of RN n (Rabs t * g) (scl t u) = scl t (@shrink_of RN n g u).
Proof. intros Ht Hg. apply scl_tab. intros i Hi. rewrite !scl_at. by apply shrink_scl1. Qed.
Lemma nbs_scl n m t u k : nbs n m (scl t u) k = t * nbs n m u k.
Proof. unfold nbs. induction (nbrs n m k) as [|p l IH]; cbn [map rsum fold_right]; [ring|]. unfold rsum in IH. rewrite IH, scl_nth. ring. Qed.

Section scaled.
Context (n m : nat) (mu la t : R) (Hmu : 0 < mu) (Hla : 0 < la) (Ht : t <> 0).
Let q := / Rabs t.
Let r := q * t.
Lemma q_pos : 0 < q. Proof. apply Rinv_0_lt_compat. by apply Rabs_pos_lt. Qed.
Lemma gs_at_scl b u k : @gs_at RN n m (q * mu) (q * la) (scl r b) (scl t u) k = t * @gs_at RN n m mu la b u k.
Proof.
  pose proof q_pos as Q. assert (0 < mu + dg n m k * la) by (apply den_pos; done).
  rewrite !gs_at_RN. rewrite scl_nth, nbs_scl. unfold r. eqR. field. split; [lra|]. 
  replace (q * mu + dg n m k * (q * la)) with (q * (mu + dg n m k * la)) by ring. apply Rmult_integral_contrapositive_currified; lra.
Qed.
Lemma gs_scl b u : @gs_of RN n m (q * mu) (q * la) (scl t u) (scl r b) = scl t (@gs_of RN n m mu la u b).
Proof.
  unfold gs_of. induction (n * m)%nat as [|k IH]; [done|]. rewrite !gs_S, IH, gs_at_scl. symmetry. apply (list_fmap_insert (Rmult t)).
Qed.
Lemma sweeps_scl J b u : @sweeps RN J n m (q * mu) (q * la) (scl r b) (scl t u) = scl t (@sweeps RN J n m mu la b u).
Proof. induction J as [|J IH]; [done|]. cbn [sweeps]. rewrite IH. apply gs_scl. Qed.
Lemma rhs_scl f dx bx dy by_ : @rhs_of RN n m (scl t f) (scl t dx) (scl t bx) (scl t dy) (scl t by_) (q * mu) (q * la) = scl r (@rhs_of RN n m f dx bx dy by_ mu la).
Proof.
  unfold rhs_of. rewrite !mxpy_scl. rewrite (DyT_scl n m (q * la) la t r), (DxT_scl n m (q * la) la t r) by (unfold r; ring).
  rewrite (axpy_scl _ (q * mu) mu t r) by (unfold r; ring). apply axpy_scl. rewrite one_RN. ring.
Qed.
Definition bscl (c : @bst RN) : @bst RN := @mkBst RN (scl t (b_u c)) (scl t (b_u1 c)) (scl t (b_dx c)) (scl t (b_dy c)) (scl t (b_bx c)) (scl t (b_by c)).
Lemma breg_S_scl J f c : @breg_S RN n m J (q * mu) (q * la) (scl t f) (bscl c) = bscl (@breg_S RN n m J mu la f c).
Proof.
  unfold breg_S, bscl. cbn [b_u b_u1 b_dx b_dy b_bx b_by]. rewrite rhs_scl, sweeps_scl.
  rewrite (Dx_scl n m _ (@one RN) t t), (Dy_scl n m _ (@one RN) t t) by (rewrite one_RN; ring).
  rewrite !(axpy_scl _ _ (@one RN) t t) by (rewrite one_RN; ring).
  assert (E : @div RN (@one RN) (q * la) = Rabs t * @div RN (@one RN) la).
  { cbn [div RN]. rewrite one_RN. unfold q. assert (Rabs t <> 0) by (by apply Rabs_no_R0). eqR. field. lra. }
  rewrite E. assert (G : 0 <= @div RN (@one RN) la) by (cbn [div RN]; rewrite one_RN; left; apply Rdiv_lt_0_compat; lra).
  rewrite !shrink_scl by done. rewrite !mxpy_scl. done.
Qed.
Lemma breg_at_scl J f k : @breg_at RN n m J (q * mu) (q * la) (scl t f) k = bscl (@breg_at RN n m J mu la f k).
Proof.
  induction k as [|k IH]; [|cbn [breg_at]; rewrite IH; apply breg_S_scl]. cbn [breg_at]. unfold breg_0, bscl. cbn [b_u b_u1 b_dx b_dy b_bx b_by].
  by rewrite <- (const_scl (n * m) t).
Qed.
End scaled.

Lemma er_div_scl c a b : 0 < c -> er_div (Fin (c * a)) (Fin (c * b)) = er_div (Fin a) (Fin b).
Proof.
  intros Hc. unfold er_div. destruct (Req_EM_T (c * b) 0) as [E|E], (Req_EM_T b 0) as [E'|E'].
  - destruct (Req_EM_T (c * a) 0) as [F|F], (Req_EM_T a 0) as [F'|F']; try done; [exfalso; apply F'; nra|exfalso; apply F; subst a; ring|].
    destruct (Rlt_dec 0 (c * a)), (Rlt_dec 0 a); try done; exfalso; nra.
  - exfalso. apply E'. nra.
  - exfalso. apply E. subst b. ring.
  - f_equal. field. lra.
Qed.
Lemma stops_unique (rel rel' : nat -> er) tol mi k k' : (forall j, (1 <= j)%nat -> rel j = rel' j) -> @stops ER rel tol mi k -> @stops ER rel' tol mi k' -> k = k'.
Proof.
  intros E (A1 & A2 & A3) (B1 & B2 & B3). destruct (Nat.lt_trichotomy k k') as [L|[->|L]]; [exfalso|done|exfalso].
  - destruct A3 as [->|[A3 A4]]; [lia|]. rewrite E in A4 by lia. rewrite B2 in A4 by lia. done.
  - destruct B3 as [->|[B3 B4]]; [lia|]. rewrite <- E in B4 by lia. rewrite A2 in B4 by lia. done.
Qed.
Lemma breg_err_scl n m J mu t f k : 0 < mu -> t <> 0 ->
  @breg_err ER n m J (Fin mu) (Fin (2 * mu)) (fin f) k = @breg_err ER n m J (Fin (mu / Rabs t)) (Fin (2 * (mu / Rabs t))) (fin (scl t f)) k.
Proof.
  intros Hmu Ht. pose proof (q_pos t Ht) as Q. assert (0 < mu / Rabs t) by (apply Rdiv_lt_0_compat; [done|by apply Rabs_pos_lt]).
  unfold breg_err. rewrite !breg_at_fin by lra. cbn [bfin b_u b_u1]. rewrite !sqerr_fin, !dot_fin. cbn [sqrt_ div ER]. f_equal.
  replace (2 * (mu / Rabs t)) with (/ Rabs t * (2 * mu)) by (unfold Rdiv; ring). replace (mu / Rabs t) with (/ Rabs t * mu) by (unfold Rdiv; ring).
  rewrite !breg_at_scl by lra. cbn [bscl b_u b_u1]. rewrite <- (er_div_scl (t ^ 2)) by (assert (0 < t * t) by nra; lra).
  rewrite !sqerr_RN, !dot_RN. f_equal; f_equal; rewrite <- Rsum_scal; apply Rsum_ext; intros i Hi; rewrite !scl_nth; ring.
Qed.

(** ** C97.  Extended reals: exact arithmetic in which division by zero gives an infinity or NaN.
    Denoising t times the image with mu/|t| gives t times the denoised image, for every t <> 0, tolerance and numbers of iterations and sweeps:
    the two runs stop after the same number of iterations.  For t = -1 this says that the negative image gives the negative result. *)
Theorem C97_units (n m bu bf bu2 bf2 : nat) (f : list R) (mu t : R) (tol : er) (mi mj : Z) (s s2 : @st ER) : 0 < mu -> t <> 0 ->
  @breg_call ER n m bu bf (map Fin f) mi mj s -> memory_granted s ->
  @breg_call ER n m bu2 bf2 (map (fun x => Fin (t * x)) f) mi mj s2 -> memory_granted s2 ->
  exists (u : list R) s' s2',
    @l1c_breg_anistropic_TV ER (Z.of_nat n) (Z.of_nat m) (Ptr bu 0) (Ptr bf 0) (Fin mu) tol mi mj s = Ok L1C_SUCCESS s' /\ @seg ER s' (Ptr bu 0) (map Fin u) /\
    @l1c_breg_anistropic_TV ER (Z.of_nat n) (Z.of_nat m) (Ptr bu2 0) (Ptr bf2 0) (Fin (mu / Rabs t)) tol mi mj s2 = Ok L1C_SUCCESS s2' /\
    @seg ER s2' (Ptr bu2 0) (map (fun x => Fin (t * x)) u) /\ length u = (n * m)%nat.
Proof.
  intros Hmu Ht [Hn Hm Hf Hmi Hmj Hub Hne Sf Lf Wu Au] HG [_ _ _ _ _ Hub2 Hne2 Sf2 Lf2 Wu2 Au2] HG2.
  assert (E2 : forall l, map (fun x => Fin (t * x)) l = fin (scl t l)) by (intros l; unfold fin, scl; by rewrite map_map). rewrite E2 in Sf2, Lf2.
  change (map Fin f) with (fin f) in *.
  assert (Hmu' : 0 < mu / Rabs t) by (apply Rdiv_lt_0_compat; [done|by apply Rabs_pos_lt]).
  destruct (proj2 (@breg_run ER s n m bu bf _ (Fin mu) tol mi mj Hf Hub) Hn Hm Hmi Hmj Hne Sf Lf Wu Au HG) as (k & s' & HK & E & Su & _).
  destruct (proj2 (@breg_run ER s2 n m bu2 bf2 _ (Fin (mu / Rabs t)) tol mi mj Hf Hub2) Hn Hm Hmi Hmj Hne2 Sf2 Lf2 Wu2 Au2 HG2) as (k2 & s2' & HK2 & Er2 & Su2 & _).
  rewrite lambda_fin in HK, HK2, Su, Su2.
  assert (k = k2) as <- by (eapply stops_unique; [|exact HK|exact HK2]; intros j _; by apply breg_err_scl).
  rewrite breg_at_fin in Su, Su2 by lra. cbn [bfin b_u] in Su, Su2.
  assert (Lf' : length f = (n * m)%nat) by (rewrite <- Lf; symmetry; apply map_length).
  destruct (@breg_at_len RN n m (Z.to_nat mj) mu (2 * mu) f k Lf') as (Lu & _).
  exists (b_u (@breg_at RN n m (Z.to_nat mj) mu (2 * mu) f k)), s', s2'. split; [exact E|]. split; [exact Su|]. split; [exact Er2|]. split; [|exact Lu].
  rewrite E2. replace (2 * (mu / Rabs t)) with (/ Rabs t * (2 * mu)) in Su2 by (unfold Rdiv; ring). replace (mu / Rabs t) with (/ Rabs t * mu) in Su2 by (unfold Rdiv; ring).
  rewrite breg_at_scl in Su2 by lra. exact Su2.
Qed.
(** an image of 2 x 3 pixels and its negative at half the contrast *)
Example C97_units_case : let f := [0; 0; 250; 0; 7; 0] in
  let s := @state_of ER [@full ER (map Fin f); @fresh ER 6] in let s2 := @state_of ER [@full ER (map (fun x => Fin (-1/2 * x)) f); @fresh ER 6] in
  @breg_call ER 2 3 1 0 (map Fin f) 20 3 s /\ memory_granted s /\ @breg_call ER 2 3 1 0 (map (fun x => Fin (-1/2 * x)) f) 20 3 s2 /\ memory_granted s2.
Proof.
  intros f s s2. split; [|split; [done|split; [|done]]].
  all: split; try done; try lia; [apply state_unborn|by apply (@state_of_seg ER)|by eapply (@state_of_wok ER)].
Qed.

(** ** Shift *)
Definition shf (K : R) (l : list R) : list R := map (Rplus K) l.
Lemma shf_len K l : length (shf K l) = length l. Proof. apply map_length. Qed.
Lemma shf_nth K l i : (i < length l)%nat -> nth i (shf K l) 0 = K + nth i l 0.
Proof. intros H. unfold shf. rewrite (nth_indep _ 0 (K + 0)) by (by rewrite map_length). apply map_nth. Qed.
Section shifted.
Context (n m : nat) (mu la K : R) (Hn : (2 <= n)%nat) (Hm : (2 <= m)%nat) (Hmu : 0 < mu) (Hla : 0 < la).
Lemma Dx_shf (a : R) u : length u = (n * m)%nat -> @Dx_of RN n m a (shf K u) = @Dx_of RN n m a u.
Proof.
  intros L. apply (list_eq_nth (n * m)); [apply (@tab_length RN)..|]. intros i Hi. unfold Dx_of, row_of. rewrite !nth_tab by done. unfold ddiff_at. rewrite !at_RN.
  destruct (Nat.ltb_spec (i mod m + 1) m) as [H|H]; [|done].
  assert (E : (i = m * (i / m) + i mod m)%nat) by (apply Nat.div_mod; lia). assert (i / m < n)%nat by (apply Nat.div_lt_upper_bound; lia).
  rewrite !shf_nth by (rewrite L; nia). cbn [mul sub RN]. eqR. ring.
Qed.
Lemma Dy_shf (a : R) u : length u = (n * m)%nat -> @Dy_of RN n m a (shf K u) = @Dy_of RN n m a u.
Proof.
  intros L. apply (list_eq_nth (n * m)); [apply (@tab_length RN)..|]. intros i Hi. rewrite !Dy_RN by done.
  destruct (Nat.ltb_spec i ((n - 1) * m)) as [H|H]; [|done]. rewrite !shf_nth by (rewrite L; nia). ring.
Qed.
Lemma rhs_shf f dx bx dy by_ : length f = (n * m)%nat -> @rhs_of RN n m (shf K f) dx bx dy by_ mu la = shf (mu * K) (@rhs_of RN n m f dx bx dy by_ mu la).
Proof.
  intros L. assert (LR : @length R (@rhs_of RN n m f dx bx dy by_ mu la) = (n * m)%nat) by apply (@rhs_of_len RN).
  apply (list_eq_nth (n * m)); [apply (@rhs_of_len RN)|by rewrite shf_len|]. intros i Hi. rewrite shf_nth by (by rewrite LR).
  unfold rhs_of. rewrite !nth_axpy by done. rewrite shf_nth by (by rewrite L). rewrite one_RN. ring.
Qed.
Lemma nbs_shf u k : length u = (n * m)%nat -> (k < n * m)%nat -> nbs n m (shf K u) k = nbs n m u k + dg n m k * K.
Proof.
  intros L Hk. unfold nbs, dg, deg. assert (H : forall q, q ∈ nbrs n m k -> (q < n * m)%nat) by (intros q; by apply nbrs_lt).
  induction (nbrs n m k) as [|p l IH]; cbn [map rsum fold_right length]; [cbn; ring|].
  rewrite S_INR. unfold rsum in IH. rewrite IH by (intros q Hq; apply H, elem_of_list_further, Hq). rewrite shf_nth by (rewrite L; apply H, elem_of_list_here). ring.
Qed.
Lemma gs_shf b u : length u = (n * m)%nat -> length b = (n * m)%nat -> @gs_of RN n m mu la (shf K u) (shf (mu * K) b) = shf K (@gs_of RN n m mu la u b).
Proof.
  intros Lu Lb. unfold gs_of. assert (H : forall k, (k <= n * m)%nat -> @gs_upto RN n m mu la (shf (mu * K) b) (shf K u) k = shf K (@gs_upto RN n m mu la b u k)); [|by apply H].
  induction k as [|k IH]; intros Hk; [done|]. rewrite !gs_S, IH by lia.
  set (w := @gs_upto RN n m mu la b u k). assert (Lw : @length R w = (n * m)%nat) by (unfold w; etransitivity; [apply (@gs_upto_len RN)|done]).
  replace (@gs_at RN n m mu la (shf (mu * K) b) (shf K w) k) with (K + @gs_at RN n m mu la b w k); [symmetry; apply (list_fmap_insert (Rplus K))|].
  pose proof (den_pos n m mu la Hmu Hla k) as P. rewrite !gs_at_RN. rewrite nbs_shf by (done || lia). rewrite shf_nth by lia. eqR. field. lra.
Qed.
Lemma sweeps_shf J b u : length u = (n * m)%nat -> length b = (n * m)%nat -> @sweeps RN J n m mu la (shf (mu * K) b) (shf K u) = shf K (@sweeps RN J n m mu la b u).
Proof. intros Lu Lb. induction J as [|J IH]; [done|]. cbn [sweeps]. rewrite IH. apply gs_shf; [|done]. etransitivity; [apply (@sweeps_len RN)|done]. Qed.
Lemma breg_at_shf J f k : length f = (n * m)%nat -> let c := @breg_at RN n m J mu la f k in let c' := @breg_at RN n m J mu la (shf K f) k in
  b_u c' = shf K (b_u c) /\ b_dx c' = b_dx c /\ b_dy c' = b_dy c /\ b_bx c' = b_bx c /\ b_by c' = b_by c.
Proof.
  intros L. induction k as [|k IH]; [done|]. intros c c'. unfold c, c'. cbn [breg_at]. destruct IH as (E1 & E2 & E3 & E4 & E5).
  destruct (@breg_at_len RN n m J mu la f k L) as (L1 & _).
  unfold breg_S. cbn [b_u b_dx b_dy b_bx b_by]. rewrite E1, E2, E3, E4, E5, rhs_shf by done. rewrite sweeps_shf by (done || apply (@rhs_of_len RN)).
  rewrite Dx_shf, Dy_shf by (etransitivity; [apply (@sweeps_len RN)|done]). done.
Qed.
End shifted.
Lemma sqrt_ltb_nonpos a tol : tol <= 0 -> er_ltb (er_sqrt a) (Fin tol) = false.
Proof.
  intros H. destruct a as [r| | |]; try done. cbn [er_sqrt]. destruct (Rlt_dec r 0); [done|]. cbn [er_ltb]. unfold Rltb. destruct (Rlt_dec _ _) as [L|]; [|done].
  pose proof (sqrt_pos r). exfalso. lra.
Qed.

(** With the stop test switched off (tol <= 0) adding K to every pixel adds K to every pixel of the result. *)
Theorem C97_brightness (n m bu bf bu2 bf2 : nat) (f : list R) (mu K tol : R) (mi mj : Z) (s s2 : @st ER) : 0 < mu -> tol <= 0 ->
  @breg_call ER n m bu bf (map Fin f) mi mj s -> memory_granted s ->
  @breg_call ER n m bu2 bf2 (map (fun x => Fin (K + x)) f) mi mj s2 -> memory_granted s2 ->
  exists (u : list R) s' s2',
    @l1c_breg_anistropic_TV ER (Z.of_nat n) (Z.of_nat m) (Ptr bu 0) (Ptr bf 0) (Fin mu) (Fin tol) mi mj s = Ok L1C_SUCCESS s' /\ @seg ER s' (Ptr bu 0) (map Fin u) /\
    @l1c_breg_anistropic_TV ER (Z.of_nat n) (Z.of_nat m) (Ptr bu2 0) (Ptr bf2 0) (Fin mu) (Fin tol) mi mj s2 = Ok L1C_SUCCESS s2' /\
    @seg ER s2' (Ptr bu2 0) (map (fun x => Fin (K + x)) u) /\ length u = (n * m)%nat.
Proof.
  intros Hmu Ht [Hn Hm Hf Hmi Hmj Hub Hne Sf Lf Wu Au] HG [_ _ _ _ _ Hub2 Hne2 Sf2 Lf2 Wu2 Au2] HG2.
  assert (E2 : forall l, map (fun x => Fin (K + x)) l = fin (shf K l)) by (intros l; unfold fin, shf; by rewrite map_map). rewrite E2 in Sf2, Lf2.
  change (map Fin f) with (fin f) in *.
  destruct (proj2 (@breg_run ER s n m bu bf _ (Fin mu) (Fin tol) mi mj Hf Hub) Hn Hm Hmi Hmj Hne Sf Lf Wu Au HG) as (k & s' & HK & E & Su & _).
  destruct (proj2 (@breg_run ER s2 n m bu2 bf2 _ (Fin mu) (Fin tol) mi mj Hf Hub2) Hn Hm Hmi Hmj Hne2 Sf2 Lf2 Wu2 Au2 HG2) as (k2 & s2' & HK2 & Er2 & Su2 & _).
  rewrite lambda_fin in HK, HK2, Su, Su2.
  assert (NS : forall g j, @ltb_ ER (@breg_err ER n m (Z.to_nat mj) (Fin mu) (Fin (2 * mu)) g j) (Fin tol) = false) by (intros g j; by apply sqrt_ltb_nonpos).
  assert (k = Z.to_nat mi) as -> by (destruct HK as (_ & _ & [?|[_ H]]); [done|by rewrite NS in H]).
  assert (k2 = Z.to_nat mi) as -> by (destruct HK2 as (_ & _ & [?|[_ H]]); [done|by rewrite NS in H]).
  rewrite breg_at_fin in Su, Su2 by lra. cbn [bfin b_u] in Su, Su2.
  assert (Lf' : length f = (n * m)%nat) by (rewrite <- Lf; symmetry; apply map_length).
  destruct (@breg_at_len RN n m (Z.to_nat mj) mu (2 * mu) f (Z.to_nat mi) Lf') as (Lu & _).
  exists (b_u (@breg_at RN n m (Z.to_nat mj) mu (2 * mu) f (Z.to_nat mi))), s', s2'. split; [exact E|]. split; [exact Su|]. split; [exact Er2|]. split; [|exact Lu].
  rewrite E2. destruct (breg_at_shf n m mu (2 * mu) K Hn Hm Hmu ltac:(lra) (Z.to_nat mj) f (Z.to_nat mi) Lf') as (EU & _). rewrite EU in Su2. exact Su2.
Qed.
(** an image of 2 x 3 pixels and the same 100 brighter *)
Example C97_brightness_case : let f := [0; 0; 250; 0; 7; 0] in
  let s := @state_of ER [@full ER (map Fin f); @fresh ER 6] in let s2 := @state_of ER [@full ER (map (fun x => Fin (100 + x)) f); @fresh ER 6] in
  @breg_call ER 2 3 1 0 (map Fin f) 20 3 s /\ memory_granted s /\ @breg_call ER 2 3 1 0 (map (fun x => Fin (100 + x)) f) 20 3 s2 /\ memory_granted s2.
Proof.
  intros f s s2. split; [|split; [done|split; [|done]]].
  all: split; try done; try lia; [apply state_unborn|by apply (@state_of_seg ER)|by eapply (@state_of_wok ER)].
Qed.
