(** * The rate of the accelerated gradient iteration of NESTA, in exact arithmetic (Nesterov's estimate sequence). *)
From Coq Require Import Reals Lra Psatz Lia.
From stdpp Require Import base list.
From Verif Require Import L_Sum S_Vec L_Lin S_Newt P_NewtX P_NewtX2 L_Barrier S_Nesta L_Nesta.
Local Open Scope R_scope.
Local Notation sqrt := R_sqrt.sqrt.

(** ** the smoothed norm: convex, with a Lipschitz gradient *)
Section huber.
Context (mu : R) (Hmu : 0 < mu).
Lemma hub_lower w e : hub mu w + clip mu w * e <= hub mu (w + e).
Proof. pose proof (hub_max mu Hmu (w + e) (clip mu w) (clip_box mu Hmu w)) as Q. unfold hub at 1. lra. Qed.
Lemma hub_upper w e : hub mu (w + e) <= hub mu w + clip mu w * e + e * e / (2 * mu).
Proof.
  unfold hub. set (c := clip mu w). set (c' := clip mu (w + e)).
  assert (H1 : (c' - c) * (w - mu * c) <= 0).
  { assert (Hb : -1 <= c' <= 1) by (apply Rabs_le_inv, clip_box; done). unfold c. destruct (clip_cases mu Hmu w) as [[H ->]|[[H ->]|[H ->]]].
    - replace (w - mu * (w / mu)) with 0 by (field; lra). lra.
    - nra.
    - nra. }
  assert (H2 : (c' - c) * e - mu / 2 * ((c' - c) * (c' - c)) <= e * e / (2 * mu)).
  { apply (Rmult_le_reg_r (2 * mu)); [lra|]. replace (e * e / (2 * mu) * (2 * mu)) with (e * e) by (field; lra).
    pose proof (Rle_0_sqr (e - mu * (c' - c))) as Q. unfold Rsqr in Q. nra. }
  nra.
Qed.
Lemma hub_lip w v : hub mu w - hub mu v <= Rabs (w - v).
Proof.
  pose proof (hub_lower w (v - w)) as Q. replace (w + (v - w)) with v in Q by lra.
  assert (H : clip mu w * (w - v) <= Rabs (w - v)); [|lra]. eapply Rle_trans; [apply Rle_abs|]. rewrite Rabs_mult.
  pose proof (clip_box mu Hmu w). pose proof (Rabs_pos (w - v)). nra.
Qed.
End huber.

(** the squared distance *)
Definition dsq (x y : list R) : R := nrm2sq (vlin 1 x (-1) y).
Lemma dsq_nonneg x y : 0 <= dsq x y. Proof. apply nrm2sq_nonneg. Qed.
Lemma dsq_sym x y : length x = length y -> dsq x y = dsq y x.
Proof.
  intros E. unfold dsq, nrm2sq. rewrite !vlin_length, E. apply Rsum_ext. intros i Hi. rewrite !nth_vlin by lia. lra.
Qed.
Lemma dsq_0 x : dsq x x = 0.
Proof. unfold dsq, nrm2sq. rewrite !vlin_length. apply Rsum_0. intros i Hi. rewrite !nth_vlin by lia. lra. Qed.

Section rate.
Context (m n p : nat) (A B W V : list R -> list R) (b : list R) (sg L mu : R).
Context (HA : linmap m n A) (HB : adjoint m n A B) (HI : unit_rows n A B) (HW : linmap m p W) (HV : adjoint m p W V).
Context (Lb : length b = n) (Hsg : 0 < sg) (HL : 0 < L) (Hmu : 0 < mu).
Context (HN : forall v, length v = m -> nrm2sq (W v) <= L * nrm2sq v).
Notation Lm := (L / mu).
Definition fs (x : list R) : R := smooth mu (W x).
Definition gs (x : list R) : list R := V (clips mu (W x)).
Notation feas := (feasible A b sg).

Lemma Lm_pos : 0 < Lm. Proof. by apply Rdiv_lt_0_compat. Qed.
Lemma gs_len x : length x = m -> length (gs x) = m.
Proof. intros Lx. unfold gs. apply HV. unfold clips. rewrite map_length. by apply HW. Qed.
Lemma gs_dot x d : length x = m -> length d = m -> dot (gs x) d = Rsum p (fun i => clip mu (nth i (W x) 0) * nth i (W d) 0).
Proof.
  intros Lx Ld. pose proof (gs_len x Lx) as Lg. rewrite dot_sym by lia. unfold gs in *. assert (LW : length (W x) = p) by (by apply HW).
  assert (LWd : length (W d) = p) by (by apply HW). rewrite <- (proj2 HV) by (try done; unfold clips; by rewrite map_length).
  unfold dot. rewrite LWd. apply Rsum_ext. intros i Hi. rewrite nth_clips by lia. lra.
Qed.
Lemma W_diff x y i : length x = m -> length y = m -> (i < p)%nat -> nth i (W (vlin 1 y (-1) x)) 0 = nth i (W y) 0 - nth i (W x) 0.
Proof.
  intros Lx Ly Hi. rewrite (linmap_vlin m p) by done. rewrite nth_vlin by (rewrite (proj1 HW); done). lra.
Qed.
Lemma fs_lower x y : length x = m -> length y = m -> fs x + dot (gs x) (vlin 1 y (-1) x) <= fs y.
Proof.
  intros Lx Ly. assert (LWx : length (W x) = p) by (by apply HW). assert (LWy : length (W y) = p) by (by apply HW).
  rewrite gs_dot by (rewrite ?vlin_length; done). unfold fs, smooth. rewrite LWx, LWy, <- Rsum_plus. apply Rsum_le. intros i Hi.
  rewrite W_diff by done. pose proof (hub_lower mu Hmu (nth i (W x) 0) (nth i (W y) 0 - nth i (W x) 0)) as Q.
  replace (nth i (W x) 0 + (nth i (W y) 0 - nth i (W x) 0)) with (nth i (W y) 0) in Q by lra. done.
Qed.
Lemma fs_upper x y : length x = m -> length y = m -> fs y <= fs x + dot (gs x) (vlin 1 y (-1) x) + Lm / 2 * dsq y x.
Proof.
  intros Lx Ly. assert (LWx : length (W x) = p) by (by apply HW). assert (LWy : length (W y) = p) by (by apply HW).
  set (d := vlin 1 y (-1) x). assert (Ld : length d = m) by (unfold d; by rewrite vlin_length). assert (LWd : length (W d) = p) by (by apply HW).
  assert (H1 : fs y <= fs x + dot (gs x) d + nrm2sq (W d) / (2 * mu)).
  { rewrite gs_dot by done. unfold fs, smooth, nrm2sq, Rdiv. rewrite LWx, LWy, LWd, <- Rsum_scal_r, <- !Rsum_plus. apply Rsum_le. intros i Hi.
    unfold d. rewrite !W_diff by done. pose proof (hub_upper mu Hmu (nth i (W x) 0) (nth i (W y) 0 - nth i (W x) 0)) as Q.
    replace (nth i (W x) 0 + (nth i (W y) 0 - nth i (W x) 0)) with (nth i (W y) 0) in Q by lra. unfold Rdiv in Q. lra. }
  assert (H2 : nrm2sq (W d) / (2 * mu) <= Lm / 2 * dsq y x).
  { apply (Rmult_le_reg_r (2 * mu)); [lra|]. replace (nrm2sq (W d) / (2 * mu) * (2 * mu)) with (nrm2sq (W d)) by (field; lra).
    replace (Lm / 2 * dsq y x * (2 * mu)) with (L * dsq y x) by (field; lra). by apply HN. }
  lra.
Qed.
Lemma fs_lip x y : length x = m -> length y = m -> fs x - fs y <= sqrt (INR p * L) * sqrt (dsq x y).
Proof.
  intros Lx Ly. assert (LWx : length (W x) = p) by (by apply HW). assert (LWy : length (W y) = p) by (by apply HW).
  set (d := vlin 1 x (-1) y). assert (Ld : length d = m) by (unfold d; by rewrite vlin_length). assert (LWd : length (W d) = p) by (by apply HW).
  assert (H1 : fs x - fs y <= nrm1 (W d)).
  { unfold fs, smooth, nrm1. rewrite LWx, LWy, LWd, <- Rsum_minus. apply Rsum_le. intros i Hi. unfold d. rewrite W_diff by done. by apply hub_lip. }
  assert (H2 : nrm1 (W d) ^ 2 <= INR p * nrm2sq (W d)).
  { unfold nrm1, nrm2sq. rewrite LWd. pose proof (Rsum_CS p (fun _ => 1) (fun i => Rabs (nth i (W d) 0))) as Q. cbv beta in Q.
    rewrite (Rsum_ext p (fun i => 1 * Rabs (nth i (W d) 0)) (fun i => Rabs (nth i (W d) 0))) in Q by (intros; lra).
    rewrite (Rsum_ext p (fun _ => 1 ^ 2) (fun _ => 1)) in Q by (intros; lra). rewrite Rsum_const, Rmult_1_r in Q.
    rewrite (Rsum_ext p (fun i => Rabs (nth i (W d) 0) ^ 2) (fun i => nth i (W d) 0 ^ 2)) in Q by (intros; apply pow2_abs). done. }
  pose proof (pos_INR p) as Hp. assert (H3 : nrm1 (W d) ^ 2 <= INR p * L * dsq x y).
  { eapply Rle_trans; [exact H2|]. rewrite Rmult_assoc. apply Rmult_le_compat_l; [done|]. by apply HN. }
  eapply Rle_trans; [exact H1|]. rewrite <- sqrt_mult by (try apply dsq_nonneg; nra).
  assert (0 <= nrm1 (W d)) by (apply Rsum_nonneg; intros; apply Rabs_pos).
  rewrite <- (sqrt_pow2 (nrm1 (W d))) by done. apply sqrt_le_1_alt. done.
Qed.
Lemma fs_convex a x c y : 0 <= a -> 0 <= c -> a + c = 1 -> length x = m -> length y = m -> fs (vlin a x c y) <= a * fs x + c * fs y.
Proof.
  intros Ha Hc E Lx Ly. set (z := vlin a x c y). assert (Lz : length z = m) by (unfold z; by rewrite vlin_length).
  pose proof (fs_lower z x Lz Lx) as H1. pose proof (fs_lower z y Lz Ly) as H2. pose proof (gs_len z Lz) as Lg.
  rewrite dot_vlin_r in H1, H2 by lia.
  assert (E1 : dot (gs z) z = a * dot (gs z) x + c * dot (gs z) y) by (unfold z at 2; rewrite dot_vlin_r by lia; done).
  assert (a * (fs z + (1 * dot (gs z) x + -1 * dot (gs z) z)) <= a * fs x) by (by apply Rmult_le_compat_l).
  assert (c * (fs z + (1 * dot (gs z) y + -1 * dot (gs z) z)) <= c * fs y) by (by apply Rmult_le_compat_l).
  replace c with (1 - a) in * by lra. nra.
Qed.

(** ** the estimate sequence.  After k iterations from xo: x is the current point, G the sum of the weighted gradients. *)
Definition wk (k : nat) : R := INR k * (INR k + 1) / 4.
Definition est (xo : list R) (k : nat) (x G : list R) : Prop := exists (c : R) (y z : list R),
  length y = m /\ length z = m /\ length G = m /\ feas y /\ feas z /\
  x = vlin (2 / (INR k + 2)) z (1 - 2 / (INR k + 2)) y /\
  (forall v, length v = m -> c + dot G v <= wk k * fs v) /\
  (forall v, length v = m -> feas v -> wk k * fs y + Lm / 2 * dsq v z <= Lm / 2 * dsq v xo + c + dot G v).

Lemma est_start xo G : length xo = m -> length G = m -> (forall i, (i < m)%nat -> nth i G 0 = 0) -> feas xo -> est xo 0 xo G.
Proof.
  intros Lx LG Z F. assert (E : forall v, length v = m -> dot G v = 0).
  { intros v Lv. unfold dot. apply Rsum_0. intros i Hi. rewrite Z by lia. lra. }
  exists 0, xo, xo. do 5 (split; [done|]). split; [|split].
  - apply (list_eq_nth m); rewrite ?vlin_length; try done. intros i Hi. rewrite nth_vlin by lia. cbn [INR]. lra.
  - intros v Lv. rewrite E by done. unfold wk. cbn [INR]. lra.
  - intros v Lv _. rewrite E by done. unfold wk. cbn [INR]. lra.
Qed.
Lemma est_len xo k x G : est xo k x G -> length x = m /\ length G = m.
Proof. intros (c & y & z & Ly & Lz & LG & _ & _ & -> & _). by rewrite vlin_length. Qed.

Definition yk (x : list R) : list R := pr_v A B b sg Lm x (gs x).
Definition Gk (k : nat) (x G : list R) : list R := vlin ((INR k + 1) / 2) (gs x) 1 G.
Definition zk (xo G : list R) : list R := pr_v A B b sg Lm xo G.
Definition xk (k : nat) (z y : list R) : list R := vlin (2 / (INR k + 3)) z (1 - 2 / (INR k + 3)) y.

Lemma est_step xo k x G : length xo = m -> est xo k x G ->
  est xo (S k) (xk k (zk xo (Gk k x G)) (yk x)) (Gk k x G).
Proof.
  intros Lo He. destruct (est_len _ _ _ _ He) as [Lx _]. destruct He as (c & y & z & Ly & Lz & LG & Fy & Fz & Ex & Hlow & Hup).
  pose proof Lm_pos as HLm. pose proof (gs_len x Lx) as Lg. pose proof (pos_INR k) as Hk.
  set (al := (INR k + 1) / 2). set (G' := Gk k x G). set (y' := yk x). set (z' := zk xo G').
  assert (LG' : length G' = m) by (unfold G', Gk; by rewrite vlin_length).
  assert (Ly' : length y' = m) by (by apply (pr_len m n A B b sg Lm HA)).
  assert (Lz' : length z' = m) by (by apply (pr_len m n A B b sg Lm HA)).
  assert (Fy' : feas y') by (by apply (pr_feasible m n A B b sg Lm)).
  assert (Fz' : feas z') by (by apply (pr_feasible m n A B b sg Lm)).
  assert (EG : forall v, length v = m -> dot G' v = al * dot (gs x) v + dot G v).
  { intros v Lv. unfold G', Gk. rewrite dot_vlin_l by lia. fold al. lra. }
  set (c' := c + al * (fs x - dot (gs x) x)).
  assert (Ew : wk (S k) = wk k + al) by (unfold wk, al; rewrite S_INR; field).
  assert (Hal : 0 < al) by (unfold al; lra). assert (Hw : 0 <= wk k) by (unfold wk; nra).
  assert (Hlin : forall v, length v = m -> dot (gs x) (vlin 1 v (-1) x) = dot (gs x) v - dot (gs x) x).
  { intros v Lv. rewrite dot_vlin_r by lia. lra. }
  exists c', y', z'. do 5 (split; [done|]). split; [|split].
  - unfold xk. rewrite S_INR. replace (INR k + 1 + 2) with (INR k + 3) by lra. done.
  - intros v Lv. rewrite EG by done. pose proof (Hlow v Lv) as H1. pose proof (fs_lower x v Lx Lv) as H2. rewrite Hlin in H2 by done.
    rewrite Ew. unfold c'. nra.
  - intros v Lv Fv. pose proof (pr_min m n A B b sg Lm HA HB HI Lb Hsg HLm xo G' v Lo LG' Lv Fv) as Hmin. fold z' in Hmin. fold (zk xo G') in Hmin. fold z' in Hmin.
    unfold prox in Hmin. fold (dsq z' xo) in Hmin. fold (dsq v z') in Hmin. fold (dsq v xo) in Hmin.
    assert (Hs : wk (S k) * fs y' <= Lm / 2 * dsq z' xo + c' + dot G' z'); [|lra].
    pose proof (Hup z' Lz' Fz') as H1. rewrite EG by done.
    set (t := 2 / (INR k + 2)) in *. assert (Ht : 0 < t <= 1).
    { unfold t. split; [apply Rdiv_lt_0_compat; lra|]. apply (Rmult_le_reg_r (INR k + 2)); [lra|]. unfold Rdiv. rewrite Rmult_assoc, Rinv_l by lra. lra. }
    set (u := vlin t z' (1 - t) y). assert (Lu : length u = m) by (unfold u; by rewrite vlin_length).
    assert (Fu : feas u) by (apply (feasible_convex m n); try done; lra).
    pose proof (pr_min m n A B b sg Lm HA HB HI Lb Hsg HLm x (gs x) u Lx Lg Lu Fu) as H2. fold (yk x) in H2. fold y' in H2. unfold prox in H2.
    fold (dsq y' x) in H2. fold (dsq u y') in H2. fold (dsq u x) in H2. pose proof (dsq_nonneg u y') as Hd.
    pose proof (fs_upper x y' Lx Ly') as H3. rewrite Hlin in H3 by done. pose proof (fs_lower x y Lx Ly) as H4. rewrite Hlin in H4 by done.
    assert (Eu : dot (gs x) u = t * dot (gs x) z' + (1 - t) * dot (gs x) y) by (unfold u; rewrite dot_vlin_r by lia; done).
    assert (Ed : dsq u x = t * t * dsq z' z).
    { unfold dsq, nrm2sq. rewrite !vlin_length, Lz'. unfold u at 1. rewrite vlin_length, Lz'. rewrite <- Rsum_scal. apply Rsum_ext. intros i Hi. rewrite (nth_vlin 1 u), (nth_vlin 1 z') by lia.
      rewrite Ex. unfold u. rewrite !nth_vlin by lia. ring. }
    assert (Eal : t * wk (S k) = al) by (unfold t, wk, al; rewrite S_INR; field; lra).
    assert (Ett : wk (S k) * (t * t) <= 1).
    { replace (wk (S k) * (t * t)) with (t * wk (S k) * t) by ring. rewrite Eal. unfold al, t. apply (Rmult_le_reg_r (INR k + 2)); [lra|].
      replace ((INR k + 1) / 2 * (2 / (INR k + 2)) * (INR k + 2)) with (INR k + 1) by (field; lra). lra. }
    assert (HW' : 0 <= wk (S k)) by lra.
    assert (S1 : wk (S k) * fs y' <= wk (S k) * (fs x + (dot (gs x) u - dot (gs x) x) + Lm / 2 * dsq u x)).
    { apply Rmult_le_compat_l; [done|]. assert (0 <= Lm / 2 * dsq u y') by (apply Rmult_le_pos; lra). lra. }
    assert (S2 : wk (S k) * (Lm / 2 * dsq u x) <= Lm / 2 * dsq z' z).
    { rewrite Ed. pose proof (dsq_nonneg z' z) as Hz. assert (Hq : 0 <= Lm / 2 * dsq z' z) by (apply Rmult_le_pos; lra).
      replace (wk (S k) * (Lm / 2 * (t * t * dsq z' z))) with (wk (S k) * (t * t) * (Lm / 2 * dsq z' z)) by ring. nra. }
    assert (S3 : wk k * (fs x + (dot (gs x) y - dot (gs x) x)) <= wk k * fs y) by (by apply Rmult_le_compat_l).
    assert (S4 : wk (S k) * dot (gs x) u = al * dot (gs x) z' + wk k * dot (gs x) y).
    { rewrite Eu, Rmult_plus_distr_l, <- !Rmult_assoc. rewrite (Rmult_comm _ t), Eal. f_equal. f_equal. replace (wk (S k) * (1 - t)) with (wk (S k) - t * wk (S k)) by ring. rewrite Eal, Ew. ring. }
    unfold c'. rewrite Ew in *. nra.
Qed.

(** ** the bounds *)
Lemma dsq_comb t z y v x : length z = m -> length y = m -> length v = m -> x = vlin t z (1 - t) y -> forall w, w = vlin t v (1 - t) y -> dsq x w = t * t * dsq v z.
Proof.
  intros Lz Ly Lv -> w ->. unfold dsq, nrm2sq. rewrite !vlin_length, Lz, Lv. rewrite <- Rsum_scal. apply Rsum_ext. intros i Hi.
  rewrite !nth_vlin by (rewrite ?vlin_length; lia). ring.
Qed.
(** the value at the returned point, against a feasible point that minimises the smoothed objective *)
Lemma est_rate xo k x G v : length xo = m -> est xo k x G -> (1 <= k)%nat -> length v = m -> feas v ->
  (forall w, length w = m -> feas w -> fs v <= fs w) ->
  fs x - fs v <= 2 * sqrt (INR p * L) * sqrt (dsq v xo) / (INR k + 2) + 2 * Lm * dsq v xo / ((INR k + 1) * (INR k + 2)).
Proof.
  intros Lo He Hk Lv Fv Hv. destruct (est_len _ _ _ _ He) as [Lx _]. destruct He as (c & y & z & Ly & Lz & LG & Fy & Fz & Ex & Hlow & Hup).
  pose proof Lm_pos as HLm. assert (Hk1 : 1 <= INR k) by (by apply (le_INR 1)). set (K := INR k) in *.
  pose proof (Hup v Lv Fv) as H1. pose proof (Hlow v Lv) as H2. pose proof (Hv y Ly Fy) as Hy. set (D := dsq v xo) in *. assert (HD : 0 <= D) by apply dsq_nonneg.
  assert (Hw : 0 < wk k) by (unfold wk; fold K; nra). 
  assert (Hz : dsq v z <= D). { assert (0 <= wk k * (fs y - fs v)) by (apply Rmult_le_pos; lra). apply (Rmult_le_reg_l (Lm / 2)); [lra|]. lra. }
  assert (Hyv : wk k * (fs y - fs v) <= Lm / 2 * D). { pose proof (dsq_nonneg v z). assert (0 <= Lm / 2 * dsq v z) by (apply Rmult_le_pos; lra). lra. }
  set (t := 2 / (K + 2)) in *. assert (Ht : 0 < t < 1).
  { unfold t. split; [apply Rdiv_lt_0_compat; lra|]. apply (Rmult_lt_reg_r (K + 2)); [lra|]. unfold Rdiv. rewrite Rmult_assoc, Rinv_l by lra. lra. }
  set (w := vlin t v (1 - t) y). assert (Lw : length w = m) by (unfold w; by rewrite vlin_length).
  pose proof (fs_lip x w Lx Lw) as H3. rewrite (dsq_comb t z y v x Lz Ly Lv Ex w eq_refl) in H3.
  rewrite (sqrt_mult (t * t)) in H3 by (try apply dsq_nonneg; nra). rewrite sqrt_square in H3 by lra.
  assert (H4 : fs w <= t * fs v + (1 - t) * fs y) by (apply fs_convex; try done; lra).
  assert (H5 : sqrt (dsq v z) <= sqrt D) by (by apply sqrt_le_1_alt).
  assert (H6 : fs y - fs v <= 2 * Lm * D / (K * (K + 1))).
  { apply (Rmult_le_reg_l (wk k)); [done|]. eapply Rle_trans; [exact Hyv|]. apply Req_le. unfold wk. fold K. field. lra. }
  assert (H7 : fs x - fs v <= sqrt (INR p * L) * (t * sqrt (dsq v z)) + (1 - t) * (fs y - fs v)) by lra.
  eapply Rle_trans; [exact H7|]. apply Rplus_le_compat.
  - replace (2 * sqrt (INR p * L) * sqrt D / (K + 2)) with (sqrt (INR p * L) * (t * sqrt D)) by (unfold t; field; lra).
    apply Rmult_le_compat_l; [apply sqrt_pos|]. apply Rmult_le_compat_l; lra.
  - replace (2 * Lm * D / ((K + 1) * (K + 2))) with ((1 - t) * (2 * Lm * D / (K * (K + 1)))) by (unfold t; field; lra).
    apply Rmult_le_compat_l; lra.
Qed.
End rate.
