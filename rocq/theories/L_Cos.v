(** * The discrete cosine transform is orthonormal. *)
From Coq Require Import Reals Lra Lia List.
From Verif Require Import Globals L_Sum S_Vec S_Dct.
Local Open Scope R_scope.

Lemma sin_INR_PI d : sin (PI * INR d) = 0.
Proof.
  induction d as [|d IH]; [simpl; rewrite Rmult_0_r; apply sin_0|].
  rewrite S_INR. replace (PI * (INR d + 1)) with (PI * INR d + PI) by ring. rewrite neg_sin, IH. ring.
Qed.
Lemma cos_INR_PI d : cos (PI * INR d) = (-1) ^ d.
Proof.
  induction d as [|d IH]; [simpl; rewrite Rmult_0_r; apply cos_0|].
  rewrite S_INR. replace (PI * (INR d + 1)) with (PI * INR d + PI) by ring. rewrite neg_cos, IH. simpl. ring.
Qed.
(** sum of cos((j + 1/2) t) *)
Lemma cos_half_sum n t : 2 * sin (t / 2) * Rsum n (fun j => cos ((INR j + 1/2) * t)) = sin (INR n * t).
Proof.
  induction n as [|n IH]; [simpl; rewrite Rmult_0_l, sin_0; ring|].
  cbn [Rsum]. rewrite Rmult_plus_distr_l, IH, S_INR.
  replace (INR n * t) with ((INR n + 1/2) * t - t / 2) by field.
  replace ((INR n + 1) * t) with ((INR n + 1/2) * t + t / 2) by field.
  rewrite sin_minus, sin_plus. ring.
Qed.
(** 1 + 2 sum_{k=1}^{n} cos(k t) *)
Lemma cos_int_sum n t : sin (t / 2) * (1 + 2 * Rsum n (fun k => cos ((INR k + 1) * t))) = sin ((INR n + 1/2) * t).
Proof.
  induction n as [|n IH]. { simpl. replace ((0 + 1/2) * t) with (t / 2) by field. ring. }
  cbn [Rsum]. rewrite S_INR.
  replace (sin (t / 2) * (1 + 2 * (Rsum n (fun k => cos ((INR k + 1) * t)) + cos ((INR n + 1) * t))))
    with (sin (t / 2) * (1 + 2 * Rsum n (fun k => cos ((INR k + 1) * t))) + 2 * sin (t / 2) * cos ((INR n + 1) * t)) by ring.
  rewrite IH.
  replace ((INR n + 1/2) * t) with ((INR n + 1) * t - t / 2) by field.
  replace ((INR n + 1 + 1/2) * t) with ((INR n + 1) * t + t / 2) by field.
  rewrite sin_minus, sin_plus. ring.
Qed.
Lemma half_sin_pos n d : (0 < d < 2 * n)%nat -> 0 < sin (PI * INR d / INR n / 2).
Proof.
  intros Hd. assert (0 < INR n) by (apply lt_0_INR; lia). assert (0 < INR d) by (apply lt_0_INR; lia).
  assert (Hlt : INR d < 2 * INR n). { replace 2 with (INR 2) by (simpl; ring). rewrite <- mult_INR. apply lt_INR. lia. }
  pose proof PI_RGT_0. apply sin_gt_0.
  - apply Rdiv_lt_0_compat; [|lra]. apply Rdiv_lt_0_compat; [|lra]. apply Rmult_lt_0_compat; lra.
  - apply Rmult_lt_reg_r with (2 * INR n); [lra|].
    replace (PI * INR d / INR n / 2 * (2 * INR n)) with (PI * INR d) by (field; lra). nra.
Qed.
(** the sum over the half-integer points *)
Definition S1 n d := Rsum n (fun j => cos (PI * (INR j + 1/2) * INR d / INR n)).
Lemma S1_0 n : S1 n 0 = INR n.
Proof.
  unfold S1. rewrite (Rsum_ext n _ (fun _ => 1)).
  - rewrite Rsum_const. ring.
  - intros j _. simpl (INR 0). replace (PI * (INR j + 1/2) * 0 / INR n) with 0 by (unfold Rdiv; ring). apply cos_0.
Qed.
Lemma S1_pos n d : (0 < d < 2 * n)%nat -> S1 n d = 0.
Proof.
  intros Hd. assert (0 < INR n) by (apply lt_0_INR; lia).
  pose proof (half_sin_pos n d Hd) as Hs. pose proof (cos_half_sum n (PI * INR d / INR n)) as E.
  replace (INR n * (PI * INR d / INR n)) with (PI * INR d) in E by (field; lra). rewrite sin_INR_PI in E.
  replace (S1 n d) with (Rsum n (fun j => cos ((INR j + 1/2) * (PI * INR d / INR n)))).
  - apply Rmult_integral in E as [E|E]; [lra|assumption]. 
  - apply Rsum_ext. intros j _. f_equal. field. lra.
Qed.
(** the sum over the integer points 1 .. n-1 *)
Definition S2 n d := Rsum (n - 1) (fun k => cos (PI * (INR k + 1) * INR d / INR n)).
Lemma S2_0 n : (1 <= n)%nat -> S2 n 0 = INR n - 1.
Proof.
  intros Hn. unfold S2. rewrite (Rsum_ext (n - 1) _ (fun _ => 1)).
  - rewrite Rsum_const, minus_INR by lia. simpl. ring.
  - intros j _. simpl (INR 0). replace (PI * (INR j + 1) * 0 / INR n) with 0 by (unfold Rdiv; ring). apply cos_0.
Qed.
Lemma S2_pos n d : (0 < d < 2 * n)%nat -> 1 + 2 * S2 n d = - (-1) ^ d.
Proof.
  intros Hd. assert (0 < INR n) by (apply lt_0_INR; lia).
  pose proof (half_sin_pos n d Hd) as Hs. pose proof (cos_int_sum (n - 1) (PI * INR d / INR n)) as E.
  rewrite minus_INR in E by lia. simpl (INR 1) in E.
  replace ((INR n - 1 + 1/2) * (PI * INR d / INR n)) with (PI * INR d - PI * INR d / INR n / 2) in E by (field; lra).
  rewrite sin_minus, sin_INR_PI, cos_INR_PI in E.
  replace (S2 n d) with (Rsum (n - 1) (fun k => cos ((INR k + 1) * (PI * INR d / INR n)))).
  - apply Rmult_eq_reg_l with (sin (PI * INR d / INR n / 2)); [|lra]. rewrite E. ring.
  - apply Rsum_ext. intros j _. f_equal. field. lra.
Qed.
Lemma cos_prod a b : cos a * cos b = (cos (a - b) + cos (a + b)) / 2.
Proof. rewrite cos_minus, cos_plus. field. Qed.
Lemma cos_absdiff t k l : cos (t * INR k - t * INR l) = cos (t * INR (if (l <=? k)%nat then k - l else l - k)).
Proof.
  destruct (Nat.leb_spec l k).
  - rewrite minus_INR by lia. f_equal. ring.
  - rewrite minus_INR by lia. rewrite <- cos_neg. f_equal. ring.
Qed.
Lemma sqrt_sq a b : 0 <= a -> 0 <= b -> sqrt a * sqrt b = sqrt (a * b).
Proof. intros. now rewrite sqrt_mult. Qed.

(** the rows are orthonormal *)
Lemma dctm_rows n k l : (k < n)%nat -> (l < n)%nat ->
  Rsum n (fun j => dctm n k j * dctm n l j) = if Nat.eqb k l then 1 else 0.
Proof.
  intros Hk Hl. assert (Hn : 0 < INR n) by (apply lt_0_INR; lia).
  assert (H1 : 0 <= 1 / INR n) by (apply Rlt_le, Rdiv_lt_0_compat; lra).
  assert (H2 : 0 <= 2 / INR n) by (apply Rlt_le, Rdiv_lt_0_compat; lra).
  assert (C0 : forall l, (0 < l < n)%nat -> Rsum n (fun j => sqrt (1 / INR n) * (sqrt (2 / INR n) * cos (PI * (INR j + 1/2) * INR l / INR n))) = 0).
  { intros l' Hl'. rewrite (Rsum_scal n), (Rsum_scal n). fold (S1 n l'). rewrite S1_pos by lia. ring. }
  unfold dctm. destruct (Nat.eqb_spec k 0) as [->|Hk0], (Nat.eqb_spec l 0) as [->|Hl0].
  - rewrite Rsum_const, sqrt_def by assumption. simpl. field. lra.
  - destruct (Nat.eqb_spec 0 l); [lia|]. apply C0. lia.
  - destruct (Nat.eqb_spec k 0); [lia|]. rewrite <- (C0 k) by lia. apply Rsum_ext. intros j _. ring.
  - rewrite (Rsum_ext n _ (fun j => 1 / INR n * (cos (PI * (INR j + 1/2) * INR (if (l <=? k)%nat then k - l else l - k) / INR n) + cos (PI * (INR j + 1/2) * INR (k + l) / INR n)))).
    2:{ intros j _. set (t := PI * (INR j + 1/2) / INR n).
        replace (PI * (INR j + 1/2) * INR k / INR n) with (t * INR k) by (unfold t; field; lra).
        replace (PI * (INR j + 1/2) * INR l / INR n) with (t * INR l) by (unfold t; field; lra).
        replace (PI * (INR j + 1/2) * INR (if (l <=? k)%nat then k - l else l - k) / INR n) with (t * INR (if (l <=? k)%nat then k - l else l - k)) by (unfold t; field; lra).
        replace (PI * (INR j + 1/2) * INR (k + l) / INR n) with (t * INR k + t * INR l) by (rewrite plus_INR; unfold t; field; lra).
        rewrite <- cos_absdiff.
        replace (sqrt (2 / INR n) * cos (t * INR k) * (sqrt (2 / INR n) * cos (t * INR l))) with (sqrt (2 / INR n) * sqrt (2 / INR n) * (cos (t * INR k) * cos (t * INR l))) by ring.
        rewrite sqrt_def, cos_prod by assumption. field. lra. }
    rewrite Rsum_scal, Rsum_plus. fold (S1 n (if (l <=? k)%nat then k - l else l - k)%nat). fold (S1 n (k + l)).
    rewrite (S1_pos n (k + l)) by lia. destruct (Nat.eqb_spec k l) as [->|Hne].
    + rewrite Nat.leb_refl, Nat.sub_diag, S1_0. field. lra.
    + rewrite S1_pos by (destruct (Nat.leb_spec l k); lia). ring.
Qed.
(** the columns are orthonormal *)
Lemma pow_m1_SS d : (-1) ^ (S d) = - (-1) ^ d. Proof. simpl. ring. Qed.
Lemma pow_m1_par a b : (-1) ^ (a + b + b) = (-1) ^ a.
Proof. induction b as [|b IH]; [f_equal; lia|]. replace (a + S b + S b)%nat with (S (S (a + b + b))) by lia. rewrite !pow_m1_SS, IH. ring. Qed.
Lemma dctm_cols n i j : (i < n)%nat -> (j < n)%nat ->
  Rsum n (fun k => dctm n k i * dctm n k j) = if Nat.eqb i j then 1 else 0.
Proof.
  intros Hi Hj. assert (Hn : 0 < INR n) by (apply lt_0_INR; lia).
  assert (H1 : 0 <= 1 / INR n) by (apply Rlt_le, Rdiv_lt_0_compat; lra).
  assert (H2 : 0 <= 2 / INR n) by (apply Rlt_le, Rdiv_lt_0_compat; lra).
  replace n with (S (n - 1)) at 1 by lia. rewrite Rsum_S_l. unfold dctm at 1 2. cbn [Nat.eqb].
  rewrite sqrt_def by assumption.
  set (d := (if (j <=? i)%nat then i - j else j - i)%nat).
  rewrite (Rsum_ext (n - 1) _ (fun k => 1 / INR n * (cos (PI * (INR k + 1) * INR d / INR n) + cos (PI * (INR k + 1) * INR (i + j + 1) / INR n)))).
  2:{ intros k _. unfold dctm. cbn [Nat.eqb]. rewrite S_INR. set (t := PI * (INR k + 1) / INR n).
      replace (PI * (INR i + 1/2) * (INR k + 1) / INR n) with (t * INR i + t / 2) by (unfold t; field; lra).
      replace (PI * (INR j + 1/2) * (INR k + 1) / INR n) with (t * INR j + t / 2) by (unfold t; field; lra).
      replace (PI * (INR k + 1) * INR d / INR n) with (t * INR d) by (unfold t; field; lra).
      replace (PI * (INR k + 1) * INR (i + j + 1) / INR n) with (t * INR i + t / 2 + (t * INR j + t / 2)) by (rewrite !plus_INR; simpl; unfold t; field; lra).
      unfold d. rewrite <- cos_absdiff.
      replace (t * INR i - t * INR j) with (t * INR i + t / 2 - (t * INR j + t / 2)) by ring.
      set (a := t * INR i + t / 2). set (b := t * INR j + t / 2).
      replace (sqrt (2 / INR n) * cos a * (sqrt (2 / INR n) * cos b)) with (sqrt (2 / INR n) * sqrt (2 / INR n) * (cos a * cos b)) by ring.
      rewrite sqrt_def, cos_prod by assumption. field. lra. }
  rewrite Rsum_scal, Rsum_plus. fold (S2 n d). fold (S2 n (i + j + 1)).
  pose proof (S2_pos n (i + j + 1) ltac:(lia)) as E2.
  destruct (Nat.eqb_spec i j) as [->|Hne].
  - replace d with 0%nat by (unfold d; rewrite Nat.leb_refl; lia). rewrite S2_0 by lia.
    replace (j + j + 1)%nat with (1 + j + j)%nat in * by lia. rewrite pow_m1_par in E2. rewrite pow_1 in E2.
    replace (S2 n (1 + j + j)) with 0 by lra. field. lra.
  - pose proof (S2_pos n d ltac:(unfold d; destruct (Nat.leb_spec j i); lia)) as E1.
    assert (EP : (-1) ^ (i + j + 1) = - (-1) ^ d).
    { unfold d. destruct (Nat.leb_spec j i).
      - replace (i + j + 1)%nat with (S (i - j) + j + j)%nat by lia. rewrite pow_m1_par. apply pow_m1_SS.
      - replace (i + j + 1)%nat with (S (j - i) + i + i)%nat by lia. rewrite pow_m1_par. apply pow_m1_SS. }
    rewrite EP in E2. replace (S2 n d + S2 n (i + j + 1)) with (-1) by lra. field. lra.
Qed.

(** two dimensions: the product matrix, with row-major index k = k1 * nc + k2 *)
Definition dctm2 (nr nc k j : nat) : R := dctm nr (k / nc) (j / nc) * dctm nc (k mod nc) (j mod nc).
Lemma div_rc nc i j : (j < nc)%nat -> ((i * nc + j) / nc = i /\ (i * nc + j) mod nc = j)%nat.
Proof.
  intros Hj. split.
  - symmetry. apply (Nat.div_unique _ nc i j); lia.
  - symmetry. apply (Nat.mod_unique _ nc i j); lia.
Qed.
Lemma kron_sum nr nc (A B : nat -> nat -> R) k :
  Rsum (nr * nc) (fun j => A k (j / nc)%nat * B k (j mod nc)%nat) = Rsum nr (fun i => A k i) * Rsum nc (fun j => B k j).
Proof.
  rewrite Rsum_rows, Rsum_mult. apply Rsum_ext. intros i Hi. apply Rsum_ext. intros j Hj.
  destruct (div_rc nc i j Hj) as [-> ->]. reflexivity.
Qed.
Lemma rc_eqb nc k l : (0 < nc)%nat -> (Nat.eqb (k / nc) (l / nc) && Nat.eqb (k mod nc) (l mod nc))%bool = Nat.eqb k l.
Proof.
  intros Hn. destruct (Nat.eqb_spec k l) as [->|Hne]; [now rewrite !Nat.eqb_refl|].
  destruct (Nat.eqb_spec (k / nc) (l / nc)) as [E1|]; [|reflexivity]. destruct (Nat.eqb_spec (k mod nc) (l mod nc)) as [E2|]; [|reflexivity].
  exfalso. apply Hne. rewrite (Nat.div_mod k nc), (Nat.div_mod l nc) by lia. now rewrite E1, E2.
Qed.
Lemma rc_bound nr nc k : (k < nr * nc)%nat -> (0 < nc)%nat /\ (k / nc < nr)%nat /\ (k mod nc < nc)%nat.
Proof.
  intros H. assert (0 < nc)%nat by (destruct nc; lia). repeat split; [assumption| |apply Nat.mod_upper_bound; lia].
  apply Nat.div_lt_upper_bound; lia.
Qed.
Lemma b2R_mul (b c : bool) : (if b then 1 else 0) * (if c then 1 else 0) = if (b && c)%bool then 1 else 0.
Proof. destruct b, c; simpl; ring. Qed.
Lemma dctm2_rows nr nc k l : (k < nr * nc)%nat -> (l < nr * nc)%nat ->
  Rsum (nr * nc) (fun j => dctm2 nr nc k j * dctm2 nr nc l j) = if Nat.eqb k l then 1 else 0.
Proof.
  intros Hk Hl. destruct (rc_bound _ _ _ Hk) as (Hn & K1 & K2), (rc_bound _ _ _ Hl) as (_ & L1 & L2).
  rewrite (Rsum_ext _ _ (fun j => (dctm nr (k / nc) (j / nc) * dctm nr (l / nc) (j / nc)) * (dctm nc (k mod nc) (j mod nc) * dctm nc (l mod nc) (j mod nc)))) by (intros; unfold dctm2; ring).
  rewrite (kron_sum nr nc (fun _ i => dctm nr (k / nc) i * dctm nr (l / nc) i) (fun _ j => dctm nc (k mod nc) j * dctm nc (l mod nc) j) 0).
  rewrite !dctm_rows, b2R_mul, rc_eqb by assumption. reflexivity.
Qed.
Lemma dctm2_cols nr nc i j : (i < nr * nc)%nat -> (j < nr * nc)%nat ->
  Rsum (nr * nc) (fun k => dctm2 nr nc k i * dctm2 nr nc k j) = if Nat.eqb i j then 1 else 0.
Proof.
  intros Hk Hl. destruct (rc_bound _ _ _ Hk) as (Hn & K1 & K2), (rc_bound _ _ _ Hl) as (_ & L1 & L2).
  rewrite (Rsum_ext _ _ (fun k => (dctm nr (k / nc) (i / nc) * dctm nr (k / nc) (j / nc)) * (dctm nc (k mod nc) (i mod nc) * dctm nc (k mod nc) (j mod nc)))) by (intros; unfold dctm2; ring).
  rewrite (kron_sum nr nc (fun _ k => dctm nr k (i / nc) * dctm nr k (j / nc)) (fun _ k => dctm nc k (i mod nc) * dctm nc k (j mod nc)) 0).
  rewrite !dctm_cols, b2R_mul, rc_eqb by assumption. reflexivity.
Qed.

(** ** square matrices with orthonormal rows and columns, as maps on vectors *)
Definition mfwd (n : nat) (D : nat -> nat -> R) (y : list R) : list R := vec n (fun k => Rsum n (fun j => D k j * nth j y 0)).
Definition minv (n : nat) (D : nat -> nat -> R) (x : list R) : list R := vec n (fun j => Rsum n (fun k => D k j * nth k x 0)).
Lemma vec_len n f : length (vec n f) = n. Proof. unfold vec. now rewrite map_length, seq_length. Qed.
Lemma vec_nth n f i : (i < n)%nat -> nth i (vec n f) 0 = f i.
Proof.
  intros Hi. unfold vec. rewrite (nth_indep _ 0 (f 0%nat)) by now rewrite map_length, seq_length.
  rewrite map_nth, seq_nth by assumption. reflexivity.
Qed.
Lemma vec_ext n f g : (forall i, (i < n)%nat -> f i = g i) -> vec n f = vec n g.
Proof. intros H. unfold vec. apply map_ext_in. intros i Hi. apply in_seq in Hi. apply H. lia. Qed.
Lemma vec_self n (x : list R) : length x = n -> vec n (fun i => nth i x 0) = x.
Proof.
  intros <-. apply (nth_ext _ _ 0 0); [apply vec_len|]. intros i Hi. rewrite vec_len in Hi. now apply vec_nth.
Qed.
Lemma mat_id n D E x : (forall k j, (k < n)%nat -> (j < n)%nat -> Rsum n (fun l => D k l * E l j) = if Nat.eqb k j then 1 else 0) ->
  length x = n -> vec n (fun k => Rsum n (fun l => D k l * Rsum n (fun j => E l j * nth j x 0))) = x.
Proof.
  intros HO Hx. etransitivity; [|apply (vec_self n x Hx)]. apply vec_ext. intros k Hk.
  rewrite (Rsum_ext n _ (fun l => Rsum n (fun j => D k l * E l j * nth j x 0))).
  2:{ intros l _. rewrite <- Rsum_scal. apply Rsum_ext. intros; ring. }
  rewrite Rsum_swap. rewrite (Rsum_ext n _ (fun j => (if Nat.eqb k j then 1 else 0) * nth j x 0)).
  2:{ intros j Hj. rewrite Rsum_scal_r, HO by assumption. reflexivity. }
  rewrite (Rsum_single n _ k Hk).
  - rewrite Nat.eqb_refl. ring.
  - intros i _ Hne. destruct (Nat.eqb_spec k i); [lia|ring].
Qed.
Lemma mfwd_minv n D x : (forall k l, (k < n)%nat -> (l < n)%nat -> Rsum n (fun j => D k j * D l j) = if Nat.eqb k l then 1 else 0) ->
  length x = n -> mfwd n D (minv n D x) = x.
Proof.
  intros HR Hx. unfold mfwd, minv. etransitivity; [|apply (mat_id n D (fun l j => D j l) x); auto].
  apply vec_ext. intros k Hk. apply Rsum_ext. intros j Hj. now rewrite vec_nth.
Qed.
Lemma minv_mfwd n D x : (forall i j, (i < n)%nat -> (j < n)%nat -> Rsum n (fun k => D k i * D k j) = if Nat.eqb i j then 1 else 0) ->
  length x = n -> minv n D (mfwd n D x) = x.
Proof.
  intros HR Hx. unfold mfwd, minv. etransitivity; [|apply (mat_id n (fun l j => D j l) D x); auto].
  apply vec_ext. intros k Hk. apply Rsum_ext. intros j Hj. now rewrite vec_nth.
Qed.
(** the two maps are adjoint for the dot product *)
Lemma mat_adj n D x y : Rsum n (fun i => nth i (minv n D x) 0 * nth i y 0) = Rsum n (fun i => nth i x 0 * nth i (mfwd n D y) 0).
Proof.
  unfold minv, mfwd.
  rewrite (Rsum_ext n _ (fun i => Rsum n (fun k => D k i * nth k x 0 * nth i y 0))).
  2:{ intros i Hi. rewrite vec_nth by assumption. now rewrite <- Rsum_scal_r. }
  rewrite Rsum_swap. apply Rsum_ext. intros k Hk. rewrite vec_nth by assumption. rewrite <- Rsum_scal. apply Rsum_ext. intros; ring.
Qed.
Lemma dct2_fwd_m nr nc y : dct2_fwd nr nc y = mfwd (nr * nc) (dctm2 nr nc) y.
Proof.
  unfold dct2_fwd, mfwd. apply vec_ext. intros k Hk. rewrite Rsum_rows. apply Rsum_ext. intros i Hi. apply Rsum_ext. intros j Hj.
  unfold dctm2. destruct (div_rc nc i j Hj) as [-> ->]. reflexivity.
Qed.
Lemma dct2_inv_m nr nc y : dct2_inv nr nc y = minv (nr * nc) (dctm2 nr nc) y.
Proof.
  unfold dct2_inv, minv. apply vec_ext. intros k Hk. rewrite Rsum_rows. apply Rsum_ext. intros i Hi. apply Rsum_ext. intros j Hj.
  unfold dctm2. destruct (div_rc nc i j Hj) as [-> ->]. reflexivity.
Qed.
