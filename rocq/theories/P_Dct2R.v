(** * The two-dimensional transform in exact arithmetic. *)
From Coq Require Import ZArith Lia Reals Lra Psatz.
From stdpp Require Import base list.
From Verif Require Import Globals Mem M_Math P_Mem P_Loop P_Math P_MathR P_TVR L_Sum S_Vec L_Lin S_Newt S_Nesta S_Dct L_Cos P_NewtX P_Own P_FFTW P_Dct1 P_Dct1s P_DctR P_Dct2 P_Dct2s.
Local Open Scope R_scope.
Local Notation sqrt := R_sqrt.sqrt.

Definition w0 (k : nat) : R := if Nat.eqb k 0 then sqrt 2 else 1.
Definition v0 (k : nat) : R := if Nat.eqb k 0 then 1 / sqrt 2 else 1.
Definition rt (n : nat) : R := sqrt (1 / (2 * INR n)).
Lemma dctm_01 n k j : (1 <= n)%nat -> dctm n k j = rt n * redft REDFT01 n j k * w0 k.
Proof.
  intros H. unfold dctm, redft, w0, rt. destruct (Nat.eqb_spec k 0) as [->|].
  - rewrite <- root_sqrt2 by done. ring.
  - rewrite <- root_2 by done. replace (PI * INR k * (INR j + 1 / 2) / INR n) with (PI * (INR j + 1 / 2) * INR k / INR n) by (unfold Rdiv; ring). ring.
Qed.
Lemma dctm_10 n k j : (1 <= n)%nat -> dctm n k j = rt n * redft REDFT10 n k j * v0 k.
Proof.
  intros H. unfold dctm, redft, v0, rt. destruct (Nat.eqb_spec k 0) as [->|].
  - rewrite <- root_dsqrt2 by done. simpl (INR 0). rewrite Rmult_0_r. unfold Rdiv at 4. rewrite Rmult_0_l, cos_0. unfold Rdiv. ring.
  - rewrite <- root_2 by done. ring.
Qed.
Lemma root2_R nr nc : (1 <= nr)%nat -> (1 <= nc)%nat -> @root2 RN (Z.of_nat nr) (Z.of_nat nc) = rt nr * rt nc.
Proof.
  intros Hr Hc. assert (0 < INR nr) by (apply lt_0_INR; lia). assert (0 < INR nc) by (apply lt_0_INR; lia).
  unfold root2, rt. rewrite !ofZ_RN', one_RN, <- !INR_IZR_INZ. cbn [sqrt_ div mul RN].
  rewrite <- sqrt_mult by (apply Rlt_le, Rdiv_lt_0_compat; lra). f_equal. field. lra.
Qed.
Lemma dft2_len k nr nc x : length (dft2 k nr nc x) = (nr * nc)%nat. Proof. apply vec_len. Qed.
Lemma dft2_nth k nr nc x i : (i < nr * nc)%nat -> nth i (dft2 k nr nc x) 0 =
  Rsum nr (fun a => Rsum nc (fun b => redft k nr (i / nc) a * redft k nc (i mod nc) b * nth (a * nc + b) x 0)).
Proof. intros H. by apply (vec_nth _ (fun i => _)). Qed.

Ltac eqR := match goal with |- @eq _ ?a ?b => change (@eq R a b) end.
Section link.
Context (nr nc : nat) (Hr : (1 <= nr)%nat) (Hc : (1 <= nc)%nat).
Notation r := (@root2 RN (Z.of_nat nr) (Z.of_nat nc)).
Lemma scale2_R (c v : R) (f : nat -> R) (xs : list R) k l : (forall i, f i = if Nat.eqb i 0 then c else 1) -> v = c * c * nth 0 xs 0 ->
  (k < nr)%nat -> (l < nc)%nat -> nth (k * nc + l) (@scale2_of RN nr nc c v xs) 0 = f k * f l * nth (k * nc + l) xs 0.
Proof.
  intros Hf Hv Hk Hl. destruct (div_rc nc k l Hl) as [Ed Em]. unfold scale2_of. rewrite tab_vec, (vec_nth _ (fun k => _)) by nia.
  rewrite !at_RN, Em, !Hf. cbn [mul RN]. destruct (Nat.eqb_spec (k * nc + l) 0) as [E|E].
  - assert (k = 0 /\ l = 0)%nat as [-> ->] by nia. rewrite E. simpl. rewrite Hv. eqR. ring.
  - destruct (Nat.eqb_spec k 0) as [->|Hk0].
    + destruct (Nat.ltb_spec (0 * nc + l) nc); [|lia]. destruct (Nat.eqb_spec l 0); [lia|]. cbn [orb]. eqR. ring.
    + destruct (Nat.ltb_spec (k * nc + l) nc); [nia|]. destruct (Nat.eqb_spec l 0); cbn [orb]; eqR; ring.
Qed.
Lemma before2_R (xs : list R) k l : (k < nr)%nat -> (l < nc)%nat -> nth (k * nc + l) (@before2_of RN nr nc xs) 0 = w0 k * w0 l * nth (k * nc + l) xs 0.
Proof.
  intros. unfold before2_of. rewrite two_RN. apply (scale2_R (sqrt 2)); try done. rewrite at_RN. cbn [mul RN].
  rewrite sqrt_def by lra. eqR. ring.
Qed.
Lemma after2_R (xs : list R) k l : (k < nr)%nat -> (l < nc)%nat -> nth (k * nc + l) (@after2_of RN nr nc xs) 0 = v0 k * v0 l * nth (k * nc + l) xs 0.
Proof.
  intros. unfold after2_of. rewrite one_RN, two_RN. apply scale2_R; try done.
  rewrite at_RN. cbn [mul lit RN]. change (@sqrt_ RN 2) with (sqrt 2). change (@div RN 1 (sqrt 2)) with (1 / sqrt 2). pose proof sqrt2_neq. pose proof (sqrt_def 2 ltac:(lra)) as E.
  replace (1 / sqrt 2 * (1 / sqrt 2)) with (1 / 2); [lra|]. rewrite <- E at 1. field. done.
Qed.
Lemma idct2_R (xs : list R) i : length xs = (nr * nc)%nat -> (i < nr * nc)%nat -> r * nth i (@idct2_of RN dft2 nr nc xs) 0 =
  Rsum nr (fun k => Rsum nc (fun l => dctm nr k (i / nc) * dctm nc l (i mod nc) * nth (k * nc + l) xs 0)).
Proof.
  intros Lx Hi. unfold idct2_of. rewrite dft2_nth by done. rewrite root2_R by done.
  rewrite <- Rsum_scal. apply Rsum_ext. intros k Hk. rewrite <- Rsum_scal. apply Rsum_ext. intros l Hl.
  rewrite before2_R by done. rewrite !dctm_01 by done. ring.
Qed.
Lemma mx2_R (xs : list R) : length xs = (nr * nc)%nat -> @mx2_of RN dft2 nr nc r xs = dct2_inv nr nc xs.
Proof. intros Lx. unfold mx2_of, dct2_inv. rewrite tab_vec. apply vec_ext. intros i Hi. rewrite at_RN. by apply idct2_R. Qed.
Lemma emx2_R mask (xs : list R) : length xs = (nr * nc)%nat -> (forall k, k ∈ mask -> (k < nr * nc)%nat) -> @emx2_of RN dft2 nr nc r mask xs = sample mask (dct2_inv nr nc xs).
Proof.
  intros Lx Hk. unfold emx2_of, sample. rewrite tab_vec. apply vec_ext. intros i Hi.
  assert (nth i mask 0 < nr * nc)%nat by (apply Hk, elem_of_list_In, nth_In; done).
  unfold dct2_inv. rewrite (vec_nth _ (fun j => _)) by done. rewrite at_RN. cbn [mul RN]. rewrite Rmult_comm. by apply idct2_R.
Qed.
Lemma fwd2_R (zs ys : list R) : (forall i, (i < nr * nc)%nat -> nth i zs 0 = r * nth i (dft2 REDFT10 nr nc ys) 0) ->
  @after2_of RN nr nc zs = dct2_fwd nr nc ys.
Proof.
  intros Hz. apply (list_eq_nth (nr * nc)); [by apply (@scale2_len RN)|apply vec_len|]. intros i Hi.
  destruct (rc_bound nr nc i Hi) as (_ & Hd & Hm). assert (Ei : i = (i / nc * nc + i mod nc)%nat) by (pose proof (Nat.div_mod i nc ltac:(lia)); lia).
  rewrite Ei at 1. rewrite after2_R by done. rewrite <- Ei. rewrite Hz by done. rewrite dft2_nth by done.
  unfold dct2_fwd. rewrite (vec_nth _ (fun j => _)) by done. rewrite root2_R by done.
  rewrite <- Rsum_scal, <- Rsum_scal. apply Rsum_ext. intros k Hk. rewrite <- Rsum_scal, <- Rsum_scal. apply Rsum_ext. intros l Hl.
  rewrite !(dctm_10 _ _ _) by done. ring.
Qed.
Lemma mty2_R (ys : list R) : length ys = (nr * nc)%nat -> @mty2_of RN dft2 nr nc r ys = dct2_fwd nr nc ys.
Proof.
  intros Ly. apply fwd2_R. intros i Hi. unfold scal_of. rewrite tab_vec, (vec_nth _ (fun j => _)) by done. by rewrite at_RN.
Qed.
Lemma mtety2_R mask (e0 ys : list R) : NoDup mask -> (forall k, k ∈ mask -> (k < nr * nc)%nat) -> length e0 = (nr * nc)%nat ->
  (forall j, j ∉ mask -> nth j e0 0 = 0) -> @mtety2_of RN dft2 nr nc r mask e0 ys = dct2_fwd nr nc (spread (nr * nc) mask ys).
Proof.
  intros ND Hk Le H0. unfold mtety2_of. assert (Hm : (1 <= nr * nc)%nat) by nia. rewrite (scatter_spread (nr * nc)) by done. apply fwd2_R.
  intros i Hi. rewrite tab_vec, (vec_nth _ (fun j => _)) by done. rewrite at_RN. cbn [mul RN]. eqR. ring.
Qed.
End link.
