(** * The DCT operators on finite vectors of extended reals. *)
From Coq Require Import ZArith Lia Reals Lra.
From stdpp Require Import base numbers list.
From Verif Require Import Globals Mem M_Math M_FFTW P_Mem P_Loop P_Math P_TVR P_FFTW P_Dct1 P_Dct1s P_Dct2 P_Dct2s L_Sum S_Vec L_Lin L_ER S_Newt S_Nesta P_NewtX S_Dct L_Cos P_DctR P_Dct2R S_DctApi P_DctA T_Dct.
Local Open Scope R_scope.
Local Notation sqrt := R_sqrt.sqrt.

Lemma two_E : @two ER = Fin 2. Proof. unfold two, ofZ. cbn. f_equal. lra. Qed.
Lemma sqrt2_E : @sqrt_ ER two = Fin (sqrt 2). Proof. rewrite two_E. apply sqrt_fin. lra. Qed.
Lemma sqrt2_RN : @sqrt_ RN two = sqrt 2. Proof. rewrite two_RN. done. Qed.
Lemma insert_fin i (v : R) (x : list R) : <[i := Fin v]> (fin x) = fin (<[i := v]> x).
Proof. unfold fin. symmetry. exact (list_fmap_insert Fin x i v). Qed.
Lemma scatter_fin ms (y e : list R) : @scatter ER ms (@at_ ER (fin y)) (fin e) = fin (@scatter RN ms (@at_ RN y) e).
Proof.
  unfold scatter. unfold upd_of. generalize (length ms). intros n. induction n as [|n IH]; [done|]. cbn [foldi].
  rewrite IH. rewrite at_fin. apply insert_fin.
Qed.

Section one.
Context (fft1 : fkind -> list er -> list er) (Hfft : forall k (x : list R), fft1 k (fin x) = fin (dft1 k x)).
Lemma idct_fin x : @idct_of ER fft1 (fin x) = fin (@idct_of RN dft1 x).
Proof. unfold idct_of. rewrite at_fin, sqrt2_E. change (@sqrt_ RN two) with (sqrt (@two RN)). rewrite <- (sqrt2_RN). rewrite <- Hfft. f_equal. apply insert_fin. Qed.
Lemma mx_fin r m x : @mx_of ER fft1 (Fin r) m (fin x) = fin (@mx_of RN dft1 r m x).
Proof. apply tab_fin'. intros i _. by rewrite idct_fin, at_fin. Qed.
Lemma emx_fin r ms x : @emx_of ER fft1 (Fin r) ms (fin x) = fin (@emx_of RN dft1 r ms x).
Proof. apply tab_fin'. intros i _. by rewrite idct_fin, at_fin. Qed.
Lemma mty_fin r m y : @mty_of ER fft1 (Fin r) m (fin y) = fin (@mty_of RN dft1 r m y).
Proof.
  apply tab_fin'. intros i _. rewrite Hfft, sqrt2_E, !at_fin, sqrt2_RN. destruct (i =? 0)%nat; [|done].
  cbn [div ER]. rewrite div_fin by apply sqrt2_neq. done.
Qed.
Lemma mtety_fin r m ms e0 y : @mtety_of ER fft1 (Fin r) m ms (fin e0) (fin y) = fin (@mtety_of RN dft1 r m ms e0 y).
Proof. unfold mtety_of. by rewrite scatter_fin, mty_fin. Qed.
Lemma root1_E m : (1 <= m)%nat -> @root1 ER (Z.of_nat m) = Fin (@root1 RN (Z.of_nat m)).
Proof.
  intros Hm. rewrite root1_R by done. unfold root1. rewrite two_E. assert (P : 0 < INR m) by (apply lt_0_INR; lia).
  change (@one ER) with (Fin (1 / 1)). unfold ofZ. cbn [lit ER mul div er_mul]. rewrite <- INR_IZR_INZ. rewrite div_fin by lra. cbn [sqrt_ ER].
  assert (Q : 1 / 1 / (INR m / 1 * 2) = 1 / (2 * INR m)) by (field; lra). rewrite Q.
  apply sqrt_fin. apply Rlt_le, Rdiv_lt_0_compat; lra.
Qed.
End one.
Section two.
Context (fft2 : fkind -> nat -> nat -> list er -> list er) (nr nc : nat).
Context (Hfft : forall k (x : list R), length x = (nr * nc)%nat -> fft2 k nr nc (fin x) = fin (dft2 k nr nc x)).
Lemma scale2_fin c v x : @scale2_of ER nr nc (Fin c) (Fin v) (fin x) = fin (@scale2_of RN nr nc c v x).
Proof. apply tab_fin'. intros i _. rewrite !at_fin. by repeat case_match. Qed.
Lemma before2_fin x : @before2_of ER nr nc (fin x) = fin (@before2_of RN nr nc x).
Proof. unfold before2_of. rewrite at_fin, sqrt2_E, sqrt2_RN, two_E, two_RN. apply scale2_fin. Qed.
Lemma after2_fin x : @after2_of ER nr nc (fin x) = fin (@after2_of RN nr nc x).
Proof.
  unfold after2_of. rewrite at_fin, sqrt2_E, sqrt2_RN. change (@one ER) with (Fin (1 / 1)). cbn [div ER]. rewrite div_fin by apply sqrt2_neq.
  apply scale2_fin.
Qed.
Lemma idct2_fin x : @idct2_of ER fft2 nr nc (fin x) = fin (@idct2_of RN dft2 nr nc x).
Proof. unfold idct2_of. rewrite before2_fin. apply Hfft. exact (@scale2_len RN _ _ _ _ _). Qed.
Lemma mx2_fin r x : @mx2_of ER fft2 nr nc (Fin r) (fin x) = fin (@mx2_of RN dft2 nr nc r x).
Proof. apply tab_fin'. intros i _. by rewrite idct2_fin, at_fin. Qed.
Lemma emx2_fin r ms x : @emx2_of ER fft2 nr nc (Fin r) ms (fin x) = fin (@emx2_of RN dft2 nr nc r ms x).
Proof. apply tab_fin'. intros i _. by rewrite idct2_fin, at_fin. Qed.
Lemma mtety2_fin r ms (e0 : list R) y : length e0 = (nr * nc)%nat -> @mtety2_of ER fft2 nr nc (Fin r) ms (fin e0) (fin y) = fin (@mtety2_of RN dft2 nr nc r ms e0 y).
Proof.
  intros Le. unfold mtety2_of, back2_of. rewrite <- after2_fin. f_equal. apply tab_fin'. intros i _. rewrite scatter_fin.
  rewrite Hfft by (by rewrite (@scatter_len RN)). by rewrite at_fin.
Qed.
Lemma root2_E : (1 <= nr)%nat -> (1 <= nc)%nat -> @root2 ER (Z.of_nat nr) (Z.of_nat nc) = Fin (@root2 RN (Z.of_nat nr) (Z.of_nat nc)).
Proof.
  intros Hr Hc. unfold root2, ofZ. cbn [lit ER RN mul div one er_mul].
  assert (P1 : 0 < INR nr) by (apply lt_0_INR; lia). assert (P2 : 0 < INR nc) by (apply lt_0_INR; lia).
  rewrite <- !INR_IZR_INZ. change (@one ER) with (Fin (1 / 1)). change (@one RN) with (1 / 1).
  assert (P3 : 0 < INR nr / 1 * (INR nc / 1) * (4 / 1)) by (repeat apply Rmult_lt_0_compat; lra).
  rewrite div_fin by lra. cbn [sqrt_ ER RN]. apply sqrt_fin. apply Rlt_le. apply Rdiv_lt_0_compat; lra.
Qed.
End two.

Section api.
Context (fft1 : fkind -> list er -> list er) (fft2 : fkind -> nat -> nat -> list er -> list er).
Context (H1 : forall k (x : list R), fft1 k (fin x) = fin (dft1 k x)).
Context (H2 : forall k nr nc (x : list R), length x = (nr * nc)%nat -> fft2 k nr nc (fin x) = fin (dft2 k nr nc x)).
Context (nr nc : nat) (Hr : (1 <= nr)%nat) (Hc : (1 <= nc)%nat) (mode : Z).
Notation one := (one_d (Z.of_nat nr) (Z.of_nat nc) mode).
Notation inv := (xf_inv (Z.of_nat nr) (Z.of_nat nc) mode).
Notation fwd := (xf_fwd (Z.of_nat nr) (Z.of_nat nc) mode).
Lemma xf_inv_eq x : inv x = if one then dct_inv (nr * nc) x else dct2_inv nr nc x.
Proof. unfold xf_inv. rewrite !Nat2Z.id. replace (Z.to_nat (Z.of_nat nr * Z.of_nat nc)) with (nr * nc)%nat by lia. by destruct one. Qed.
Lemma xf_fwd_eq x : fwd x = if one then dct_fwd (nr * nc) x else dct2_fwd nr nc x.
Proof. unfold xf_fwd. rewrite !Nat2Z.id. replace (Z.to_nat (Z.of_nat nr * Z.of_nat nc)) with (nr * nc)%nat by lia. by destruct one. Qed.
Lemma fM_fin (s : @st ER) (x : list R) : length x = (nr * nc)%nat -> @fM ER fft1 fft2 s nr nc one (fin x) = fin (inv x).
Proof.
  intros Lx. rewrite xf_inv_eq. unfold fM. destruct one.
  - rewrite root1_E by nia. rewrite mx_fin by done. f_equal. apply mx_R; [nia|done].
  - rewrite root2_E by done. rewrite mx2_fin by auto. f_equal. by apply mx2_R.
Qed.
Lemma fA_fin ms (x : list R) : (forall k, k ∈ ms -> (k < nr * nc)%nat) -> length x = (nr * nc)%nat -> @fA ER fft1 fft2 nr nc one ms (fin x) = fin (sample ms (inv x)).
Proof.
  intros Hms Lx. rewrite xf_inv_eq. unfold fA. destruct one.
  - rewrite root1_E by nia. rewrite emx_fin by done. f_equal. apply emx_R; [nia|done|done].
  - rewrite root2_E by done. rewrite emx2_fin by auto. f_equal. by apply emx2_R.
Qed.
Lemma fAt_fin (s : @st ER) ms (e0 y : list R) : length e0 = (nr * nc)%nat -> @scr ER (en s) (nx s + 3) 0 (nr * nc) = fin e0 ->
  @fAt ER fft1 fft2 s nr nc one ms (fin y) = fin (fwd (@scatter RN ms (@at_ RN y) e0)).
Proof.
  intros Le Es. rewrite xf_fwd_eq. unfold fAt. rewrite Es.
  assert (Ls : length (@scatter RN ms (@at_ RN y) e0) = (nr * nc)%nat) by (by rewrite (@scatter_len RN)).
  destruct one.
  - rewrite root1_E by nia. rewrite mtety_fin by done. f_equal. unfold mtety_of. apply mty_R; [nia|exact Ls].
  - rewrite root2_E by done. rewrite mtety2_fin by auto. f_equal. unfold mtety2_of, back2_of. apply fwd2_R; [done|done|]. intros i Hi'. rewrite tab_vec, (vec_nth _ (fun j => _)) by done. rewrite at_RN. cbn [mul RN]. apply Rmult_comm.
Qed.
(** sampling what was scattered *)
Lemma sample_scatter ms (e0 y : list R) : NoDup ms -> (forall k, k ∈ ms -> (k < nr * nc)%nat) -> length e0 = (nr * nc)%nat -> length y = length ms ->
  sample ms (inv (fwd (@scatter RN ms (@at_ RN y) e0))) = y.
Proof.
  intros ND Hms Le Ly. destruct (xf_inv_m nr nc mode) as (D & E1 & E2 & HD). destruct (HD Hr Hc) as [HD1 HD2].
  assert (Ls : length (@scatter RN ms (@at_ RN y) e0) = (nr * nc)%nat) by (by rewrite (@scatter_len RN)).
  rewrite E1, E2, minv_mfwd by done. apply (list_eq_nth (length ms)); [apply vec_len|done|]. intros i Hi. rewrite sample_nth by done.
  rewrite <- at_RN. rewrite (@scatter_in RN); [apply at_RN|done|done|].
  assert (Hk : (nth i ms 0 < nr * nc)%nat) by (apply Hms, elem_of_list_In, nth_In; done). change (nth i ms 0 < @length R e0)%nat. by rewrite Le.
Qed.
Lemma inv_fwd y : length y = (nr * nc)%nat -> inv (fwd y) = y.
Proof. intros Hy. destruct (xf_inv_m nr nc mode) as (D & E1 & E2 & HD). destruct (HD Hr Hc) as [HD1 HD2]. rewrite E1, E2. by apply minv_mfwd. Qed.
Lemma fwd_inv x : length x = (nr * nc)%nat -> fwd (inv x) = x.
Proof. intros Hy. destruct (xf_inv_m nr nc mode) as (D & E1 & E2 & HD). destruct (HD Hr Hc) as [HD1 HD2]. rewrite E1, E2. by apply mfwd_minv. Qed.
Lemma inv_len x : length (inv x) = (nr * nc)%nat.
Proof. destruct (xf_inv_m nr nc mode) as (D & E1 & _). rewrite E1. apply vec_len. Qed.
Lemma fwd_len x : length (fwd x) = (nr * nc)%nat.
Proof. destruct (xf_inv_m nr nc mode) as (D & _ & E1 & _). rewrite E1. apply vec_len. Qed.
Lemma meas_lin ms : (forall k, k ∈ ms -> (k < nr * nc)%nat) -> linmap (nr * nc) (length ms) (fun x => sample ms (inv x)).
Proof.
  intros Hms. destruct (xf_inv_m nr nc mode) as (D & E1 & _). split; [intros u _; apply vec_len|]. intros a u v Hu Hv i Hi. rewrite !E1.
  by apply (meas_linmap (nr * nc) D ms Hms).
Qed.
End api.
