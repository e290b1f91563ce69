(** * The DCT-TV operators on finite vectors of extended reals. *)
From Coq Require Import ZArith Lia Reals Lra.
From stdpp Require Import base numbers list.
From Verif Require Import Globals Mem M_Math M_FFTW P_Mem P_Loop P_Math P_TV P_TVR P_FFTW P_Dct1 P_Dct1s P_Dct2 P_Dct2s L_Sum S_Vec L_Lin L_ER S_Newt S_Nesta P_NewtX S_Dct L_Cos P_DctR P_Dct2R S_DctApi S_TVtApi P_DctA P_TVt P_TVs P_TVa P_TVuR T_Dct T_TVt P_DctE.
Local Open Scope R_scope.
Local Notation sqrt := R_sqrt.sqrt.

Lemma exactE mrow mcol mode : @exact_mode ER mrow mcol mode.
Proof.
  right. intros v. rewrite sqrt2_E. assert (H : 0 < sqrt 2) by (apply sqrt_lt_R0; lra). destruct v as [r| | |]; cbn [mul div ER er_mul].
  - rewrite div_fin by lra. f_equal. field. lra.
  - unfold er_infmul. destruct (Req_EM_T (sqrt 2) 0); [lra|]. destruct (Rlt_dec 0 (sqrt 2)); [|lra]. cbn [er_div]. destruct (Rle_dec 0 (sqrt 2)); [done|lra].
  - unfold er_infmul. destruct (Req_EM_T (sqrt 2) 0); [lra|]. destruct (Rlt_dec 0 (sqrt 2)); [|lra]. cbn [er_div er_opp]. destruct (Rle_dec 0 (sqrt 2)); [done|lra].
  - done.
Qed.
Lemma ltb_zero_E (a : R) : @ltb_ ER (@zero ER) (Fin a) = @ltb_ RN (@zero RN) a.
Proof. done. Qed.
Lemma psize_E nr nc (av ah : R) : @psize ER nr nc (Fin av) (Fin ah) = @psize RN nr nc av ah. Proof. done. Qed.
Lemma slice_fin m k x : @slice ER m k (fin x) = fin (@slice RN m k x).
Proof. apply tab_fin'. intros i _. by rewrite at_fin. Qed.
Lemma Dy_fin nr nc (a : R) x : @Dy_of ER nr nc (Fin a) (fin x) = fin (@Dy_of RN nr nc a x).
Proof. apply tab_fin'. intros i _. rewrite !at_fin. by case_match. Qed.
Lemma DyT_fin nr nc (a : R) x : @DyT_of ER nr nc (Fin a) (fin x) = fin (@DyT_of RN nr nc a x).
Proof. apply tab_fin'. intros i _. rewrite !at_fin. by repeat case_match. Qed.
Lemma Dx_fin nr nc (a : R) x : @Dx_of ER nr nc (Fin a) (fin x) = fin (@Dx_of RN nr nc a x).
Proof. apply tab_fin'. intros i _. unfold ddiff_at. rewrite !at_fin. by repeat case_match. Qed.
Lemma DxT_fin nr nc (a : R) x : @DxT_of ER nr nc (Fin a) (fin x) = fin (@DxT_of RN nr nc a x).
Proof. apply tab_fin'. intros i _. unfold ddiffT_at. rewrite !at_fin. by repeat case_match. Qed.
Lemma app_fin x y : fin x ++ fin y = fin (x ++ y). Proof. unfold fin. by rewrite fmap_app. Qed.
Lemma W_fin nr nc (av ah : R) (M : list er -> list er) (Mr : list R -> list R) v : (forall w, length w = (nr * nc)%nat -> M (fin w) = fin (Mr w)) ->
  @W_of ER M nr nc (Fin av) (Fin ah) (fin v) = fin (@W_of RN Mr nr nc av ah v).
Proof.
  intros HM. unfold W_of, W1_of, W0_of, inch, incv. rewrite !ltb_zero_E, !slice_fin. rewrite HM by exact (@tab_length RN _ _). rewrite one_ER.
  destruct (@ltb_ RN _ av), (@ltb_ RN _ ah); rewrite ?slice_fin, ?Dy_fin, ?Dx_fin, ?axpy_fin; done.
Qed.
Lemma Wt_fin nr nc (av ah : R) (M : list er -> list er) (Mr : list R -> list R) x : M (fin x) = fin (Mr x) ->
  @Wt_of ER M nr nc (Fin av) (Fin ah) (fin x) = fin (@Wt_of RN Mr nr nc av ah x).
Proof.
  intros HM. unfold Wt_of. rewrite !ltb_zero_E, HM. destruct (@ltb_ RN _ av), (@ltb_ RN _ ah); rewrite ?DyT_fin, ?DxT_fin, ?app_fin, ?app_nil_r; try done; apply app_fin.
Qed.
Lemma tR_fin ms x : @tR ER ms (fin x) = fin (@tR RN ms x).
Proof. apply tab_fin'. intros i _. by rewrite at_fin. Qed.
Lemma tRt_fin nr nc ms d y : @tRt ER nr nc ms (fin d) (fin y) = fin (@tRt RN nr nc ms d y).
Proof. unfold tRt. rewrite <- scatter_fin. f_equal. apply tab_fin'. intros i _. by rewrite at_fin. Qed.

Section api.
Context (fft1 : fkind -> list er -> list er) (fft2 : fkind -> nat -> nat -> list er -> list er).
Context (H1 : forall k (x : list R), fft1 k (fin x) = fin (dft1 k x)).
Context (H2 : forall k nr nc (x : list R), length x = (nr * nc)%nat -> fft2 k nr nc (fin x) = fin (dft2 k nr nc x)).
Context (nr nc : nat) (Hr : (1 <= nr)%nat) (Hc : (1 <= nc)%nat) (mode : Z).
Notation one := (one_d (Z.of_nat nr) (Z.of_nat nc) mode).
Notation inv := (xf_inv (Z.of_nat nr) (Z.of_nat nc) mode).
Notation fwd := (xf_fwd (Z.of_nat nr) (Z.of_nat nc) mode).
Lemma tM_fin sb x : length x = (nr * nc)%nat -> @tM ER fft1 fft2 nr nc mode sb (fin x) = fin (inv x).
Proof. intros Lx. unfold tM. by apply fM_fin. Qed.
Lemma tMt_fin x : length x = (nr * nc)%nat -> @tMt ER fft1 fft2 nr nc mode (fin x) = fin (fwd x).
Proof.
  intros Lx. unfold tMt, fMt. rewrite xf_fwd_eq by done. unfold one1. destruct one.
  - rewrite root1_E by nia. rewrite mty_fin by done. f_equal. apply mty_R; [nia|done].
  - rewrite root2_E by done. rewrite <- (mty2_R nr nc Hr Hc x Lx). unfold mty2_of. rewrite <- after2_fin. f_equal. apply tab_fin'. intros i _. rewrite H2 by done. by rewrite at_fin.
Qed.
(** the dictionary and its transpose *)
Lemma W_E sb (av ah : R) v : @W_of ER (@tM ER fft1 fft2 nr nc mode sb) nr nc (Fin av) (Fin ah) (fin v) = fin (dict inv nr nc av ah v).
Proof.
  rewrite (W_fin _ _ _ _ _ inv) by (intros; by apply tM_fin). f_equal. apply W_R; [done|intros w _; apply xf_len].
Qed.
Lemma Wt_E (av ah : R) x : (0 < ah -> (3 <= nc)%nat) -> length x = (nr * nc)%nat ->
  @Wt_of ER (@tMt ER fft1 fft2 nr nc mode) nr nc (Fin av) (Fin ah) (fin x) = fin (dictT fwd nr nc av ah x).
Proof. intros Hb Lx. rewrite (Wt_fin _ _ _ _ _ fwd) by (by apply tMt_fin). f_equal. by apply Wt_R. Qed.
Lemma R_E ms x : @tR ER ms (fin x) = fin (sample ms x).
Proof. rewrite tR_fin. f_equal. apply tR_R. Qed.
Lemma Rt_E ms d y : NoDup ms -> length y = length ms -> (forall k, k ∈ ms -> (k < nr * nc)%nat) -> @tRt ER nr nc ms (fin d) (fin y) = fin (spread (nr * nc) ms y).
Proof. intros ND Ly Hms. rewrite tRt_fin. f_equal. apply tRt_R; try done. nia. Qed.
End api.
