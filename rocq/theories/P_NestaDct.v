(** * The DCT transforms as the operators of l1c_nesta. *)
From Coq Require Import ZArith Lia Reals Lra Psatz.
From stdpp Require Import base numbers gmap list.
From Verif Require Import P_CG Globals Mem M_Math M_Memory M_Status M_FFTW M_Dct1 M_Dct2 M_Dct M_TVt M_Nesta P_Mem P_Loop P_Math P_MathR P_TVR P_Touch P_Step P_Memory P_Own P_Own2 P_Own3 P_Newton L_Sum S_Vec L_Lin L_ER S_Img S_Newt S_Dct L_Cos P_FFTW P_Dct1 P_Dct1s P_DctR P_Dct2 P_Dct2s P_Dct2R S_Mem S_Xform P_Xform S_DctApi P_Dct P_DctA P_DctE E_Op S_Nesta T_Dct T_Nesta L_Nesta P_Nesta P_Nesta2 P_Nesta3 P_NewtX T_DctLife T_TVt P_NestaTV T_L1qcDct.
Local Open Scope Z_scope.

Section generic.
Context `{N : Num}.
Context (fft1 : fkind -> list T -> list T) (fft2 : fkind -> nat -> nat -> list T -> list T).
Hypothesis fft1_len : forall k xs, length (fft1 k xs) = length xs.
Hypothesis fft2_len : forall k nr nc xs, length xs = (nr * nc)%nat -> length (fft2 k nr nc xs) = (nr * nc)%nat.
Implicit Types (s t : st).
Definition same (xs : list T) : list T := xs.
Lemma dct_nesta_ops s nr nc mode mb mo ms ax s1 : started s (Z.of_nat nr) (Z.of_nat nc) mode mb mo ms ax s1 ->
  let one := one_d (Z.of_nat nr) (Z.of_nat nc) mode in
  exists J, nesta_ops (M_TVt.call fft1 fft2) (nr * nc) (length ms) (nr * nc) (fA fft1 fft2 nr nc one ms) (fAt fft1 fft2 s nr nc one ms) same same (blocks s mb) J ax /\
    (forall t, hist (blocks s mb) (dct_ops fft1 fft2 ax (length ms) (nr * nc)) s1 t -> J t) /\
    (forall t t', J t -> hist (blocks s mb) (dct_ops fft1 fft2 ax (length ms) (nr * nc)) t t' -> J t') /\
    (forall t, J t -> exists t3, call_destroy (ax_destroy ax) t = Ok tt t3 /\ gone t t3 [nx s; nx s + 1; nx s + 2]%nat [nx s + 4; nx s + 3]%nat).
Proof.
  intros H. destruct (started_inv _ _ _ _ _ _ _ _ _ H) as [_ Hr Hc _ _ Hmade _ _]. cbv zeta. clear H.
  destruct Hmade as [m s1 Eo Em HC HJ|nr' nc' s1 Eo Er Ec HC HJ]; rewrite Eo.
  - assert (m = nr * nc)%nat as -> by lia. clear Em. set (c := cfg_of s mb mo (nr * nc) ms) in *.
    exists (J1 c). split_and!.
    + split; [exact (EMx_oper fft1 fft2 fft1_len c HC)|exact (MtEty_oper fft1 fft2 fft1_len c HC)|exact (Identity_oper c)|exact (Identity_oper c)| |nia].
      intros t t'. apply J1_same.
    + intros t. by apply (made1_hist fft1 fft2 fft1_len c HC s1 t).
    + intros t t' Ht. by apply (made1_hist fft1 fft2 fft1_len c HC t t').
    + intros t Ht. destruct (destroy1_J c t HC Ht) as (s3 & E & G); [cbn; lia|]. exists s3. split; [exact E|exact G].
  - assert (nr' = nr) as -> by lia. assert (nc' = nc) as -> by lia. clear Er Ec. set (c := cfg2_of s mb mo nr nc ms) in *.
    exists (J2 c). split_and!.
    + split; [exact (EMx2_oper fft1 fft2 fft2_len c HC)|exact (MtEty2_oper fft1 fft2 fft2_len c HC)|exact (Identity2_oper c HC)|exact (Identity2_oper c HC)| |nia].
      intros t t'. apply J2_same.
    + intros t. by apply (made2_hist fft1 fft2 fft2_len c HC s1 t).
    + intros t t' Ht. by apply (made2_hist fft1 fft2 fft2_len c HC t t').
    + intros t Ht. destruct (destroy2_J c t HC Ht) as (s3 & E & G); [cbn; lia|]. exists s3. split; [exact E|exact G].
Qed.
(** the scalar fields of the struct *)
Lemma dct_nesta_fields s nr nc mode mb mo ms ax s1 : started s (Z.of_nat nr) (Z.of_nat nc) mode mb mo ms ax s1 ->
  ax_n ax = Z.of_nat (length ms) /\ ax_m ax = Z.of_nat (nr * nc) /\ ax_p ax = Z.of_nat (nr * nc) /\ ax_q ax = Z.of_nat (nr * nc) /\ ax_norm_W ax = one /\ complete ax.
Proof.
  intros H. destruct (started_inv _ _ _ _ _ _ _ _ _ H) as [_ _ _ _ _ Hm _ _].
  assert (HC : forall a : AxFuns, fields_set a = true -> complete a) by (intros a; apply complete_fields).
  destruct Hm as [m s1 Eo Em HC1 HJ|nr' nc' s1 Eo Er Ec HC1 HJ].
  - assert (m = nr * nc)%nat as -> by lia. split_and!; try done. by apply HC.
  - assert (nr' = nr) as -> by lia. assert (nc' = nc) as -> by lia. split_and!; try done. by apply HC.
Qed.
End generic.

Local Open Scope R_scope.
Section exact.
Context (fft1 : fkind -> list er -> list er) (fft2 : fkind -> nat -> nat -> list er -> list er).
Context (H1 : forall k (x : list R), fft1 k (fin x) = fin (dft1 k x)).
Context (H2 : forall k nr nc (x : list R), length x = (nr * nc)%nat -> fft2 k nr nc (fin x) = fin (dft2 k nr nc x)).
Context (nr nc : nat) (Hr : (1 <= nr)%nat) (Hc : (1 <= nc)%nat) (mode : Z) (ms : list nat) (ND : NoDup ms) (Hms : forall k, k ∈ ms -> (k < nr * nc)%nat).
Notation one := (one_d (Z.of_nat nr) (Z.of_nat nc) mode).
Notation inv := (xf_inv (Z.of_nat nr) (Z.of_nat nc) mode).
Notation fwd := (xf_fwd (Z.of_nat nr) (Z.of_nat nc) mode).
Definition meas (z : list R) : list R := sample ms (inv z).
Definition meast (y : list R) : list R := fwd (spread (nr * nc) ms y).
Lemma meas_adj : adjoint (nr * nc) (length ms) meas meast.
Proof.
  split; [intros; apply fwd_len; done|]. intros x y Lx Ly. unfold meas, meast. rewrite (sample_adjoint (nr * nc)); [|done|by apply inv_len|done].
  destruct (xf_adj nr nc mode Hr Hc) as [_ Q]. apply Q; [done|apply vec_len].
Qed.
Lemma meas_unit : unit_rows (length ms) meas meast.
Proof. intros y Ly. unfold meas, meast. rewrite inv_fwd by (done || apply vec_len). by apply sample_spread. Qed.
Lemma dct_real (s : @st ER) : planner_zero s -> real_op (nr * nc) (length ms) (@fA ER fft1 fft2 nr nc one ms) (@fAt ER fft1 fft2 s nr nc one ms) meas meast.
Proof.
  intros HP. split.
  - by apply meas_lin.
  - apply meas_adj.
  - intros v Lv. by apply fA_fin.
  - intros v Lv. set (w := vec (nr * nc) (fun _ => 0)). assert (Lw : length w = (nr * nc)%nat) by apply vec_len.
    assert (Ew : @scr ER (en s) (nx s + 3) 0 (nr * nc) = fin w) by (apply tab_fin'; intros i _; apply HP).
    rewrite (fAt_fin fft1 fft2 H1 H2 nr nc Hr Hc mode s ms w v Lw Ew). unfold meast. do 2 f_equal. apply scatter_spread; try done.
    + nia.
    + intros j _. unfold w. destruct (Nat.lt_ge_cases j (nr * nc)) as [Hj|Hj]; [by rewrite (vec_nth _ (fun _ => 0))|].
      apply nth_overflow. by rewrite vec_len.
Qed.
End exact.
Lemma id_real k : real_op k k (@same ER) (@same ER) (fun v => v) (fun v => v).
Proof. split; try done. split; [done|]. intros a u v Lu Lv i Hi. rewrite nth_vlin by lia. lra. Qed.
