(** * Extended reals: finite vectors, and how the kernels act on them. *)
From Coq Require Import ZArith Lia Reals Lra.
From stdpp Require Import base list.
From Verif Require Import Mem P_Mem P_Loop P_Math P_TVR.
Local Open Scope R_scope.

(** a vector of finite entries *)
Definition fin (v : list R) : list er := map Fin v.
Lemma fin_length v : length (fin v) = length v. Proof. apply map_length. Qed.
Lemma fin_inj u v : fin u = fin v -> u = v.
Proof.
  revert v. induction u as [|a u IH]; intros [|b v]; try done. intros H. inversion H as [[E1 E2]]. f_equal. by apply IH.
Qed.
Lemma at_fin v i : @at_ ER (fin v) i = Fin (@at_ RN v i).
Proof. unfold at_, fin. exact (map_nth Fin v (@zero RN) i). Qed.
Lemma tab_fin n (f : nat -> R) : @tab ER n (fun i => Fin (f i)) = fin (@tab RN n f).
Proof. unfold tab, fin. by rewrite <- list_fmap_compose. Qed.
Lemma tab_fin' n (f : nat -> er) (g : nat -> R) : (forall i, (i < n)%nat -> f i = Fin (g i)) -> @tab ER n f = fin (@tab RN n g).
Proof. intros H. rewrite <- tab_fin. by apply tab_ext. Qed.
Lemma axpy_fin n a u v : @axpy_of ER n (Fin a) (fin u) (fin v) = fin (@axpy_of RN n a u v).
Proof. apply tab_fin'. intros i _. by rewrite !at_fin. Qed.
Lemma axpby_fin n a u b v : @axpby_of ER n (Fin a) (fin u) (Fin b) (fin v) = fin (@axpby_of RN n a u b v).
Proof. apply tab_fin'. intros i _. by rewrite !at_fin. Qed.
Lemma xmuly_fin n u v : @xmuly_of ER n (fin u) (fin v) = fin (@xmuly_of RN n u v).
Proof. apply tab_fin'. intros i _. by rewrite !at_fin. Qed.
Lemma scal_fin n a u : @scal_of ER n (Fin a) (fin u) = fin (@scal_of RN n a u).
Proof. apply tab_fin'. intros i _. by rewrite !at_fin. Qed.
Lemma foldi_fin n (f : nat -> er -> er) (g : nat -> R -> R) a :
  (forall i x, (i < n)%nat -> f i (Fin x) = Fin (g i x)) -> foldi n f (Fin a) = Fin (foldi n g a).
Proof. intros H. induction n as [|n IH]; simpl; [done|]. rewrite IH by (intros; apply H; lia). apply H. lia. Qed.
Lemma dot_fin n u v : @dot_of ER n (fin u) (fin v) = Fin (@dot_of RN n u v).
Proof. apply (foldi_fin n). intros i x _. by rewrite !at_fin. Qed.
Lemma one_ER : @one ER = Fin (@one RN). Proof. done. Qed.
Lemma zero_ER : @zero ER = Fin (@zero RN). Proof. done. Qed.
Lemma div_fin (a b : R) : b <> 0 -> er_div (Fin a) (Fin b) = Fin (a / b).
Proof. intros H. simpl. by destruct (Req_EM_T b 0). Qed.
Lemma sqrt_fin (a : R) : 0 <= a -> er_sqrt (Fin a) = Fin (R_sqrt.sqrt a).
Proof. intros H. simpl. destruct (Rlt_dec a 0); [lra|done]. Qed.

(** not a finite number *)
Definition nonfin (e : er) : Prop := match e with Fin _ => False | _ => True end.
(** +Inf or NaN *)
Definition pnan (e : er) : Prop := match e with PInf | NaN => True | _ => False end.
Lemma pnan_sq e : nonfin e -> pnan (er_mul e e).
Proof. by destruct e. Qed.
Lemma nonfin_mul_l a b : nonfin a -> nonfin (er_mul a b).
Proof. destruct a, b; simpl; try done; unfold er_infmul; repeat case_match; done. Qed.
Lemma nonfin_add a b : nonfin a -> nonfin b -> nonfin (er_add a b).
Proof. destruct a, b; simpl; done. Qed.
Lemma nonfin_add_l a b : nonfin a -> nonfin (er_add a b).
Proof. destruct a, b; simpl; done. Qed.
Lemma nonfin_add_r a b : nonfin b -> nonfin (er_add a b).
Proof. destruct a, b; simpl; done. Qed.
Lemma nonfin_opp a : nonfin a -> nonfin (er_opp a).
Proof. by destruct a. Qed.
Lemma nonfin_div a b : pnan a -> nonfin (er_div a b).
Proof. destruct a, b; simpl; try done; repeat case_match; done. Qed.
Lemma ltb_pnan a r : pnan a -> er_ltb a (Fin r) = false.
Proof. by destruct a. Qed.

Definition fp (e : er) : Prop := match e with Fin _ | PInf | NaN => True | NInf => False end.
Lemma fp_sq a : fp (er_mul a a). Proof. by destruct a. Qed.
Lemma fp_add a b : fp a -> fp b -> fp (er_add a b). Proof. by destruct a, b. Qed.
Lemma pnan_fp_nonfin a : fp a -> nonfin a -> pnan a. Proof. by destruct a. Qed.
Lemma dot_self_fp n v : fp (@dot_of ER n v v).
Proof. unfold dot_of. induction n as [|n IH]; [done|]. cbn [foldi]. apply fp_add; [done|apply fp_sq]. Qed.
(** the squared length of a vector with a non-finite entry *)
Lemma dot_self_nonfin n v j : (j < n)%nat -> nonfin (@at_ ER v j) -> pnan (@dot_of ER n v v).
Proof.
  intros Hj Hv. apply pnan_fp_nonfin; [apply dot_self_fp|].
  unfold dot_of. induction n as [|n IH]; [lia|]. cbn [foldi]. destruct (decide (j = n)) as [->|].
  - apply nonfin_add_r. pose proof (pnan_sq _ Hv) as Hp. simpl in *. by destruct (er_mul _ _).
  - apply nonfin_add_l. apply IH. lia.
Qed.
Lemma er_add_nan_r a : er_add a NaN = NaN. Proof. by destruct a. Qed.
Lemma er_mul_nan_r a : er_mul a NaN = NaN. Proof. by destruct a. Qed.
Lemma dot_nan n u v j : (j < n)%nat -> @at_ ER u j = NaN -> @dot_of ER n u v = NaN.
Proof.
  intros Hj Hu. unfold dot_of. induction n as [|n IH]; [lia|]. cbn [foldi]. destruct (decide (j = n)) as [->|].
  - rewrite Hu. simpl. apply er_add_nan_r.
  - rewrite IH by lia. done.
Qed.
(** a sum of squares is a nonnegative number, +Inf or NaN *)
Definition nn (e : er) : Prop := match e with Fin r => 0 <= r | PInf | NaN => True | NInf => False end.
Lemma nn_sq a : nn (er_mul a a). Proof. destruct a; simpl; try done. apply Rle_0_sqr. Qed.
Lemma nn_add a b : nn a -> nn b -> nn (er_add a b). Proof. destruct a, b; simpl; try done. lra. Qed.
Lemma dot_self_nn n v : nn (@dot_of ER n v v).
Proof.
  unfold dot_of. induction n as [|n IH]; [simpl; lra|]. cbn [foldi]. apply nn_add; [done|apply nn_sq].
Qed.
Lemma nn_div0 a : nn a -> pnan (er_sqrt (er_div a (Fin 0))).
Proof.
  destruct a as [r| | |]; simpl; try done.
  - intros H. destruct (Req_EM_T 0 0); [|done]. destruct (Req_EM_T r 0); [done|]. destruct (Rlt_dec 0 r); [done|lra].
  - intros _. destruct (Rle_dec 0 0); [done|lra].
Qed.
Lemma ltb_pnan_l a b : pnan a -> er_ltb a b = false.
Proof. by destruct a, b. Qed.
