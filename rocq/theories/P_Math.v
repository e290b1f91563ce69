(** * Runs of the vector kernels, for every arithmetic. *)
From Coq Require Import ZArith Lia.
From stdpp Require Import base numbers gmap list.
From Verif Require Export P_Loop M_Math.
Local Open Scope Z_scope.

Section kern.
Context `{N : Num}.
Implicit Types (s : st) (p q x y z : ptr) (xs ys zs : list T).

(** results of the kernels as functions on lists *)
Definition scal_of n a xs := tab n (fun i => mul a (at_ xs i)).
Definition axpy_of n a xs ys := tab n (fun i => add (mul a (at_ xs i)) (at_ ys i)).
Definition axpby_of n a xs b ys := tab n (fun i => add (mul a (at_ xs i)) (mul b (at_ ys i))).
Definition xmuly_of n xs ys := tab n (fun i => mul (at_ xs i) (at_ ys i)).
Definition const_of n (a : T) := tab n (fun _ => a).
Definition abs_of n xs := tab n (fun i => fabs (at_ xs i)).
Definition dot_of n xs ys := foldi n (fun i a => add a (mul (at_ xs i) (at_ ys i))) zero.
Definition asum_of n xs := foldi n (fun i a => add a (fabs (at_ xs i))) zero.
Definition nrm2_of n xs := sqrt_ (dot_of n xs xs).
Definition sum_of n xs := foldi n (fun i a => add a (at_ xs i)) zero.
Definition logsum_of n alpha xs := foldi n (fun i a => add a (log_ (mul alpha (at_ xs i)))) zero.
Definition sqerr_of n xs ys :=
  foldi n (fun i a => add a (mul (sub (at_ xs i) (at_ ys i)) (sub (at_ xs i) (at_ ys i)))) zero.
Definition max_of n xs :=
  foldi (n - 1) (fun i a => if ltb_ a (at_ xs (S i)) then at_ xs (S i) else a) (at_ xs 0).

(** elementwise loop: every source is either the output array itself or disjoint from it *)
Lemma for_elem (n : nat) p ys (qs : list (ptr * list T)) f body s :
  (forall q xs, (q, xs) ∈ qs -> length xs = n /\ ((q = p /\ xs = ys) \/ (seg s q xs /\ disj p n q n))) ->
  seg s p ys -> wok s p n ->
  (forall s i, (i < n)%nat -> (forall q xs, (q, xs) ∈ qs -> ld q (Z.of_nat i) s = Ok (at_ xs i) s) ->
     body (Z.of_nat i) s = sto p (Z.of_nat i) (f i) s) ->
  for_ 0 (Z.of_nat n) body s = Ok tt (wr p (tab n f) s) /\
  forall l, l ≡ₚ range 0 (Z.of_nat n) -> for_list l body s = for_ 0 (Z.of_nat n) body s.
Proof.
  intros Hq Hp Hw Hb.
  apply (for_cells_par (fun s => wok s p n /\ forall q xs, (q, xs) ∈ qs -> (q = p /\ xs = ys) \/ (seg s q xs /\ disj p n q n)) n p ys); auto.
  - intros s0 i v [H1 H2] Hi.
    assert (Hw1 : wok s0 (padd p (Z.of_nat i)) 1) by (eapply wok_padd; [exact H1|lia]).
    split; [by apply wok_wr|].
    intros q xs Hin. destruct (H2 q xs Hin) as [|[H3 H4]]; [by left|right]. split; [|done].
    destruct (Hq _ _ Hin) as [Hl _].
    apply seg_wr_disj; auto. rewrite Hl. eapply disj_padd; [exact H4|simpl; lia].
  - by intros s0 [H1 _].
  - intros s0 i [H1 H2] Hi Hc. apply Hb; [done|]. intros q xs Hin.
    destruct (Hq _ _ Hin) as [Hl _].
    destruct (H2 q xs Hin) as [[-> ->]|[H3 H4]].
    + apply ld_ok. apply Hc. apply at_lookup. lia.
    + apply seg_ld; [done|lia].
  - split; [done|]. intros q xs Hin. by destruct (Hq _ _ Hin).
Qed.

Lemma assume_ok s p : is_aligned s p = true -> assume_aligned p s = Ok tt s.
Proof. unfold assume_aligned. by intros ->. Qed.

Ltac elems :=
  repeat match goal with
  | |- forall q xs, (q, xs) ∈ _ -> _ => intros ? ?
  | |- (?q, ?xs) ∈ (_ :: _) -> _ => rewrite elem_of_cons; intros [[= -> ->]|]
  | H : (?q, ?xs) ∈ (_ :: _) |- _ => apply elem_of_cons in H as [[= -> ->]|H]
  | H : _ ∈ [] |- _ => by apply elem_of_nil in H
  end.

(** a source array of an elementwise kernel with output p (current contents ys, may be []) *)
Definition src s p ys (n : nat) q xs : Prop :=
  length xs = n /\ ((q = p /\ xs = ys) \/ (seg s q xs /\ disj p n q n)).
Lemma src_disj s p ys n q xs : length xs = n -> seg s q xs -> disj p n q n -> src s p ys n q xs.
Proof. intros. split; auto. Qed.
Lemma src_self s p ys n : length ys = n -> src s p ys n p ys.
Proof. intros. split; auto. Qed.
(** [out] can be written; [ys] are its known contents *)
Definition dst s p ys (n : nat) : Prop := wok s p n /\ seg s p ys.
Lemma dst_fresh s p n : wok s p n -> dst s p [] n.
Proof. intros. split; [done|apply seg_nil]. Qed.
Lemma dst_seg s p ys n : seg s p ys -> length ys = n -> dst s p ys n.
Proof. intros H <-. split; [by apply seg_wok|done]. Qed.

Lemma dcopy_loop s n x xs y ys : src s y ys n x xs -> dst s y ys n ->
  cblas_dcopy (Z.of_nat n) x y s = Ok tt (wr y xs s).
Proof.
  intros Hx [Hw Hy]. unfold cblas_dcopy.
  assert (Hl : length xs = n) by apply Hx.
  destruct (for_elem n y ys [(x, xs)] (at_ xs) (fun i => let* v := ld x i in sto y i v) s) as [E _]; auto.
  - elems. done.
  - intros s0 i Hi Hs. by rewrite (bind_ok _ _ _ _ _ (Hs x xs ltac:(left))).
  - rewrite E. by rewrite <- Hl, tab_at.
Qed.
Lemma dscal_run s n a x xs : seg s x xs -> length xs = n ->
  cblas_dscal (Z.of_nat n) a x 1 s = Ok tt (wr x (scal_of n a xs) s).
Proof.
  intros Hx Hl. unfold cblas_dscal.
  destruct (for_elem n x xs [(x, xs)] (fun i => mul a (at_ xs i))
     (fun i => let* v := ld x (i * 1) in sto x (i * 1) (mul a v)) s) as [E _]; auto.
  - elems. split; auto.
  - rewrite <- Hl. by apply seg_wok.
  - intros s0 i Hi Hs. rewrite Z.mul_1_r. by rewrite (bind_ok _ _ _ _ _ (Hs x xs ltac:(left))).
Qed.
Lemma daxpy_run s n a x xs y ys : src s y ys n x xs -> seg s y ys -> length ys = n ->
  cblas_daxpy (Z.of_nat n) a x y s = Ok tt (wr y (axpy_of n a xs ys) s).
Proof.
  intros Hx Hy Hl. unfold cblas_daxpy.
  destruct (for_elem n y ys [(x, xs); (y, ys)] (fun i => add (mul a (at_ xs i)) (at_ ys i))
     (fun i => let* v := ld x i in let* w := ld y i in sto y i (add (mul a v) w)) s) as [E _]; auto.
  - elems; [done|]. split; auto.
  - rewrite <- Hl. by apply seg_wok.
  - intros s0 i Hi Hs. rewrite (bind_ok _ _ _ _ _ (Hs x xs ltac:(left))).
    by rewrite (bind_ok _ _ _ _ _ (Hs y ys ltac:(right; left))).
Qed.

(** l1c kernels; each comes with the statement that any order of the iterations gives the same *)
Lemma daxpby_loop s n alpha x xs beta y ys :
  seg s x xs -> seg s y ys -> length xs = n -> length ys = n -> disj y n x n ->
  for_ 0 (Z.of_nat n) (daxpby_body alpha x beta y) s = Ok tt (wr y (axpby_of n alpha xs beta ys) s) /\
  forall l, l ≡ₚ range 0 (Z.of_nat n) ->
    for_list l (daxpby_body alpha x beta y) s = for_ 0 (Z.of_nat n) (daxpby_body alpha x beta y) s.
Proof.
  intros Hx Hy Hl Hly Hd.
  apply (for_elem n y ys [(x, xs); (y, ys)]); auto.
  - elems; split; auto.
  - rewrite <- Hly. by apply seg_wok.
  - intros s0 i Hi Hs. unfold daxpby_body. rewrite (bind_ok _ _ _ _ _ (Hs x xs ltac:(left))).
    by rewrite (bind_ok _ _ _ _ _ (Hs y ys ltac:(right; left))).
Qed.
Lemma daxpby_run s n alpha x xs beta y ys :
  is_aligned s x = true -> is_aligned s y = true ->
  seg s x xs -> seg s y ys -> length xs = n -> length ys = n -> disj y n x n ->
  l1c_daxpby (Z.of_nat n) alpha x beta y s = Ok tt (wr y (axpby_of n alpha xs beta ys) s).
Proof.
  intros Ax Ay Hx Hy Hl Hly Hd. unfold l1c_daxpby.
  rewrite (bind_ok _ _ _ _ _ (assume_ok _ _ Ax)), (bind_ok _ _ _ _ _ (assume_ok _ _ Ay)).
  rewrite (bind_ok _ _ _ _ _ (restrict_ok y n x n s Hd)). by apply daxpby_loop.
Qed.
Lemma init_vec_loop s n x alpha : wok s x n ->
  for_ 0 (Z.of_nat n) (init_vec_body x alpha) s = Ok tt (wr x (const_of n alpha) s) /\
  forall l, l ≡ₚ range 0 (Z.of_nat n) ->
    for_list l (init_vec_body x alpha) s = for_ 0 (Z.of_nat n) (init_vec_body x alpha) s.
Proof.
  intros Hw. apply (for_elem n x [] []); auto; [|apply seg_nil]. intros q xs H. by apply elem_of_nil in H.
Qed.
Lemma init_vec_run s n x alpha : is_aligned s x = true -> wok s x n ->
  l1c_init_vec (Z.of_nat n) x alpha s = Ok tt (wr x (const_of n alpha) s).
Proof.
  intros Ax Hw. unfold l1c_init_vec. rewrite (bind_ok _ _ _ _ _ (assume_ok _ _ Ax)). by apply init_vec_loop.
Qed.
Lemma dxmuly_z_loop s n x xs y ys z :
  seg s x xs -> seg s y ys -> length xs = n -> length ys = n -> disj z n x n -> disj z n y n -> wok s z n ->
  for_ 0 (Z.of_nat n) (dxmuly_z_body x y z) s = Ok tt (wr z (xmuly_of n xs ys) s) /\
  forall l, l ≡ₚ range 0 (Z.of_nat n) ->
    for_list l (dxmuly_z_body x y z) s = for_ 0 (Z.of_nat n) (dxmuly_z_body x y z) s.
Proof.
  intros. apply (for_elem n z [] [(x, xs); (y, ys)]); auto; [elems; split; auto|apply seg_nil|].
  intros s0 i Hi Hs. unfold dxmuly_z_body. rewrite (bind_ok _ _ _ _ _ (Hs x xs ltac:(left))).
  by rewrite (bind_ok _ _ _ _ _ (Hs y ys ltac:(right; left))).
Qed.
Lemma dxmuly_z_run s n x xs y ys z :
  is_aligned s x = true -> is_aligned s y = true -> is_aligned s z = true ->
  seg s x xs -> seg s y ys -> length xs = n -> length ys = n -> disj z n x n -> disj z n y n -> wok s z n ->
  l1c_dxmuly_z (Z.of_nat n) x y z s = Ok tt (wr z (xmuly_of n xs ys) s).
Proof.
  intros Ax Ay Az. intros. unfold l1c_dxmuly_z.
  rewrite (bind_ok _ _ _ _ _ (assume_ok _ _ Ax)), (bind_ok _ _ _ _ _ (assume_ok _ _ Ay)), (bind_ok _ _ _ _ _ (assume_ok _ _ Az)).
  rewrite (bind_ok _ _ _ _ _ (restrict_ok z n x n s ltac:(done))), (bind_ok _ _ _ _ _ (restrict_ok z n y n s ltac:(done))).
  by apply dxmuly_z_loop.
Qed.
Lemma daxpby_z_loop s n alpha x xs beta y ys z :
  seg s x xs -> seg s y ys -> length xs = n -> length ys = n -> disj z n x n -> disj z n y n -> wok s z n ->
  for_ 0 (Z.of_nat n) (daxpby_z_body alpha x beta y z) s = Ok tt (wr z (axpby_of n alpha xs beta ys) s) /\
  forall l, l ≡ₚ range 0 (Z.of_nat n) ->
    for_list l (daxpby_z_body alpha x beta y z) s = for_ 0 (Z.of_nat n) (daxpby_z_body alpha x beta y z) s.
Proof.
  intros. apply (for_elem n z [] [(x, xs); (y, ys)]); auto; [elems; split; auto|apply seg_nil|].
  intros s0 i Hi Hs. unfold daxpby_z_body. rewrite (bind_ok _ _ _ _ _ (Hs x xs ltac:(left))).
  by rewrite (bind_ok _ _ _ _ _ (Hs y ys ltac:(right; left))).
Qed.
Lemma daxpby_z_run s n alpha x xs beta y ys z :
  is_aligned s x = true -> is_aligned s y = true -> is_aligned s z = true ->
  seg s x xs -> seg s y ys -> length xs = n -> length ys = n -> disj z n x n -> disj z n y n -> wok s z n ->
  l1c_daxpby_z (Z.of_nat n) alpha x beta y z s = Ok tt (wr z (axpby_of n alpha xs beta ys) s).
Proof.
  intros Ax Ay Az. intros. unfold l1c_daxpby_z.
  rewrite (bind_ok _ _ _ _ _ (assume_ok _ _ Ax)), (bind_ok _ _ _ _ _ (assume_ok _ _ Ay)), (bind_ok _ _ _ _ _ (assume_ok _ _ Az)).
  rewrite (bind_ok _ _ _ _ _ (restrict_ok z n x n s ltac:(done))), (bind_ok _ _ _ _ _ (restrict_ok z n y n s ltac:(done))).
  by apply daxpby_z_loop.
Qed.
Lemma daxpy_z_loop s n alpha x xs y ys z :
  seg s x xs -> seg s y ys -> length xs = n -> length ys = n -> disj z n x n -> disj z n y n -> wok s z n ->
  for_ 0 (Z.of_nat n) (daxpy_z_body alpha x y z) s = Ok tt (wr z (axpy_of n alpha xs ys) s) /\
  forall l, l ≡ₚ range 0 (Z.of_nat n) ->
    for_list l (daxpy_z_body alpha x y z) s = for_ 0 (Z.of_nat n) (daxpy_z_body alpha x y z) s.
Proof.
  intros. apply (for_elem n z [] [(x, xs); (y, ys)]); auto; [elems; split; auto|apply seg_nil|].
  intros s0 i Hi Hs. unfold daxpy_z_body. rewrite (bind_ok _ _ _ _ _ (Hs x xs ltac:(left))).
  by rewrite (bind_ok _ _ _ _ _ (Hs y ys ltac:(right; left))).
Qed.
Lemma daxpy_z_run s n alpha x xs y ys z :
  is_aligned s x = true -> is_aligned s y = true -> is_aligned s z = true ->
  seg s x xs -> seg s y ys -> length xs = n -> length ys = n -> disj z n x n -> disj z n y n -> wok s z n ->
  l1c_daxpy_z (Z.of_nat n) alpha x y z s = Ok tt (wr z (axpy_of n alpha xs ys) s).
Proof.
  intros Ax Ay Az. intros. unfold l1c_daxpy_z.
  rewrite (bind_ok _ _ _ _ _ (assume_ok _ _ Ax)), (bind_ok _ _ _ _ _ (assume_ok _ _ Ay)), (bind_ok _ _ _ _ _ (assume_ok _ _ Az)).
  rewrite (bind_ok _ _ _ _ _ (restrict_ok z n x n s ltac:(done))), (bind_ok _ _ _ _ _ (restrict_ok z n y n s ltac:(done))).
  by apply daxpy_z_loop.
Qed.
Lemma abs_vec_run s n x xs y ys : src s y ys n x xs -> dst s y ys n ->
  l1c_abs_vec (Z.of_nat n) x y s = Ok tt (wr y (abs_of n xs) s).
Proof.
  intros Hx [Hw Hy]. unfold l1c_abs_vec.
  destruct (for_elem n y ys [(x, xs)] (fun i => fabs (at_ xs i)) (fun i => let* v := ld x i in sto y i (fabs v)) s) as [E _]; auto.
  - elems. done.
  - intros s0 i Hi Hs. by rewrite (bind_ok _ _ _ _ _ (Hs x xs ltac:(left))).
Qed.

(** reductions: the state does not change *)
Ltac lds :=
  repeat match goal with
  | H : seg ?s ?x ?xs |- context [bind (ld ?x (Z.of_nat ?i)) ?k ?s] =>
      rewrite (bind_ok (ld x (Z.of_nat i)) k s _ s (seg_ld s x xs i H ltac:(lia)))
  end.
Lemma ddot_run s n x xs y ys : seg s x xs -> seg s y ys -> (n <= length xs)%nat -> (n <= length ys)%nat ->
  cblas_ddot (Z.of_nat n) x y s = Ok (dot_of n xs ys) s.
Proof. intros Hx Hy H1 H2. apply for_acc_fold. intros i a Hi. by lds. Qed.
Lemma dnrm2_run s n x xs : seg s x xs -> (n <= length xs)%nat ->
  cblas_dnrm2 (Z.of_nat n) x s = Ok (nrm2_of n xs) s.
Proof.
  intros Hx H1. unfold cblas_dnrm2.
  rewrite (bind_ok _ _ _ (dot_of n xs xs) s); [done|].
  apply for_acc_fold. intros i a Hi. by lds.
Qed.
Lemma dasum_run s n x xs : seg s x xs -> (n <= length xs)%nat ->
  cblas_dasum (Z.of_nat n) x s = Ok (asum_of n xs) s.
Proof. intros Hx H1. apply for_acc_fold. intros i a Hi. by lds. Qed.
Lemma dsum_run s n x xs : seg s x xs -> (n <= length xs)%nat ->
  l1c_dsum (Z.of_nat n) x s = Ok (sum_of n xs) s.
Proof. intros Hx H1. apply for_acc_fold. intros i a Hi. by lds. Qed.
Lemma dlogsum_run s n alpha x xs : seg s x xs -> (n <= length xs)%nat ->
  l1c_dlogsum (Z.of_nat n) alpha x s = Ok (logsum_of n alpha xs) s.
Proof. intros Hx H1. apply for_acc_fold. intros i a Hi. by lds. Qed.
Lemma dnrm2_err_run s n x xs y ys : is_aligned s x = true -> is_aligned s y = true ->
  seg s x xs -> seg s y ys -> (n <= length xs)%nat -> (n <= length ys)%nat ->
  l1c_dnrm2_err (Z.of_nat n) x y s = Ok (sqrt_ (sqerr_of n xs ys)) s.
Proof.
  intros Ax Ay Hx Hy H1 H2. unfold l1c_dnrm2_err.
  rewrite (bind_ok _ _ _ _ _ (assume_ok _ _ Ax)), (bind_ok _ _ _ _ _ (assume_ok _ _ Ay)).
  rewrite (bind_ok _ _ _ (sqerr_of n xs ys) s); [done|].
  apply for_acc_fold. intros i a Hi. by lds.
Qed.
Lemma dnrm2_rel_err_run s n x xs y ys : is_aligned s x = true -> is_aligned s y = true ->
  seg s x xs -> seg s y ys -> (n <= length xs)%nat -> (n <= length ys)%nat ->
  l1c_dnrm2_rel_err (Z.of_nat n) x y s = Ok (sqrt_ (div (sqerr_of n xs ys) (dot_of n ys ys))) s.
Proof.
  intros Ax Ay Hx Hy H1 H2. unfold l1c_dnrm2_rel_err.
  rewrite (bind_ok _ _ _ _ _ (assume_ok _ _ Ax)), (bind_ok _ _ _ _ _ (assume_ok _ _ Ay)).
  rewrite (bind_ok _ _ _ _ _ (ddot_run s n y ys y ys Hy Hy H2 H2)).
  rewrite (bind_ok _ _ _ (sqerr_of n xs ys) s); [done|].
  apply for_acc_fold. intros i a Hi. by lds.
Qed.
Lemma max_vec_run s n x xs : seg s x xs -> (1 <= n <= length xs)%nat ->
  l1c_max_vec (Z.of_nat n) x s = Ok (max_of n xs) s.
Proof.
  intros Hx H1. unfold l1c_max_vec. rewrite (proj2 (Z.leb_gt _ _)) by lia.
  rewrite (bind_ok _ _ _ _ _ (ld_seg s x xs 0 Hx ltac:(lia))). change (Z.to_nat 0) with 0%nat.
  destruct (Z.eqb_spec (Z.of_nat n) 1) as [E|E].
  - assert (n = 1%nat) as -> by lia. done.
  - unfold for_acc. replace (Z.to_nat (Z.of_nat n - 1)) with (n - 1)%nat by lia. unfold max_of.
    apply (accn_inv (fun i => foldi i (fun i a => if ltb_ a (at_ xs (S i)) then at_ xs (S i) else a) (at_ xs 0))).
    intros i Hi. replace (1 + Z.of_nat i) with (Z.of_nat (S i)) by lia. by lds.
Qed.
Lemma max_vec_nonpos s n x : n <= 0 -> l1c_max_vec n x s = Ok nan_ s.
Proof. intros H. unfold l1c_max_vec. by rewrite (proj2 (Z.leb_le _ _)) by lia. Qed.
End kern.
