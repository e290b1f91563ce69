(** * Runs of the FFTW routines, and of loops that update or gather single cells. *)
From Coq Require Import ZArith Lia.
From stdpp Require Import base numbers gmap list.
From Verif Require Import Globals Mem M_Math M_Memory M_FFTW P_Loop P_Math P_Step P_Own P_Newton E_Op.
Local Open Scope Z_scope.

Section upd.
Context `{N : Num}.
Implicit Types (s : st) (xs : list T).
(** for (i < n) x[idx i] := h i (current contents) *)
Definition upd_of n (idx : nat -> nat) (h : nat -> list T -> T) xs : list T :=
  foldi n (fun i a => <[idx i := h i a]> a) xs.
Lemma upd_of_len n idx h xs : length (upd_of n idx h xs) = length xs.
Proof. unfold upd_of. induction n as [|n IH]; [done|]. cbn [foldi]. by rewrite insert_length. Qed.
Lemma for_upd n x xs idx h body s : seg s x xs -> (forall i, (i < n)%nat -> (idx i < length xs)%nat) ->
  (forall i a, (i < n)%nat -> length a = length xs -> seg (wr x a s) x a ->
     body (Z.of_nat i) (wr x a s) = sto x (Z.of_nat (idx i)) (h i a) (wr x a s)) ->
  for_ 0 (Z.of_nat n) body s = Ok tt (wr x (upd_of n idx h xs) s).
Proof.
  intros Hx Hi Hb. unfold for_. rewrite Z.sub_0_r, Nat2Z.id.
  rewrite <- (wr_self s x xs Hx) at 1. 
  apply (forn_inv (fun i => wr x (upd_of i idx h xs) s)). intros i Hin. rewrite Z.add_0_l.
  pose proof (upd_of_len i idx h xs) as L.
  assert (S' : seg (wr x (upd_of i idx h xs) s) x (upd_of i idx h xs)).
  { apply seg_wr. rewrite L. by apply seg_wok. }
  rewrite Hb by done. rewrite (sto_seg _ x _ _ _ S') by (rewrite L; auto).
  f_equal. change (upd_of (S i) idx h xs) with (<[idx i := h i (upd_of i idx h xs)]> (upd_of i idx h xs)).
  assert (nonneg x). { eapply wok_nonneg; [by apply seg_wok|]. specialize (Hi i Hin). lia. }
  apply wr_overwrite; [done|]. by rewrite insert_length.
Qed.
(** reading the result *)
Lemma upd_at_out n idx h xs j : (forall i, (i < n)%nat -> idx i <> j) -> at_ (upd_of n idx h xs) j = at_ xs j.
Proof.
  unfold upd_of. induction n as [|n IH]; intros H; [done|]. cbn [foldi].
  unfold at_ in *. rewrite nth_lookup, list_lookup_insert_ne, <- nth_lookup by (apply H; lia). apply IH. intros; apply H; lia.
Qed.
Lemma upd_at_last n idx h xs i : (i < n)%nat -> (idx i < length xs)%nat -> 
  (forall k, (i < k < n)%nat -> idx k <> idx i) ->
  at_ (upd_of n idx h xs) (idx i) = h i (upd_of i idx h xs).
Proof.
  intros Hi Hl Hj. induction n as [|n IH]; [lia|]. 
  change (upd_of (S n) idx h xs) with (<[idx n := h n (upd_of n idx h xs)]> (upd_of n idx h xs)).
  destruct (decide (i = n)) as [->|].
  - unfold at_. rewrite nth_lookup, list_lookup_insert by (by rewrite upd_of_len). done.
  - unfold at_. rewrite nth_lookup, list_lookup_insert_ne, <- nth_lookup by (apply Hj; lia).
    apply IH; [lia|]. intros k Hk. apply Hj. lia.
Qed.

(** E^T: copy v i to the places idx i of e *)
Definition scatter (idx : list nat) (v : nat -> T) (e : list T) : list T :=
  upd_of (length idx) (fun i => nth i idx 0%nat) (fun i _ => v i) e.
Lemma scatter_len idx v e : length (scatter idx v e) = length e.
Proof. apply upd_of_len. Qed.
Lemma scatter_out idx v e j : j ∉ idx -> at_ (scatter idx v e) j = at_ e j.
Proof.
  intros Hj. apply upd_at_out. intros i Hi E. apply Hj. rewrite <- E. apply elem_of_list_In, nth_In. done.
Qed.
(** the last one of several equal indices counts *)
Lemma scatter_last idx v e i : (i < length idx)%nat -> (nth i idx 0 < length e)%nat ->
  (forall k, (i < k < length idx)%nat -> nth k idx 0%nat <> nth i idx 0%nat) -> at_ (scatter idx v e) (nth i idx 0%nat) = v i.
Proof.
  intros Hi Hl Hk.
  exact (upd_at_last (length idx) (fun i => nth i idx 0%nat) (fun i _ => v i) e i Hi Hl Hk).
Qed.
Lemma scatter_in idx v e i : NoDup idx -> (i < length idx)%nat -> (nth i idx 0 < length e)%nat ->
  at_ (scatter idx v e) (nth i idx 0%nat) = v i.
Proof.
  intros ND Hi Hl. apply scatter_last; try done. intros k Hk E.
  apply (NoDup_nth idx 0%nat) in E; [lia|by apply NoDup_ListNoDup|lia|lia].
Qed.
Lemma elem_of_pos (idx : list nat) j : j ∈ idx -> exists i, (i < length idx)%nat /\ nth i idx 0%nat = j /\
  forall k, (i < k < length idx)%nat -> nth k idx 0%nat <> j.
Proof.
  induction idx as [|a idx IH]; [by intros ?%elem_of_nil|]. intros H.
  destruct (decide (j ∈ idx)) as [Hin|Hni].
  - destruct (IH Hin) as (i & Hi & E & Hk). exists (S i). split; [simpl; lia|]. split; [done|].
    intros [|k] Hk'; [lia|]. apply Hk. simpl in Hk'. lia.
  - apply elem_of_cons in H as [->|?]; [|done]. exists 0%nat. split; [simpl; lia|]. split; [done|].
    intros [|k] Hk' E; [lia|]. simpl in *. apply Hni. rewrite <- E. apply elem_of_list_In, nth_In. lia.
Qed.
(** the outcome does not depend on what e held at the places idx, and scattering the same value for
    equal indices does not depend on their order *)
Lemma scatter_ext idx v w e e' : length e = length e' -> (forall j, j ∈ idx -> (j < length e)%nat) ->
  (forall j, j ∉ idx -> at_ e j = at_ e' j) -> (forall i, (i < length idx)%nat -> v i = w i) ->
  scatter idx v e = scatter idx w e'.
Proof.
  intros Hl Hb He Hv. apply (nth_ext _ _ zero zero); [by rewrite !scatter_len|]. intros j _.
  change (at_ (scatter idx v e) j = at_ (scatter idx w e') j).
  destruct (decide (j ∈ idx)) as [Hin|Hni]; [|rewrite !scatter_out by done; auto].
  pose proof (Hb j Hin). destruct (elem_of_pos idx j Hin) as (i & Hi & <- & Hk).
  rewrite !scatter_last by (lia || done). auto.
Qed.

(** an array of ints holding the indices ms *)
Definition segi s p (ms : list nat) : Prop :=
  forall i k, ms !! i = Some k -> ldi p (Z.of_nat i) s = Ok (Z.of_nat k) s.
Lemma segi_ld s p ms i : segi s p ms -> (i < length ms)%nat -> ldi p (Z.of_nat i) s = Ok (Z.of_nat (nth i ms 0%nat)) s.
Proof. intros H Hi. apply H. destruct (nth_lookup_or_length ms i 0%nat); [done|lia]. Qed.
Lemma segi_im s s' b o ms : im s' !! b = im s !! b -> segi s (Ptr b o) ms -> segi s' (Ptr b o) ms.
Proof.
  intros E H i k Hi. specialize (H i k Hi). unfold ldi in *. rewrite E.
  destruct (0 <=? o + Z.of_nat i); [|done]. destruct (im s !! b) as [c|]; [|done].
  destruct (c !! _); [|done]. by inversion H.
Qed.
(** y[i] = g(x[mask[i]]) *)
Lemma gather_run g n x xs D mk ms body s : seg s x xs -> segi s mk ms -> length ms = n -> mk <> Null ->
  (forall k, k ∈ ms -> (k < length xs)%nat) -> wok s D n -> disj D n x (length xs) ->
  (forall s i, body i s = (let* j := ldi mk i in let* v := ld x j in sto D i (g v)) s) ->
  for_ 0 (Z.of_nat n) body s = Ok tt (wr D (tab n (fun i => g (at_ xs (nth i ms 0%nat)))) s).
Proof.
  intros Hx Hm Lm Hmk Hb Hw Hd HB.
  apply (for_cells0 (fun t => seg t x xs /\ segi t mk ms /\ wok t D n)).
  - intros t i v (H1 & H2 & H3) Hi.
    assert (wok t (padd D (Z.of_nat i)) 1) by (eapply wok_padd; [exact H3|lia]).
    split; [|split].
    + apply seg_wr_disj; auto. eapply disj_padd; [exact Hd|simpl; lia].
    + destruct mk as [|b o]; [done|]. eapply segi_im; [|exact H2]. by rewrite im_wr.
    + by apply wok_wr.
  - by intros t (_ & _ & ?).
  - intros t i (H1 & H2 & H3) Hi. rewrite HB. rewrite (bind_ok _ _ _ _ _ (segi_ld t mk ms i H2 ltac:(lia))).
    assert (Hb2 : (nth i ms 0 < length xs)%nat) by (apply Hb, elem_of_list_In, nth_In; lia).
    rewrite (bind_ok _ _ _ _ _ (seg_ld t x xs _ H1 Hb2)). done.
  - done.
Qed.
(** e[mask[i]] = v_i, where v_i is read somewhere else *)
Lemma scatter_run v n e es mk ms body s : seg s e es -> segi s mk ms -> length ms = n -> mk <> Null ->
  (forall k, k ∈ ms -> (k < length es)%nat) ->
  (forall i a, (i < n)%nat -> length a = length es -> body (Z.of_nat i) (wr e a s) =
     (let* j := ldi mk (Z.of_nat i) in sto e j (v i)) (wr e a s)) ->
  for_ 0 (Z.of_nat n) body s = Ok tt (wr e (scatter ms v es) s).
Proof.
  intros He Hm Lm Hmk Hb HB. rewrite <- Lm. apply for_upd; [done| |].
  - intros i Hi. apply Hb, elem_of_list_In, nth_In, Hi.
  - intros i a Hi La Sa. rewrite HB by (lia || done). 
    assert (Hm' : segi (wr e a s) mk ms). { destruct mk as [|b o]; [done|]. eapply segi_im; [|exact Hm]. by rewrite im_wr. }
    by rewrite (bind_ok _ _ _ _ _ (segi_ld _ mk ms i Hm' ltac:(lia))).
Qed.
End upd.

Section exec.
Context `{N : Num}.
Context (fft1 : fkind -> list T -> list T) (fft2 : fkind -> nat -> nat -> list T -> list T).
Implicit Types (s : st) (xs : list T).
Lemma rdn_run s n x xs : seg s x xs -> length xs = n -> rdn (Z.of_nat n) x s = Ok xs s.
Proof.
  intros Sx Lx. unfold rdn. rewrite (for_acc_fold n [] _ (fun i a => a ++ [at_ xs i]) s).
  - by rewrite foldi_snoc, take_ge by lia.
  - intros i a Hi. by rewrite (bind_ok _ _ _ _ _ (seg_ld s _ _ i Sx ltac:(lia))).
Qed.
Lemma wrn_run s y ys : wok s y (length ys) -> wrn y ys s = Ok tt (wr y ys s).
Proof.
  intros Hw. unfold wrn.
  rewrite (for_cells0 (fun t => wok t y (length ys)) y (at_ ys)).
  - by rewrite tab_at.
  - intros t i v H Hi. apply wok_wr; [|done]. eapply wok_padd; [exact H|]. simpl length. clear - Hi. lia.
  - done.
  - intros t i _ Hi. by rewrite Nat2Z.id.
  - done.
Qed.
Lemma exec1_run s p n k a b x xs y : om s !! p = Some (OPlan1 (Z.of_nat n) k a b) ->
  seg s x xs -> length xs = n -> wok s y n -> disj y n x n -> is_aligned s x = true -> is_aligned s y = true ->
  length (fft1 k xs) = n ->
  fftw_execute_r2r fft1 fft2 (Ptr p 0) x y s = Ok tt (wr y (fft1 k xs) s).
Proof.
  intros Hp Sx Lx Wy Hd Ax Ay Lf. unfold fftw_execute_r2r.
  rewrite (bind_ok _ _ _ (OPlan1 (Z.of_nat n) k a b) s) by (unfold ldo; by rewrite Hp).
  cbv beta iota. rewrite (bind_ok _ _ _ _ _ (restrict_ok y n x n s Hd)).
  rewrite (bind_ok _ _ _ _ _ (assume_ok _ _ Ax)), (bind_ok _ _ _ _ _ (assume_ok _ _ Ay)).
  rewrite (bind_ok _ _ _ _ _ (rdn_run s n x xs Sx Lx)). apply wrn_run. by rewrite Lf.
Qed.
Lemma execp1_run s p n k x xs y : om s !! p = Some (OPlan1 (Z.of_nat n) k x y) ->
  seg s x xs -> length xs = n -> wok s y n -> disj y n x n -> is_aligned s x = true -> is_aligned s y = true ->
  length (fft1 k xs) = n ->
  fftw_execute fft1 fft2 (Ptr p 0) s = Ok tt (wr y (fft1 k xs) s).
Proof.
  intros Hp Sx Lx Wy Hd Ax Ay Lf. unfold fftw_execute.
  rewrite (bind_ok _ _ _ (OPlan1 (Z.of_nat n) k x y) s) by (unfold ldo; by rewrite Hp).
  by eapply exec1_run.
Qed.
Lemma exec2_run s p nr nc k a b x xs y : om s !! p = Some (OPlan2 (Z.of_nat nr) (Z.of_nat nc) k a b) ->
  seg s x xs -> length xs = (nr * nc)%nat -> wok s y (nr * nc) -> disj y (nr * nc) x (nr * nc) -> 
  is_aligned s x = true -> is_aligned s y = true -> length (fft2 k nr nc xs) = (nr * nc)%nat ->
  fftw_execute_r2r fft1 fft2 (Ptr p 0) x y s = Ok tt (wr y (fft2 k nr nc xs) s).
Proof.
  intros Hp Sx Lx Wy Hd Ax Ay Lf. unfold fftw_execute_r2r.
  rewrite (bind_ok _ _ _ (OPlan2 (Z.of_nat nr) (Z.of_nat nc) k a b) s) by (unfold ldo; by rewrite Hp).
  cbv beta iota. rewrite !Nat2Z.id, <- !Nat2Z.inj_mul. rewrite (bind_ok _ _ _ _ _ (restrict_ok y _ x _ s Hd)).
  rewrite (bind_ok _ _ _ _ _ (assume_ok _ _ Ax)), (bind_ok _ _ _ _ _ (assume_ok _ _ Ay)).
  rewrite (bind_ok _ _ _ _ _ (rdn_run s _ x xs Sx Lx)). apply wrn_run. by rewrite Lf.
Qed.
Lemma execp2_run s p nr nc k x xs y : om s !! p = Some (OPlan2 (Z.of_nat nr) (Z.of_nat nc) k x y) ->
  seg s x xs -> length xs = (nr * nc)%nat -> wok s y (nr * nc) -> disj y (nr * nc) x (nr * nc) -> 
  is_aligned s x = true -> is_aligned s y = true -> length (fft2 k nr nc xs) = (nr * nc)%nat ->
  fftw_execute fft1 fft2 (Ptr p 0) s = Ok tt (wr y (fft2 k nr nc xs) s).
Proof.
  intros Hp Sx Lx Wy Hd Ax Ay Lf. unfold fftw_execute.
  rewrite (bind_ok _ _ _ (OPlan2 (Z.of_nat nr) (Z.of_nat nc) k x y) s) by (unfold ldo; by rewrite Hp).
  by eapply exec2_run.
Qed.
End exec.
