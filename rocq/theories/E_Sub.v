(** * A measurement operator for the examples: the first n of m entries are measured.
    Not code of the project: it shows that the hypotheses on operators can be met.  The adjoint counts
    its calls in block bf. *)
From Coq Require Import ZArith Lia.
From stdpp Require Import base numbers gmap list.
From Verif Require Import Mem M_Math P_Loop P_Math P_Step P_CG P_Newton.
Local Open Scope Z_scope.

Section sub.
Context `{N : Num}.
Context (m n bf : nat) (Hnm : (n <= m)%nat).
Definition s_ax (X D : ptr) : M unit := cblas_dcopy (Z.of_nat n) X D.
Definition s_atax (X D : ptr) : M unit :=
  cblas_dcopy (Z.of_nat n) X D ;! for_ 0 (Z.of_nat (m - n)) (fun i => sto (padd D (Z.of_nat n)) i zero).
Definition s_aty (X D : ptr) : M unit :=
  s_atax X D ;! let* v := ld (Ptr bf 0) 0 in sto (Ptr bf 0) 0 (add v one).
Definition s_A (xs : list T) : list T := take n xs.
Definition s_B (ys : list T) : list T := ys ++ const_of (m - n) zero.
Definition s_C (xs : list T) : list T := take n xs ++ const_of (m - n) zero.
Definition s_J (c : nat) (s : st) : Prop := seg s (Ptr bf 0) [Nat.iter c (fun v => add v one) zero].
Lemma seg_take s p xs k : seg s p xs -> seg s p (take k xs).
Proof. intros H i v Hi. apply lookup_take_Some in Hi as [Hi _]. by apply H. Qed.
Lemma atax_run s X xs D : seg s X xs -> length xs = n -> wok s D m -> disj D m X n ->
  s_atax X D s = Ok tt (wr D (s_B xs) s).
Proof.
  intros Hx Lx Wd Hd. unfold s_atax.
  assert (Wn : wok s D n) by (eapply wok_le; [exact Wd|lia]).
  assert (Dn : disj D n X n). { pose proof (disj_padd D m X n 0 n Hd ltac:(lia)) as Q. destruct D; [done|]. simpl in Q. by rewrite Z.add_0_r in Q. }
  rewrite (bind_ok _ _ _ _ _ (dcopy_run s n X xs D Hx Lx Wn Dn)).
  assert (Wd1 : wok (wr D xs s) D m) by (apply wok_wr; [by rewrite Lx|done]).
  destruct (for_elem (m - n) (padd D (Z.of_nat n)) [] [] (fun _ => zero) (fun i => sto (padd D (Z.of_nat n)) i zero) (wr D xs s)) as [E _].
  - intros q ys Hq. by apply elem_of_nil in Hq.
  - apply seg_nil.
  - eapply wok_padd; [exact Wd1|lia].
  - done.
  - rewrite E. f_equal. unfold s_B. rewrite <- (wr_app' s D xs); [by rewrite Lx|]. rewrite app_length, const_of_len, Lx. by replace (n + (m - n))%nat with m by lia.
Qed.
Lemma iJ c W s s' : s_J c s -> touch W s s' -> (forall b, b ∈ W -> b ∉ [bf]) -> s_J c s'.
Proof. intros H Ht HW. apply (touch_seg _ _ _ _ _ _ Ht); [|done]. intros Hb. apply (HW _ Hb). isin. Qed.
Lemma J_wr c s D ys : s_J c s -> wok s D (length ys) -> outside D [bf] -> s_J c (wr D ys s).
Proof.
  intros H Hw Ho. destruct D as [|b o]; [by destruct ys|]. apply (iJ c [b] s); [done|apply touch_wr; isin|].
  intros b' ->%elem_of_list_singleton. exact Ho.
Qed.
Lemma sub_opers : opers [bf] s_J s_ax s_aty s_atax m n s_A s_B s_C.
Proof.
  split.
  - intros c. split; [|apply iJ|intros xs Lx; unfold s_A; rewrite take_length; lia].
    intros s X xs D HJ Hx Lx Wd Hd _ _ _ Ho. unfold s_ax.
    assert (Lt : length (take n xs) = n) by (rewrite take_length; lia).
    exists (wr D (take n xs) s). split; [|split; [apply touch_refl|apply J_wr; [done|by rewrite Lt|done]]].
    apply dcopy_run; [by apply seg_take|done|done|].
    apply disj_sym. apply disj_sym in Hd. pose proof (disj_padd X m D n 0 n Hd ltac:(lia)) as Q. destruct X; [done|]. simpl in Q. by rewrite Z.add_0_r in Q.
  - intros c. split; [|apply iJ|intros xs Lx; unfold s_C; rewrite app_length, take_length, const_of_len; lia].
    intros s X xs D HJ Hx Lx Wd Hd _ _ _ Ho.
    assert (Lt : length (take n xs) = n) by (rewrite take_length; lia).
    exists (wr D (s_C xs) s). split; [|split; [apply touch_refl|apply J_wr; [done|unfold s_C; rewrite app_length, const_of_len, Lt|done]]].
    + apply atax_run; [by apply seg_take|done|done|].
      apply disj_sym. apply disj_sym in Hd. pose proof (disj_padd X m D m 0 n Hd ltac:(lia)) as Q. destruct X; [done|]. simpl in Q. by rewrite Z.add_0_r in Q.
    + by replace (n + (m - n))%nat with m by lia.
  - intros c s X xs D HJ Hx Lx Wd Hd _ _ _ Ho. unfold s_aty.
    assert (LB : length (s_B xs) = m) by (unfold s_B; rewrite app_length, const_of_len; lia).
    rewrite (bind_ok _ _ _ _ _ (atax_run s X xs D Hx Lx Wd Hd)).
    assert (HJ1 : s_J c (wr D (s_B xs) s)) by (apply J_wr; [done|by rewrite LB|done]).
    set (t := wr D (s_B xs) s) in *. set (v := Nat.iter c (fun v => add v one) zero) in *.
    rewrite (bind_ok _ _ _ v t) by (exact (ld_seg t _ _ 0 HJ1 ltac:(simpl; lia))).
    assert (Wb : wok t (Ptr bf 0) 1) by (eapply (seg_wok t _ [v]); exact HJ1).
    exists (wr (Ptr bf 0) [add v one] t). split; [exact (sto_wok t _ 1 0 _ Wb ltac:(lia))|]. split; [apply touch_wr; isin|].
    unfold s_J. cbn [Nat.iter]. by apply seg_wr.
  - intros xs Lx. unfold s_B. rewrite app_length, const_of_len. lia.
  - intros c s s' HJ (H & _ & _) i v Hi. unfold cell. rewrite (proj1 (H bf ltac:(isin))). by apply HJ.
Qed.
End sub.
