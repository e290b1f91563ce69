(** * What the functions of a DCT transform return, whatever was called before. *)
From Coq Require Import ZArith Lia Reals Lra Psatz.
From stdpp Require Import base numbers gmap list.
From Verif Require Import Globals Mem M_Math M_FFTW M_Dct1 M_Dct2 M_Dct M_TVt P_Mem P_Loop P_Math P_MathR P_TVR P_Step P_Memory P_Own P_Newton L_Sum S_Vec L_Lin S_Newt S_Nesta S_Dct L_Cos P_FFTW P_Dct1 P_Dct1s P_DctR P_Dct2 P_Dct2s P_Dct2R S_Xform P_Xform S_DctApi P_Dct.
Local Open Scope Z_scope.

Section generic.
Context `{N : Num}.
Context (fft1 : fkind -> list T -> list T) (fft2 : fkind -> nat -> nat -> list T -> list T).
Hypothesis fft1_len : forall k xs, length (fft1 k xs) = length xs.
Hypothesis fft2_len : forall k nr nc xs, length xs = (nr * nc)%nat -> length (fft2 k nr nc xs) = (nr * nc)%nat.
Implicit Types (s : st) (xs : list T).

(** one description of both transforms *)
Definition fM s nr nc (one : bool) : list T -> list T :=
  if one then mx_of fft1 (root1 (Z.of_nat (nr * nc))) (nr * nc) else mx2_of fft2 nr nc (root2 (Z.of_nat nr) (Z.of_nat nc)).
Definition fMt nr nc (one : bool) : list T -> list T :=
  if one then mty_of fft1 (root1 (Z.of_nat (nr * nc))) (nr * nc) else mty2_of fft2 nr nc (root2 (Z.of_nat nr) (Z.of_nat nc)).
Definition fA nr nc (one : bool) ms : list T -> list T :=
  if one then emx_of fft1 (root1 (Z.of_nat (nr * nc))) ms else emx2_of fft2 nr nc (root2 (Z.of_nat nr) (Z.of_nat nc)) ms.
Definition fAt s nr nc (one : bool) ms : list T -> list T :=
  let e0 := scr (en s) (nx s + 3) 0 (nr * nc) in
  if one then mtety_of fft1 (root1 (Z.of_nat (nr * nc))) (nr * nc) ms e0 else mtety2_of fft2 nr nc (root2 (Z.of_nat nr) (Z.of_nat nc)) ms e0.

Record all_ops s nr nc one ms F ops s1 ax : Prop := {
  ao_Ax : always F ops s1 (o_Ax fft1 fft2 ax (length ms) (nr * nc)) (fA nr nc one ms);
  ao_Aty : always F ops s1 (o_Aty fft1 fft2 ax (length ms) (nr * nc)) (fAt s nr nc one ms);
  ao_AtAx : always F ops s1 (o_AtAx fft1 fft2 ax (nr * nc)) (fun xs => fAt s nr nc one ms (fA nr nc one ms xs));
  ao_Mty : always F ops s1 (o_Mty fft1 fft2 ax (nr * nc)) (fMt nr nc one);
  ao_Mx : one = false \/ (forall v, div (mul v (sqrt_ two)) (sqrt_ two) = v) -> always F ops s1 (o_Mx fft1 fft2 ax (nr * nc)) (fM s nr nc one);
  ao_Wz : always F ops s1 (o_Wz fft1 fft2 ax (nr * nc)) (fun xs => xs);
  ao_Wtx : always F ops s1 (o_Wtx fft1 fft2 ax (nr * nc)) (fun xs => xs);
  ao_Rx : always F ops s1 (o_Rx fft1 fft2 ax (length ms) (nr * nc)) (fun xs => tab (length ms) (fun i => at_ xs (nth i ms 0%nat)));
  ao_Rty : always_d F ops s1 (o_Rty fft1 fft2 ax (length ms) (nr * nc)) (fun ds ys => scatter ms (at_ ys) (scal_of (nr * nc) zero ds))
}.
Lemma started_nat s mrow mcol mode mb mo ms ax s1 : started s mrow mcol mode mb mo ms ax s1 ->
  exists nr nc, mrow = Z.of_nat nr /\ mcol = Z.of_nat nc /\ (1 <= nr)%nat /\ (1 <= nc)%nat /\ Z.to_nat (mrow * mcol) = (nr * nc)%nat /\
    Z.of_nat (nr * nc) <= INT_MAX /\ (forall k, k ∈ ms -> (k < nr * nc)%nat).
Proof.
  intros H. destruct (started_inv _ _ _ _ _ _ _ _ _ H) as [Hn Hr Hc Hi Hms _ _ _].
  exists (Z.to_nat mrow), (Z.to_nat mcol). split_and!; try lia.
  intros k Hk. specialize (Hms k Hk). lia.
Qed.
Lemma started_all s nr nc mode mb mo ms ax s1 : started s (Z.of_nat nr) (Z.of_nat nc) mode mb mo ms ax s1 ->
  all_ops s nr nc (one_d (Z.of_nat nr) (Z.of_nat nc) mode) ms (blocks s mb) (dct_ops fft1 fft2 ax (length ms) (nr * nc)) s1 ax.
Proof.
  intros H. destruct (started_inv _ _ _ _ _ _ _ _ _ H) as [_ _ _ _ _ Hmade _ _]. clear H.
  destruct Hmade as [m s1 Eo Em HC HJ|nr' nc' s1 Eo Er Ec HC HJ]; rewrite Eo.
  - assert (m = nr * nc)%nat as -> by lia. clear Em.
    pose proof (made1_always fft1 fft2 fft1_len _ HC s1) as G. set (c := cfg_of s mb mo (nr * nc) ms) in *.
    set (A := ax1 (Z.of_nat (length ms)) (Z.of_nat (nr * nc))) in *.
    split.
    + exact (G _ _ HJ (oper_computes _ _ (o_Ax fft1 fft2 A (length ms) (nr * nc)) _ (EMx_oper fft1 fft2 fft1_len c HC))).
    + exact (G _ _ HJ (oper_computes _ _ (o_Aty fft1 fft2 A (length ms) (nr * nc)) _ (MtEty_oper fft1 fft2 fft1_len c HC))).
    + exact (G _ _ HJ (oper_computes _ _ (o_AtAx fft1 fft2 A (nr * nc)) _ (MtEt_EMx_oper fft1 fft2 fft1_len c HC))).
    + exact (G _ _ HJ (oper_computes _ _ (o_Mty fft1 fft2 A (nr * nc)) _ (Mty_oper fft1 fft2 fft1_len c HC))).
    + intros [?|Hs]; [done|]. exact (G _ _ HJ (oper_computes _ _ (o_Mx fft1 fft2 A (nr * nc)) _ (Mx_oper fft1 fft2 fft1_len c HC Hs))).
    + exact (G _ _ HJ (oper_computes _ _ (o_Wz fft1 fft2 A (nr * nc)) _ (Identity_oper c))).
    + exact (G _ _ HJ (oper_computes _ _ (o_Wtx fft1 fft2 A (nr * nc)) _ (Identity_oper c))).
    + exact (G _ _ HJ (oper_computes _ _ (o_Rx fft1 fft2 A (length ms) (nr * nc)) _ (Ex_oper c HC))).
    + exact (G _ _ HJ (Ety_computes fft1 fft2 c HC)).
  - apply Nat2Z.inj in Er, Ec. subst nr' nc'.
    pose proof (made2_always fft1 fft2 fft2_len _ HC s1) as G. set (c := cfg2_of s mb mo nr nc ms) in *.
    set (A := ax2 (Z.of_nat (length ms)) (Z.of_nat (nr * nc))) in *.
    split.
    + exact (G _ _ HJ (oper_computes _ _ (o_Ax fft1 fft2 A (length ms) (nr * nc)) _ (EMx2_oper fft1 fft2 fft2_len c HC))).
    + exact (G _ _ HJ (oper_computes _ _ (o_Aty fft1 fft2 A (length ms) (nr * nc)) _ (MtEty2_oper fft1 fft2 fft2_len c HC))).
    + exact (G _ _ HJ (oper_computes _ _ (o_AtAx fft1 fft2 A (nr * nc)) _ (MtEt_EMx2_oper fft1 fft2 fft2_len c HC))).
    + exact (G _ _ HJ (oper_computes _ _ (o_Mty fft1 fft2 A (nr * nc)) _ (Mty2_oper fft1 fft2 fft2_len c HC))).
    + intros _. exact (G _ _ HJ (oper_computes _ _ (o_Mx fft1 fft2 A (nr * nc)) _ (Mx2_oper fft1 fft2 fft2_len c HC))).
    + exact (G _ _ HJ (oper_computes _ _ (o_Wz fft1 fft2 A (nr * nc)) _ (Identity2_oper c HC))).
    + exact (G _ _ HJ (oper_computes _ _ (o_Wtx fft1 fft2 A (nr * nc)) _ (Identity2_oper c HC))).
    + exact (G _ _ HJ (oper_computes _ _ (o_Rx fft1 fft2 A (length ms) (nr * nc)) _ (Ex2_oper c HC))).
    + exact (G _ _ HJ (Ety2_computes fft1 fft2 c HC)).
Qed.

(** the one-dimensional Mx: the result is right, entry 0 of the argument is multiplied and divided by sqrt 2 *)
Definition mx_arg xs : list T := <[0%nat := div (mul (at_ xs 0) (sqrt_ two)) (sqrt_ two)]> xs.
Lemma started_Mx1 s nr nc mode mb mo ms ax s1 : started s (Z.of_nat nr) (Z.of_nat nc) mode mb mo ms ax s1 ->
  one_d (Z.of_nat nr) (Z.of_nat nc) mode = true ->
  forall s2 X xs D ds, hist (blocks s mb) (dct_ops fft1 fft2 ax (length ms) (nr * nc)) s1 s2 ->
    good_call (blocks s mb) (o_Mx fft1 fft2 ax (nr * nc)) s2 X xs D ds ->
    exists s3, call fft1 fft2 (ax_Mx ax) X D s2 = Ok tt s3 /\ seg s3 D (fM s nr nc true xs) /\ length (fM s nr nc true xs) = (nr * nc)%nat /\ seg s3 X (mx_arg xs) /\
      forall Y ys, outside Y (blocks s mb) -> disj D (nr * nc) Y (length ys) -> disj X (nr * nc) Y (length ys) -> seg s2 Y ys -> seg s3 Y ys.
Proof.
  intros H Hod. destruct (started_inv _ _ _ _ _ _ _ _ _ H) as [_ _ _ _ _ Hmade _ _]. clear H.
  destruct Hmade as [m s1 Eo Em HC HJ|nr' nc' s1 Eo Er Ec HC HJ]; [|congruence].
  assert (m = nr * nc)%nat as -> by lia. clear Em. intros s2 X xs D ds Hh HG.
  set (c := cfg_of s mb mo (nr * nc) ms) in *.
  pose proof (made1_hist fft1 fft2 fft1_len c HC s1 s2 HJ Hh) as HJ2.
  destruct HG as [Sx Lx Wd Hi Hd Ax Ad Ox Od]. cbn [o_Mx x_in x_out x_op] in *.
  assert (Lm : length (mx_of fft1 (c_root c) (nr * nc) xs) = (nr * nc)%nat) by apply tab_length.
  assert (Lw : length (mx_arg xs) = (nr * nc)%nat) by (unfold mx_arg; by rewrite insert_length).
  eexists. split; [exact (Mx_run fft1 fft2 fft1_len c HC s2 X xs D HJ2 Sx Lx Wd Hd Ax Ad)|].
  fold (mx_arg xs). unfold fM.
  assert (Sd : seg (wr D (mx_of fft1 (c_root c) (nr * nc) xs) s2) D (mx_of fft1 (c_root c) (nr * nc) xs)) by (apply seg_wr; by rewrite Lm).
  assert (Wx : wok (wr D (mx_of fft1 (c_root c) (nr * nc) xs) s2) X (nr * nc)).
  { apply wok_wr; [by rewrite Lm|]. rewrite <- Lx. by apply seg_wok. }
  split; [|split; [done|split]].
  - apply seg_wr_disj; [by rewrite Lw|exact Sd|]. rewrite Lw. match goal with |- disj X _ D ?l => replace l with (nr * nc)%nat by (symmetry; apply tab_length) end. by apply disj_sym.
  - apply seg_wr. by rewrite Lw.
  - intros Y ys Oy HdD HdX Sy. apply seg_wr_disj; [by rewrite Lw| |by rewrite Lw].
    assert (Lm' : length (mx_of fft1 (c_root c) (c_m c) xs) = (nr * nc)%nat) by apply tab_length.
    apply seg_wr_disj; [by rewrite Lm'|done|by rewrite Lm'].
Qed.
(** set-up does succeed for valid arguments when memory lasts *)
Lemma started_exists s nr nc mode mb mo ms ax0 : unborn s -> segi s (Ptr mb mo) ms -> (1 <= nr)%nat -> (1 <= nc)%nat -> (1 <= length ms)%nat ->
  Z.of_nat (nr * nc) <= INT_MAX -> (forall k, k ∈ ms -> (k < nr * nc)%nat) -> grants s 5 ->
  exists ax s1, l1c_setup_dct_transforms (Z.of_nat (length ms)) (Z.of_nat nr) (Z.of_nat nc) mode (Ptr mb mo) ax0 s = Ok (0, ax) s1 /\
    started s (Z.of_nat nr) (Z.of_nat nc) mode mb mo ms ax s1.
Proof.
  intros Hu Hx Hr Hc Hl Hi Hms HG. pose proof (segi_ints _ _ _ Hx) as Hz.
  assert (E : exists ax s1, l1c_setup_dct_transforms (Z.of_nat (length ms)) (Z.of_nat nr) (Z.of_nat nc) mode (Ptr mb mo) ax0 s = Ok (0, ax) s1).
  { rewrite (setup_valid s (Z.of_nat (length ms)) (Z.of_nat nr) (Z.of_nat nc) mode _ ax0 (Z.of_nat <$> ms)) by (lia || done || by rewrite fmap_length).
    assert (Ef : forallb (in_range (Z.of_nat nr * Z.of_nat nc - 1)) (Z.of_nat <$> ms) = true).
    { apply forallb_forall. intros z Hin. apply elem_of_list_In, elem_of_list_fmap in Hin as (k & -> & Hk). specialize (Hms k Hk).
      unfold in_range. apply andb_true_iff. split; apply Z.leb_le; lia. }
    rewrite Ef. assert (G3 : grants s 3) by (intros i Hi3; apply HG; lia). destruct (one_d _ _ mode).
    - destruct (setup1_run s (Z.of_nat (length ms)) (Z.of_nat nr * Z.of_nat nc) (Ptr mb mo) ax0 Hu ltac:(nia)) as
        [(_ & s' & E1 & _)|[(_ & Hn & _)|(Hn & _)]]; [eauto|done|done].
    - destruct (setup2_run s (Z.of_nat (length ms)) nr nc (Ptr mb mo) ax0 Hu Hr Hc Hi) as
        [(_ & s' & E1 & _)|[(_ & Hn & _)|(Hn & _)]]; [eauto|done|done]. }
  destruct E as (ax & s1 & E). exists ax, s1. split; [done|]. split; eauto.
Qed.
End generic.
