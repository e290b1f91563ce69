(** * What the functions of src/matrix_transforms.c compute, and their set-up. *)
From Coq Require Import ZArith Lia.
From stdpp Require Import base numbers gmap list.
From Verif Require Import Globals Mem M_Math M_Memory M_Status M_Matrix M_TVt P_Mem P_Loop P_Math P_Touch P_Step P_Memory P_Own P_CG P_Newton S_Mem S_Xform P_Xform P_FFTW P_Dct1s P_Dct2s P_Dct.
Local Open Scope Z_scope.

Section matrix.
Context `{N : Num}.
Implicit Types (s : st) (xs ys : list T).

(** A x and A^T y, in the order of the reference BLAS *)
Definition mv_of (n m : nat) (a xs : list T) : list T :=
  tab n (fun i => add zero (mul one (foldi m (fun j t => add t (mul (at_ a (i * m + j)) (at_ xs j))) zero))).
Definition mtv_of (n m : nat) (a ys : list T) : list T :=
  tab m (fun j => foldi n (fun i t => add t (mul (mul one (at_ ys i)) (at_ a (i * m + j)))) zero).

Lemma seg_sto1 s p n i v q zs : wok s p n -> (i < n)%nat -> disj p n q (length zs) -> seg s q zs -> seg (wr (padd p (Z.of_nat i)) [v] s) q zs.
Proof.
  intros Hw Hi Hd Hq. apply seg_wr_disj; [eapply wok_padd; [exact Hw|simpl; lia]|done|]. eapply disj_padd; [exact Hd|simpl; lia].
Qed.
Lemma fill_run s n x v : wok s x n -> for_ 0 (Z.of_nat n) (fun i => sto x i v) s = Ok tt (wr x (const_of n v) s).
Proof.
  intros Hw. apply (for_elem n x [] []); auto; [|apply seg_nil]. intros q xs H. by apply elem_of_nil in H.
Qed.
Lemma idx_lt n m i j : (i < n)%nat -> (j < m)%nat -> (i * m + j < n * m)%nat.
Proof. intros. nia. Qed.
Lemma dgemv_n_run s (n m : nat) A a X xs Y : seg s A a -> length a = (n * m)%nat -> seg s X xs -> length xs = m -> wok s Y n ->
  disj Y n X m -> disj Y n A (n * m) ->
  dgemv_n (Z.of_nat n) (Z.of_nat m) A X Y s = Ok tt (wr Y (mv_of n m a xs) s).
Proof.
  intros Sa La Sx Lx Wy Hdx Hda. unfold dgemv_n. rewrite (bind_ok _ _ _ _ _ (fill_run s n Y zero Wy)).
  set (s1 := wr Y (const_of n zero) s). assert (Lc : length (const_of n zero) = n) by apply const_of_len.
  assert (W1 : wok s1 Y n) by (apply wok_wr; [by rewrite Lc|done]).
  assert (Sa1 : seg s1 A a) by (apply seg_wr_disj; rewrite ?Lc, ?La; done).
  assert (Sx1 : seg s1 X xs) by (apply seg_wr_disj; rewrite ?Lc, ?Lx; done).
  destruct (for_cells_par (fun t => wok t Y n /\ seg t A a /\ seg t X xs) n Y (const_of n zero)
    (fun i => add zero (mul one (foldi m (fun j t => add t (mul (at_ a (i * m + j)) (at_ xs j))) zero)))
    (fun i => let* t := for_acc 0 (Z.of_nat m) zero (fun j a => let* w := ld A (i * Z.of_nat m + j) in let* v := ld X j in ret (add a (mul w v))) in
      let* v := ld Y i in sto Y i (add v (mul one t))) s1) as [E _].
  - intros t i v (H1 & H2 & H3) Hi. split; [apply wok_wr; [eapply wok_padd; [exact H1|simpl; lia]|done]|].
    split; eapply seg_sto1; rewrite ?La, ?Lx; eauto.
  - intros t H. apply H.
  - intros t i (H1 & H2 & H3) Hi Hc.
    rewrite (bind_ok _ _ _ (foldi m (fun j t => add t (mul (at_ a (i * m + j)) (at_ xs j))) zero) t).
    2:{ apply (for_acc_fold m zero _ (fun j t => add t (mul (at_ a (i * m + j)) (at_ xs j)))). intros j b Hj.
        replace (Z.of_nat i * Z.of_nat m + Z.of_nat j) with (Z.of_nat (i * m + j)) by lia.
        rewrite (bind_ok _ _ _ _ _ (seg_ld t A a (i * m + j) H2 ltac:(rewrite La; by apply idx_lt))).
        rewrite (bind_ok _ _ _ _ _ (seg_ld t X xs j H3 ltac:(by rewrite Lx))). done. }
    assert (Ez : const_of n zero !! i = Some zero) by (unfold const_of; by rewrite tab_lookup).
    rewrite (bind_ok _ _ _ zero t); [done|]. unfold ld. by rewrite (Hc zero Ez).
  - done.
  - apply seg_wr. by rewrite Lc.
  - rewrite E. unfold s1. rewrite wr_overwrite' by (unfold mv_of; rewrite ?tab_length, ?Lc; done). done.
Qed.
Lemma dgemv_t_run s (n m : nat) A a Y ys X : seg s A a -> length a = (n * m)%nat -> seg s Y ys -> length ys = n -> wok s X m ->
  disj X m Y n -> disj X m A (n * m) ->
  dgemv_t (Z.of_nat n) (Z.of_nat m) A Y X s = Ok tt (wr X (mtv_of n m a ys) s).
Proof.
  intros Sa La Sy Ly Wx Hdy Hda. unfold dgemv_t. rewrite (bind_ok _ _ _ _ _ (fill_run s m X zero Wx)).
  set (part := fun i => tab m (fun j => foldi i (fun i t => add t (mul (mul one (at_ ys i)) (at_ a (i * m + j)))) zero)).
  assert (Lp : forall i, length (part i) = m) by (intros i; apply tab_length).
  change (const_of m zero) with (part 0%nat). 
  pose proof (for_inv (fun i => wr X (part i) s) 0 (Z.of_nat n) (fun i =>
    let* v := ld Y i in let t := mul one v in
    for_ 0 (Z.of_nat m) (fun j => let* w := ld A (i * Z.of_nat m + j) in let* u := ld X j in sto X j (add u (mul t w))))) as H.
  rewrite Z.sub_0_r, Nat2Z.id in H. apply H. clear H. intros i Hi. rewrite Z.add_0_l. set (s1 := wr X (part i) s).
  assert (W1 : wok s1 X m) by (apply wok_wr; [by rewrite Lp|done]).
  assert (Sa1 : seg s1 A a) by (apply seg_wr_disj; rewrite ?Lp, ?La; done).
  assert (Sy1 : seg s1 Y ys) by (apply seg_wr_disj; rewrite ?Lp, ?Ly; done).
  rewrite (bind_ok _ _ _ _ _ (seg_ld s1 Y ys i Sy1 ltac:(lia))).
  destruct (for_cells_par (fun t => wok t X m /\ seg t A a) m X (part i)
    (fun j => add (at_ (part i) j) (mul (mul one (at_ ys i)) (at_ a (i * m + j))))
    (fun j => let* w := ld A (Z.of_nat i * Z.of_nat m + j) in let* u := ld X j in sto X j (add u (mul (mul one (at_ ys i)) w))) s1) as [E _].
  - intros t j v (H1 & H2) Hj. split; [apply wok_wr; [eapply wok_padd; [exact H1|simpl; lia]|done]|]. eapply seg_sto1; rewrite ?La; eauto.
  - intros t H. apply H.
  - intros t j (H1 & H2) Hj Hc. replace (Z.of_nat i * Z.of_nat m + Z.of_nat j) with (Z.of_nat (i * m + j)) by lia.
    rewrite (bind_ok _ _ _ _ _ (seg_ld t A a (i * m + j) H2 ltac:(rewrite La; by apply idx_lt))).
    assert (Ez : part i !! j = Some (at_ (part i) j)) by (apply at_lookup; by rewrite Lp).
    rewrite (bind_ok _ _ _ (at_ (part i) j) t); [done|]. unfold ld. by rewrite (Hc _ Ez).
  - done.
  - apply seg_wr. by rewrite Lp.
  - etransitivity; [exact E|]. unfold s1. rewrite wr_overwrite' by (rewrite ?tab_length, ?Lp; done). do 2 f_equal.
    unfold part. apply tab_ext. intros j Hj. rewrite at_tab by done. done.
Qed.

(** a live transform: block of the work array, the matrix *)
Record cfgm := mkCm { cm_w : nat; cm_ab : nat; cm_ao : Z; cm_n : nat; cm_m : nat; cm_a : list T }.
Record okm (c : cfgm) : Prop := mkOkm { okm_l : length (cm_a c) = (cm_n c * cm_m c)%nat; okm_ne : cm_w c <> cm_ab c }.
Definition Fm (c : cfgm) : list nat := [cm_w c; cm_ab c].
Notation Aptr c := (Ptr (cm_ab c) (cm_ao c)). Notation Wptr c := (Ptr (cm_w c) 0).
Definition stm c := mkMT (Aptr c) (Z.of_nat (cm_n c)) (Z.of_nat (cm_m c)) (Wptr c).
Record Jm (c : cfgm) s : Prop := mkJm { jm_gl : g_mt (gl s) = stm c; jm_a : seg s (Aptr c) (cm_a c); jm_w : wok s (Wptr c) (Nat.max (cm_n c) (cm_m c)) }.
Context (c : cfgm) (HC : okm c).
Notation n := (cm_n c). Notation m := (cm_m c). Notation a := (cm_a c).
Lemma Jm_same s s' : Jm c s -> same_on (Fm c) s s' -> Jm c s'.
Proof.
  intros [] (H & Hg & He). 
  assert (HCe : forall b o i, b ∈ Fm c -> cell s' (Ptr b o) i = cell s (Ptr b o) i).
  { intros b o i Hb. unfold cell. by rewrite (proj1 (H b Hb)). }
  split; [by rewrite Hg| |].
  - intros i v Hi. rewrite HCe by (unfold Fm; isin). by apply jm_a0.
  - intros i Hi. rewrite HCe by (unfold Fm; isin). by apply jm_w0.
Qed.
Lemma Jm_touch W s s' : Jm c s -> touch W s s' -> (forall b, b ∈ W -> b ∉ [cm_ab c]) -> Jm c s'.
Proof.
  intros [] Ht HW. split; [by rewrite (t_gl _ _ _ Ht)| |by eapply touch_wok].
  eapply touch_seg; [exact Ht| |done]. intros Hb. apply (HW _ Hb). left.
Qed.
Lemma Jm_wr s D ys : Jm c s -> outside D (Fm c) -> Jm c (wr D ys s).
Proof.
  intros HJ Od. destruct D as [|b o]; [done|]. eapply (Jm_touch [b]); [done|apply touch_wr; left|].
  intros b' Hb. apply elem_of_list_singleton in Hb as ->. intros Hb. apply elem_of_list_singleton in Hb as ->. apply Od. unfold Fm. isin.
Qed.
Lemma getm_run s : Jm c s -> getm s = Ok (stm c) s.
Proof. intros HJ. unfold getm, getg, bind, ret. by rewrite (jm_gl _ _ HJ). Qed.
Lemma disj_outm X k b o l : outside X (Fm c) -> b ∈ Fm c -> disj X k (Ptr b o) l.
Proof. intros Ho Hb. apply disj_sym. destruct X as [|bx ox]; [done|]. simpl in *. intros <-. done. Qed.
Lemma Ax_run s X xs D : Jm c s -> seg s X xs -> length xs = m -> wok s D n -> disj D n X m -> disj D n (Aptr c) (n * m) ->
  mt_Ax X D s = Ok tt (wr D (mv_of n m a xs) s).
Proof.
  intros HJ Sx Lx Wd Hd Hda. unfold mt_Ax. rewrite (bind_ok _ _ _ _ _ (getm_run s HJ)). cbn [stm mt_N mt_M mt_A].
  apply dgemv_n_run; try done; [apply HJ|apply HC].
Qed.
Lemma Aty_run s Y ys D : Jm c s -> seg s Y ys -> length ys = n -> wok s D m -> disj D m Y n -> disj D m (Aptr c) (n * m) ->
  mt_Aty Y D s = Ok tt (wr D (mtv_of n m a ys) s).
Proof.
  intros HJ Sx Lx Wd Hd Hda. unfold mt_Aty. rewrite (bind_ok _ _ _ _ _ (getm_run s HJ)). cbn [stm mt_N mt_M mt_A].
  apply dgemv_t_run; try done; [apply HJ|apply HC].
Qed.
Lemma mv_len xs : length (mv_of n m a xs) = n. Proof. apply tab_length. Qed.
Lemma mtv_len xs : length (mtv_of n m a xs) = m. Proof. apply tab_length. Qed.
Lemma Jm_oper op k l A : (forall s X xs D, Jm c s -> seg s X xs -> length xs = k -> wok s D l -> disj D l X k ->
    is_aligned s X = true -> is_aligned s D = true -> outside X (Fm c) -> outside D (Fm c) ->
    exists s', op X D s = Ok tt s' /\ touch (Fm c) (wr D (A xs) s) s' /\ Jm c s') ->
  (forall xs, length xs = k -> length (A xs) = l) -> oper (Fm c) (Jm c) op k l A.
Proof. intros H1 H2. split; [exact H1| |exact H2]. intros W s s' HJ Ht HW. eapply Jm_same; [exact HJ|]. by eapply same_touch. Qed.
Lemma Ax_oper : oper (Fm c) (Jm c) mt_Ax m n (mv_of n m a).
Proof.
  apply Jm_oper; [|intros; apply mv_len]. intros s X xs D HJ Sx Lx Wd Hd Ax Ad Ox Od. eexists. split; [apply Ax_run; try done; apply disj_outm; [done|unfold Fm; isin]|].
  split; [apply touch_refl|by apply Jm_wr].
Qed.
Lemma Aty_oper : oper (Fm c) (Jm c) mt_Aty n m (mtv_of n m a).
Proof.
  apply Jm_oper; [|intros; apply mtv_len]. intros s X xs D HJ Sx Lx Wd Hd Ax Ad Ox Od. eexists. split; [apply Aty_run; try done; apply disj_outm; [done|unfold Fm; isin]|].
  split; [apply touch_refl|by apply Jm_wr].
Qed.
Lemma AtAx_oper : oper (Fm c) (Jm c) mt_AtAx m m (fun xs => mtv_of n m a (mv_of n m a xs)).
Proof.
  apply Jm_oper; [|intros; apply mtv_len]. intros s X xs D HJ Sx Lx Wd Hd Ax Ad Ox Od.
  unfold mt_AtAx. rewrite (bind_ok _ _ _ _ _ (getm_run s HJ)). cbn [stm mt_dwork].
  assert (Ww : wok s (Wptr c) n) by (intros i Hi; apply (jm_w _ _ HJ); lia).
  pose proof (okm_ne _ HC) as Hne.
  rewrite (bind_ok _ _ _ _ _ (Ax_run s X xs (Wptr c) HJ Sx Lx Ww ltac:(apply disj_sym, disj_outm; [done|unfold Fm; isin]) ltac:(apply disj_blocks; auto))).
  set (s1 := wr (Wptr c) (mv_of n m a xs) s).
  assert (HJ1 : Jm c s1). { eapply (Jm_touch [cm_w c]); [exact HJ|apply touch_wr; left|]. intros b Hb. apply elem_of_list_singleton in Hb as ->. intros Hb. by apply elem_of_list_singleton in Hb. }
  rewrite (Aty_run s1 (Wptr c) (mv_of n m a xs) D HJ1); [|apply seg_wr; by rewrite mv_len|apply mv_len|apply wok_wr; [by rewrite mv_len|done]|apply disj_outm; [done|unfold Fm; isin]|apply disj_outm; [done|unfold Fm; isin]].
  eexists. split; [reflexivity|]. split; [|by apply Jm_wr]. 
  apply touch_wr_both. apply touch_wr. unfold Fm. isin.
Qed.
Lemma mtId_oper : oper (Fm c) (Jm c) mt_Identity m m (fun xs => xs).
Proof.
  apply Jm_oper; [|done]. intros s X xs D HJ Sx Lx Wd Hd Ax Ad Ox Od. unfold mt_Identity. rewrite (bind_ok _ _ _ _ _ (getm_run s HJ)). cbn [stm mt_M].
  rewrite (dcopy_run s m X xs D Sx Lx Wd Hd). eexists. split; [reflexivity|]. split; [apply touch_refl|by apply Jm_wr].
Qed.
End matrix.

Section setup.
Context `{N : Num}.
Implicit Types (s : st).
Definition axm (n m : Z) : AxFuns :=
  mkAx _ n m m m zero (Fn F_mt_Ax) (Fn F_mt_Aty) (Fn F_mt_AtAx) (Fn F_mt_Identity) (Fn F_mt_Identity)
    (Fn F_mt_Identity) (Fn F_mt_Identity) (Fn F_mt_Ax) (Fn F_mt_Aty) (Fn F_mt_destroy).
Lemma setm_step {A} f (k : M A) s : (setm f ;! k) s =
  k (set_gl (fun g => mkGlob _ (g_d1 g) (g_d2 g) (g_tv g) (f (g_mt g)) (g_printf g)) s).
Proof. done. Qed.
Lemma setupm_nonpos s n m A ax : n <= 0 \/ m <= 0 -> l1c_setup_matrix_transforms n m A ax s = Ok (L1C_INVALID_ARGUMENT, ax) s.
Proof.
  intros H. unfold l1c_setup_matrix_transforms. destruct (Z.leb_spec n 0); [done|]. destruct (Z.leb_spec m 0); [done|]. lia.
Qed.
Lemma setupm_run s (n m : nat) A ax : unborn s -> (1 <= n)%nat -> (1 <= m)%nat ->
  (alloc_ok (en s) (nx s) = true /\ exists s', l1c_setup_matrix_transforms (Z.of_nat n) (Z.of_nat m) A ax s = Ok (0, axm (Z.of_nat n) (Z.of_nat m)) s' /\
     ledger [] [(KD, nx s)] s s' /\
     (forall ab ao a, A = Ptr ab ao -> seg s A a -> length a = (n * m)%nat -> Jm (mkCm (nx s) ab ao n m a) s' /\ nx s <> ab)) \/
  (alloc_ok (en s) (nx s) = false /\ exists s', l1c_setup_matrix_transforms (Z.of_nat n) (Z.of_nat m) A ax s = Ok (L1C_OUT_OF_MEMORY, ax) s' /\
     ledger [] [] s s' /\ mt_dwork (g_mt (gl s')) = Null).
Proof.
  intros Hu Hn Hm. unfold l1c_setup_matrix_transforms. destruct (Z.leb_spec (Z.of_nat n) 0); [lia|]. destruct (Z.leb_spec (Z.of_nat m) 0); [lia|]. cbn [orb].
  set (L := Nat.max n m). replace (if Z.of_nat m <? Z.of_nat n then Z.of_nat n else Z.of_nat m) with (Z.of_nat L) by (destruct (Z.ltb_spec (Z.of_nat m) (Z.of_nat n)); lia).
  destruct (malloc_acct [] [] s s (Z.of_nat L) Hu (acct_nil s)) as (p & s1 & E1 & A1 & G1 & P1 & O1 & N1).
  cbv zeta. rewrite (bind_ok _ _ _ _ _ E1). rewrite setm_step.
  pose proof (ac_l _ _ _ _ A1) as L1. pose proof (ac_e _ _ _ _ A1) as HE. unfold owns in L1. cbn [app mbind list_bind e_p] in L1. rewrite app_nil_r in L1.
  apply Forall_cons in HE as [HE _]. unfold ent_ok in HE. cbn [e_p e_b e_n e_c] in HE.
  destruct HE as [(-> & _ & Hok & Hd & Ha)|(-> & [Hlt|Hno])]; [left| |right].
  - split; [done|]. cbn [is_null]. set (t1 := set_gl _ s1). cbn [own] in L1.
    assert (Wt : wok t1 (Ptr (nx s) 0) L) by (eapply wok_block; [exact Hd|]; rewrite replicate_length; lia).
    rewrite (bind_ok _ _ _ _ _ (fill_run t1 L (Ptr (nx s) 0) zero Wt)). rewrite setm_step.
    assert (T1 : touch [nx s] t1 (wr (Ptr (nx s) 0) (const_of L zero) t1)) by (apply touch_wr; left).
    eexists. split; [reflexivity|]. split.
    + apply ledger_gl. eapply ledger_touch; [apply (ledger_gl [] [(KD, nx s)] s s1); exact L1|exact T1|].
      intros b Hb. apply elem_of_list_singleton in Hb as ->. right. left.
    + intros ab ao a -> Sa La.
      assert (Hne : (ab < nx s)%nat). { eapply (wok_old s ab ao (n * m)); [done|nia|]. rewrite <- La. by apply seg_wok. }
      split; [|lia]. split.
      * done.
      * cbn [cm_ab cm_ao cm_a]. intros i v Hi. change (cell (wr (Ptr (nx s) 0) (const_of L zero) t1) (Ptr ab ao) (Z.of_nat i) = Some (Some v)).
        rewrite (touch_cell _ _ _ _ _ _ T1) by (intros Hb; apply elem_of_list_singleton in Hb; lia).
        unfold cell. change (dm t1) with (dm s1). rewrite (lg_dm _ _ _ _ L1); [by apply Sa|apply not_elem_of_nil|].
        intros Hb. apply elem_of_list_singleton in Hb. injection Hb as ->. lia.
      * cbn [cm_w cm_n cm_m]. exact (touch_wok _ _ _ _ _ T1 Wt).
  - lia.
  - split; [done|]. cbn [is_null]. eexists. split; [reflexivity|]. split; [apply ledger_gl; exact L1|]. done.
Qed.
Lemma destroym_run c s : Jm c s -> (0 < Nat.max (cm_n c) (cm_m c))%nat -> exists s', mt_destroy s = Ok tt s' /\
  gone s s' [cm_w c] [].
Proof.
  intros HJ Hp. unfold mt_destroy. rewrite (bind_ok _ _ _ _ _ (getm_run c s HJ)). cbn [stm mt_dwork]. unfold l1c_free_double.
  destruct (wok_live s _ _ _ (jm_w _ _ HJ) Hp) as [v Hv].
  eexists. split; [cbn [free_d Z.eqb]; rewrite Hv; reflexivity|]. split; [|split; [|done]].
  - intros b. cbn [set_dm dm]. case_bool_decide as Hb.
    + apply elem_of_list_singleton in Hb as ->. apply lookup_delete.
    + rewrite lookup_delete_ne; [done|]. intros <-. apply Hb. left.
  - intros b. case_bool_decide as Hb; [by apply elem_of_nil in Hb|done].
Qed.
End setup.
