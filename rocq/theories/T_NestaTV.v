(** * C76: NESTA with the library's DCT-TV transforms, from set-up to release. *)
From Coq Require Import ZArith Lia Reals Lra Psatz.
From stdpp Require Import base numbers gmap list.
From Verif Require Import P_CG Globals Mem M_Math M_Memory M_Status M_FFTW M_TV M_Dct M_TVt M_Nesta P_Mem P_Loop P_Math P_MathR P_TVR P_Touch P_Step P_TV P_Memory P_Own P_Own2 P_Own3 P_Newton L_Sum S_Vec L_Lin L_ER S_Img S_Newt S_Dct P_FFTW P_Dct1 P_Dct1s P_Dct2 P_Dct2s S_Mem S_Xform P_Xform S_DctApi P_Dct P_DctA S_TVtApi P_TVt P_TVs P_TVa P_TVuR S_Nesta P_Nesta P_Nesta2 P_NestaG P_NestaGR E_Dct T_Dct T_TVt T_Bregman T_Newton T_Nesta P_DctE P_TVtE P_NestaTV T_L1qcDct.
Local Open Scope R_scope.

Section C76.
(** FFTW computes its documented transforms of finite data *)
Context (fft1 : fkind -> list er -> list er) (fft2 : fkind -> nat -> nat -> list er -> list er).
Hypothesis fft1_len : forall k xs, length (fft1 k xs) = length xs.
Hypothesis fft2_len : forall k nr nc xs, length xs = (nr * nc)%nat -> length (fft2 k nr nc xs) = (nr * nc)%nat.
Hypothesis fft1_exact : forall k (x : list R), fft1 k (fin x) = fin (dft1 k x).
Hypothesis fft2_exact : forall k nr nc (x : list R), length x = (nr * nc)%nat -> fft2 k nr nc (fin x) = fin (dft2 k nr nc x).
Notation stE := (@st ER).

(** A call of l1c_nesta on a transform that was set up at s (reaching s1) in analysis mode and then used
    in any way (reaching t).  b is an aligned array holding the n numbers bv, x an array of m doubles; both
    keep off the transform's memory; sigma and mu are positive numbers; no index occurs twice. *)
Record tv_nesta_call (s : stE) (mrow mcol : Z) (rv rh : R) (mode : Z) (mb : nat) (mo : Z) (ms : list nat) (ax : @AxFuns ER) (s1 t : stE)
    (bx bb : nat) (bv : list R) (opts : @NestaOpts ER) (sg : R) : Prop := {
  tn_start : @started_t ER s mrow mcol (Fin rv) (Fin rh) mode analysis mb mo ms ax s1;
  tn_hist : let m := Z.to_nat (mrow * mcol) in @hist ER (blocks_t s mb) (@analysis_ops ER fft1 fft2 ax (length ms) m (@width ER (Fin rv) (Fin rh) m)) s1 t;
  tn_nodup : NoDup ms;
  tn_unborn : unborn t; tn_nx : (nx s1 <= nx t)%nat;
  tn_bx : (bx < nx t)%nat; tn_bb : (bb < nx t)%nat; tn_ne : bx <> bb; tn_xF : bx ∉ blocks_t s mb; tn_bF : bb ∉ blocks_t s mb;
  tn_b : @seg ER t (Ptr bb 0) (fin bv); tn_lb : length bv = length ms; tn_x : @wok ER t (Ptr bx 0) (Z.to_nat (mrow * mcol)); tn_al : is_aligned t (Ptr bb 0) = true;
  tn_sigma : no_sigma opts = Fin sg; tn_sg : 0 < sg; tn_mu : exists mu, no_mu opts = Fin mu /\ 0 < mu;
  tn_cont : (no_n_continue opts < INT_MAX)%Z
}.
(** the measurements are not all zero (or no stage is asked for) *)
Definition nonzero_or_idle (bv : list R) (opts : @NestaOpts ER) : Prop := (no_n_continue opts <= 0)%Z \/ exists i, nth i bv 0 <> 0.
Definition tv_nesta (mrow mcol : Z) (ms : list nat) bx bb ax opts : M Z :=
  @l1c_nesta ER (@M_TVt.call ER fft1 fft2) (mrow * mcol) (Ptr bx 0) (Z.of_nat (length ms)) (Ptr bb 0) ax opts.

(** Which of four things happens is decided by the memory granted and by the alignment of the queue. *)
Theorem nesta_tv_outcome s mrow mcol rv rh mode mb mo ms ax s1 t bx bb bv opts sg :
  tv_nesta_call s mrow mcol rv rh mode mb mo ms ax s1 t bx bb bv opts sg -> nonzero_or_idle bv opts ->
  let run := tv_nesta mrow mcol ms bx bb ax opts t in
  (refused t 10 -> exists t', run = Ok L1C_OUT_OF_MEMORY t' /\ same_blocks t t' /\ forall b, dm t' !! b = dm t !! b) /\
  (granted t 10 -> alloc_ok (en t) (nx t + 10) = false -> run = Ub UbOob) /\
  (granted t 11 -> ~ queue_aligned t -> (1 <= no_n_continue opts)%Z -> run = Ub UbAlign) /\
  (granted t 11 -> queue_aligned t \/ (no_n_continue opts <= 0)%Z ->
     exists t' x, run = Ok 0%Z t' /\ same_blocks t t' /\ (forall b, b <> bx -> b ∉ blocks_t s mb -> dm t' !! b = dm t !! b) /\
       @seg ER t' (Ptr bx 0) (fin x) /\ length x = Z.to_nat (mrow * mcol) /\
       nrm2 (vlin 1 (sample ms x) (-1) bv) <= sg /\
       (* and the transforms can be used as before: here the identity M and destroy *)
       let F := blocks_t s mb in let m := Z.to_nat (mrow * mcol) in let ops := @analysis_ops ER fft1 fft2 ax (length ms) m (@width ER (Fin rv) (Fin rh) m) in
       en t' = en t /\ (nx t <= nx t')%nat /\ unborn t' /\ (forall b, (b < nx t)%nat -> al t' b = al t b) /\
       (forall t1 X v D, hist F ops t' t1 -> seg t1 X v -> length v = m -> wok t1 D m -> disj D m X m -> @M_TVt.call ER fft1 fft2 (ax_Mx ax) X D t1 = Ok tt (wr D v t1)) /\
       forall t1, hist F ops t' t1 -> exists t2, call_destroy (ax_destroy ax) t1 = Ok tt t2 /\
         gone t1 t2 [nx s; nx s + 1; nx s + 2; nx s + 3]%nat [nx s + 5; nx s + 4]%nat).
Proof.
  intros [HS HH ND Hu Hnx Hbx Hbb Hne HxF HbF Sb Lb Wx Al Es Hs (mu & Em & Hmu) Hc] Hst. cbv zeta.
  destruct (@started_live ER fft1 fft2 fft1_len fft2_len _ _ _ _ _ _ _ _ _ _ _ _ HS) as (nr & nc & sb & axb & J & -> & -> & L).
  unfold tv_nesta. rewrite m_nat in *. rewrite <- Nat2Z.inj_mul. set (m := (nr * nc)%nat) in *. set (n := length ms) in *.
  pose proof (tv_hist fft1 fft2 s nr nc rv rh mode analysis mb ms ax s1 sb axb J L eq_refl t HH) as HQ.
  pose proof (tv_sizes fft1 fft2 s nr nc rv rh mode analysis mb ms ax s1 sb axb J L eq_refl) as (E1 & E2 & E3).
  assert (HF : forall b, b ∈ blocks_t s mb -> (b < nx t)%nat).
  { pose proof (lv_led _ _ _ _ _ _ _ _ _ _ _ _ _ _ _ _ L) as HL. pose proof (lv_nx _ _ _ _ _ _ _ _ _ _ _ _ _ _ _ _ L) as En.
    assert (HO : forall k b, (k, b) ∈ owned1 sb ++ [(KD, nx s)] -> (b < nx s1)%nat) by (intros k b Hb; apply (lg_own _ _ _ _ HL k b Hb)).
    pose proof (st_old _ _ _ _ _ _ _ _ _ _ _ _ HS) as Hmb. pose proof (lg_nx _ _ _ _ HL) as Hn1. pose proof (HO KO (nx sb + 4)%nat ltac:(unfold owned1; cbn [app]; isin)) as H5. rewrite En in H5.
    intros b Hb. unfold blocks_t in Hb. repeat (apply elem_of_cons in Hb as [->|Hb]; [lia|]). by apply elem_of_nil in Hb. }
  pose proof (@nesta_g ER (@M_TVt.call ER fft1 fft2) isnum isnum_zero isnum_abs m n _ _ _ _ _ (blocks_t s mb) _ ax
    (tv_A fft1 fft2 s nr nc rv rh mode analysis mb ms ax s1 sb axb J L eq_refl) (tv_B fft1 fft2 s nr nc rv rh mode analysis mb ms ax s1 sb axb J L eq_refl)
    (tv_Wt fft1 fft2 s nr nc rv rh mode analysis mb ms ax s1 sb axb J L eq_refl) (tv_W fft1 fft2 s nr nc rv rh mode analysis mb ms ax s1 sb axb J L eq_refl)
    (tv_p fft1 fft2 s nr nc rv rh mode analysis mb ms ax s1 sb axb J L) (tv_Q_same fft1 fft2 s nr nc rv rh mode analysis mb ms ax s1 sb axb J L)
    t bx bb (fin bv) opts
    (tv_ok fft1 fft2 fft1_exact fft2_exact s nr nc rv rh mode analysis mb ms ax s1 sb axb J L eq_refl ND bv opts sg mu Lb Es Hs Em Hmu Hst)
    Hu E1 E2 E3 HQ HF Hbx Hbb Hne HxF HbF Sb ltac:(by rewrite fin_length) Wx Al) as HG.
  specialize (HG ltac:(pose proof (tv_n fft1 fft2 s nr nc rv rh mode analysis mb ms ax s1 sb axb J L ND); unfold m, n; lia) Hc). cbv zeta in HG.
  destruct (tv_result fft1 fft2 fft1_exact fft2_exact s nr nc rv rh mode analysis mb ms ax s1 sb axb J L eq_refl ND bv opts sg mu Lb Es Hs Em Hmu Hst) as (x & Ex & Lx & Fx).
  unfold m, n in HG. rewrite Ex in HG. pose proof (tv_fields fft1 fft2 s nr nc rv rh mode analysis mb ms ax s1 sb axb J L eq_refl) as Hf.
  unfold granted, refused, queue_aligned.
  destruct HG as [(Hr & t' & E & HL & _)|[(_ & H & _)|[(Hg & _ & Hr & E)|[(Hg & _ & Hl & H1 & E)|(Hg & _ & Hl & t' & E & HL & J' & _ & Sx)]]]]; [|congruence| | |].
  - split_and!.
    + intros _. exists t'. split; [done|]. destruct (ledger_same _ _ _ HL) as [HB HD]. split; [done|]. intros b. apply HD, not_elem_of_nil.
    + intros Hg. destruct Hr as (j & Hj & Ej). by rewrite Hg in Ej.
    + intros Hg. destruct Hr as (j & Hj & Ej). by rewrite Hg in Ej by lia.
    + intros Hg. destruct Hr as (j & Hj & Ej). by rewrite Hg in Ej by lia.
  - split_and!.
    + intros (j & Hj & Ej). by rewrite Hg in Ej.
    + done.
    + intros Hg'. by rewrite Hg' in Hr by lia.
    + intros Hg'. by rewrite Hg' in Hr by lia.
  - split_and!.
    + intros (j & Hj & Ej). by rewrite Hg in Ej by lia.
    + intros _ Hr. by rewrite Hg in Hr by lia.
    + done.
    + intros _ [H|H]; [congruence|lia].
  - split_and!.
    + intros (j & Hj & Ej). by rewrite Hg in Ej by lia.
    + intros _ Hr. by rewrite Hg in Hr by lia.
    + intros _ Hn H1. destruct Hl; [done|lia].
    + intros _ _. exists t', x. split; [done|]. destruct (ledger_same _ _ _ HL) as [HB HD]. split; [done|].
      split. { intros b Hb HbF'. apply HD. apply not_elem_of_cons. done. }
      split; [done|]. split; [done|]. split; [done|]. split; [apply HL|]. split; [apply HL|]. split; [by eapply ledger_unborn|]. split; [apply HL|].
      assert (HJ1 : forall t1, @hist ER (blocks_t s mb) _ t' t1 -> _) by (intros t1 Ht1; exact (hist_J (blocks_t s mb) _ (Q_same _ _ _ _ _ _ _ _ _ _ _ _ _ _ _ _ L Known) _ (an_keep _ _ _ _ _ _ _ _ _ _ _ _ _ _ _ _ L (exactE _ _ _) eq_refl) _ _ J' Ht1)).
      split.
      * intros t1 X v D Ht1 Sv Lv Wd Hd. apply HJ1 in Ht1. destruct (an_ax _ _ _ _ _ _ _ _ _ _ _ _ _ _ _ _ L eq_refl) as (nw & ag & Eax). rewrite Eax. cbn [ax_Mx M_TVt.call].
        unfold tv_Identity. rewrite (bind_ok _ _ _ _ _ (gett_run _ _ _ _ _ _ _ _ (Jx_Jt _ _ _ _ _ _ _ _ _ Ht1))). cbn [stt tv_m]. exact (dcopy_run _ _ _ _ _ Sv Lv Wd Hd).
      * intros t1 Ht1. exact (@tv_destroy_run ER fft1 fft2 _ _ _ _ _ _ _ _ _ _ _ _ _ _ t1 L (HJ1 t1 Ht1)).
Qed.
End C76.

(** set-up takes six blocks *)
Lemma started_t_nx s mrow mcol (av ah : er) mode bp mb mo ms ax s1 : @started_t ER s mrow mcol av ah mode bp mb mo ms ax s1 -> nx s1 = (nx s + 6)%nat.
Proof.
  intros H. destruct (started_t_inv _ _ _ _ _ _ _ _ _ _ _ _ H) as (nr & nc & sb & axb & sb1 & Er & Ec & Hr & Hc & [_ _ _ _ Hnx HB Es _ _ _ _ _ _]).
  rewrite Es. cbn [glt set_gl nx]. pose proof (started_inv _ _ _ _ _ _ _ _ _ HB) as F. rewrite (sf_nx _ _ _ _ _ _ _ _ _ F), Hnx. lia.
Qed.

(** ** A 3 x 3 image, pixels 0 and 4 measured (values 1 and 3), both differences penalised, five stages.
    Memory behaves as e says: the six requests of set-up (blocks 3 to 8) are granted. *)
Module NestaTVEx.
Import L1qcEx.
Definition bv : list R := [1; 3].
Definition s0 (e : @env ER) : @st ER := @demo ER e [0; 4]%nat [@full ER (fin bv); @full ER (fin (vec 9 (fun _ => 0)))].
Definition opts : @NestaOpts ER := @mkNOpt ER (Fin (/ 100)) (Fin (/ 1000)) (Fin (/ 10)) 5 0.
Lemma not_neg (r : R) : 0 <= r -> @ltb_ ER (Fin r) (@zero ER) = false.
Proof. intros H. rewrite zero_ER, zero_RN. cbn [ltb_ ER er_ltb]. unfold Rltb. destruct (Rlt_dec _ _); [lra|done]. Qed.
Lemma ready e : (forall i, (3 <= i < 9)%nat -> alloc_ok e i = true) -> exists ax s1,
  tv_nesta_call f1 f2 (s0 e) 3 3 1 1 dct1 0 0 [0; 4]%nat ax s1 s1 2 1 bv opts (/ 10) /\ nx s1 = 9%nat /\ en s1 = e.
Proof.
  intros He. destruct (@started_t_exists ER (s0 e) 3 3 (Fin 1) (Fin 1) dct1 analysis 0 0 [0; 4]%nat (@ax0 ER)) as (ax & s1 & E & HS); try done; try (simpl; lia).
  - apply demo_unborn.
  - apply demo_segi.
  - apply not_neg. lra.
  - apply not_neg. lra.
  - rewrite psize_E, psize_R. unfold nblocks. destruct (Rlt_dec 0 1); [|lra]. vm_compute. done.
  - intros k Hk. repeat (apply elem_of_cons in Hk as [->|Hk]; [lia|]). by apply elem_of_nil in Hk.
  - intros i Hi. apply He. change (nx (s0 e)) with 3%nat. lia.
  - pose proof (started_t_nx _ _ _ _ _ _ _ _ _ _ _ _ HS) as Hn1. change (nx (s0 e)) with 3%nat in Hn1. exists ax, s1.
    destruct (@started_live ER f1 f2 f1_len f2_len _ _ _ _ _ _ _ _ _ _ _ _ HS) as (nr & nc & sb & axb & J & E1 & E2 & L).
    pose proof (lv_led _ _ _ _ _ _ _ _ _ _ _ _ _ _ _ _ L) as HL. pose proof (lv_nx _ _ _ _ _ _ _ _ _ _ _ _ _ _ _ _ L) as En.
    split; [|split; [lia|exact (lg_en _ _ _ _ HL)]].
    assert (HO : forall b k, (b < 3)%nat -> (k, b) ∉ owned1 sb ++ [(KD, nx (s0 e))]).
    { intros b k Hb Hin. apply (lg_own _ _ _ _ HL) in Hin as [Hin _]. change (nx (s0 e)) with 3%nat in Hin. lia. }
    split; try done; try lra; try lia.
    + apply h_nil.
    + apply (bool_decide_unpack _). vm_compute. done.
    + eapply ledger_unborn; [apply (st_unborn _ _ _ _ _ _ _ _ _ _ _ _ HS)|exact HL].
    + unfold blocks_t. change (nx (s0 e)) with 3%nat. repeat (apply not_elem_of_cons; split; [lia|]). apply not_elem_of_nil.
    + unfold blocks_t. change (nx (s0 e)) with 3%nat. repeat (apply not_elem_of_cons; split; [lia|]). apply not_elem_of_nil.
    + eapply led_seg; [exact HL|intros k; apply HO; lia|]. by apply demo_seg.
    + eapply led_wok; [exact HL|intros k; apply HO; lia|]. eapply demo_wok; [done|]. vm_compute. lia.
    + eapply led_al; [exact HL|change (nx (s0 e)) with 3%nat; lia|done].
    + exists (/ 100). split; [done|lra].
Qed.
Lemma active : nonzero_or_idle bv opts. Proof. right. exists 0%nat. cbn. lra. Qed.
(** no memory for one of the work arrays; none for the queue; an unaligned queue; success *)
Definition unlucky : @env ER := mkEnv (fun _ => true) (fun _ => false) (fun _ _ _ => @zero ER).
Example outcomes :
  (exists ax s1 t', tv_nesta f1 f2 3 3 [0; 4]%nat 2 1 ax opts s1 = Ok L1C_OUT_OF_MEMORY t') /\
  (exists ax s1, tv_nesta f1 f2 3 3 [0; 4]%nat 2 1 ax opts s1 = Ub UbOob) /\
  (exists ax s1, tv_nesta f1 f2 3 3 [0; 4]%nat 2 1 ax opts s1 = Ub UbAlign) /\
  (exists ax s1 t' x, tv_nesta f1 f2 3 3 [0; 4]%nat 2 1 ax opts s1 = Ok 0%Z t' /\ @seg ER t' (Ptr 2 0) (fin x) /\ nrm2 (vlin 1 (sample [0; 4]%nat x) (-1) bv) <= / 10).
Proof.
  pose proof (nesta_tv_outcome f1 f2 f1_len f2_len f1_exact f2_exact) as HT.
  split_and!.
  - destruct (ready (upto 12)) as (ax & s1 & H & Hn & He). { intros i Hi. cbn. apply Nat.leb_le. lia. }
    destruct (HT _ _ _ _ _ _ _ _ _ _ _ _ _ _ _ _ _ H active) as (H1 & _). destruct H1 as (t' & E & _); [|eauto].
    exists 4%nat. split; [lia|]. by rewrite Hn, He.
  - destruct (ready (upto 18)) as (ax & s1 & H & Hn & He). { intros i Hi. cbn. apply Nat.leb_le. lia. }
    destruct (HT _ _ _ _ _ _ _ _ _ _ _ _ _ _ _ _ _ H active) as (_ & H2 & _). exists ax, s1. apply H2; rewrite ?Hn, ?He; [|done].
    intros j Hj. rewrite Hn, He. cbn. apply Nat.leb_le. lia.
  - destruct (ready unlucky) as (ax & s1 & H & Hn & He). { done. }
    destruct (HT _ _ _ _ _ _ _ _ _ _ _ _ _ _ _ _ _ H active) as (_ & _ & H3 & _). exists ax, s1. apply H3; [intros j Hj; by rewrite He| |done].
    unfold queue_aligned. by rewrite He.
  - destruct (ready (@env0 ER)) as (ax & s1 & H & Hn & He). { done. }
    destruct (HT _ _ _ _ _ _ _ _ _ _ _ _ _ _ _ _ _ H active) as (_ & _ & _ & H4). destruct H4 as (t' & x & E & _ & _ & Sx & _ & F & _).
    + intros j Hj. by rewrite He.
    + left. unfold queue_aligned. by rewrite He.
    + by exists ax, s1, t', x.
Qed.
End NestaTVEx.

Print Assumptions nesta_tv_outcome.
