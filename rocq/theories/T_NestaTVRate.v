(** * C68 for the library's DCT-TV transforms: how close the result of l1c_nesta is to the optimum. *)
From Coq Require Import ZArith Lia Reals Lra Psatz.
From stdpp Require Import base numbers gmap list.
From Verif Require Import P_CG Globals Mem M_Math M_Memory M_Status M_FFTW M_TV M_Dct M_TVt M_Nesta P_Mem P_Loop P_Math P_MathR P_TVR P_Touch P_Step P_TV P_Memory P_Own P_Own2 P_Own3 P_Newton L_Sum S_Vec L_Lin L_ER S_Img S_Newt S_Dct P_FFTW P_Dct1 P_Dct1s P_Dct2 P_Dct2s S_Mem S_Xform P_Xform S_DctApi P_Dct P_DctA S_TVtApi P_TVt P_TVs P_TVa P_TVuR S_Nesta L_Nesta P_Nesta P_Nesta2 P_NestaG P_NestaGR E_Dct T_Dct T_TVt T_Bregman T_Newton T_Nesta P_DctE P_TVtE P_NestaTV T_L1qcDct T_NestaTV L_Rate S_NestaRate P_NestaRate T_NestaRate.
Local Open Scope R_scope.
Local Notation sqrt := R_sqrt.sqrt.

Section C68.
Context (fft1 : fkind -> list er -> list er) (fft2 : fkind -> nat -> nat -> list er -> list er).
Hypothesis fft1_len : forall k xs, length (fft1 k xs) = length xs.
Hypothesis fft2_len : forall k nr nc xs, length xs = (nr * nc)%nat -> length (fft2 k nr nc xs) = (nr * nc)%nat.
Hypothesis fft1_exact : forall k (x : list R), fft1 k (fin x) = fin (dft1 k x).
Hypothesis fft2_exact : forall k nr nc (x : list R), length x = (nr * nc)%nat -> fft2 k nr nc (fin x) = fin (dft2 k nr nc x).
Theorem C68_stages_tv s mrow mcol rv rh mode mb mo ms ax s1 t bx bb bv opts sg mu tol t' :
  tv_nesta_call fft1 fft2 s mrow mcol rv rh mode mb mo ms ax s1 t bx bb bv opts sg ->
  no_mu opts = Fin mu -> no_tol opts = Fin tol -> 0 < tol -> (1 <= no_n_continue opts)%Z -> (exists i, nth i bv 0 <> 0) ->
  tv_nesta fft1 fft2 mrow mcol ms bx bb ax opts t = Ok 0%Z t' ->
  let m := Z.to_nat (mrow * mcol) in let p := (nblocks rv rh * m)%nat in
  let Wt := dictT (xf_fwd mrow mcol mode) (Z.to_nat mrow) (Z.to_nat mcol) rv rh in let nw := sqrt (1 + 4 * rv ^ 2 + 4 * rh ^ 2) in
  exists x, @seg ER t' (Ptr bx 0) (fin x) /\ length x = m /\ feasible (sample ms) bv sg x /\
    staged m p (sample ms) bv sg Wt nw mu tol (Z.to_nat (no_n_continue opts)) (spread m ms bv) x.
Proof.
  intros [HS HH ND Hu Hnx Hbx Hbb Hne HxF HbF Sb Lb Wx Al Es Hs (mu' & Em' & Hmu) Hc] Em Et Ht Hnc Hst E. rewrite Em' in Em. injection Em as ->. rename Em' into Em. cbv zeta.
  destruct (@started_live ER fft1 fft2 fft1_len fft2_len _ _ _ _ _ _ _ _ _ _ _ _ HS) as (nr & nc & sb & axb & J & -> & -> & L).
  unfold tv_nesta in E. rewrite m_nat in *. rewrite !Nat2Z.id. rewrite <- Nat2Z.inj_mul in E. 
  pose proof (tv_hist fft1 fft2 s nr nc rv rh mode analysis mb ms ax s1 sb axb J L eq_refl t HH) as HQ.
  pose proof (tv_sizes fft1 fft2 s nr nc rv rh mode analysis mb ms ax s1 sb axb J L eq_refl) as (E1 & E2 & E3).
  assert (HF : forall b, b ∈ blocks_t s mb -> (b < nx t)%nat).
  { pose proof (lv_led _ _ _ _ _ _ _ _ _ _ _ _ _ _ _ _ L) as HL. pose proof (lv_nx _ _ _ _ _ _ _ _ _ _ _ _ _ _ _ _ L) as En.
    assert (HO : forall k b, (k, b) ∈ owned1 sb ++ [(KD, nx s)] -> (b < nx s1)%nat) by (intros k b Hb; apply (lg_own _ _ _ _ HL k b Hb)).
    pose proof (st_old _ _ _ _ _ _ _ _ _ _ _ _ HS) as Hmb. pose proof (lg_nx _ _ _ _ HL) as Hn1. pose proof (HO KO (nx sb + 4)%nat ltac:(unfold owned1; cbn [app]; isin)) as H5. rewrite En in H5.
    intros b Hb. unfold blocks_t in Hb. repeat (apply elem_of_cons in Hb as [->|Hb]; [lia|]). by apply elem_of_nil in Hb. }
  assert (Hst' : (no_n_continue opts <= 0)%Z \/ exists i, nth i bv 0 <> 0) by (by right).
  pose proof (@nesta_g ER (@M_TVt.call ER fft1 fft2) isnum isnum_zero isnum_abs (nr * nc) (length ms) _ _ _ _ _ (blocks_t s mb) _ ax
    (tv_A fft1 fft2 s nr nc rv rh mode analysis mb ms ax s1 sb axb J L eq_refl) (tv_B fft1 fft2 s nr nc rv rh mode analysis mb ms ax s1 sb axb J L eq_refl)
    (tv_Wt fft1 fft2 s nr nc rv rh mode analysis mb ms ax s1 sb axb J L eq_refl) (tv_W fft1 fft2 s nr nc rv rh mode analysis mb ms ax s1 sb axb J L eq_refl)
    (tv_p fft1 fft2 s nr nc rv rh mode analysis mb ms ax s1 sb axb J L) (tv_Q_same fft1 fft2 s nr nc rv rh mode analysis mb ms ax s1 sb axb J L)
    t bx bb (fin bv) opts
    (tv_ok fft1 fft2 fft1_exact fft2_exact s nr nc rv rh mode analysis mb ms ax s1 sb axb J L eq_refl ND bv opts sg mu Lb Es Hs Em Hmu Hst')
    Hu E1 E2 E3 HQ HF Hbx Hbb Hne HxF HbF Sb ltac:(by rewrite fin_length) Wx Al) as HG.
  specialize (HG ltac:(pose proof (tv_n fft1 fft2 s nr nc rv rh mode analysis mb ms ax s1 sb axb J L ND); lia) Hc). cbv zeta in HG.
  assert (Sx : @seg ER t' (Ptr bx 0) (@ne_result ER (nr * nc) (length ms) (@psize ER nr nc (Fin rv) (Fin rh)) (tvA ms) (tvB nr nc ms) (tvWt fft1 fft2 nr nc rv rh mode) (tvW fft1 fft2 nr nc rv rh mode sb) (fin bv) (tvB nr nc ms (fin bv)) (no_sigma opts) (@ne_L ER ax) (no_mu opts) (no_tol opts) (no_n_continue opts))).
  { destruct HG as [(Hr & t2 & E' & HL & _)|[(_ & _ & t2 & E' & _)|[(Hg & _ & Hr & E')|[(Hg & _ & Hl & H1 & E')|(Hg & _ & Hl & t2 & E' & HL & J' & _ & Sx)]]]]; rewrite E in E'; try done.
    injection E' as <-. exact Sx. }
  clear HG E.
  assert (EN : sqrt (nW rv rh * nW rv rh) = nW rv rh) by (apply sqrt_square, sqrt_pos).
  pose proof (nW_pos rv rh) as HnW.
  pose proof (big3 fft1 fft2 s nr nc rv rh mode analysis mb ms ax s1 sb axb J L) as Hb.
  pose proof (lv_r _ _ _ _ _ _ _ _ _ _ _ _ _ _ _ _ L) as Hr. pose proof (lv_c _ _ _ _ _ _ _ _ _ _ _ _ _ _ _ _ L) as Hcc.
  destruct (result_staged (nr * nc) (length ms) (@psize ER nr nc (Fin rv) (Fin rh)) (tvA ms) (tvB nr nc ms) (tvWt fft1 fft2 nr nc rv rh mode) (tvW fft1 fft2 nr nc rv rh mode sb)
    (sample ms) (spread (nr * nc) ms) (dictT (xf_fwd (Z.of_nat nr) (Z.of_nat nc) mode) nr nc rv rh) (dict (xf_inv (Z.of_nat nr) (Z.of_nat nc) mode) nr nc rv rh) bv sg (nW rv rh * nW rv rh)) with (mu := mu) (tol := tol) (nc := no_n_continue opts)
    as (x & Ex & Lx & Fx & HSt); try done.
  - by apply (s_lin fft1 fft2 s nr nc rv rh mode analysis mb ms ax s1 sb axb J L).
  - by apply (s_adj fft1 fft2 s nr nc rv rh mode analysis mb ms ax s1 sb axb J L).
  - by apply (s_unit fft1 fft2 s nr nc rv rh mode analysis mb ms ax s1 sb axb J L).
  - by apply (d_lin fft1 fft2 s nr nc rv rh mode analysis mb ms ax s1 sb axb J L).
  - by apply (d_adj fft1 fft2 s nr nc rv rh mode analysis mb ms ax s1 sb axb J L).
  - intros v _. apply R_E.
  - by apply (tvB_fin fft1 fft2 s nr nc rv rh mode analysis mb ms ax s1 sb axb J L).
  - intros v Lx. apply Wt_E; try done. intros Hh. apply Hb. by right.
  - intros v _. by apply W_E.
  - nra.
  - intros v Lx. assert (E4 : nW rv rh * nW rv rh = 1 + 4 * rv ^ 2 + 4 * rh ^ 2) by (apply sqrt_sqrt; nra). rewrite E4. apply dictT_bound; try done. apply xf_iso; try done.
  - apply (tv_p fft1 fft2 s nr nc rv rh mode analysis mb ms ax s1 sb axb J L).
  - destruct (start_or fft1 fft2 s nr nc rv rh mode analysis mb ms ax s1 sb axb J L ND bv opts Lb Hst') as [H|H]; [lia|done].
  - rewrite EN in HSt. rewrite Es, Em, Et, (tv_EL fft1 fft2 s nr nc rv rh mode analysis mb ms ax s1 sb axb J L eq_refl) in Sx.
    rewrite (tvB_fin fft1 fft2 s nr nc rv rh mode analysis mb ms ax s1 sb axb J L ND) in Sx by done. rewrite Ex in Sx.
    rewrite <- (psize_R nr nc rv rh). by exists x.
Qed.
Theorem C68_rate_tv s mrow mcol rv rh mode mb mo ms ax s1 t bx bb bv opts sg mu tol t' :
  tv_nesta_call fft1 fft2 s mrow mcol rv rh mode mb mo ms ax s1 t bx bb bv opts sg ->
  no_mu opts = Fin mu -> no_tol opts = Fin tol -> 0 < tol -> (1 <= no_n_continue opts)%Z -> (exists i, nth i bv 0 <> 0) ->
  tv_nesta fft1 fft2 mrow mcol ms bx bb ax opts t = Ok 0%Z t' ->
  let m := Z.to_nat (mrow * mcol) in let p := (nblocks rv rh * m)%nat in
  let Wt := dictT (xf_fwd mrow mcol mode) (Z.to_nat mrow) (Z.to_nat mcol) rv rh in let nw := sqrt (1 + 4 * rv ^ 2 + 4 * rh ^ 2) in
  exists f X K, good_run m p (sample ms) bv sg Wt nw mu tol f X K /\ @seg ER t' (Ptr bx 0) (fin (X K)) /\ (no_n_continue opts = 1%Z -> X 0%nat = spread m ms bv) /\
    forall v w, minimiser m (sample ms) bv sg f v -> length w = m -> feasible (sample ms) bv sg w ->
      nrm1 (Wt (X K)) <= nrm1 (Wt w) + INR p * (mu / 2) + rate p nw mu K (nrm2 (vlin 1 v (-1) (X 0%nat))).
Proof.
  intros HC Em Et Ht Hnc Hst E. destruct (C68_stages_tv _ _ _ _ _ _ _ _ _ _ _ _ _ _ _ _ _ _ _ _ HC Em Et Ht Hnc Hst E) as (x & Sx & Lx & Fx & HS). cbv zeta in *.
  assert (Hm : 0 < mu) by (destruct HC as [_ _ _ _ _ _ _ _ _ _ _ _ _ _ _ _ (mu' & E' & H') _]; rewrite E' in Em; by injection Em as <-).
  assert (H1 : (1 <= Z.to_nat (no_n_continue opts))%nat) by lia.
  destruct (staged_last _ _ _ _ _ _ _ _ _ _ _ _ Hm Ht H1 HS) as (f & X & K & HG & -> & H0).
  exists f, X, K. split; [done|]. split; [done|]. split; [intros Q; apply H0; lia|]. eapply good_near; [|done|exact HG].
  destruct HC as [HT _ ND _ _ _ _ _ _ _ _ _ _ _ _ _ _ _]. destruct (@started_live ER fft1 fft2 fft1_len fft2_len _ _ _ _ _ _ _ _ _ _ _ _ HT) as (nr & nc & sb & axb & J & -> & -> & L).
  rewrite m_nat, !Nat2Z.id, <- psize_R. by apply (d_lin fft1 fft2 s nr nc rv rh mode analysis mb ms ax s1 sb axb J L).
Qed.
(** the library's W^T is injective, so that all is known: the 1-norm of W^T x against the least one, in terms of the point the
    last stage starts from (the spread measurements when there is one stage only) *)
Theorem C68_near_optimal_tv s mrow mcol rv rh mode mb mo ms ax s1 t bx bb bv opts sg mu tol t' :
  tv_nesta_call fft1 fft2 s mrow mcol rv rh mode mb mo ms ax s1 t bx bb bv opts sg ->
  no_mu opts = Fin mu -> no_tol opts = Fin tol -> 0 < tol -> (1 <= no_n_continue opts)%Z -> (exists i, nth i bv 0 <> 0) ->
  tv_nesta fft1 fft2 mrow mcol ms bx bb ax opts t = Ok 0%Z t' ->
  let m := Z.to_nat (mrow * mcol) in let p := (nblocks rv rh * m)%nat in
  let Wt := dictT (xf_fwd mrow mcol mode) (Z.to_nat mrow) (Z.to_nat mcol) rv rh in let nw := sqrt (1 + 4 * rv ^ 2 + 4 * rh ^ 2) in
  exists y x K, @seg ER t' (Ptr bx 0) (fin x) /\ length x = m /\ feasible (sample ms) bv sg x /\ feasible (sample ms) bv sg y /\ (1 <= Z.of_nat K <= 10000)%Z /\
    (no_n_continue opts = 1%Z -> y = spread m ms bv) /\
    forall w, length w = m -> feasible (sample ms) bv sg w ->
      nrm1 (Wt x) <= nrm1 (Wt w) + INR p * (mu / 2) + rate p nw mu K (nrm1 (Wt y) + INR p * (mu / 2) + nrm2 y).
Proof.
  intros HC Em Et Ht Hnc Hst E. destruct (C68_rate_tv _ _ _ _ _ _ _ _ _ _ _ _ _ _ _ _ _ _ _ _ HC Em Et Ht Hnc Hst E) as (f & X & K & HG & Sx & E0 & _). cbv zeta in *.
  pose proof (gr_K _ _ _ _ _ _ _ _ _ _ _ _ HG) as HK. exists (X 0%nat), (X K), K. split; [done|]. split; [apply HG|]. split; [apply HG|]. split; [apply HG|]. split; [done|]. split; [done|].
  intros w Lw Fw. destruct (gr_near _ _ _ _ _ _ _ _ _ _ _ _ HG 1) as [_ Q]; [lra| |].
  - destruct HC as [HT _ ND _ _ _ _ _ _ _ _ _ _ _ _ _ _ _]. destruct (@started_live ER fft1 fft2 fft1_len fft2_len _ _ _ _ _ _ _ _ _ _ _ _ HT) as (nr & nc & sb & axb & J & -> & -> & L).
    rewrite m_nat, !Nat2Z.id. intros v Lv. rewrite Rmult_1_l. apply sqrt_le_1_alt. unfold dictT. rewrite (nrm2sq_app nr nc rv rh (big3 fft1 fft2 s nr nc rv rh mode analysis mb ms ax s1 sb axb J L)).
    rewrite xf_iso; try done; [|apply (lv_r _ _ _ _ _ _ _ _ _ _ _ _ _ _ _ _ L)|apply (lv_c _ _ _ _ _ _ _ _ _ _ _ _ _ _ _ _ L)]. pose proof (nrm2sq_nonneg ((if Rlt_dec 0 rv then vdiffT nr nc rv v else []) ++ (if Rlt_dec 0 rh then hdiffT nr nc rh v else []))). lra.
  - specialize (Q K w ltac:(lia) Lw Fw). unfold Rdiv in Q at 2. by rewrite Rinv_1, Rmult_1_r in Q.
Qed.
End C68.

(** ** The 3 x 3 image of T_NestaTV.v (27 rows of W^T, norm bound 3, mu = 1/100): the run ends and obeys the bound. *)
Module RateTVEx.
Import L1qcEx NestaTVEx.
Example c68 : exists ax s1 t' f X K, tv_nesta f1 f2 3 3 [0; 4]%nat 2 1 ax opts s1 = Ok 0%Z t' /\ @seg ER t' (Ptr 2 0) (fin (X K)) /\
  good_run 9 27 (sample [0; 4]%nat) bv (/ 10) (dictT (xf_fwd 3 3 dct1) 3 3 1 1) 3 (/ 100) (/ 1000) f X K.
Proof.
  destruct (ready (@env0 ER)) as (ax & s1 & H & Hn & He); [done|].
  pose proof (nesta_tv_outcome f1 f2 f1_len f2_len f1_exact f2_exact _ _ _ _ _ _ _ _ _ _ _ _ _ _ _ _ _ H active) as (_ & _ & _ & H4).
  destruct H4 as (t' & x & E & _).
  - intros j Hj. by rewrite He.
  - left. unfold queue_aligned. by rewrite He.
  - destruct (C68_rate_tv f1 f2 f1_len f2_len f1_exact f2_exact _ _ _ _ _ _ _ _ _ _ _ _ _ _ _ _ _ (/ 100) (/ 1000) t' H) as (f & X & K & HG & Sx & _); try done; try lra.
    + exists 0%nat. cbn. lra.
    + exists ax, s1, t', f, X, K. split; [exact E|]. split; [exact Sx|]. replace (R_sqrt.sqrt (1 + 4 * 1 ^ 2 + 4 * 1 ^ 2)) with 3 in HG.
      * assert (Eb : nblocks 1 1 = 3%nat) by (unfold nblocks; destruct (Rlt_dec 0 1); [done|lra]). rewrite Eb in HG. exact HG.
      * replace (1 + 4 * 1 ^ 2 + 4 * 1 ^ 2) with (3 * 3) by ring. symmetry. apply sqrt_square. lra.
Qed.
(** 27 rows of W^T, norm bound 3, mu = 1/100; the only hypotheses on w are those of the problem *)
Example c68_optimal : exists ax s1 t' y x K, tv_nesta f1 f2 3 3 [0; 4]%nat 2 1 ax opts s1 = Ok 0%Z t' /\ @seg ER t' (Ptr 2 0) (fin x) /\ (1 <= Z.of_nat K)%Z /\
  let Wt := dictT (xf_fwd 3 3 dct1) 3 3 1 1 in
  forall w, length w = 9%nat -> feasible (sample [0; 4]%nat) bv (/ 10) w ->
    nrm1 (Wt x) <= nrm1 (Wt w) + 27 / 200 + rate 27 3 (/ 100) K (nrm1 (Wt y) + 27 / 200 + nrm2 y).
Proof.
  destruct (ready (@env0 ER)) as (ax & s1 & H & Hn & He); [done|].
  pose proof (nesta_tv_outcome f1 f2 f1_len f2_len f1_exact f2_exact _ _ _ _ _ _ _ _ _ _ _ _ _ _ _ _ _ H active) as (_ & _ & _ & H4).
  destruct H4 as (t' & x0 & E & _).
  - intros j Hj. by rewrite He.
  - left. unfold queue_aligned. by rewrite He.
  - destruct (C68_near_optimal_tv f1 f2 f1_len f2_len f1_exact f2_exact _ _ _ _ _ _ _ _ _ _ _ _ _ _ _ _ _ (/ 100) (/ 1000) t' H) as (y & x & K & Sx & _ & _ & _ & HK & _ & Q); try done; try lra.
    + exists 0%nat. cbn. lra.
    + exists ax, s1, t', y, x, K. split; [exact E|]. split; [exact Sx|]. split; [lia|]. intros Wt w Lw Fw. specialize (Q w Lw Fw). cbv zeta in Q.
      replace (R_sqrt.sqrt (1 + 4 * 1 ^ 2 + 4 * 1 ^ 2)) with 3 in Q.
      * assert (Eb : nblocks 1 1 = 3%nat) by (unfold nblocks; destruct (Rlt_dec 0 1); [done|lra]). rewrite Eb in Q. change (Z.to_nat (3 * 3)) with 9%nat in Q. change (3 * 9)%nat with 27%nat in Q.
        assert (EI : INR 27 * (/ 100 / 2) = 27 / 200) by (cbn [INR]; field). rewrite EI in Q. exact Q.
      * replace (1 + 4 * 1 ^ 2 + 4 * 1 ^ 2) with (3 * 3) by ring. symmetry. apply sqrt_square. lra.
Qed.
End RateTVEx.
Print Assumptions C68_rate_tv.
Print Assumptions C68_near_optimal_tv.
