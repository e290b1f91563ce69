(** * C84: NESTA with the library's DCT transforms, from set-up to release. *)
From Coq Require Import ZArith Lia Reals Lra Psatz.
From stdpp Require Import base numbers gmap list.
From Verif Require Import P_CG Globals Mem M_Math M_Memory M_Status M_FFTW M_TV M_Dct M_TVt M_Nesta P_Mem P_Loop P_Math P_MathR P_TVR P_Touch P_Step P_TV P_Memory P_Own P_Own2 P_Own3 P_Newton L_Sum S_Vec L_Lin L_ER S_Img S_Newt S_Dct P_FFTW P_Dct1 P_Dct1s P_Dct2 P_Dct2s S_Mem S_Xform P_Xform S_DctApi P_Dct P_DctA P_NewtX E_Op E_Dct S_Nesta L_Nesta P_Nesta P_Nesta2 P_Nesta3 P_DctE T_Dct T_DctLife T_TVt T_Nesta P_NestaTV T_L1qcDct L_Rate S_NestaRate P_NestaRate L_Min T_NestaRate T_Bregman P_NestaDct.
Local Open Scope R_scope.
Local Notation sqrt := R_sqrt.sqrt.

(** what a successful set-up puts into the scalar fields: W is the identity, its norm is 1 *)
Theorem dct_fields `{N : Num} (s : st) mrow mcol mode mb mo ms ax s1 : started s mrow mcol mode mb mo ms ax s1 ->
  ax_n ax = Z.of_nat (length ms) /\ ax_m ax = (mrow * mcol)%Z /\ ax_p ax = (mrow * mcol)%Z /\ ax_q ax = (mrow * mcol)%Z /\ ax_norm_W ax = one /\ complete ax.
Proof.
  intros H. destruct (started_nat _ _ _ _ _ _ _ _ _ H) as (nr & nc & -> & -> & _). destruct (dct_nesta_fields _ _ _ _ _ _ _ _ _ H) as (-> & -> & -> & -> & -> & HC).
  rewrite Nat2Z.inj_mul. done.
Qed.

Section C84.
(** FFTW computes its documented transforms of finite data *)
Context (fft1 : fkind -> list er -> list er) (fft2 : fkind -> nat -> nat -> list er -> list er).
Hypothesis fft1_len : forall k xs, length (fft1 k xs) = length xs.
Hypothesis fft2_len : forall k nr nc xs, length xs = (nr * nc)%nat -> length (fft2 k nr nc xs) = (nr * nc)%nat.
Hypothesis fft1_exact : forall k (x : list R), fft1 k (fin x) = fin (dft1 k x).
Hypothesis fft2_exact : forall k nr nc (x : list R), length x = (nr * nc)%nat -> fft2 k nr nc (fin x) = fin (dft2 k nr nc x).
Notation stE := (@st ER).

(** A call of l1c_nesta on a transform that was set up at s (reaching s1, with FFTW's planner leaving zeros in the
    arrays it was given) and then used in any way (reaching t).  b is an aligned array holding the n numbers bv, x an
    array of m doubles; both keep off the transform's memory; sigma and mu are positive numbers; no index occurs twice. *)
Record dct_nesta_call (s : stE) (mrow mcol mode : Z) (mb : nat) (mo : Z) (ms : list nat) (ax : @AxFuns ER) (s1 t : stE)
    (bx bb : nat) (bv : list R) (opts : @NestaOpts ER) (sg : R) : Prop := {
  dn_start : @started ER s mrow mcol mode mb mo ms ax s1; dn_planner : planner_zero s; dn_old : (mb < nx s)%nat;
  dn_hist : @hist ER (blocks s mb) (@dct_ops ER fft1 fft2 ax (length ms) (Z.to_nat (mrow * mcol))) s1 t;
  dn_nodup : NoDup ms;
  dn_unborn : unborn t; dn_nx : (nx s1 <= nx t)%nat;
  dn_bx : (bx < nx t)%nat; dn_bb : (bb < nx t)%nat; dn_ne : bx <> bb; dn_xF : bx ∉ blocks s mb; dn_bF : bb ∉ blocks s mb;
  dn_b : @seg ER t (Ptr bb 0) (fin bv); dn_lb : length bv = length ms; dn_x : @wok ER t (Ptr bx 0) (Z.to_nat (mrow * mcol)); dn_al : is_aligned t (Ptr bb 0) = true;
  dn_sigma : no_sigma opts = Fin sg; dn_sg : 0 < sg; dn_mu : exists mu, no_mu opts = Fin mu /\ 0 < mu;
  dn_cont : (no_n_continue opts < INT_MAX)%Z
}.
Definition dct_nesta (mrow mcol : Z) (ms : list nat) bx bb ax opts : M Z :=
  @l1c_nesta ER (@M_TVt.call ER fft1 fft2) (mrow * mcol) (Ptr bx 0) (Z.of_nat (length ms)) (Ptr bb 0) ax opts.
(** the measurements of the image with coefficients z *)
Definition measured (mrow mcol mode : Z) (ms : list nat) (z : list R) : list R := sample ms (xf_inv mrow mcol mode z).
(** the coefficients of the image that has the measurements at their places and 0 elsewhere *)
Definition backproj (mrow mcol mode : Z) (ms : list nat) (y : list R) : list R := xf_fwd mrow mcol mode (spread (Z.to_nat (mrow * mcol)) ms y).

Lemma dct_call_ok s mrow mcol mode mb mo ms ax s1 t bx bb bv opts sg :
  dct_nesta_call s mrow mcol mode mb mo ms ax s1 t bx bb bv opts sg ->
  let m := Z.to_nat (mrow * mcol) in let n := length ms in
  exists A B J, @nesta_call ER (@M_TVt.call ER fft1 fft2) m n m A B (@same ER) (@same ER) (blocks s mb) J ax bx bb (fin bv) opts t /\
    real_op m n A B (measured mrow mcol mode ms) (backproj mrow mcol mode ms) /\ unit_rows n (measured mrow mcol mode ms) (backproj mrow mcol mode ms) /\
    (mrow * mcol = Z.of_nat m)%Z /\ (1 <= m)%nat /\
    (forall t t', J t -> @hist ER (blocks s mb) (@dct_ops ER fft1 fft2 ax n m) t t' -> J t') /\
    (forall t, J t -> exists t3, call_destroy (ax_destroy ax) t = Ok tt t3 /\ gone t t3 [nx s; nx s + 1; nx s + 2]%nat [nx s + 4; nx s + 3]%nat).
Proof.
  intros [HS HP Hmb HH ND Hu Hnx Hbx Hbb Hne HxF HbF Sb Lb Wx Al Es Hs Hmu Hc]. cbv zeta.
  destruct (started_nat _ _ _ _ _ _ _ _ _ HS) as (nr & nc & -> & -> & Hr & Hcc & Em & _ & Hms). rewrite Em in *.
  destruct (@dct_nesta_ops ER fft1 fft2 fft1_len fft2_len _ _ _ _ _ _ _ _ _ HS) as (J & HO & HJ1 & HJ2 & HJ3). cbv zeta in HO.
  destruct (dct_nesta_fields _ _ _ _ _ _ _ _ _ HS) as (E1 & E2 & E3 & _).
  pose proof (started_inv _ _ _ _ _ _ _ _ _ HS) as F.
  exists (@fA ER fft1 fft2 nr nc (one_d (Z.of_nat nr) (Z.of_nat nc) mode) ms), (@fAt ER fft1 fft2 s nr nc (one_d (Z.of_nat nr) (Z.of_nat nc) mode) ms), J.
  assert (Hn : (length ms <= nr * nc)%nat) by (by apply nodup_le).
  split_and!; try done; try lia.
  - split; try done.
    + lia.
    + by apply HJ1.
    + pose proof (sf_nx _ _ _ _ _ _ _ _ _ F) as En. intros b Hb. unfold blocks in Hb. repeat (apply elem_of_cons in Hb as [->|Hb]; [lia|]). by apply elem_of_nil in Hb.
    + by rewrite fin_length.
  - assert (Eb : backproj (Z.of_nat nr) (Z.of_nat nc) mode ms = meast nr nc mode ms) by (unfold backproj, meast; by rewrite Em). rewrite Eb.
    by apply dct_real.
  - assert (Eb : backproj (Z.of_nat nr) (Z.of_nat nc) mode ms = meast nr nc mode ms) by (unfold backproj, meast; by rewrite Em). rewrite Eb.
    by apply meas_unit.
Qed.
(** the back-projection vanishes only with b *)
Lemma back_nonzero s mrow mcol mode mb mo ms ax s1 t bx bb bv opts sg : dct_nesta_call s mrow mcol mode mb mo ms ax s1 t bx bb bv opts sg ->
  (exists i, nth i bv 0 <> 0) -> starts_positive (Z.to_nat (mrow * mcol)) (backproj mrow mcol mode ms bv).
Proof.
  intros HC (i & Hi). destruct (dct_call_ok _ _ _ _ _ _ _ _ _ _ _ _ _ _ _ HC) as (A & B & J & _ & [HA HB _ _] & HU & _). cbv zeta in *.
  destruct HC as [HS _ _ _ _ _ _ _ _ _ _ _ _ Lb _ _ _ _ _ _]. set (m := Z.to_nat (mrow * mcol)) in *. set (w := backproj mrow mcol mode ms bv) in *.
  assert (Lw : length w = m) by (by apply HB).
  destruct (Classical_Prop.classic (exists k, (k < m)%nat /\ nth k w 0 <> 0)) as [(k & Hk & Hk2)|Hz].
  - exists k. rewrite Lw. split; [done|]. by left.
  - exfalso. assert (Hw : forall k, nth k w 0 = 0).
    { intros k. destruct (Nat.lt_ge_cases k m) as [Hk|Hk]; [|apply nth_overflow; lia]. apply Classical_Prop.NNPP. intros Hne. apply Hz. eauto. }
    apply Hi. rewrite <- (HU bv Lb). fold w.
    assert (Hi' : (i < length ms)%nat) by (destruct (Nat.lt_ge_cases i (length bv)); [lia|]; rewrite nth_overflow in Hi by done; lra).
    assert (Ew : w = vlin (-1) w 1 w).
    { apply (list_eq_nth m); [done|by rewrite vlin_length|]. intros k Hk. rewrite nth_vlin by lia. rewrite !Hw. lra. }
    pose proof (proj2 HA (-1) w w Lw Lw i Hi') as Q. rewrite <- Ew in Q. lra.
Qed.
Definition nonzero_or_none (bv : list R) (opts : @NestaOpts ER) : Prop := (no_n_continue opts <= 0)%Z \/ exists i, nth i bv 0 <> 0.

(** Which of four things happens is decided by the memory granted and by the alignment of the queue. *)
Theorem nesta_dct_outcome s mrow mcol mode mb mo ms ax s1 t bx bb bv opts sg :
  dct_nesta_call s mrow mcol mode mb mo ms ax s1 t bx bb bv opts sg -> nonzero_or_none bv opts ->
  let run := dct_nesta mrow mcol ms bx bb ax opts t in
  (refused t 10 -> exists t', run = Ok L1C_OUT_OF_MEMORY t' /\ same_blocks t t' /\ forall b, dm t' !! b = dm t !! b) /\
  (granted t 10 -> alloc_ok (en t) (nx t + 10) = false -> run = Ub UbOob) /\
  (granted t 11 -> ~ queue_aligned t -> (1 <= no_n_continue opts)%Z -> run = Ub UbAlign) /\
  (granted t 11 -> queue_aligned t \/ (no_n_continue opts <= 0)%Z ->
     exists t' z, run = Ok 0%Z t' /\ same_blocks t t' /\ (forall b, b <> bx -> b ∉ blocks s mb -> dm t' !! b = dm t !! b) /\
       @seg ER t' (Ptr bx 0) (fin z) /\ length z = Z.to_nat (mrow * mcol) /\
       nrm2 (vlin 1 (measured mrow mcol mode ms z) (-1) bv) <= sg /\
       (* the transform can go on being used, and be destroyed *)
       forall t1, @hist ER (blocks s mb) (@dct_ops ER fft1 fft2 ax (length ms) (Z.to_nat (mrow * mcol))) t' t1 -> exists t2, call_destroy (ax_destroy ax) t1 = Ok tt t2 /\
         gone t1 t2 [nx s; nx s + 1; nx s + 2]%nat [nx s + 4; nx s + 3]%nat).
Proof.
  intros HC Hst. cbv zeta. destruct (dct_call_ok _ _ _ _ _ _ _ _ _ _ _ _ _ _ _ HC) as (A & B & J & HN & HR & HU & Em & Hm1 & HJ2 & HJ3). cbv zeta in *.
  assert (Hst' : (no_n_continue opts <= 0)%Z \/ starts_positive (Z.to_nat (mrow * mcol)) (backproj mrow mcol mode ms bv)).
  { destruct Hst as [H|H]; [by left|right]. by eapply back_nonzero. }
  destruct (dct_fields _ _ _ _ _ _ _ _ _ (dn_start _ _ _ _ _ _ _ _ _ _ _ _ _ _ _ HC)) as (_ & _ & _ & _ & Ew & HCo).
  assert (Ew1 : ax_norm_W ax = Fin 1) by (rewrite Ew; cbn; f_equal; lra).
  assert (Er : dct_nesta mrow mcol ms bx bb ax opts t = @nesta ER (@M_TVt.call ER fft1 fft2) (Z.to_nat (mrow * mcol)) (length ms) bx bb ax opts t) by (unfold dct_nesta, nesta; by rewrite <- Em).
  rewrite Er. set (m := Z.to_nat (mrow * mcol)) in *.
  split_and!.
  - intros Hg. exact (@C45_out_of_memory ER _ _ _ _ _ _ _ _ _ _ _ _ _ _ _ _ HN Hg).
  - intros Hg Hr. exact (@C45_queue_refused ER _ _ _ _ _ _ _ _ _ _ _ _ _ _ _ _ HN Hg HCo Hr).
  - intros Hg Hr Hn. exact (@C65_queue_not_aligned ER _ _ _ _ _ _ _ _ _ _ _ _ _ _ _ _ HN Hg HCo Hr Hn).
  - intros Hg Hq. destruct (@C45_success_releases ER _ _ _ _ _ _ _ _ _ _ _ _ _ _ _ _ HN Hg HCo Hq) as (t' & xs & E & HB & HD & _ & _ & HJ).
    destruct HC as [_ _ _ _ _ _ _ _ _ _ _ _ _ _ _ _ Es Hs (mu & Emu & Hmu) _].
    destruct (C40_feasible _ _ _ _ _ _ _ _ _ _ _ _ _ _ _ _ t' _ _ _ _ _ _ _ HN HR HU (id_real m) Es Hs Emu Hmu Ew1 ltac:(lra) Hst' E) as (z & Sz & Lz & Fz).
    exists t', z. split; [exact E|]. split; [exact HB|]. split; [exact HD|]. split; [exact Sz|]. split; [exact Lz|]. split; [exact Fz|].
    intros t1 Ht1. apply HJ3. by eapply HJ2.
Qed.
(** How good the result is: the 1-norm of its coefficients against that of every point that fits the measurements. *)
Theorem C84_near_optimal s mrow mcol mode mb mo ms ax s1 t bx bb bv opts sg mu tol t' :
  dct_nesta_call s mrow mcol mode mb mo ms ax s1 t bx bb bv opts sg ->
  no_mu opts = Fin mu -> no_tol opts = Fin tol -> 0 < tol -> (1 <= no_n_continue opts)%Z -> (exists i, nth i bv 0 <> 0) ->
  dct_nesta mrow mcol ms bx bb ax opts t = Ok 0%Z t' ->
  let m := Z.to_nat (mrow * mcol) in
  exists y z K, @seg ER t' (Ptr bx 0) (fin z) /\ length z = m /\ feasible (measured mrow mcol mode ms) bv sg z /\ feasible (measured mrow mcol mode ms) bv sg y /\
    (1 <= Z.of_nat K <= 10000)%Z /\ (no_n_continue opts = 1%Z -> y = backproj mrow mcol mode ms bv) /\
    forall w, length w = m -> feasible (measured mrow mcol mode ms) bv sg w ->
      nrm1 z <= nrm1 w + INR m * (mu / 2) + rate m 1 mu K (nrm1 y + INR m * (mu / 2) + nrm2 y).
Proof.
  intros HC Em Et Ht Hnc Hst E. cbv zeta. destruct (dct_call_ok _ _ _ _ _ _ _ _ _ _ _ _ _ _ _ HC) as (A & B & J & HN & HR & HU & Emm & Hm1 & _). cbv zeta in *.
  pose proof (back_nonzero _ _ _ _ _ _ _ _ _ _ _ _ _ _ _ HC Hst) as Hst'.
  destruct (dct_fields _ _ _ _ _ _ _ _ _ (dn_start _ _ _ _ _ _ _ _ _ _ _ _ _ _ _ HC)) as (_ & _ & _ & _ & Ew & HCo).
  assert (Ew1 : ax_norm_W ax = Fin 1) by (rewrite Ew; cbn; f_equal; lra).
  destruct HC as [_ _ _ _ _ _ _ _ _ _ _ _ _ _ _ _ Es Hs (mu' & Emu & Hmu) _]. rewrite Emu in Em. injection Em as ->.
  unfold dct_nesta in E. rewrite Emm in E. set (m := Z.to_nat (mrow * mcol)) in *.
  destruct (C68_rate _ _ _ _ _ _ _ _ _ _ _ _ _ _ _ _ t' _ _ _ _ _ _ _ _ HN HR HU (id_real m) Es Hs Emu Hmu Et Ht Ew1 ltac:(lra) ltac:(intros v _; lra) Hnc Hst' E) as (f & X & K & HG & Sx & H0 & _).
  exists (X 0%nat), (X K), K. pose proof (gr_K _ _ _ _ _ _ _ _ _ _ _ _ HG) as HK.
  split; [done|]. split; [apply HG|]. split; [apply HG|]. split; [apply HG|]. split; [done|]. split; [done|].
  intros w Lw Fw. destruct (gr_near _ _ _ _ _ _ _ _ _ _ _ _ HG 1) as [_ Q]; [lra|intros v _; lra|].
  specialize (Q K w ltac:(lia) Lw Fw). unfold Rdiv in Q at 2. by rewrite Rinv_1, Rmult_1_r in Q.
Qed.
End C84.

(** ** A 2 x 2 image, two-dimensional transform, pixels 3 and 0 measured as 1 and 2, three stages; blocks 3 to 7 are set-up's *)
Module NestaDctEx.
Import L1qcEx.
Definition bv : list R := [1; 2].
Definition s0 (e : @env ER) : @st ER := @demo ER e [3; 0]%nat [@full ER (fin bv); @full ER (fin (vec 4 (fun _ => 0)))].
Definition opts : @NestaOpts ER := @mkNOpt ER (Fin (/ 100)) (Fin (/ 1000)) (Fin (/ 10)) 3 0.
Lemma ready e : (forall i, (3 <= i < 8)%nat -> alloc_ok e i = true) -> (forall i k j, @scrib ER e i k j = Fin 0) -> exists ax s1,
  dct_nesta_call f1 f2 (s0 e) 2 2 dct2 0 0 [3; 0]%nat ax s1 s1 2 1 bv opts (/ 10) /\ nx s1 = 8%nat /\ en s1 = e.
Proof.
  intros He Hz. destruct (@started_exists ER (s0 e) 2 2 dct2 0 0 [3; 0]%nat (@ax0 ER)) as (ax & s1 & E & HS); try done; try (simpl; lia).
  - apply demo_unborn.
  - apply demo_segi.
  - intros k Hk. repeat (apply elem_of_cons in Hk as [->|Hk]; [lia|]). by apply elem_of_nil in Hk.
  - intros i Hi. apply He. change (nx (s0 e)) with 3%nat. lia.
  - pose proof (started_inv _ _ _ _ _ _ _ _ _ HS) as F. pose proof (sf_nx _ _ _ _ _ _ _ _ _ F) as Hn1. change (nx (s0 e)) with 3%nat in Hn1. exists ax, s1.
    pose proof (sf_led _ _ _ _ _ _ _ _ _ F) as HL.
    split; [|split; [lia|exact (lg_en _ _ _ _ HL)]].
    assert (HO : forall b k, (b < 3)%nat -> (k, b) ∉ owned1 (s0 e)) by (intros b k Hb; apply owned1_notin; exact Hb).
    split; try done; try lra; try lia.
    + intros j. apply Hz.
    + change (nx (s0 e)) with 3%nat. lia.
    + apply h_nil.
    + apply (bool_decide_unpack _). vm_compute. done.
    + eapply ledger_unborn; [apply demo_unborn|exact HL].
    + unfold blocks. change (nx (s0 e)) with 3%nat. repeat (apply not_elem_of_cons; split; [lia|]). apply not_elem_of_nil.
    + unfold blocks. change (nx (s0 e)) with 3%nat. repeat (apply not_elem_of_cons; split; [lia|]). apply not_elem_of_nil.
    + eapply led_seg; [exact HL|intros k; apply HO; lia|]. by apply demo_seg.
    + eapply led_wok; [exact HL|intros k; apply HO; lia|]. eapply demo_wok; [done|]. vm_compute. lia.
    + eapply led_al; [exact HL|change (nx (s0 e)) with 3%nat; lia|done].
    + exists (/ 100). split; [done|lra].
Qed.
Lemma active : nonzero_or_none bv opts. Proof. right. exists 0%nat. cbn. lra. Qed.
Lemma zeros i k j : @scrib ER (@env0 ER) i k j = Fin 0. Proof. cbn. f_equal. lra. Qed.
Example fields : exists ax s1, @started ER (s0 env0) 2 2 dct2 0 0 [3; 0]%nat ax s1 /\ ax_norm_W ax = Fin 1 /\ ax_m ax = 4%Z /\ ax_n ax = 2%Z.
Proof.
  destruct (ready env0) as (ax & s1 & H & _); [done|exact zeros|]. exists ax, s1. pose proof (dn_start _ _ _ _ _ _ _ _ _ _ _ _ _ _ _ _ _ H) as HS.
  destruct (@dct_fields ER _ _ _ _ _ _ _ _ _ HS) as (E1 & E2 & _ & _ & E3 & _). split; [done|]. rewrite E1, E2, E3. split; [cbn; f_equal; lra|done].
Qed.
(** memory for all: the run ends with coefficients that fit the measurements and obey the bound; K counts the iterations of the last stage *)
Example c84 : exists ax s1 t' y z K, dct_nesta f1 f2 2 2 [3; 0]%nat 2 1 ax opts s1 = Ok 0%Z t' /\ @seg ER t' (Ptr 2 0) (fin z) /\
  nrm2 (vlin 1 (measured 2 2 dct2 [3; 0]%nat z) (-1) bv) <= / 10 /\ (1 <= Z.of_nat K)%Z /\
  forall w, length w = 4%nat -> feasible (measured 2 2 dct2 [3; 0]%nat) bv (/ 10) w ->
    nrm1 z <= nrm1 w + 4 * (/ 100 / 2) + rate 4 1 (/ 100) K (nrm1 y + 4 * (/ 100 / 2) + nrm2 y).
Proof.
  destruct (ready env0) as (ax & s1 & H & Hn & He); [done|exact zeros|].
  destruct (nesta_dct_outcome f1 f2 f1_len f2_len f1_exact f2_exact _ _ _ _ _ _ _ _ _ _ _ _ _ _ _ H active) as (_ & _ & _ & H4).
  destruct H4 as (t' & x & E & _); [intros j Hj; by rewrite He|left; unfold queue_aligned; by rewrite He|].
  destruct (C84_near_optimal f1 f2 f1_len f2_len f1_exact f2_exact _ _ _ _ _ _ _ _ _ _ _ _ _ _ _ (/ 100) (/ 1000) t' H eq_refl eq_refl ltac:(lra) ltac:(done) ltac:(exists 0%nat; cbn; lra) E) as (y & z & K & Sz & Lz & Fz & _ & HK & _ & Hb).
  exists ax, s1, t', y, z, K. split; [exact E|]. split; [exact Sz|]. split; [exact Fz|]. split; [lia|].
  intros w Lw Fw. pose proof (Hb w Lw Fw) as Q. replace (INR (Z.to_nat (2 * 2))) with 4 in Q; [exact Q|]. change (Z.to_nat (2 * 2)) with 4%nat. cbn. lra.
Qed.
(** the queue's malloc is refused; the queue is not aligned *)
Definition unlucky : @env ER := mkEnv (fun _ => true) (fun _ => false) (fun _ _ _ => @zero ER).
Example failures :
  (exists ax s1 t', dct_nesta f1 f2 2 2 [3; 0]%nat 2 1 ax opts s1 = Ok L1C_OUT_OF_MEMORY t') /\
  (exists ax s1, dct_nesta f1 f2 2 2 [3; 0]%nat 2 1 ax opts s1 = Ub UbOob) /\
  (exists ax s1, dct_nesta f1 f2 2 2 [3; 0]%nat 2 1 ax opts s1 = Ub UbAlign).
Proof.
  pose proof (nesta_dct_outcome f1 f2 f1_len f2_len f1_exact f2_exact) as HT. split_and!.
  - destruct (ready (upto 12)) as (ax & s1 & H & Hn & He); [intros i Hi; cbn; apply Nat.leb_le; lia|intros; cbn; f_equal; lra|].
    destruct (HT _ _ _ _ _ _ _ _ _ _ _ _ _ _ _ H active) as (H1 & _). destruct H1 as (t' & E & _); [|eauto]. exists 5%nat. split; [lia|]. by rewrite Hn, He.
  - destruct (ready (upto 17)) as (ax & s1 & H & Hn & He); [intros i Hi; cbn; apply Nat.leb_le; lia|intros; cbn; f_equal; lra|].
    destruct (HT _ _ _ _ _ _ _ _ _ _ _ _ _ _ _ H active) as (_ & H2 & _). exists ax, s1. apply H2; rewrite ?Hn, ?He; [|done].
    intros j Hj. rewrite Hn, He. cbn. apply Nat.leb_le. lia.
  - destruct (ready unlucky) as (ax & s1 & H & Hn & He); [done|intros; cbn; f_equal; lra|].
    destruct (HT _ _ _ _ _ _ _ _ _ _ _ _ _ _ _ H active) as (_ & _ & H3 & _). exists ax, s1. apply H3; [intros j Hj; by rewrite He| |done]. unfold queue_aligned. by rewrite He.
Qed.
End NestaDctEx.

Print Assumptions nesta_dct_outcome.
Print Assumptions C84_near_optimal.
Print Assumptions dct_fields.
