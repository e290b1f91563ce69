(** * Theorems about the explicit-matrix transform (src/matrix_transforms.c): C54. *)
From Coq Require Import ZArith Lia Reals Lra.
From stdpp Require Import base numbers gmap list.
From Verif Require Import Globals Mem M_Math M_Status M_FFTW M_Matrix M_TVt P_Mem P_Loop P_Math P_MathR P_TVR P_Touch P_Memory P_Own P_Newton L_Sum S_Vec L_Lin S_Newt S_Dct L_Cos P_FFTW P_Dct1s P_Dct2s P_DctR P_Dct2R S_Mem S_Xform P_Xform S_DctApi P_Dct E_Dct P_Matrix.
Local Open Scope Z_scope.

Section matrix.
Context `{N : Num}.
Context (fft1 : fkind -> list T -> list T) (fft2 : fkind -> nat -> nat -> list T -> list T).
Implicit Types (s : st) (ax : AxFuns).
(** a successful set-up for the n by m matrix a, stored row by row in the caller's array *)
Record started_m s (n m : nat) (ab : nat) (ao : Z) (a : list T) ax s1 : Prop := mkStartedM {
  sm_unborn : unborn s;
  sm_a : seg s (Ptr ab ao) a; sm_l : length a = (n * m)%nat;
  sm_ok : exists ax0, l1c_setup_matrix_transforms (Z.of_nat n) (Z.of_nat m) (Ptr ab ao) ax0 s = Ok (0, ax) s1 }.
(** the blocks of the transform: its work array and the matrix *)
Definition blocks_m s (ab : nat) : list nat := [nx s; ab].
Notation ops := (dct_ops fft1 fft2).

Lemma started_m_inv s n m ab ao a ax s1 : started_m s n m ab ao a ax s1 ->
  (1 <= n)%nat /\ (1 <= m)%nat /\ ax = axm (Z.of_nat n) (Z.of_nat m) /\ ledger [] [(KD, nx s)] s s1 /\
  okm (mkCm (nx s) ab ao n m a) /\ Jm (mkCm (nx s) ab ao n m a) s1.
Proof.
  intros [Hu Sa La [a0 E]].
  destruct (decide (1 <= n /\ 1 <= m)%nat) as [[Hn Hm]|Hx].
  2: { rewrite setupm_nonpos in E by lia. discriminate E. }
  destruct (setupm_run s n m (Ptr ab ao) a0 Hu Hn Hm) as [(_ & s' & E' & L & HJ)|(_ & s' & E' & _)]; rewrite E' in E; [|discriminate E].
  injection E as <- <-. destruct (HJ ab ao a eq_refl Sa La) as [HJ' Hne]. split_and!; try done.
Qed.
Lemma m_hist c s1 s2 : okm c -> Jm c s1 -> hist (Fm c) (ops (axm (Z.of_nat (cm_n c)) (Z.of_nat (cm_m c))) (cm_n c) (cm_m c)) s1 s2 -> Jm c s2.
Proof.
  intros HC HJ. apply hist_J; [apply Jm_same| |done]. intros o Ho. 
  repeat (apply elem_of_cons in Ho as [->|Ho]; [eapply computes_keeps, oper_computes; first [apply Ax_oper|apply Aty_oper|apply AtAx_oper|apply mtId_oper]; done|]).
  by apply elem_of_nil in Ho.
Qed.
Lemma m_always c s1 o A : okm c -> Jm c s1 -> oper (Fm c) (Jm c) (x_op o) (x_in o) (x_out o) A ->
  always (Fm c) (ops (axm (Z.of_nat (cm_n c)) (Z.of_nat (cm_m c))) (cm_n c) (cm_m c)) s1 o A.
Proof.
  intros HC HJ Ho. apply (always_of (Fm c) (Jm c)); [apply Jm_same| |done|by apply oper_computes].
  intros o' Ho'. 
  repeat (apply elem_of_cons in Ho' as [->|Ho']; [eapply computes_keeps, oper_computes; first [apply Ax_oper|apply Aty_oper|apply AtAx_oper|apply mtId_oper]; done|]).
  by apply elem_of_nil in Ho'.
Qed.

(** every function of the struct keeps computing one map, whatever was called before; AtAx is Aty
    after Ax, M and W are the identity and R is A, in any arithmetic (so also in floating point) *)
Theorem matrix_calls_history_independent s n m ab ao a ax s1 : started_m s n m ab ao a ax s1 ->
  let al := always (blocks_m s ab) (ops ax n m) s1 in
  al (o_Ax fft1 fft2 ax n m) (mv_of n m a) /\ al (o_Aty fft1 fft2 ax n m) (mtv_of n m a) /\
  al (o_AtAx fft1 fft2 ax m) (fun x => mtv_of n m a (mv_of n m a x)) /\
  al (o_Rx fft1 fft2 ax n m) (mv_of n m a) /\ al (o_Rty fft1 fft2 ax n m) (mtv_of n m a) /\
  al (o_Mx fft1 fft2 ax m) (fun x => x) /\ al (o_Mty fft1 fft2 ax m) (fun x => x) /\
  al (o_Wz fft1 fft2 ax m) (fun x => x) /\ al (o_Wtx fft1 fft2 ax m) (fun x => x).
Proof.
  intros H al. destruct (started_m_inv _ _ _ _ _ _ _ _ H) as (Hn & Hm & -> & _ & HC & HJ). 
  set (c := mkCm (nx s) ab ao n m a) in *. 
  split_and!; apply (m_always c s1 _ _ HC HJ); first [by apply (Ax_oper c)|by apply (Aty_oper c)|by apply (AtAx_oper c)|by apply (mtId_oper c)].
Qed.

(** ** Set-up and destruction *)
Theorem matrix_setup_rejects s n m A ax : n <= 0 \/ m <= 0 -> l1c_setup_matrix_transforms n m A ax s = Ok (L1C_INVALID_ARGUMENT, ax) s.
Proof. apply setupm_nonpos. Qed.
(** all other sizes: it succeeds exactly if its one allocation does; if not, the struct and the heap
    are as before.  The matrix is not looked at, so this holds for any pointer. *)
Theorem matrix_setup_decides s n m A ax : unborn s -> 0 < n -> 0 < m -> exists st ax' s', l1c_setup_matrix_transforms n m A ax s = Ok (st, ax') s' /\
  (st = 0 <-> alloc_ok (en s) (nx s) = true) /\
  (st = 0 -> ax_n ax' = n /\ ax_m ax' = m /\ ax_p ax' = m /\ ax_q ax' = m /\ ax_norm_W ax' = zero) /\
  (st <> 0 -> st = L1C_OUT_OF_MEMORY /\ ax' = ax /\ dm s' = dm s /\ om s' = om s /\ pm s' = pm s /\ im s' = im s).
Proof.
  intros Hu Hn Hm. destruct (Z_of_nat_complete n ltac:(lia)) as [n' ->]. destruct (Z_of_nat_complete m ltac:(lia)) as [m' ->].
  destruct (setupm_run s n' m' A ax Hu ltac:(lia) ltac:(lia)) as [(Ha & s' & E & _)|(Ha & s' & E & L & _)]; do 3 eexists; (split; [exact E|]).
  - split; [done|]. split; [done|]. done.
  - split; [by rewrite Ha|]. split; [done|]. intros _. split; [done|]. split; [done|].
    split_and!; [..|apply L]; apply map_eq; intros b; [apply (lg_dm _ _ _ _ L)|apply (lg_om _ _ _ _ L)|apply (lg_pm _ _ _ _ L)]; apply not_elem_of_nil.
Qed.
(** destroying it after any use releases the one block and touches nothing else *)
Theorem matrix_destroy_releases s n m ab ao a ax s1 : started_m s n m ab ao a ax s1 ->
  forall s2, hist (blocks_m s ab) (ops ax n m) s1 s2 ->
    exists s3, call_destroy (ax_destroy ax) s2 = Ok tt s3 /\ gone s2 s3 [nx s] [] /\ call_destroy (ax_destroy ax) s3 = Ub UbFree.
Proof.
  intros H s2 Hh. destruct (started_m_inv _ _ _ _ _ _ _ _ H) as (Hn & Hm & -> & _ & HC & HJ).
  set (c := mkCm (nx s) ab ao n m a) in *. pose proof (m_hist c s1 s2 HC HJ Hh) as HJ2.
  destruct (destroym_run c s2 HJ2 ltac:(cbn; lia)) as (s3 & E & G). exists s3. split; [exact E|]. split; [exact G|].
  destruct G as (G1 & _ & _ & _ & _ & _ & _ & G2). change (mt_destroy s3 = Ub UbFree). unfold mt_destroy.
  rewrite (bind_ok _ _ _ (stm c) s3) by (unfold getm, getg, bind, ret; by rewrite G2, (jm_gl _ _ HJ2)).
  assert (Hd : dm s3 !! nx s = None) by (rewrite G1; case_bool_decide as Hb; [done|]; exfalso; apply Hb; left).
  unfold l1c_free_double. cbn [stm mt_dwork cm_w c free_d Z.eqb]. by rewrite Hd.
Qed.
(** set-up and then destroy: the heap is as before *)
Theorem matrix_setup_destroy_balanced s n m ab ao a ax s1 : started_m s n m ab ao a ax s1 ->
  exists s3, call_destroy (ax_destroy ax) s1 = Ok tt s3 /\ dm s3 = dm s /\ om s3 = om s /\ pm s3 = pm s /\ im s3 = im s.
Proof.
  intros H. destruct (matrix_destroy_releases _ _ _ _ _ _ _ _ H s1 (h_nil _ _ _)) as (s3 & E & (G1 & G2 & G3 & G4 & _) & _).
  destruct (started_m_inv _ _ _ _ _ _ _ _ H) as (_ & _ & _ & L & _). pose proof (sm_unborn _ _ _ _ _ _ _ _ H) as Hu.
  exists s3. split; [done|]. split_and!.
  - apply map_eq. intros b. rewrite G1. case_bool_decide as Hb.
    + symmetry. apply Hu. apply elem_of_list_singleton in Hb as ->. lia.
    + apply (lg_dm _ _ _ _ L); [apply not_elem_of_nil|]. intros Hi. apply elem_of_list_singleton in Hi. injection Hi as ->. apply Hb. left.
  - apply map_eq. intros b. rewrite G2. case_bool_decide as Hb; [by apply elem_of_nil in Hb|]. apply (lg_om _ _ _ _ L).
    intros Hi. apply elem_of_list_singleton in Hi. discriminate Hi.
  - rewrite G3. apply map_eq. intros b. apply (lg_pm _ _ _ _ L). intros Hi. apply elem_of_list_singleton in Hi. discriminate Hi.
  - rewrite G4. apply (lg_im _ _ _ _ L).
Qed.
(** a second set-up while the first is live: the first struct's functions are then the second's, and
    the first work array can no longer be released *)
Theorem matrix_second_setup_takes_over s n m ab ao a ax s1 n' m' ab' ao' a' ax' s2 :
  started_m s n m ab ao a ax s1 -> started_m s1 n' m' ab' ao' a' ax' s2 ->
  always (blocks_m s1 ab') (ops ax' n' m') s2 (o_Ax fft1 fft2 ax n' m') (mv_of n' m' a') /\
  exists s3, call_destroy (ax_destroy ax') s2 = Ok tt s3 /\ call_destroy (ax_destroy ax) s3 = Ub UbFree /\
    dm s !! nx s = None /\ is_Some (dm s3 !! nx s).
Proof.
  intros H H'. destruct (started_m_inv _ _ _ _ _ _ _ _ H) as (_ & _ & Ea & L & _). destruct (started_m_inv _ _ _ _ _ _ _ _ H') as (_ & _ & Ea' & L' & _).
  destruct (matrix_calls_history_independent _ _ _ _ _ _ _ _ H') as (HA & _).
  destruct (matrix_destroy_releases _ _ _ _ _ _ _ _ H' s2 (h_nil _ _ _)) as (s3 & E & (G1 & _) & E3).
  split; [rewrite Ea; by rewrite Ea' in *|]. exists s3. split; [done|]. split; [rewrite Ea; by rewrite Ea' in E3|].
  assert (Hin : (KD, nx s) ∈ [(KD, nx s)]) by left. destruct (lg_own _ _ _ _ L _ _ Hin) as [Hlt [v Hv]].
  split; [apply (sm_unborn _ _ _ _ _ _ _ _ H); lia|]. exists v. rewrite G1. case_bool_decide as Hb.
  - apply elem_of_list_singleton in Hb. lia.
  - rewrite (lg_dm _ _ _ _ L'); [done|apply not_elem_of_nil|]. intros Hi. apply elem_of_list_singleton in Hi. injection Hi as Hi. lia.
Qed.
End matrix.

(** ** Over the reals *)
(** the product of the n by m matrix a, stored row by row, with a vector, and that of its transpose *)
Definition matvec (n m : nat) (a x : list R) : list R := vec n (fun i => Rsum m (fun j => nth (i * m + j) a 0 * nth j x 0)%R).
Definition matTvec (n m : nat) (a y : list R) : list R := vec m (fun j => Rsum n (fun i => nth (i * m + j) a 0 * nth i y 0)%R).
Lemma mv_R n m (a x : list R) : @mv_of RN n m a x = matvec n m a x.
Proof.
  unfold mv_of, matvec. rewrite tab_vec. apply map_ext_in. intros i _. rewrite zero_RN, one_RN. cbn [add mul RN].
  rewrite (foldi_ext m _ (fun j t => t + nth (i * m + j) a 0 * nth j x 0)%R) by (intros j t _; by rewrite !at_RN).
  rewrite foldi_Rsum. by rewrite !Rplus_0_l, Rmult_1_l.
Qed.
Lemma mtv_R n m (a y : list R) : @mtv_of RN n m a y = matTvec n m a y.
Proof.
  unfold mtv_of, matTvec. rewrite tab_vec. apply map_ext_in. intros j _. rewrite zero_RN, one_RN. cbn [add mul RN].
  rewrite (foldi_ext n _ (fun i t => t + nth (i * m + j) a 0 * nth i y 0)%R).
  - rewrite foldi_Rsum. by rewrite !Rplus_0_l.
  - intros i t _. rewrite !at_RN. eqR. ring.
Qed.
Lemma mat_adjoint n m a : adjoint m n (matvec n m a) (matTvec n m a).
Proof.
  split; [intros; apply vec_len|]. intros x y Lx Ly. unfold dot. unfold matvec at 1. rewrite vec_len, Lx.
  transitivity (Rsum n (fun i => Rsum m (fun j => nth (i * m + j) a 0 * nth j x 0 * nth i y 0)%R)).
  { apply Rsum_ext. intros i Hi. unfold matvec. rewrite vec_nth by done. by rewrite Rsum_scal_r. }
  rewrite Rsum_swap. apply Rsum_ext. intros j Hj. unfold matTvec. rewrite vec_nth by done. rewrite <- Rsum_scal. apply Rsum_ext. intros i Hi. lra.
Qed.
Lemma mat_linmap n m a : linmap m n (matvec n m a).
Proof.
  split; [intros; apply vec_len|]. intros c u v Lu Lv i Hi. unfold matvec. rewrite !vec_nth by done.
  rewrite <- Rsum_scal, <- Rsum_plus. apply Rsum_ext. intros j Hj. change (vlin c u 1 v) with (vec (length u) (fun i => c * nth i u 0 + 1 * nth i v 0)%R). rewrite vec_nth by lia. lra.
Qed.
(** C54: Ax is multiplication by the matrix, Aty by its transpose, they are adjoint, and AtAx is
    their composition *)
Theorem matrix_operators_adjoint (s : @st RN) n m ab ao a ax s1 : started_m s n m ab ao a ax s1 ->
  let al := always (blocks_m s ab) (@dct_ops RN dft1 dft2 ax n m) s1 in
  al (@o_Ax RN dft1 dft2 ax n m) (matvec n m a) /\ al (@o_Aty RN dft1 dft2 ax n m) (matTvec n m a) /\
  al (@o_AtAx RN dft1 dft2 ax m) (fun x => matTvec n m a (matvec n m a x)) /\
  linmap m n (matvec n m a) /\ adjoint m n (matvec n m a) (matTvec n m a).
Proof.
  intros H al. destruct (@matrix_calls_history_independent RN dft1 dft2 _ _ _ _ _ _ _ _ H) as (H1 & H2 & H3 & _).
  assert (HE : forall o f g, (forall x, f x = g x) -> al o f -> al o g).
  { intros o f g E HA s2 X xs D ds Hh HG. rewrite <- E. exact (HA s2 X xs D ds Hh HG). }
  split; [eapply HE; [|exact H1]; intros x; apply mv_R|]. split; [eapply HE; [|exact H2]; intros x; apply mtv_R|].
  split; [eapply HE; [|exact H3]; intros x; by rewrite <- mtv_R, <- mv_R|].
  split; [apply mat_linmap|apply mat_adjoint].
Qed.

(** ** Concrete case: the matrix 1 2 3 / 4 5 6, Ax of 1,1,1, with a second array for a second set-up *)
Example matrix_case : exists (s : @st RN) ax s1 s3 ax' s2, started_m s 2 3 1 0 [1; 2; 3; 4; 5; 6]%R ax s1 /\
  @call RN dft1 dft2 (ax_Ax ax) (Ptr 2 0) (Ptr 3 0) s1 = Ok tt s3 /\ seg s3 (Ptr 3 0) [6; 15]%R /\
  started_m s1 1 2 1 1 [2; 3]%R ax' s2.
Proof.
  set (bl := [@full RN [1; 2; 3; 4; 5; 6]%R; @full RN [1; 1; 1]%R; @fresh RN 2]). set (s := @demo RN env0 [] bl).
  assert (Hu : unborn s) by apply demo_unborn.
  assert (Sa : seg s (Ptr 1 0) [1; 2; 3; 4; 5; 6]%R) by (by apply (@demo_seg RN env0 [] bl 0)).
  destruct (@setupm_run RN s 2 3 (Ptr 1 0) ax0 Hu ltac:(lia) ltac:(lia)) as [(_ & s1 & E & L & _)|(Ha & _)]; [|discriminate Ha].
  assert (H : started_m s 2 3 1 0 [1; 2; 3; 4; 5; 6]%R (axm 2 3) s1). { split; try done. by exists ax0. }
  assert (Hno : forall b k, (b < 4)%nat -> (k, b) ∉ [(KD, nx s)]).
  { intros b k Hb Hi. apply elem_of_list_singleton in Hi. injection Hi as -> ->. simpl in Hb. lia. }
  assert (HG : good_call (blocks_m s 1) (@o_Ax RN dft1 dft2 (axm 2 3) 2 3) s1 (Ptr 2 0) [1; 1; 1]%R (Ptr 3 0) []).
  { split; try done.
    - eapply led_seg; [exact L|intros; apply Hno; lia|]. by apply (@demo_seg RN env0 [] bl 1).
    - eapply led_wok; [exact L|intros; apply Hno; lia|]. by apply (@demo_wok RN env0 [] bl 2 (@fresh RN 2)).
    - eapply led_al; [exact L|simpl; lia|done].
    - eapply led_al; [exact L|simpl; lia|done].
    - apply (bool_decide_unpack _). vm_compute. done.
    - apply (bool_decide_unpack _). vm_compute. done. }
  destruct (matrix_operators_adjoint _ _ _ _ _ _ _ _ H) as (H1 & _).
  destruct (H1 s1 _ _ _ _ (h_nil _ _ _) HG) as (s3 & E3 & S3 & _).
  assert (Hu1 : unborn s1) by (eapply ledger_unborn; [|exact L]; done).
  destruct (@setupm_run RN s1 1 2 (Ptr 1 1) ax0 Hu1 ltac:(lia) ltac:(lia)) as [(_ & s2 & E2 & L2 & _)|(Ha & _)]; [|rewrite (lg_en _ _ _ _ L) in Ha; discriminate Ha].
  exists s, (axm 2 3), s1, s3, (axm 1 2), s2. split; [done|]. split; [done|]. split.
  - assert (EM : matvec 2 3 [1; 2; 3; 4; 5; 6]%R [1; 1; 1]%R = [6; 15]%R).
    { unfold matvec, vec. cbn. f_equal; [lra|f_equal; lra]. } by rewrite EM in S3.
  - split; try done; [|by exists ax0]. assert (S1 : seg s1 (Ptr 1 0) [1; 2; 3; 4; 5; 6]%R) by (eapply led_seg; [exact L|intros; apply Hno; lia|done]).
    intros i v Hi. destruct i as [|[|]]; [..|done]; injection Hi as <-; [exact (S1 1%nat 2%R eq_refl)|exact (S1 2%nat 3%R eq_refl)].
Qed.

Print Assumptions matrix_calls_history_independent.
Print Assumptions matrix_setup_rejects.
Print Assumptions matrix_setup_decides.
Print Assumptions matrix_destroy_releases.
Print Assumptions matrix_setup_destroy_balanced.
Print Assumptions matrix_second_setup_takes_over.
Print Assumptions matrix_operators_adjoint.
