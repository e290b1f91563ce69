(** * C77: nesta_dctTV from MATLAB (interfaces/mex/nesta_dctTV_mex.c). *)
From Coq Require Import ZArith Lia Reals Lra.
From stdpp Require Import base numbers gmap list strings.
From Verif Require Import Globals Mem M_Math M_Memory M_Status M_CG M_LineSearch M_FFTW M_Dct1 M_Dct2 M_Dct M_TVt M_Newton M_L1qcDct M_Bregman M_Nesta
  M_Logging M_MexUtils M_Mex P_Mem P_Loop S_Mem P_Touch P_Math P_CG P_Memory P_Own P_Newton P_FFTW P_Dct1s S_DctApi P_Dct S_L1qcDct S_Mex P_Mex P_Mex2
  S_Xform P_Xform S_TVtApi P_TVt P_TVs P_TVa T_TVt P_Nesta P_Nesta2 S_MexNesta P_MexNesta L_ER S_Vec S_Newt S_Dct T_Bregman T_Nesta T_NestaTV T_Mex T_L1qcDct P_MathR P_TVR P_DctE P_TVtE S_Nesta S_NestaRate T_NestaTVRate T_Dct.
Local Open Scope Z_scope.

Section C77.
Context `{N : Num}.
Context (fft1 : fkind -> list T -> list T) (fft2 : fkind -> nat -> nat -> list T -> list T).
Hypothesis fft1_len : forall k xs, length (fft1 k xs) = length xs.
Hypothesis fft2_len : forall k nr nc xs, length xs = (nr * nc)%nat -> length (fft2 k nr nc xs) = (nr * nc)%nat.
Implicit Types (s : st).
Notation mex := (nesta_mex fft1 fft2).
(** requests number k, k+1, ... up to l from now on are granted *)
Definition grants_to s (k l : nat) : Prop := forall j, (k <= j < l)%nat -> alloc_ok (en s) (nx s + j) = true.

(** ** What it rejects *)
Theorem nesta_mex_bad_index s prhs nr nc bb bo bs pi vs zs o av ah mode bp nlhs : nesta_args s prhs nr nc bb bo bs pi vs zs o av ah mode bp -> 2 <= nlhs ->
  alloc_ok (en s) (nx s) = true -> ~ in_image nr nc zs ->
  exists s', mex nlhs 5 prhs s = Ok (Err "l1c:l1qc_dct:bad_index") s' /\ same_heap s s'.
Proof.
  intros A Hl E0 HI. destruct (recover_granted fft1 fft2 _ _ _ _ _ _ _ _ _ _ _ _ _ _ _ _ A Hl E0) as [(_ & s' & E & HS & _)|(H & _)]; [|done]. eauto.
Qed.
(** weights that the transforms do not take are reported as a bad index *)
Theorem nesta_mex_weights_message s prhs nr nc bb bo bs pi vs zs o av ah mode bp nlhs : nesta_args s prhs nr nc bb bo bs pi vs zs o av ah mode bp -> 2 <= nlhs ->
  alloc_ok (en s) (nx s) = true -> in_image nr nc zs -> ~ weights_ok nr nc av ah ->
  exists s', mex nlhs 5 prhs s = Ok (Err "l1c:l1qc_dct:bad_index") s' /\ same_heap s s'.
Proof.
  intros A Hl E0 HI HW. destruct (recover_granted fft1 fft2 _ _ _ _ _ _ _ _ _ _ _ _ _ _ _ _ A Hl E0) as [(_ & s' & E & HS & _)|(_ & E)]; [eauto|].
  rewrite E. clear E. set (si := idx_ready _ s).
  destruct (tv_setup_decides si (Z.of_nat (length (idx_of zs))) (Z.of_nat nr) (Z.of_nat nc) av ah mode bp (Ptr (nx s) 0) ax_local (Z.of_nat <$> idx_of zs)) as [HD _].
  - intros b Hb. cbn in Hb. exact (nn_u _ _ _ _ _ _ _ _ _ _ _ _ _ _ _ A b ltac:(lia)).
  - pose proof (nn_fit _ _ _ _ _ _ _ _ _ _ _ _ _ _ _ A). unfold in_int, INT_MIN. rewrite !(proj2 (Z.leb_le _ _)) by lia. done.
  - intros _. split; [|by rewrite fmap_length]. intros i z Hi. unfold ldi. cbn [im si idx_ready idx_made tick set_im log_to set_gl nx]. rewrite (proj2 (Z.leb_le _ _)) by lia.
    rewrite lookup_insert, ?Z.add_0_l, Nat2Z.id, Hi. done.
  - destruct HD as (t & ES & D1 & D2 & D3 & D4 & _).
    { intros (_ & _ & _ & H1 & H2 & H3 & _). apply HW. split; [done|]. split; [done|]. intros H. specialize (H3 H). lia. }
    erewrite mbind_lift. 2:{ unfold work. rewrite (bind_ok _ _ _ _ _ ES). reflexivity. }
    unfold leave. destruct (freed_idx _ _ _ _ _ _ _ _ _ _ _ _ _ _ _ A t D4) as [Ef Ed].
    erewrite mbind_lift. 2:{ rewrite (bind_ok _ _ _ _ _ Ef). reflexivity. }
    eexists. split; [reflexivity|]. split; [exact D1|]. split; [exact D2|]. split; [exact D3|]. exact Ed.
Qed.
(** no memory for the indices: the pointer is tested only after the indices have been stored through it *)
Theorem nesta_mex_index_memory s prhs nr nc bb bo bs pi vs z zs o av ah mode bp nlhs : nesta_args s prhs nr nc bb bo bs pi vs (z :: zs) o av ah mode bp -> 2 <= nlhs ->
  alloc_ok (en s) (nx s) = false ->
  (1 <= z <= Z.of_nat (nr * nc) -> mex nlhs 5 prhs s = Ub UbOob) /\
  (~ 1 <= z <= Z.of_nat (nr * nc) -> exists s', mex nlhs 5 prhs s = Ok (Err "l1c:l1qc_dct:bad_index") s' /\ same_heap s s').
Proof.
  intros A Hl E0. rewrite !(nesta_mex_args _ _ _ _ _ _ _ _ _ _ _ _ _ _ _ _ _ _ A Hl). destruct (nargs_idx _ _ _ _ _ _ _ _ _ _ _ _ _ _ _ A) as (Sv & _ & H2 & _).
  pose proof (nn_zs _ _ _ _ _ _ _ _ _ _ _ _ _ _ _ A) as HZ. destruct vs as [|v vs]; [inversion HZ|]. apply Forall2_cons in HZ as [[Tz Iz] _].
  unfold recover_part. set (t := log_to mexPrintf s).
  assert (EN : calloc_i (Z.of_nat (length bs)) t = Ok Null (tick t)).
  { unfold calloc_i. cbn [en nx t log_to set_gl]. by rewrite E0, andb_false_r. }
  rewrite !(mbind_lift _ _ _ _ _ EN).
  assert (H1 : exists k, Z.to_nat (Z.of_nat (length bs) - 0) = S k) by (exists (length bs - 1)%nat; lia). destruct H1 as (k & Ek).
  assert (Bz : INT_MIN <= z - 1 <= INT_MAX) by lia.
  assert (Lv : ld pi 0 (tick t) = Ok v (tick t)) by (apply ld_ok; exact (Sv 0%nat v eq_refl)).
  split.
  - intros Hz. apply mbind_ub. unfold lift. apply bind_ub. apply bind_ub. unfold convert_idx, for_brk. rewrite Ek. apply bind_ub. cbn [brkn].
    apply bind_ub. rewrite (bind_ok _ _ _ _ _ Lv), (bind_ok _ _ _ _ _ (cast_ok _ _ _ Tz)), (bind_ok _ _ _ _ _ (i32_ok _ _ Bz)).
    rewrite !(proj2 (Z.ltb_ge _ _)) by lia. done.
  - intros Hz. erewrite mbind_lift.
    2:{ unfold convert_idx, for_brk. rewrite Ek. cbn [brkn].
        erewrite (bind_ok _ _ (tick t) L1C_INVALID_ARGUMENT (tick t)); [reflexivity|]. erewrite bind_ok; [|erewrite bind_ok; [|
          rewrite (bind_ok _ _ _ _ _ Lv), (bind_ok _ _ _ _ _ (cast_ok _ _ _ Tz)), (bind_ok _ _ _ _ _ (i32_ok _ _ Bz));
          replace ((z - 1 <? 0) || (Z.of_nat (nr * nc) - 1 <? z - 1)) with true by (symmetry; rewrite orb_true_iff, !Z.ltb_lt; lia); reflexivity]; reflexivity]. reflexivity. }
    unfold leave. erewrite mbind_lift by reflexivity. eexists. split; [reflexivity|]. done.
Qed.

(** the transforms are set up *)
Lemma opened s prhs nr nc bb bo bs pi vs zs o av ah mode bp : nesta_args s prhs nr nc bb bo bs pi vs zs o av ah mode bp -> in_image nr nc zs -> scales_fit nr nc av ah -> grants_to s 0 7 ->
  let si := idx_ready (Z.of_nat <$> idx_of zs) s in
  exists ax s1 sb axb J, l1c_setup_dctTV_transforms (Z.of_nat (length (idx_of zs))) (Z.of_nat nr) (Z.of_nat nc) av ah mode bp (Ptr (nx s) 0) ax_local si = Ok (0, ax) s1 /\
    started_t si (Z.of_nat nr) (Z.of_nat nc) av ah mode bp (nx s) 0 (idx_of zs) ax s1 /\ live fft1 fft2 si nr nc av ah mode bp (nx s) (idx_of zs) ax s1 sb axb J.
Proof.
  intros A HI HA HG si. destruct (setup_done _ _ _ _ _ _ _ _ _ _ _ _ _ _ _ A HI HA ltac:(intros j Hj; apply HG; lia)) as (ax & s1 & ES & HS).
  destruct (started_live fft1 fft2 fft1_len fft2_len _ _ _ _ _ _ _ _ _ _ _ _ HS) as (r & c & sb & axb & J & Er & Ec & L).
  apply Nat2Z.inj in Er as <-. apply Nat2Z.inj in Ec as <-. exists ax, s1, sb, axb, J. done.
Qed.
(** ** No memory for x0 or for its copy of the measurements: an error, and the six blocks of the transforms are
    never released *)
Theorem nesta_mex_out_of_memory_leaks s prhs nr nc bb bo bs pi vs zs o av ah mode bp nlhs : nesta_args s prhs nr nc bb bo bs pi vs zs o av ah mode bp -> 2 <= nlhs ->
  in_image nr nc zs -> scales_fit nr nc av ah -> grants_to s 0 7 -> alloc_ok (en s) (nx s + 7) = false \/ alloc_ok (en s) (nx s + 8) = false ->
  exists s', mex nlhs 5 prhs s = Ok (Err "l1c:l1qc_dct:outofmemory") s' /\
    let Dl := [nx s + 1; nx s + 2; nx s + 3; nx s + 4]%nat in let Ol := [nx s + 5; nx s + 6]%nat in
    (forall b, b ∉ Dl -> dm s' !! b = dm s !! b) /\ (forall b, b ∉ Ol -> om s' !! b = om s !! b) /\ pm s' = pm s /\ im s' = im s /\
    (forall b, b ∈ Dl -> dm s !! b = None /\ is_Some (dm s' !! b)) /\ (forall b, b ∈ Ol -> om s !! b = None /\ is_Some (om s' !! b)).
Proof.
  intros A Hl HI HA HG HR. destruct (recover_granted fft1 fft2 _ _ _ _ _ _ _ _ _ _ _ _ _ _ _ _ A Hl) as [(HE & _)|(_ & E)].
  { rewrite <- (Nat.add_0_r (nx s)). apply HG. lia. }
  { exfalso. apply Exists_exists in HE as (z & Hz & Hn). apply Hn. exact (proj1 (Forall_forall _ _) HI z Hz). }
  destruct (opened _ _ _ _ _ _ _ _ _ _ _ _ _ _ _ A HI HA HG) as (ax & s1 & sb & axb & J & ES & HS & L).
  destruct (no_room _ _ _ _ _ _ _ _ _ _ _ _ _ _ _ _ _ A _ _ HS _ _ _ L ES HR) as (s' & E' & D1 & D2 & D3 & D4).
  exists s'. split; [by rewrite E|]. destruct (left_over _ _ _ _ _ _ _ _ _ _ _ _ _ _ _ _ _ A _ _ _ _ _ L s' D1 D2 D3) as (H1 & H2 & H3 & H4 & H5). done.
Qed.
(** ** When l1c_nesta does not return a result, uninitialised memory is shown *)
Theorem nesta_mex_solver_failure_undefined s prhs nr nc bb bo bs pi vs zs o av ah mode bp nlhs : nesta_args s prhs nr nc bb bo bs pi vs zs o av ah mode bp -> 2 <= nlhs ->
  in_image nr nc zs -> scales_fit nr nc av ah -> grants_to s 0 9 ->
  (* in synthesis mode always; in analysis mode if the solver does not get its memory *)
  bp = synthesis \/ (exists j, (9 <= j < 19)%nat /\ alloc_ok (en s) (nx s + j) = false) ->
  exists e, mex nlhs 5 prhs s = Ub e.
Proof.
  intros A Hl HI HA HG HR. destruct (recover_granted fft1 fft2 _ _ _ _ _ _ _ _ _ _ _ _ _ _ _ _ A Hl) as [(HE & _)|(_ & E)].
  { rewrite <- (Nat.add_0_r (nx s)). apply HG. lia. }
  { exfalso. apply Exists_exists in HE as (z & Hz & Hn). apply Hn. exact (proj1 (Forall_forall _ _) HI z Hz). }
  destruct (opened _ _ _ _ _ _ _ _ _ _ _ _ _ _ _ A HI HA ltac:(intros j Hj; apply HG; lia)) as (ax & s1 & sb & axb & J & ES & HS & L).
  destruct (not_written _ _ _ _ _ _ _ _ _ _ _ _ _ _ _ _ _ A _ _ HS _ _ _ L ES (HG 7%nat ltac:(lia)) (HG 8%nat ltac:(lia))) as (e & Ee).
  { destruct HR as [HR|(j & Hj & Ej)]; [by left|right]. exists (j - 9)%nat. split; [lia|]. by replace (nx s + 9 + (j - 9))%nat with (nx s + j)%nat by lia. }
  exists e. rewrite E. apply mbind_ub. unfold lift. by apply bind_ub.
Qed.
End C77.

(** ** A result *)
Section result.
Local Open Scope R_scope.
(** FFTW computes its documented transforms of finite data *)
Context (fft1 : fkind -> list er -> list er) (fft2 : fkind -> nat -> nat -> list er -> list er).
Hypothesis fft1_len : forall k xs, length (fft1 k xs) = length xs.
Hypothesis fft2_len : forall k nr nc xs, length xs = (nr * nc)%nat -> length (fft2 k nr nc xs) = (nr * nc)%nat.
Hypothesis fft1_exact : forall k (x : list R), fft1 k (fin x) = fin (dft1 k x).
Hypothesis fft2_exact : forall k nr nc (x : list R), length x = (nr * nc)%nat -> fft2 k nr nc (fin x) = fin (dft2 k nr nc x).
Notation mex := (@nesta_mex ER fft1 fft2).
(** A sensible call: analysis mode; finite measurements and weights; different pixels; sigma and mu positive;
    the measurements not all zero (or no stage asked for). *)
Record nesta_sensible (s : @st ER) prhs (nr nc bb : nat) (bo : Z) (bv : list R) pi vs (zs : list Z) (o : @NestaOpts ER) (rv rh : R) (mode : Z) (sg : R) : Prop := {
  ns_args : @nesta_args ER s prhs nr nc bb bo (fin bv) pi vs zs o (Fin rv) (Fin rh) mode analysis;
  ns_in : in_image nr nc zs; ns_w : @scales_fit ER nr nc (Fin rv) (Fin rh); ns_nd : NoDup zs;
  ns_sigma : no_sigma o = Fin sg; ns_sg : 0 < sg; ns_mu : exists mu, no_mu o = Fin mu /\ 0 < mu;
  ns_cont : (no_n_continue o < INT_MAX)%Z; ns_nz : nonzero_or_idle bv o }.
Lemma idx_nodup nr nc zs : in_image nr nc zs -> NoDup zs -> NoDup (idx_of zs).
Proof.
  intros HI ND. unfold idx_of. unfold in_image in HI. induction ND as [|z zs Hz ND IH]; [constructor|]. apply Forall_cons in HI as [H1 HI]. cbn [fmap list_fmap]. constructor; [|by apply IH].
  intros Hin. apply elem_of_list_fmap in Hin as (y & Ey & Hy). assert (1 <= y)%Z by (apply (proj1 (Forall_forall _ _) HI y Hy)). assert (y = z) by lia. by subst.
Qed.
Section call.
Context (s : @st ER) (prhs : list mxArray) (nr nc bb : nat) (bo : Z) (bv : list R) (pi : ptr) (vs : list er) (zs : list Z) (o : @NestaOpts ER) (rv rh : R) (mode : Z) (sg : R).
Hypothesis HC : nesta_sensible s prhs nr nc bb bo bv pi vs zs o rv rh mode sg.
Let A := ns_args _ _ _ _ _ _ _ _ _ _ _ _ _ _ _ HC.
Notation ms := (idx_of zs).
Notation si := (idx_ready (Z.of_nat <$> idx_of zs) s).
Notation m := (nr * nc)%nat.
Context (ax : @AxFuns ER) (s1 sb : @st ER) (axb : @AxFuns ER) (J : @st ER -> Prop).
Hypothesis ES : @l1c_setup_dctTV_transforms ER (Z.of_nat (length ms)) (Z.of_nat nr) (Z.of_nat nc) (Fin rv) (Fin rh) mode analysis (Ptr (nx s) 0) (@ax_local ER) si = Ok (0%Z, ax) s1.
Hypothesis HS : @started_t ER si (Z.of_nat nr) (Z.of_nat nc) (Fin rv) (Fin rh) mode analysis (nx s) 0 ms ax s1.
Hypothesis L : @live ER fft1 fft2 si nr nc (Fin rv) (Fin rh) mode analysis (nx s) ms ax s1 sb axb J.
Notation t3 := (@s3 ER s nr nc (fin bv) zs (Fin rv) (Fin rh) analysis s1).
Lemma lens : length bv = length ms.
Proof. rewrite (@len_n ER _ _ _ _ _ _ _ _ _ _ _ _ _ _ _ A). by rewrite fin_length. Qed.
Lemma called : tv_nesta_call fft1 fft2 si (Z.of_nat nr) (Z.of_nat nc) rv rh mode (nx s) 0 ms ax s1 t3 (nx s + 7) (nx s + 8) bv o sg.
Proof.
  pose proof (@s3_nx ER s nr nc (fin bv) zs (Fin rv) (Fin rh) mode analysis ax s1 HS) as Hn. pose proof (@s1_nx ER s nr nc zs (Fin rv) (Fin rh) mode analysis ax s1 HS) as Hn1.
  assert (HF : forall b, b ∈ blocks_t si (nx s) -> (b < nx s + 7)%nat) by (apply F_lt).
  split; try (apply HC); try lia.
  - exact HS.
  - cbv zeta. eapply h_user; [apply h_nil|]. exact (@s3_same ER s nr nc (fin bv) zs (Fin rv) (Fin rh) mode analysis ax s1 HS).
  - eapply idx_nodup; apply HC.
  - exact (@s3_unborn ER _ _ _ _ _ _ _ _ _ _ _ _ _ _ _ _ _ A _ _ HS _ _ _ L).
  - intros H. apply HF in H. lia.
  - intros H. apply HF in H. lia.
  - exact (@s3_seg ER _ _ _ _ _ _ _ _ _ _ _ _ _ _ _ A _ _ HS).
  - apply lens.
  - rewrite <- Nat2Z.inj_mul, Nat2Z.id. exact (@s3_wok ER s nr nc (fin bv) zs (Fin rv) (Fin rh) mode analysis ax s1 HS eq_refl).
  - unfold s3, s2. cbn. rewrite Hn1. replace (S (nx s + 7)) with (nx s + 8)%nat by lia. by rewrite Nat.eqb_refl.
Qed.
End call.
(** With all the memory it asks for and an aligned queue the answer is an image whose measured pixels are within
    sigma of the measurements, and status 0; all memory is released. *)
Theorem nesta_mex_returns s prhs nr nc bb bo bv pi vs zs o rv rh mode sg nlhs : nesta_sensible s prhs nr nc bb bo bv pi vs zs o rv rh mode sg -> (2 <= nlhs)%Z ->
  grants_to s 0 20 -> luck (en s) (nx s + 19) = true \/ (no_n_continue o <= 0)%Z ->
  exists x s', mex nlhs 5%Z prhs s = Ok (Val [@OutDouble ER (Z.of_nat nr) (Z.of_nat nc) (fin x); @OutDouble ER 1 1 [@ofZ ER 0]]) s' /\ same_heap s s' /\
    length x = (nr * nc)%nat /\ nrm2 (vlin 1 (sample ((fun z => Z.to_nat (z - 1)) <$> zs) x) (-1) bv) <= sg /\
    (* it comes out of n_continue stages that end with the smoothing mu and the tolerance tol of the options *)
    (forall mu tol, no_mu o = Fin mu -> no_tol o = Fin tol -> 0 < tol -> (1 <= no_n_continue o)%Z -> (exists i, nth i bv 0 <> 0) ->
       let px := (fun z => Z.to_nat (z - 1)) <$> zs in
       staged (nr * nc) (nblocks rv rh * (nr * nc)) (sample px) bv sg (dictT (xf_fwd (Z.of_nat nr) (Z.of_nat nc) mode) nr nc rv rh) (R_sqrt.sqrt (1 + 4 * rv ^ 2 + 4 * rh ^ 2)) mu tol
         (Z.to_nat (no_n_continue o)) (spread (nr * nc) px bv) x).
Proof.
  intros HC Hl HG Hq. pose proof (ns_args _ _ _ _ _ _ _ _ _ _ _ _ _ _ _ HC) as A.
  destruct (@opened ER fft1 fft2 fft1_len fft2_len _ _ _ _ _ _ _ _ _ _ _ _ _ _ _ A (ns_in _ _ _ _ _ _ _ _ _ _ _ _ _ _ _ HC) (ns_w _ _ _ _ _ _ _ _ _ _ _ _ _ _ _ HC) ltac:(intros j Hj; apply HG; lia)) as (ax & s1 & sb & axb & J & ES & HS & L).
  destruct (@recover_granted ER fft1 fft2 _ _ _ _ _ _ _ _ _ _ _ _ _ _ _ _ A Hl) as [(HE & _)|(_ & E)].
  { rewrite <- (Nat.add_0_r (nx s)). apply HG. lia. }
  { exfalso. apply Exists_exists in HE as (z & Hz & Hn). apply Hn. exact (proj1 (Forall_forall _ _) (ns_in _ _ _ _ _ _ _ _ _ _ _ _ _ _ _ HC) z Hz). }
  rewrite E. clear E.
  pose proof (called _ _ _ _ _ _ _ _ _ _ _ _ _ _ _ HC ax s1 sb axb J HS L) as HT.
  pose proof (@s3_nx ER s nr nc (fin bv) zs (Fin rv) (Fin rh) mode analysis ax s1 HS) as Hn.
  pose proof (@s3_en ER fft1 fft2 s nr nc (fin bv) zs (Fin rv) (Fin rh) mode analysis ax s1 sb axb J L) as He.
  destruct (nesta_tv_outcome fft1 fft2 fft1_len fft2_len fft1_exact fft2_exact _ _ _ _ _ _ _ _ _ _ _ _ _ _ _ _ _ HT (ns_nz _ _ _ _ _ _ _ _ _ _ _ _ _ _ _ HC)) as (_ & _ & _ & HX).
  destruct HX as (t' & x & Erun & HB & HD & Sx & Lx & Fx & En & Nx & Hu & _ & HM & Hdes).
  { intros j Hj. rewrite He, Hn. replace (nx s + 9 + j)%nat with (nx s + (9 + j))%nat by lia. apply HG. lia. }
  { unfold queue_aligned. rewrite He, Hn. by replace (nx s + 9 + 10)%nat with (nx s + 19)%nat by lia. }
  assert (HST : forall mu tol, no_mu o = Fin mu -> no_tol o = Fin tol -> 0 < tol -> (1 <= no_n_continue o)%Z -> (exists i, nth i bv 0 <> 0) ->
    staged (nr * nc) (nblocks rv rh * (nr * nc)) (sample (idx_of zs)) bv sg (dictT (xf_fwd (Z.of_nat nr) (Z.of_nat nc) mode) nr nc rv rh) (R_sqrt.sqrt (1 + 4 * rv ^ 2 + 4 * rh ^ 2)) mu tol
      (Z.to_nat (no_n_continue o)) (spread (nr * nc) (idx_of zs) bv) x).
  { intros mu tol Emu Etol Htol Hnc Hnz. destruct (C68_stages_tv fft1 fft2 fft1_len fft2_len fft1_exact fft2_exact _ _ _ _ _ _ _ _ _ _ _ _ _ _ _ _ _ _ _ _ HT Emu Etol Htol Hnc Hnz Erun) as (x' & Sx' & Lx' & _ & HSt).
    rewrite <- Nat2Z.inj_mul, !Nat2Z.id in HSt. rewrite <- Nat2Z.inj_mul, Nat2Z.id in Lx'. rewrite <- Nat2Z.inj_mul, Nat2Z.id in Lx.
    assert (x' = x) as ->; [|exact HSt]. apply fin_inj. refine (@seg_inj ER _ _ _ _ Sx' Sx _). rewrite !fin_length. congruence. }
  rewrite <- Nat2Z.inj_mul, Nat2Z.id in Lx, HM, Hdes. unfold tv_nesta in Erun. rewrite <- Nat2Z.inj_mul in Erun.
  destruct (@shown ER fft1 fft2 _ _ _ _ _ _ _ _ _ _ _ _ _ _ _ A ax s1 HS sb axb J L t' (fin x)) as (t4 & s' & E4 & Ele & HS').
  { lia. }
  { exact HB. }
  { exact HD. }
  { exact Sx. }
  { by rewrite fin_length. }
  { exact Hu. }
  { exact HM. }
  { exact Hdes. }
  exists x, s'. split; [|split; [done|]; split; [done|]; split; [exact Fx|]; exact HST].
  pose proof (@work_run ER fft1 fft2 _ _ _ _ _ _ _ _ _ _ _ _ _ _ _ A _ _ HS _ _ _ L ES (HG 7%nat ltac:(lia)) (HG 8%nat ltac:(lia))) as Ew.
  rewrite (mbind_lift _ _ _ _ _ (eq_trans Ew (eq_trans (bind_ok _ _ _ _ _ Erun) E4))).
  exact Ele.
Qed.
(** without the queue's memory, or with a queue that is not aligned, the call is undefined *)
Theorem nesta_mex_queue_undefined s prhs nr nc bb bo bv pi vs zs o rv rh mode sg nlhs : nesta_sensible s prhs nr nc bb bo bv pi vs zs o rv rh mode sg -> (2 <= nlhs)%Z ->
  grants_to s 0 19 ->
  (alloc_ok (en s) (nx s + 19) = false -> mex nlhs 5%Z prhs s = Ub UbOob) /\
  (alloc_ok (en s) (nx s + 19) = true -> luck (en s) (nx s + 19) = false -> (1 <= no_n_continue o)%Z -> mex nlhs 5%Z prhs s = Ub UbAlign).
Proof.
  intros HC Hl HG. pose proof (ns_args _ _ _ _ _ _ _ _ _ _ _ _ _ _ _ HC) as A.
  destruct (@opened ER fft1 fft2 fft1_len fft2_len _ _ _ _ _ _ _ _ _ _ _ _ _ _ _ A (ns_in _ _ _ _ _ _ _ _ _ _ _ _ _ _ _ HC) (ns_w _ _ _ _ _ _ _ _ _ _ _ _ _ _ _ HC) ltac:(intros j Hj; apply HG; lia)) as (ax & s1 & sb & axb & J & ES & HS & L).
  destruct (@recover_granted ER fft1 fft2 _ _ _ _ _ _ _ _ _ _ _ _ _ _ _ _ A Hl) as [(HE & _)|(_ & E)].
  { rewrite <- (Nat.add_0_r (nx s)). apply HG. lia. }
  { exfalso. apply Exists_exists in HE as (z & Hz & Hn). apply Hn. exact (proj1 (Forall_forall _ _) (ns_in _ _ _ _ _ _ _ _ _ _ _ _ _ _ _ HC) z Hz). }
  rewrite !E. clear E.
  pose proof (called _ _ _ _ _ _ _ _ _ _ _ _ _ _ _ HC ax s1 sb axb J HS L) as HT.
  pose proof (@s3_nx ER s nr nc (fin bv) zs (Fin rv) (Fin rh) mode analysis ax s1 HS) as Hn.
  pose proof (@s3_en ER fft1 fft2 s nr nc (fin bv) zs (Fin rv) (Fin rh) mode analysis ax s1 sb axb J L) as He.
  pose proof (@work_run ER fft1 fft2 _ _ _ _ _ _ _ _ _ _ _ _ _ _ _ A _ _ HS _ _ _ L ES (HG 7%nat ltac:(lia)) (HG 8%nat ltac:(lia))) as Ew.
  destruct (nesta_tv_outcome fft1 fft2 fft1_len fft2_len fft1_exact fft2_exact _ _ _ _ _ _ _ _ _ _ _ _ _ _ _ _ _ HT (ns_nz _ _ _ _ _ _ _ _ _ _ _ _ _ _ _ HC)) as (_ & HO & HAl & _).
  unfold tv_nesta in HO, HAl. rewrite <- Nat2Z.inj_mul in HO, HAl. unfold granted, queue_aligned in HO, HAl. rewrite He, Hn in HO, HAl.
  replace (nx s + 9 + 10)%nat with (nx s + 19)%nat in HO, HAl by lia.
  assert (Hj : forall j, (j < 10)%nat -> alloc_ok (en s) (nx s + 9 + j) = true).
  { intros j Hj. replace (nx s + 9 + j)%nat with (nx s + (9 + j))%nat by lia. apply HG. lia. }
  split.
  - intros Ha. apply mbind_ub. unfold lift. apply bind_ub. rewrite Ew. apply bind_ub. exact (HO Hj Ha).
  - intros Ha Hlu Hc. apply mbind_ub. unfold lift. apply bind_ub. rewrite Ew. apply bind_ub. apply HAl; [|by rewrite Hlu|done].
    intros j Hj'. destruct (decide (j = 10)%nat) as [->|]; [by replace (nx s + 9 + 10)%nat with (nx s + 19)%nat by lia|]. apply Hj. lia.
Qed.
End result.

(** ** Concrete cases: a 3 x 3 image, two pixels measured as 1 and 3 *)
Module NestaMexEx.
Import MexEx L1qcEx.
Local Open Scope R_scope.
Definition names9 : list string := ["sigma"; "verbose"; "mu"; "tol"; "n_continue"; "alpha_v"; "alpha_h"; "dct_mode"]%string.
Definition bp_of (bp : Z) : string := if Z.eqb bp synthesis then "synthesis" else "analysis".
Definition opt_struct (bp : Z) : mxArray := MxA MxStruct 1 1 2 Null (zip names9 (sc <$> seq 4 8) ++ [("bp_mode", MxA (MxChar (bp_of bp)) 1 8 2 Null [])]%string).
Definition bv : list R := [1; 3].
Definition blocks_ (p q : Z) (av : R) : list (list er) :=
  [[@ofZ ER 3]; [@ofZ ER 3]; fin bv; [@ofZ ER p; @ofZ ER q]; [Fin (/ 10)]; [@ofZ ER 0]; [Fin (/ 100)]; [Fin (/ 1000)]; [@ofZ ER 5]; [Fin av]; [Fin 1]; [@ofZ ER dct1]].
Definition inp (e : @env ER) (p q : Z) (av : R) : @st ER := @mem ER e (blocks_ p q av).
Definition args (bp : Z) : list mxArray := [sc 0; sc 1; col 2 2; col 3 2; opt_struct bp].
Definition opt : @NestaOpts ER := @mkNOpt ER (Fin (/ 100)) (Fin (/ 1000)) (Fin (/ 10)) 5 0.
Lemma args_ok e p q av bp : (INT_MIN < p <= INT_MAX)%Z -> (INT_MIN < q <= INT_MAX)%Z -> bp = analysis \/ bp = synthesis ->
  @nesta_args ER (inp e p q av) (args bp) 3 3 2 0 (fin bv) (Ptr 3 0) [@ofZ ER p; @ofZ ER q] [p; q] opt (Fin av) (Fin 1) dct1 bp.
Proof.
  intros Hp Hq Hbp.
  assert (HT : forall z, in_int z = true -> @toint ER (@ofZ ER z) = Some z) by (intros z Hz; rewrite ofZ_ER; by apply toint_ER).
  split; try done.
  - apply (@mem_unborn ER).
  - lia.
  - lia.
  - exists (sc 0), (sc 1), (col 2 2), (col 3 2), (opt_struct bp), (@ofZ ER 3), (@ofZ ER 3). split; [done|].
    split; [by apply (@mem_scalar ER)|]. split; [by apply HT|]. split; [by apply (@mem_scalar ER)|]. split; [by apply HT|].
    split; [apply (@mem_col ER _ _ 2 (fin bv)); [done|simpl; lia|done]|]. split; [by apply (@mem_col ER _ _ 3 [@ofZ ER p; @ofZ ER q])|].
    assert (F : forall i nm v, mxGetField (opt_struct bp) nm = Some (sc (4 + i)) -> blocks_ p q av !! (4 + i)%nat = Some [v] -> @field ER (inp e p q av) (opt_struct bp) nm v).
    { intros i nm v H1 H2. exists (sc (4 + i)). split; [done|]. by apply (@mem_scalar ER). }
    split; [done|..]; try (eexists; split; [|by apply HT]).
    + by apply (F 0%nat). + by apply (F 1%nat). + by apply (F 2%nat). + by apply (F 3%nat). + by apply (F 4%nat). + by apply (F 5%nat). + by apply (F 6%nat). + by apply (F 7%nat).
    + destruct Hbp as [-> | ->]; eexists _, _; (split; [reflexivity|]; split; [reflexivity|]); [left|right]; done.
  - simpl. lia.
  - repeat constructor; try (apply HT; unfold in_int; rewrite !(proj2 (Z.leb_le _ _)) by lia; done); lia.
Qed.
Lemma in9 : in_image 3 3 [1; 5]%Z. Proof. repeat constructor; simpl; lia. Qed.
Lemma w9 : @scales_fit ER 3 3 (Fin 1) (Fin 1).
Proof.
  split; [split; [apply NestaTVEx.not_neg; lra|split; [apply NestaTVEx.not_neg; lra|lia]]|].
  change (@width ER (Fin 1) (Fin 1) (3 * 3)) with (@psize ER 3 3 (Fin 1) (Fin 1)). unfold psize. destruct (ltb_ _ _); vm_compute; done.
Qed.
Lemma sensible e : nesta_sensible (inp e 1 5 1) (args analysis) 3 3 2 0 bv (Ptr 3 0) [@ofZ ER 1; @ofZ ER 5] [1; 5]%Z opt 1 1 dct1 (/ 10).
Proof.
  split.
  - by apply args_ok; [..|left].
  - apply in9.
  - apply w9.
  - apply (bool_decide_unpack _). vm_compute. done.
  - done.
  - lra.
  - exists (/ 100). split; [done|lra].
  - done.
  - right. exists 0%nat. cbn. lra.
Qed.
(** success; nothing is left behind *)
Example mex_works : exists x s', @nesta_mex ER f1 f2 2 5 (args analysis) (inp (@env0 ER) 1 5 1) = Ok (Val [@OutDouble ER 3 3 (fin x); @OutDouble ER 1 1 [@ofZ ER 0]]) s' /\
  length x = 9%nat /\ nrm2 (vlin 1 (sample [0; 4]%nat x) (-1) [1; 3]) <= / 10 /\
  staged 9 (nblocks 1 1 * 9) (sample [0; 4]%nat) bv (/ 10) (dictT (xf_fwd 3 3 dct1) 3 3 1 1) (R_sqrt.sqrt (1 + 4 * 1 ^ 2 + 4 * 1 ^ 2)) (/ 100) (/ 1000) 5 (spread 9 [0; 4]%nat bv) x.
Proof.
  destruct (nesta_mex_returns f1 f2 f1_len f2_len f1_exact f2_exact _ _ _ _ _ _ _ _ _ _ _ _ _ _ _ 2 (sensible (@env0 ER))) as (x & s' & E & _ & Lx & Fx & HSt); [done|done|by left|].
  exists x, s'. split; [exact E|]. split; [exact Lx|]. split; [exact Fx|]. apply HSt; try done; [lra|]. exists 0%nat. cbn. lra.
Qed.
(** pixel 10 of 9; a negative weight; no memory for the indices; none for x0; synthesis mode; none for a work array
    of the solver; none for its queue; an unaligned queue *)
Example mex_others :
  (exists s', @nesta_mex ER f1 f2 2 5 (args analysis) (inp (@env0 ER) 1 10 1) = Ok (Err "l1c:l1qc_dct:bad_index") s') /\
  (exists s', @nesta_mex ER f1 f2 2 5 (args analysis) (inp (@env0 ER) 1 5 (-1)) = Ok (Err "l1c:l1qc_dct:bad_index") s') /\
  @nesta_mex ER f1 f2 2 5 (args analysis) (inp (upto 11) 1 5 1) = Ub UbOob /\
  (exists s', @nesta_mex ER f1 f2 2 5 (args analysis) (inp (upto 18) 1 5 1) = Ok (Err "l1c:l1qc_dct:outofmemory") s' /\ is_Some (dm s' !! 13%nat)) /\
  (exists e, @nesta_mex ER f1 f2 2 5 (args synthesis) (inp (@env0 ER) 1 5 1) = Ub e) /\
  (exists e, @nesta_mex ER f1 f2 2 5 (args analysis) (inp (upto 25) 1 5 1) = Ub e) /\
  @nesta_mex ER f1 f2 2 5 (args analysis) (inp (upto 30) 1 5 1) = Ub UbOob /\
  @nesta_mex ER f1 f2 2 5 (args analysis) (inp NestaTVEx.unlucky 1 5 1) = Ub UbAlign.
Proof.
  assert (HU : forall k a b j, (a <= j < b)%nat -> (12 + b <= S k)%nat -> @alloc_ok ER (upto k) (12 + j) = true).
  { intros k a b j Hj Hk. unfold upto. cbn [alloc_ok]. apply Nat.leb_le. lia. }
  split_and!.
  - destruct (@nesta_mex_bad_index ER f1 f2 _ _ _ _ _ _ _ _ _ _ _ _ _ _ _ 2 (args_ok (@env0 ER) 1 10 1 analysis ltac:(done) ltac:(done) ltac:(by left))) as (s' & E & _); [done|done| |eauto].
    intros H. apply Forall_cons in H as [_ H]. apply Forall_cons in H as [H _]. simpl in H. lia.
  - destruct (@nesta_mex_weights_message ER f1 f2 _ _ _ _ _ _ _ _ _ _ _ _ _ _ _ 2 (args_ok (@env0 ER) 1 5 (-1) analysis ltac:(done) ltac:(done) ltac:(by left))) as (s' & E & _); [done|done|apply in9| |eauto].
    intros [H _]. rewrite zero_ER, zero_RN in H. cbn [ltb_ ER er_ltb] in H. unfold Rltb in H. destruct (Rlt_dec _ _); [done|lra].
  - destruct (@nesta_mex_index_memory ER f1 f2 _ _ _ _ _ _ _ _ _ _ _ _ _ _ _ _ 2 (args_ok (upto 11) 1 5 1 analysis ltac:(done) ltac:(done) ltac:(by left))) as (E & _); [done|done|]. apply E. simpl. lia.
  - destruct (@nesta_mex_out_of_memory_leaks ER f1 f2 f1_len f2_len _ _ _ _ _ _ _ _ _ _ _ _ _ _ _ 2 (args_ok (upto 18) 1 5 1 analysis ltac:(done) ltac:(done) ltac:(by left))) as (s' & E & H); [done|apply in9|apply w9| |by left|].
    + intros j Hj. apply (HU 18%nat 0%nat 7%nat); lia.
    + exists s'. split; [done|]. cbv zeta in H. destruct H as (_ & _ & _ & _ & H & _). apply (H 13%nat). change (nx (inp (upto 18) 1 5 1)) with 12%nat. left.
  - apply (@nesta_mex_solver_failure_undefined ER f1 f2 f1_len f2_len _ _ _ _ _ _ _ _ _ _ _ _ _ _ _ 2 (args_ok (@env0 ER) 1 5 1 synthesis ltac:(done) ltac:(done) ltac:(by right))); [done|apply in9|apply w9|done|by left].
  - apply (@nesta_mex_solver_failure_undefined ER f1 f2 f1_len f2_len _ _ _ _ _ _ _ _ _ _ _ _ _ _ _ 2 (args_ok (upto 25) 1 5 1 analysis ltac:(done) ltac:(done) ltac:(by left))); [done|apply in9|apply w9| |].
    + intros j Hj. apply (HU 25%nat 0%nat 9%nat); lia.
    + right. exists 14%nat. split; [lia|done].
  - destruct (nesta_mex_queue_undefined f1 f2 f1_len f2_len f1_exact f2_exact _ _ _ _ _ _ _ _ _ _ _ _ _ _ _ 2 (sensible (upto 30))) as (E & _); [done| |by apply E].
    intros j Hj. apply (HU 30%nat 0%nat 19%nat); lia.
  - destruct (nesta_mex_queue_undefined f1 f2 f1_len f2_len f1_exact f2_exact _ _ _ _ _ _ _ _ _ _ _ _ _ _ _ 2 (sensible NestaTVEx.unlucky)) as (_ & E); [done|done|]. by apply E.
Qed.
End NestaMexEx.

Print Assumptions nesta_mex_bad_index.
Print Assumptions nesta_mex_weights_message.
Print Assumptions nesta_mex_index_memory.
Print Assumptions nesta_mex_out_of_memory_leaks.
Print Assumptions nesta_mex_solver_failure_undefined.
Print Assumptions nesta_mex_returns.
Print Assumptions nesta_mex_queue_undefined.
