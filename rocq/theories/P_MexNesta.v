(** * nesta_dctTV from MATLAB (interfaces/mex/nesta_dctTV_mex.c): the parts of the run. *)
From Coq Require Import ZArith Lia.
From stdpp Require Import base numbers gmap list strings.
From Verif Require Import Globals Mem M_Math M_Memory M_Status M_CG M_LineSearch M_FFTW M_Dct1 M_Dct2 M_Dct M_TVt M_Newton M_L1qcDct M_Bregman M_Nesta
  M_Logging M_MexUtils M_Mex P_Mem P_Loop S_Mem P_Touch P_Math P_CG P_Memory P_Own P_Newton P_FFTW P_Dct1s S_DctApi P_Dct S_L1qcDct S_Mex P_Mex P_Mex2
  S_Xform P_Xform S_TVtApi P_TVt P_TVs P_TVa T_TVt P_Nesta P_Nesta2 T_Bregman S_MexNesta.
Local Open Scope Z_scope.

Section args.
Context `{N : Num}.
Context (fft1 : fkind -> list T -> list T) (fft2 : fkind -> nat -> nat -> list T -> list T).
Implicit Types (s : st).
Notation lg := (log_to mexPrintf).
(** after the indices have been converted *)
Definition work (mrow mcol mtot n : Z) (b pix_idx : ptr) (opts : NestaOpts) (alp_v alp_h : T) (dct_mode bp_mode : Z) : M (Z * ptr * ptr * list mxout) :=
  let* su := l1c_setup_dctTV_transforms n mrow mcol alp_v alp_h dct_mode bp_mode pix_idx ax_local in
  let '(status, ax_funs) := su in
  if negb (status =? 0) then ret (status, Null, Null, []) else
  let* x0 := l1c_malloc_double (ax_m ax_funs) in
  let* b_ours := l1c_malloc_double n in
  if is_null pix_idx || is_null b_ours || is_null x0 then ret (L1C_OUT_OF_MEMORY, x0, b_ours, []) else
  cblas_dcopy n b b_ours ;!
  let* status := l1c_nesta (call fft1 fft2) mtot x0 n b_ours ax_funs opts in
  let* z_out := mxCreateDoubleMatrix mtot in
  call fft1 fft2 (ax_Mx ax_funs) x0 z_out ;!
  call_destroy (ax_destroy ax_funs) ;!
  let* zs := copy_out mtot z_out in
  free_d z_out ;!
  ret (status, x0, b_ours, [OutDouble mrow mcol zs; OutDouble 1 1 [ofZ status]]).
Definition leave (pix_idx : ptr) (r : Z * ptr * ptr * list mxout) : MX (list mxout) :=
  let '(status, x0, b_ours, plhs) := r in
  let! _ := lift (free_i pix_idx ;! l1c_free_double x0 ;! l1c_free_double b_ours) in
  if status =? L1C_OUT_OF_MEMORY then mexErr "l1c:l1qc_dct:outofmemory" else
  if status =? L1C_INVALID_ARGUMENT then mexErr "l1c:l1qc_dct:bad_index" else
  if status =? L1C_DCT_INIT_FAILURE then mexErr "l1c:dct_failure" else
  mret plhs.
Definition recover_part (mrow mcol mtot n : Z) (b pd : ptr) (opts : NestaOpts) (av ah : T) (mode bp : Z) : MX (list mxout) :=
  let! pix_idx := lift (calloc_i n) in
  let! r := lift (let* status := convert_idx n mtot pd pix_idx in
                  if negb (status =? 0) then ret (status, Null, Null, []) else work mrow mcol mtot n b pix_idx opts av ah mode bp) in
  leave pix_idx r.

Lemma nstruct_log s a o av ah mode bp k : nesta_struct s a o av ah mode bp -> nesta_struct (log_to k s) a o av ah mode bp.
Proof. intros []. split; try done; first [by apply field_log|by apply fint_log]. Qed.
Lemma nopts_run s a o av ah mode bp : nesta_struct s a o av ah mode bp -> nesta_mex_opts a s = Ok (Val (o, av, ah, mode, bp)) s.
Proof.
  intros [_ H1 H2 H3 H4 H5 H6 H7 H8 (f & t & Ef & Et & Hb)]. unfold nesta_mex_opts.
  rewrite (mbind_val _ _ _ _ _ (field_run _ _ _ _ H1)). rewrite (field_int_run _ _ _ _ _ H2).
  do 2 (erewrite mbind_val by (apply field_run; eassumption)). rewrite (field_int_run _ _ _ _ _ H5).
  do 2 (erewrite mbind_val by (apply field_run; eassumption)). rewrite (field_int_run _ _ _ _ _ H8).
  rewrite Ef, Et. destruct o. destruct Hb as [[-> ->]|[-> ->]]; done.
Qed.
Lemma nesta_mex_args s prhs nr nc bb bo bs pi vs zs o av ah mode bp nlhs : nesta_args s prhs nr nc bb bo bs pi vs zs o av ah mode bp -> 2 <= nlhs ->
  nesta_mex fft1 fft2 nlhs 5 prhs s = recover_part (Z.of_nat nr) (Z.of_nat nc) (Z.of_nat (nr * nc)) (Z.of_nat (length bs)) (Ptr bb bo) pi o av ah mode bp (lg s).
Proof.
  intros [Hu Him Hr Hc Hf (a0 & a1 & a2 & a3 & a4 & v0 & v1 & -> & S0 & T0 & S1 & T1 & V2 & V3 & O4) HL Hlt HZ] Hl.
  unfold nesta_mex. erewrite mbind_lift; [|unfold l1c_replace_printf, getg, setg, bind, ret; reflexivity].
  change (set_gl _ s) with (lg s).
  apply (scalar_log _ _ _ mexPrintf) in S0, S1. apply (vector_log _ _ _ _ mexPrintf) in V2, V3. apply (nstruct_log _ _ _ _ _ _ _ mexPrintf) in O4.
  set (t := lg s) in *.
  unfold mex_assert_num. rewrite (proj2 (Z.ltb_ge nlhs 2) Hl). rewrite (mbind_val _ _ t tt t) by done. change (5 <? 5) with false. rewrite (mbind_val _ _ t tt t) by done.
  rewrite (mbind_lift _ _ t a0 t) by done. rewrite (mbind_val _ _ t v0 t) by (by apply scalar_run). rewrite (mbind_lift _ _ _ _ _ (cast_ok _ _ t T0)).
  rewrite (mbind_lift _ _ t a1 t) by done. rewrite (mbind_val _ _ t v1 t) by (by apply scalar_run). rewrite (mbind_lift _ _ _ _ _ (cast_ok _ _ t T1)).
  rewrite (mbind_lift _ _ _ _ _ (i32_ok (Z.of_nat nc * Z.of_nat nr) t ltac:(unfold INT_MIN; lia))).
  rewrite (mbind_lift _ _ t a2 t) by done. rewrite (mbind_val _ _ _ _ _ (vector_run _ _ _ _ V2)). 
  rewrite (mbind_lift _ _ t a3 t) by done. rewrite (mbind_val _ _ _ _ _ (vector_run _ _ _ _ V3)).
  rewrite (mbind_lift _ _ t a4 t) by done. rewrite (mbind_val _ _ _ _ _ (struct_run t _ (nt_s _ _ _ _ _ _ _ O4))). rewrite (mbind_val _ _ _ _ _ (nopts_run _ _ _ _ _ _ _ O4)).
  cbv iota beta. rewrite HL, Z.eqb_refl, (proj2 (Z.ltb_lt _ _)), !(proj2 (Z.leb_gt _ _)) by lia. cbn [negb orb].
  replace (Z.of_nat nc * Z.of_nat nr) with (Z.of_nat (nr * nc)) by lia. reflexivity.
Qed.

(** ** the index array *)
Definition idx_ready (cs : list Z) s : st := idx_made cs (lg s).
Lemma nargs_idx s prhs nr nc bb bo bs pi vs zs o av ah mode bp : nesta_args s prhs nr nc bb bo bs pi vs zs o av ah mode bp ->
  seg s pi vs /\ seg s (Ptr bb bo) bs /\ (2 <= length bs)%nat /\ (bb < nx s)%nat.
Proof.
  intros [Hu _ _ _ _ (a0 & a1 & a2 & a3 & a4 & v0 & v1 & _ & _ & _ & _ & _ & V2 & V & _) HL _ _].
  destruct V as (_ & _ & _ & H2 & _ & _ & Sv). destruct V2 as (_ & _ & _ & H3 & _ & _ & Sb). split; [done|]. split; [done|]. split; [done|].
  destruct (seg_live _ _ _ _ Sb ltac:(intros ->; simpl in H3; lia)) as [c Hc].
  destruct (Nat.lt_ge_cases bb (nx s)) as [|Hb]; [done|]. by rewrite (proj1 (Hu bb Hb)) in Hc.
Qed.
Lemma recover_granted s prhs nr nc bb bo bs pi vs zs o av ah mode bp nlhs : nesta_args s prhs nr nc bb bo bs pi vs zs o av ah mode bp -> 2 <= nlhs ->
  alloc_ok (en s) (nx s) = true ->
  (Exists (fun z => ~ in_idx (Z.of_nat (nr * nc)) z) zs /\
     exists s', nesta_mex fft1 fft2 nlhs 5 prhs s = Ok (Err "l1c:l1qc_dct:bad_index") s' /\ same_heap s s' /\ nx s' = (nx s + 1)%nat) \/
  (in_image nr nc zs /\
     nesta_mex fft1 fft2 nlhs 5 prhs s =
       mbind (lift (work (Z.of_nat nr) (Z.of_nat nc) (Z.of_nat (nr * nc)) (Z.of_nat (length (idx_of zs))) (Ptr bb bo) (Ptr (nx s) 0) o av ah mode bp))
         (leave (Ptr (nx s) 0)) (idx_ready (Z.of_nat <$> idx_of zs) s)).
Proof.
  intros A Hl E0. rewrite !(nesta_mex_args _ _ _ _ _ _ _ _ _ _ _ _ _ _ _ _ A Hl). destruct (nargs_idx _ _ _ _ _ _ _ _ _ _ _ _ _ _ _ A) as (Sv & _ & H2 & _).
  destruct A as [Hu Him Hr Hc Hf _ HL Hlt HZ]. unfold recover_part. set (m := (nr * nc)%nat) in *. rewrite <- HL.
  erewrite mbind_lift. 2:{ unfold calloc_i. cbn [en nx log_to set_gl]. rewrite E0, (proj2 (Z.leb_le 0 _)), Nat2Z.id by lia. reflexivity. }
  fold (idx_made (replicate (length vs) 0) (lg s)). fold (idx_ready (replicate (length vs) 0) s).
  assert (Sh : seg (idx_ready (replicate (length vs) 0) s) pi vs) by (by apply (seg_dm s)).
  destruct (convert_run _ pi vs zs (nx s) (Z.of_nat m) Sh HZ) as (st & cs & EC & LC & HC).
  { cbn. by rewrite lookup_insert. }
  assert (EH : set_im <[nx s := cs]> (idx_ready (replicate (length vs) 0) s) = idx_ready cs s).
  { unfold idx_ready, idx_made, set_im, tick. cbn. by rewrite insert_insert. }
  rewrite EH in EC. change (nx (lg s)) with (nx s). destruct HC as [(HF & -> & Ec)|(HE & ->)].
  - right. split; [done|].
    assert (Ecs : cs = Z.of_nat <$> idx_of zs).
    { rewrite Ec. unfold idx_of. rewrite <- list_fmap_compose. apply list_fmap_ext. intros i z Hz. pose proof (Forall_lookup_1 _ _ _ _ HF Hz) as H. unfold in_idx in H. simpl. lia. }
    rewrite <- Ecs. replace (length (idx_of zs)) with (length vs) by (unfold idx_of; rewrite fmap_length; by eapply Forall2_length).
    assert (Hb : forall (m1 m2 : M (Z * ptr * ptr * list mxout)) (k : _ -> MX (list mxout)) s1 s2, m1 s1 = m2 s2 -> mbind (lift m1) k s1 = mbind (lift m2) k s2).
    { intros m1 m2 k s1 s2 E. unfold mbind, lift, bind. by rewrite E. }
    apply Hb. by rewrite (bind_ok _ _ _ _ _ EC).
  - left. split; [done|].
    rewrite (mbind_lift _ _ _ (L1C_INVALID_ARGUMENT, Null, Null, []) (idx_ready cs s)).
    2:{ rewrite (bind_ok _ _ _ _ _ EC). done. }
    unfold leave. erewrite mbind_lift.
    2:{ unfold bind, l1c_free_double. cbn [free_i free_d]. change (0 =? 0) with true. cbn [im idx_ready idx_made tick set_im nx log_to set_gl]. rewrite lookup_insert. reflexivity. }
    eexists. split; [reflexivity|]. split; [|cbn; lia]. split; [done|]. split; [done|]. split; [done|]. cbn. rewrite delete_insert; [done|]. apply Him. lia.
Qed.
End args.

Section after.
Context `{N : Num}.
Context (fft1 : fkind -> list T -> list T) (fft2 : fkind -> nat -> nat -> list T -> list T).
Hypothesis fft1_len : forall k xs, length (fft1 k xs) = length xs.
Hypothesis fft2_len : forall k nr nc xs, length xs = (nr * nc)%nat -> length (fft2 k nr nc xs) = (nr * nc)%nat.
Implicit Types (s t : st).

Lemma started_t_nx s mrow mcol (av ah : T) mode bp mb mo ms ax s1 : started_t s mrow mcol av ah mode bp mb mo ms ax s1 -> nx s1 = (nx s + 6)%nat.
Proof.
  intros H. destruct (started_t_inv _ _ _ _ _ _ _ _ _ _ _ _ H) as (nr & nc & sb & axb & sb1 & Er & Ec & Hr & Hc & [_ _ _ _ Hnx HB Es _ _ _ _ _ _]).
  rewrite Es. cbn [glt set_gl nx]. pose proof (started_inv _ _ _ _ _ _ _ _ _ HB) as F. rewrite (sf_nx _ _ _ _ _ _ _ _ _ F), Hnx. lia.
Qed.
Lemma mal s (k : nat) : alloc_ok (en s) (nx s) = true -> l1c_malloc_double (Z.of_nat k) s = Ok (Ptr (nx s) 0) (x_made k s).
Proof. intros E. unfold l1c_malloc_double, alloc_d. by rewrite E, (proj2 (Z.leb_le 0 _)), Nat2Z.id by lia. Qed.
Lemma mal_no s z : alloc_ok (en s) (nx s) = false -> l1c_malloc_double z s = Ok Null (tick s).
Proof. intros E. unfold l1c_malloc_double, alloc_d. by rewrite E, andb_false_r. Qed.

Lemma idx_of_in nr nc zs : in_image nr nc zs -> forall k, k ∈ idx_of zs -> (k < nr * nc)%nat.
Proof.
  intros HF k Hk. unfold idx_of in Hk. apply elem_of_list_fmap in Hk as (z & -> & Hz). unfold in_image in HF. rewrite Forall_forall in HF. specialize (HF z Hz). unfold in_idx in HF. lia.
Qed.
Section run.
Context (s : st) (prhs : list mxArray) (nr nc bb : nat) (bo : Z) (bs : list T) (pi : ptr) (vs : list T) (zs : list Z) (o : NestaOpts) (av ah : T) (mode bp : Z).
Hypothesis A : nesta_args s prhs nr nc bb bo bs pi vs zs o av ah mode bp.
Hypothesis HI : in_image nr nc zs.
Hypothesis HA : scales_fit nr nc av ah.
Hypothesis HG : forall j, (j < 7)%nat -> alloc_ok (en s) (nx s + j) = true.
Notation ms := (idx_of zs).
Notation m := (nr * nc)%nat.
Notation n := (length (idx_of zs)).
Notation p := (psize nr nc av ah).
Notation si := (idx_ready (Z.of_nat <$> idx_of zs) s).
Notation F := (blocks_t si (nx s)).

Lemma len_n : n = length bs.
Proof. unfold idx_of. rewrite fmap_length, <- (nn_len _ _ _ _ _ _ _ _ _ _ _ _ _ _ _ A). symmetry. eapply Forall2_length, (nn_zs _ _ _ _ _ _ _ _ _ _ _ _ _ _ _ A). Qed.
Lemma n_2 : (2 <= n)%nat. Proof. rewrite len_n. apply (nargs_idx _ _ _ _ _ _ _ _ _ _ _ _ _ _ _ A). Qed.
Lemma m_1 : (1 <= m)%nat. Proof. pose proof (nn_r _ _ _ _ _ _ _ _ _ _ _ _ _ _ _ A). pose proof (nn_c _ _ _ _ _ _ _ _ _ _ _ _ _ _ _ A). nia. Qed.
Lemma p_1 : (1 <= p)%nat. Proof. pose proof m_1. unfold psize. lia. Qed.
Lemma si_unborn : unborn si.
Proof. intros b Hb. cbn in Hb. exact (nn_u _ _ _ _ _ _ _ _ _ _ _ _ _ _ _ A b ltac:(lia)). Qed.
Lemma setup_done : exists ax s1, l1c_setup_dctTV_transforms (Z.of_nat n) (Z.of_nat nr) (Z.of_nat nc) av ah mode bp (Ptr (nx s) 0) ax_local si = Ok (0, ax) s1 /\
  started_t si (Z.of_nat nr) (Z.of_nat nc) av ah mode bp (nx s) 0 ms ax s1.
Proof.
  destruct HA as ((H1 & H2 & H3) & H4). apply started_t_exists; try done.
  - apply si_unborn.
  - cbn. lia.
  - intros i k Hi. unfold ldi. cbn [im idx_ready idx_made tick set_im log_to set_gl nx]. rewrite (proj2 (Z.leb_le _ _)) by lia. rewrite lookup_insert, ?Z.add_0_l, Nat2Z.id, list_lookup_fmap, Hi. done.
  - apply A.
  - apply A.
  - pose proof n_2. lia.
  - by apply idx_of_in.
  - intros j Hj. cbn [en nx idx_ready idx_made tick set_im log_to set_gl]. replace (S (nx s) + j)%nat with (nx s + S j)%nat by lia. apply HG. lia.
Qed.
Section live.
Context (ax : AxFuns) (s1 : st).
Hypothesis HS : started_t si (Z.of_nat nr) (Z.of_nat nc) av ah mode bp (nx s) 0 ms ax s1.
Context (sb : st) (axb : AxFuns) (J : st -> Prop).
Hypothesis L : live fft1 fft2 si nr nc av ah mode bp (nx s) ms ax s1 sb axb J.
(** length of x0 *)
Definition q_ : nat := if bp =? synthesis then p else m.
Lemma ax_q : ax_m ax = Z.of_nat q_ /\ ax_n ax = Z.of_nat n.
Proof. destruct (lv_ax _ _ _ _ _ _ _ _ _ _ _ _ _ _ _ _ L) as (a0 & ->). unfold ax_fin, q_. by destruct (bp =? synthesis). Qed.
Lemma q_1 : (1 <= q_)%nat. Proof. unfold q_. pose proof m_1. pose proof p_1. destruct (_ =? _); lia. Qed.
Lemma s1_nx : nx s1 = (nx s + 7)%nat. Proof. rewrite (started_t_nx _ _ _ _ _ _ _ _ _ _ _ _ HS). cbn. lia. Qed.
Lemma s1_led : ledger [] (owned1 sb ++ [(KD, nx si)]) si s1. Proof. exact (lv_led _ _ _ _ _ _ _ _ _ _ _ _ _ _ _ _ L). Qed.
Lemma s1_en : en s1 = en s. Proof. exact (lg_en _ _ _ _ s1_led). Qed.
Lemma s1_unborn : unborn s1. Proof. exact (ledger_unborn _ _ _ _ si_unborn s1_led). Qed.
Lemma sb_nx : nx sb = (nx s + 2)%nat. Proof. rewrite (lv_nx _ _ _ _ _ _ _ _ _ _ _ _ _ _ _ _ L). cbn. lia. Qed.
Lemma s1_old b : (b < nx s)%nat -> dm s1 !! b = dm s !! b.
Proof. intros Hb. apply (lg_dm _ _ _ _ s1_led); [apply not_elem_of_nil|]. intros Hin. apply (lg_own _ _ _ _ s1_led) in Hin as [Hin _]. cbn in Hin. lia. Qed.

(** ** no memory for x0 or the copy of b *)
Lemma left_over s' : dm s' = dm s1 -> om s' = om s1 -> pm s' = pm s1 ->
  (forall b, b ∉ [nx s + 1; nx s + 2; nx s + 3; nx s + 4]%nat -> dm s' !! b = dm s !! b) /\ (forall b, b ∉ [nx s + 5; nx s + 6]%nat -> om s' !! b = om s !! b) /\ pm s' = pm s /\
  (forall b, b ∈ [nx s + 1; nx s + 2; nx s + 3; nx s + 4]%nat -> dm s !! b = None /\ is_Some (dm s' !! b)) /\
  (forall b, b ∈ [nx s + 5; nx s + 6]%nat -> om s !! b = None /\ is_Some (om s' !! b)).
Proof.
  intros Ed Eo Ep. pose proof s1_led as HL. pose proof sb_nx as En. pose proof (nn_u _ _ _ _ _ _ _ _ _ _ _ _ _ _ _ A) as Hu.
  assert (Ho : forall k b, (k, b) ∈ owned1 sb ++ [(KD, nx si)] <-> (k = KD /\ b ∈ [nx s + 1; nx s + 2; nx s + 3; nx s + 4]%nat) \/ (k = KO /\ b ∈ [nx s + 5; nx s + 6]%nat)).
  { intros k b. unfold owned1. cbn [app]. change (nx si) with (S (nx s)). rewrite En, !elem_of_cons, !elem_of_nil. split.
    - intros H. repeat destruct H as [[= -> ->]|H]; try done; [left|left|left|right|right|left]; (split; [done|lia]).
    - intros [[-> H]|[-> H]]; [|].
      + assert (b = nx s + 2 \/ b = nx s + 2 + 1 \/ b = nx s + 2 + 2 \/ b = S (nx s))%nat as [->|[->|[->| ->]]] by lia; auto 10.
      + assert (b = nx s + 2 + 4 \/ b = nx s + 2 + 3)%nat as [->| ->] by lia; auto 10. }
  split_and!.
  - intros b Hb. rewrite Ed. apply (lg_dm _ _ _ _ HL); [apply not_elem_of_nil|]. rewrite Ho. intros [[_ H]|[[=] _]]; done.
  - intros b Hb. rewrite Eo. apply (lg_om _ _ _ _ HL). rewrite Ho. intros [[[=] _]|[_ H]]; done.
  - rewrite Ep. apply map_eq. intros b. apply (lg_pm _ _ _ _ HL). rewrite Ho. intros [[[=] _]|[[=] _]].
  - intros b Hb. split; [apply Hu; rewrite !elem_of_cons, elem_of_nil in Hb; lia|]. rewrite Ed. exact (proj2 (lg_own _ _ _ _ HL KD b (proj2 (Ho _ _) (or_introl (conj eq_refl Hb))))).
  - intros b Hb. split; [apply Hu; rewrite !elem_of_cons, elem_of_nil in Hb; lia|]. rewrite Eo. exact (proj2 (lg_own _ _ _ _ HL KO b (proj2 (Ho _ _) (or_intror (conj eq_refl Hb))))).
Qed.

(** ** the rest of the work, after set-up *)
Notation x0 := (Ptr (nx s + 7) 0). Notation b0 := (Ptr (nx s + 8) 0). Notation mz := (Z.of_nat m). Notation nz := (Z.of_nat n).
Definition show_ (status : Z) : M (Z * ptr * ptr * list mxout) :=
  let* z_out := mxCreateDoubleMatrix mz in
  call fft1 fft2 (ax_Mx ax) x0 z_out ;!
  call_destroy (ax_destroy ax) ;!
  let* zs := copy_out mz z_out in
  free_d z_out ;!
  ret (status, x0, b0, [OutDouble (Z.of_nat nr) (Z.of_nat nc) zs; OutDouble 1 1 [ofZ status]]).
Definition s2 : st := x_made n (x_made q_ s1).
Definition s3 : st := wr b0 bs s2.
Hypothesis ES : l1c_setup_dctTV_transforms nz (Z.of_nat nr) (Z.of_nat nc) av ah mode bp (Ptr (nx s) 0) ax_local si = Ok (0, ax) s1.
Notation wk := (work fft1 fft2 (Z.of_nat nr) (Z.of_nat nc) mz nz (Ptr bb bo) (Ptr (nx s) 0) o av ah mode bp).

Lemma s1_im : im s1 = im si. Proof. exact (lg_im _ _ _ _ s1_led). Qed.
Lemma freed_idx t : im t = im si -> free_i (Ptr (nx s) 0) t = Ok tt (set_im (delete (nx s)) t) /\ delete (nx s) (im t) = im s.
Proof.
  intros E. split.
  - cbn [free_i]. change (0 =? 0) with true. rewrite E. cbn [im idx_ready idx_made tick set_im nx log_to set_gl]. by rewrite lookup_insert.
  - rewrite E. cbn [im idx_ready idx_made tick set_im nx log_to set_gl]. apply delete_insert. apply (nn_im _ _ _ _ _ _ _ _ _ _ _ _ _ _ _ A). lia.
Qed.
Lemma no_room : alloc_ok (en s) (nx s + 7) = false \/ alloc_ok (en s) (nx s + 8) = false ->
  exists s', mbind (lift wk) (leave (Ptr (nx s) 0)) si = Ok (Err "l1c:l1qc_dct:outofmemory") s' /\ dm s' = dm s1 /\ om s' = om s1 /\ pm s' = pm s1 /\ im s' = im s.
Proof.
  intros HR. pose proof s1_nx as En. pose proof s1_en as Ee. destruct ax_q as [Em _]. pose proof s1_unborn as Hu.
  unfold work. rewrite <- s1_nx in HR.
  assert (H1 : forall t p2 p3, mbind (lift wk) (leave (Ptr (nx s) 0)) si = mbind (lift (fun t : st => Ok (L1C_OUT_OF_MEMORY, p2, p3, @nil mxout) t)) (leave (Ptr (nx s) 0)) t ->
     im t = im si -> (forall s4, dm s4 = dm t -> exists s5, (l1c_free_double p2 ;! l1c_free_double p3) s4 = Ok tt s5 /\ dm s5 = dm s1 /\ om s5 = om s4 /\ pm s5 = pm s4 /\ im s5 = im s4) ->
     om t = om s1 -> pm t = pm s1 ->
     exists s', mbind (lift wk) (leave (Ptr (nx s) 0)) si = Ok (Err "l1c:l1qc_dct:outofmemory") s' /\ dm s' = dm s1 /\ om s' = om s1 /\ pm s' = pm s1 /\ im s' = im s).
  { intros t p2 p3 E Ei Hf Eo Ep. rewrite E. rewrite (mbind_lift _ _ t (L1C_OUT_OF_MEMORY, p2, p3, []) t) by done. unfold leave.
    destruct (freed_idx t Ei) as [Ef Ed]. destruct (Hf (set_im (delete (nx s)) t) eq_refl) as (s5 & E5 & H1 & H2 & H3 & H4).
    erewrite mbind_lift. 2:{ rewrite (bind_ok _ _ _ _ _ Ef). exact E5. }
    eexists. split; [reflexivity|]. split; [done|]. split; [by rewrite H2|]. split; [by rewrite H3|]. rewrite H4. exact Ed. }
  assert (Hw : forall t r, (let* x := l1c_malloc_double (ax_m ax) in let* b := l1c_malloc_double nz in
       if is_null (Ptr (nx s) 0) || is_null b || is_null x then ret (L1C_OUT_OF_MEMORY, x, b, []) else
       cblas_dcopy nz (Ptr bb bo) b ;! (let* st := l1c_nesta (call fft1 fft2) mz x nz b ax o in
         let* z_out := mxCreateDoubleMatrix mz in call fft1 fft2 (ax_Mx ax) x z_out ;! call_destroy (ax_destroy ax) ;!
         let* zs := copy_out mz z_out in free_d z_out ;! ret (st, x, b, [OutDouble (Z.of_nat nr) (Z.of_nat nc) zs; OutDouble 1 1 [ofZ st]]))) s1 = Ok r t ->
       mbind (lift wk) (leave (Ptr (nx s) 0)) si = mbind (lift (fun t : st => Ok r t)) (leave (Ptr (nx s) 0)) t).
  { intros t r E. assert (wk si = Ok r t) as Ew. { unfold work. rewrite (bind_ok _ _ _ _ _ ES). exact E. } by rewrite (mbind_lift _ _ _ _ _ Ew). }
  rewrite Em in Hw.
  destruct (alloc_ok (en s) (nx s1)) eqn:E7.
  - destruct HR as [HR|HR]; [done|]. eapply (H1 (tick (x_made q_ s1)) (Ptr (nx s1) 0) Null).
    + eapply Hw. rewrite (bind_ok _ _ _ _ _ (mal s1 q_ ltac:(by rewrite Ee))).
      rewrite (bind_ok _ _ _ _ _ (mal_no (x_made q_ s1) nz ltac:(cbn; rewrite Ee, En; replace (S (nx s + 7)) with (nx s + 8)%nat by lia; done))). done.
    + exact s1_im.
    + intros s4 E4. exists (set_dm (delete (nx s1)) s4). split; [|split; [|done]].
      * unfold bind, l1c_free_double. cbn [free_d]. change (0 =? 0) with true. rewrite E4. cbn [dm x_made tick set_dm set_al]. by rewrite lookup_insert.
      * cbn. rewrite E4. cbn. apply delete_insert. apply (Hu (nx s1)). lia.
    + done.
    + done.
  - destruct (alloc_ok (en s) (nx s + 8)) eqn:E8.
    + eapply (H1 (x_made n (tick s1)) Null (Ptr (S (nx s1)) 0)).
      * eapply Hw. rewrite (bind_ok _ _ _ _ _ (mal_no s1 _ ltac:(by rewrite Ee))).
        rewrite (bind_ok _ _ _ _ _ (mal (tick s1) n ltac:(cbn; rewrite Ee, En; replace (S (nx s + 7)) with (nx s + 8)%nat by lia; done))). done.
      * exact s1_im.
      * intros s4 E4. exists (set_dm (delete (S (nx s1))) s4). split; [|split; [|done]].
        -- unfold bind, l1c_free_double. cbn [free_d]. change (0 =? 0) with true. rewrite E4. cbn [dm x_made tick set_dm set_al nx]. by rewrite lookup_insert.
        -- cbn. rewrite E4. cbn. apply delete_insert. apply (Hu (S (nx s1))). lia.
      * done.
      * done.
    + eapply (H1 (tick (tick s1)) Null Null).
      * eapply Hw. rewrite (bind_ok _ _ _ _ _ (mal_no s1 _ ltac:(by rewrite Ee))).
        rewrite (bind_ok _ _ _ _ _ (mal_no (tick s1) _ ltac:(cbn; rewrite Ee, En; replace (S (nx s + 7)) with (nx s + 8)%nat by lia; done))). done.
      * exact s1_im.
      * intros s4 E4. exists s4. by rewrite E4.
      * done.
      * done.
Qed.

(** ** both granted *)
Hypothesis H7 : alloc_ok (en s) (nx s + 7) = true.
Hypothesis H8 : alloc_ok (en s) (nx s + 8) = true.
Lemma s2_dm b : dm s2 !! b = if decide (b = nx s + 8)%nat then Some (replicate n None) else if decide (b = nx s + 7)%nat then Some (replicate q_ None) else dm s1 !! b.
Proof.
  unfold s2. cbn [dm x_made tick set_dm set_al nx]. rewrite s1_nx. replace (S (nx s + 7)) with (nx s + 8)%nat by lia.
  destruct (decide (b = nx s + 8)%nat) as [->|H]; [by rewrite lookup_insert|]. rewrite lookup_insert_ne by done.
  destruct (decide (b = nx s + 7)%nat) as [->|H']; [by rewrite lookup_insert|]. by rewrite lookup_insert_ne.
Qed.
Lemma s2_b : seg s2 (Ptr bb bo) bs.
Proof.
  destruct (nargs_idx _ _ _ _ _ _ _ _ _ _ _ _ _ _ _ A) as (_ & Sb & _ & Hb). eapply seg_dmb; [|exact Sb]. rewrite s2_dm, !decide_False by lia. by apply s1_old.
Qed.
Lemma fresh_wok t b k : dm t !! b = Some (replicate k None) -> wok t (Ptr b 0) k.
Proof. intros E i Hi. unfold cell. rewrite (proj2 (Z.leb_le _ _)) by lia. rewrite E, Z.add_0_l, Nat2Z.id. exists None. apply lookup_replicate. done. Qed.
Lemma work_run : wk si = (let* st := l1c_nesta (call fft1 fft2) mz x0 nz b0 ax o in show_ st) s3.
Proof.
  pose proof s1_nx as En. pose proof s1_en as Ee. destruct ax_q as [Em _].
  unfold work. rewrite (bind_ok _ _ _ _ _ ES). change (negb (0 =? 0)) with false. cbv iota beta. rewrite Em.
  rewrite (bind_ok _ _ _ _ _ (mal s1 q_ ltac:(by rewrite Ee, En))).
  rewrite (bind_ok _ _ _ _ _ (mal (x_made q_ s1) n ltac:(cbn; rewrite Ee, En; replace (S (nx s + 7)) with (nx s + 8)%nat by lia; done))).
  fold s2. cbn [nx x_made tick set_dm set_al]. rewrite En. replace (S (nx s + 7)) with (nx s + 8)%nat by lia. cbn [is_null orb].
  destruct (nargs_idx _ _ _ _ _ _ _ _ _ _ _ _ _ _ _ A) as (_ & _ & _ & Hb).
  assert (EC : cblas_dcopy nz (Ptr bb bo) b0 s2 = Ok tt s3).
  { apply dcopy_run; [exact s2_b|by rewrite len_n| |].
    - apply fresh_wok. rewrite s2_dm. by rewrite decide_True.
    - apply disj_blocks. lia. }
  rewrite (bind_ok _ _ _ _ _ EC). reflexivity.
Qed.
Lemma s3_dm b : b <> (nx s + 8)%nat -> dm s3 !! b = dm s2 !! b.
Proof. intros Hb. unfold s3, wr. cbn. by rewrite lookup_alter_ne. Qed.
Lemma F_lt b : b ∈ F -> (b < nx s + 7)%nat.
Proof. unfold blocks_t. cbn [nx idx_ready idx_made tick set_im log_to set_gl]. rewrite !elem_of_cons, elem_of_nil. lia. Qed.
Lemma s3_same : same_on F s1 s3.
Proof.
  pose proof s1_nx as En. split; [|done]. intros b Hb. pose proof (F_lt b Hb). rewrite s3_dm by lia. rewrite s2_dm, !decide_False by lia. split; [done|]. split; [done|]. split; [done|]. split; [done|].
  unfold s3, s2. cbn. rewrite En. replace (S (nx s + 7)) with (nx s + 8)%nat by lia. rewrite !(proj2 (Nat.eqb_neq _ _)) by lia. done.
Qed.
Notation Q := (Jx J axb nr nc av ah (nx si)).
Lemma s3_Q : Q Fresh s3.
Proof. eapply (Q_same _ _ _ _ _ _ _ _ _ _ _ _ _ _ _ _ L Fresh); [|exact s3_same]. exact (lv_J _ _ _ _ _ _ _ _ _ _ _ _ _ _ _ _ L). Qed.
Lemma s3_nx : nx s3 = (nx s + 9)%nat. Proof. unfold s3, s2. cbn. rewrite s1_nx. lia. Qed.
Lemma s3_en : en s3 = en s. Proof. exact s1_en. Qed.
Lemma s3_unborn : unborn s3.
Proof.
  pose proof s1_nx as En. intros b Hb. rewrite s3_nx in Hb. rewrite s3_dm, s2_dm, !decide_False by lia. apply s1_unborn. lia.
Qed.
(** showing a result that was never written *)
Lemma show_uninit i t status : Q i t -> (nx s + 9 <= nx t)%nat -> dm t !! (nx s + 7)%nat = Some (replicate q_ None) ->
  exists e, show_ status t = Ub e.
Proof.
  intros HQ Hn Hd. pose proof m_1 as Hm. pose proof q_1 as Hq. unfold show_.
  set (t2 := tick (set_al (nx t) (luck (en t) (nx t)) (set_dm (<[nx t := replicate (Z.to_nat mz) (Some zero)]>) t))).
  rewrite (bind_ok _ _ t (Ptr (nx t) 0) t2) by done.
  assert (HQ2 : Q i t2).
  { eapply (Q_same _ _ _ _ _ _ _ _ _ _ _ _ _ _ _ _ L i); [exact HQ|]. split; [|done]. intros b Hb. pose proof (F_lt b Hb).
    unfold t2. cbn. rewrite lookup_insert_ne, (proj2 (Nat.eqb_neq _ _)) by lia. done. }
  assert (HU : cell t2 x0 0 = Some None).
  { unfold cell. change (0 <=? 0 + 0) with true. cbv iota. replace (dm t2 !! (nx s + 7)%nat) with (dm t !! (nx s + 7)%nat). 2:{ unfold t2. cbn. rewrite lookup_insert_ne by lia. done. }
    rewrite Hd. by apply lookup_replicate. }
  exists UbUninit. apply bind_ub. destruct (lv_ax _ _ _ _ _ _ _ _ _ _ _ _ _ _ _ _ L) as (a0 & Ea0). rewrite Ea0. unfold ax_fin.
  pose proof (Jx_Jt _ _ _ _ _ _ _ _ _ HQ2) as HT.
  destruct (bp =? synthesis); cbn [ax_Mx call].
  - unfold tv_Wv. rewrite (bind_ok _ _ _ _ _ (gett_run _ _ _ _ _ _ _ _ HT)). cbn [stt tv_ax tv_u].
    apply bind_ub. exact (b_Mun _ _ _ _ _ _ _ _ _ _ _ (lv_base _ _ _ _ _ _ _ _ _ _ _ _ _ _ _ _ L) _ _ _ (jt_0 _ _ _ _ _ _ _ _ HT) HU).
  - unfold tv_Identity. rewrite (bind_ok _ _ _ _ _ (gett_run _ _ _ _ _ _ _ _ HT)). cbn [stt tv_m]. by apply dcopy_uninit.
Qed.
Lemma s3_x0 : dm s3 !! (nx s + 7)%nat = Some (replicate q_ None).
Proof. rewrite s3_dm, s2_dm, decide_False, decide_True by lia. done. Qed.
(** l1c_nesta does not write the result: undefined *)
Lemma ledger_on t : ledger [] [] s3 t -> gl t = gl s3 -> same_on F s3 t.
Proof.
  intros HL Eg. split; [|split; [done|apply HL]]. intros b Hb. pose proof (F_lt b Hb). pose proof s3_nx.
  split; [apply (lg_dm _ _ _ _ HL); apply not_elem_of_nil|]. split; [by rewrite (lg_im _ _ _ _ HL)|].
  split; [apply (lg_pm _ _ _ _ HL); apply not_elem_of_nil|]. split; [apply (lg_om _ _ _ _ HL); apply not_elem_of_nil|]. apply (lg_al _ _ _ _ HL). lia.
Qed.
Lemma not_written : bp = synthesis \/ (exists j, (j < 10)%nat /\ alloc_ok (en s) (nx s + 9 + j) = false) -> exists e, wk si = Ub e.
Proof.
  intros HW. rewrite work_run. destruct ax_q as [Em En]. unfold l1c_nesta. rewrite En, Em, Z.eqb_refl. cbn [negb orb].
  destruct (decide (m = q_)) as [Emq|Hne].
  2:{ rewrite (proj2 (Z.eqb_neq _ _)) by lia. cbn [negb]. rewrite (bind_ok _ _ s3 _ s3) by done. eapply show_uninit; [exact s3_Q|rewrite s3_nx; lia|exact s3_x0]. }
  rewrite (proj2 (Z.eqb_eq _ _)) by lia. cbn [negb].
  destruct (lv_ax _ _ _ _ _ _ _ _ _ _ _ _ _ _ _ _ L) as (a0 & Ea0).
  assert (Hp : exists p', ax_p ax = Z.of_nat p') by (rewrite Ea0; unfold ax_fin; destruct (bp =? synthesis); cbn; eauto). destruct Hp as (p' & Ep).
  destruct (nprob_new_run s3 q_ n p' ax s3_unborn Em En Ep) as (np & t & E & Eg & Hn & Hd & [(-> & Hg & Hn' & HL & _)|(-> & _ & HL)]).
  - destruct HW as [Hs|(j & Hj & Ej)]. 2:{ exfalso. specialize (Hg j Hj). rewrite s3_nx, s3_en in Hg. congruence. }
    exists UbUninit. apply bind_ub. rewrite (bind_ok _ _ _ _ _ E). cbv iota beta. apply bind_ub. unfold nesta_setup.
    assert (HQ : Q Fresh t).
    { eapply (Q_same _ _ _ _ _ _ _ _ _ _ _ _ _ _ _ _ L Fresh); [exact s3_Q|]. split; [|split; [done|apply HL]]. intros b Hb. pose proof (F_lt b Hb). pose proof s3_nx.
      split; [apply Hd; lia|]. split; [by rewrite (lg_im _ _ _ _ HL)|].
      assert (HO : forall k, (k, b) ∉ np_owns (np0 (nx s3) q_ n p')) by (intros k Hk; apply (lg_own _ _ _ _ HL) in Hk as [Hk _]; lia).
      split; [apply (lg_pm _ _ _ _ HL), HO|]. split; [apply (lg_om _ _ _ _ HL), HO|]. apply (lg_al _ _ _ _ HL). lia. }
    rewrite Ea0. unfold ax_fin. rewrite Hs. change (synthesis =? synthesis) with true. cbn [ax_Wz ax_Wtx ax_Rx ax_Rty fptr_is_null orb np_ax ax_Aty call].
    apply bind_ub. eapply u_Aty; [exact L|exact HQ].
  - rewrite (bind_ok _ _ s3 L1C_OUT_OF_MEMORY t). 2:{ rewrite (bind_ok _ _ _ _ _ E). done. }
    eapply show_uninit.
    + eapply (Q_same _ _ _ _ _ _ _ _ _ _ _ _ _ _ _ _ L Fresh); [exact s3_Q|]. by apply ledger_on.
    + pose proof (lg_nx _ _ _ _ HL). rewrite s3_nx in *. lia.
    + rewrite Hd by (rewrite s3_nx; lia). exact s3_x0.
Qed.

(** ** l1c_nesta has written the result *)
Lemma s3_all b : dm s3 !! b = if decide (b = nx s + 8)%nat then Some (Some <$> bs) else if decide (b = nx s + 7)%nat then Some (replicate q_ None) else dm s1 !! b.
Proof.
  destruct (decide (b = nx s + 8)%nat) as [->|Hb].
  - unfold s3, wr. cbn [dm set_dm]. rewrite lookup_alter, s2_dm, decide_True by done. cbn [fmap option_fmap option_map]. f_equal. pose proof len_n as Ln.
    apply list_eq. intros i. change (Z.to_nat 0) with 0%nat. destruct (decide (i < n)%nat) as [Hi|Hi].
    + rewrite list_lookup_inserts; [|rewrite fmap_length; lia|by rewrite replicate_length]. by rewrite Nat.sub_0_r.
    + rewrite list_lookup_inserts_ge by (rewrite fmap_length; lia). rewrite !lookup_ge_None_2; [done|rewrite fmap_length; lia|rewrite replicate_length; lia].
  - rewrite s3_dm by done. rewrite s2_dm. by rewrite decide_False.
Qed.
Lemma s3_seg : seg s3 b0 bs.
Proof. intros i v Hi. unfold cell. rewrite (proj2 (Z.leb_le _ _)) by lia. rewrite s3_all, decide_True by done. by rewrite Z.add_0_l, Nat2Z.id, list_lookup_fmap, Hi. Qed.
Lemma s3_wok : bp = analysis -> wok s3 x0 m.
Proof. intros Hb. apply fresh_wok. rewrite s3_dm, s2_dm, decide_False, decide_True by lia. unfold q_. by rewrite Hb. Qed.
(** showing the result *)
Lemma shown t' xs : (nx s + 9 <= nx t')%nat -> same_blocks s3 t' ->
  (forall b, b <> (nx s + 7)%nat -> b ∉ blocks_t si (nx s) -> dm t' !! b = dm s3 !! b) -> seg t' (Ptr (nx s + 7) 0) xs -> length xs = m -> unborn t' ->
  let F := blocks_t si (nx s) in let ops := analysis_ops fft1 fft2 ax (length ms) m (width av ah m) in
  (forall t1 X v D, hist F ops t' t1 -> seg t1 X v -> length v = m -> wok t1 D m -> disj D m X m -> call fft1 fft2 (ax_Mx ax) X D t1 = Ok tt (wr D v t1)) ->
  (forall t1, hist F ops t' t1 -> exists t2, call_destroy (ax_destroy ax) t1 = Ok tt t2 /\ gone t1 t2 [nx si; nx si + 1; nx si + 2; nx si + 3]%nat [nx si + 5; nx si + 4]%nat) ->
  exists t4 s', show_ 0 t' = Ok (0%Z, Ptr (nx s + 7) 0, Ptr (nx s + 8) 0, [OutDouble (Z.of_nat nr) (Z.of_nat nc) xs; OutDouble 1 1 [ofZ 0]]) t4 /\
    leave (Ptr (nx s) 0) (0%Z, Ptr (nx s + 7) 0, Ptr (nx s + 8) 0, [OutDouble (Z.of_nat nr) (Z.of_nat nc) xs; OutDouble 1 1 [ofZ 0]]) t4 =
      Ok (Val [OutDouble (Z.of_nat nr) (Z.of_nat nc) xs; OutDouble 1 1 [ofZ 0]]) s' /\ same_heap s s'.
Proof.
  intros Hn (SB1 & SB2 & SB3 & SB4) Hd Sx Lx Hu F ops HM HD.
  assert (HF : forall b, b ∈ F -> (b < nx s + 7)%nat) by (apply F_lt).
  pose proof (m_1) as Hm.
  unfold show_.
  set (t2 := tick (set_al (nx t') (luck (en t') (nx t')) (set_dm (<[nx t' := replicate (Z.to_nat mz) (Some zero)]>) t'))).
  rewrite (bind_ok _ _ t' (Ptr (nx t') 0) t2) by done.
  assert (S2 : same_on F t' t2).
  { split; [|done]. intros b Hb. pose proof (HF b Hb). unfold t2. cbn. rewrite lookup_insert_ne, (proj2 (Nat.eqb_neq _ _)) by lia. done. }
  assert (H2 : hist F ops t' t2) by (eapply h_user; [apply h_nil|done]).
  assert (W2 : wok t2 (Ptr (nx t') 0) m). { intros i Hi. unfold cell. rewrite (proj2 (Z.leb_le _ _)) by lia. cbn. rewrite lookup_insert, ?Z.add_0_l, !Nat2Z.id. exists (Some zero). by apply lookup_replicate. }
  assert (Sx2 : seg t2 (Ptr (nx s + 7) 0) xs). { eapply seg_dmb; [|exact Sx]. unfold t2. cbn. by rewrite lookup_insert_ne by lia. }
  rewrite (bind_ok _ _ _ _ _ (HM t2 _ _ _ H2 Sx2 Lx W2 ltac:(apply disj_blocks; lia))). set (t2' := wr _ xs t2).
  assert (S3 : same_on F t' t2').
  { split; [|done]. intros b Hb. destruct S2 as (S2 & _). destruct (S2 b Hb) as (A1 & A2 & A3 & A4 & A5). split; [|done]. rewrite <- A1. unfold t2'. cbn. rewrite lookup_alter_ne; [done|]. pose proof (HF b Hb). lia. }
  destruct (HD t2' ltac:(eapply h_user; [apply h_nil|done])) as (t5 & E5 & G1 & G2 & G3 & G4 & _).
  rewrite (bind_ok _ _ _ _ _ E5).
  assert (Nz : nx t' ∉ [nx si; nx si + 1; nx si + 2; nx si + 3]%nat). { intros H. assert (nx t' < nx s + 7)%nat; [|lia]. apply HF. unfold F, blocks_t. rewrite !elem_of_cons in *. rewrite elem_of_nil in H. tauto. }
  assert (Sz : seg t5 (Ptr (nx t') 0) xs).
  { eapply seg_dmb; [rewrite G1, bool_decide_eq_false_2 by exact Nz; reflexivity|]. apply seg_wr. by rewrite Lx. }
  rewrite (bind_ok _ _ _ _ _ (copy_out_seg t5 _ _ (Z.of_nat m) Sz ltac:(lia))).
  assert (Hz : is_Some (dm t5 !! nx t')) by (eapply seg_live; [exact Sz|destruct xs; [simpl in Lx; lia|done]]). destruct Hz as [cz Hz].
  set (t6 := set_dm (delete (nx t')) t5).
  exists t6. rewrite (bind_ok _ _ t5 tt t6). 2:{ unfold free_d. change (0 =? 0)%Z with true. by rewrite Hz. }
  (* the double blocks at the end *)
  assert (D6 : forall b, dm t6 !! b = if decide (b = nx s + 7)%nat then dm t6 !! (nx s + 7)%nat else if decide (b = nx s + 8)%nat then dm t6 !! (nx s + 8)%nat else dm s !! b).
  { intros b. destruct (decide (b = nx s + 7)%nat) as [->|N7]; [done|]. destruct (decide (b = nx s + 8)%nat) as [->|N8]; [done|].
    unfold t6. cbn [dm set_dm]. destruct (decide (b = nx t')) as [->|Nt]; [rewrite lookup_delete; symmetry; apply (nn_u _ _ _ _ _ _ _ _ _ _ _ _ _ _ _ A); lia|rewrite lookup_delete_ne by done].
    rewrite G1. case_bool_decide as HbD.
    { symmetry. apply (nn_u _ _ _ _ _ _ _ _ _ _ _ _ _ _ _ A). rewrite !elem_of_cons, elem_of_nil in HbD. cbn in HbD. lia. }
    assert (E2 : dm t2' !! b = dm t' !! b). { unfold t2', t2. cbn. by rewrite lookup_alter_ne, lookup_insert_ne by done. }
    rewrite E2. pose proof (s1_led) as HL. pose proof (sb_nx) as Eb.
    assert (HO : (KD, b) ∉ owned1 sb ++ [(KD, nx si)]).
    { unfold owned1. cbn [app]. rewrite Eb. intros H. apply HbD. rewrite !elem_of_cons, elem_of_nil in H. rewrite !elem_of_cons, elem_of_nil. cbn in *.
      repeat destruct H as [[=]|H]; lia. }
    assert (E1 : dm s3 !! b = dm s !! b). { rewrite s3_all, !decide_False by done. apply (lg_dm _ _ _ _ HL); [apply not_elem_of_nil|done]. }
    destruct (decide (b ∈ F)) as [HbF|HbF]; [|by rewrite Hd].
    assert (En : dm s !! b = None).
    { apply (nn_u _ _ _ _ _ _ _ _ _ _ _ _ _ _ _ A). unfold F, blocks_t in HbF. rewrite !elem_of_cons, elem_of_nil in HbF. cbn in HbF. lia. }
    specialize (SB1 b). rewrite E1, En in SB1. rewrite En. by destruct (dm t' !! b). }
  assert (L7 : is_Some (dm t6 !! (nx s + 7)%nat)).
  { unfold t6. cbn [dm set_dm]. rewrite lookup_delete_ne by lia. rewrite G1, bool_decide_eq_false_2.
    - unfold t2', t2. cbn. rewrite lookup_alter_ne, lookup_insert_ne by lia. eapply seg_live; [exact Sx|]. destruct xs; [simpl in Lx; lia|done].
    - intros H. assert (nx s + 7 < nx s + 7)%nat; [|lia]. apply HF. unfold F, blocks_t. rewrite !elem_of_cons in *. rewrite elem_of_nil in H. tauto. }
  assert (L8 : is_Some (dm t6 !! (nx s + 8)%nat)).
  { unfold t6. cbn [dm set_dm]. rewrite lookup_delete_ne by lia. rewrite G1, bool_decide_eq_false_2.
    - unfold t2', t2. cbn. rewrite lookup_alter_ne, lookup_insert_ne by lia. rewrite Hd; [|lia|intros H; apply HF in H; lia]. rewrite s3_all, decide_True by done. eauto.
    - intros H. assert (nx s + 8 < nx s + 7)%nat; [|lia]. apply HF. unfold F, blocks_t. rewrite !elem_of_cons in *. rewrite elem_of_nil in H. tauto. }
  destruct L7 as [c7 L7]. destruct L8 as [c8 L8].
  assert (I6 : im t6 = im si).
  { unfold t6. cbn [im set_dm]. rewrite G4. change (im t2') with (im t'). rewrite SB4. change (im s3) with (im s1). exact (s1_im). }
  destruct (freed_idx t6 I6) as [Ef Ed].
  eexists (set_dm (delete (nx s + 8)%nat) (set_dm (delete (nx s + 7)%nat) (set_im (delete (nx s)) t6))).
  split; [reflexivity|]. split.
  - unfold leave. erewrite mbind_lift.
    2:{ rewrite (bind_ok _ _ _ _ _ Ef). unfold bind, l1c_free_double, free_d. change (0 =? 0)%Z with true. cbn [dm set_im]. rewrite L7. cbv iota. cbn [dm set_dm set_im]. rewrite lookup_delete_ne, L8 by lia. reflexivity. }
    reflexivity.
  - split; [|split; [|split]].
    + cbn [dm set_dm set_im]. apply map_eq. intros b.
      destruct (decide (b = nx s + 8)%nat) as [->|N8]; [rewrite lookup_delete; symmetry; apply (nn_u _ _ _ _ _ _ _ _ _ _ _ _ _ _ _ A); lia|rewrite lookup_delete_ne by done].
      destruct (decide (b = nx s + 7)%nat) as [->|N7]; [rewrite lookup_delete; symmetry; apply (nn_u _ _ _ _ _ _ _ _ _ _ _ _ _ _ _ A); lia|rewrite lookup_delete_ne by done].
      rewrite D6, !decide_False by done. done.
    + cbn [om set_dm set_im t6]. apply map_eq. intros b. rewrite G2. change (om t2') with (om t'). rewrite SB3. change (om s3) with (om s1).
      pose proof (s1_led) as HL. pose proof (sb_nx) as Eb. case_bool_decide as Hb.
      * symmetry. apply (nn_u _ _ _ _ _ _ _ _ _ _ _ _ _ _ _ A). rewrite !elem_of_cons, elem_of_nil in Hb. cbn in Hb. lia.
      * apply (lg_om _ _ _ _ HL). unfold owned1. cbn [app]. rewrite Eb. intros H. apply Hb. rewrite !elem_of_cons, elem_of_nil in H. rewrite !elem_of_cons, elem_of_nil. cbn in *.
        repeat destruct H as [[=]|H]; lia.
    + cbn [pm set_dm set_im t6]. rewrite G3. change (pm t2') with (pm t'). apply map_eq. intros b. rewrite SB2. change (pm s3) with (pm s1).
      pose proof (s1_led) as HL. apply (lg_pm _ _ _ _ HL). unfold owned1. cbn [app]. intros H. rewrite !elem_of_cons, elem_of_nil in H. by repeat destruct H as [[=]|H].
    + cbn [im set_dm set_im]. exact Ed.
Qed.
End live.
End run.
End after.
