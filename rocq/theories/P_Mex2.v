(** * What the MEX function of l1qc_dct computes. *)
From stdpp Require Import base list gmap strings.
From Coq Require Import ZArith Lia.
From Verif Require Import Globals Mem M_Math M_Memory M_Status M_CG M_LineSearch M_FFTW M_Dct1 M_Dct2 M_Dct M_TVt M_Newton M_L1qcDct M_Bregman M_Nesta
  M_Logging M_MexUtils M_Mex P_Mem P_Loop S_Mem P_Memory P_Own P_Newton P_Dct1s S_DctApi P_DctA S_L1qcDct P_L1qcDct S_Mex P_Mex.
Local Open Scope Z_scope.

Section l1qcmex.
Context `{N : Num}.
Context (fft1 : fkind -> list T -> list T) (fft2 : fkind -> nat -> nat -> list T -> list T).
Implicit Types (s : st).
Notation mex := (l1qc_dct_mex fft1 fft2).

(** the part after the arguments have been read *)
Definition solve_part (nlhs mrow mcol mtot n : Z) (b pd : ptr) (o : L1qcOpts) : MX (list mxout) :=
  let! x_ours := lift (l1c_malloc_double (mrow * mcol)) in
  let! pix_idx := lift (calloc_i n) in
  let! r := lift
    (if is_null x_ours || is_null pix_idx then ret (L1C_OUT_OF_MEMORY, []) else
     let* status := convert_idx n mtot pd pix_idx in
     if negb (status =? 0) then ret (status, []) else
     let* res := l1qc_dct fft1 fft2 mrow mcol x_ours n b pix_idx o in
     let '(stat, lb) := res in
     let lb_res := match lb with Some r => r | None => mkLB pinf 0 0 0 end in
     let lb_res := if negb (stat =? 0) then mkLB (lb_l1 lb_res) (lb_newton lb_res) (lb_cg lb_res) stat else lb_res in
     let* xs := copy_out (mrow * mcol) x_ours in
     ret (0, OutDouble (mrow * mcol) 1 xs ::
             (if nlhs =? 2 then [OutStruct [("l1", lb_l1 lb_res); ("total_newton_iter", ofZ (lb_newton lb_res));
                                          ("total_cg_iter", ofZ (lb_cg lb_res)); ("status", ofZ (lb_status lb_res))]]
              else []))) in
  let '(status, plhs) := r in
  let! _ := lift (free_i pix_idx ;! l1c_free_double x_ours) in
  if status =? L1C_OUT_OF_MEMORY then mexErr "l1c:l1qc_dct:outofmemory" else
  if status =? L1C_INVALID_ARGUMENT then mexErr "l1c:l1qc_dct:bad_index" else
  mret plhs.

Lemma seg_log s p xs k : seg s p xs -> seg (log_to k s) p xs. Proof. done. Qed.
Lemma scalar_log s a v k : scalar s a v -> scalar (log_to k s) a v. Proof. apply scalar_dm. done. Qed.
Lemma field_log s a nm v k : field s a nm v -> field (log_to k s) a nm v.
Proof. intros (f & Hf & Hs). exists f. split; [done|by apply scalar_log]. Qed.
Lemma fint_log s a nm z k : field_int s a nm z -> field_int (log_to k s) a nm z.
Proof. intros (v & Hf & Hs). exists v. split; [by apply field_log|done]. Qed.
Lemma struct_log s a o k : l1qc_struct s a o -> l1qc_struct (log_to k s) a o.
Proof. intros []. split; [done|..]; first [by apply field_log|by apply fint_log]. Qed.
Lemma vector_log s a p vs k : vector s a p vs -> vector (log_to k s) a p vs. Proof. done. Qed.

(** from the arguments on *)
Lemma mex_args s prhs nr nc bb bo bs pi vs zs o nlhs : l1qc_args s prhs nr nc bb bo bs pi vs zs o -> 1 <= nlhs ->
  mex nlhs 5 prhs s = solve_part nlhs (Z.of_nat nr) (Z.of_nat nc) (Z.of_nat (nr * nc)) (Z.of_nat (length bs)) (Ptr bb bo) pi (with_mode o dct1) (log_to mexPrintf s).
Proof.
  intros [Hu Him Hr Hc Hf (a0 & a1 & a2 & a3 & a4 & v0 & v1 & -> & S0 & T0 & S1 & T1 & V2 & V3 & O4) HL Hlt HZ] Hl.
  unfold l1qc_dct_mex. erewrite mbind_lift; [|unfold l1c_replace_printf, getg, setg, bind, ret; reflexivity].
  change (set_gl _ s) with (log_to mexPrintf s).
  apply (scalar_log _ _ _ mexPrintf) in S0, S1. apply (vector_log _ _ _ _ mexPrintf) in V2, V3. apply (struct_log _ _ _ mexPrintf) in O4.
  set (t := log_to mexPrintf s) in *.
  unfold mex_assert_num. rewrite (proj2 (Z.ltb_ge nlhs 1) Hl). rewrite (mbind_val _ _ t tt t) by done. change (5 <? 5) with false. rewrite (mbind_val _ _ t tt t) by done.
  rewrite (mbind_lift _ _ t a0 t) by done. rewrite (mbind_val _ _ t v0 t) by (by apply scalar_run). rewrite (mbind_lift _ _ _ _ _ (cast_ok _ _ t T0)).
  rewrite (mbind_lift _ _ t a1 t) by done. rewrite (mbind_val _ _ t v1 t) by (by apply scalar_run). rewrite (mbind_lift _ _ _ _ _ (cast_ok _ _ t T1)).
  rewrite (mbind_lift _ _ _ _ _ (i32_ok (Z.of_nat nc * Z.of_nat nr) t ltac:(unfold INT_MIN; lia))).
  rewrite (mbind_lift _ _ t a2 t) by done. rewrite (mbind_val _ _ _ _ _ (vector_run _ _ _ _ V2)). 
  rewrite (mbind_lift _ _ t a3 t) by done. rewrite (mbind_val _ _ _ _ _ (vector_run _ _ _ _ V3)).
  rewrite HL, Z.eqb_refl, (proj2 (Z.ltb_lt _ _)), !(proj2 (Z.leb_gt _ _)) by lia. cbn [negb orb].
  rewrite (mbind_lift _ _ t a4 t) by done. rewrite (mbind_val _ _ _ _ _ (struct_run t _ (ls_s _ _ _ O4))). rewrite (mbind_val _ _ _ _ _ (opts_run _ _ _ O4)).
  replace (Z.of_nat nc * Z.of_nat nr) with (Z.of_nat (nr * nc)) by lia. reflexivity.
Qed.

(** the state with one allocation refused *)
Notation lg := (log_to mexPrintf).
Lemma mex_oom s prhs nr nc bb bo bs pi vs zs o nlhs : l1qc_args s prhs nr nc bb bo bs pi vs zs o -> 1 <= nlhs ->
  alloc_ok (en s) (nx s) = false \/ alloc_ok (en s) (nx s + 1) = false ->
  exists s', mex nlhs 5 prhs s = Ok (Err "l1c:l1qc_dct:outofmemory") s' /\ same_heap s s' /\ nx s' = (nx s + 2)%nat.
Proof.
  intros A Hl HA. rewrite (mex_args _ _ _ _ _ _ _ _ _ _ _ _ A Hl). destruct A as [Hu Him Hr Hc Hf _ HL Hlt HZ].
  unfold solve_part. set (t := lg s). unfold l1c_malloc_double, alloc_d.
  destruct (alloc_ok (en s) (nx s)) eqn:E0.
  - destruct HA as [HA|HA]; [done|].
    erewrite mbind_lift. 2:{ unfold t; cbn [en nx log_to set_gl]. rewrite E0, (proj2 (Z.leb_le 0 _)) by lia. reflexivity. }
    erewrite mbind_lift. 2:{ unfold calloc_i. cbn [en nx tick set_al set_dm]. rewrite Nat.add_1_r in HA. unfold t; cbn [en nx log_to set_gl]. rewrite HA, andb_false_r. reflexivity. }
    cbn [is_null orb]. rewrite (mbind_lift _ _ _ _ _ (eq_refl : ret (L1C_OUT_OF_MEMORY, []) _ = _)).
    erewrite mbind_lift. 2:{ unfold l1c_free_double, bind. cbn [free_i free_d]. change (0 =? 0) with true. cbn [dm tick set_al set_dm nx]. rewrite lookup_insert. reflexivity. }
    eexists. split; [reflexivity|]. split; [|cbn; lia]. split; [|done]. cbn. rewrite delete_insert; [done|]. apply Hu. done.
  - erewrite mbind_lift. 2:{ unfold t; cbn [en nx log_to set_gl]. rewrite E0, andb_false_r. reflexivity. }
    destruct (alloc_ok (en s) (nx s + 1)) eqn:E1.
    + erewrite mbind_lift. 2:{ unfold calloc_i. cbn [en nx tick]. rewrite Nat.add_1_r in E1. unfold t; cbn [en nx log_to set_gl]. rewrite E1, (proj2 (Z.leb_le 0 _)) by lia. reflexivity. }
      cbn [is_null orb]. rewrite (mbind_lift _ _ _ _ _ (eq_refl : ret (L1C_OUT_OF_MEMORY, []) _ = _)).
      erewrite mbind_lift. 2:{ unfold l1c_free_double, bind. cbn [free_i free_d]. change (0 =? 0) with true. cbn [im tick set_im nx]. rewrite lookup_insert. reflexivity. }
      eexists. split; [reflexivity|]. split; [|cbn; lia]. split; [done|]. split; [done|]. split; [done|]. cbn. rewrite delete_insert; [done|]. apply Him. lia.
    + erewrite mbind_lift. 2:{ unfold calloc_i. cbn [en nx tick]. rewrite Nat.add_1_r in E1. unfold t; cbn [en nx log_to set_gl]. rewrite E1, andb_false_r. reflexivity. }
      cbn [is_null orb]. rewrite (mbind_lift _ _ _ _ _ (eq_refl : ret (L1C_OUT_OF_MEMORY, []) _ = _)).
      rewrite (mbind_lift _ _ _ tt (tick (tick t))) by done.
      eexists. split; [reflexivity|]. split; [done|cbn; lia].
Qed.

(** both granted: the conversion, and what follows *)
Definition stats (r : LBResult) : mxout := OutStruct [("l1", lb_l1 r); ("total_newton_iter", ofZ (lb_newton r)); ("total_cg_iter", ofZ (lb_cg r)); ("status", ofZ (lb_status r))].
Definition idx_of (zs : list Z) : list nat := (fun z => Z.to_nat (z - 1)) <$> zs.

Lemma freed s m cs t : unborn s -> (forall b, (nx s <= b)%nat -> im s !! b = None) ->
  dm t = <[nx s := cs]> (dm s) -> im t = <[S (nx s) := m]> (im s) -> om t = om s -> pm t = pm s ->
  exists t', (free_i (Ptr (S (nx s)) 0) ;! l1c_free_double (Ptr (nx s) 0)) t = Ok tt t' /\ same_heap s t' /\ nx t' = nx t.
Proof.
  intros Hu Him Ed Ei Eo Ep. exists (set_dm (delete (nx s)) (set_im (delete (S (nx s))) t)). split; [|split].
  - unfold bind, free_i, l1c_free_double, free_d. change (0 =? 0) with true. cbv iota. rewrite Ei, lookup_insert. cbn [dm set_im]. rewrite Ed, lookup_insert. done.
  - split; [|split; [|split]]; cbn; try congruence.
    + rewrite Ed, delete_insert; [done|]. by apply Hu.
    + rewrite Ei, delete_insert; [done|]. apply Him. lia.
  - done.
Qed.
Lemma mex_granted s prhs nr nc bb bo bs pi vs zs o nlhs : l1qc_args s prhs nr nc bb bo bs pi vs zs o -> 1 <= nlhs ->
  alloc_ok (en s) (nx s) = true -> alloc_ok (en s) (nx s + 1) = true ->
  (Exists (fun z => ~ in_idx (Z.of_nat (nr * nc)) z) zs /\
     exists s', mex nlhs 5 prhs s = Ok (Err "l1c:l1qc_dct:bad_index") s' /\ same_heap s s' /\ nx s' = (nx s + 2)%nat) \/
  (Forall (in_idx (Z.of_nat (nr * nc))) zs /\
     let s3 := handed (nr * nc) (Z.of_nat <$> idx_of zs) s in
     mex nlhs 5 prhs s =
       match l1qc_dct fft1 fft2 (Z.of_nat nr) (Z.of_nat nc) (Ptr (nx s) 0) (Z.of_nat (length (idx_of zs))) (Ptr bb bo) (Ptr (nx s + 1) 0) (with_mode o dct1) s3 with
       | Ub e => Ub e
       | Ok (stat, lb) s4 =>
           let r := match lb with Some r => r | None => mkLB pinf 0 0 0 end in
           let r := if negb (stat =? 0) then mkLB (lb_l1 r) (lb_newton r) (lb_cg r) stat else r in
           match copy_out (Z.of_nat (nr * nc)) (Ptr (nx s) 0) s4 with
           | Ub e => Ub e
           | Ok xs s5 => match (free_i (Ptr (nx s + 1) 0) ;! l1c_free_double (Ptr (nx s) 0)) s5 with
                         | Ub e => Ub e
                         | Ok _ s6 => Ok (Val (OutDouble (Z.of_nat (nr * nc)) 1 xs :: (if nlhs =? 2 then [stats r] else []))) s6
                         end
           end
       end).
Proof.
  intros A Hl E0 E1. rewrite !(mex_args _ _ _ _ _ _ _ _ _ _ _ _ A Hl). destruct A as [Hu Him Hr Hc Hf Ha HL Hlt HZ].
  assert (Sv : seg s pi vs) by (destruct Ha as (a0 & a1 & a2 & a3 & a4 & v0 & v1 & _ & _ & _ & _ & _ & _ & V & _); apply V).
  assert (Hne : vs <> []). { destruct Ha as (a0 & a1 & a2 & a3 & a4 & v0 & v1 & _ & _ & _ & _ & _ & _ & V & _). destruct V as (_ & _ & _ & H2 & _). destruct vs; [simpl in H2; lia|done]. }
  set (m := (nr * nc)%nat) in *.
  assert (SP : solve_part nlhs (Z.of_nat nr) (Z.of_nat nc) (Z.of_nat m) (Z.of_nat (length bs)) (Ptr bb bo) pi (with_mode o dct1) (lg s) =
    mbind (lift (let* status := convert_idx (Z.of_nat (length bs)) (Z.of_nat m) pi (Ptr (S (nx s)) 0) in
     if negb (status =? 0) then ret (status, []) else
     let* res := l1qc_dct fft1 fft2 (Z.of_nat nr) (Z.of_nat nc) (Ptr (nx s) 0) (Z.of_nat (length bs)) (Ptr bb bo) (Ptr (S (nx s)) 0) (with_mode o dct1) in
     let '(stat, lb) := res in
     let lb_res := match lb with Some r => r | None => mkLB pinf 0 0 0 end in
     let lb_res := if negb (stat =? 0) then mkLB (lb_l1 lb_res) (lb_newton lb_res) (lb_cg lb_res) stat else lb_res in
     let* xs := copy_out (Z.of_nat m) (Ptr (nx s) 0) in
     ret (0, OutDouble (Z.of_nat m) 1 xs :: (if nlhs =? 2 then [stats lb_res] else []))))
    (fun r => let '(status, plhs) := r in
     let! _ := lift (free_i (Ptr (S (nx s)) 0) ;! l1c_free_double (Ptr (nx s) 0)) in
     if status =? L1C_OUT_OF_MEMORY then mexErr "l1c:l1qc_dct:outofmemory" else
     if status =? L1C_INVALID_ARGUMENT then mexErr "l1c:l1qc_dct:bad_index" else
     mret plhs) (handed m (replicate (length bs) 0) s)).
  { unfold solve_part. replace (Z.of_nat nr * Z.of_nat nc) with (Z.of_nat m) by lia.
    erewrite mbind_lift. 2:{ unfold l1c_malloc_double, alloc_d. cbn [en nx log_to set_gl]. rewrite E0, (proj2 (Z.leb_le 0 _)), Nat2Z.id by lia. reflexivity. }
    erewrite mbind_lift. 2:{ unfold calloc_i. cbn [en nx tick log_to set_gl set_al set_dm]. rewrite Nat.add_1_r in E1. rewrite E1, (proj2 (Z.leb_le 0 _)), Nat2Z.id by lia. reflexivity. }
    reflexivity. }
  rewrite SP. clear SP. rewrite <- !HL. replace (nx s + 1)%nat with (S (nx s)) by lia.
  assert (Sh : seg (handed m (replicate (length vs) 0) s) pi vs).
  { destruct pi as [|b o0]; [|by apply handed_seg]. exfalso. destruct vs as [|v vs']; [done|]. specialize (Sv 0%nat v eq_refl). done. }
  destruct (convert_run _ pi vs zs (S (nx s)) (Z.of_nat m) Sh HZ) as (st & cs & EC & LC & HC).
  { cbn. by rewrite lookup_insert. }
  assert (EH : set_im <[S (nx s) := cs]> (handed m (replicate (length vs) 0) s) = handed m cs s).
  { unfold handed, idx_made, set_im, tick. cbn. by rewrite insert_insert. }
  rewrite EH in EC. destruct HC as [(HF & -> & Ec)|(HE & ->)].
  - right. split; [done|]. cbv zeta.
    assert (Ecs : cs = Z.of_nat <$> idx_of zs).
    { rewrite Ec. unfold idx_of. rewrite <- list_fmap_compose. apply list_fmap_ext. intros i z Hz. pose proof (Forall_lookup_1 _ _ _ _ HF Hz) as H. unfold in_idx in H. simpl. lia. }
    rewrite <- Ecs. replace (length (idx_of zs)) with (length vs) by (unfold idx_of; rewrite fmap_length; by eapply Forall2_length).
    unfold mbind, lift, bind, ret. cbv beta. rewrite EC. change (negb (0 =? 0)) with false. cbv iota beta.
    destruct (l1qc_dct _ _ _ _ _ _ _ _ _ _) as [[stat lb] s4|e]; [|done].
    destruct (copy_out _ _ s4) as [xs s5|e]; [|done].
    destruct (free_i _ s5) as [u s6|e]; [|done]. destruct (l1c_free_double _ s6); done.
  - left. split; [done|].
    destruct (freed s cs (replicate m None) (handed m cs s) Hu Him) as (t' & Ef & Hs & En); [done..|].
    exists t'. split; [|split; [done|by rewrite En; cbn; lia]].
    rewrite (mbind_lift _ _ (handed m (replicate (length vs) 0) s) (L1C_INVALID_ARGUMENT, []) (handed m cs s)).
    2:{ rewrite (bind_ok _ _ _ _ _ EC). done. }
    rewrite (mbind_lift _ _ _ _ _ Ef). done.
Qed.
End l1qcmex.
