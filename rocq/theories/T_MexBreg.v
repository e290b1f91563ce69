(** * C74: breg_anistropic_TV from MATLAB (interfaces/mex/breg_anistropic_TV_mex.c). *)
From Coq Require Import ZArith Lia.
From stdpp Require Import base numbers gmap list strings.
From Verif Require Import Globals Mem M_Math M_Memory M_Status M_CG M_LineSearch M_FFTW M_Dct1 M_Dct2 M_Dct M_TVt M_Newton M_L1qcDct M_Bregman M_Nesta
  T_Bregman M_Logging M_MexUtils M_Mex P_Mem P_Loop S_Mem P_Touch P_Memory P_Own P_Math P_CG P_Bregman P_Breg2 P_Breg3 S_L1qcDct S_Mex P_Mex P_Mex2 T_Mex.
Local Open Scope Z_scope.

Section C74.
Context `{N : Num}.
Implicit Types (s : st).
(** Uopt = breg_anistropic_TV(Img, mu, tol, max_iter): Img is an r x c matrix with the entries xs, column after column *)
Record breg_args s (prhs : list mxArray) (p : ptr) (r c : nat) (xs : list T) (mu tol : T) (mi : Z) : Prop := {
  ba_u : unborn s; ba_r : (3 <= r)%nat; ba_c : (3 <= c)%nat; ba_fit : Z.of_nat (r * c) <= INT_MAX; ba_mi : INT_MIN <= mi < INT_MAX;
  ba_args : exists a0 a1 a2 a3 v, prhs = [a0; a1; a2; a3] /\ matrix s a0 p r c xs /\ scalar s a1 mu /\ scalar s a2 tol /\ scalar s a3 v /\ toint v = Some mi }.

Lemma int_of_size_id z : 0 <= z <= INT_MAX -> int_of_size z = z.
Proof. intros H. unfold int_of_size, INT_MAX in *. rewrite Z.mod_small by lia. lia. Qed.

(** the part after the arguments *)
Definition denoise_part (rz cz : Z) (f : ptr) (mu tol : T) (mi : Z) : MX (option mxout) :=
  let! nm := lift (i32 (rz * cz)) in
  let! f_ours := lift (l1c_malloc_double nm) in
  let! uk := lift (l1c_malloc_double nm) in
  if is_null f_ours || is_null uk then mexErr "l1c:l1qc_dct:outofmemory" else
  let! _ := lift (cblas_dcopy nm f f_ours) in
  let! stat := lift (l1c_breg_anistropic_TV rz cz uk f_ours mu tol mi 1) in
  let! out := lift (if negb (stat =? 0) then ret None
                    else let* xs := copy_out nm uk in ret (Some (OutDouble cz rz xs))) in
  let! _ := lift (l1c_free_double f_ours ;! l1c_free_double uk) in
  mret out.
Lemma breg_mex_args s prhs p r c xs mu tol mi nlhs : breg_args s prhs p r c xs mu tol mi -> 1 <= nlhs ->
  breg_mex nlhs 4 prhs s = denoise_part (Z.of_nat r) (Z.of_nat c) p mu tol mi (log_to mexPrintf s).
Proof.
  intros [Hu Hr Hc Hf Hmi (a0 & a1 & a2 & a3 & v & -> & (D0 & N0 & M0 & C0 & P0 & S0 & L0) & S1 & S2 & S3 & T3)] Hl.
  unfold breg_mex. erewrite mbind_lift; [|unfold l1c_replace_printf, getg, setg, bind, ret; reflexivity].
  change (set_gl _ s) with (log_to mexPrintf s). apply (scalar_log _ _ _ mexPrintf) in S1, S2, S3. set (t := log_to mexPrintf s) in *.
  unfold mex_assert_num. rewrite (proj2 (Z.ltb_ge nlhs 1) Hl). rewrite (mbind_val _ _ t tt t) by done. change (4 <? 4) with false. rewrite (mbind_val _ _ t tt t) by done.
  rewrite (mbind_lift _ _ t a0 t) by done. rewrite (mbind_val _ _ t tt t) by (unfold mex_assert_double; by rewrite D0).
  rewrite (mbind_val _ _ t tt t).
  2:{ unfold mex_assert_2Darray_with_size, mxIsScalar. cbv zeta. rewrite M0, C0, N0. destruct (Z.eqb_spec (Z.of_nat r) 0); [lia|]. destruct (Z.eqb_spec (Z.of_nat c) 0); [lia|]. cbn [orb].
      destruct (Z.eqb_spec (Z.of_nat r) 1); [lia|]. cbn [andb]. change (2 <? 2) with false. change (size_of_int 3) with 3. rewrite !(proj2 (Z.ltb_ge _ _)) by lia. done. }
  rewrite M0, C0, P0, !int_of_size_id by nia.
  rewrite (mbind_lift _ _ t a1 t) by done. rewrite (mbind_val _ _ _ _ _ (scalar_run _ _ _ S1)).
  rewrite (mbind_lift _ _ t a2 t) by done. rewrite (mbind_val _ _ _ _ _ (scalar_run _ _ _ S2)).
  rewrite (mbind_lift _ _ t a3 t) by done. rewrite (mbind_val _ _ _ _ _ (scalar_run _ _ _ S3)).
  rewrite (mbind_lift _ _ _ _ _ (cast_ok _ _ t T3)). reflexivity.
Qed.
Lemma args_img s prhs p r c xs mu tol mi : breg_args s prhs p r c xs mu tol mi -> seg s p xs /\ length xs = (r * c)%nat /\ exists b o, p = Ptr b o /\ b <> nx s /\ (b < nx s)%nat.
Proof.
  intros [Hu Hr Hc Hf Hmi (a0 & a1 & a2 & a3 & v & -> & (D0 & N0 & M0 & C0 & P0 & S0 & L0) & _)]. split; [done|]. split; [done|].
  assert (Hne : xs <> []) by (intros ->; simpl in L0; nia).
  destruct p as [|b o]. { exfalso. destruct xs as [|v' xs']; [done|]. specialize (S0 0%nat v' eq_refl). done. }
  exists b, o. split; [done|]. destruct (seg_live _ _ _ _ S0 Hne) as [cc Hcc].
  assert ((b < nx s)%nat) by (destruct (Nat.lt_ge_cases b (nx s)) as [|Hb]; [done|]; rewrite (proj1 (Hu b Hb)) in Hcc; done). split; [lia|done].
Qed.

(** both arrays are made *)
Definition two_made (m : nat) s : st := x_made m (x_made m (log_to mexPrintf s)).
(** ** No memory for its own arrays: an error, but an array that was granted is never released *)
Theorem breg_mex_out_of_memory s prhs p r c xs mu tol mi nlhs : breg_args s prhs p r c xs mu tol mi -> 1 <= nlhs ->
  alloc_ok (en s) (nx s) = false \/ alloc_ok (en s) (nx s + 1) = false ->
  exists s', breg_mex nlhs 4 prhs s = Ok (Err "l1c:l1qc_dct:outofmemory") s' /\ im s' = im s /\ pm s' = pm s /\ om s' = om s /\
    (forall b, b <> nx s -> b <> (nx s + 1)%nat -> dm s' !! b = dm s !! b) /\
    (forall j, (j < 2)%nat -> dm s !! (nx s + j)%nat = None /\ (is_Some (dm s' !! (nx s + j)%nat) <-> alloc_ok (en s) (nx s + j) = true)).
Proof.
  intros A Hl HA. rewrite (breg_mex_args _ _ _ _ _ _ _ _ _ _ A Hl). destruct A as [Hu Hr Hc Hf Hmi _]. unfold denoise_part.
  rewrite (mbind_lift _ _ _ _ _ (i32_ok (Z.of_nat r * Z.of_nat c) (log_to mexPrintf s) ltac:(rewrite <- Nat2Z.inj_mul; unfold INT_MIN; lia))). replace (Z.of_nat r * Z.of_nat c) with (Z.of_nat (r * c)) by lia.
  set (m := (r * c)%nat) in *. rewrite Nat.add_1_r in *.
  assert (U0 : forall j, (j < 2)%nat -> dm s !! (nx s + j)%nat = None) by (intros j _; apply Hu; lia).
  assert (HJ : forall s', is_Some (dm s' !! nx s) <-> alloc_ok (en s) (nx s) = true -> (is_Some (dm s' !! S (nx s)) <-> alloc_ok (en s) (S (nx s)) = true) ->
    forall j, (j < 2)%nat -> dm s !! (nx s + j)%nat = None /\ (is_Some (dm s' !! (nx s + j)%nat) <-> alloc_ok (en s) (nx s + j) = true)).
  { intros s' H1 H2 j Hj. split; [by apply U0|]. destruct j as [|[|j]]; [by rewrite Nat.add_0_r|by rewrite Nat.add_1_r|lia]. }
  assert (N0 : dm s !! nx s = None) by (apply Hu; lia). assert (N1 : dm s !! S (nx s) = None) by (apply Hu; lia).
  unfold l1c_malloc_double, alloc_d.
  destruct (alloc_ok (en s) (nx s)) eqn:E0.
  - destruct HA as [HA|HA]; [done|].
    erewrite mbind_lift. 2:{ cbn [en nx log_to set_gl]. rewrite E0, (proj2 (Z.leb_le 0 _)), Nat2Z.id by lia. reflexivity. }
    erewrite mbind_lift. 2:{ cbn [en nx tick set_al set_dm log_to set_gl]. rewrite HA, andb_false_r. reflexivity. }
    cbn [is_null orb]. eexists. split; [reflexivity|]. split; [done|]. split; [done|]. split; [done|]. split.
    + intros b Hb _. cbn. by rewrite lookup_insert_ne.
    + apply HJ; cbn; [rewrite lookup_insert; split; [done|eauto]|]. rewrite lookup_insert_ne by lia. rewrite HA, N1. split; [by intros []|done].
  - erewrite mbind_lift. 2:{ cbn [en nx log_to set_gl]. rewrite E0, andb_false_r. reflexivity. }
    destruct (alloc_ok (en s) (S (nx s))) eqn:E1.
    + erewrite mbind_lift. 2:{ cbn [en nx tick log_to set_gl]. rewrite E1, (proj2 (Z.leb_le 0 _)), Nat2Z.id by lia. reflexivity. }
      cbn [is_null orb]. eexists. split; [reflexivity|]. split; [done|]. split; [done|]. split; [done|]. split.
      * intros b _ Hb. cbn. by rewrite lookup_insert_ne.
      * apply HJ; cbn; [|rewrite lookup_insert; rewrite ?E1; split; [done|eauto]]. rewrite lookup_insert_ne by lia. rewrite N0. split; [by intros []|done].
    + erewrite mbind_lift. 2:{ cbn [en nx tick log_to set_gl]. rewrite E1, andb_false_r. reflexivity. }
      cbn [is_null orb]. eexists. split; [reflexivity|]. split; [done|]. split; [done|]. split; [done|]. split; [done|].
      apply HJ; cbn; [rewrite N0|rewrite N1, ?E1]; (split; [by intros []|done]).
Qed.

(** the solver is called correctly *)
Definition ready (m : nat) xs s : st := wr (Ptr (nx s) 0) xs (two_made m s).
Lemma ready_call s prhs p r c xs mu tol mi : breg_args s prhs p r c xs mu tol mi ->
  breg_call r c (S (nx s)) (nx s) xs mi 1 (ready (r * c) xs s) /\ cblas_dcopy (Z.of_nat (r * c)) p (Ptr (nx s) 0) (two_made (r * c) s) = Ok tt (ready (r * c) xs s).
Proof.
  intros A. destruct (args_img _ _ _ _ _ _ _ _ _ A) as (Sp & Lx & b & o & -> & Hb & Hlt). destruct A as [Hu Hr Hc Hf Hmi _].
  assert (W : wok (two_made (r * c) s) (Ptr (nx s) 0) (length xs)).
  { intros i Hi. unfold cell. cbn. rewrite (proj2 (Z.leb_le _ _)) by lia. rewrite lookup_insert_ne by lia. rewrite lookup_insert, ?Z.add_0_l, Nat2Z.id, lookup_replicate_2 by lia. eauto. }
  assert (W2 : wok (two_made (r * c) s) (Ptr (S (nx s)) 0) (r * c)).
  { intros i Hi. unfold cell. cbn. rewrite (proj2 (Z.leb_le _ _)) by lia. rewrite lookup_insert, ?Z.add_0_l, Nat2Z.id, lookup_replicate_2 by lia. eauto. }
  split.
  - split; try done; try lia.
    + intros b' Hb'. cbn in Hb'. split; [|by apply Hu; lia]. unfold ready. cbn. rewrite lookup_alter_ne by lia. rewrite !lookup_insert_ne by lia. apply Hu. lia.
    + apply seg_wr. done.
    + apply wok_wr; [done|]. done.
    + unfold ready. cbn. by rewrite Nat.eqb_refl.
  - apply dcopy_run; [|done|by rewrite Lx in W|apply disj_blocks; done].
    eapply seg_dmb; [|exact Sp]. cbn. by rewrite !lookup_insert_ne by lia.
Qed.
Lemma two_freed s s4 cf cu : unborn s -> dm s4 !! nx s = Some cf -> dm s4 !! S (nx s) = Some cu ->
  (forall b, b <> nx s -> b <> S (nx s) -> dm s4 !! b = dm s !! b) -> (forall b, pm s4 !! b = pm s !! b) -> (forall b, om s4 !! b = om s !! b) -> im s4 = im s ->
  exists s', (l1c_free_double (Ptr (nx s) 0) ;! l1c_free_double (Ptr (S (nx s)) 0)) s4 = Ok tt s' /\ same_heap s s'.
Proof.
  intros Hu Hf Hk Hd Hp Ho Hi. exists (set_dm (delete (S (nx s))) (set_dm (delete (nx s)) s4)). split.
  - unfold bind, l1c_free_double, free_d. change (0 =? 0) with true. cbv iota. rewrite Hf. cbn [dm set_dm]. rewrite lookup_delete_ne, Hk by lia. done.
  - split; [|split; [|split]]; cbn; [|by apply map_eq|by apply map_eq|done].
    apply map_eq. intros b. destruct (decide (b = S (nx s))) as [->|H1]; [rewrite lookup_delete; symmetry; apply Hu; lia|rewrite lookup_delete_ne by done].
    destruct (decide (b = nx s)) as [->|H2]; [rewrite lookup_delete; symmetry; apply Hu; lia|rewrite lookup_delete_ne by done]. by apply Hd.
Qed.
(** ** Its arrays are granted *)
Theorem breg_mex_outcome s prhs p r c xs mu tol mi nlhs : breg_args s prhs p r c xs mu tol mi -> 1 <= nlhs ->
  alloc_ok (en s) (nx s) = true -> alloc_ok (en s) (nx s + 1) = true ->
  exists out s', breg_mex nlhs 4 prhs s = Ok (Val out) s' /\ same_heap s s' /\
    (* a refused request of the solver is not reported: there is no error, and no output *)
    ((exists j, (j < 8)%nat /\ alloc_ok (en s) (nx s + 2 + j) = false) -> out = None) /\
    (* otherwise a c x r matrix with the solver's result for an image of r rows and c columns, row after row *)
    ((forall j, (j < 8)%nat -> alloc_ok (en s) (nx s + 2 + j) = true) ->
       exists K, stops (breg_err r c 1 mu (mul two mu) xs) tol (Z.to_nat mi) K /\
         out = Some (OutDouble (Z.of_nat c) (Z.of_nat r) (b_u (breg_at r c 1 mu (mul two mu) xs K)))).
Proof.
  intros A Hl E0 E1. rewrite (breg_mex_args _ _ _ _ _ _ _ _ _ _ A Hl).
  destruct (ready_call _ _ _ _ _ _ _ _ _ A) as [HC ED]. pose proof (proj1 (proj2 (args_img _ _ _ _ _ _ _ _ _ A))) as Lx. destruct A as [Hu Hr Hc Hf Hmi _]. unfold denoise_part.
  rewrite (mbind_lift _ _ _ _ _ (i32_ok (Z.of_nat r * Z.of_nat c) (log_to mexPrintf s) ltac:(rewrite <- Nat2Z.inj_mul; unfold INT_MIN; lia))). replace (Z.of_nat r * Z.of_nat c) with (Z.of_nat (r * c)) by lia.
  set (m := (r * c)%nat) in *. rewrite Nat.add_1_r in *.
  erewrite mbind_lift. 2:{ unfold l1c_malloc_double, alloc_d. cbn [en nx log_to set_gl]. rewrite E0, (proj2 (Z.leb_le 0 _)), Nat2Z.id by lia. reflexivity. }
  erewrite mbind_lift. 2:{ unfold l1c_malloc_double, alloc_d. cbn [en nx tick set_al set_dm log_to set_gl]. rewrite E1, (proj2 (Z.leb_le 0 _)), Nat2Z.id by lia. reflexivity. }
  cbn [is_null orb]. fold (x_made m (log_to mexPrintf s)). change (tick (set_al _ _ (set_dm _ (x_made m (log_to mexPrintf s))))) with (two_made m s).
  rewrite (mbind_lift _ _ _ _ _ ED).
  destruct HC as [Hn Hm _ Hm1 Hm2 HU Hne Sf Lf Wu Au].
  assert (D2 : forall b, b <> nx s -> b <> S (nx s) -> dm (ready m xs s) !! b = dm s !! b).
  { intros b H1 H2. unfold ready. cbn. rewrite lookup_alter_ne by done. by rewrite !lookup_insert_ne. }
  assert (L0 : is_Some (dm (ready m xs s) !! nx s)). { unfold ready. cbn. rewrite lookup_alter, lookup_insert_ne, lookup_insert by lia. eauto. }
  assert (L1 : is_Some (dm (ready m xs s) !! S (nx s))). { unfold ready. cbn. rewrite lookup_alter_ne by lia. rewrite lookup_insert. eauto. }
  set (t := ready m xs s) in *. assert (NX : nx t = (nx s + 2)%nat) by (cbn; lia).
  destruct (breg_run t r c (S (nx s)) (nx s) xs mu tol mi 1 Hf HU) as [B1 B2].
  destruct (decide (Forall (fun j => alloc_ok (en s) (nx s + 2 + j) = true) (seq 0 8))) as [G|G].
  - assert (HG : all_granted t 8). { intros j Hj. rewrite NX. rewrite Forall_forall in G. apply (G j). apply elem_of_seq. lia. }
    destruct (B2 Hn Hm Hm1 Hm2 Hne Sf Lf Wu Au HG) as (K & s4 & HK & E4 & Su & Lg & _).
    rewrite (mbind_lift _ _ _ _ _ E4). change (negb (L1C_SUCCESS =? 0)) with false. cbv iota.
    assert (Lu : length (b_u (breg_at r c (Z.to_nat 1) mu (mul two mu) xs K)) = m).
    { by apply breg_at_len. }
    rewrite (mbind_lift _ _ s4 (Some (OutDouble (Z.of_nat c) (Z.of_nat r) (b_u (breg_at r c (Z.to_nat 1) mu (mul two mu) xs K)))) s4).
    2:{ rewrite (bind_ok _ _ _ _ _ (copy_out_seg s4 _ _ (Z.of_nat m) Su ltac:(rewrite Lu; lia))). done. }
    pose proof (lg_len _ _ _ _ Lg) as LL.
    assert (is_Some (dm s4 !! nx s)) as [cf Hcf]. { pose proof (LL (nx s) ltac:(apply not_elem_of_nil)) as Q. destruct L0 as [x Hx]. rewrite Hx in Q. destruct (dm s4 !! nx s); [eauto|done]. }
    assert (is_Some (dm s4 !! S (nx s))) as [cu Hcu]. { pose proof (LL (S (nx s)) ltac:(apply not_elem_of_nil)) as Q. destruct L1 as [x Hx]. rewrite Hx in Q. destruct (dm s4 !! S (nx s)); [eauto|done]. }
    destruct (two_freed s s4 cf cu Hu Hcf Hcu) as (s' & Ef & HS).
    + intros b H1 H2. rewrite (lg_dm _ _ _ _ Lg); [by apply D2|by rewrite elem_of_list_singleton|apply not_elem_of_nil].
    + intros b. rewrite (lg_pm _ _ _ _ Lg); [done|apply not_elem_of_nil].
    + intros b. rewrite (lg_om _ _ _ _ Lg); [done|apply not_elem_of_nil].
    + rewrite (lg_im _ _ _ _ Lg). done.
    + rewrite (mbind_lift _ _ _ _ _ Ef). eexists _, s'. split; [reflexivity|]. split; [done|]. split.
      * intros (j & Hj & Ej). exfalso. specialize (HG j Hj). rewrite NX in HG. change (alloc_ok (en s) (nx s + 2 + j) = true) in HG. by rewrite HG in Ej.
      * intros _. exists K. done.
  - assert (some_refused t 8) as HR.
    { apply not_Forall_Exists in G; [|intros j; apply _]. apply Exists_exists in G as (j & Hj & Ej). apply elem_of_seq in Hj. exists j. split; [lia|]. rewrite NX. simpl in Ej. change (en t) with (en s). by destruct (alloc_ok (en s) (nx s + 2 + j)). }
    destruct (B1 HR) as (s4 & E4 & Lg & _). rewrite (mbind_lift _ _ _ _ _ E4). change (negb (L1C_OUT_OF_MEMORY =? 0)) with true. cbv iota.
    rewrite (mbind_lift _ _ s4 None s4) by done.
    destruct L0 as [cf Hcf]. destruct L1 as [cu Hcu].
    destruct (two_freed s s4 cf cu Hu) as (s' & Ef & HS).
    + rewrite (lg_dm _ _ _ _ Lg); [done|apply not_elem_of_nil|apply not_elem_of_nil].
    + rewrite (lg_dm _ _ _ _ Lg); [done|apply not_elem_of_nil|apply not_elem_of_nil].
    + intros b H1 H2. rewrite (lg_dm _ _ _ _ Lg); [by apply D2|apply not_elem_of_nil|apply not_elem_of_nil].
    + intros b. rewrite (lg_pm _ _ _ _ Lg); [done|apply not_elem_of_nil].
    + intros b. rewrite (lg_om _ _ _ _ Lg); [done|apply not_elem_of_nil].
    + rewrite (lg_im _ _ _ _ Lg). done.
    + rewrite (mbind_lift _ _ _ _ _ Ef). eexists _, s'. split; [reflexivity|]. split; [done|]. split; [done|].
      intros H. exfalso. destruct HR as (j & Hj & Ej). rewrite NX in Ej. change (alloc_ok (en s) (nx s + 2 + j) = false) in Ej. by rewrite H in Ej.
Qed.
(** without iterations the result is the image with the same memory but the other shape *)
Theorem breg_mex_no_iterations s prhs p r c xs mu tol mi nlhs : breg_args s prhs p r c xs mu tol mi -> 1 <= nlhs -> mi <= 0 ->
  (forall i, alloc_ok (en s) i = true) -> exists s', breg_mex nlhs 4 prhs s = Ok (Val (Some (OutDouble (Z.of_nat c) (Z.of_nat r) xs))) s' /\ same_heap s s'.
Proof.
  intros A Hl Hmi HG. destruct (breg_mex_outcome _ _ _ _ _ _ _ _ _ _ A Hl (HG _) (HG _)) as (out & s' & E & HS & _ & H).
  destruct (H ltac:(intros; apply HG)) as (K & [HK _] & ->). exists s'. split; [|done]. rewrite E. replace K with 0%nat by lia. done.
Qed.
End C74.

(** Which pixels the solver takes for vertical neighbours: those whose places in memory differ by c.  In MATLAB's
    r x c matrix, place k is row k mod r, column k / r; for r <> c those two are never neighbours. *)
Definition adjacent (r : Z) (k l : Z) : Prop := Z.abs (k mod r - l mod r) + Z.abs (k / r - l / r) = 1.
Theorem breg_mex_neighbours_wrong (r c i j : Z) : 3 <= r -> 3 <= c -> r <> c -> 0 <= i -> 0 <= j < c -> ~ adjacent r (i * c + j) ((i + 1) * c + j).
Proof.
  intros Hr Hc Hne Hi Hj HA. unfold adjacent in HA. set (k := i * c + j) in *. set (l := (i + 1) * c + j) in *.
  assert (l = k + c) by (unfold k, l; lia).
  pose proof (Z.div_mod k r ltac:(lia)) as Ek. pose proof (Z.div_mod l r ltac:(lia)) as El.
  assert (H1 : r * (l / r - k / r) + (l mod r - k mod r) = c) by lia.
  assert (Hc2 : (l mod r - k mod r = 0 /\ (l / r - k / r = 1 \/ l / r - k / r = -1)) \/ (l / r - k / r = 0 /\ (l mod r - k mod r = 1 \/ l mod r - k mod r = -1))) by lia.
  destruct Hc2 as [[H2 [H3|H3]]|[H2 [H3|H3]]]; rewrite H2, H3 in H1; lia.
Qed.
(** for a square matrix they are, in the same row of MATLAB's matrix *)
Theorem breg_mex_neighbours_square (r i j : Z) : 1 <= r -> 0 <= i -> 0 <= j < r -> adjacent r (i * r + j) ((i + 1) * r + j).
Proof.
  intros Hr Hi Hj. unfold adjacent. rewrite (Z.add_comm (i * r)), (Z.add_comm ((i + 1) * r)), !Z.mod_add, !Z.div_add by lia. rewrite Z.div_small by lia. lia.
Qed.

(** ** Concrete cases: a 3 x 4 image *)
Module BregMexEx.
Import MexEx.
Section ex.
Context `{N : Num}.
Definition inp (e : env) (xs : list T) (mu tol mi : T) : st := mem e [xs; [mu]; [tol]; [mi]].
Definition img (r c : nat) : mxArray := MxA MxDouble (Z.of_nat r) (Z.of_nat c) 2 (Ptr 0 0) [].
Lemma inp_args e r c xs mu tol mi z : (3 <= r)%nat -> (3 <= c)%nat -> Z.of_nat (r * c) <= INT_MAX -> INT_MIN <= z < INT_MAX -> length xs = (r * c)%nat -> toint mi = Some z ->
  breg_args (inp e xs mu tol mi) [img r c; sc 1; sc 2; sc 3] (Ptr 0 0) r c xs mu tol z.
Proof.
  intros Hr Hc Hf Hz Lx Tz. split; try done; [apply mem_unborn|]. exists (img r c), (sc 1), (sc 2), (sc 3), mi. split; [done|].
  split; [|split; [by apply mem_scalar|split; [by apply mem_scalar|split; [by apply mem_scalar|done]]]].
  repeat (split; [done|]). split; [by apply mem_seg|done].
Qed.
End ex.
(** The documented statement "Uopt is m by n, like Img" is false. *)
Theorem breg_mex_shape_refuted : exists (s : @st ER) prhs xs out s', @breg_args ER s prhs (Ptr 0 0) 3 4 xs (@one ER) (@one ER) 0 /\
  @breg_mex ER 1 4 prhs s = Ok (Val (Some out)) s' /\ out = @OutDouble ER 4 3 xs.
Proof.
  set (xs := @tab ER 12 (fun i => @ofZ ER (Z.of_nat i))).
  assert (A : @breg_args ER (@inp ER (@env0 ER) xs (@one ER) (@one ER) (@zero ER)) [img 3 4; sc 1; sc 2; sc 3] (Ptr 0 0) 3 4 xs (@one ER) (@one ER) 0).
  { apply (@inp_args ER); try lia; try done. rewrite (ofZ_ER 0 : @zero ER = _). by apply (toint_ER 0). }
  destruct (@breg_mex_no_iterations ER _ _ _ _ _ _ _ _ _ 1 A) as (s' & E & _); [done|done|done|].
  eexists _, _, xs, _, s'. split; [exact A|]. split; [exact E|done].
Qed.
(** the second array is refused: an error, and the first one stays allocated *)
Theorem breg_mex_leak_refuted : exists (s : @st ER) prhs xs s', @breg_args ER s prhs (Ptr 0 0) 3 4 xs (@one ER) (@one ER) 0 /\
  @breg_mex ER 1 4 prhs s = Ok (Err "l1c:l1qc_dct:outofmemory") s' /\ dm s !! 4%nat = None /\ is_Some (dm s' !! 4%nat).
Proof.
  set (xs := @tab ER 12 (fun i => @ofZ ER (Z.of_nat i))). set (e := @mkEnv ER (fun i => (i <=? 4)%nat) (fun _ => true) (fun _ _ _ => @zero ER)).
  assert (A : @breg_args ER (@inp ER e xs (@one ER) (@one ER) (@zero ER)) [img 3 4; sc 1; sc 2; sc 3] (Ptr 0 0) 3 4 xs (@one ER) (@one ER) 0).
  { apply (@inp_args ER); try lia; try done. rewrite (ofZ_ER 0 : @zero ER = _). by apply (toint_ER 0). }
  destruct (@breg_mex_out_of_memory ER _ _ _ _ _ _ _ _ _ 1 A) as (s' & E & _ & _ & _ & _ & H); [done|by right|].
  eexists _, _, xs, s'. split; [exact A|]. split; [exact E|]. destruct (H 0%nat ltac:(lia)) as [H1 H2]. split; [exact H1|]. by apply H2.
Qed.
(** the solver is refused an array: no error, no output *)
Theorem breg_mex_silent_refuted : exists (s : @st ER) prhs xs s', @breg_args ER s prhs (Ptr 0 0) 3 4 xs (@one ER) (@one ER) 0 /\
  @breg_mex ER 1 4 prhs s = Ok (Val None) s'.
Proof.
  set (xs := @tab ER 12 (fun i => @ofZ ER (Z.of_nat i))). set (e := @mkEnv ER (fun i => (i <=? 5)%nat) (fun _ => true) (fun _ _ _ => @zero ER)).
  assert (A : @breg_args ER (@inp ER e xs (@one ER) (@one ER) (@zero ER)) [img 3 4; sc 1; sc 2; sc 3] (Ptr 0 0) 3 4 xs (@one ER) (@one ER) 0).
  { apply (@inp_args ER); try lia; try done. rewrite (ofZ_ER 0 : @zero ER = _). by apply (toint_ER 0). }
  destruct (@breg_mex_outcome ER _ _ _ _ _ _ _ _ _ 1 A) as (out & s' & E & _ & H & _); [done|done|done|].
  eexists _, _, xs, s'. split; [exact A|]. rewrite E. rewrite H; [done|]. exists 0%nat. split; [lia|done].
Qed.
End BregMexEx.

Print Assumptions breg_mex_outcome.
Print Assumptions breg_mex_out_of_memory.
Print Assumptions breg_mex_neighbours_wrong.
Print Assumptions BregMexEx.breg_mex_shape_refuted.
