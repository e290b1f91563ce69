(** * Set-up and destruction of the DCT-TV transform, for every argument and allocation schedule. *)
From Coq Require Import ZArith Lia.
From stdpp Require Import base numbers gmap list.
From Verif Require Import S_TVtApi Globals Mem M_Math M_Memory M_Status M_FFTW M_TV M_Dct1 M_Dct2 M_Dct M_TVt P_Mem P_Loop P_Math P_Touch P_Step P_TV P_Memory P_Own P_Own2 P_Own3 P_Newton P_FFTW P_Dct1 P_Dct1s P_Dct2 P_Dct2s S_Xform P_Xform S_DctApi P_Dct P_DctA P_TVt.
Local Open Scope Z_scope.

Section base.
Context `{N : Num}.
Context (fft1 : fkind -> list T -> list T) (fft2 : fkind -> nat -> nat -> list T -> list T).
Hypothesis fft1_len : forall k xs, length (fft1 k xs) = length xs.
Hypothesis fft2_len : forall k nr nc xs, length xs = (nr * nc)%nat -> length (fft2 k nr nc xs) = (nr * nc)%nat.
Implicit Types (s t : st).
(** changing the static variables of dct_tv_transforms.c *)
Definition glt (f : tv_statics -> tv_statics) s : st :=
  set_gl (fun g => mkGlob _ (g_d1 g) (g_d2 g) (f (g_tv g)) (g_mt g) (g_printf g)) s.
Lemma sett_step {A} f (k : M A) s : (sett f ;! k) s = k (glt f s). Proof. done. Qed.
Lemma J1_glt c f s : J1 c s -> J1 c (glt f s). Proof. intros []. split; try assumption. eapply segi_im; [|eassumption]. done. Qed.
Lemma J2_glt c f s : J2 c s -> J2 c (glt f s). Proof. intros []. split; try assumption. eapply segi_im; [|eassumption]. done. Qed.

Lemma dscal_uninit m a D s : (1 <= m)%nat -> cell s D 0 = Some None -> cblas_dscal (Z.of_nat m) a D 1 s = Ub UbUninit.
Proof.
  intros Hm Hc. unfold cblas_dscal, for_. destruct (Z.to_nat (Z.of_nat m - 0)) as [|k] eqn:Ek; [lia|]. cbn [forn].
  unfold bind at 1. unfold bind at 1. unfold ld. replace (0 * 1) with 0 by lia. by rewrite Hc.
Qed.
Lemma dcopy_uninit m X D s : (1 <= m)%nat -> cell s X 0 = Some None -> cblas_dcopy (Z.of_nat m) X D s = Ub UbUninit.
Proof.
  intros Hm Hc. unfold cblas_dcopy, for_. destruct (Z.to_nat (Z.of_nat m - 0)) as [|k] eqn:Ek; [lia|]. cbn [forn].
  unfold bind at 1. unfold bind at 1. unfold ld. by rewrite Hc.
Qed.
Lemma ld_uninit X s : cell s X 0 = Some None -> ld X 0 s = Ub UbUninit. Proof. unfold ld. by intros ->. Qed.

Definition cancels : Prop := forall v : T, div (mul v (sqrt_ two)) (sqrt_ two) = v.
(** everything the DCT-TV functions need of the DCT transform below them *)
Record base_ok sb nr nc (one : bool) mb ms axb (J : st -> Prop) s1 : Prop := {
  b_M : one = false \/ cancels -> oper (blocks sb mb) J (call_base fft1 fft2 (ax_Mx axb)) (nr * nc) (nr * nc) (fM fft1 fft2 sb nr nc one);
  b_Mt : oper (blocks sb mb) J (call_base fft1 fft2 (ax_Mty axb)) (nr * nc) (nr * nc) (fMt fft1 fft2 nr nc one);
  b_R : oper (blocks sb mb) J (call_base fft1 fft2 (ax_Rx axb)) (nr * nc) (length ms) (fun xs => tab (length ms) (fun i => at_ xs (nth i ms 0%nat)));
  b_Rt : computes (blocks sb mb) J (mkXop (call_base fft1 fft2 (ax_Rty axb)) (length ms) (nr * nc) true) (fun ds ys => scatter ms (at_ ys) (scal_of (nr * nc) zero ds));
  b_same : forall s s', J s -> same_on (blocks sb mb) s s' -> J s';
  b_glt : forall f s, J s -> J (glt f s);
  b_J : J s1;
  b_un : forall s X D, J s -> cell s D 0 = Some None -> call_base fft1 fft2 (ax_Rty axb) X D s = Ub UbUninit;
  b_destroy : forall s, J s -> exists s', call_destroy_base (ax_destroy axb) s = Ok tt s' /\ gone s s' [nx sb; nx sb + 1; nx sb + 2]%nat [nx sb + 4; nx sb + 3]%nat;
  b_destroy2 : forall s s', J s -> gl s' = gl s -> dm s' !! nx sb = None -> call_destroy_base (ax_destroy axb) s' = Ub UbFree;
  b_Mun : forall s X D, J s -> cell s X 0 = Some None -> call_base fft1 fft2 (ax_Mx axb) X D s = Ub UbUninit }.
Lemma started_base sb nr nc mode mb mo ms axb s1 : started sb (Z.of_nat nr) (Z.of_nat nc) mode mb mo ms axb s1 ->
  exists J, base_ok sb nr nc (one_d (Z.of_nat nr) (Z.of_nat nc) mode) mb ms axb J s1.
Proof.
  intros H. destruct (started_inv _ _ _ _ _ _ _ _ _ H) as [_ Hr0 Hc0 _ _ Hmade _ _]. clear H.
  assert (Hm : (1 <= nr * nc)%nat) by nia.
  destruct Hmade as [m s1 Eo Em HC HJ|nr' nc' s1 Eo Er Ec HC HJ]; rewrite Eo.
  - assert (m = nr * nc)%nat as -> by lia. clear Em.
    set (c := cfg_of sb mb mo (nr * nc) ms) in *. exists (J1 c). split.
    + intros [?|Hs]; [done|]. exact (Mx_oper fft1 fft2 fft1_len c HC Hs).
    + exact (Mty_oper fft1 fft2 fft1_len c HC).
    + exact (Ex_oper c HC).
    + exact (Ety_computes fft1 fft2 c HC).
    + intros s s'. exact (J1_same c s s').
    + intros f s. apply J1_glt.
    + done.
    + intros s X D HJs Hc. change (dct_Ety X D s = Ub UbUninit). unfold dct_Ety. rewrite (bind_ok _ _ _ _ _ (get1_run s c HJs)).
      unfold bind. cbn [st1 d1_m]. by rewrite dscal_uninit.
    + intros s HJs. destruct (destroy1_J c s HC HJs) as (s' & E & G); [cbn; lia|]. exists s'. split; [exact E|exact G].
    + intros s s' HJs Hg Hd. change (dct_destroy s' = Ub UbFree). unfold dct_destroy.
      rewrite (bind_ok _ _ _ (st1 c) s') by (unfold get1, getg, bind, ret; by rewrite Hg, (j_gl _ _ HJs)). by apply free_dead.
    + intros s X D HJs Hc. change (dct_Mx fft1 fft2 X D s = Ub UbUninit). unfold dct_Mx. rewrite (bind_ok _ _ _ _ _ (get1_run s c HJs)).
      unfold bind at 1. by rewrite ld_uninit.
  - apply Nat2Z.inj in Er, Ec. subst nr' nc'.
    set (c := cfg2_of sb mb mo nr nc ms) in *. exists (J2 c). split.
    + intros _. exact (Mx2_oper fft1 fft2 fft2_len c HC).
    + exact (Mty2_oper fft1 fft2 fft2_len c HC).
    + exact (Ex2_oper c HC).
    + exact (Ety2_computes fft1 fft2 c HC).
    + intros s s'. exact (J2_same c s s').
    + intros f s. apply J2_glt.
    + done.
    + intros s X D HJs Hc. change (dct2_Ety X D s = Ub UbUninit). unfold dct2_Ety. rewrite (bind_ok _ _ _ _ _ (get2_run s c HJs)).
      unfold bind. cbn [st2 d2_mrow d2_mcol]. change (c2_nr c) with nr. change (c2_nc c) with nc. rewrite (mm_cr c HC s : i32 (Z.of_nat nc * Z.of_nat nr) s = _). by rewrite dscal_uninit.
    + intros s HJs. destruct (destroy2_J c s HC HJs) as (s' & E & G); [cbn; lia|]. exists s'. split; [exact E|exact G].
    + intros s s' HJs Hg Hd. change (dct2_destroy s' = Ub UbFree). unfold dct2_destroy.
      rewrite (bind_ok _ _ _ (st2 c) s') by (unfold get2, getg, bind, ret; by rewrite Hg, (k_gl _ _ HJs)). by apply free_dead.
    + intros s X D HJs Hc. change (dct2_Mx fft1 fft2 X D s = Ub UbUninit). unfold dct2_Mx. rewrite (bind_ok _ _ _ _ _ (get2_run s c HJs)).
      unfold dct2_before, bind. cbn [st2 d2_mrow d2_mcol d2_x]. change (c2_nr c) with nr. change (c2_nc c) with nc. rewrite (mm_rc c HC s : i32 (Z.of_nat nr * Z.of_nat nc) s = _). by rewrite dcopy_uninit.
Qed.
End base.

Section setup.
Context `{N : Num}.
Implicit Types (s : st) (ax : AxFuns).
(** what a call has written before it looks at its arguments *)
Definition early (mrow mcol : Z) (av ah : T) (t : tv_statics) : tv_statics :=
  mkTV _ (mrow * mcol) mrow mcol (mrow * mcol) ah av (tv_ax t) (tv_u t) 0 0 false false.
(** the arguments it accepts, given the indices zs *)
Definition tv_valid (n mrow mcol : Z) (av ah : T) (zs : list Z) : bool :=
  (0 <? n) && (0 <? mrow) && (0 <? mcol) && negb (ltb_ av zero) && negb (ltb_ ah zero) &&
  negb ((ltb_ zero ah || ltb_ zero av) && ((mrow <=? 2) || (mcol <=? 2))) && forallb (in_range (mrow * mcol - 1)) zs.
Definition pz (m : Z) (av ah : T) : Z := m + (if ltb_ zero av then m else 0) + (if ltb_ zero ah then m else 0).
Definition iv (m : Z) (av : T) : Z := if ltb_ zero av then m else 0.
Definition ih (m : Z) (av ah : T) : Z := if ltb_ zero ah then iv m av + m else 0.
Definition normw (bp : Z) (av ah : T) : T :=
  if bp =? analysis then sqrt_ (add (add one (mul (mul (ofZ 4) av) av)) (mul (mul (ofZ 4) ah) ah)) else one.
(** the struct after the sizes have been filled in, and at the end *)
Definition ax_mid (n m p bp : Z) (av ah : T) ax : AxFuns :=
  mkAx _ n m (if bp =? synthesis then p else m) (if bp =? synthesis then m else p) (normw bp av ah)
    (ax_Ax ax) (ax_Aty ax) (ax_AtAx ax) (ax_Mx ax) (ax_Mty ax) (ax_Wz ax) (ax_Wtx ax) (ax_Rx ax) (ax_Rty ax) (ax_destroy ax).
Definition ax_fin (n m p bp : Z) (av ah : T) ax : AxFuns :=
  if bp =? synthesis then
    mkAx _ n m p m (normw bp av ah) (Fn F_tv_Av) (Fn F_tv_Aty) (ax_AtAx ax) (Fn F_tv_Wv) (Fn F_tv_Wtx) (Fn F_tv_Identity) (Fn F_tv_Identity) (Fn F_tv_Rx) (Fn F_tv_Rty) (Fn F_tv_destroy)
  else
    mkAx _ n m m p (normw bp av ah) (Fn F_tv_Rx) (Fn F_tv_Rty) (ax_AtAx ax) (Fn F_tv_Identity) (Fn F_tv_Identity) (Fn F_tv_Wv) (Fn F_tv_Wtx) (Fn F_tv_Rx) (Fn F_tv_Rty) (Fn F_tv_destroy).
Definition st_mid (mrow mcol : Z) (av ah : T) (a : AxFuns) (u : ptr) : tv_statics :=
  let m := mrow * mcol in mkTV _ m mrow mcol (pz m av ah) ah av a u (ih m av ah) (iv m av) (ltb_ zero av) (ltb_ zero ah).
(** the rest of an accepted call, from the allocation on *)
Definition tv_rest (n mrow mcol : Z) (av ah : T) (mode bp : Z) (p : ptr) ax : M (Z * AxFuns) :=
  let m := mrow * mcol in let ps := pz m av ah in
  let* u := l1c_malloc_double ps in
  sett (fun t => mkTV _ (tv_m t) (tv_mrow t) (tv_mcol t) (tv_p t) (tv_alp_h t) (tv_alp_v t) (tv_ax t) u (tv_inc_TVH t) (tv_inc_TVV t) (tv_job_V t) (tv_job_H t)) ;!
  if is_null u then ret (L1C_OUT_OF_MEMORY, ax_mid n m ps bp av ah ax) else
  let* t := gett in
  let* r := l1c_setup_dct_transforms n mrow mcol mode p (tv_ax t) in
  sett (fun t => mkTV _ (tv_m t) (tv_mrow t) (tv_mcol t) (tv_p t) (tv_alp_h t) (tv_alp_v t) (snd r) (tv_u t) (tv_inc_TVH t) (tv_inc_TVV t) (tv_job_V t) (tv_job_H t)) ;!
  if negb (fst r =? 0) then l1c_free_double u ;! ret (fst r, ax_mid n m ps bp av ah ax) else
  ret (fst r, ax_fin n m ps bp av ah ax).

Lemma setupT_overflow s n mrow mcol av ah mode bp p ax : in_int (mrow * mcol) = false ->
  l1c_setup_dctTV_transforms n mrow mcol av ah mode bp p ax s = Ub UbOverflow.
Proof. intros H. unfold l1c_setup_dctTV_transforms, bind, i32. by rewrite H. Qed.
Lemma setupT_run s n mrow mcol av ah mode bp p ax zs : in_int (mrow * mcol) = true -> (0 < n -> ints s p zs /\ n = Z.of_nat (length zs)) ->
  l1c_setup_dctTV_transforms n mrow mcol av ah mode bp p ax s =
  if tv_valid n mrow mcol av ah zs then
    if in_int (pz (mrow * mcol) av ah) then tv_rest n mrow mcol av ah mode bp p ax (glt (fun t => st_mid mrow mcol av ah (tv_ax t) (tv_u t)) s) else Ub UbOverflow
  else Ok (L1C_INVALID_ARGUMENT, ax) (glt (early mrow mcol av ah) s).
Proof.
  intros Hi Hz. unfold l1c_setup_dctTV_transforms. rewrite (bind_ok _ _ _ (mrow * mcol) s) by (unfold i32; by rewrite Hi).
  rewrite sett_step. unfold tv_valid.
  destruct (Z.leb_spec n 0) as [Hn|Hn]; [destruct (Z.ltb_spec 0 n); [lia|]; done|]. destruct (Z.ltb_spec 0 n) as [_|]; [|lia].
  destruct (Z.leb_spec mrow 0) as [Hr|Hr]; [destruct (Z.ltb_spec 0 mrow); [lia|]; done|]. destruct (Z.ltb_spec 0 mrow) as [_|]; [|lia].
  destruct (Z.leb_spec mcol 0) as [Hc|Hc]; [destruct (Z.ltb_spec 0 mcol); [lia|]; done|]. destruct (Z.ltb_spec 0 mcol) as [_|]; [|lia].
  cbn [orb andb].
  destruct (ltb_ av zero); [done|]. destruct (ltb_ ah zero); [done|]. cbn [orb andb negb].
  destruct ((ltb_ zero ah || ltb_ zero av) && ((mrow <=? 2) || (mcol <=? 2))); [done|]. cbn [negb andb].
  destruct (Hz Hn) as [Hx ->].
  set (s' := glt (fun t => mkTV _ (mrow * mcol) mrow mcol (mrow * mcol) ah av (tv_ax t) (tv_u t) 0 0 false false) s).
  assert (Hx' : ints s' p zs). { intros i z Hiz. specialize (Hx i z Hiz). unfold ldi in *. cbn [s' glt set_gl im]. destruct p as [|b o]; [done|].
    destruct (0 <=? o + Z.of_nat i); [|done]. destruct (im s !! b) as [c|]; [|done]. destruct (c !! _); [|done]. by inversion Hx. }
  rewrite (bind_ok _ _ _ _ _ (check_run s' p zs (mrow * mcol - 1) Hx')).
  destruct (forallb _ zs); [|done]. cbn [negb Z.eqb L1C_SUCCESS].
  assert (HM : 0 < mrow * mcol <= INT_MAX) by (unfold in_int in Hi; apply andb_true_iff in Hi as [_ Hi]; apply Z.leb_le in Hi; nia).
  unfold tv_rest, st_mid, ax_mid, ax_fin. cbv zeta. unfold normw, ih, iv, pz. cbn [ax_n ax_q ax_m ax_p ax_norm_W ax_AtAx ax_Ax ax_Aty ax_Mx ax_Mty ax_Wz ax_Wtx ax_Rx ax_Rty ax_destroy].
  set (m := mrow * mcol) in *.
  assert (Hmn : INT_MIN < 0) by (unfold INT_MIN; lia).
  assert (I1 : forall z, INT_MAX < z -> in_int z = false) by (intros z Hz'; unfold in_int; apply andb_false_iff; right; apply Z.leb_gt; lia).
  assert (I2 : forall z, 0 <= z <= INT_MAX -> in_int z = true) by (intros z Hz'; unfold in_int; apply andb_true_iff; split; apply Z.leb_le; lia).
  destruct (ltb_ zero av), (ltb_ zero ah).
  - destruct (Z.leb_spec (m + m) INT_MAX) as [H1|H1].
    + rewrite (bind_ok _ _ _ _ _ (i32_ok (m + m) s' ltac:(lia))). rewrite (bind_ok _ _ _ _ _ (i32_ok (m + m) s' ltac:(lia))).
      destruct (Z.leb_spec (m + m + m) INT_MAX) as [H2|H2].
      * rewrite (bind_ok _ _ _ _ _ (i32_ok (m + m + m) s' ltac:(lia))). rewrite (I2 (m + m + m)) by lia.
        rewrite sett_step. destruct (bp =? synthesis); reflexivity.
      * rewrite I1 by lia. unfold bind. by rewrite i32_ub.
    + rewrite I1 by lia. unfold bind. by rewrite i32_ub.
  - rewrite Z.add_0_r. destruct (Z.leb_spec (m + m) INT_MAX) as [H1|H1].
    + rewrite (bind_ok _ _ _ _ _ (i32_ok (m + m) s' ltac:(lia))). rewrite (bind_ok _ _ _ _ _ (i32_ok 0 s' ltac:(lia))).
      rewrite (bind_ok _ _ _ _ _ (i32_ok (m + m) s' ltac:(lia))). rewrite (I2 (m + m)) by lia.
      rewrite sett_step. destruct (bp =? synthesis); reflexivity.
    + rewrite I1 by lia. unfold bind. by rewrite i32_ub.
  - rewrite Z.add_0_r. rewrite (bind_ok _ _ _ _ _ (i32_ok m s' ltac:(lia))). rewrite (bind_ok _ _ _ _ _ (i32_ok (0 + m) s' ltac:(lia))).
    destruct (Z.leb_spec (m + m) INT_MAX) as [H1|H1].
    + rewrite (bind_ok _ _ _ _ _ (i32_ok (m + m) s' ltac:(lia))). rewrite (I2 (m + m)) by lia.
      rewrite sett_step. destruct (bp =? synthesis); reflexivity.
    + rewrite I1 by lia. unfold bind. by rewrite i32_ub.
  - rewrite !Z.add_0_r. rewrite (bind_ok _ _ _ _ _ (i32_ok m s' ltac:(lia))). rewrite (bind_ok _ _ _ _ _ (i32_ok 0 s' ltac:(lia))).
    rewrite (bind_ok _ _ _ _ _ (i32_ok m s' ltac:(lia))). rewrite (I2 m) by lia.
    rewrite sett_step. destruct (bp =? synthesis); reflexivity.
Qed.
(** the end of an accepted call, after the work array u has been obtained *)
Definition tv_end (n mrow mcol : Z) (av ah : T) (mode bp : Z) (p : ptr) ax (a0 : AxFuns) (u : ptr) : M (Z * AxFuns) :=
  let m := mrow * mcol in let ps := pz m av ah in
  let* r := l1c_setup_dct_transforms n mrow mcol mode p a0 in
  sett (fun t => mkTV _ (tv_m t) (tv_mrow t) (tv_mcol t) (tv_p t) (tv_alp_h t) (tv_alp_v t) (snd r) (tv_u t) (tv_inc_TVH t) (tv_inc_TVV t) (tv_job_V t) (tv_job_H t)) ;!
  if negb (fst r =? 0) then l1c_free_double u ;! ret (fst r, ax_mid n m ps bp av ah ax) else
  ret (fst r, ax_fin n m ps bp av ah ax).
Lemma rest_cases s n mrow mcol av ah mode bp p ax : unborn s -> 0 <= pz (mrow * mcol) av ah ->
  let s0 := glt (fun t => st_mid mrow mcol av ah (tv_ax t) (tv_u t)) s in
  (alloc_ok (en s) (nx s) = false /\ exists s', tv_rest n mrow mcol av ah mode bp p ax s0 = Ok (L1C_OUT_OF_MEMORY, ax_mid n (mrow * mcol) (pz (mrow * mcol) av ah) bp av ah ax) s' /\
     ledger [] [] s s' /\ g_tv (gl s') = st_mid mrow mcol av ah (tv_ax (g_tv (gl s))) Null) \/
  (alloc_ok (en s) (nx s) = true /\ exists sb, nx sb = S (nx s) /\ unborn sb /\ ledger [] [(KD, nx s)] s sb /\
     dm sb !! nx s = Some (replicate (Z.to_nat (pz (mrow * mcol) av ah)) None) /\ al sb (nx s) = true /\
     g_d1 (gl sb) = g_d1 (gl s) /\ g_d2 (gl sb) = g_d2 (gl s) /\
     g_tv (gl sb) = st_mid mrow mcol av ah (tv_ax (g_tv (gl s))) (Ptr (nx s) 0) /\
     tv_rest n mrow mcol av ah mode bp p ax s0 = tv_end n mrow mcol av ah mode bp p ax (tv_ax (g_tv (gl s))) (Ptr (nx s) 0) sb).
Proof.
  intros Hu Hp s0. assert (Hu0 : unborn s0) by exact Hu. unfold tv_rest. cbv zeta.
  destruct (malloc_acct [] [] s0 s0 (pz (mrow * mcol) av ah) Hu0 (acct_nil s0)) as (q & s1 & E & [L HE _ _] & Hg & _ & _ & Hnx).
  pose proof (Forall_inv HE) as He. unfold ent_ok in He. cbn [e_p e_n e_b e_c] in He.
  rewrite (bind_ok _ _ _ _ _ E), sett_step. destruct He as [(-> & _ & Ha & Hd & Hal)|(-> & Hno)].
  - right. split; [exact Ha|]. cbn [is_null]. exists (glt (fun t => mkTV _ (tv_m t) (tv_mrow t) (tv_mcol t) (tv_p t) (tv_alp_h t) (tv_alp_v t) (tv_ax t) (Ptr (nx s) 0) (tv_inc_TVH t) (tv_inc_TVV t) (tv_job_V t) (tv_job_H t)) s1). cbn [glt set_gl nx dm al gl g_d1 g_d2 g_tv]. rewrite Hg.
    split; [exact Hnx|]. split; [exact (ledger_unborn _ _ _ _ Hu0 L)|]. split; [apply ledger_gl; destruct L; by split|]. 
    split; [exact Hd|]. split; [exact Hal|]. split; [done|]. split; [done|]. split; [reflexivity|].
    unfold bind at 1. unfold gett, getg, bind at 1, ret. cbn [glt set_gl gl g_tv tv_ax]. rewrite Hg. reflexivity.
  - left. split; [destruct Hno; [lia|done]|]. cbn [is_null]. eexists. split; [reflexivity|]. split.
    + apply ledger_gl. destruct L; by split.
    + cbn [glt set_gl gl g_tv]. rewrite Hg. reflexivity.
Qed.

Record tv_facts s nr nc (av ah : T) mode bp mb mo ms ax s1 sb axb sb1 : Prop := {
  tf_av : ltb_ av zero = false; tf_ah : ltb_ ah zero = false;
  tf_big : big_enough nr nc av ah; tf_int : Z.of_nat (psize nr nc av ah) <= INT_MAX;
  tf_nx : nx sb = S (nx s);
  tf_base : started sb (Z.of_nat nr) (Z.of_nat nc) mode mb mo ms axb sb1;
  tf_s1 : s1 = glt (fun _ => stt axb nr nc av ah (nx s)) sb1;
  tf_ax : exists ax0, ax = ax_fin (Z.of_nat (length ms)) (Z.of_nat (nr * nc)) (Z.of_nat (psize nr nc av ah)) bp av ah ax0;
  tf_u : dm s1 !! nx s = Some (replicate (psize nr nc av ah) None); tf_al : al s1 (nx s) = true;
  tf_led : ledger [] (owned1 sb ++ [(KD, nx s)]) s s1; tf_en : en sb = en s; tf_g : alloc_ok (en s) (nx s) = true }.
Lemma psize_z nr nc (av ah : T) : pz (Z.of_nat nr * Z.of_nat nc) av ah = Z.of_nat (psize nr nc av ah).
Proof. unfold pz, psize. destruct (ltb_ zero av), (ltb_ zero ah); lia. Qed.
Lemma stmid_z nr nc (av ah : T) a b : st_mid (Z.of_nat nr) (Z.of_nat nc) av ah a (Ptr b 0) = stt a nr nc av ah b.
Proof.
  unfold st_mid, stt. rewrite psize_z. unfold ih, iv, inch, incv. cbv zeta. destruct (ltb_ zero av), (ltb_ zero ah); f_equal; lia.
Qed.
Lemma started_t_inv s mrow mcol av ah mode bp mb mo ms ax s1 : started_t s mrow mcol av ah mode bp mb mo ms ax s1 ->
  exists nr nc sb axb sb1, mrow = Z.of_nat nr /\ mcol = Z.of_nat nc /\ (1 <= nr)%nat /\ (1 <= nc)%nat /\ tv_facts s nr nc av ah mode bp mb mo ms ax s1 sb axb sb1.
Proof.
  intros [Hu Hmb Hx (ax0 & E)]. destruct (in_int (mrow * mcol)) eqn:Hi; [|by rewrite setupT_overflow in E].
  rewrite (setupT_run s _ mrow mcol av ah mode bp _ ax0 (Z.of_nat <$> ms) Hi) in E by (intros _; split; [by apply segi_ints|by rewrite fmap_length]).
  destruct (tv_valid _ mrow mcol av ah _) eqn:Hv; [|done]. destruct (in_int (pz _ _ _)) eqn:Hp; [|done].
  unfold tv_valid in Hv. apply andb_true_iff in Hv as [Hv _]. apply andb_true_iff in Hv as [Hv Hbig]. apply andb_true_iff in Hv as [Hv Hah].
  apply andb_true_iff in Hv as [Hv Hav]. apply andb_true_iff in Hv as [Hv Hc]. apply andb_true_iff in Hv as [Hn Hr].
  apply Z.ltb_lt in Hn, Hr, Hc. apply negb_true_iff in Hav, Hah, Hbig.
  destruct (Z_of_nat_complete mrow ltac:(lia)) as [nr ->]. destruct (Z_of_nat_complete mcol ltac:(lia)) as [nc ->].
  destruct (rest_cases s (Z.of_nat (length ms)) (Z.of_nat nr) (Z.of_nat nc) av ah mode bp (Ptr mb mo) ax0 Hu) as
    [(_ & s' & E' & _)|(Ha & sb & Hnx & Hub & L & Hd & Hal & Hg1 & Hg2 & Hgt & E')].
  { rewrite psize_z. lia. }
  { rewrite E in E'. by injection E'. }
  rewrite E' in E. clear E'. unfold tv_end in E. cbv zeta in E.
  apply bind_inv in E as ([r axb] & sb1 & E1 & E2). rewrite sett_step in E2. cbn [fst snd] in E2.
  destruct (r =? 0) eqn:Er; cbn [negb] in E2; [|apply bind_inv in E2 as ([] & ? & _ & E2); injection E2 as -> _ _; done].
  apply Z.eqb_eq in Er. subst r. injection E2 as Eax Es1.
  assert (H0 : started sb (Z.of_nat nr) (Z.of_nat nc) mode mb mo ms axb sb1).
  { split; [done| |by eexists]. eapply segi_im; [|exact Hx]. by rewrite (lg_im _ _ _ _ L). }
  pose proof (started_inv _ _ _ _ _ _ _ _ _ H0) as [_ _ _ _ _ Hm _ Lb].
  exists nr, nc, sb, axb, sb1. split; [done|]. split; [done|]. split; [lia|]. split; [lia|].
  assert (Htv : g_tv (gl sb1) = g_tv (gl sb)).
  { assert (HgT : forall ax9 st9 s9, l1c_setup_dct_transforms (Z.of_nat (length ms)) (Z.of_nat nr) (Z.of_nat nc) mode (Ptr mb mo) (tv_ax (g_tv (gl s))) sb = Ok (0, ax9) s9 -> st9 = s9 -> g_tv (gl st9) = g_tv (gl sb)).
    { intros ax9 st9 s9 E9 ->. revert E9. pose proof (segi_ints _ _ _ (su_idx _ _ _ _ _ _ _ _ _ H0)) as Hz.
      assert (Hint : Z.of_nat nr * Z.of_nat nc <= INT_MAX) by (unfold in_int in Hi; apply andb_true_iff in Hi as [_ Hi]; by apply Z.leb_le in Hi).
      rewrite (setup_valid sb _ (Z.of_nat nr) (Z.of_nat nc) mode _ _ _ Hn Hr Hc Hint Hz) by (by rewrite fmap_length).
      destruct (forallb _ _); [|done]. destruct (one_d _ _ mode).
      - destruct (setup1_run sb (Z.of_nat (length ms)) (Z.of_nat nr * Z.of_nat nc) (Ptr mb mo) (tv_ax (g_tv (gl s))) Hub ltac:(nia)) as
          [(_ & s' & E1' & _ & _ & (g & Hg & _))|[(_ & _ & s' & E1' & _)|(_ & s' & E1' & _)]]; rewrite E1'; intros E9.
        + injection E9 as _ ->. by rewrite Hg.
        + by injection E9.
        + apply bind_inv in E9 as (? & ? & ? & E9). apply bind_inv in E9 as (? & ? & ? & E9). by injection E9.
      - destruct (setup2_run sb (Z.of_nat (length ms)) nr nc (Ptr mb mo) (tv_ax (g_tv (gl s))) Hub ltac:(lia) ltac:(lia) ltac:(lia)) as
          [(_ & s' & E1' & _ & _ & (g & Hg & _))|[(_ & _ & s' & E1' & _)|(_ & s' & E1' & _)]]; rewrite E1'; intros E9; injection E9; try done.
        intros -> _. by rewrite Hg. }
    by eapply HgT. }
  assert (Ls : ledger [] (owned1 sb ++ [(KD, nx s)]) s s1).
  { rewrite <- Es1. apply ledger_gl. eapply ledger_trans; [exact L|exact Lb|]. intros b _. apply not_elem_of_nil. }
  assert (Hkeep : dm sb1 !! nx s = dm sb !! nx s).
  { apply (lg_dm _ _ _ _ Lb); [apply not_elem_of_nil|]. intros Hin. apply (lg_own _ _ _ _ Lb) in Hin. lia. }
  split; try done.
  - intros Hj. assert (Hj' : (ltb_ zero ah || ltb_ zero av) = true) by (destruct Hj as [->| ->]; [apply orb_true_r|done]). rewrite Hj' in Hbig. cbn [andb] in Hbig.
    apply orb_false_iff in Hbig as [H1 H2]. apply Z.leb_gt in H1, H2. lia.
  - rewrite psize_z in Hp. unfold in_int in Hp. apply andb_true_iff in Hp as [_ Hp]. by apply Z.leb_le in Hp.
  - rewrite <- Es1. unfold glt, set_gl. f_equal. f_equal. rewrite Htv, Hgt. rewrite <- (stmid_z nr nc av ah axb (nx s)). reflexivity.
  - exists ax0. rewrite <- psize_z, Nat2Z.inj_mul. done.
  - rewrite <- Es1. cbn [glt set_gl dm]. rewrite Hkeep, Hd. rewrite psize_z, Nat2Z.id. done.
  - rewrite <- Es1. cbn [glt set_gl al]. rewrite (lg_al _ _ _ _ Lb) by lia. done.
  - apply (lg_en _ _ _ _ L).
Qed.
Lemma started_t_exists s nr nc av ah mode bp mb mo ms ax0 : unborn s -> (mb < nx s)%nat -> segi s (Ptr mb mo) ms -> (1 <= nr)%nat -> (1 <= nc)%nat -> (1 <= length ms)%nat ->
  ltb_ av zero = false -> ltb_ ah zero = false -> big_enough nr nc av ah -> Z.of_nat (psize nr nc av ah) <= INT_MAX ->
  (forall k, k ∈ ms -> (k < nr * nc)%nat) -> grants s 6 ->
  exists ax s1, l1c_setup_dctTV_transforms (Z.of_nat (length ms)) (Z.of_nat nr) (Z.of_nat nc) av ah mode bp (Ptr mb mo) ax0 s = Ok (0, ax) s1 /\
    started_t s (Z.of_nat nr) (Z.of_nat nc) av ah mode bp mb mo ms ax s1.
Proof.
  intros Hu Hmb Hx Hr Hc Hl Hav Hah Hb Hp Hms HG.
  assert (E : exists ax s1, l1c_setup_dctTV_transforms (Z.of_nat (length ms)) (Z.of_nat nr) (Z.of_nat nc) av ah mode bp (Ptr mb mo) ax0 s = Ok (0, ax) s1).
  { assert (Hm : Z.of_nat (nr * nc) <= INT_MAX) by (unfold psize in Hp; lia).
    assert (Hm0 : 0 < Z.of_nat nr * Z.of_nat nc) by nia.
    rewrite (setupT_run s _ (Z.of_nat nr) (Z.of_nat nc) av ah mode bp _ ax0 (Z.of_nat <$> ms)).
    2: { unfold in_int. apply andb_true_iff. split; apply Z.leb_le; unfold INT_MIN; lia. }
    2: { intros _. split; [by apply segi_ints|by rewrite fmap_length]. }
    assert (Hv : tv_valid (Z.of_nat (length ms)) (Z.of_nat nr) (Z.of_nat nc) av ah (Z.of_nat <$> ms) = true).
    { unfold tv_valid. rewrite Hav, Hah. cbn [negb]. rewrite !andb_true_r. repeat (apply andb_true_iff; split); try (apply Z.ltb_lt; lia).
      - apply negb_true_iff. destruct (ltb_ zero ah || ltb_ zero av) eqn:Ej; [|done]. cbn [andb]. apply orb_true_iff in Ej.
        destruct Hb as [? ?]; [tauto|]. apply orb_false_iff. split; apply Z.leb_gt; lia.
      - apply forallb_forall. intros z Hin. apply elem_of_list_In, elem_of_list_fmap in Hin as (k & -> & Hk). specialize (Hms k Hk).
        unfold in_range. apply andb_true_iff. split; apply Z.leb_le; lia. }
    rewrite Hv, psize_z.
    replace (in_int (Z.of_nat (psize nr nc av ah))) with true by (symmetry; unfold in_int; apply andb_true_iff; split; apply Z.leb_le; unfold INT_MIN; lia).
    destruct (rest_cases s (Z.of_nat (length ms)) (Z.of_nat nr) (Z.of_nat nc) av ah mode bp (Ptr mb mo) ax0 Hu) as
      [(Ha & _)|(Ha & sb & Hnx & Hub & L & Hd & Hal & Hg1 & Hg2 & Hgt & E')].
    { rewrite psize_z. lia. }
    { specialize (HG 0%nat ltac:(lia)). rewrite Nat.add_0_r in HG. congruence. }
    rewrite E'. unfold tv_end. cbv zeta.
    destruct (started_exists sb nr nc mode mb mo ms (tv_ax (g_tv (gl s))) Hub) as (axb & sb1 & Eb & _); try done.
    { eapply segi_im; [|exact Hx]. by rewrite (lg_im _ _ _ _ L). }
    { intros i Hi. rewrite Hnx, (lg_en _ _ _ _ L). specialize (HG (S i) ltac:(lia)). by rewrite Nat.add_succ_r in HG. }
    rewrite (bind_ok _ _ _ _ _ Eb), sett_step. cbn [fst snd]. cbn [Z.eqb negb]. eauto. }
  destruct E as (ax & s1 & E). exists ax, s1. split; [done|]. split; eauto.
Qed.
End setup.

(** ** What a live transform is *)
Section live.
Context `{N : Num}.
Context (fft1 : fkind -> list T -> list T) (fft2 : fkind -> nat -> nat -> list T -> list T).
Hypothesis fft1_len : forall k xs, length (fft1 k xs) = length xs.
Hypothesis fft2_len : forall k nr nc xs, length xs = (nr * nc)%nat -> length (fft2 k nr nc xs) = (nr * nc)%nat.
Implicit Types (s : st) (ax : AxFuns).
Definition one1 nr nc mode : bool := one_d (Z.of_nat nr) (Z.of_nat nc) mode.
Record live s nr nc (av ah : T) mode bp mb ms ax s1 sb axb J : Prop := {
  lv_r : (1 <= nr)%nat; lv_c : (1 <= nc)%nat; lv_av : ltb_ av zero = false; lv_ah : ltb_ ah zero = false;
  lv_big : big_enough nr nc av ah; lv_int : Z.of_nat (psize nr nc av ah) <= INT_MAX;
  lv_ms : forall k, k ∈ ms -> (k < nr * nc)%nat;
  lv_nx : nx sb = S (nx s);
  lv_F : blocks_t s mb = Ft (blocks sb mb) (nx s); lv_u : nx s ∉ blocks sb mb;
  lv_base : base_ok fft1 fft2 sb nr nc (one1 nr nc mode) mb ms axb J s1;
  lv_J : Jx J axb nr nc av ah (nx s) Fresh s1;
  lv_ax : exists ax0, ax = ax_fin (Z.of_nat (length ms)) (Z.of_nat (nr * nc)) (Z.of_nat (psize nr nc av ah)) bp av ah ax0;
  lv_led : ledger [] (owned1 sb ++ [(KD, nx s)]) s s1 }.
Lemma started_live s mrow mcol av ah mode bp mb mo ms ax s1 : started_t s mrow mcol av ah mode bp mb mo ms ax s1 ->
  exists nr nc sb axb J, mrow = Z.of_nat nr /\ mcol = Z.of_nat nc /\ live s nr nc av ah mode bp mb ms ax s1 sb axb J.
Proof.
  intros H. pose proof (st_old _ _ _ _ _ _ _ _ _ _ _ _ H) as Hmb.
  destruct (started_t_inv _ _ _ _ _ _ _ _ _ _ _ _ H) as (nr & nc & sb & axb & sb1 & Er & Ec & Hr & Hc & [Hav Hah Hb Hi Hnx HB Es Hax Hu Hal HL _ _]).
  destruct (started_base fft1 fft2 fft1_len fft2_len _ _ _ _ _ _ _ _ _ HB) as (J & HJ).
  destruct (started_nat _ _ _ _ _ _ _ _ _ HB) as (nr' & nc' & E1 & E2 & _ & _ & _ & _ & Hms). apply Nat2Z.inj in E1, E2. subst nr' nc'.
  exists nr, nc, sb, axb, J. split; [done|]. split; [done|].
  assert (HJ1 : J s1) by (rewrite Es; apply (b_glt _ _ _ _ _ _ _ _ _ _ _ HJ), HJ).
  split; try done.
  - unfold blocks_t, Ft, blocks. rewrite Hnx. repeat (f_equal; try lia).
  - unfold blocks. rewrite Hnx. repeat (apply not_elem_of_cons; split; [lia|]). apply not_elem_of_nil.
  - destruct HJ. split; try done.
  - split; [split|].
    + done.
    + rewrite Es. done.
    + intros i Hi'. unfold cell. rewrite Hu. destruct (Z.leb_spec 0 (0 + Z.of_nat i)); [|lia].
      replace (Z.to_nat (0 + Z.of_nat i)) with i by lia. rewrite lookup_replicate_2 by done. eauto.
    + unfold is_aligned. by rewrite Hal.
    + unfold cell. rewrite Hu. cbn [Z.leb Z.add Z.compare Z.to_nat]. rewrite lookup_replicate_2; [done|]. unfold psize. nia.
Qed.
End live.
