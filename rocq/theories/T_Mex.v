(** * C59, C60, C62, C73: the MEX interface (interfaces/mex) and the log redirection it uses. *)
From Coq Require Import ZArith Lia Reals Lra.
From stdpp Require Import base numbers gmap list strings.
From Flocq Require Import Core.Core IEEE754.BinarySingleNaN IEEE754.Bits.
From Verif Require Import Globals Mem M_Math M_Memory M_Status M_CG M_LineSearch M_FFTW M_Dct1 M_Dct2 M_Dct M_TVt M_Newton M_L1qcDct M_Bregman M_Nesta T_Bregman
  M_Logging M_MexUtils M_Mex P_Mem P_Loop S_Mem P_Memory P_Own P_Newton P_Newt3 P_FFTW P_Dct1s S_DctApi P_DctA S_Dct L_ER P_NewtR L_Lin S_Vec P_DctR S_Xform S_L1qcDct P_L1qcDct T_L1qcDct P_Newt2 P_Newt5 P_Newt7 P_Newt8 T_Newton P_TVR L_Cos L_Sum P_DctE T_Dct T_DctLife E_Dct P_NewtX P_NewtX2 P_NewtX3 S_Newt
  NumB S_Mex P_Mex P_Mex2.
Local Open Scope Z_scope.

(** ** C59: check_input_size accepts every size *)
Section C59.
Context (flog fexp fceil : b64 -> b64).
(** the quotients in exact arithmetic *)
Lemma trunc_div8 n : Ztrunc (IZR n / 8) = Z.quot n 8.
Proof.
  destruct (Z.le_gt_cases 0 n) as [H|H].
  - rewrite Ztrunc_floor by (apply IZR_le in H; lra). rewrite Z.quot_div_nonneg by lia. apply (Zfloor_div n 8). lia.
  - rewrite Ztrunc_ceil by (apply IZR_lt in H; lra).
    replace (IZR n / 8)%R with (- (IZR (- n) / 8))%R by (rewrite opp_IZR; lra). unfold Zceil. rewrite Ropp_involutive.
    rewrite (Zfloor_div (-n) 8) by lia. replace n with (- - n) at 2 by lia. rewrite Z.quot_opp_l, Z.quot_div_nonneg by lia. done.
Qed.
Notation B := (BN_with flog fexp fceil).
(** In binary64, for every int: the check that is documented to detect sizes that are no multiple of
    DALIGN / sizeof(double) never reports anything. *)
Theorem check_input_size_accepts_all (n : Z) (s : @st B) : INT_MIN <= n <= INT_MAX -> @check_input_size B n s = Ok 0 s.
Proof.
  intros Hn. unfold check_input_size, cast_int.
  assert (Bz : forall z, Z.abs z <= 2 ^ 53 -> NumB.val (@ofZ B z) = IZR z /\ finite (@ofZ B z)) by (intros; by apply ofZ_exact).
  assert (HD : forall x y : b64, finite x -> NumB.val y <> 0%R -> format64 (NumB.val x / NumB.val y) -> (Rabs (NumB.val x / NumB.val y) < bpow radix2 1024)%R ->
     NumB.val (@div B x y) = (NumB.val x / NumB.val y)%R /\ finite (@div B x y)).
  { intros x y Fx Hy HF Hlt. pose proof (Bdiv_correct 53 1024 b64_prec b64_emax mode_NE x y Hy) as H.
    change (round radix2 (SpecFloat.fexp 53 1024) (round_mode mode_NE) (B2R x / B2R y)) with (rnd (NumB.val x / NumB.val y)) in H.
    rewrite (rnd_format _ HF) in H. rewrite Rlt_bool_true in H by exact Hlt. destruct H as (H1 & H2 & _). split; [exact H1|]. etransitivity; [exact H2|exact Fx]. }
  destruct (Bz 64 ltac:(lia)) as [E64 F64]. destruct (Bz 8 ltac:(lia)) as [E8 F8]. destruct (Bz n ltac:(unfold INT_MIN, INT_MAX in Hn; lia)) as [En Fn].
  destruct (HD (@ofZ B 64) (@ofZ B 8)) as [Ed Fd]; [done|rewrite E8; lra|..].
  { rewrite E64, E8. replace (64 / 8)%R with 8%R by lra. by apply format_Z. }
  { rewrite E64, E8. replace (64 / 8)%R with 8%R by lra. by apply (bpow1024_gt 8). }
  rewrite E64, E8 in Ed. replace (64 / 8)%R with 8%R in Ed by lra.
  destruct (HD (@ofZ B n) (@div B (@ofZ B 64) (@ofZ B 8))) as [Eq Fq]; [done|rewrite Ed; lra|..].
  { rewrite En, Ed. replace (IZR n / 8)%R with (F2R (Float radix2 n (-3))) by (unfold F2R; simpl; lra). apply format_F2R; unfold INT_MIN, INT_MAX in Hn; lia. }
  { rewrite En, Ed. unfold Rdiv. rewrite Rabs_mult. rewrite (Rabs_right (/ 8)) by lra.
    apply Rle_lt_trans with (Rabs (IZR n)); [pose proof (Rabs_pos (IZR n)); lra|]. apply bpow1024_gt. unfold INT_MIN, INT_MAX in Hn. lia. }
  rewrite En, Ed in Eq.
  assert (HT : @toint B (@div B (@ofZ B n) (@div B (@ofZ B 64) (@ofZ B 8))) = Some (Z.quot n 8)).
  { etransitivity; [exact (toint_trunc _ Fq)|]. rewrite Eq, trunc_div8. cbv zeta. unfold in_int.
    assert (INT_MIN <= Z.quot n 8 <= INT_MAX).
    { pose proof (Z.quot_rem' n 8). pose proof (Z.rem_bound_abs n 8 ltac:(lia)). unfold INT_MIN, INT_MAX in *. lia. }
    rewrite !(proj2 (Z.leb_le _ _)) by lia. done. }
  unfold bind. rewrite HT. unfold ret. change (Z.quot 64 8) with 8. by rewrite Z.eqb_refl.
Qed.
(** 511*511 is no multiple of 8, and accepted *)
Theorem check_input_size_refuted : exists n, INT_MIN <= n <= INT_MAX /\ n mod 8 <> 0 /\ forall s : @st B, @check_input_size B n s = Ok 0 s.
Proof. exists (511 * 511). split; [unfold INT_MIN, INT_MAX; lia|]. split; [done|]. intros s. apply check_input_size_accepts_all. unfold INT_MIN, INT_MAX. lia. Qed.
End C59.

(** ** C60: the conversion of MATLAB's indices *)
Section C60.
Context `{N : Num}.
Implicit Types (s : st).
(** Any numbers that convert to ints: the zero-based indices in order, or an error if one is out of range.
    The array written is the caller's own; nothing else changes. *)
Theorem indices_converted s pd vs zs b mtot : seg s pd vs -> Forall2 (fun v z => toint v = Some z /\ INT_MIN < z <= INT_MAX) vs zs ->
  im s !! b = Some (replicate (length vs) 0) ->
  exists st cs, convert_idx (Z.of_nat (length vs)) mtot pd (Ptr b 0) s = Ok st (set_im <[b := cs]> s) /\ length cs = length vs /\
    (Forall (fun z => 1 <= z <= mtot) zs -> st = 0 /\ cs = (fun z => z - 1) <$> zs) /\
    (Exists (fun z => ~ 1 <= z <= mtot) zs -> st = L1C_INVALID_ARGUMENT).
Proof.
  intros Sg HZ Hb. destruct (convert_run s pd vs zs b mtot Sg HZ Hb) as (st & cs & E & L & H). exists st, cs. split; [done|]. split; [done|].
  destruct H as [(HF & E1 & E2)|(HE & E1)]; split; intros H; [done|exfalso|exfalso|done].
  - by apply Exists_not_Forall in H.
  - by apply Exists_not_Forall in HE.
Qed.

Notation body pd b mtot := (fun i (_ : Z) => 
     let* v := ld pd i in
     let* c := cast_int v in
     let* idx := i32 (c - 1) in
     if (idx <? 0) || (mtot - 1 <? idx) then ret (Stop L1C_INVALID_ARGUMENT)
     else sti (Ptr b 0) i idx ;! ret (Go 0)).
Lemma prefix_runs pd b mtot vs e k0 : forall s k i (c : list Z), im s !! b = Some c -> length c = length vs -> seg s pd vs ->
  (forall j, (j < k0)%nat -> exists v z, vs !! (i + j)%nat = Some v /\ toint v = Some z /\ 1 <= z <= mtot /\ z <= INT_MAX) -> (k0 < k)%nat ->
  (forall s', seg s' pd vs -> body pd b mtot (Z.of_nat (i + k0)) 0 s' = Ub e) -> brkn k (Z.of_nat i) 0 (body pd b mtot) s = Ub e.
Proof.
  induction k0 as [|k0 IH]; intros s k i c Hc Lc Sg Hp Hk He; destruct k as [|k]; [lia| |lia|]; cbn [brkn].
  - rewrite Nat.add_0_r in He. unfold bind at 1. by rewrite He.
  - destruct (Hp 0%nat ltac:(lia)) as (v & z & Hv & Tz & Rz & Iz). rewrite Nat.add_0_r in Hv.
    pose proof (lookup_lt_Some _ _ _ Hv) as Hlt.
    erewrite bind_ok.
    2:{ rewrite (bind_ok _ _ _ _ _ (ld_ok _ _ _ _ (Sg i v Hv))), (bind_ok _ _ _ _ _ (cast_ok _ _ s Tz)), (bind_ok _ _ _ _ _ (i32_ok (z - 1) s ltac:(unfold INT_MIN; lia))).
        rewrite (proj2 (Z.ltb_ge _ _)), (proj2 (Z.ltb_ge _ _)) by lia. cbn [orb]. rewrite (bind_ok _ _ s tt _ (sti_ok s b i c (z - 1) Hc ltac:(lia))). reflexivity. }
    cbv beta iota. replace (Z.of_nat i + 1) with (Z.of_nat (S i)) by lia.
    apply (IH _ k (S i) (<[i := z - 1]> c)).
    + cbn. by rewrite lookup_insert.
    + by rewrite insert_length.
    + by apply (seg_dm s).
    + intros j Hj. replace (S i + j)%nat with (i + S j)%nat by lia. apply Hp. lia.
    + lia.
    + intros s' Hs. replace (S i + k0)%nat with (i + S k0)%nat by lia. by apply He.
Qed.
(** the first value outside the range has no int value (NaN, an infinity, at least 2^31 in size): the cast is
    undefined, although the statement asks for an error *)
Theorem index_without_int_undefined s pd vs1 v vs2 zs b mtot : seg s pd (vs1 ++ v :: vs2) -> 
  Forall2 (fun v z => toint v = Some z /\ 1 <= z <= mtot /\ z <= INT_MAX) vs1 zs -> toint v = None ->
  im s !! b = Some (replicate (length (vs1 ++ v :: vs2)) 0) ->
  convert_idx (Z.of_nat (length (vs1 ++ v :: vs2))) mtot pd (Ptr b 0) s = Ub UbCast.
Proof.
  intros Sg HZ Hv Hb. unfold convert_idx, for_brk. rewrite Z.sub_0_r, Nat2Z.id. unfold bind at 1. change 0 with (Z.of_nat 0) at 1.
  rewrite (prefix_runs pd b mtot (vs1 ++ v :: vs2) UbCast (length vs1) s (length (vs1 ++ v :: vs2)) 0 _ Hb (replicate_length _ _) Sg); [done| | |].
  - intros j Hj. destruct (lookup_lt_is_Some_2 vs1 j Hj) as [w Hw]. destruct (Forall2_lookup_l _ _ _ _ _ HZ Hw) as (z & _ & Hz). exists w, z. split; [|done]. simpl. by apply lookup_app_l_Some.
  - rewrite app_length. simpl. lia.
  - intros s' Sg'. simpl. rewrite (bind_ok _ _ _ _ _ (ld_ok _ _ _ _ (Sg' (length vs1) v (list_lookup_middle _ _ _ _ eq_refl)))).
    unfold bind at 1. by rewrite (cast_ub _ s' Hv).
Qed.
(** the most negative int: subtracting one overflows *)
Theorem index_INT_MIN_undefined s pd vs1 v vs2 zs b mtot : seg s pd (vs1 ++ v :: vs2) -> 
  Forall2 (fun v z => toint v = Some z /\ 1 <= z <= mtot /\ z <= INT_MAX) vs1 zs -> toint v = Some INT_MIN ->
  im s !! b = Some (replicate (length (vs1 ++ v :: vs2)) 0) ->
  convert_idx (Z.of_nat (length (vs1 ++ v :: vs2))) mtot pd (Ptr b 0) s = Ub UbOverflow.
Proof.
  intros Sg HZ Hv Hb. unfold convert_idx, for_brk. rewrite Z.sub_0_r, Nat2Z.id. unfold bind at 1. change 0 with (Z.of_nat 0) at 1.
  rewrite (prefix_runs pd b mtot (vs1 ++ v :: vs2) UbOverflow (length vs1) s (length (vs1 ++ v :: vs2)) 0 _ Hb (replicate_length _ _) Sg); [done| | |].
  - intros j Hj. destruct (lookup_lt_is_Some_2 vs1 j Hj) as [w Hw]. destruct (Forall2_lookup_l _ _ _ _ _ HZ Hw) as (z & _ & Hz). exists w, z. split; [|done]. simpl. by apply lookup_app_l_Some.
  - rewrite app_length. simpl. lia.
  - intros s' Sg'. simpl. rewrite (bind_ok _ _ _ _ _ (ld_ok _ _ _ _ (Sg' (length vs1) v (list_lookup_middle _ _ _ _ eq_refl)))).
    rewrite (bind_ok _ _ _ _ _ (cast_ok _ _ s' Hv)). unfold bind at 1, i32. reflexivity.
Qed.
End C60.

Section C60b.
Context (flog fexp fceil : b64 -> b64).
Notation B := (BN_with flog fexp fceil).
(** In binary64: an array of doubles that are integers (of int size) is converted exactly. *)
Theorem integer_doubles_converted (s : @st B) pd (vs : list b64) (zs : list Z) b mtot : @seg B s pd vs -> 
  Forall2 (fun v z => finite v /\ NumB.val v = IZR z /\ INT_MIN < z <= INT_MAX) vs zs ->
  im s !! b = Some (replicate (length vs) 0) ->
  exists st cs, @convert_idx B (Z.of_nat (length vs)) mtot pd (Ptr b 0) s = Ok st (set_im <[b := cs]> s) /\ length cs = length vs /\
    (Forall (fun z => 1 <= z <= mtot) zs -> st = 0 /\ cs = (fun z => z - 1) <$> zs) /\
    (Exists (fun z => ~ 1 <= z <= mtot) zs -> st = L1C_INVALID_ARGUMENT).
Proof.
  intros Sg HZ Hb. apply (@indices_converted B s pd vs zs b mtot Sg); [|done]. eapply Forall2_impl; [exact HZ|].
  intros v z (Fv & Ev & Iz). cbv beta. split; [|done]. etransitivity; [exact (toint_trunc v Fv)|]. rewrite Ev, Ztrunc_IZR. cbv zeta. unfold in_int.
  by rewrite !(proj2 (Z.leb_le _ _)) by lia.
Qed.
(** a fraction is cut off without notice: 1.5 selects pixel 1 *)
Theorem fractional_index_accepted (s : @st B) pd (v : b64) b mtot : @seg B s pd [v] -> finite v -> (1 < NumB.val v < 2)%R -> 1 <= mtot ->
  im s !! b = Some [0] -> @convert_idx B 1 mtot pd (Ptr b 0) s = Ok 0 (set_im <[b := [0]]> s).
Proof.
  intros Sg Fv Hv Hm Hb. 
  assert (Tv : @toint B v = Some 1).
  { etransitivity; [exact (toint_trunc v Fv)|]. cbv zeta. rewrite Ztrunc_floor by lra. rewrite (Zfloor_imp 1) by (change (IZR (1 + 1)) with 2%R; lra). done. }
  destruct (@indices_converted B s pd [v] [1] b mtot Sg) as (st & cs & E & _ & H & _); [|done|].
  - constructor; [|constructor]. split; [exact Tv|]. unfold INT_MIN, INT_MAX. lia.
  - destruct H as [-> ->]; [by constructor|]. exact E.
Qed.
End C60b.

(** ** C62: the log redirection *)
Section C62.
Context `{N : Num}.
(** the values returned by a sequence of calls, and the last state *)
Fixpoint replace_all (fs : list Z) : M (list Z) :=
  match fs with [] => ret [] | f :: fs' => let* r := l1c_replace_printf f in let* rs := replace_all fs' in ret (r :: rs) end.
(** For every sequence of installed functions, each call returns the function the previous one installed,
    and the first the one that was in force; the last one is in force afterwards.  Nothing else changes. *)
Theorem replace_returns_previous fs s : exists s', replace_all fs s = Ok (removelast (g_printf (gl s) :: fs)) s' /\
  g_printf (gl s') = List.last fs (g_printf (gl s)) /\ dm s' = dm s /\ im s' = im s /\ pm s' = pm s /\ om s' = om s /\ nx s' = nx s /\ en s' = en s /\
  g_d1 (gl s') = g_d1 (gl s) /\ g_d2 (gl s') = g_d2 (gl s) /\ g_tv (gl s') = g_tv (gl s) /\ g_mt (gl s') = g_mt (gl s).
Proof.
  revert s. induction fs as [|f fs IH]; intros s.
  - exists s. cbn. repeat split.
  - set (s1 := set_gl (fun g => mkGlob _ (g_d1 g) (g_d2 g) (g_tv g) (g_mt g) f) s).
    destruct (IH s1) as (s' & E & Hl & Hr). exists s'. split; [|split].
    + cbn [replace_all]. rewrite (bind_ok _ _ s (g_printf (gl s)) s1) by done. rewrite (bind_ok _ _ _ _ _ E).
      change (g_printf (gl s1)) with f. done.
    + rewrite Hl. change (g_printf (gl s1)) with f. destruct fs; [done|]. simpl List.last. clear. generalize (g_printf (gl s)). revert z.
      induction fs as [|a l IHl]; intros z w; [done|]. simpl. simpl in IHl. apply IHl.
    + exact Hr.
Qed.
(** installing f and then what the call returned restores the state exactly *)
Theorem replace_and_restore f s : exists s', (let* old := l1c_replace_printf f in let* _ := l1c_replace_printf old in ret tt) s = Ok tt s' /\ s' = s.
Proof. eexists. split; [reflexivity|]. by destruct s as [? ? ? ? ? ? ? [? ? ? ? ?]]. Qed.
Example logging_case s : g_printf (gl s) = 0 -> exists s', replace_all [1; 7; 0] s = Ok [0; 1; 7] s' /\ g_printf (gl s') = 0.
Proof. intros E. destruct (replace_returns_previous [1; 7; 0] s) as (s' & H & Hl & _). rewrite E in H. exists s'. split; [exact H|]. by rewrite Hl, E. Qed.
End C62.

(** ** C73: l1qc_dct from MATLAB *)
Section C73.
Context `{N : Num}.
Context (fft1 : fkind -> list T -> list T) (fft2 : fkind -> nat -> nat -> list T -> list T).
Hypothesis fft1_len : forall k xs, length (fft1 k xs) = length xs.
Hypothesis fft2_len : forall k nr nc xs, length xs = (nr * nc)%nat -> length (fft2 k nr nc xs) = (nr * nc)%nat.
Implicit Types (s : st).
Notation mex := (l1qc_dct_mex fft1 fft2).

(** refused memory and a bad index are errors that leave the heap as it was *)
Theorem mex_out_of_memory s prhs nr nc bb bo bs pi vs zs o nlhs : l1qc_args s prhs nr nc bb bo bs pi vs zs o -> 1 <= nlhs ->
  alloc_ok (en s) (nx s) = false \/ alloc_ok (en s) (nx s + 1) = false ->
  exists s', mex nlhs 5 prhs s = Ok (Err "l1c:l1qc_dct:outofmemory") s' /\ same_heap s s'.
Proof. intros A Hl HA. destruct (mex_oom fft1 fft2 _ _ _ _ _ _ _ _ _ _ _ _ A Hl HA) as (s' & E & H & _). eauto. Qed.
Theorem mex_bad_index s prhs nr nc bb bo bs pi vs zs o nlhs : l1qc_args s prhs nr nc bb bo bs pi vs zs o -> 1 <= nlhs ->
  alloc_ok (en s) (nx s) = true -> alloc_ok (en s) (nx s + 1) = true -> Exists (fun z => ~ 1 <= z <= Z.of_nat (nr * nc)) zs ->
  exists s', mex nlhs 5 prhs s = Ok (Err "l1c:l1qc_dct:bad_index") s' /\ same_heap s s'.
Proof.
  intros A Hl E0 E1 HE. destruct (mex_granted fft1 fft2 _ _ _ _ _ _ _ _ _ _ _ _ A Hl E0 E1) as [(_ & s' & E & H & _)|(HF & _)]; [eauto|].
  exfalso. by apply Exists_not_Forall in HE.
Qed.
(** an option that is documented but not read: dct_mode *)
Theorem mex_ignores_dct_mode s prhs prhs' nr nc bb bo bs pi vs zs o o' nlhs : l1qc_args s prhs nr nc bb bo bs pi vs zs o -> l1qc_args s prhs' nr nc bb bo bs pi vs zs o' ->
  with_mode o dct1 = with_mode o' dct1 -> 1 <= nlhs -> mex nlhs 5 prhs s = mex nlhs 5 prhs' s.
Proof. intros A A' E Hl. by rewrite (mex_args fft1 fft2 _ _ _ _ _ _ _ _ _ _ _ _ A Hl), (mex_args fft1 fft2 _ _ _ _ _ _ _ _ _ _ _ _ A' Hl), E. Qed.

(** the state in which l1qc_dct is called, and that the call is a correct one *)
Lemma args_call s prhs nr nc bb bo bs pi vs zs o : l1qc_args s prhs nr nc bb bo bs pi vs zs o -> 2 * Z.of_nat (nr * nc) + 1 <= INT_MAX ->
  Forall (fun z => 1 <= z <= Z.of_nat (nr * nc)) zs ->
  dct_call (handed (nr * nc) (Z.of_nat <$> idx_of zs) s) nr nc (nx s + 1) 0 (idx_of zs) bb bo bs (nx s) 0.
Proof.
  intros [Hu Him Hr Hc Hf Ha HL Hlt HZ] Hf2 HF.
  destruct Ha as (a0 & a1 & a2 & a3 & a4 & v0 & v1 & _ & _ & _ & _ & _ & V2 & _). destruct V2 as (_ & _ & _ & H2 & _ & _ & Sb).
  assert (LZ : length (idx_of zs) = length bs) by (unfold idx_of; rewrite fmap_length, <- (Forall2_length _ _ _ HZ); done).
  apply handed_call; try done; [|lia].
  intros k Hk. unfold idx_of in Hk. apply elem_of_list_fmap in Hk as (z & -> & Hz). rewrite Forall_forall in HF. specialize (HF z Hz). lia.
Qed.
(** counters as for l1qc_dct *)
Definition mex_counters_fit s nr nc (zs : list Z) bs (o : L1qcOpts) : Prop :=
  counters_fit fft1 fft2 (handed (nr * nc) (Z.of_nat <$> idx_of zs) s) nr nc (with_mode o dct1) (idx_of zs) bs.

(** If the solver returns an error code, MATLAB gets memory that nobody wrote: the model's UbUninit.  The
    statement "an error of the solver is reported" would need an Err here. *)
Theorem mex_solver_failure_uninitialised s prhs nr nc bb bo bs pi vs zs o nlhs st lb s4 : l1qc_args s prhs nr nc bb bo bs pi vs zs o -> 1 <= nlhs ->
  2 * Z.of_nat (nr * nc) + 1 <= INT_MAX -> alloc_ok (en s) (nx s) = true -> alloc_ok (en s) (nx s + 1) = true ->
  Forall (fun z => 1 <= z <= Z.of_nat (nr * nc)) zs -> mex_counters_fit s nr nc zs bs o ->
  l1qc_dct fft1 fft2 (Z.of_nat nr) (Z.of_nat nc) (Ptr (nx s) 0) (Z.of_nat (length (idx_of zs))) (Ptr bb bo) (Ptr (nx s + 1) 0) (with_mode o dct1)
    (handed (nr * nc) (Z.of_nat <$> idx_of zs) s) = Ok (st, lb) s4 -> st <> 0 ->
  mex nlhs 5 prhs s = Ub UbUninit.
Proof.
  intros A Hl Hf2 E0 E1 HF Hct E Hne. destruct (mex_granted fft1 fft2 _ _ _ _ _ _ _ _ _ _ _ _ A Hl E0 E1) as [(HE & _)|(_ & EM)].
  { exfalso. by apply Exists_not_Forall in HE. }
  cbv zeta in EM. rewrite E in EM. rewrite EM. clear EM.
  pose proof (args_call _ _ _ _ _ _ _ _ _ _ _ A Hf2 HF) as HC.
  destruct (l1qc_dct_error_keeps_output fft1 fft2 fft1_len fft2_len _ _ _ _ _ _ _ _ _ _ _ _ _ _ _ HC Hct E Hne) as [K _].
  rewrite (copy_out_uninit s4 (nx s) (Z.of_nat (nr * nc)) (nr * nc)); [done| | |].
  - rewrite K by (cbn; lia). cbn. by rewrite lookup_insert.
  - destruct A. nia.
  - destruct A. nia.
Qed.
(** Whenever the MEX function ends, the MATLAB heap is as before, and the outcome is one of three: an error
    because of memory, an error because of an index, or the image: a column with nr*nc rows that holds M of the
    solver's coefficients (standard coordinates), and the statistics of the solver if asked for. *)
Theorem mex_outcome s prhs nr nc bb bo bs pi vs zs o nlhs r s' : l1qc_args s prhs nr nc bb bo bs pi vs zs o -> 1 <= nlhs ->
  2 * Z.of_nat (nr * nc) + 1 <= INT_MAX -> mex_counters_fit s nr nc zs bs o ->
  mex nlhs 5 prhs s = Ok r s' -> same_heap s s' /\
  ((r = Err "l1c:l1qc_dct:outofmemory" /\ (alloc_ok (en s) (nx s) = false \/ alloc_ok (en s) (nx s + 1) = false)) \/
   (r = Err "l1c:l1qc_dct:bad_index" /\ Exists (fun z => ~ 1 <= z <= Z.of_nat (nr * nc)) zs) \/
   (Forall (fun z => 1 <= z <= Z.of_nat (nr * nc)) zs /\ exists eta q, length eta = (nr * nc)%nat /\ lb_status q = 0 /\ lb_l1 q = asum_of (nr * nc) eta /\
      (* q and the image come from l1qc_dct, called with the options of the structure *)
      (exists s4, l1qc_dct fft1 fft2 (Z.of_nat nr) (Z.of_nat nc) (Ptr (nx s) 0) (Z.of_nat (length (idx_of zs))) (Ptr bb bo) (Ptr (nx s + 1) 0) (with_mode o dct1)
         (handed (nr * nc) (Z.of_nat <$> idx_of zs) s) = Ok (0, Some q) s4 /\
         seg s4 (Ptr (nx s) 0) (fM fft1 fft2 (handed (nr * nc) (Z.of_nat <$> idx_of zs) s) nr nc (one_d (Z.of_nat nr) (Z.of_nat nc) dct1) eta)) /\
      r = Val (OutDouble (Z.of_nat (nr * nc)) 1
                 (fM fft1 fft2 (handed (nr * nc) (Z.of_nat <$> idx_of zs) s) nr nc (one_d (Z.of_nat nr) (Z.of_nat nc) dct1) eta) ::
               (if nlhs =? 2 then [stats q] else [])))).
Proof.
  intros A Hl Hf2 Hct E.
  destruct (alloc_ok (en s) (nx s)) eqn:E0.
  2:{ destruct (mex_out_of_memory _ _ _ _ _ _ _ _ _ _ _ _ A Hl (or_introl E0)) as (t & Et & HS). pose proof (eq_trans (eq_sym E) Et) as Q. injection Q as -> ->. split; [done|]. left. auto. }
  destruct (alloc_ok (en s) (nx s + 1)) eqn:E1.
  2:{ destruct (mex_out_of_memory _ _ _ _ _ _ _ _ _ _ _ _ A Hl (or_intror E1)) as (t & Et & HS). pose proof (eq_trans (eq_sym E) Et) as Q. injection Q as -> ->. split; [done|]. left. auto. }
  destruct (mex_granted fft1 fft2 _ _ _ _ _ _ _ _ _ _ _ _ A Hl E0 E1) as [(HE & t & Et & HS & _)|(HF & EM)].
  { pose proof (eq_trans (eq_sym E) Et) as Q. injection Q as -> ->. split; [done|]. right. left. auto. }
  cbv zeta in EM. rewrite E in EM.
  pose proof (args_call _ _ _ _ _ _ _ _ _ _ _ A Hf2 HF) as HC. set (s3 := handed (nr * nc) (Z.of_nat <$> idx_of zs) s) in *.
  destruct (l1qc_dct _ _ _ _ _ _ _ _ _ s3) as [[st lb] s4|e] eqn:EL; [|done].
  assert (Hm : (1 <= nr * nc)%nat) by (destruct A; nia).
  destruct (Z.eq_dec st 0) as [->|Hne].
  2:{ exfalso. destruct (l1qc_dct_error_keeps_output fft1 fft2 fft1_len fft2_len _ _ _ _ _ _ _ _ _ _ _ _ _ _ _ HC Hct EL Hne) as [K _].
      rewrite (copy_out_uninit s4 (nx s) (Z.of_nat (nr * nc)) (nr * nc)) in EM; [done| |done|lia].
      rewrite K by (cbn; lia). cbn. by rewrite lookup_insert. }
  destruct (grants_dec s3 5) as [HG|HG].
  2:{ destruct (l1qc_dct_setup_out_of_memory fft1 fft2 _ _ _ _ _ _ _ _ (dct_call_accepted _ _ _ _ _ _ _ _ _ _ _ HC) HG _ _ EL) as [Q _]. discriminate Q. }
  destruct (l1qc_dct_outcome fft1 fft2 fft1_len fft2_len _ _ _ _ _ _ _ _ _ _ _ _ _ _ _ HC HG Hct EL) as [(Q & _)|[(q & _ & _ & [Q|Q] & _)|(_ & q & eta & -> & Hq & Le & Hl1 & HS)]]; [discriminate Q|discriminate Q|discriminate Q|].
  set (img := fM fft1 fft2 s3 nr nc (one_d (Z.of_nat nr) (Z.of_nat nc) dct1) eta) in *. change (lo_dct_mode (with_mode o dct1)) with dct1 in HS. fold img in HS.
  assert (Li : length img = (nr * nc)%nat) by (unfold img, fM; destruct (one_d _ _ _); apply tab_length).
  assert (W : wok s3 (Ptr (nx s) 0) (length img)) by (rewrite Li; apply (dc_x _ _ _ _ _ _ _ _ _ _ _ HC)).
  assert (Sg : seg s4 (Ptr (nx s) 0) img). { apply (seg_dm (wr (Ptr (nx s) 0) img s3)); [apply HS|]. by apply seg_wr. }
  rewrite (copy_out_seg s4 _ img) in EM by (done || lia).
  destruct HS as (D & O & P & I).
  destruct A as [Hu Him _ _ _ _ _ _ _].
  destruct (freed s (Z.of_nat <$> idx_of zs) (default [] (dm s4 !! nx s)) s4 Hu Him) as (t & Et & HSt & _).
  - rewrite D. cbn [wr dm set_dm]. apply map_eq. intros b. destruct (decide (b = nx s)) as [->|Hb].
    + rewrite lookup_insert, lookup_alter. unfold s3. cbn. rewrite lookup_insert. done.
    + rewrite lookup_insert_ne, lookup_alter_ne by done. unfold s3. cbn. by rewrite lookup_insert_ne.
  - rewrite I. done.
  - rewrite O. done.
  - rewrite P. done.
  - replace (nx s + 1)%nat with (S (nx s)) in EM by lia. rewrite Et in EM. injection EM as -> ->.
    split; [exact HSt|]. right. right. split; [done|]. exists eta, q. do 3 (split; [done|]). split; [exists s4; split; [reflexivity|exact Sg]|done].
Qed.
End C73.

Section C73R.
Local Open Scope R_scope.
Context (fft1 : fkind -> list er -> list er) (fft2 : fkind -> nat -> nat -> list er -> list er).
Hypothesis fft1_len : forall k xs, length (fft1 k xs) = length xs.
Hypothesis fft2_len : forall k nr nc xs, length xs = (nr * nc)%nat -> length (fft2 k nr nc xs) = (nr * nc)%nat.
Hypothesis fft1_exact : forall k (x : list R), fft1 k (fin x) = fin (dft1 k x).
Hypothesis fft2_exact : forall k nr nc (x : list R), length x = (nr * nc)%nat -> fft2 k nr nc (fin x) = fin (dft2 k nr nc x).
Notation mex := (@l1qc_dct_mex ER fft1 fft2).
Notation given s nr nc zs := (@handed ER (nr * nc) (Z.of_nat <$> idx_of zs) s).

Lemma idx_nodup zs m : NoDup zs -> Forall (fun z => (1 <= z <= m)%Z) zs -> NoDup (idx_of zs).
Proof.
  intros ND HF. rewrite Forall_forall in HF. unfold idx_of. apply NoDup_fmap_2_strong; [|done].
  intros x y Hx Hy E. specialize (HF x Hx) as Bx. specialize (HF y Hy) as By. lia.
Qed.
Lemma fits_of (s : @st ER) nr nc zs bs o tau stages : @starts ER (nr * nc) (@start ER fft1 fft2 (given s nr nc zs) nr nc (with_mode o dct1) (idx_of zs) bs) (with_mode o dct1) tau stages ->
  @counts_fit ER (with_mode o dct1) stages -> @mex_counters_fit ER fft1 fft2 s nr nc zs bs o.
Proof.
  intros Hs Hc tau' stages' Hs'. unfold starts in Hs, Hs'. pose proof (eq_trans (eq_sym Hs) Hs') as Q. injection Q as _ <-. done.
Qed.
(** In exact arithmetic, with memory: the column that MATLAB gets reproduces each measurement up to epsilon
    in the 2-norm, strictly if epsilon is positive; pix_idx counts the pixels from one; the heap is as before. *)
Theorem mex_reproduces_measurements (s : @st ER) prhs nr nc bb bo (bv : list R) pi vs zs (o : @L1qcOpts ER) nlhs (e : R) tau stages :
  @l1qc_args ER s prhs nr nc bb bo (fin bv) pi vs zs o -> (1 <= nlhs)%Z -> (2 * Z.of_nat (nr * nc) + 1 <= INT_MAX)%Z ->
  (forall i, alloc_ok (en s) i = true) -> NoDup zs -> Forall (fun z => (1 <= z <= Z.of_nat (nr * nc))%Z) zs -> planner_finite (given s nr nc zs) ->
  lo_epsilon o = Fin e -> 0 <= e ->
  @starts ER (nr * nc) (@start ER fft1 fft2 (given s nr nc zs) nr nc (with_mode o dct1) (idx_of zs) (fin bv)) (with_mode o dct1) tau stages ->
  @counts_fit ER (with_mode o dct1) stages ->
  exists img q s', mex nlhs 5 prhs s = Ok (Val (@OutDouble ER (Z.of_nat (nr * nc)) 1 (fin img) :: (if (nlhs =? 2)%Z then [@stats ER q] else []))) s' /\
    same_heap s s' /\ length img = (nr * nc)%nat /\
    nrm2 (resid (sample (idx_of zs)) bv img) <= e /\ (0 < e -> nrm2 (resid (sample (idx_of zs)) bv img) < e) /\
    lb_l1 q = Fin (nrm1 (xf_fwd (Z.of_nat nr) (Z.of_nat nc) dct1 img)).
Proof.
  intros A Hl Hf2 HG ND HF HP He He0 Hs Hcf.
  pose proof (@args_call ER _ _ _ _ _ _ _ _ _ _ _ A Hf2 HF) as HC. 
  destruct (l1qc_dct_reproduces_measurements fft1 fft2 fft1_len fft2_len fft1_exact fft2_exact _ _ _ _ _ _ _ _ _ _ _ (with_mode o dct1) e tau stages HC HG (idx_nodup zs _ ND HF) HP He He0 Hs Hcf)
    as (q & s4 & img & EL & Li & HS & H1 & H2 & H3).
  destruct (@mex_granted ER fft1 fft2 _ _ _ _ _ _ _ _ _ _ _ _ A Hl (HG _) (HG _)) as [(HE & _)|(_ & EM)].
  { exfalso. by apply Exists_not_Forall in HE. }
  cbv zeta in EM. rewrite EL in EM. set (s3 := given s nr nc zs) in *.
  assert (W : @wok ER s3 (Ptr (nx s) 0) (@length er (fin img))) by (rewrite fin_length, Li; apply (dc_x _ _ _ _ _ _ _ _ _ _ _ HC)).
  assert (Sg : @seg ER s4 (Ptr (nx s) 0) (fin img)). { apply (@seg_dm ER (@wr ER (Ptr (nx s) 0) (fin img) s3)); [apply HS|]. by apply (@seg_wr ER). }
  rewrite (@copy_out_seg ER s4 _ (fin img)) in EM by (done || (rewrite fin_length; lia)).
  destruct HS as (D & O & P & I).
  destruct A as [Hu Him _ _ _ _ _ _ _].
  destruct (@freed ER s (Z.of_nat <$> idx_of zs) (default [] (dm s4 !! nx s)) s4 Hu Him) as (t & Et & HSt & _).
  - rewrite D. cbn [wr dm set_dm]. apply map_eq. intros b. destruct (decide (b = nx s)) as [->|Hb].
    + rewrite lookup_insert, lookup_alter. unfold s3. cbn. rewrite lookup_insert. done.
    + rewrite lookup_insert_ne, lookup_alter_ne by done. unfold s3. cbn. by rewrite lookup_insert_ne.
  - rewrite I. done.
  - rewrite O. done.
  - rewrite P. done.
  - replace (nx s + 1)%nat with (S (nx s)) in EM by lia. rewrite Et in EM. exists img, q, t. split; [exact EM|]. done.
Qed.
(** A negative epsilon makes the solver fail; the user gets uninitialised memory instead of an error. *)
Theorem mex_negative_eps_uninitialised (s : @st ER) prhs nr nc bb bo (bv : list R) pi vs zs (o : @L1qcOpts ER) nlhs (e : R) tau stages :
  @l1qc_args ER s prhs nr nc bb bo (fin bv) pi vs zs o -> (1 <= nlhs)%Z -> (2 * Z.of_nat (nr * nc) + 1 <= INT_MAX)%Z ->
  (forall i, alloc_ok (en s) i = true) -> NoDup zs -> Forall (fun z => (1 <= z <= Z.of_nat (nr * nc))%Z) zs -> planner_finite (given s nr nc zs) ->
  lo_epsilon o = Fin e -> e < 0 ->
  @starts ER (nr * nc) (@start ER fft1 fft2 (given s nr nc zs) nr nc (with_mode o dct1) (idx_of zs) (fin bv)) (with_mode o dct1) tau stages ->
  @counts_fit ER (with_mode o dct1) stages ->
  mex nlhs 5 prhs s = Ub UbUninit.
Proof.
  intros A Hl Hf2 HG ND HF HP He He0 Hs Hcf.
  pose proof (@args_call ER _ _ _ _ _ _ _ _ _ _ _ A Hf2 HF) as HC. 
  destruct (l1qc_dct_negative_eps fft1 fft2 fft1_len fft2_len fft1_exact fft2_exact _ _ _ _ _ _ _ _ _ _ _ (with_mode o dct1) e tau stages HC HG (idx_nodup zs _ ND HF) HP He He0 Hs)
    as (q & s4 & EL & HS).
  exact (@mex_solver_failure_uninitialised ER fft1 fft2 fft1_len fft2_len _ _ _ _ _ _ _ _ _ _ _ _ _ _ _ A Hl Hf2 (HG _) (HG _) HF (fits_of _ _ _ _ _ _ _ _ Hs Hcf) EL ltac:(done)).
Qed.
End C73R.

(** ** Concrete cases *)
Module MexEx.
Section ex.
Context `{N : Num}.
(** MATLAB's memory: block 0 the rows, 1 the columns, 2 the measurements, 3 pix_idx, 4-16 the fields *)
Definition names : list string := ["epsilon"; "mu"; "tau"; "newton_tol"; "lbtol"; "l1_tol"; "cgtol"; "warm_start_cg"; "verbose"; "newton_max_iter"; "cgmaxiter"; "lbiter"; "dct_mode"]%string.
Definition mem (e : env) (bl : list (list T)) : st := mkSt (dm (state_of (map full bl))) ∅ ∅ ∅ (fun _ => true) (length bl) e glob0.
Definition sc (b : nat) : mxArray := MxA MxDouble 1 1 2 (Ptr b 0) [].
Definition col (b : nat) (n : nat) : mxArray := MxA MxDouble (Z.of_nat n) 1 2 (Ptr b 0) [].
Definition opt_struct : mxArray := MxA MxStruct 1 1 2 Null (zip names (sc <$> seq 4 13)).
Definition input (e : env) (nr nc : T) (bs vs : list T) (eps : T) (mode : T) (r5 r2 : T) : st :=
  mem e [[nr]; [nc]; bs; vs; [eps]; [ofZ 10]; [zero]; [one]; [one]; [one]; [one]; [zero]; [zero]; [r5]; [r5]; [r2]; [mode]].
Definition prhs (n : nat) : list mxArray := [sc 0; sc 1; col 2 n; col 3 n; opt_struct].
Lemma mem_seg e bl b xs : bl !! b = Some xs -> seg (mem e bl) (Ptr b 0) xs.
Proof.
  intros H. apply (seg_dm (state_of (map full bl))); [done|]. apply state_of_seg. rewrite list_lookup_fmap, H. done.
Qed.
Lemma mem_unborn e bl : unborn (mem e bl).
Proof. intros b Hb. split; [|done]. cbn [mem dm]. apply (state_unborn (map full bl)). cbn [state_of nx]. rewrite map_length. exact Hb. Qed.
Lemma mem_scalar e bl b v : bl !! b = Some [v] -> scalar (mem e bl) (sc b) v.
Proof. intros H. split; [done|]. split; [done|]. split; [done|]. cbn. by apply mem_seg. Qed.
Lemma mem_col e bl b xs : bl !! b = Some xs -> (2 <= length xs)%nat -> Z.of_nat (length xs) <= INT_MAX -> vector (mem e bl) (col b (length xs)) (Ptr b 0) xs.
Proof. intros H H2 H3. split; [done|]. split; [done|]. split; [left; done|]. split; [done|]. split; [done|]. split; [done|]. by apply mem_seg. Qed.
End ex.
Local Open Scope R_scope.
Lemma toint_ER z : in_int z = true -> @toint ER (Fin (IZR z)) = Some z.
Proof. intros H. cbn. rewrite Ztrunc_IZR. by rewrite H. Qed.
Lemma ofZ_ER z : @ofZ ER z = Fin (IZR z). Proof. cbn. f_equal. lra. Qed.
(** a 2 x 2 image, pixels 4 and 1 measured as 1 and 2 *)
Definition opt (e : R) (mode : Z) : @L1qcOpts ER := @mkL1qc ER (Fin e) (@ofZ ER 10) (@one ER) (@zero ER) 2 (@one ER) 5 0 (@one ER) (@one ER) 5 0 0 mode.
Definition inp (en : @env ER) (e : R) (p q : Z) (mode : Z) : @st ER := @input ER en (@ofZ ER 2) (@ofZ ER 2) (fin [1; 2]) [@ofZ ER p; @ofZ ER q] (Fin e) (@ofZ ER mode) (@ofZ ER 5) (@ofZ ER 2).
Lemma args2 en e p q mode : (INT_MIN < p <= INT_MAX)%Z -> (INT_MIN < q <= INT_MAX)%Z -> in_int mode = true ->
  @l1qc_args ER (inp en e p q mode) (prhs 2) 2 2 2 0 (fin [1; 2]) (Ptr 3 0) [@ofZ ER p; @ofZ ER q] [p; q] (opt e mode).
Proof.
  intros Hp Hq Hmd.
  assert (HT : forall z, in_int z = true -> @toint ER (@ofZ ER z) = Some z) by (intros z Hz; rewrite ofZ_ER; by apply toint_ER).
  split; try done.
  - apply (@mem_unborn ER).
  - lia.
  - lia.
  - exists (sc 0), (sc 1), (col 2 2), (col 3 2), opt_struct, (@ofZ ER 2), (@ofZ ER 2). split; [done|].
    split; [by apply (@mem_scalar ER)|]. split; [by apply HT|]. split; [by apply (@mem_scalar ER)|]. split; [by apply HT|].
    split; [apply (@mem_col ER _ _ 2 (fin [1; 2])); [done|simpl; lia|done]|]. split; [by apply (@mem_col ER _ _ 3 [@ofZ ER p; @ofZ ER q])|].
    assert (F : forall i nm v, names !! i = Some nm -> mxGetField opt_struct nm = Some (sc (4 + i)) -> 
       [[@ofZ ER 2]; [@ofZ ER 2]; fin [1; 2]; [@ofZ ER p; @ofZ ER q]; [Fin e]; [@ofZ ER 10]; [@zero ER]; [@one ER]; [@one ER]; [@one ER]; [@one ER]; [@zero ER]; [@zero ER]; [@ofZ ER 5]; [@ofZ ER 5]; [@ofZ ER 2]; [@ofZ ER mode]] !! (4 + i)%nat = Some [v] ->
       @field ER (inp en e p q mode) opt_struct nm v).
    { intros i nm v _ H1 H2. exists (sc (4 + i)). split; [done|]. by apply (@mem_scalar ER). }
    split; [done|..]; try (eexists; split; [|by apply HT]).
    + by apply (F 0%nat). + by apply (F 1%nat). + by apply (F 2%nat). + by apply (F 3%nat). + by apply (F 4%nat). + by apply (F 5%nat). + by apply (F 6%nat).
    + by apply (F 7%nat). + by apply (F 8%nat). + by apply (F 9%nat). + by apply (F 10%nat). + by apply (F 11%nat). + by apply (F 12%nat).
  - simpl. lia.
  - repeat constructor; try (apply HT; unfold in_int; rewrite !(proj2 (Z.leb_le _ _)) by lia; done); lia.
Qed.
Notation f1 := L1qcEx.f1. Notation f2 := L1qcEx.f2.
Definition tau2 (e : R) : er := @n_tau0 ER 4 (@start ER f1 f2 (@handed ER 4 [3; 0]%Z (inp (@env0 ER) e 4 1 1)) 2 2 (with_mode (opt e 1) dct1) [3; 0]%nat (fin [1; 2])).
Lemma fit2 e : @starts ER (2 * 2) (@start ER f1 f2 (@handed ER 4 [3; 0]%Z (inp (@env0 ER) e 4 1 1)) 2 2 (with_mode (opt e 1) dct1) [3; 0]%nat (fin [1; 2])) (with_mode (opt e 1) dct1) (tau2 e) 2.
Proof. done. Qed.
Lemma counts2 e mode : @counts_fit ER (with_mode (opt e mode) dct1) 2.
Proof. unfold counts_fit, INT_MAX. cbn. unfold n_fuel, cgm. cbn. lia. Qed.
Lemma planner0 (s : @st ER) : en s = @env0 ER -> planner_finite s.
Proof. intros E j. rewrite E. eexists. reflexivity. Qed.
Example mex_works : exists img q s', @l1qc_dct_mex ER f1 f2 2 5 (prhs 2) (inp (@env0 ER) (1/2) 4 1 1) = Ok (Val [@OutDouble ER 4 1 (fin img); @stats ER q]) s' /\
  length img = 4%nat /\ nrm2 (resid (sample [3; 0]%nat) [1; 2] img) < 1/2.
Proof.
  destruct (mex_reproduces_measurements f1 f2 L1qcEx.f1_len L1qcEx.f2_len L1qcEx.f1_exact L1qcEx.f2_exact _ _ _ _ _ _ _ _ _ _ _ 2 (1/2) (tau2 (1/2)) 2%Z (args2 (@env0 ER) (1/2) 4 1 1 ltac:(done) ltac:(done) eq_refl))
    as (img & q & s' & E & HS & Li & _ & H2 & _).
  - done.
  - done.
  - done.
  - apply (bool_decide_unpack _). vm_compute. done.
  - repeat constructor; simpl; lia.
  - by apply planner0.
  - done.
  - lra.
  - apply fit2.
  - apply counts2.
  - exists img, q, s'. split; [exact E|]. split; [exact Li|]. apply H2. lra.
Qed.
(** "an error of the solver becomes an error of the MEX function" is false *)
Theorem mex_reports_solver_error_refuted : exists (s : @st ER) o, @l1qc_args ER s (prhs 2) 2 2 2 0 (fin [1; 2]) (Ptr 3 0) [@ofZ ER 4; @ofZ ER 1] [4; 1]%Z o /\
  (forall i, alloc_ok (en s) i = true) /\ @l1qc_dct_mex ER f1 f2 2 5 (prhs 2) s = Ub UbUninit.
Proof.
  exists (inp (@env0 ER) (-1) 4 1 1), (opt (-1) 1). split; [by apply args2|]. split; [done|].
  apply (mex_negative_eps_uninitialised f1 f2 L1qcEx.f1_len L1qcEx.f2_len L1qcEx.f1_exact L1qcEx.f2_exact _ _ _ _ _ _ _ _ _ _ _ 2 (-1) (tau2 (-1)) 2%Z (args2 (@env0 ER) (-1) 4 1 1 ltac:(done) ltac:(done) eq_refl)); try done.
  - apply (bool_decide_unpack _). vm_compute. done.
  - repeat constructor; simpl; lia.
  - by apply planner0.
  - lra.
Qed.
(** pixel 5 of 4 *)
Example mex_rejects_5 : exists s', @l1qc_dct_mex ER f1 f2 1 5 (prhs 2) (inp (@env0 ER) 1 5 1 1) = Ok (Err "l1c:l1qc_dct:bad_index") s' /\ same_heap (inp (@env0 ER) 1 5 1 1) s'.
Proof.
  apply (@mex_bad_index ER f1 f2 _ _ _ _ _ _ _ _ _ _ _ 1 (args2 (@env0 ER) 1 5 1 1 ltac:(done) ltac:(done) eq_refl)); [done|done|done|]. left. simpl. lia.
Qed.
Example mex_no_memory : exists s', @l1qc_dct_mex ER f1 f2 1 5 (prhs 2) (inp (@L1qcEx.upto ER 17) 1 4 1 1) = Ok (Err "l1c:l1qc_dct:outofmemory") s' /\ same_heap (inp (@L1qcEx.upto ER 17) 1 4 1 1) s'.
Proof. apply (@mex_out_of_memory ER f1 f2 _ _ _ _ _ _ _ _ _ _ _ 1 (args2 (@L1qcEx.upto ER 17) 1 4 1 1 ltac:(done) ltac:(done) eq_refl)); [done|]. by right. Qed.
(** dct_mode = 2, the 2D transform, gives what dct_mode = 1 gives *)
Example mode_2_ignored nlhs en e p q : (INT_MIN < p <= INT_MAX)%Z -> (INT_MIN < q <= INT_MAX)%Z -> (1 <= nlhs)%Z ->
  exists prhs', @l1qc_args ER (inp en e p q 2) prhs' 2 2 2 0 (fin [1; 2]) (Ptr 3 0) [@ofZ ER p; @ofZ ER q] [p; q] (opt e 1) /\ @l1qc_dct_mex ER f1 f2 nlhs 5 (prhs 2) (inp en e p q 2) = @l1qc_dct_mex ER f1 f2 nlhs 5 prhs' (inp en e p q 2).
Proof.
  intros Hp Hq Hl. pose proof (args2 en e p q 2 Hp Hq eq_refl) as A.
  (* the same struct, but for the last field, which is another scalar of the memory: the 1 in block 7 *)
  set (st' := MxA MxStruct 1 1 2 Null (zip names ((sc <$> seq 4 12) ++ [sc 7]))).
  assert (A' : @l1qc_args ER (inp en e p q 2) [sc 0; sc 1; col 2 2; col 3 2; st'] 2 2 2 0 (fin [1; 2]) (Ptr 3 0) [@ofZ ER p; @ofZ ER q] [p; q] (opt e 1)).
  { destruct A as [H1 H2 H3 H4 H5 (a0 & a1 & a2 & a3 & a4 & v0 & v1 & E & S0 & T0 & S1 & T1 & V2 & V3 & O) H6 H7 H8]. split; try done.
    injection E as <- <- <- <- <-. exists (sc 0), (sc 1), (col 2 2), (col 3 2), st', v0, v1. repeat (split; [done|]).
    destruct O as [O0 O1 O2 O3 O4 O5 O6 O7 O8 O9 O10 O11 O12 O13]. split; [done|done..|].
    exists (@one ER). split; [exists (sc 7); split; [done|by apply (@mem_scalar ER)]|]. etransitivity; [|exact (toint_ER 1 eq_refl)]. f_equal. exact (ofZ_ER 1). }
  exists [sc 0; sc 1; col 2 2; col 3 2; st']. split; [exact A'|]. exact (@mex_ignores_dct_mode ER f1 f2 _ _ _ _ _ _ _ _ _ _ _ _ _ nlhs A A' eq_refl Hl).
Qed.
(** conversions in binary64 *)
Section b64ex.
Context (flog fexp fceil : b64 -> b64).
Notation B := (BN_with flog fexp fceil).
Definition two_idx (vs : list b64) : @st B := @set_im B (fun _ => {[1%nat := replicate (length vs) 0%Z]}) (@mem B (@env0 B) [vs]).
Lemma two_seg vs : @seg B (two_idx vs) (Ptr 0 0) vs.
Proof. apply (@seg_dm B (@mem B (@env0 B) [vs])); [done|]. by apply (@mem_seg B). Qed.
Example convert_3_1 : exists cs, @convert_idx B 2 4 (Ptr 0 0) (Ptr 1 0) (two_idx [@ofZ B 3; @ofZ B 1]) = Ok 0%Z (set_im <[1%nat := cs]> (two_idx [@ofZ B 3; @ofZ B 1])) /\ cs = [2; 0]%Z.
Proof.
  destruct (integer_doubles_converted flog fexp fceil (two_idx [@ofZ B 3; @ofZ B 1]) (Ptr 0 0) [@ofZ B 3; @ofZ B 1] [3; 1]%Z 1 4) as (st & cs & E & _ & H & _).
  - apply two_seg.
  - constructor; [|constructor; [|constructor]]; (destruct (ofZ_exact flog fexp fceil 3 ltac:(lia)); destruct (ofZ_exact flog fexp fceil 1 ltac:(lia)); done).
  - done.
  - destruct H as [-> ->]; [repeat constructor; lia|]. eexists. split; [exact E|done].
Qed.
Definition one_half_more : b64 := @B754_finite 53 1024 false 6755399441055744 (-52) eq_refl.
Lemma one_half_val : NumB.val one_half_more = 3 / 2.
Proof. unfold NumB.val, one_half_more, B2R, F2R. cbn [cond_Zopp Fnum Fexp]. change (bpow radix2 (-52)) with (/ IZR (Zpower_pos 2 52)). change (Zpower_pos 2 52) with 4503599627370496%Z. lra. Qed.
Example convert_1_5 : @convert_idx B 1 4 (Ptr 0 0) (Ptr 1 0) (two_idx [one_half_more]) = Ok 0%Z (set_im <[1%nat := [0%Z]]> (two_idx [one_half_more])).
Proof. apply (fractional_index_accepted flog fexp fceil _ _ one_half_more); [apply two_seg|done|rewrite one_half_val; lra|lia|done]. Qed.
Example convert_nan : @convert_idx B 2 4 (Ptr 0 0) (Ptr 1 0) (two_idx [@ofZ B 3; B754_nan]) = Ub UbCast.
Proof.
  apply (@index_without_int_undefined B (two_idx [@ofZ B 3; B754_nan]) (Ptr 0 0) [@ofZ B 3] B754_nan [] [3%Z] 1 4); [apply two_seg| |done|done].
  constructor; [|constructor]. destruct (ofZ_exact flog fexp fceil 3 ltac:(lia)) as [E F]. split; [|split; [lia|done]].
  etransitivity; [exact (toint_trunc _ F)|]. rewrite E, Ztrunc_IZR. done.
Qed.
Example convert_INT_MIN : @convert_idx B 2 4 (Ptr 0 0) (Ptr 1 0) (two_idx [@ofZ B 3; @ofZ B INT_MIN]) = Ub UbOverflow.
Proof.
  apply (@index_INT_MIN_undefined B (two_idx [@ofZ B 3; @ofZ B INT_MIN]) (Ptr 0 0) [@ofZ B 3] (@ofZ B INT_MIN) [] [3%Z] 1 4); [apply two_seg| | |done].
  - constructor; [|constructor]. destruct (ofZ_exact flog fexp fceil 3 ltac:(lia)) as [E F]. split; [|split; [lia|done]].
    etransitivity; [exact (toint_trunc _ F)|]. rewrite E, Ztrunc_IZR. done.
  - destruct (ofZ_exact flog fexp fceil INT_MIN ltac:(unfold INT_MIN; lia)) as [E F].
    etransitivity; [exact (toint_trunc _ F)|]. rewrite E, Ztrunc_IZR. done.
Qed.
End b64ex.
End MexEx.

Print Assumptions check_input_size_accepts_all.
Print Assumptions indices_converted.
Print Assumptions integer_doubles_converted.
Print Assumptions fractional_index_accepted.
Print Assumptions replace_returns_previous.
Print Assumptions mex_outcome.
Print Assumptions mex_solver_failure_uninitialised.
Print Assumptions mex_ignores_dct_mode.
Print Assumptions mex_reproduces_measurements.
Print Assumptions MexEx.mex_reports_solver_error_refuted.
