(** * Theorems about setting up and destroying DCT transforms: C51, C52, C53. *)
From Coq Require Import ZArith Lia Reals Lra.
From stdpp Require Import base numbers gmap list.
From Verif Require Import Globals Mem M_Math M_Status M_FFTW M_Dct1 M_Dct2 M_Dct M_TVt P_Mem P_Loop P_TVR P_Memory P_Own P_Newton S_Vec L_Lin S_Dct L_Cos P_FFTW P_Dct1 P_Dct1s P_DctR P_Dct2 P_Dct2s P_Dct2R S_Mem S_Xform P_Xform S_DctApi P_Dct P_DctA E_Dct T_Dct.
Local Open Scope Z_scope.

Section life.
Context `{N : Num}.
Context (fft1 : fkind -> list T -> list T) (fft2 : fkind -> nat -> nat -> list T -> list T).
Hypothesis fft1_len : forall k xs, length (fft1 k xs) = length xs.
Hypothesis fft2_len : forall k nr nc xs, length xs = (nr * nc)%nat -> length (fft2 k nr nc xs) = (nr * nc)%nat.
Implicit Types (s : st) (ax : AxFuns).
Notation ops := (dct_ops fft1 fft2).

(** ** C51 *)
(** destroying a transform after any use of it releases its five blocks and touches nothing else *)
Theorem dct_destroy_releases s mrow mcol mode mb mo ms ax s1 : started s mrow mcol mode mb mo ms ax s1 ->
  forall s2, hist (blocks s mb) (ops ax (length ms) (Z.to_nat (mrow * mcol))) s1 s2 ->
    exists s3, call_destroy (ax_destroy ax) s2 = Ok tt s3 /\ gone s2 s3 [nx s; nx s + 1; nx s + 2]%nat [nx s + 4; nx s + 3]%nat.
Proof.
  intros H s2 Hh. destruct (started_inv _ _ _ _ _ _ _ _ _ H) as [_ Hr Hc _ _ Hm _ _]. destruct Hm as [m s1 Eo Em HC HJ|nr nc s1 Eo -> -> HC HJ].
  - rewrite Em, Nat2Z.id in Hh. destruct (destroy1_J (cfg_of s mb mo m ms) s2 HC) as (s3 & E & G); [|cbn; lia|].
    + exact (made1_hist fft1 fft2 fft1_len _ HC s1 s2 HJ Hh).
    + exists s3. split; [exact E|exact G].
  - replace (Z.to_nat (Z.of_nat nr * Z.of_nat nc)) with (nr * nc)%nat in Hh by lia.
    destruct (destroy2_J (cfg2_of s mb mo nr nc ms) s2 HC) as (s3 & E & G); [|cbn; lia|].
    + exact (made2_hist fft1 fft2 fft2_len _ HC s1 s2 HJ Hh).
    + exists s3. split; [exact E|exact G].
Qed.
Lemma owned1_in s k b : (k, b) ∈ owned1 s -> (k = KD /\ b ∈ [nx s; nx s + 1; nx s + 2]%nat) \/ (k = KO /\ b ∈ [nx s + 4; nx s + 3]%nat).
Proof. unfold owned1. rewrite !elem_of_cons, !elem_of_nil. naive_solver. Qed.
Lemma dm_restored s s1 s3 : unborn s -> ledger [] (owned1 s) s s1 -> gone s1 s3 [nx s; nx s + 1; nx s + 2]%nat [nx s + 4; nx s + 3]%nat ->
  dm s3 = dm s /\ om s3 = om s /\ pm s3 = pm s /\ im s3 = im s.
Proof.
  intros Hu L (G1 & G2 & G3 & G4 & _). split_and!.
  - apply map_eq. intros b. rewrite G1. case_bool_decide as Hb.
    + symmetry. apply Hu. repeat (apply elem_of_cons in Hb as [->|Hb]; [lia|]). by apply elem_of_nil in Hb.
    + apply (lg_dm _ _ _ _ L); [apply not_elem_of_nil|]. intros Hi. apply owned1_in in Hi as [[_ Hi]|[Hi _]]; [done|discriminate Hi].
  - apply map_eq. intros b. rewrite G2. case_bool_decide as Hb.
    + symmetry. apply Hu. repeat (apply elem_of_cons in Hb as [->|Hb]; [lia|]). by apply elem_of_nil in Hb.
    + apply (lg_om _ _ _ _ L). intros Hi. apply owned1_in in Hi as [[Hi _]|[_ Hi]]; [discriminate Hi|done].
  - rewrite G3. apply map_eq. intros b. apply (lg_pm _ _ _ _ L). intros Hi. apply owned1_in in Hi as [[Hi _]|[Hi _]]; discriminate Hi.
  - rewrite G4. apply (lg_im _ _ _ _ L).
Qed.
(** set-up and then destroy: the heap is as before, no allocation left and no array changed *)
Theorem dct_setup_destroy_balanced s mrow mcol mode mb mo ms ax s1 : started s mrow mcol mode mb mo ms ax s1 ->
  exists s3, call_destroy (ax_destroy ax) s1 = Ok tt s3 /\ dm s3 = dm s /\ om s3 = om s /\ pm s3 = pm s /\ im s3 = im s.
Proof.
  intros H. destruct (dct_destroy_releases _ _ _ _ _ _ _ _ _ H s1 (h_nil _ _ _)) as (s3 & E & G).
  exists s3. split; [done|]. eapply dm_restored; [apply H| |exact G]. exact (sf_led _ _ _ _ _ _ _ _ _ (started_inv _ _ _ _ _ _ _ _ _ H)).
Qed.
(** destroying the same transform twice is undefined behaviour *)
Theorem dct_destroy_twice_undefined s mrow mcol mode mb mo ms ax s1 : started s mrow mcol mode mb mo ms ax s1 ->
  forall s2 s3, hist (blocks s mb) (ops ax (length ms) (Z.to_nat (mrow * mcol))) s1 s2 -> call_destroy (ax_destroy ax) s2 = Ok tt s3 ->
    call_destroy (ax_destroy ax) s3 = Ub UbFree.
Proof.
  intros H s2 s3 Hh E3. destruct (dct_destroy_releases _ _ _ _ _ _ _ _ _ H s2 Hh) as (s3' & E & G). rewrite E in E3. injection E3 as ->.
  destruct (started_inv _ _ _ _ _ _ _ _ _ H) as [_ Hr Hc _ _ Hm _ _]. destruct G as (G1 & _ & _ & _ & _ & _ & _ & G2).
  assert (Hd : dm s3 !! nx s = None) by (rewrite G1; case_bool_decide as Hb; [done|]; exfalso; apply Hb; left).
  destruct Hm as [m s1 Eo Em HC HJ|nr nc s1 Eo -> -> HC HJ].
  - rewrite Em, Nat2Z.id in Hh. pose proof (made1_hist fft1 fft2 fft1_len _ HC s1 s2 HJ Hh) as HJ2.
    change (dct_destroy s3 = Ub UbFree). unfold dct_destroy. rewrite (bind_ok _ _ _ (st1 (cfg_of s mb mo m ms)) s3) by (unfold get1, getg, bind, ret; by rewrite G2, (j_gl _ _ HJ2)).
    by apply free_dead.
  - replace (Z.to_nat (Z.of_nat nr * Z.of_nat nc)) with (nr * nc)%nat in Hh by lia. pose proof (made2_hist fft1 fft2 fft2_len _ HC s1 s2 HJ Hh) as HJ2.
    change (dct2_destroy s3 = Ub UbFree). unfold dct2_destroy. rewrite (bind_ok _ _ _ (st2 (cfg2_of s mb mo nr nc ms)) s3) by (unfold get2, getg, bind, ret; by rewrite G2, (k_gl _ _ HJ2)).
    by apply free_dead.
Qed.

(** the arguments a set-up accepts *)
Record accepted s (mrow mcol : Z) (p : ptr) (ms : list nat) : Prop := mkAcc {
  ac_u : unborn s; ac_r : 0 < mrow; ac_c : 0 < mcol; ac_i : mrow * mcol <= INT_MAX; ac_n : (0 < length ms)%nat;
  ac_p : segi s p ms; ac_in : forall k, k ∈ ms -> (k < Z.to_nat (mrow * mcol))%nat }.
Lemma accepted_run s mrow mcol mode p ms ax : accepted s mrow mcol p ms ->
  l1c_setup_dct_transforms (Z.of_nat (length ms)) mrow mcol mode p ax s =
  if one_d mrow mcol mode then l1c_dct1_setup (Z.of_nat (length ms)) (mrow * mcol) p ax s else l1c_dct2_setup (Z.of_nat (length ms)) mrow mcol p ax s.
Proof.
  intros [Hu Hr Hc Hi Hn Hp Hms]. rewrite (setup_valid s _ mrow mcol mode p ax (Z.of_nat <$> ms)); try done; [|lia|by apply segi_ints|by rewrite fmap_length].
  replace (forallb _ _) with true; [done|]. symmetry. apply forallb_forall. intros z Hz.
  apply elem_of_list_In, elem_of_list_fmap in Hz as (k & -> & Hk). specialize (Hms k Hk). unfold in_range. apply andb_true_intro. split; apply Z.leb_le; nia.
Qed.
(** a failing 1D set-up returns an error, leaves the struct alone, and leaves nothing allocated, if no
    transform of this kind was set up before in the program *)
Theorem dct1_failed_setup_clean s mrow mcol mode p ms ax : accepted s mrow mcol p ms -> one_d mrow mcol mode = true -> ~ grants s 5 ->
  d1_plan_EMx (g_d1 (gl s)) = Null -> d1_plan_MtEty (g_d1 (gl s)) = Null ->
  exists st s', l1c_setup_dct_transforms (Z.of_nat (length ms)) mrow mcol mode p ax s = Ok (st, ax) s' /\
    (st = L1C_OUT_OF_MEMORY \/ st = L1C_DCT_INIT_FAILURE) /\ dm s' = dm s /\ om s' = om s /\ pm s' = pm s /\ im s' = im s.
Proof.
  intros HA Eo Hg Hp1 Hp2. rewrite accepted_run, Eo by done. destruct HA as [Hu Hr Hc Hi Hn Hp Hms].
  assert (HR : forall s', ledger [] [] s s' -> dm s' = dm s /\ om s' = om s /\ pm s' = pm s /\ im s' = im s).
  { intros s' L. split_and!; [..|apply L]; apply map_eq; intros b; [apply (lg_dm _ _ _ _ L)|apply (lg_om _ _ _ _ L)|apply (lg_pm _ _ _ _ L)]; apply not_elem_of_nil. }
  destruct (setup1_run s (Z.of_nat (length ms)) (mrow * mcol) p ax Hu ltac:(nia)) as [(G & _)|[(_ & _ & s' & E & L)|(_ & s' & E & L)]]; [done|..].
  - eexists. exists s'. split; [exact E|]. split; [by right|]. by apply HR.
  - rewrite Hp1, Hp2 in E. eexists. exists s'. split; [rewrite E; reflexivity|]. split; [by left|]. by apply HR.
Qed.
(** but once a transform was set up and destroyed, a 1D set-up that runs out of memory destroys the
    plans of the old one again *)
Theorem dct1_failed_setup_again_undefined s mrow mcol mode mb mo ms ax s1 s2 mrow' mcol' mode' p' ms' ax' :
  started s mrow mcol mode mb mo ms ax s1 -> one_d mrow mcol mode = true -> call_destroy (ax_destroy ax) s1 = Ok tt s2 ->
  accepted s2 mrow' mcol' p' ms' -> one_d mrow' mcol' mode' = true -> ~ grants s2 3 ->
  l1c_setup_dct_transforms (Z.of_nat (length ms')) mrow' mcol' mode' p' ax' s2 = Ub UbFree.
Proof.
  intros H Eo E2 HA Eo' Hg. destruct (dct_destroy_releases _ _ _ _ _ _ _ _ _ H s1 (h_nil _ _ _)) as (s3 & E & G). rewrite E in E2. injection E2 as ->.
  rewrite accepted_run, Eo' by done. destruct HA as [Hu Hr Hc Hi Hn Hp Hms].
  destruct (started_inv _ _ _ _ _ _ _ _ _ H) as [_ _ _ _ _ Hm _ _]. destruct Hm as [m s1 _ Em HC HJ|? ? ? Eo2]; [|congruence].
  destruct G as (_ & G2 & _ & _ & _ & _ & _ & Gg).
  destruct (setup1_run s2 (Z.of_nat (length ms')) (mrow' * mcol') p' ax' Hu ltac:(nia)) as [(G5 & _)|[(G3 & _)|(_ & s' & E' & L)]]; [|done|].
  - exfalso. apply Hg. intros i Hi'. apply G5. lia.
  - rewrite E'. rewrite Gg, (j_gl _ _ HJ). cbn [st1 d1_plan_EMx]. apply free_o_dead.
    rewrite (lg_om _ _ _ _ L) by apply not_elem_of_nil. rewrite G2. case_bool_decide as Hb; [done|]. exfalso. apply Hb. cbn. left.
Qed.
(** a failing 2D set-up leaves allocated whatever it was granted *)
Theorem dct2_failed_setup_leaks s mrow mcol mode p ms ax : accepted s mrow mcol p ms -> one_d mrow mcol mode = false -> ~ grants s 5 ->
  exists st s', l1c_setup_dct_transforms (Z.of_nat (length ms)) mrow mcol mode p ax s = Ok (st, ax) s' /\
    (st = L1C_OUT_OF_MEMORY \/ st = L1C_DCT_INIT_FAILURE) /\
    (forall i, (i < 3)%nat -> alloc_ok (en s) (nx s + i) = true -> dm s !! (nx s + i)%nat = None /\ is_Some (dm s' !! (nx s + i)%nat)) /\
    (forall i, (i = 3 \/ i = 4)%nat -> grants s 3 -> alloc_ok (en s) (nx s + i) = true -> om s !! (nx s + i)%nat = None /\ is_Some (om s' !! (nx s + i)%nat)).
Proof.
  intros HA Eo Hg. rewrite accepted_run, Eo by done. destruct HA as [Hu Hr Hc Hi Hn Hp Hms].
  destruct (Z_of_nat_complete mrow ltac:(lia)) as [nr ->]. destruct (Z_of_nat_complete mcol ltac:(lia)) as [nc ->].
  destruct (setup2_run s (Z.of_nat (length ms)) nr nc p ax Hu ltac:(lia) ltac:(lia) ltac:(lia)) as [(G & _)|[(_ & _ & s' & E & L)|(G3 & s' & E & L)]]; [done|..].
  - eexists. exists s'. split; [exact E|]. split; [by right|]. split.
    + intros i Hi' Ha. split; [apply Hu; lia|]. destruct (lg_own _ _ _ _ L KD (nx s + i)%nat) as [_ Hh]; [|exact Hh].
      unfold got. destruct i as [|[|[|]]]; [..|lia]; rewrite Ha; repeat (rewrite ?elem_of_app; (left; left) || right).
    + intros i Hi' _ Ha. split; [apply Hu; lia|]. destruct (lg_own _ _ _ _ L KO (nx s + i)%nat) as [_ Hh]; [|exact Hh].
      unfold got. destruct Hi' as [->| ->]; rewrite Ha; rewrite !elem_of_app; [do 4 right; left|do 3 right; left; left].
  - eexists. exists s'. split; [exact E|]. split; [by left|]. split; [|done].
    intros i Hi' Ha. split; [apply Hu; lia|]. destruct (lg_own _ _ _ _ L KD (nx s + i)%nat) as [_ Hh]; [|exact Hh].
    unfold got. destruct i as [|[|[|]]]; [..|lia]; rewrite Ha; rewrite !elem_of_app; [left; left|right; left; left|right; right; left].
Qed.
(** a second set-up of the same kind while one is live: the first transform can never be released *)
Theorem dct_second_setup_leaks s mrow mcol mode mb mo ms ax s1 mrow' mcol' mode' mb' mo' ms' ax' s2 :
  started s mrow mcol mode mb mo ms ax s1 -> started s1 mrow' mcol' mode' mb' mo' ms' ax' s2 -> one_d mrow mcol mode = one_d mrow' mcol' mode' ->
  exists s3, call_destroy (ax_destroy ax') s2 = Ok tt s3 /\ call_destroy (ax_destroy ax) s3 = Ub UbFree /\
    (forall b, b ∈ [nx s; nx s + 1; nx s + 2]%nat -> dm s !! b = None /\ is_Some (dm s3 !! b)) /\
    (forall b, b ∈ [nx s + 3; nx s + 4]%nat -> om s !! b = None /\ is_Some (om s3 !! b)).
Proof.
  intros H H' Eo. destruct (dct_destroy_releases _ _ _ _ _ _ _ _ _ H' s2 (h_nil _ _ _)) as (s3 & E & G).
  pose proof (dct_destroy_twice_undefined _ _ _ _ _ _ _ _ _ H' s2 s3 (h_nil _ _ _) E) as E3.
  pose proof (started_inv _ _ _ _ _ _ _ _ _ H) as [_ _ _ _ _ Hm _ L]. pose proof (started_inv _ _ _ _ _ _ _ _ _ H') as [_ _ _ _ _ Hm' _ L'].
  pose proof (su_unborn _ _ _ _ _ _ _ _ _ H) as Hu.
  exists s3. split; [done|]. split.
  { replace (ax_destroy ax) with (ax_destroy ax'); [done|]. destruct Hm as [? ? Ea _ _ _|? ? ? Ea _ _ _ _], Hm' as [? ? Eb _ _ _|? ? ? Eb _ _ _ _]; try done; congruence. }
  destruct G as (G1 & G2 & _).
  split; intros b Hb.
  - assert (Hin : (KD, b) ∈ owned1 s). { unfold owned1. repeat (apply elem_of_cons in Hb as [->|Hb]); [left|right; left|right; right; left|by apply elem_of_nil in Hb]. }
    destruct (lg_own _ _ _ _ L _ _ Hin) as [Hlt [v Hv]]. split; [apply Hu; lia|]. exists v. rewrite G1. case_bool_decide as Hb'.
    + exfalso. repeat (apply elem_of_cons in Hb' as [->|Hb']; [lia|]). by apply elem_of_nil in Hb'.
    + rewrite (lg_dm _ _ _ _ L'); [done|apply not_elem_of_nil|]. intros Hi. apply (lg_own _ _ _ _ L') in Hi. lia.
  - assert (Hin : (KO, b) ∈ owned1 s). { unfold owned1. repeat (apply elem_of_cons in Hb as [->|Hb]); [do 4 right; left|do 3 right; left|by apply elem_of_nil in Hb]. }
    destruct (lg_own _ _ _ _ L _ _ Hin) as [Hlt [v Hv]]. split; [apply Hu; lia|]. exists v. rewrite G2. case_bool_decide as Hb'.
    + exfalso. repeat (apply elem_of_cons in Hb' as [->|Hb']; [lia|]). by apply elem_of_nil in Hb'.
    + rewrite (lg_om _ _ _ _ L'); [done|]. intros Hi. apply (lg_own _ _ _ _ L') in Hi. lia.
Qed.

(** ** C52: the decision table of the set-up, for all integers *)
(** a number that is not positive: rejected, nothing read, nothing allocated *)
Theorem dct_setup_rejects_sizes s n mrow mcol mode p ax : n <= 0 \/ mrow <= 0 \/ mcol <= 0 ->
  l1c_setup_dct_transforms n mrow mcol mode p ax s = Ok (L1C_INVALID_ARGUMENT, ax) s.
Proof. apply setup_nonpos. Qed.
(** too many pixels for an int, and a NULL index array: undefined behaviour, not an error *)
Theorem dct_setup_overflow_undefined s n mrow mcol mode p ax : 0 < n -> 0 < mrow -> 0 < mcol -> INT_MAX < mrow * mcol ->
  l1c_setup_dct_transforms n mrow mcol mode p ax s = Ub UbOverflow.
Proof. apply setup_overflow. Qed.
Theorem dct_setup_null_undefined s n mrow mcol mode ax : 0 < n -> 0 < mrow -> 0 < mcol -> mrow * mcol <= INT_MAX ->
  exists e, l1c_setup_dct_transforms n mrow mcol mode Null ax s = Ub e.
Proof.
  intros Hn Hr Hc Hi. unfold l1c_setup_dct_transforms. destruct (Z.leb_spec n 0); [lia|]. destruct (Z.leb_spec mrow 0); [lia|]. destruct (Z.leb_spec mcol 0); [lia|].
  cbn [orb]. rewrite (bind_ok _ _ _ _ _ (i32_ok (mrow * mcol) s ltac:(unfold INT_MIN, INT_MAX in *; nia))).
  unfold check_pix_idx, for_brk. destruct (Z.to_nat (n - 0)) eqn:En; [lia|]. eexists. reflexivity.
Qed.
(** otherwise: rejected exactly if an index is outside the image; else the 1D transform exactly if the
    image is a vector or the mode is dct1, with status OK, out of memory or plan failure *)
Theorem dct_setup_decides s mrow mcol mode p ax zs : unborn s -> 0 < mrow -> 0 < mcol -> mrow * mcol <= INT_MAX ->
  ints s p zs -> (0 < length zs)%nat ->
  let run := l1c_setup_dct_transforms (Z.of_nat (length zs)) mrow mcol mode p ax s in
  ((exists z, z ∈ zs /\ ~ (0 <= z < mrow * mcol)) -> run = Ok (L1C_INVALID_ARGUMENT, ax) s) /\
  ((forall z, z ∈ zs -> 0 <= z < mrow * mcol) -> forall st ax' s', run = Ok (st, ax') s' ->
     (st = 0 /\ ax_destroy ax' = Fn (if one_d mrow mcol mode then F_dct_destroy else F_dct2_destroy) \/
      (st = L1C_OUT_OF_MEMORY \/ st = L1C_DCT_INIT_FAILURE) /\ ax' = ax) /\ (st = 0 <-> grants s 5)).
Proof.
  intros Hu Hr Hc Hi Hp Hl. cbv zeta. rewrite (setup_valid s _ mrow mcol mode p ax zs); try done; [|lia].
  split.
  - intros (z & Hz & Hn). destruct (forallb _ _) eqn:Ef; [|done]. rewrite forallb_forall in Ef. specialize (Ef z).
    apply elem_of_list_In in Hz. specialize (Ef Hz). unfold in_range in Ef. apply andb_prop in Ef as [E1 E2]. apply Z.leb_le in E1, E2. lia.
  - intros Hz st ax' s'. replace (forallb _ _) with true.
    2: { symmetry. apply forallb_forall. intros z Hz'. apply elem_of_list_In in Hz'. specialize (Hz z Hz'). unfold in_range. apply andb_true_intro. split; apply Z.leb_le; lia. }
    destruct (one_d mrow mcol mode).
    + destruct (setup1_run s (Z.of_nat (length zs)) (mrow * mcol) p ax Hu ltac:(nia)) as [(G & s2 & E & _)|[(_ & G & s2 & E & L)|(G & s2 & E & L)]]; rewrite E.
      * intros [= <- <- <-]. split; [by left|]. done.
      * intros [= <- <- <-]. split; [right; split; [by right|done]|]. split; [done|done].
      * intros E'. apply bind_inv in E' as (? & ? & ? & E'). apply bind_inv in E' as (? & ? & ? & E'). injection E' as <- <- <-.
        split; [right; split; [by left|done]|]. split; [done|]. intros G5. exfalso. apply G. intros i Hi'. apply G5. lia.
    + destruct (Z_of_nat_complete mrow ltac:(lia)) as [nr ->]. destruct (Z_of_nat_complete mcol ltac:(lia)) as [nc ->].
      destruct (setup2_run s (Z.of_nat (length zs)) nr nc p ax Hu ltac:(lia) ltac:(lia) ltac:(lia)) as [(G & s2 & E & _)|[(_ & G & s2 & E & L)|(G & s2 & E & L)]]; rewrite E; intros [= <- <- <-].
      * split; [by left|]. done.
      * split; [right; split; [by right|done]|]. split; [done|done].
      * split; [right; split; [by left|done]|]. split; [done|]. intros G5. exfalso. apply G. intros i Hi'. apply G5. lia.
Qed.

(** ** C53: after a second set-up of the same kind, the functions of the first struct are the second
    transform's *)
Theorem dct_second_setup_takes_over s mrow mcol mode mb mo ms ax s1 mrow' mcol' mode' mb' mo' ms' ax' s2 :
  started s mrow mcol mode mb mo ms ax s1 -> started s1 mrow' mcol' mode' mb' mo' ms' ax' s2 -> one_d mrow mcol mode = one_d mrow' mcol' mode' ->
  exists A, always (blocks s1 mb') (ops ax' (length ms') (Z.to_nat (mrow' * mcol'))) s2 (o_Ax fft1 fft2 ax' (length ms') (Z.to_nat (mrow' * mcol'))) A /\
    always (blocks s1 mb') (ops ax' (length ms') (Z.to_nat (mrow' * mcol'))) s2 (o_Ax fft1 fft2 ax (length ms') (Z.to_nat (mrow' * mcol'))) A /\
    ax_Aty ax = ax_Aty ax' /\ ax_AtAx ax = ax_AtAx ax' /\ ax_Mx ax = ax_Mx ax' /\ ax_Mty ax = ax_Mty ax' /\ ax_Rx ax = ax_Rx ax' /\ ax_Rty ax = ax_Rty ax'.
Proof.
  intros H H' Eo. destruct (dct_AtAx_is_Aty_after_Ax fft1 fft2 fft1_len fft2_len _ _ _ _ _ _ _ _ _ H') as (A & At & HA & _).
  pose proof (started_inv _ _ _ _ _ _ _ _ _ H) as [_ _ _ _ _ Hm _ _]. pose proof (started_inv _ _ _ _ _ _ _ _ _ H') as [_ _ _ _ _ Hm' _ _].
  assert (Ef : ax_Ax ax = ax_Ax ax' /\ ax_Aty ax = ax_Aty ax' /\ ax_AtAx ax = ax_AtAx ax' /\ ax_Mx ax = ax_Mx ax' /\ ax_Mty ax = ax_Mty ax' /\ ax_Rx ax = ax_Rx ax' /\ ax_Rty ax = ax_Rty ax').
  { destruct Hm as [? ? Ea _ _ _|? ? ? Ea _ _ _ _], Hm' as [? ? Eb _ _ _|? ? ? Eb _ _ _ _]; try done; congruence. }
  destruct Ef as (Ef & R). exists A. split; [done|]. split; [|done]. unfold o_Ax in *. by rewrite Ef.
Qed.
End life.

(** ** Concrete cases *)
Lemma again `{N : Num} e idx ms' bl s0 nr nc mode mb mo ms ax s1 mo' nr' nc' mode' ax0 : s0 = demo e idx bl ->
  started s0 nr nc mode mb mo ms ax s1 -> (forall i, alloc_ok e i = true) ->
  segi s0 (Ptr 0 mo') ms' -> (1 <= nr')%nat -> (1 <= nc')%nat -> (1 <= length ms')%nat -> Z.of_nat (nr' * nc') <= INT_MAX ->
  (forall k, k ∈ ms' -> (k < nr' * nc')%nat) ->
  exists ax' s2, l1c_setup_dct_transforms (Z.of_nat (length ms')) (Z.of_nat nr') (Z.of_nat nc') mode' (Ptr 0 mo') ax0 s1 = Ok (0, ax') s2 /\
    started s1 (Z.of_nat nr') (Z.of_nat nc') mode' 0 mo' ms' ax' s2.
Proof.
  intros -> H He Hi Hr Hc Hl Hmx Hms. pose proof (sf_led _ _ _ _ _ _ _ _ _ (started_inv _ _ _ _ _ _ _ _ _ H)) as L.
  apply started_exists; try done.
  - eapply ledger_unborn; [|exact L]. apply demo_unborn.
  - eapply segi_im; [|exact Hi]. by rewrite (lg_im _ _ _ _ L).
  - intros i _. rewrite (lg_en _ _ _ _ L). apply He.
Qed.

(** C53 in numbers: two pixels; the first transform samples pixel 0, the second pixel 1; afterwards
    the first one's Ax, applied to the DCT of the image 3,4, returns 4 *)
Theorem dct_two_transforms_refuted : exists (s : stR) ax s1 ax' s2 X D s3, started s 1 2 dct1 0 0 [0]%nat ax s1 /\ started s1 1 2 dct1 0 1 [1]%nat ax' s2 /\
  good_call (blocks s1 0) (@o_Ax RN dft1 dft2 ax 1 2) s2 X (dct_fwd 2 [3; 4]%R) D [] /\
  @call RN dft1 dft2 (ax_Ax ax) X D s2 = Ok tt s3 /\ seg s3 D [4%R] /\ ~ seg s3 D [3%R].
Proof.
  set (bl := [@full RN (dct_fwd 2 [3; 4]%R); @fresh RN 1]). set (s := @demo RN env0 [0; 1]%nat bl).
  destruct (@started_exists RN s 1 2 dct1 0 0 [0]%nat ax0) as (ax & s1 & _ & H); try done; try lia.
  { apply demo_unborn. }
  { intros i k Hi. destruct i as [|i]; [|done]. injection Hi as <-. done. }
  { intros k Hk. apply elem_of_cons in Hk as [->|Hk]; [lia|]. by apply elem_of_nil in Hk. }
  destruct (@again RN env0 [0; 1]%nat [1]%nat bl s 1 2 dct1 0 0 [0]%nat ax s1 1 1 2 dct1 ax0 eq_refl H) as (ax' & s2 & _ & H'); try done; try lia.
  { intros i k Hi. destruct i as [|i]; [|done]. injection Hi as <-. done. }
  { intros k Hk. apply elem_of_cons in Hk as [->|Hk]; [lia|]. by apply elem_of_nil in Hk. }
  pose proof (@sf_led RN _ _ _ _ _ _ _ _ _ (started_inv _ _ _ _ _ _ _ _ _ H)) as L.
  pose proof (@sf_led RN _ _ _ _ _ _ _ _ _ (started_inv _ _ _ _ _ _ _ _ _ H')) as L'.
  change (started s 1 2 dct1 0 0 [0]%nat ax s1) in H. change (started s1 1 2 dct1 0 1 [1]%nat ax' s2) in H'.
  assert (Hn : (nx s < nx s1)%nat). { destruct (lg_own _ _ _ _ L KD (nx s)) as [? _]; [left|lia]. }
  assert (HG : good_call (blocks s1 0) (@o_Ax RN dft1 dft2 ax 1 2) s2 (Ptr 1 0) (dct_fwd 2 [3; 4]%R) (Ptr 2 0) []).
  { apply demo_call; try done; try lia.
    - eapply led_seg; [exact L| |]; [intros k; by apply owned1_notin; simpl; lia|]. by apply (@demo_seg RN env0 [0; 1]%nat bl 0).
    - eapply led_wok; [exact L| |]; [intros k; by apply owned1_notin; simpl; lia|]. by apply (@demo_wok RN env0 [0; 1]%nat bl 1 (@fresh RN 1)).
    - eapply led_al; [exact L|simpl; lia|done].
    - eapply led_al; [exact L|simpl; lia|done].
    - simpl in Hn. lia.
    - simpl in Hn. lia. }
  destruct (dct_calls_history_independent_R _ _ _ _ _ _ _ _ _ H') as (_ & _ & H1 & _).
  assert (Ef : ax_Ax ax = ax_Ax ax').
  { pose proof (started_inv _ _ _ _ _ _ _ _ _ H) as [_ _ _ _ _ Hm _ _]. pose proof (started_inv _ _ _ _ _ _ _ _ _ H') as [_ _ _ _ _ Hm' _ _].
    destruct Hm as [? ? Ea _ _ _|? ? ? Ea _ _ _ _], Hm' as [? ? Eb _ _ _|? ? ? Eb _ _ _ _]; try done; congruence. }
  assert (HG' : good_call (blocks s1 0) (@o_Ax RN dft1 dft2 ax' 1 2) s2 (Ptr 1 0) (dct_fwd 2 [3; 4]%R) (Ptr 2 0) []) by (unfold o_Ax in *; by rewrite <- Ef).
  destruct (H1 s2 _ _ _ _ (h_nil _ _ _) HG') as (s3 & E & Sd & _). unfold o_Ax in E. cbn [x_op] in E. rewrite <- Ef in E.
  destruct (orthonormal _ _ _ _ _ _ _ _ _ H') as (_ & _ & _ & HI & _).
  assert (Sd' : seg s3 (Ptr 2 0) [4%R]).
  { assert (EI : sample [1]%nat (xf_inv 1 2 dct1 (xf_fwd 1 2 dct1 [3; 4]%R)) = [4%R]).
    { etransitivity; [apply (f_equal (sample [1]%nat)); exact (HI [3; 4]%R eq_refl)|]. done. }
    change (dct_fwd 2 [3; 4]%R) with (xf_fwd 1 2 dct1 [3; 4]%R) in Sd. by rewrite EI in Sd. }
  exists s, ax, s1, ax', s2, (Ptr 1 0), (Ptr 2 0), s3. split; [exact H|]. split; [exact H'|]. split; [exact HG|]. split; [exact E|]. split; [exact Sd'|].
  intros Sx. pose proof (Sx 0%nat 3%R eq_refl) as E1. pose proof (Sd' 0%nat 4%R eq_refl) as E2. rewrite E1 in E2. injection E2 as E2. lra.
Qed.

(** C51: memory that runs out during the second set-up.  The first one and its destruction succeed. *)
Definition five : @env RN := @mkEnv RN (fun i => (i <=? 5)%nat) (fun _ => true) (fun _ _ _ => 0%R).
Theorem dct1_retry_refuted : exists (s : stR) ax s1 s2, started s 1 2 dct1 0 0 [0]%nat ax s1 /\ call_destroy (ax_destroy ax) s1 = Ok tt s2 /\
  accepted s2 1 2 (Ptr 0 0) [0]%nat /\
  @l1c_setup_dct_transforms RN 1 1 2 dct1 (Ptr 0 0) ax0 s2 = Ub UbFree.
Proof.
  set (s := @demo RN five [0]%nat []). assert (Hin : forall k, k ∈ [0]%nat -> (k < 1 * 2)%nat). { intros k Hk. apply elem_of_cons in Hk as [->|Hk]; [lia|]. by apply elem_of_nil in Hk. }
  destruct (@started_exists RN s 1 2 dct1 0 0 [0]%nat ax0) as (ax & s1 & _ & H); try done; try lia.
  { apply demo_unborn. }
  { apply demo_segi. }
  { intros i Hi. cbn. apply Nat.leb_le. lia. }
  change (started s 1 2 dct1 0 0 [0]%nat ax s1) in H.
  destruct (@dct_setup_destroy_balanced RN dft1 dft2 dft1_len' dft2_len' _ _ _ _ _ _ _ _ _ H) as (s2 & E & Ed & Eo & Ep & Ei).
  destruct (@dct_destroy_releases RN dft1 dft2 dft1_len' dft2_len' _ _ _ _ _ _ _ _ _ H s1 (h_nil _ _ _)) as (s2' & E' & G).
  pose proof (eq_trans (eq_sym E) E') as Q. injection Q as <-. destruct G as (_ & _ & _ & _ & _ & Gn & Ge & _).
  pose proof (@sf_led RN _ _ _ _ _ _ _ _ _ (started_inv _ _ _ _ _ _ _ _ _ H)) as L.
  assert (HA : accepted s2 1 2 (Ptr 0 0) [0]%nat).
  { split; try done; try (simpl; lia).
    - intros b Hb. rewrite Ed, Eo, Ep. apply demo_unborn. pose proof (lg_nx _ _ _ _ L). change (nx (demo five [0]%nat [])) with (nx s). lia.
    - eapply segi_im; [|apply (@demo_segi RN five [0]%nat [])]. by rewrite Ei. }
  exists s, ax, s1, s2. split; [exact H|]. split; [exact E|]. split; [exact HA|].
  apply (@dct1_failed_setup_again_undefined RN dft1 dft2 dft1_len' dft2_len' _ _ _ _ _ _ _ _ _ s2 1 2 dct1 (Ptr 0 0) [0]%nat ax0 H eq_refl E HA eq_refl).
  intros Hg. specialize (Hg 0%nat ltac:(lia)). rewrite Ge, (lg_en _ _ _ _ L), Gn in Hg.
  assert (Hn : (nx s + 5 <= nx s1)%nat). { destruct (lg_own _ _ _ _ L KO (nx s + 4)%nat) as [? _]; [do 3 right; left|lia]. }
  apply Nat.leb_le in Hg. change (nx s) with 1%nat in Hn. lia.
Qed.
(** C51: a 2D set-up whose first plan is refused leaks all three arrays *)
Definition three : @env RN := @mkEnv RN (fun i => (i <=? 3)%nat) (fun _ => true) (fun _ _ _ => 0%R).
Theorem dct2_failed_setup_refuted : exists (s : stR) st s', accepted s 2 2 (Ptr 0 0) [0]%nat /\
  @l1c_setup_dct_transforms RN 1 2 2 dct2 (Ptr 0 0) ax0 s = Ok (st, ax0) s' /\ st <> 0 /\
  (forall b, b ∈ [1; 2; 3]%nat -> dm s !! b = None /\ is_Some (dm s' !! b)).
Proof.
  set (s := @demo RN three [0]%nat []).
  assert (HA : accepted s 2 2 (Ptr 0 0) [0]%nat).
  { split; try done; try (simpl; lia); [apply demo_unborn|apply demo_segi|]. intros k Hk. apply elem_of_cons in Hk as [->|Hk]; [lia|]. by apply elem_of_nil in Hk. }
  destruct (@dct2_failed_setup_leaks RN s 2 2 dct2 (Ptr 0 0) [0]%nat ax0 HA eq_refl) as (st & s' & E & Hs & H1 & _).
  { intros G. specialize (G 3%nat ltac:(lia)). done. }
  exists s, st, s'. split; [done|]. split; [exact E|]. split; [by destruct Hs as [->| ->]|].
  intros b Hb. repeat (apply elem_of_cons in Hb as [->|Hb]); [apply (H1 0%nat); [lia|done]|apply (H1 1%nat); [lia|done]|apply (H1 2%nat); [lia|done]|by apply elem_of_nil in Hb].
Qed.
(** C51: the other hypotheses are met *)
Definition none : @env RN := @mkEnv RN (fun _ => false) (fun _ => true) (fun _ _ _ => 0%R).
Example dct1_failed_case : exists (s : stR), accepted s 1 2 (Ptr 0 0) [0]%nat /\ ~ grants s 5 /\ one_d 1 2 dct1 = true /\
  d1_plan_EMx (g_d1 (gl s)) = Null /\ d1_plan_MtEty (g_d1 (gl s)) = Null.
Proof.
  exists (@demo RN none [0]%nat []). split; [|split; [|done]].
  - split; try done; try (simpl; lia); [apply demo_unborn|apply demo_segi|]. intros k Hk. apply elem_of_cons in Hk as [->|Hk]; [simpl; lia|]. by apply elem_of_nil in Hk.
  - intros G. specialize (G 0%nat ltac:(lia)). done.
Qed.
Example second_setup_case : exists (s : stR) ax s1 ax' s2, started s 2 3 dct2 0 0 [4; 0]%nat ax s1 /\ started s1 3 2 dct2 0 0 [4; 0]%nat ax' s2 /\ one_d 2 3 dct2 = one_d 3 2 dct2.
Proof.
  assert (Hin : forall k, k ∈ [4; 0]%nat -> (k < 2 * 3)%nat). { intros k Hk. repeat (apply elem_of_cons in Hk as [->|Hk]; [lia|]). by apply elem_of_nil in Hk. }
  destruct (@demo_started RN env0 [] 2 3 dct2 [4; 0]%nat ax0) as (ax & s1 & _ & H); try done; try (simpl; lia).
  destruct (@again RN env0 [4; 0]%nat [4; 0]%nat [] _ 2 3 dct2 0 0 [4; 0]%nat ax s1 0 3 2 dct2 ax0 eq_refl H) as (ax' & s2 & _ & H'); try done; try (simpl; lia).
  { apply demo_segi. }
  exists (@demo RN env0 [4; 0]%nat []), ax, s1, ax', s2. done.
Qed.
(** C52: an index outside the image *)
Example dct_setup_reject_case : exists (s : stR) z, unborn s /\ ints s (Ptr 0 0) [1; z] /\ ~ (0 <= z < 1 * 2) /\
  @l1c_setup_dct_transforms RN 2 1 2 dct1 (Ptr 0 0) ax0 s = Ok (L1C_INVALID_ARGUMENT, ax0) s.
Proof.
  set (s := @demo RN env0 [1; 2]%nat []). assert (Hi : ints s (Ptr 0 0) [1; 2]) by (apply (segi_ints s (Ptr 0 0) [1; 2]%nat), demo_segi).
  exists s, 2. split; [apply demo_unborn|]. split; [done|]. split; [lia|].
  destruct (@dct_setup_decides RN s 1 2 dct1 (Ptr 0 0) ax0 [1; 2] (demo_unborn _ _ _) ltac:(lia) ltac:(lia) ltac:(unfold INT_MAX; lia) Hi ltac:(simpl; lia)) as [H _].
  apply H. exists 2. split; [right; left|lia].
Qed.

Print Assumptions dct_destroy_releases.
Print Assumptions dct_setup_destroy_balanced.
Print Assumptions dct_destroy_twice_undefined.
Print Assumptions dct1_failed_setup_clean.
Print Assumptions dct1_failed_setup_again_undefined.
Print Assumptions dct2_failed_setup_leaks.
Print Assumptions dct_second_setup_leaks.
Print Assumptions dct_setup_rejects_sizes.
Print Assumptions dct_setup_overflow_undefined.
Print Assumptions dct_setup_null_undefined.
Print Assumptions dct_setup_decides.
Print Assumptions dct_second_setup_takes_over.
Print Assumptions dct_two_transforms_refuted.
Print Assumptions dct1_retry_refuted.
Print Assumptions dct2_failed_setup_refuted.
