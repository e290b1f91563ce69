(** * Theorems about the DCT-TV transforms: C55, C56, C69, C70 (and C50, C51, C53 for them). *)
From Coq Require Import ZArith Lia Reals Lra Psatz.
From stdpp Require Import base numbers gmap list.
From Verif Require Import Globals Mem M_Math M_Memory M_Status M_FFTW M_TV M_Dct M_TVt P_Mem P_Loop P_Math P_MathR P_TVR P_Touch P_Step P_TV P_Memory P_Own P_Newton L_Sum S_Vec L_Lin L_Nesta S_Img S_Newt S_Dct L_Cos P_FFTW P_Dct1 P_Dct1s P_DctR P_Dct2 P_Dct2s P_Dct2R S_Mem S_Xform P_Xform S_DctApi P_Dct P_DctA S_TVtApi P_TVt P_TVs P_TVa P_TVuR E_Dct T_Dct T_DctLife.
Local Open Scope Z_scope.

(** ** Any arithmetic, any FFT of the right length *)
Section generic.
Context `{N : Num}.
Context (fft1 : fkind -> list T -> list T) (fft2 : fkind -> nat -> nat -> list T -> list T).
Hypothesis fft1_len : forall k xs, length (fft1 k xs) = length xs.
Hypothesis fft2_len : forall k nr nc xs, length xs = (nr * nc)%nat -> length (fft2 k nr nc xs) = (nr * nc)%nat.
Implicit Types (s : st) (ax : AxFuns).
Notation top := (tvop fft1 fft2).
(** the 1D transform changes entry 0 of its argument unless this holds (C57) *)
Definition exact_mode mrow mcol mode : Prop := one_d mrow mcol mode = false \/ forall v : T, div (mul v (sqrt_ two)) (sqrt_ two) = v.

Lemma m_nat nr nc : Z.to_nat (Z.of_nat nr * Z.of_nat nc) = (nr * nc)%nat. Proof. lia. Qed.

(** C50 for the DCT-TV transform: every function has one fixed value for each argument whatever was
    called before (except that R^T multiplies the old result by 0, and that A^T of the synthesis
    mode needs an earlier call of Mx, see C69) *)
Theorem tv_analysis_history_independent s mrow mcol av ah mode bp mb mo ms ax s1 :
  started_t s mrow mcol av ah mode bp mb mo ms ax s1 -> bp <> synthesis -> exact_mode mrow mcol mode ->
  let n := length ms in let m := Z.to_nat (mrow * mcol) in let p := width av ah m in
  let F := blocks_t s mb in let ops := analysis_ops fft1 fft2 ax n m p in
  (forall o, o ∈ [top ax ax_Ax m n false; top ax ax_Mx m m false; top ax ax_Mty m m false; top ax ax_Wz p m false; top ax ax_Wtx m p false; top ax ax_Rx m n false] ->
     exists f, always F ops s1 o f) /\
  (forall o, o ∈ [top ax ax_Aty n m true; top ax ax_Rty n m true] -> exists f, always_d F ops s1 o f).
Proof.
  intros H Hbp HC. cbv zeta. destruct (started_live fft1 fft2 fft1_len fft2_len _ _ _ _ _ _ _ _ _ _ _ _ H) as (nr & nc & sb & axb & J & -> & -> & L).
  rewrite m_nat. apply Z.eqb_neq in Hbp. destruct (an _ _ _ _ _ _ _ _ _ _ _ _ _ _ _ _ L HC Hbp). split.
  - intros o Ho. repeat (apply elem_of_cons in Ho as [->|Ho]; [eexists; eassumption|]). by apply elem_of_nil in Ho.
  - intros o Ho. repeat (apply elem_of_cons in Ho as [->|Ho]; [eexists; eassumption|]). by apply elem_of_nil in Ho.
Qed.
Theorem tv_synthesis_history_independent s mrow mcol av ah mode mb mo ms ax s1 :
  started_t s mrow mcol av ah mode synthesis mb mo ms ax s1 -> exact_mode mrow mcol mode ->
  let n := length ms in let m := Z.to_nat (mrow * mcol) in let p := width av ah m in
  let F := blocks_t s mb in let ops := synthesis_ops fft1 fft2 ax n m p in
  (forall o, o ∈ [top ax ax_Ax p n false; top ax ax_Mx p m false; top ax ax_Mty m p false; top ax ax_Wz m m false; top ax ax_Wtx m m false; top ax ax_Rx m n false] ->
     exists f, always F ops s1 o f) /\
  (exists f, always_d F ops s1 (top ax ax_Rty n m true) f).
Proof.
  intros H HC. cbv zeta. destruct (started_live fft1 fft2 fft1_len fft2_len _ _ _ _ _ _ _ _ _ _ _ _ H) as (nr & nc & sb & axb & J & -> & -> & L).
  rewrite m_nat. destruct (sy _ _ _ _ _ _ _ _ _ _ _ _ _ _ _ _ L HC eq_refl). split.
  - intros o Ho. repeat (apply elem_of_cons in Ho as [->|Ho]; [eexists; eassumption|]). by apply elem_of_nil in Ho.
  - eexists; eassumption.
Qed.

(** C69: in synthesis mode Aty reads the work array of the transform before anything has written it:
    undefined behaviour right after a successful set-up, and after any use of the other functions
    except Ax and Mx *)
Theorem tv_synthesis_Aty_undefined s mrow mcol av ah mode mb mo ms ax s1 :
  started_t s mrow mcol av ah mode synthesis mb mo ms ax s1 ->
  let n := length ms in let m := Z.to_nat (mrow * mcol) in let p := width av ah m in
  let F := blocks_t s mb in
  forall s2 Y D, hist F [top ax ax_Mty m p false; top ax ax_Wz m m false; top ax ax_Wtx m m false; top ax ax_Rx m n false; top ax ax_Rty n m true] s1 s2 ->
    call fft1 fft2 (ax_Aty ax) Y D s2 = Ub UbUninit.
Proof.
  intros H. cbv zeta. destruct (started_live fft1 fft2 fft1_len fft2_len _ _ _ _ _ _ _ _ _ _ _ _ H) as (nr & nc & sb & axb & J & -> & -> & L).
  rewrite m_nat. intros s2 Y D Hh. exact (sy_uninit _ _ _ _ _ _ _ _ _ _ _ _ _ _ _ _ L eq_refl s2 Y D Hh).
Qed.

(** C70: in synthesis mode the struct says x has m' = width entries and W^T x has p' = mrow*mcol, but
    Wtx keeps only the first mrow*mcol entries of x: with a positive scale W is not the identity the
    header promises (include/l1c.h:88, 122; dct_tv_transforms.c:46) *)
Theorem tv_synthesis_Wtx_truncates s mrow mcol av ah mode mb mo ms ax s1 :
  started_t s mrow mcol av ah mode synthesis mb mo ms ax s1 -> exact_mode mrow mcol mode ->
  let n := length ms in let m := Z.to_nat (mrow * mcol) in let p := width av ah m in
  ax_m ax = Z.of_nat p /\ ax_p ax = Z.of_nat m /\
  always (blocks_t s mb) (synthesis_ops fft1 fft2 ax n m p) s1 (top ax ax_Wtx p m false) (fun x => take m x).
Proof.
  intros H HC. cbv zeta. destruct (started_live fft1 fft2 fft1_len fft2_len _ _ _ _ _ _ _ _ _ _ _ _ H) as (nr & nc & sb & axb & J & -> & -> & L).
  rewrite m_nat. destruct (sy_ax _ _ _ _ _ _ _ _ _ _ _ _ _ _ _ _ L eq_refl) as (nw & ag & Eax). split; [by rewrite Eax|]. split; [by rewrite Eax|].
  pose proof (sy_Wtx _ _ _ _ _ _ _ _ _ _ _ _ _ (sy _ _ _ _ _ _ _ _ _ _ _ _ _ _ _ _ L HC eq_refl)) as HW.
  intros s2 X xs D ds Hh HG. destruct HG as [Sx Lx Wd _ Hd Ax Ad Ox Od]. cbn [tvop x_in x_out x_op] in *.
  assert (Lt : length (take (nr * nc) xs) = (nr * nc)%nat) by (rewrite take_length; unfold width in Lx; lia).
  destruct (HW s2 X (take (nr * nc) xs) D ds Hh) as (s3 & E & Sd & Ld & HF).
  - split; try done; cbn [tvop x_in x_out x_op].
    + intros i v Hi. apply Sx. apply lookup_take_Some in Hi. tauto.
    + eapply disj_le; [exact Hd|lia|unfold width; lia].
  - exists s3. split; [exact E|]. split; [exact Sd|]. split; [exact Ld|exact HF].
Qed.

(** ** C51 *)
Lemma tv_live_hist s nr nc av ah mode bp mb ms ax s1 sb axb J : live fft1 fft2 s nr nc av ah mode bp mb ms ax s1 sb axb J ->
  exact_mode (Z.of_nat nr) (Z.of_nat nc) mode -> forall s2, hist (blocks_t s mb) (tv_ops fft1 fft2 bp ax (length ms) (nr * nc) (width av ah (nr * nc))) s1 s2 ->
  Jx J axb nr nc av ah (nx s) Known s2.
Proof.
  intros L HC s2. unfold tv_ops. destruct (bp =? synthesis) eqn:Eb; intros Hh.
  - exact (sy_hist _ _ _ _ _ _ _ _ _ _ _ _ _ _ _ _ L HC Eb s2 Hh).
  - exact (an_hist _ _ _ _ _ _ _ _ _ _ _ _ _ _ _ _ L HC Eb s2 Hh).
Qed.
Lemma tv_ax_destroy s nr nc av ah mode bp mb ms ax s1 sb axb J : live fft1 fft2 s nr nc av ah mode bp mb ms ax s1 sb axb J -> ax_destroy ax = Fn F_tv_destroy.
Proof. intros L. destruct (lv_ax _ _ _ _ _ _ _ _ _ _ _ _ _ _ _ _ L) as (a0 & ->). unfold ax_fin. by destruct (bp =? synthesis). Qed.
Lemma tv_destroy_run s nr nc av ah mode bp mb ms ax s1 sb axb J s2 : live fft1 fft2 s nr nc av ah mode bp mb ms ax s1 sb axb J ->
  Jx J axb nr nc av ah (nx s) Known s2 -> exists s3, call_destroy (ax_destroy ax) s2 = Ok tt s3 /\
    gone s2 s3 [nx s; nx s + 1; nx s + 2; nx s + 3]%nat [nx s + 5; nx s + 4]%nat.
Proof.
  intros L HQ. rewrite (tv_ax_destroy _ _ _ _ _ _ _ _ _ _ _ _ _ _ L). cbn [call_destroy]. pose proof (Jx_Jt _ _ _ _ _ _ _ _ _ HQ) as [HJ Hg Hu _].
  unfold tv_destroy. rewrite (bind_ok _ _ _ (stt axb nr nc av ah (nx s)) s2) by (unfold gett, getg, bind, ret; by rewrite Hg). cbn [stt tv_ax].
  destruct (b_destroy _ _ _ _ _ _ _ _ _ _ _ (lv_base _ _ _ _ _ _ _ _ _ _ _ _ _ _ _ _ L) s2 HJ) as (s3 & E & G1 & G2 & G3 & G4 & G5 & G6 & G7 & G8).
  rewrite (bind_ok _ _ _ _ _ E). rewrite (bind_ok _ _ _ (stt axb nr nc av ah (nx s)) s3) by (unfold gett, getg, bind, ret; by rewrite G8, Hg).
  cbn [stt tv_u]. pose proof (lv_nx _ _ _ _ _ _ _ _ _ _ _ _ _ _ _ _ L) as En. rewrite En in G1, G2.
  assert (Hl : is_Some (dm s3 !! nx s)).
  { rewrite G1. case_bool_decide as Hb; [|eapply wok_live; [exact Hu|]; pose proof (lv_r _ _ _ _ _ _ _ _ _ _ _ _ _ _ _ _ L); pose proof (lv_c _ _ _ _ _ _ _ _ _ _ _ _ _ _ _ _ L); unfold psize; nia].
    exfalso. repeat (apply elem_of_cons in Hb as [Hb|Hb]; [lia|]). by apply elem_of_nil in Hb. }
  destruct Hl as [c Hc]. unfold l1c_free_double, free_d. cbn [Z.eqb]. rewrite Hc. eexists. split; [reflexivity|]. split; [|split; [|done]].
  - intros b. cbn [set_dm dm]. destruct (decide (b = nx s)) as [->|Hne].
    + rewrite lookup_delete. case_bool_decide as Hb; [done|]. exfalso. apply Hb. left.
    + rewrite lookup_delete_ne by done. rewrite G1. apply f_equal2 with (f := fun (c : bool) x => if c then None else x); [|done].
      apply bool_decide_ext. rewrite !elem_of_cons, !elem_of_nil. lia.
  - intros b. cbn [set_dm om]. rewrite G2. apply f_equal2 with (f := fun (c : bool) x => if c then None else x); [|done].
    apply bool_decide_ext. rewrite !elem_of_cons, !elem_of_nil. lia.
Qed.
(** destroying the transform after any use of it releases its six blocks and touches nothing else *)
Theorem tv_destroy_releases s mrow mcol av ah mode bp mb mo ms ax s1 :
  started_t s mrow mcol av ah mode bp mb mo ms ax s1 -> exact_mode mrow mcol mode ->
  let m := Z.to_nat (mrow * mcol) in
  forall s2, hist (blocks_t s mb) (tv_ops fft1 fft2 bp ax (length ms) m (width av ah m)) s1 s2 ->
    exists s3, call_destroy (ax_destroy ax) s2 = Ok tt s3 /\
      gone s2 s3 [nx s; nx s + 1; nx s + 2; nx s + 3]%nat [nx s + 5; nx s + 4]%nat /\ call_destroy (ax_destroy ax) s3 = Ub UbFree.
Proof.
  intros H HC. cbv zeta. destruct (started_live fft1 fft2 fft1_len fft2_len _ _ _ _ _ _ _ _ _ _ _ _ H) as (nr & nc & sb & axb & J & -> & -> & L).
  rewrite m_nat. intros s2 Hh. pose proof (tv_live_hist _ _ _ _ _ _ _ _ _ _ _ _ _ _ L HC s2 Hh) as HQ.
  destruct (tv_destroy_run _ _ _ _ _ _ _ _ _ _ _ _ _ _ s2 L HQ) as (s3 & E & G). exists s3. split; [done|]. split; [done|].
  rewrite (tv_ax_destroy _ _ _ _ _ _ _ _ _ _ _ _ _ _ L). cbn [call_destroy]. pose proof (Jx_Jt _ _ _ _ _ _ _ _ _ HQ) as [HJ Hg Hu _].
  destruct G as (G1 & _ & _ & _ & _ & _ & _ & G8).
  unfold tv_destroy. rewrite (bind_ok _ _ _ (stt axb nr nc av ah (nx s)) s3) by (unfold gett, getg, bind, ret; by rewrite G8, Hg). cbn [stt tv_ax].
  unfold bind. rewrite (b_destroy2 _ _ _ _ _ _ _ _ _ _ _ (lv_base _ _ _ _ _ _ _ _ _ _ _ _ _ _ _ _ L) s2 s3 HJ G8); [done|].
  rewrite G1. case_bool_decide as Hb; [done|]. exfalso. apply Hb. rewrite (lv_nx _ _ _ _ _ _ _ _ _ _ _ _ _ _ _ _ L), !elem_of_cons. lia.
Qed.
(** set-up and then destroy: the heap is as before *)
Theorem tv_setup_destroy_balanced s mrow mcol av ah mode bp mb mo ms ax s1 : started_t s mrow mcol av ah mode bp mb mo ms ax s1 ->
  exists s3, call_destroy (ax_destroy ax) s1 = Ok tt s3 /\ dm s3 = dm s /\ om s3 = om s /\ pm s3 = pm s /\ im s3 = im s.
Proof.
  intros H. destruct (started_live fft1 fft2 fft1_len fft2_len _ _ _ _ _ _ _ _ _ _ _ _ H) as (nr & nc & sb & axb & J & -> & -> & L).
  destruct (tv_destroy_run _ _ _ _ _ _ _ _ _ _ _ _ _ _ s1 L (or_introl (lv_J _ _ _ _ _ _ _ _ _ _ _ _ _ _ _ _ L))) as (s3 & E & G1 & G2 & G3 & G4 & _).
  exists s3. split; [done|]. pose proof (lv_led _ _ _ _ _ _ _ _ _ _ _ _ _ _ _ _ L) as Led. pose proof (st_unborn _ _ _ _ _ _ _ _ _ _ _ _ H) as Hu.
  assert (HO : forall k b, (k, b) ∈ owned1 sb ++ [(KD, nx s)] -> (k = KD /\ b ∈ [nx s; nx s + 1; nx s + 2; nx s + 3]%nat) \/ (k = KO /\ b ∈ [nx s + 5; nx s + 4]%nat)).
  { intros k b Hin. apply elem_of_app in Hin as [Hin|Hin].
    - apply owned1_in in Hin as [[-> Hin]|[-> Hin]]; rewrite (lv_nx _ _ _ _ _ _ _ _ _ _ _ _ _ _ _ _ L) in Hin; rewrite !elem_of_cons, !elem_of_nil in *; [left|right]; split; try done; lia.
    - apply elem_of_list_singleton in Hin as [= -> ->]. left. split; [done|]. left. }
  split_and!.
  - apply map_eq. intros b. rewrite G1. case_bool_decide as Hb.
    + symmetry. apply Hu. rewrite !elem_of_cons, elem_of_nil in Hb. lia.
    + apply (lg_dm _ _ _ _ Led); [apply not_elem_of_nil|]. intros Hi. apply HO in Hi as [[_ Hi]|[Hi _]]; [done|discriminate Hi].
  - apply map_eq. intros b. rewrite G2. case_bool_decide as Hb.
    + symmetry. apply Hu. rewrite !elem_of_cons, elem_of_nil in Hb. lia.
    + apply (lg_om _ _ _ _ Led). intros Hi. apply HO in Hi as [[Hi _]|[_ Hi]]; [discriminate Hi|done].
  - rewrite G3. apply map_eq. intros b. apply (lg_pm _ _ _ _ Led). intros Hi. apply HO in Hi as [[Hi _]|[Hi _]]; discriminate Hi.
  - rewrite G4. apply (lg_im _ _ _ _ Led).
Qed.
(** C53: after a second set-up in the same mode, the functions of the first struct are the second
    transform's *)
Theorem tv_second_setup_takes_over s mrow mcol av ah mode bp mb mo ms ax s1 mrow' mcol' av' ah' mode' bp' mb' mo' ms' ax' s2 :
  started_t s mrow mcol av ah mode bp mb mo ms ax s1 -> started_t s1 mrow' mcol' av' ah' mode' bp' mb' mo' ms' ax' s2 -> (bp =? synthesis) = (bp' =? synthesis) ->
  ax_Ax ax = ax_Ax ax' /\ ax_Aty ax = ax_Aty ax' /\ ax_Mx ax = ax_Mx ax' /\ ax_Mty ax = ax_Mty ax' /\ ax_Wz ax = ax_Wz ax' /\ ax_Wtx ax = ax_Wtx ax' /\
  ax_Rx ax = ax_Rx ax' /\ ax_Rty ax = ax_Rty ax' /\ ax_destroy ax = ax_destroy ax'.
Proof.
  intros H H' Eb. destruct (started_live fft1 fft2 fft1_len fft2_len _ _ _ _ _ _ _ _ _ _ _ _ H) as (nr & nc & sb & axb & J & _ & _ & L).
  destruct (started_live fft1 fft2 fft1_len fft2_len _ _ _ _ _ _ _ _ _ _ _ _ H') as (nr' & nc' & sb' & axb' & J' & _ & _ & L').
  destruct (lv_ax _ _ _ _ _ _ _ _ _ _ _ _ _ _ _ _ L) as (a0 & ->). destruct (lv_ax _ _ _ _ _ _ _ _ _ _ _ _ _ _ _ _ L') as (a0' & ->).
  unfold ax_fin. rewrite <- Eb. destruct (bp =? synthesis); done.
Qed.

(** ** C56 *)
(** AtAx is not assigned: the field keeps what the caller's struct held *)
Theorem tv_AtAx_never_set s n mrow mcol av ah mode bp p ax0 st ax s1 :
  l1c_setup_dctTV_transforms n mrow mcol av ah mode bp p ax0 s = Ok (st, ax) s1 -> ax_AtAx ax = ax_AtAx ax0.
Proof.
  unfold l1c_setup_dctTV_transforms. intros E.
  repeat (apply bind_inv in E as (? & ? & _ & E) || (match type of E with (if ?b then _ else _) _ = _ => destruct b end)); injection E as _ <- _; try done.
  by destruct (bp =? synthesis).
Qed.
(** so that calling it on a struct that was zeroed before the set-up is undefined *)
Theorem tv_AtAx_refuted s n mrow mcol av ah mode bp p st ax s1 X D s2 :
  l1c_setup_dctTV_transforms n mrow mcol av ah mode bp p ax0 s = Ok (st, ax) s1 -> call fft1 fft2 (ax_AtAx ax) X D s2 = Ub UbCall.
Proof. intros E. by rewrite (tv_AtAx_never_set _ _ _ _ _ _ _ _ _ _ _ _ _ E). Qed.

(** the arguments the set-up accepts *)
Definition tv_accepts (n mrow mcol : Z) (av ah : T) (zs : list Z) : Prop :=
  0 < n /\ 0 < mrow /\ 0 < mcol /\ ltb_ av zero = false /\ ltb_ ah zero = false /\
  (ltb_ zero av = true \/ ltb_ zero ah = true -> 2 < mrow /\ 2 < mcol) /\ (forall z, z ∈ zs -> 0 <= z < mrow * mcol).
Lemma tv_valid_iff n mrow mcol av ah zs : tv_valid n mrow mcol av ah zs = true <-> tv_accepts n mrow mcol av ah zs.
Proof.
  unfold tv_valid, tv_accepts. rewrite !andb_true_iff, !negb_true_iff, !Z.ltb_lt, andb_false_iff, !orb_false_iff, !Z.leb_gt, forallb_forall. unfold in_range.
  assert (Hz : (forall x, In x zs -> (0 <=? x) && (x <=? mrow * mcol - 1) = true) <-> (forall z, z ∈ zs -> 0 <= z < mrow * mcol)).
  { split; intros Hx z Hin; [apply elem_of_list_In in Hin|apply elem_of_list_In in Hin]; specialize (Hx z Hin); rewrite ?andb_true_iff, ?Z.leb_le in *; lia. }
  rewrite Hz. destruct (ltb_ zero av), (ltb_ zero ah); intuition (congruence || lia).
Qed.
(** more pixels than an int can count: undefined before any check *)
Theorem tv_setup_overflow_undefined s n mrow mcol av ah mode bp p ax : in_int (mrow * mcol) = false ->
  l1c_setup_dctTV_transforms n mrow mcol av ah mode bp p ax s = Ub UbOverflow.
Proof. apply setupT_overflow. Qed.
(** the decision table otherwise.  A rejected call returns L1C_INVALID_ARGUMENT and leaves the struct
    and the heap alone, but has overwritten the static variables of a live transform *)
Theorem tv_setup_decides s n mrow mcol av ah mode bp p ax zs : unborn s -> in_int (mrow * mcol) = true ->
  (0 < n -> ints s p zs /\ n = Z.of_nat (length zs)) ->
  let run := l1c_setup_dctTV_transforms n mrow mcol av ah mode bp p ax s in
  (~ tv_accepts n mrow mcol av ah zs -> exists s', run = Ok (L1C_INVALID_ARGUMENT, ax) s' /\
     dm s' = dm s /\ om s' = om s /\ pm s' = pm s /\ im s' = im s /\ nx s' = nx s /\
     let t := g_tv (gl s) in g_tv (gl s') = mkTV _ (mrow * mcol) mrow mcol (mrow * mcol) ah av (tv_ax t) (tv_u t) 0 0 false false) /\
  (tv_accepts n mrow mcol av ah zs -> INT_MAX < Z.of_nat (width av ah (Z.to_nat (mrow * mcol))) -> run = Ub UbOverflow) /\
  (tv_accepts n mrow mcol av ah zs -> Z.of_nat (width av ah (Z.to_nat (mrow * mcol))) <= INT_MAX ->
     forall st ax' s', run = Ok (st, ax') s' ->
       (st = 0 <-> grants s 6) /\ (st = 0 \/ st = L1C_OUT_OF_MEMORY \/ st = L1C_DCT_INIT_FAILURE) /\
       (st <> 0 -> ax_Ax ax' = ax_Ax ax /\ ax_destroy ax' = ax_destroy ax) /\
       (st = 0 -> ax_destroy ax' = Fn F_tv_destroy)).
Proof.
  intros Hu Hi Hz. cbv zeta. rewrite (setupT_run s n mrow mcol av ah mode bp p ax zs Hi) by exact Hz.
  assert (Hw : 0 < mrow -> 0 < mcol -> Z.of_nat (width av ah (Z.to_nat (mrow * mcol))) = pz (mrow * mcol) av ah).
  { intros. unfold width, pz. assert (0 < mrow * mcol) by nia. destruct (ltb_ zero av), (ltb_ zero ah); lia. }
  split; [|split].
  - intros Hn. destruct (tv_valid _ _ _ _ _ _) eqn:Ev; [apply tv_valid_iff in Ev; done|]. eexists. split; [reflexivity|]. done.
  - intros Ha Hlt. rewrite (proj2 (tv_valid_iff _ _ _ _ _ _) Ha). destruct Ha as (_ & Hr & Hc & _). rewrite Hw in Hlt by done.
    destruct (in_int (pz _ _ _)) eqn:Ep; [|done]. unfold in_int in Ep. apply andb_true_iff in Ep as [_ Ep]. apply Z.leb_le in Ep. lia.
  - intros Ha Hle st ax' s' E. rewrite (proj2 (tv_valid_iff _ _ _ _ _ _) Ha) in E. destruct Ha as (Hn & Hr & Hc & Hav & Hah & Hbig & Hin).
    rewrite Hw in Hle by done.
    destruct (in_int (pz _ _ _)) eqn:Ep; [|done]. assert (Hp0 : 0 <= pz (mrow * mcol) av ah) by (rewrite <- Hw by done; lia).
    destruct (rest_cases s n mrow mcol av ah mode bp p ax Hu Hp0) as [(Hna & s2 & E2 & _)|(Hga & sb & Hnx & Hub & Led & Hd & Hal & Hg1 & Hg2 & Hgt & E2)].
    + rewrite E in E2. injection E2 as -> -> ->. split; [|split; [by right; left|split; [done|done]]]. split; [done|]. intros G. specialize (G 0%nat ltac:(lia)).
      rewrite Nat.add_0_r in G. congruence.
    + rewrite E in E2. clear E. symmetry in E2. unfold tv_end in E2. cbv zeta in E2. apply bind_inv in E2 as ([r axb] & sb1 & E1 & E2).
      rewrite sett_step in E2. cbn [fst snd] in E2.
      assert (Hints : ints sb p zs /\ n = Z.of_nat (length zs)).
      { destruct (Hz Hn) as [Hints Hl]. split; [|done]. intros i z Hi'. specialize (Hints i z Hi'). clear -Hints Led.
        unfold ldi in *. destruct p as [|b o]; [done|]. rewrite (lg_im _ _ _ _ Led). repeat case_match; try done; by injection Hints as <-. }
      destruct Hints as [Hints Hl].
      assert (Hmx : mrow * mcol <= INT_MAX) by (unfold in_int in Hi; apply andb_true_iff in Hi as [_ Hi]; by apply Z.leb_le in Hi).
      assert (Hst : (r = 0 <-> grants sb 5) /\ (r = 0 \/ r = L1C_OUT_OF_MEMORY \/ r = L1C_DCT_INIT_FAILURE)).
      { destruct (dct_setup_decides sb mrow mcol mode p (tv_ax (g_tv (gl s))) zs Hub Hr Hc Hmx Hints ltac:(lia)) as [_ HD]. rewrite <- Hl in HD.
        destruct (HD Hin r axb sb1 E1) as [[[-> _]|[Ho _]] HG]; split; try done; tauto. }
      assert (HG : grants sb 5 <-> grants s 6).
      { unfold grants. rewrite Hnx, (lg_en _ _ _ _ Led). split; intros G i Hi'.
        - destruct i as [|i]; [by rewrite Nat.add_0_r|]. rewrite Nat.add_succ_r. apply (G i). lia.
        - specialize (G (S i) ltac:(lia)). by rewrite Nat.add_succ_r in G. }
      rewrite HG in Hst. destruct (r =? 0) eqn:Er; cbn [negb] in E2.
      * injection E2 as <- <- _. apply Z.eqb_eq in Er. split; [tauto|]. split; [tauto|]. split; [done|]. intros _. unfold ax_fin. by destruct (bp =? synthesis).
      * apply bind_inv in E2 as (? & ? & _ & E2). injection E2 as <- <- _. apply Z.eqb_neq in Er. split; [tauto|]. split; [tauto|]. split; [done|done].
Qed.
(** a set-up that is refused the work array leaves nothing allocated and keeps the struct's functions,
    but forgets the work array of a live transform *)
Theorem tv_setup_no_work_array s n mrow mcol av ah mode bp p ax zs : unborn s -> in_int (mrow * mcol) = true ->
  ints s p zs /\ n = Z.of_nat (length zs) -> tv_accepts n mrow mcol av ah zs -> Z.of_nat (width av ah (Z.to_nat (mrow * mcol))) <= INT_MAX ->
  alloc_ok (en s) (nx s) = false -> exists ax' s', l1c_setup_dctTV_transforms n mrow mcol av ah mode bp p ax s = Ok (L1C_OUT_OF_MEMORY, ax') s' /\
    dm s' = dm s /\ om s' = om s /\ pm s' = pm s /\ im s' = im s /\ tv_u (g_tv (gl s')) = Null.
Proof.
  intros Hu Hi Hz Ha Hle Hno. rewrite (setupT_run s n mrow mcol av ah mode bp p ax zs Hi) by (intros; exact Hz).
  rewrite (proj2 (tv_valid_iff _ _ _ _ _ _) Ha). destruct Ha as (Hn & Hr & Hc & Hav & Hah & Hbig & Hin).
  assert (Hw : Z.of_nat (width av ah (Z.to_nat (mrow * mcol))) = pz (mrow * mcol) av ah).
  { unfold width, pz. assert (0 < mrow * mcol) by nia. destruct (ltb_ zero av), (ltb_ zero ah); lia. }
  rewrite Hw in Hle. replace (in_int (pz (mrow * mcol) av ah)) with true by (symmetry; unfold in_int; apply andb_true_iff; split; apply Z.leb_le; unfold INT_MIN; lia).
  destruct (rest_cases s n mrow mcol av ah mode bp p ax Hu ltac:(lia)) as [(_ & s2 & E2 & L & Ht)|(Hga & _)]; [|congruence].
  rewrite E2. do 2 eexists. split; [reflexivity|].
  split_and!; [..|apply L|by rewrite Ht]; apply map_eq; intros b; [apply (lg_dm _ _ _ _ L)|apply (lg_om _ _ _ _ L)|apply (lg_pm _ _ _ _ L)]; apply not_elem_of_nil.
Qed.

(** after a rejected set-up call for the same image size and scales that are not positive, the live
    transform has lost its difference parts *)
Lemma tv_after_rejected s nr nc av ah mode bp mb ms ax s1 sb axb J s2 av' ah' : live fft1 fft2 s nr nc av ah mode bp mb ms ax s1 sb axb J ->
  (bp =? synthesis) = false -> exact_mode (Z.of_nat nr) (Z.of_nat nc) mode -> Jx J axb nr nc av ah (nx s) Known s2 -> ltb_ zero av' = false -> ltb_ zero ah' = false ->
  let F := blocks_t s mb in let m := (nr * nc)%nat in let ops := analysis_ops fft1 fft2 ax (length ms) m m in
  let s3 := glt (early (Z.of_nat nr) (Z.of_nat nc) av' ah') s2 in
  always F ops s3 (top ax ax_Wz m m false) (fun v => tM fft1 fft2 nr nc mode sb (slice m 0 v)) /\
  always F ops s3 (top ax ax_Wtx m m false) (tMt fft1 fft2 nr nc mode).
Proof.
  intros L Hbp HC HQ Hv Hh. cbv zeta.
  assert (B := lv_base _ _ _ _ _ _ _ _ _ _ _ _ _ _ _ _ L).
  pose proof (b_M _ _ _ _ _ _ _ _ _ _ _ B HC) as hM. pose proof (b_Mt _ _ _ _ _ _ _ _ _ _ _ B) as hMt.
  pose proof (b_R _ _ _ _ _ _ _ _ _ _ _ B) as hR. pose proof (b_Rt _ _ _ _ _ _ _ _ _ _ _ B) as hRt. pose proof (b_same _ _ _ _ _ _ _ _ _ _ _ B) as hS.
  pose proof (lv_u _ _ _ _ _ _ _ _ _ _ _ _ _ _ _ _ L) as uu. pose proof (lv_F _ _ _ _ _ _ _ _ _ _ _ _ _ _ _ _ L) as hF. pose proof (lv_int _ _ _ _ _ _ _ _ _ _ _ _ _ _ _ _ L) as hi.
  assert (Ep : psize nr nc av' ah' = (nr * nc)%nat) by (unfold psize; rewrite Hv, Hh; lia).
  assert (hb : big_enough nr nc av' ah') by (intros [H|H]; congruence).
  assert (hi' : Z.of_nat (psize nr nc av' ah') <= INT_MAX) by (rewrite Ep; unfold psize in hi; lia).
  assert (HJ3 : Jx J axb nr nc av' ah' (nx s) Known (glt (early (Z.of_nat nr) (Z.of_nat nc) av' ah') s2)).
  { assert (HT : forall t, Jt J axb nr nc av ah (nx s) t -> Jt J axb nr nc av' ah' (nx s) (glt (early (Z.of_nat nr) (Z.of_nat nc) av' ah') t)).
    { intros t [HJ Hg Hu Ha]. split.
      - by apply (b_glt _ _ _ _ _ _ _ _ _ _ _ B).
      - cbn [glt gl g_tv set_gl]. rewrite Hg. unfold early, stt, inch, incv. cbn [tv_ax tv_u]. rewrite Ep, Hv, Hh. by rewrite <- !Nat2Z.inj_mul.
      - rewrite Ep. eapply wok_le; [exact Hu|]. unfold psize. lia.
      - exact Ha. }
    destruct HQ as [[HJ Hc]|[HJ Hus]]; [left|right]; (split; [by apply HT|assumption]). }
  set (Q := Jx J axb nr nc av' ah' (nx s) Known) in *.
  assert (cId : computes (blocks_t s mb) Q (mkXop tv_Identity (nr * nc) (nr * nc) false) (fun _ x => x)).
  { rewrite hF. apply oper_computes. exact (tvId_oper _ _ _ _ _ _ _ _ hS uu Known). }
  assert (cR : computes (blocks_t s mb) Q (mkXop (tv_Rx fft1 fft2) (nr * nc) (length ms) false) (fun _ => tR ms)).
  { rewrite hF. apply oper_computes. exact (Rx_oper fft1 fft2 _ _ _ _ _ _ _ _ _ _ hR hS uu Known). }
  assert (cRt : computes (blocks_t s mb) Q (mkXop (tv_Rty fft1 fft2) (length ms) (nr * nc) true) (tRt nr nc ms)).
  { rewrite hF. exact (Rty_computes fft1 fft2 _ _ _ _ _ _ _ _ _ _ hRt hS uu Known). }
  assert (cW : computes (blocks_t s mb) Q (mkXop (tv_Wv fft1 fft2) (nr * nc) (nr * nc) false) (fun _ v => tM fft1 fft2 nr nc mode sb (slice (nr * nc) 0 v))).
  { rewrite hF. pose proof (oper_computes _ _ (mkXop (tv_Wv fft1 fft2) (psize nr nc av' ah') (nr * nc) false) _ (Wv_oper fft1 fft2 _ _ _ _ _ _ _ _ _ hM hS uu hb hi' Known ltac:(done))) as HW. rewrite Ep in HW.
    unfold W_of, W1_of, W0_of in HW. rewrite Hv, Hh in HW. exact HW. }
  assert (cWt : computes (blocks_t s mb) Q (mkXop (tv_Wtx fft1 fft2) (nr * nc) (nr * nc) false) (fun _ => tMt fft1 fft2 nr nc mode)).
  { rewrite hF. pose proof (oper_computes _ _ (mkXop (tv_Wtx fft1 fft2) (nr * nc) (psize nr nc av' ah') false) _ (Wtx_oper fft1 fft2 _ _ _ _ _ _ _ _ _ hMt hS uu hb hi' Known)) as HW. rewrite Ep in HW.
    unfold Wt_of in HW. rewrite Hv, Hh in HW. unfold computes in *. intros t X xs D ds HJ HG. specialize (HW t X xs D ds HJ HG). cbn beta in HW. rewrite !app_nil_r in HW. exact HW. }
  destruct (an_ax _ _ _ _ _ _ _ _ _ _ _ _ _ _ _ _ L Hbp) as (nw & ag & Eax).
  assert (HS : forall t t', Q t -> same_on (blocks_t s mb) t t' -> Q t') by (rewrite hF; intros t t'; apply Jx_same; exact hS).
  assert (HK : forall o, o ∈ analysis_ops fft1 fft2 ax (length ms) (nr * nc) (nr * nc) -> keeps (blocks_t s mb) Q o).
  { rewrite Eax. unfold analysis_ops, tvop. intros o Ho.
    repeat (apply elem_of_cons in Ho as [->|Ho]; [cbn [ax_Ax ax_Aty ax_Mx ax_Mty ax_Wz ax_Wtx ax_Rx ax_Rty call];
      first [exact (computes_keeps _ _ _ _ cR) | exact (computes_keeps _ _ _ _ cRt) | exact (computes_keeps _ _ _ _ cId) | exact (computes_keeps _ _ _ _ cWt) | exact (computes_keeps _ _ _ _ cW)]|]).
    by apply elem_of_nil in Ho. }
  split; apply (always_of _ Q HS _ HK); try exact HJ3; rewrite Eax; [exact cW|exact cWt].
Qed.
Lemma tv_rejected_run s n mrow mcol av ah mode bp p ax : in_int (mrow * mcol) = true -> n <= 0 ->
  l1c_setup_dctTV_transforms n mrow mcol av ah mode bp p ax s = Ok (L1C_INVALID_ARGUMENT, ax) (glt (early mrow mcol av ah) s).
Proof.
  intros Hi Hn. rewrite (setupT_run s n mrow mcol av ah mode bp p ax [] Hi) by lia.
  assert (E : tv_valid n mrow mcol av ah [] = false).
  { destruct (tv_valid _ _ _ _ _ _) eqn:Ev; [|done]. apply tv_valid_iff in Ev. destruct Ev. lia. }
  by rewrite E.
Qed.
End generic.

(** ** Exact arithmetic *)
Notation topR := (@tvop RN dft1 dft2).
Lemma widthR (av ah : R) m : @width RN av ah m = (nblocks av ah * m)%nat.
Proof. unfold width, nblocks. rewrite zero_RN. cbn [ltb_ RN]. unfold Rltb. destruct (Rlt_dec 0 av), (Rlt_dec 0 ah); lia. Qed.
Lemma exactR mrow mcol mode : @exact_mode RN mrow mcol mode. Proof. right. exact sqrt2_cancel. Qed.
Lemma tM_R nr nc mode sb (x : list R) : (1 <= nr)%nat -> (1 <= nc)%nat -> length x = (nr * nc)%nat -> @tM RN dft1 dft2 nr nc mode sb x = xf_inv (Z.of_nat nr) (Z.of_nat nc) mode x.
Proof.
  intros Hr Hc Lx. unfold tM, fM, xf_inv, one1. rewrite m_nat, !Nat2Z.id. assert ((1 <= nr * nc)%nat) by nia. destruct (one_d _ _ mode); [by apply mx_R|by apply mx2_R].
Qed.
Lemma tMt_R nr nc mode (x : list R) : (1 <= nr)%nat -> (1 <= nc)%nat -> length x = (nr * nc)%nat -> @tMt RN dft1 dft2 nr nc mode x = xf_fwd (Z.of_nat nr) (Z.of_nat nc) mode x.
Proof.
  intros Hr Hc Lx. unfold tMt, fMt, xf_fwd, one1. rewrite m_nat, !Nat2Z.id. assert ((1 <= nr * nc)%nat) by nia. destruct (one_d _ _ mode); [by apply mty_R|by apply mty2_R].
Qed.
Lemma tR_R ms (x : list R) : @tR RN ms x = sample ms x.
Proof. unfold tR, sample. rewrite tab_vec. apply vec_ext. intros i _. apply at_RN. Qed.
Lemma tRt_R nr nc ms (ds y : list R) : (1 <= nr * nc)%nat -> NoDup ms -> length y = length ms -> (forall k, k ∈ ms -> (k < nr * nc)%nat) -> @tRt RN nr nc ms ds y = spread (nr * nc) ms y.
Proof.
  intros Hm ND Ly Hms. apply scatter_spread; try done; [exact (@tab_length RN _ _)|]. intros j _. unfold scal_of. rewrite tab_vec. destruct (Nat.lt_ge_cases j (nr * nc)) as [Hj|Hj].
  - rewrite (vec_nth _ (fun j => _)) by done. rewrite zero_RN. cbn [mul RN]. apply Rmult_0_l.
  - apply nth_overflow. by rewrite vec_len.
Qed.
Lemma xf_len nr nc mode x : length (xf_inv (Z.of_nat nr) (Z.of_nat nc) mode x) = (nr * nc)%nat /\ length (xf_fwd (Z.of_nat nr) (Z.of_nat nc) mode x) = (nr * nc)%nat.
Proof. destruct (xf_inv_m nr nc mode) as (D & E1 & E2 & _). rewrite E1, E2. split; apply vec_len. Qed.
Lemma xf_adj nr nc mode : (1 <= nr)%nat -> (1 <= nc)%nat -> adjoint (nr * nc) (nr * nc) (xf_inv (Z.of_nat nr) (Z.of_nat nc) mode) (xf_fwd (Z.of_nat nr) (Z.of_nat nc) mode).
Proof.
  intros Hr Hc. destruct (xf_inv_m nr nc mode) as (D & E1 & E2 & HD). split; [intros y _; apply xf_len|]. intros x y Hx Hy. rewrite E1, E2. by apply minv_adjoint.
Qed.
Lemma xf_iso nr nc mode x : (1 <= nr)%nat -> (1 <= nc)%nat -> length x = (nr * nc)%nat -> nrm2sq (xf_fwd (Z.of_nat nr) (Z.of_nat nc) mode x) = nrm2sq x.
Proof.
  intros Hr Hc Lx. destruct (xf_adj nr nc mode Hr Hc) as [_ HA]. destruct (xf_inv_m nr nc mode) as (D & E1 & E2 & HD). destruct (HD Hr Hc) as [HD1 HD2].
  specialize (HA (xf_fwd (Z.of_nat nr) (Z.of_nat nc) mode x) x (proj2 (xf_len nr nc mode x)) Lx).
  assert (EI : xf_inv (Z.of_nat nr) (Z.of_nat nc) mode (xf_fwd (Z.of_nat nr) (Z.of_nat nc) mode x) = x) by (rewrite E1, E2; by apply minv_mfwd).
  rewrite EI in HA. rewrite !nrm2sq_dot. symmetry. exact HA.
Qed.

(** C55: in analysis mode Wz and Wtx are the dictionary and its transpose, they are adjoint, and the
    field norm_W bounds them; the other functions are sampling, its transpose, and the identity *)
Theorem tv_dictionary (s : stR) mrow mcol (av ah : R) mode mb mo ms ax s1 : started_t s mrow mcol av ah mode analysis mb mo ms ax s1 ->
  let n := length ms in let m := Z.to_nat (mrow * mcol) in let p := (nblocks av ah * m)%nat in let F := blocks_t s mb in
  let ops := @analysis_ops RN dft1 dft2 ax n m p in
  let W := dict (xf_inv mrow mcol mode) (Z.to_nat mrow) (Z.to_nat mcol) av ah in
  let Wt := dictT (xf_fwd mrow mcol mode) (Z.to_nat mrow) (Z.to_nat mcol) av ah in
  ax_n ax = Z.of_nat n /\ ax_m ax = Z.of_nat m /\ ax_p ax = Z.of_nat p /\
  always F ops s1 (topR ax ax_Wz p m false) W /\ always F ops s1 (topR ax ax_Wtx m p false) Wt /\
  adjoint p m W Wt /\
  (forall x, length x = m -> (nrm2 (Wt x) <= ax_norm_W ax * nrm2 x)%R) /\
  always F ops s1 (topR ax ax_Mx m m false) (fun x => x) /\ always F ops s1 (topR ax ax_Mty m m false) (fun x => x) /\
  always F ops s1 (topR ax ax_Ax m n false) (sample ms) /\ always F ops s1 (topR ax ax_Rx m n false) (sample ms) /\
  (NoDup ms -> always F ops s1 (topR ax ax_Aty n m true) (spread m ms) /\ always F ops s1 (topR ax ax_Rty n m true) (spread m ms)).
Proof.
  intros H. cbv zeta. destruct (@started_live RN dft1 dft2 dft1_len' dft2_len' _ _ _ _ _ _ _ _ _ _ _ _ H) as (nr & nc & sb & axb & J & -> & -> & L).
  rewrite m_nat, !Nat2Z.id. pose proof (lv_r _ _ _ _ _ _ _ _ _ _ _ _ _ _ _ _ L) as Hr. pose proof (lv_c _ _ _ _ _ _ _ _ _ _ _ _ _ _ _ _ L) as Hc.
  pose proof (psize_R nr nc av ah) as Ep. pose proof (lv_big _ _ _ _ _ _ _ _ _ _ _ _ _ _ _ _ L) as Hb0.
  assert (Hb : (0 < av)%R \/ (0 < ah)%R -> (3 <= nr)%nat /\ (3 <= nc)%nat).
  { intros Hp. apply Hb0. rewrite zero_RN. cbn [ltb_ RN]. unfold Rltb. destruct Hp; [left|right]; (destruct (Rlt_dec _ _); [done|lra]). }
  destruct (an _ _ _ _ _ _ _ _ _ _ _ _ _ _ _ _ L (exactR _ _ _) eq_refl) as [A1 A2 A3 A4 A5 A6 A7 A8].
  destruct (lv_ax _ _ _ _ _ _ _ _ _ _ _ _ _ _ _ _ L) as (a0 & Eax). rewrite Ep in A1, A2, A3, A4, A5, A6, A7, A8, Eax.
  pose proof (lv_ms _ _ _ _ _ _ _ _ _ _ _ _ _ _ _ _ L) as Hms.
  split_and!.
  - by rewrite Eax. - by rewrite Eax. - by rewrite Eax.
  - eapply always_ext; [|exact A5]. intros v Lv. apply W_R; [intros w Lw; by apply tM_R|intros w Lw; apply xf_len].
  - eapply always_ext; [|exact A6]. intros x Lx. apply Wt_R; [intros Hp; apply Hb; by right|exact Lx|intros w Lw; by apply tMt_R].
  - apply dict_adjoint; [by apply xf_adj|intros v _; apply xf_len|done].
  - intros x Lx.
    assert (En : ax_norm_W ax = R_sqrt.sqrt (1 + 4 * av ^ 2 + 4 * ah ^ 2)%R).
    { rewrite Eax. cbn. unfold ofZ, one. cbn. f_equal. field. }
    rewrite En. unfold nrm2. rewrite <- sqrt_mult_alt by nra. apply sqrt_le_1_alt. apply dictT_bound; try done. by apply xf_iso.
  - exact A3. - exact A4.
  - eapply always_ext; [|exact A1]. intros x _. apply tR_R.
  - eapply always_ext; [|exact A7]. intros x _. apply tR_R.
  - intros ND. assert (Hm : (1 <= nr * nc)%nat) by nia.
    split; intros s2 X xs D ds Hh HG; [destruct (A2 s2 X xs D ds Hh HG) as (s3 & E & Sd & Ld & HF)|destruct (A8 s2 X xs D ds Hh HG) as (s3 & E & Sd & Ld & HF)];
      pose proof (tRt_R nr nc ms ds xs Hm ND (gc_lx _ _ _ _ _ _ _ HG) Hms) as Es; rewrite Es in Sd, Ld; exists s3; done.
Qed.

Definition scatter_z ms (z y : list R) : list R := @scatter RN ms (@at_ RN y) z.
(** the synthesis mode: M is the dictionary, A samples it; A^T (once Mx has been called) is the
    transpose *)
Theorem tv_synthesis_dictionary (s : stR) mrow mcol (av ah : R) mode mb mo ms ax s1 : started_t s mrow mcol av ah mode synthesis mb mo ms ax s1 ->
  let n := length ms in let m := Z.to_nat (mrow * mcol) in let p := (nblocks av ah * m)%nat in let F := blocks_t s mb in
  let ops := @synthesis_ops RN dft1 dft2 ax n m p in
  let W := dict (xf_inv mrow mcol mode) (Z.to_nat mrow) (Z.to_nat mcol) av ah in
  let Wt := dictT (xf_fwd mrow mcol mode) (Z.to_nat mrow) (Z.to_nat mcol) av ah in
  always F ops s1 (topR ax ax_Mx p m false) W /\ always F ops s1 (topR ax ax_Mty m p false) Wt /\ adjoint p m W Wt /\
  always F ops s1 (topR ax ax_Ax p n false) (fun v => sample ms (W v)) /\ always F ops s1 (topR ax ax_Rx m n false) (sample ms) /\
  (NoDup ms -> always F ops s1 (topR ax ax_Rty n m true) (spread m ms) /\
     forall t X xs D t', hist F ops s1 t -> good_call F (topR ax ax_Mx p m false) t X xs D [] -> x_op (topR ax ax_Mx p m false) X D t = Ok tt t' ->
       always F ops t' (topR ax ax_Aty n p false) (fun y => Wt (spread m ms y))).
Proof.
  intros H. cbv zeta. destruct (@started_live RN dft1 dft2 dft1_len' dft2_len' _ _ _ _ _ _ _ _ _ _ _ _ H) as (nr & nc & sb & axb & J & -> & -> & L).
  rewrite m_nat, !Nat2Z.id. pose proof (lv_r _ _ _ _ _ _ _ _ _ _ _ _ _ _ _ _ L) as Hr. pose proof (lv_c _ _ _ _ _ _ _ _ _ _ _ _ _ _ _ _ L) as Hc.
  pose proof (psize_R nr nc av ah) as Ep. pose proof (lv_big _ _ _ _ _ _ _ _ _ _ _ _ _ _ _ _ L) as Hb0.
  assert (Hb : (0 < av)%R \/ (0 < ah)%R -> (3 <= nr)%nat /\ (3 <= nc)%nat).
  { intros Hp. apply Hb0. rewrite zero_RN. cbn [ltb_ RN]. unfold Rltb. destruct Hp; [left|right]; (destruct (Rlt_dec _ _); [done|lra]). }
  destruct (sy _ _ _ _ _ _ _ _ _ _ _ _ _ _ _ _ L (exactR _ _ _) eq_refl) as [A1 A3 A4 _ _ A7 A8].
  rewrite Ep in A1, A3, A4, A7, A8.
  pose proof (lv_ms _ _ _ _ _ _ _ _ _ _ _ _ _ _ _ _ L) as Hms. assert (Hm : (1 <= nr * nc)%nat) by nia.
  assert (EW : forall v : list R, @W_of RN (@tM RN dft1 dft2 nr nc mode sb) nr nc av ah v = dict (xf_inv (Z.of_nat nr) (Z.of_nat nc) mode) nr nc av ah v).
  { intros v. apply W_R; [intros w Lw; by apply tM_R|intros w Lw; apply xf_len]. }
  assert (EWt : forall v : list R, length v = (nr * nc)%nat -> @Wt_of RN (@tMt RN dft1 dft2 nr nc mode) nr nc av ah v = dictT (xf_fwd (Z.of_nat nr) (Z.of_nat nc) mode) nr nc av ah v).
  { intros v Lv. apply Wt_R; [intros Hp; apply Hb; by right|exact Lv|intros w Lw; by apply tMt_R]. }
  split_and!.
  - eapply always_ext; [|exact A3]. intros v _. apply EW.
  - eapply always_ext; [|exact A4]. intros v Lv. by apply EWt.
  - apply dict_adjoint; [by apply xf_adj|intros v _; apply xf_len|done].
  - eapply always_ext; [|exact A1]. intros v _. cbv beta. rewrite EW. apply tR_R.
  - eapply always_ext; [|exact A7]. intros x _. apply tR_R.
  - intros ND. split.
    + intros s2 X xs D ds Hh HG. destruct (A8 s2 X xs D ds Hh HG) as (s3 & E & Sd & Ld & HF).
      pose proof (tRt_R nr nc ms ds xs Hm ND (gc_lx _ _ _ _ _ _ _ HG) Hms) as Es; rewrite Es in Sd, Ld; exists s3; done.
    + intros t X xs D t' Hh HG E.
      set (z := vec (nr * nc) (fun _ => 0%R)).
      assert (Hz : forall us : list R, @scal_of RN (nr * nc) (@zero RN) us = z).
      { intros us. unfold scal_of, z. rewrite tab_vec. apply vec_ext. intros i _. rewrite zero_RN. cbn [mul RN]. apply Rmult_0_l. }
      pose proof (sy_Aty _ _ _ _ _ _ _ _ _ _ _ _ _ _ _ _ L (exactR _ _ _) eq_refl (@scatter_z ms z) t X xs D t') as HA. rewrite Ep in HA.
      eapply always_ext; [|apply HA; try done].
      * intros y Ly. cbn [tvop x_in] in Ly. cbv beta.
        assert (Es : scatter_z ms z y = spread (nr * nc) ms y) by (unfold scatter_z; rewrite <- (Hz z); exact (tRt_R nr nc ms z y Hm ND Ly Hms)).
        rewrite Es. apply EWt. apply vec_len.
      * intros us ys _. unfold tRt, scatter_z. by rewrite Hz.
      * intros ys _. unfold scatter_z. rewrite (@scatter_len RN). apply vec_len.
Qed.

(** C56: a set-up call that is rejected (here: n' <= 0) for the image size of a live transform, with
    scales that are not positive, drops the differences from the live transform's dictionary *)
Theorem tv_rejected_call_drops_differences (s : stR) mrow mcol (av ah : R) mode mb mo ms ax s1 : started_t s mrow mcol av ah mode analysis mb mo ms ax s1 ->
  let n := length ms in let m := Z.to_nat (mrow * mcol) in let p := (nblocks av ah * m)%nat in let F := blocks_t s mb in
  forall s2 n' (av' ah' : R) mode' bp' p' ax', hist F (@analysis_ops RN dft1 dft2 ax n m p) s1 s2 -> n' <= 0 -> (av' <= 0)%R -> (ah' <= 0)%R ->
  exists s3, @l1c_setup_dctTV_transforms RN n' mrow mcol av' ah' mode' bp' p' ax' s2 = Ok (L1C_INVALID_ARGUMENT, ax') s3 /\
    always F (@analysis_ops RN dft1 dft2 ax n m m) s3 (topR ax ax_Wz m m false) (xf_inv mrow mcol mode) /\
    always F (@analysis_ops RN dft1 dft2 ax n m m) s3 (topR ax ax_Wtx m m false) (xf_fwd mrow mcol mode).
Proof.
  intros H. cbv zeta. destruct (@started_live RN dft1 dft2 dft1_len' dft2_len' _ _ _ _ _ _ _ _ _ _ _ _ H) as (nr & nc & sb & axb & J & -> & -> & L).
  rewrite m_nat. intros s2 n' av' ah' mode' bp' p' ax' Hh Hn Hv Hw.
  pose proof (lv_r _ _ _ _ _ _ _ _ _ _ _ _ _ _ _ _ L) as Hr. pose proof (lv_c _ _ _ _ _ _ _ _ _ _ _ _ _ _ _ _ L) as Hc. pose proof (lv_int _ _ _ _ _ _ _ _ _ _ _ _ _ _ _ _ L) as Hi.
  rewrite <- (psize_R nr nc av ah) in Hh.
  pose proof (an_hist _ _ _ _ _ _ _ _ _ _ _ _ _ _ _ _ L (exactR _ _ _) eq_refl s2 Hh) as HQ.
  assert (Hp : forall a, (a <= 0)%R -> @ltb_ RN (@zero RN) a = false) by (intros a Ha; rewrite zero_RN; cbn [ltb_ RN]; unfold Rltb; destruct (Rlt_dec _ _); [lra|done]).
  destruct (tv_after_rejected _ _ _ _ _ _ _ _ _ _ _ _ _ _ _ _ s2 av' ah' L eq_refl (exactR _ _ _) HQ (Hp _ Hv) (Hp _ Hw)) as [B1 B2].
  eexists. split; [apply tv_rejected_run; [|done]|].
  { unfold in_int. apply andb_true_iff. split; apply Z.leb_le; unfold INT_MIN; [lia|]. unfold psize in Hi. lia. }
  split; (eapply always_ext; [|eassumption]); intros v Lv; cbn [tvop x_in] in Lv; cbv beta.
  - rewrite tM_R; [|done|done|exact (@slice_len RN _ _ _)]. f_equal. unfold slice. rewrite tab_vec. transitivity (vec (nr * nc) (fun k => nth k v 0%R)); [apply vec_ext; intros k _; apply at_RN|].
    by apply vec_self.
  - by apply tMt_R.
Qed.

(** ** Concrete transforms *)
Lemma demo_startedT `{N : Num} e bl nr nc av ah mode bp ms ax0 : (1 <= nr)%nat -> (1 <= nc)%nat -> (1 <= length ms)%nat ->
  ltb_ av zero = false -> ltb_ ah zero = false -> big_enough nr nc av ah -> Z.of_nat (psize nr nc av ah) <= INT_MAX ->
  (forall k, k ∈ ms -> (k < nr * nc)%nat) -> (forall i, alloc_ok e i = true) ->
  exists ax s1, l1c_setup_dctTV_transforms (Z.of_nat (length ms)) (Z.of_nat nr) (Z.of_nat nc) av ah mode bp (Ptr 0 0) ax0 (demo e ms bl) = Ok (0, ax) s1 /\
    started_t (demo e ms bl) (Z.of_nat nr) (Z.of_nat nc) av ah mode bp 0 0 ms ax s1.
Proof.
  intros. apply started_t_exists; try done; [apply demo_unborn|simpl; lia|apply demo_segi|]. intros i _. done.
Qed.
(** a 3 x 3 image, pixels 0 and 4 sampled, both differences with scale 1 *)
Definition demoT bl : stR := @demo RN env0 [0; 4]%nat bl.
Lemma demoT_setup bl mode bp : exists ax s1, @l1c_setup_dctTV_transforms RN 2 3 3 1%R 1%R mode bp (Ptr 0 0) ax0 (demoT bl) = Ok (0, ax) s1 /\ started_t (demoT bl) 3 3 1%R 1%R mode bp 0 0 [0; 4]%nat ax s1.
Proof.
  destruct (@demo_startedT RN env0 bl 3 3 1%R 1%R mode bp [0; 4]%nat ax0) as (ax & s1 & E & H); try done; try (simpl; lia).
  - rewrite zero_RN. cbn [ltb_ RN]. unfold Rltb. destruct (Rlt_dec _ _); [lra|done].
  - rewrite zero_RN. cbn [ltb_ RN]. unfold Rltb. destruct (Rlt_dec _ _); [lra|done].
  - rewrite psize_R. unfold nblocks. destruct (Rlt_dec 0 1); [|lra]. vm_compute. done.
  - intros k Hk. repeat (apply elem_of_cons in Hk as [->|Hk]; [lia|]). by apply elem_of_nil in Hk.
  - by exists ax, s1.
Qed.
Lemma demoT_started bl mode bp : exists ax s1, started_t (demoT bl) 3 3 1%R 1%R mode bp 0 0 [0; 4]%nat ax s1.
Proof. destruct (demoT_setup bl mode bp) as (ax & s1 & _ & H). eauto. Qed.
(** the hypotheses of the theorems above hold for it, so that W really has three blocks *)
Example demoT_dictionary : exists (s : stR) ax s1, started_t s 3 3 1%R 1%R dct1 analysis 0 0 [0; 4]%nat ax s1 /\ NoDup [0; 4]%nat /\
  always (blocks_t s 0) (@analysis_ops RN dft1 dft2 ax 2 9 27) s1 (topR ax ax_Wz 27 9 false) (dict (xf_inv 3 3 dct1) 3 3 1 1) /\
  ax_norm_W ax = 3%R.
Proof.
  destruct (demoT_started [] dct1 analysis) as (ax & s1 & H). exists (demoT []), ax, s1. split; [done|]. split; [apply (bool_decide_unpack _); vm_compute; done|].
  destruct (tv_dictionary _ _ _ _ _ _ _ _ _ _ _ H) as (_ & _ & _ & HW & _). unfold nblocks in HW. destruct (Rlt_dec 0 1); [|lra].
  split; [exact HW|].
  destruct (@started_live RN dft1 dft2 dft1_len' dft2_len' _ _ _ _ _ _ _ _ _ _ _ _ H) as (nr & nc & sb & axb & J & _ & _ & L).
  destruct (lv_ax _ _ _ _ _ _ _ _ _ _ _ _ _ _ _ _ L) as (a0 & ->). cbn. unfold ofZ, one. cbn.
  replace (1 / 1 + 4 / 1 * 1 * 1 + 4 / 1 * 1 * 1)%R with (3 * 3)%R by field. apply sqrt_square. lra.
Qed.

(** C56, refuted: set-up of a 3 x 3 dictionary, then a rejected call; the same function on the same
    argument differs before and after *)
Definition unit9 : list R := vec 9 (fun k => if Nat.eqb k 4 then 1 else 0)%R.
Lemma hist_nil `{N : Num} F ops (s s' : st) : hist F [] s s' -> hist F ops s s'.
Proof. induction 1 as [|s t t' _ IH HF|s t t' o X xs D ds _ IH Ho]; [apply h_nil|by eapply h_user|by apply elem_of_nil in Ho]. Qed.
Theorem tv_rejected_call_refuted : exists (s : stR) ax s1 s3 v W W', started_t s 3 3 1%R 1%R dct1 analysis 0 0 [0; 4]%nat ax s1 /\
  @l1c_setup_dctTV_transforms RN 0 3 3 0%R 0%R dct1 analysis Null ax0 s1 = Ok (L1C_INVALID_ARGUMENT, ax0) s3 /\
  always (blocks_t s 0) [] s1 (topR ax ax_Wz 27 9 false) W /\ always (blocks_t s 0) [] s3 (topR ax ax_Wz 27 9 false) W' /\
  length v = 27%nat /\ W v <> W' v.
Proof.
  destruct (demoT_started [] dct1 analysis) as (ax & s1 & H).
  destruct (tv_dictionary _ _ _ _ _ _ _ _ _ _ _ H) as (_ & _ & _ & HW & _). unfold nblocks in HW. destruct (Rlt_dec 0 1) as [H01|]; [|lra].
  destruct (tv_rejected_call_drops_differences _ _ _ _ _ _ _ _ _ _ _ H s1 0 0%R 0%R dct1 analysis Null ax0 (h_nil _ _ _) ltac:(lia) ltac:(lra) ltac:(lra)) as (s3 & E & HV & _).
  exists (demoT []), ax, s1, s3, (vec 9 (fun _ => 0%R) ++ unit9 ++ vec 9 (fun _ => 0%R)), (dict (xf_inv 3 3 dct1) 3 3 1 1), (fun v => xf_inv 3 3 dct1 (take 9 v)).
  split; [exact H|]. split; [exact E|]. split; [|split; [|split; [done|]]].
  - intros s2 X xs D ds Hh HG. exact (HW s2 X xs D ds (hist_nil _ _ _ _ Hh) HG).
  - intros s2 X xs D ds Hh HG. destruct HG as [Sx Lx Wd _ Hd Ax Ad Ox Od]. cbn [tvop x_in x_out x_op] in *.
    assert (Lt : length (take 9 xs) = 9%nat) by (rewrite take_length; lia).
    destruct (HV s2 X (take 9 xs) D ds (hist_nil _ _ _ _ Hh)) as (s4 & E4 & Sd & Ld & HF).
    + split; try done; cbn [tvop x_in x_out x_op].
      * intros i v Hi. apply Sx. apply lookup_take_Some in Hi. tauto.
      * eapply disj_le; [exact Hd|change (9 <= 9)%nat; lia|change (9 <= 27)%nat; lia].
    + exists s4. split; [exact E4|]. split; [exact Sd|]. split; [exact Ld|exact HF].
  - intros Heq. apply (f_equal (fun l => nth 1 l 0%R)) in Heq. unfold dict in Heq. cbv zeta in Heq. rewrite (vec_nth _ (fun k => _)) in Heq by lia.
    destruct (Rlt_dec 0 1); [|lra]. unfold vdiff, hdiff in Heq. rewrite !(vec_nth _ (fun k => _)) in Heq by lia. unfold unit9, part, vec, px, when in Heq. simpl in Heq. lra.
Qed.
(** C56, the other part: calling AtAx after a set-up is undefined *)
Example demoT_AtAx : exists (s : stR) ax s1, @l1c_setup_dctTV_transforms RN 2 3 3 1%R 1%R dct1 analysis (Ptr 0 0) ax0 s = Ok (0, ax) s1 /\
  forall X D s2, @call RN dft1 dft2 (ax_AtAx ax) X D s2 = Ub UbCall.
Proof.
  destruct (demoT_setup [] dct1 analysis) as (ax & s1 & E & _). exists (demoT []), ax, s1. split; [exact E|]. intros X D s2. exact (@tv_AtAx_refuted RN dft1 dft2 _ _ _ _ _ _ _ _ _ _ _ _ X D s2 E).
Qed.

(** C69, on the 3 x 3 transform: undefined at once *)
Theorem demoT_Aty_refuted : exists (s : stR) ax s1, started_t s 3 3 1%R 1%R dct1 synthesis 0 0 [0; 4]%nat ax s1 /\
  forall Y D, @call RN dft1 dft2 (ax_Aty ax) Y D s1 = Ub UbUninit.
Proof.
  destruct (demoT_started [] dct1 synthesis) as (ax & s1 & H). exists (demoT []), ax, s1. split; [exact H|]. intros Y D.
  exact (@tv_synthesis_Aty_undefined RN dft1 dft2 dft1_len' dft2_len' _ _ _ _ _ _ _ _ _ _ _ H s1 Y D (h_nil _ _ _)).
Qed.
(** C70: Wtx maps a coefficient vector that is not zero to zero *)
Theorem tv_synthesis_W_identity_refuted : exists (s : stR) ax s1 f x, started_t s 3 3 1%R 1%R dct1 synthesis 0 0 [0; 4]%nat ax s1 /\
  ax_m ax = 27 /\ ax_p ax = 9 /\
  always (blocks_t s 0) (@synthesis_ops RN dft1 dft2 ax 2 9 27) s1 (topR ax ax_Wtx 27 9 false) f /\
  length x = 27%nat /\ nth 9 x 0%R = 1%R /\ f x = vec 9 (fun _ => 0%R).
Proof.
  destruct (demoT_started [] dct1 synthesis) as (ax & s1 & H).
  destruct (@tv_synthesis_Wtx_truncates RN dft1 dft2 dft1_len' dft2_len' _ _ _ _ _ _ _ _ _ _ _ H (exactR _ _ _)) as (Em & Ep & HW).
  rewrite widthR in Em, HW. unfold nblocks in Em, HW. destruct (Rlt_dec 0 1); [|lra].
  exists (demoT []), ax, s1, (fun x => take 9 x), (vec 27 (fun k => if Nat.eqb k 9 then 1 else 0)%R).
  split; [exact H|]. split; [exact Em|]. split; [exact Ep|]. split; [exact HW|]. done.
Qed.
(** the hypotheses of the decision table: each case occurs *)
Example demoT_decides : 
  (exists ax s1, @l1c_setup_dctTV_transforms RN 2 3 3 1%R 1%R dct1 analysis (Ptr 0 0) ax0 (demoT []) = Ok (0, ax) s1) /\
  (exists s1, @l1c_setup_dctTV_transforms RN 2 3 2 1%R 1%R dct1 analysis (Ptr 0 0) ax0 (demoT []) = Ok (L1C_INVALID_ARGUMENT, ax0) s1) /\
  (exists ax s1, @l1c_setup_dctTV_transforms RN 2 3 3 1%R 1%R dct1 analysis (Ptr 0 0) ax0 (@demo RN none [0; 4]%nat []) = Ok (L1C_OUT_OF_MEMORY, ax) s1) /\
  @l1c_setup_dctTV_transforms RN 2 65536 65536 1%R 1%R dct1 analysis (Ptr 0 0) ax0 (demoT []) = Ub UbOverflow /\
  @l1c_setup_dctTV_transforms RN 2 30000 30000 1%R 1%R dct1 analysis (Ptr 0 0) ax0 (demoT []) = Ub UbOverflow.
Proof.
  assert (HI : forall e, @ints RN (@demo RN e [0; 4]%nat []) (Ptr 0 0) [0; 4]) by (intros e i z Hi; destruct i as [|[|i]]; [injection Hi as <-; done|injection Hi as <-; done|done]).
  assert (Hp : @ltb_ RN (@zero RN) 1%R = true) by (rewrite zero_RN; cbn [ltb_ RN]; unfold Rltb; destruct (Rlt_dec _ _); [done|lra]).
  assert (Hn : @ltb_ RN 1%R (@zero RN) = false) by (rewrite zero_RN; cbn [ltb_ RN]; unfold Rltb; destruct (Rlt_dec _ _); [lra|done]).
  assert (Hw : forall m, Z.of_nat (@width RN 1%R 1%R m) = 3 * Z.of_nat m) by (intros m; rewrite widthR; unfold nblocks; destruct (Rlt_dec 0 1); [|lra]; lia).
  assert (Ha : forall r c, 2 < r -> 2 < c -> @tv_accepts RN 2 r c 1%R 1%R [0; 4]).
  { intros r c Hr Hc. unfold tv_accepts. split_and!; try lia; try done. intros z Hz. repeat (apply elem_of_cons in Hz as [->|Hz]; [nia|]). by apply elem_of_nil in Hz. }
  split_and!.
  - destruct (demoT_setup [] dct1 analysis) as (ax & s1 & E & _). eauto.
  - destruct (@tv_setup_decides RN (demoT []) 2 3 2 1%R 1%R dct1 analysis (Ptr 0 0) ax0 [0; 4]) as (HD & _); [apply demo_unborn|done|intros _; split; [apply HI|done]|].
    destruct HD as (s' & E & _); [|eauto]. intros (_ & _ & _ & _ & _ & Hb & _). specialize (Hb (or_introl Hp)). lia.
  - destruct (@tv_setup_no_work_array RN (@demo RN none [0; 4]%nat []) 2 3 3 1%R 1%R dct1 analysis (Ptr 0 0) ax0 [0; 4] (demo_unborn _ _ _) eq_refl (conj (HI _) eq_refl) (Ha 3 3 ltac:(lia) ltac:(lia))) as (ax' & s' & E & _); [rewrite Hw; vm_compute; done|done|]. eauto.
  - by apply tv_setup_overflow_undefined.
  - destruct (@tv_setup_decides RN (demoT []) 2 30000 30000 1%R 1%R dct1 analysis (Ptr 0 0) ax0 [0; 4]) as (_ & HD & _); [apply demo_unborn|done|intros _; split; [apply HI|done]|].
    apply HD; [by apply Ha|]. rewrite Hw. rewrite Z2Nat.id; [|lia]. done.
Qed.

Print Assumptions tv_analysis_history_independent.
Print Assumptions tv_synthesis_history_independent.
Print Assumptions tv_synthesis_Aty_undefined.
Print Assumptions tv_synthesis_Wtx_truncates.
Print Assumptions tv_destroy_releases.
Print Assumptions tv_setup_destroy_balanced.
Print Assumptions tv_second_setup_takes_over.
Print Assumptions tv_AtAx_refuted.
Print Assumptions tv_setup_overflow_undefined.
Print Assumptions tv_setup_decides.
Print Assumptions tv_setup_no_work_array.
Print Assumptions tv_dictionary.
Print Assumptions tv_synthesis_dictionary.
Print Assumptions tv_rejected_call_drops_differences.
Print Assumptions tv_rejected_call_refuted.
Print Assumptions tv_synthesis_W_identity_refuted.
Print Assumptions demoT_Aty_refuted.
