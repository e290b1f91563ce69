(** * l1c_setup_dct_transforms and the transforms it makes. *)
From Coq Require Import ZArith Lia.
From stdpp Require Import base numbers gmap list.
From Verif Require Import Globals Mem M_Math M_Memory M_Status M_FFTW M_Dct1 M_Dct2 M_Dct M_TVt P_Loop P_Math P_Step P_Memory P_Own P_Own2 P_Own3 P_Newton P_FFTW P_Dct1 P_Dct1s P_Dct2 P_Dct2s S_Xform P_Xform S_DctApi.
Local Open Scope Z_scope.

Section check.
Context `{N : Num}.
Implicit Types (s : st).
Definition in_range (mx : Z) (z : Z) : bool := (0 <=? z) && (z <=? mx).
Lemma check_brk zs : forall (k : Z) s p mx, 0 <= k -> (forall i z, zs !! i = Some z -> ldi p (k + Z.of_nat i) s = Ok z s) ->
  exists j, brkn (length zs) k L1C_SUCCESS (fun i _ =>
    let* idx := ldi p i in
    ret (if (mx <? idx) || (idx <? 0) then Stop L1C_INVALID_ARGUMENT else Go L1C_SUCCESS)) s =
  Ok (j, if forallb (in_range mx) zs then L1C_SUCCESS else L1C_INVALID_ARGUMENT) s.
Proof.
  induction zs as [|z zs IH]; intros k s p mx Hk H; [by exists k|]. cbn [length brkn].
  assert (E : ldi p k s = Ok z s) by (rewrite <- (Z.add_0_r k); apply (H 0%nat); done).
  assert (E2 : (let* idx := ldi p k in ret (if (mx <? idx) || (idx <? 0) then Stop L1C_INVALID_ARGUMENT else Go L1C_SUCCESS)) s =
    Ok (if (mx <? z) || (z <? 0) then Stop L1C_INVALID_ARGUMENT else Go L1C_SUCCESS) s) by (by rewrite (bind_ok _ _ _ _ _ E)).
  rewrite (bind_ok _ _ _ _ _ E2). cbn [forallb].
  assert (Er : in_range mx z = negb ((mx <? z) || (z <? 0))).
  { unfold in_range. destruct (Z.leb_spec 0 z), (Z.leb_spec z mx), (Z.ltb_spec mx z), (Z.ltb_spec z 0); try done; lia. }
  rewrite Er. destruct ((mx <? z) || (z <? 0)); cbn [negb andb]; [by exists k|].
  apply IH; [lia|]. intros i w Hi. replace (k + 1 + Z.of_nat i) with (k + Z.of_nat (S i)) by lia. by apply H.
Qed.
Lemma check_run s p zs mx : ints s p zs ->
  check_pix_idx (Z.of_nat (length zs)) p mx s = Ok (if forallb (in_range mx) zs then L1C_SUCCESS else L1C_INVALID_ARGUMENT) s.
Proof.
  intros H. unfold check_pix_idx, for_brk. rewrite Z.sub_0_r, Nat2Z.id.
  destruct (check_brk zs 0 s p mx ltac:(lia) H) as (j & E). by rewrite (bind_ok _ _ _ _ _ E).
Qed.
Lemma i32_ok z s : INT_MIN <= z <= INT_MAX -> i32 z s = Ok z s.
Proof. intros H. unfold i32, in_int. destruct (Z.leb_spec INT_MIN z), (Z.leb_spec z INT_MAX); try lia; done. Qed.
Lemma i32_ub z s : INT_MAX < z -> i32 z s = Ub UbOverflow.
Proof. intros H. unfold i32, in_int. destruct (Z.leb_spec z INT_MAX); [lia|]. by rewrite andb_false_r. Qed.
Lemma one_d_comm mrow mcol mode : (mcol =? 1) || (mrow =? 1) || (mode =? dct1) = one_d mrow mcol mode.
Proof. unfold one_d. by rewrite (orb_comm (mcol =? 1)). Qed.

(** the decision table *)
Lemma setup_valid s n mrow mcol mode p ax zs : 0 < n -> 0 < mrow -> 0 < mcol -> mrow * mcol <= INT_MAX ->
  ints s p zs -> n = Z.of_nat (length zs) ->
  l1c_setup_dct_transforms n mrow mcol mode p ax s =
  if forallb (in_range (mrow * mcol - 1)) zs then
    (if one_d mrow mcol mode then l1c_dct1_setup n (mrow * mcol) p ax s else l1c_dct2_setup n mrow mcol p ax s)
  else Ok (L1C_INVALID_ARGUMENT, ax) s.
Proof.
  intros Hn Hr Hc Hi Hz ->. unfold l1c_setup_dct_transforms.
  destruct (Z.leb_spec (Z.of_nat (length zs)) 0); [lia|]. destruct (Z.leb_spec mrow 0); [lia|]. destruct (Z.leb_spec mcol 0); [lia|]. cbn [orb].
  rewrite (bind_ok _ _ _ _ _ (i32_ok (mrow * mcol) s ltac:(unfold INT_MIN in *; nia))).
  rewrite (bind_ok _ _ _ _ _ (check_run s p zs (mrow * mcol - 1) Hz)).
  destruct (forallb _ zs); [|done]. cbn [negb Z.eqb L1C_SUCCESS].
  rewrite one_d_comm. destruct (one_d mrow mcol mode) eqn:E; [done|].
  unfold one_d in E. apply orb_false_iff in E as [E E3]. apply orb_false_iff in E as [E1 E2]. apply Z.eqb_neq in E1, E2.
  destruct (Z.ltb_spec 1 mcol); [|lia]. destruct (Z.ltb_spec 1 mrow); [|lia]. cbn [andb orb].
  destruct (Z.eqb_spec mcol 1); [lia|]. destruct (Z.eqb_spec mrow 1); [lia|]. done.
Qed.
Lemma setup_overflow s n mrow mcol mode p ax : 0 < n -> 0 < mrow -> 0 < mcol -> INT_MAX < mrow * mcol ->
  l1c_setup_dct_transforms n mrow mcol mode p ax s = Ub UbOverflow.
Proof.
  intros Hn Hr Hc Hi. unfold l1c_setup_dct_transforms.
  destruct (Z.leb_spec n 0); [lia|]. destruct (Z.leb_spec mrow 0); [lia|]. destruct (Z.leb_spec mcol 0); [lia|]. cbn [orb].
  unfold bind. by rewrite i32_ub.
Qed.
Lemma setup_nonpos s n mrow mcol mode p ax : n <= 0 \/ mrow <= 0 \/ mcol <= 0 ->
  l1c_setup_dct_transforms n mrow mcol mode p ax s = Ok (L1C_INVALID_ARGUMENT, ax) s.
Proof.
  intros H. unfold l1c_setup_dct_transforms.
  destruct (Z.leb_spec n 0); [done|]. destruct (Z.leb_spec mrow 0); [done|]. destruct (Z.leb_spec mcol 0); [done|]. lia.
Qed.
End check.

Section made.
Context `{N : Num}.
Context (fft1 : fkind -> list T -> list T) (fft2 : fkind -> nat -> nat -> list T -> list T).
Implicit Types (s : st) (xs : list T).
Lemma segi_ints s p ms : segi s p ms -> ints s p (Z.of_nat <$> ms).
Proof. intros H i z Hi. apply list_lookup_fmap_inv in Hi as (k & -> & Hk). by apply H. Qed.

(** what a successful set-up has made *)
Inductive made s mrow mcol mode mb mo ms : AxFuns -> st -> Prop :=
| made1 (m : nat) s1 : one_d mrow mcol mode = true -> mrow * mcol = Z.of_nat m -> ok1 (cfg_of s mb mo m ms) -> J1 (cfg_of s mb mo m ms) s1 ->
    made s mrow mcol mode mb mo ms (ax1 (Z.of_nat (length ms)) (Z.of_nat m)) s1
| made2 (nr nc : nat) s1 : one_d mrow mcol mode = false -> mrow = Z.of_nat nr -> mcol = Z.of_nat nc -> ok2 (cfg2_of s mb mo nr nc ms) -> J2 (cfg2_of s mb mo nr nc ms) s1 ->
    made s mrow mcol mode mb mo ms (ax2 (Z.of_nat (length ms)) (Z.of_nat (nr * nc))) s1.

Record started_facts s mrow mcol mode mb mo ms ax s1 : Prop := {
  sf_n : (0 < length ms)%nat; sf_r : 0 < mrow; sf_c : 0 < mcol; sf_int : mrow * mcol <= INT_MAX;
  sf_ms : forall k, k ∈ ms -> (k < Z.to_nat (mrow * mcol))%nat;
  sf_made : made s mrow mcol mode mb mo ms ax s1;
  sf_grants : grants s 5;
  sf_led : ledger [] (owned1 s) s s1;
  sf_nx : nx s1 = (nx s + 5)%nat }.
Lemma started_inv s mrow mcol mode mb mo ms ax s1 : started s mrow mcol mode mb mo ms ax s1 -> started_facts s mrow mcol mode mb mo ms ax s1.
Proof.
  intros [Hu Hx (ax0 & E)].
  assert (Hs : 0 < Z.of_nat (length ms) /\ 0 < mrow /\ 0 < mcol).
  { destruct (Z.leb_spec (Z.of_nat (length ms)) 0); [rewrite setup_nonpos in E by lia; done|].
    destruct (Z.leb_spec mrow 0); [rewrite setup_nonpos in E by lia; done|].
    destruct (Z.leb_spec mcol 0); [rewrite setup_nonpos in E by lia; done|]. done. }
  destruct Hs as (Hn & Hr & Hc).
  destruct (Z.leb_spec (mrow * mcol) INT_MAX) as [Hi|Hi]; [|by rewrite setup_overflow in E].
  pose proof (segi_ints _ _ _ Hx) as Hz.
  rewrite (setup_valid s _ mrow mcol mode _ ax0 _ Hn Hr Hc Hi Hz) in E by (by rewrite fmap_length).
  destruct (forallb _ _) eqn:Ef; [|done].
  assert (Hms : forall k, k ∈ ms -> (k < Z.to_nat (mrow * mcol))%nat).
  { intros k Hk. rewrite forallb_forall in Ef. specialize (Ef (Z.of_nat k)). rewrite <- elem_of_list_In in Ef.
    specialize (Ef (elem_of_list_fmap_1 _ _ _ Hk)). unfold in_range in Ef. apply andb_true_iff in Ef as [_ Ef]. apply Z.leb_le in Ef. nia. }
  destruct (one_d mrow mcol mode) eqn:Eo.
  - destruct (setup1_run s (Z.of_nat (length ms)) (mrow * mcol) (Ptr mb mo) ax0 Hu ltac:(nia)) as
      [(HG & s' & E1 & L & HJ & (gg & _ & Hnx))|[(_ & _ & s' & E1 & _)|(_ & s' & E1 & _)]].
    + rewrite E in E1. injection E1 as -> ->. specialize (HJ mb mo ms eq_refl Hx eq_refl).
      split; try done; [lia|]. replace (mrow * mcol) with (Z.of_nat (Z.to_nat (mrow * mcol))) at 1 by nia. apply made1; [done|nia| |done].
      apply cfg_ok; [nia|done].
    + rewrite E in E1. by injection E1.
    + rewrite E in E1. symmetry in E1. apply bind_inv in E1 as (? & ? & ? & E1). apply bind_inv in E1 as (? & ? & ? & E1). by injection E1.
  - destruct (Z_of_nat_complete mrow ltac:(lia)) as [nr ->]. destruct (Z_of_nat_complete mcol ltac:(lia)) as [nc ->].
    destruct (setup2_run s (Z.of_nat (length ms)) nr nc (Ptr mb mo) ax0 Hu ltac:(lia) ltac:(lia) ltac:(lia)) as
      [(HG & s' & E1 & L & HJ & (gg & _ & Hnx))|[(_ & _ & s' & E1 & _)|(_ & s' & E1 & _)]].
    + rewrite E in E1. injection E1 as -> ->. specialize (HJ mb mo ms eq_refl Hx eq_refl).
      split; try done; [lia|]. apply made2; [done|done|done| |done].
      apply cfg2_ok; try lia. intros k Hk. specialize (Hms k Hk). lia.
    + rewrite E in E1. by injection E1.
    + rewrite E in E1. by injection E1.
Qed.

(** ** every function of the struct *)
Section c1.
Hypothesis fft1_len : forall k xs, length (fft1 k xs) = length xs.
Context (c : cfg1) (HC : ok1 c).
Notation m := (c_m c). Notation n := (c_n c). Notation mask := (c_mask c).
Notation A := (ax1 (Z.of_nat (c_n c)) (Z.of_nat (c_m c))).
Notation comp := (computes (F1 c) (J1 c)).
Lemma Ety_computes : comp (o_Rty fft1 fft2 A n m) (fun ds ys => ety_of m mask ds ys).
Proof.
  intros s X xs D ds HJ [Sx Lx Wd Hi Hd Ax Ad Ox Od]. destruct (Hi eq_refl) as (Sd & Ld). cbn [o_Rty x_in x_out x_op] in *.
  split; [unfold ety_of; rewrite scatter_len; unfold scal_of; apply tab_length|].
  eexists. split; [by apply (Ety_run c HC)|]. split; [apply touch_refl|]. by apply J1_wr.
Qed.
Lemma Mx_keeps : keeps (F1 c) (J1 c) (o_Mx fft1 fft2 A m).
Proof.
  intros s X xs D ds s' HJ [Sx Lx Wd Hi Hd Ax Ad Ox Od] E. cbn [o_Mx x_in x_out x_op] in *.
  assert (E' : dct_Mx fft1 fft2 X D s = Ok tt s') by exact E.
  rewrite (Mx_run fft1 fft2 fft1_len c HC s X xs D) in E' by done.
  assert (E2 : s' = wr X (<[0%nat:=div (mul (at_ xs 0) (sqrt_ two)) (sqrt_ two)]> xs) (wr D (mx_of fft1 (c_root c) m xs) s)) by congruence.
  subst s'. apply J1_wr; [|done]. by apply J1_wr.
Qed.
Lemma ops1_keeps o : o ∈ dct_ops fft1 fft2 A n m -> keeps (F1 c) (J1 c) o.
Proof.
  intros Ho. unfold dct_ops in Ho.
  repeat (apply elem_of_cons in Ho as [->|Ho]); [eapply computes_keeps|eapply computes_keeps|eapply computes_keeps| |eapply computes_keeps..|by apply elem_of_nil in Ho].
  - exact (oper_computes _ _ (o_Ax fft1 fft2 A n m) _ (EMx_oper fft1 fft2 fft1_len c HC)).
  - exact (oper_computes _ _ (o_Aty fft1 fft2 A n m) _ (MtEty_oper fft1 fft2 fft1_len c HC)).
  - exact (oper_computes _ _ (o_AtAx fft1 fft2 A m) _ (MtEt_EMx_oper fft1 fft2 fft1_len c HC)).
  - exact Mx_keeps.
  - exact (oper_computes _ _ (o_Mty fft1 fft2 A m) _ (Mty_oper fft1 fft2 fft1_len c HC)).
  - exact (oper_computes _ _ (o_Wz fft1 fft2 A m) _ (Identity_oper c)).
  - exact (oper_computes _ _ (o_Wtx fft1 fft2 A m) _ (Identity_oper c)).
  - exact (oper_computes _ _ (o_Rx fft1 fft2 A n m) _ (Ex_oper c HC)).
  - exact Ety_computes.
Qed.
Lemma made1_always s1 o f : J1 c s1 -> comp o f -> always_d (F1 c) (dct_ops fft1 fft2 A n m) s1 o f.
Proof. intros HJ Hf. eapply always_of; [intros s s'; apply J1_same|apply ops1_keeps|exact HJ|exact Hf]. Qed.
Lemma made1_hist s1 s2 : J1 c s1 -> hist (F1 c) (dct_ops fft1 fft2 A n m) s1 s2 -> J1 c s2.
Proof. intros HJ Hh. eapply hist_J; [intros s s'; apply J1_same|apply ops1_keeps|exact HJ|exact Hh]. Qed.
End c1.

Section c2.
Hypothesis fft2_len : forall k nr nc xs, length xs = (nr * nc)%nat -> length (fft2 k nr nc xs) = (nr * nc)%nat.
Context (c : cfg2) (HC : ok2 c).
Notation m := (c2_m c). Notation n := (c2_n c). Notation mask := (c2_mask c).
Notation A := (ax2 (Z.of_nat (c2_n c)) (Z.of_nat (c2_m c))).
Notation comp := (computes (F2 c) (J2 c)).
Lemma Ety2_computes : comp (o_Rty fft1 fft2 A n m) (fun ds ys => ety2_of (c2_nr c) (c2_nc c) mask ds ys).
Proof.
  intros s X xs D ds HJ [Sx Lx Wd Hi Hd Ax Ad Ox Od]. destruct (Hi eq_refl) as (Sd & Ld). cbn [o_Rty x_in x_out x_op] in *.
  split; [unfold ety2_of; rewrite scatter_len; unfold scal_of; apply tab_length|].
  eexists. split; [by apply (Ety2_run c HC)|]. split; [apply touch_refl|]. by apply J2_wr.
Qed.
Lemma ops2_keeps o : o ∈ dct_ops fft1 fft2 A n m -> keeps (F2 c) (J2 c) o.
Proof.
  intros Ho. unfold dct_ops in Ho.
  repeat (apply elem_of_cons in Ho as [->|Ho]); [eapply computes_keeps..|by apply elem_of_nil in Ho].
  - exact (oper_computes _ _ (o_Ax fft1 fft2 A n m) _ (EMx2_oper fft1 fft2 fft2_len c HC)).
  - exact (oper_computes _ _ (o_Aty fft1 fft2 A n m) _ (MtEty2_oper fft1 fft2 fft2_len c HC)).
  - exact (oper_computes _ _ (o_AtAx fft1 fft2 A m) _ (MtEt_EMx2_oper fft1 fft2 fft2_len c HC)).
  - exact (oper_computes _ _ (o_Mx fft1 fft2 A m) _ (Mx2_oper fft1 fft2 fft2_len c HC)).
  - exact (oper_computes _ _ (o_Mty fft1 fft2 A m) _ (Mty2_oper fft1 fft2 fft2_len c HC)).
  - exact (oper_computes _ _ (o_Wz fft1 fft2 A m) _ (Identity2_oper c HC)).
  - exact (oper_computes _ _ (o_Wtx fft1 fft2 A m) _ (Identity2_oper c HC)).
  - exact (oper_computes _ _ (o_Rx fft1 fft2 A n m) _ (Ex2_oper c HC)).
  - exact Ety2_computes.
Qed.
Lemma made2_always s1 o f : J2 c s1 -> comp o f -> always_d (F2 c) (dct_ops fft1 fft2 A n m) s1 o f.
Proof. intros HJ Hf. eapply always_of; [intros s s'; apply J2_same|apply ops2_keeps|exact HJ|exact Hf]. Qed.
Lemma made2_hist s1 s2 : J2 c s1 -> hist (F2 c) (dct_ops fft1 fft2 A n m) s1 s2 -> J2 c s2.
Proof. intros HJ Hh. eapply hist_J; [intros s s'; apply J2_same|apply ops2_keeps|exact HJ|exact Hh]. Qed.
End c2.
End made.

(** ** destruction *)
Section destroy.
Context `{N : Num}.
Implicit Types (s : st).
Lemma wok_live s b o n : wok s (Ptr b o) n -> (0 < n)%nat -> is_Some (dm s !! b).
Proof.
  intros H Hn. destruct (H 0%nat Hn) as [v Hv]. unfold cell in Hv.
  destruct (dm s !! b); [eauto|]. destruct (0 <=? _); done.
Qed.
(** the five blocks are gone, all else is as before *)
Definition gone s s' (D : list nat) (O : list nat) : Prop :=
  (forall b, dm s' !! b = if bool_decide (b ∈ D) then None else dm s !! b) /\
  (forall b, om s' !! b = if bool_decide (b ∈ O) then None else om s !! b) /\
  pm s' = pm s /\ im s' = im s /\ al s' = al s /\ nx s' = nx s /\ en s' = en s /\ gl s' = gl s.
Lemma free3_2 s e x y pe pm : is_Some (dm s !! e) -> is_Some (dm s !! x) -> is_Some (dm s !! y) ->
  is_Some (om s !! pe) -> is_Some (om s !! pm) -> NoDup [e; x; y] -> pe <> pm ->
  exists s', (free_d (Ptr e 0) ;! free_d (Ptr x 0) ;! free_d (Ptr y 0) ;! free_o (Ptr pe 0) ;! free_o (Ptr pm 0)) s = Ok tt s' /\
    gone s s' [e; x; y] [pe; pm].
Proof.
  intros [ve Ee] [vx Ex] [vy Ey] [op Ep] [oq Eq] ND Hne.
  apply NoDup_cons in ND as [ND1 ND]. apply NoDup_cons in ND as [ND2 _].
  assert (e <> x /\ e <> y /\ x <> y) as (H1 & H2 & H3) by (split_and!; intros ->; [apply ND1|apply ND1|apply ND2]; isin).
  eexists. split.
  - erewrite bind_ok by (cbn [free_d Z.eqb]; rewrite Ee; reflexivity).
    erewrite bind_ok by (cbn [free_d Z.eqb set_dm dm]; rewrite lookup_delete_ne by done; rewrite Ex; reflexivity).
    erewrite bind_ok by (cbn [free_d Z.eqb set_dm dm]; rewrite !lookup_delete_ne by done; rewrite Ey; reflexivity).
    erewrite bind_ok by (cbn [free_o Z.eqb set_dm om]; rewrite Ep; reflexivity).
    cbn [free_o Z.eqb set_om set_dm om]. rewrite lookup_delete_ne by done. rewrite Eq. reflexivity.
  - split; [|split; [|done]].
    + intros b. cbn [set_om set_dm dm]. case_bool_decide as Hb.
      * repeat (apply elem_of_cons in Hb as [->|Hb]); [| | |by apply elem_of_nil in Hb].
        -- by rewrite !lookup_delete_ne, lookup_delete by done.
        -- by rewrite lookup_delete_ne, lookup_delete by done.
        -- by rewrite lookup_delete.
      * apply not_elem_of_cons in Hb as [? Hb]. apply not_elem_of_cons in Hb as [? Hb]. apply not_elem_of_cons in Hb as [? Hb].
        by rewrite !lookup_delete_ne by done.
    + intros b. cbn [set_om set_dm om]. case_bool_decide as Hb.
      * repeat (apply elem_of_cons in Hb as [->|Hb]); [| |by apply elem_of_nil in Hb].
        -- by rewrite lookup_delete_ne, lookup_delete by done.
        -- by rewrite lookup_delete.
      * apply not_elem_of_cons in Hb as [? Hb]. apply not_elem_of_cons in Hb as [? Hb].
        by rewrite !lookup_delete_ne by done.
Qed.
Lemma destroy1_J c s : ok1 c -> J1 c s -> c_pe c <> c_pm c ->
  exists s', dct_destroy s = Ok tt s' /\ gone s s' [c_e c; c_x c; c_y c] [c_pe c; c_pm c].
Proof.
  intros HC HJ Hne. pose proof (ok_m _ HC) as Hm. destruct (j_e _ _ HJ) as (e & Se & Le & _).
  destruct (free3_2 s (c_e c) (c_x c) (c_y c) (c_pe c) (c_pm c)) as (s' & E & G).
  - eapply wok_live; [apply seg_wok; exact Se|lia].
  - eapply wok_live; [apply (j_x _ _ HJ)|lia].
  - eapply wok_live; [apply (j_y _ _ HJ)|lia].
  - rewrite (j_pe _ _ HJ). eauto.
  - rewrite (j_pm _ _ HJ). eauto.
  - apply HC.
  - done.
  - exists s'. split; [|done]. unfold dct_destroy. rewrite (bind_ok _ _ _ _ _ (get1_run s c HJ)). exact E.
Qed.
Lemma destroy2_J c s : ok2 c -> J2 c s -> c2_pe c <> c2_pm c ->
  exists s', dct2_destroy s = Ok tt s' /\ gone s s' [c2_e c; c2_x c; c2_y c] [c2_pe c; c2_pm c].
Proof.
  intros HC HJ Hne. pose proof (ok2_r _ HC) as Hr. pose proof (ok2_c _ HC) as Hc. assert (Hm : (0 < c2_m c)%nat) by (unfold c2_m; nia). destruct (k_e _ _ HJ) as (e & Se & Le & _).
  destruct (free3_2 s (c2_e c) (c2_x c) (c2_y c) (c2_pe c) (c2_pm c)) as (s' & E & G).
  - eapply wok_live; [apply seg_wok; exact Se|lia].
  - eapply wok_live; [apply (k_x _ _ HJ)|lia].
  - eapply wok_live; [apply (k_y _ _ HJ)|lia].
  - rewrite (k_pe _ _ HJ). eauto.
  - rewrite (k_pm _ _ HJ). eauto.
  - apply HC.
  - done.
  - exists s'. split; [|done]. unfold dct2_destroy. rewrite (bind_ok _ _ _ (st2 c) s) by (unfold get2, getg, bind, ret; by rewrite (k_gl _ _ HJ)). exact E.
Qed.
Lemma free_dead b s k : dm s !! b = None -> (free_d (Ptr b 0) ;! k) s = (Ub UbFree : out unit).
Proof. intros H. unfold bind. cbn [free_d Z.eqb]. by rewrite H. Qed.
Lemma free_o_dead {A} b s (k : M A) : om s !! b = None -> (free_o (Ptr b 0) ;! k) s = Ub UbFree.
Proof. intros H. unfold bind. cbn [free_o Z.eqb]. by rewrite H. Qed.
End destroy.
