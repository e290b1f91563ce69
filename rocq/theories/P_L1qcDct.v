(** * l1qc_dct: the solver run on a DCT transform. *)
From Coq Require Import ZArith Lia.
From stdpp Require Import base numbers gmap list.
From Verif Require Import Globals Mem M_Math M_Memory M_Status M_CG M_LineSearch M_FFTW M_Dct1 M_Dct2 M_Dct M_TVt M_Newton M_L1qcDct
  P_Mem P_Loop P_Math P_Step P_Touch P_Memory P_Own P_Own2 P_Own3 P_CG P_Newton P_Newt2 P_Newt3 P_Newt5 P_Newt7 P_FFTW P_Dct1 P_Dct1s P_Dct2 P_Dct2s S_Xform P_Xform S_DctApi P_Dct P_DctA S_L1qcDct.
Local Open Scope Z_scope.

Section heap.
Context `{N : Num}.
Implicit Types (s t : st) (O : list (kind * nat)).
Lemma owned1_kd s b : (KD, b) ∈ owned1 s <-> b ∈ [nx s; nx s + 1; nx s + 2]%nat.
Proof. unfold owned1. rewrite !elem_of_cons, !elem_of_nil. naive_solver. Qed.
Lemma owned1_ko s b : (KO, b) ∈ owned1 s <-> b ∈ [nx s + 4; nx s + 3]%nat.
Proof. unfold owned1. rewrite !elem_of_cons, !elem_of_nil. naive_solver. Qed.
Lemma owned1_kp s b : (KP, b) ∉ owned1 s.
Proof. unfold owned1. rewrite !elem_of_cons, !elem_of_nil. naive_solver. Qed.
Lemma ledger_gone W O s t t1 : unborn s -> ledger W (O ++ owned1 s) s t ->
  gone t t1 [nx s; nx s + 1; nx s + 2]%nat [nx s + 4; nx s + 3]%nat -> ledger W O s t1.
Proof.
  intros Hu L (G1 & G2 & G3 & G4 & G5 & G6 & G7 & _).
  pose proof (lg_nd _ _ _ _ L) as ND. apply NoDup_app in ND as (ND & ND2 & _).
  assert (Hin : forall k b, (k, b) ∈ O -> (k, b) ∈ O ++ owned1 s) by (intros; apply elem_of_app; by left).
  assert (Hni : forall k b, (k, b) ∉ O -> (k, b) ∉ owned1 s -> (k, b) ∉ O ++ owned1 s) by (intros k b H1 H2 [?|?]%elem_of_app; done).
  assert (B1 : forall b, b ∈ [nx s; nx s + 1; nx s + 2]%nat -> (nx s <= b)%nat) by (intros b; rewrite !elem_of_cons, elem_of_nil; lia).
  assert (B2 : forall b, b ∈ [nx s + 4; nx s + 3]%nat -> (nx s <= b)%nat) by (intros b; rewrite !elem_of_cons, elem_of_nil; lia).
  split.
  - intros k b Hk. destruct (lg_own _ _ _ _ L k b (Hin _ _ Hk)) as [Hb Hh]. rewrite G6. split; [done|].
    specialize (ND2 _ Hk). destruct k; simpl in *.
    + rewrite G1. case_bool_decide as Hc; [|done]. exfalso. apply ND2. by apply owned1_kd.
    + by rewrite G3.
    + rewrite G2. case_bool_decide as Hc; [|done]. exfalso. apply ND2. by apply owned1_ko.
  - done.
  - intros b HW Hb. rewrite G1. case_bool_decide as Hc; [symmetry; apply Hu; auto|].
    apply L; [done|]. apply Hni; [done|]. by rewrite owned1_kd.
  - intros b Hb. rewrite G1. case_bool_decide as Hc; [rewrite (proj1 (Hu b (B1 b Hc))); done|].
    apply L. apply Hni; [done|]. by rewrite owned1_kd.
  - intros b Hb. rewrite G3. apply L. apply Hni; [done|]. apply owned1_kp.
  - intros b Hb. rewrite G2. case_bool_decide as Hc; [symmetry; apply Hu; auto|].
    apply L. apply Hni; [done|]. by rewrite owned1_ko.
  - rewrite G4. apply L.
  - rewrite G7. apply L.
  - rewrite G6. apply L.
  - intros b Hb. rewrite G5. by apply L.
Qed.
(** everything is given back *)
Lemma ledger_back W s0 s t : unborn s -> ledger W [] s t -> same_heap s s0 -> (forall b, b ∈ W -> dm t !! b = dm s0 !! b) -> same_heap s0 t.
Proof.
  intros Hu L (E1 & E2 & E3 & E4) HW. split; [|split; [|split]].
  - apply map_eq. intros b. destruct (decide (b ∈ W)) as [Hb|Hb]; [by apply HW|]. rewrite E1. apply L; [done|apply not_elem_of_nil].
  - apply map_eq. intros b. rewrite E2. apply L. apply not_elem_of_nil.
  - apply map_eq. intros b. rewrite E3. apply L. apply not_elem_of_nil.
  - rewrite E4. apply L.
Qed.
End heap.

Section run.
Context `{N : Num}.
Context (fft1 : fkind -> list T -> list T) (fft2 : fkind -> nat -> nat -> list T -> list T).
Hypothesis fft1_len : forall k xs, length (fft1 k xs) = length xs.
Hypothesis fft2_len : forall k nr nc xs, length xs = (nr * nc)%nat -> length (fft2 k nr nc xs) = (nr * nc)%nat.
Implicit Types (s : st) (ax : AxFuns) (xs : list T).
Notation call := (call fft1 fft2).

(** what the solver needs of a transform *)
Record xf_ready (F : list nat) (J : st -> Prop) ax (m n : nat) (A B M : list T -> list T) s : Prop := {
  xr_ops : opers F (fun _ => J) (call (ax_Ax ax)) (call (ax_Aty ax)) (call (ax_AtAx ax)) m n A B (fun xs => B (A xs));
  xr_mx : forall t b o xs D, J t -> seg t (Ptr b o) xs -> length xs = m -> wok t D m -> disj D m (Ptr b o) m ->
    is_aligned t (Ptr b o) = true -> is_aligned t D = true -> outside (Ptr b o) F -> outside D F ->
    exists t', call (ax_Mx ax) (Ptr b o) D t = Ok tt t' /\ touch (b :: F) (wr D (M xs) t) t' /\ J t';
  xr_mlen : forall xs, length xs = m -> length (M xs) = m;
  xr_destroy : forall t, J t -> exists t', call_destroy (ax_destroy ax) t = Ok tt t' /\ gone t t' [nx s; nx s + 1; nx s + 2]%nat [nx s + 4; nx s + 3]%nat;
  xr_set : forall f, f ∈ [ax_Ax ax; ax_Aty ax; ax_AtAx ax; ax_Mx ax] -> exists g, f = Fn g
}.
Lemma opers_of F (J : st -> Prop) Ax Aty AtAx m n A B C : (forall s s', J s -> same_on F s s' -> J s') ->
  oper F J Ax m n A -> oper F J Aty n m B -> oper F J AtAx m m C -> opers F (fun _ => J) Ax Aty AtAx m n A B C.
Proof. intros HS H1 H2 H3. split; [done|done| |apply H2|intros _; exact HS]. intros _. apply H2. Qed.
Lemma started_ready s nr nc mode mb mo ms ax s1 : started s (Z.of_nat nr) (Z.of_nat nc) mode mb mo ms ax s1 ->
  let one := one_d (Z.of_nat nr) (Z.of_nat nc) mode in
  exists J, J s1 /\ xf_ready (blocks s mb) J ax (nr * nc) (length ms) (fA fft1 fft2 nr nc one ms) (fAt fft1 fft2 s nr nc one ms) (fM fft1 fft2 s nr nc one) s.
Proof.
  intros H. destruct (started_inv _ _ _ _ _ _ _ _ _ H) as [_ _ _ _ _ Hmade _ _]. clear H.
  destruct Hmade as [m s1 Eo Em HC HJ|nr' nc' s1 Eo Er Ec HC HJ]; cbv zeta; rewrite Eo.
  - assert (m = nr * nc)%nat as -> by lia. clear Em. set (c := cfg_of s mb mo (nr * nc) ms) in *.
    exists (J1 c). split; [done|]. split.
    + apply opers_of; [intros s2 s3; apply (J1_same c)|exact (EMx_oper fft1 fft2 fft1_len c HC)|exact (MtEty_oper fft1 fft2 fft1_len c HC)|exact (MtEt_EMx_oper fft1 fft2 fft1_len c HC)].
    + intros t b o xs D HJt Sx Lx Wd Hd Ax Ad Ox Od. eexists. split; [exact (Mx_run fft1 fft2 fft1_len c HC t (Ptr b o) xs D HJt Sx Lx Wd Hd Ax Ad)|].
      split; [apply touch_wr; left|]. apply J1_wr; [|done]. by apply J1_wr.
    + intros xs _. apply tab_length.
    + intros t HJt. destruct (destroy1_J c t HC HJt) as (t' & E & G); [cbn; lia|]. exists t'. split; [exact E|exact G].
    + intros f Hf. repeat (apply elem_of_cons in Hf as [->|Hf]; [eexists; reflexivity|]). by apply elem_of_nil in Hf.
  - apply Nat2Z.inj in Er, Ec. subst nr' nc'. set (c := cfg2_of s mb mo nr nc ms) in *.
    exists (J2 c). split; [done|]. split.
    + apply opers_of; [intros s2 s3; apply (J2_same c)|exact (EMx2_oper fft1 fft2 fft2_len c HC)|exact (MtEty2_oper fft1 fft2 fft2_len c HC)|exact (MtEt_EMx2_oper fft1 fft2 fft2_len c HC)].
    + intros t b o xs D HJt Sx Lx Wd Hd Ax Ad Ox Od.
      destruct (op_run _ _ _ _ _ _ (Mx2_oper fft1 fft2 fft2_len c HC) t (Ptr b o) xs D HJt Sx Lx Wd Hd Ax Ad Ox Od) as (t' & E & Ht & HJ').
      exists t'. split; [exact E|]. split; [|done]. eapply touch_weaken; [exact Ht|]. intros b' Hb'. by right.
    + intros xs _. apply tab_length.
    + intros t HJt. destruct (destroy2_J c t HC HJt) as (t' & E & G); [cbn; lia|]. exists t'. split; [exact E|exact G].
    + intros f Hf. repeat (apply elem_of_cons in Hf as [->|Hf]; [eexists; reflexivity|]). by apply elem_of_nil in Hf.
Qed.

(** the end of the function *)
Lemma finish_run F J ax m n A B M s t p1 p2 (W : list nat) (res : Z * option LBResult) : unborn s ->
  xf_ready F J ax m n A B M s -> J t -> ledger W (own KD p2 ++ own KD p1 ++ owned1 s) s t ->
  (forall b o, p1 = Ptr b o -> o = 0) -> (forall b o, p2 = Ptr b o -> o = 0) ->
  exists t', (call_destroy (ax_destroy ax) ;! l1c_free_double p2 ;! l1c_free_double p1 ;! ret res) t = Ok res t' /\
    ledger W [] s t' /\ (forall b, (b < nx s)%nat -> dm t' !! b = dm t !! b).
Proof.
  intros Hu HX HJ L H1 H2. destruct (xr_destroy _ _ _ _ _ _ _ _ _ HX t HJ) as (t1 & E1 & G1).
  rewrite app_assoc in L. pose proof (ledger_gone _ _ _ _ _ Hu L G1) as L1.
  rewrite (bind_ok _ _ _ _ _ E1).
  destruct (free_own _ _ _ _ _ Hu L1 H2) as (t2 & E2 & L2 & _ & _ & D2). unfold l1c_free_double. rewrite (bind_ok _ _ _ _ _ E2).
  rewrite <- (app_nil_r (own KD p1)) in L2.
  destruct (free_own _ _ _ _ _ Hu L2 H1) as (t3 & E3 & L3 & _ & _ & D3). rewrite (bind_ok _ _ _ _ _ E3).
  exists t3. split; [done|]. split; [done|]. intros b Hb. rewrite D3, D2 by done. destruct G1 as (G1 & _). rewrite G1.
  case_bool_decide as Hc; [|done]. rewrite !elem_of_cons, elem_of_nil in Hc. lia.
Qed.

Lemma orelse_ff (a b : M bool) s : a s = Ok false s -> orelse a b s = b s.
Proof. intros E. unfold orelse. by rewrite (bind_ok _ _ _ _ _ E). Qed.
Lemma not_set_fn f s : (exists g, f = Fn g) -> not_set f s = Ok false s.
Proof. by intros [g ->]. Qed.
Lemma block_old s b o (n : nat) : unborn s -> wok s (Ptr b o) n -> (1 <= n)%nat -> (b < nx s)%nat /\ is_Some (dm s !! b).
Proof.
  intros Hu Hw Hn. assert (Hs : is_Some (dm s !! b)) by (eapply wok_live; [exact Hw|lia]). split; [|done].
  destruct (Nat.lt_ge_cases b (nx s)) as [|Hge]; [done|]. rewrite (proj1 (Hu b Hge)) in Hs. by destruct Hs.
Qed.

(** requests are numbered upwards, and nothing changes what the environment decides *)
Definition grown s t : Prop := (nx s <= nx t)%nat /\ en t = en s.
Lemma ledger_grown W O s t : ledger W O s t -> grown s t. Proof. intros L. split; apply L. Qed.
(** the call, when all requests of the set-up are granted *)
Lemma l1qc_dct_run s nr nc mb mo ms bb bo bs bx ox opts :
  dct_call s nr nc mb mo ms bb bo bs bx ox -> grants s 5 ->
  let run := l1qc_dct fft1 fft2 (Z.of_nat nr) (Z.of_nat nc) (Ptr bx ox) (Z.of_nat (length ms)) (Ptr bb bo) (Ptr mb mo) opts s in
  let k := nx s in let m := (nr * nc)%nat in let one := one_d (Z.of_nat nr) (Z.of_nat nc) (lo_dct_mode opts) in
  let A := fA fft1 fft2 nr nc one ms in let B := fAt fft1 fft2 s nr nc one ms in
  if negb (alloc_ok (en s) (k + 5) && alloc_ok (en s) (k + 6)) then exists s', run = Ok (L1C_OUT_OF_MEMORY, None) s' /\ same_heap s s' /\ grown s s' else
  if negb (alloc_ok (en s) (k + 8)) then run = Ub UbUninit else
  match n_init m (B bs) opts with
  | None => run = Ub UbCast
  | Some (tau, stages) =>
      ((exists j, (j < 18)%nat /\ alloc_ok (en s) (k + 9 + j) = false) ->
        exists s', run = Ok (L1C_OUT_OF_MEMORY, Some (mkLB (asum_of m (B bs)) 0 0 L1C_OUT_OF_MEMORY)) s' /\ same_heap s s' /\ grown s s') /\
      ((forall j, (j < 18)%nat -> alloc_ok (en s) (k + 9 + j) = true) ->
        if n_infeasible (length ms) A bs (lo_epsilon opts) (B bs) then
          exists s', run = Ok (L1C_INFEASIBLE_START, Some (mkLB (asum_of m (B bs)) 0 0 L1C_INFEASIBLE_START)) s' /\ same_heap s s' /\ grown s s'
        else counts_fit opts stages ->
          let l := n_lb m (length ms) A B (fun xs => B (A xs)) bs opts (Z.to_nat stages) (n_begin m (B bs) tau 0) in
          exists s', run = Ok (0, Some (mkLB (asum_of m (lx_ l)) (ltn_ l) (lcg_ l) 0)) s' /\ length (lx_ l) = m /\
            same_heap (wr (Ptr bx ox) (fM fft1 fft2 s nr nc one (lx_ l)) s) s' /\ grown s s')
  end.
Proof.
  intros HC HG run k m one A B. destruct HC as [Hu Hr Hc Hfit Hi Hkind Hmb Hin Hn Hb Lb Hx Hal].
  assert (Hm : (1 <= m)%nat) by (unfold m; nia). fold m in Hfit, Hin, Hn, Hx.
  set (n := length ms) in *.
  destruct (block_old s bx ox m Hu Hx Hm) as [Hbx Sbx].
  destruct (block_old s bb bo n Hu) as [Hbb Sbb]; [rewrite <- Lb; by apply seg_wok|lia|].
  assert (Nxm : bx <> mb) by (intros ->; rewrite Hkind in Sbx; by destruct Sbx).
  assert (Nbm : bb <> mb) by (intros ->; rewrite Hkind in Sbb; by destruct Sbb).
  destruct (started_exists s nr nc (lo_dct_mode opts) mb mo ms ax_local Hu Hi Hr Hc ltac:(lia) ltac:(unfold INT_MAX in *; lia) Hin HG) as (ax & s1 & Es & Hst).
  pose proof (started_inv _ _ _ _ _ _ _ _ _ Hst) as Hf. pose proof (sf_led _ _ _ _ _ _ _ _ _ Hf) as L1. pose proof (sf_nx _ _ _ _ _ _ _ _ _ Hf) as N1. fold k in N1.
  destruct (started_ready s nr nc (lo_dct_mode opts) mb mo ms ax s1 Hst) as (J & HJ1 & HX). cbv zeta in HX. fold m one n in HX. fold A B in HX.
  assert (Hu1 : unborn s1) by (eapply ledger_unborn; [exact Hu|exact L1]).
  assert (HF : forall b, b ∈ blocks s mb -> (b < nx s1)%nat).
  { intros b. unfold blocks. rewrite !elem_of_cons, elem_of_nil, N1. fold k. lia. }
  assert (EF : forall b, (b < k)%nat -> b <> mb -> b ∉ blocks s mb).
  { intros b Hb1 Hb2. unfold blocks. fold k. rewrite !elem_of_cons, elem_of_nil. lia. }
  assert (EF2 : forall b, (nx s1 <= b)%nat -> b ∉ blocks s mb) by (intros b Hb1 Hb2; apply HF in Hb2; lia).
  unfold run, l1qc_dct.
  rewrite (bind_ok _ _ _ (Z.of_nat m) s) by (rewrite i32_ok; [by rewrite <- Nat2Z.inj_mul|unfold INT_MIN, INT_MAX in *; unfold m in *; lia]).
  rewrite (bind_ok _ _ _ _ _ Es). cbv beta iota.
  pose proof (xr_set _ _ _ _ _ _ _ _ _ HX) as HS.
  rewrite (bind_ok _ _ _ false s1).
  2:{ rewrite !orelse_ff; [apply not_set_fn|apply not_set_fn|apply not_set_fn|apply not_set_fn|done]; apply HS; isin. }
  cbv beta iota. clear HS Es.
  destruct (calloc_own [] [] s1 s1 (Z.of_nat m) Hu1 (acct_nil s1)) as (p1 & s2 & E2 & A2 & G2 & P2 & O2 & N2).
  rewrite (bind_ok _ _ _ _ _ E2). clear E2.
  destruct (malloc_acct [] _ s1 s2 (Z.of_nat n) Hu1 A2) as (p2 & s3 & E3 & A3 & G3 & P3 & O3 & N3).
  rewrite (bind_ok _ _ _ _ _ E3). clear E3 A2. cbn [app] in A3.
  destruct A3 as [L3 Hent _ Hold]. apply Forall_cons_1 in Hent as [Ent1 Hent]. apply Forall_cons_1 in Hent as [Ent2 _].
  unfold ent_ok in Ent1, Ent2. cbn [e_p e_b e_n e_c] in Ent1, Ent2. rewrite Nat2Z.id in Ent1, Ent2.
  rewrite (lg_en _ _ _ _ L1), N2, N1 in *. fold k in Ent1, Ent2. rewrite ?N1 in Ent1, Ent2.
  unfold owns in L3. cbn [mbind list_bind e_p app] in L3. rewrite app_nil_r in L3.
  assert (H1o : forall b o, p1 = Ptr b o -> o = 0) by (intros b o ->; destruct Ent1 as [(E & _)|(E & _)]; by inversion E).
  assert (H2o : forall b o, p2 = Ptr b o -> o = 0) by (intros b o ->; destruct Ent2 as [(E & _)|(E & _)]; by inversion E).
  assert (Ls3 : ledger [] (own KD p2 ++ own KD p1 ++ owned1 s) s s3).
  { rewrite app_assoc. eapply (ledger_trans []); [exact L1| |intros b _; apply not_elem_of_nil]. eapply ledger_perm; [|exact L3]. apply Permutation_app_comm. }
  assert (HJ3 : J s3).
  { apply (os_same _ _ _ _ _ _ _ _ _ _ (xr_ops _ _ _ _ _ _ _ _ _ HX) 0%nat s1); [done|].
    split; [|split; [congruence|apply L3]]. intros b Hbf. apply HF in Hbf. 
    assert (HO : forall kk, (kk, b) ∉ own KD p1 ++ own KD p2) by (intros kk Hk; apply (lg_own _ _ _ _ L3) in Hk; lia).
    split_and!; [apply Hold; lia|by rewrite (lg_im _ _ _ _ L3)|by apply (lg_pm _ _ _ _ L3)|by apply (lg_om _ _ _ _ L3)|apply (lg_al _ _ _ _ L3); lia]. }
  destruct (alloc_ok (en s) (k + 5)) eqn:Q5; cbn [andb].
  2:{ cbn [negb]. destruct Ent1 as [(_ & _ & Q & _)|(-> & _)]; [congruence|]. rewrite orb_true_r.
      rewrite (bind_ok _ _ _ _ _ eq_refl).
      destruct (finish_run _ _ _ _ _ _ _ _ _ _ _ _ _ (L1C_OUT_OF_MEMORY, None) Hu HX HJ3 Ls3 H1o H2o) as (t' & E & L & _).
      exists t'. split; [exact E|]. split; [|by eapply ledger_grown]. eapply ledger_back; [exact Hu|exact L|done|]. intros b Hb'. by apply elem_of_nil in Hb'. }
  destruct Ent1 as [(-> & _ & _ & D1 & Al1)|(_ & [?|Q])]; [|lia|congruence].
  destruct (alloc_ok (en s) (k + 6)) eqn:Q6; cbn [negb].
  2:{ destruct Ent2 as [(_ & _ & Q & _)|(-> & _)]; [replace (S (k + 5)) with (k + 6)%nat in Q by lia; congruence|]. cbn [is_null orb].
      rewrite (bind_ok _ _ _ _ _ eq_refl).
      destruct (finish_run _ _ _ _ _ _ _ _ _ _ _ _ _ (L1C_OUT_OF_MEMORY, None) Hu HX HJ3 Ls3 H1o H2o) as (t' & E & L & _).
      exists t'. split; [exact E|]. split; [|by eapply ledger_grown]. eapply ledger_back; [exact Hu|exact L|done|]. intros b Hb'. by apply elem_of_nil in Hb'. }
  replace (S (k + 5)) with (k + 6)%nat in * by lia.
  destruct Ent2 as [(-> & _ & _ & D2 & Al2)|(_ & [?|Q])]; [|lia|congruence].
  cbn [is_null orb]. clear H1o H2o. cbn [own app] in Ls3, L3.
  set (p1 := Ptr (k + 5) 0) in *. set (p2 := Ptr (k + 6) 0) in *.
  assert (Wp1 : wok s3 p1 m) by (eapply wok_block; [exact D1|]; rewrite fmap_length, const_length; lia).
  assert (Wp2 : wok s3 p2 n) by (eapply wok_block; [exact D2|]; rewrite replicate_length; lia).
  (* copy of the measurements *)
  assert (Sb3 : seg s3 (Ptr bb bo) bs) by (apply (ledger_seg _ _ _ _ _ _ _ Ls3); [done|apply not_elem_of_nil|done]).
  pose proof (dcopy_run s3 n (Ptr bb bo) bs p2 Sb3 ltac:(lia) Wp2 ltac:(apply disj_blocks; lia)) as E4.
  set (s4 := wr p2 bs s3) in *.
  assert (T4 : touch [(k + 6)%nat] s3 s4) by (apply touch_wr; left).
  assert (Sb4 : seg s4 p2 bs) by (apply seg_wr; by rewrite Lb).
  assert (HJ4 : J s4).
  { apply (os_same _ _ _ _ _ _ _ _ _ _ (xr_ops _ _ _ _ _ _ _ _ _ HX) 0%nat s3); [done|]. eapply same_touch; [exact T4|].
    intros b ->%elem_of_list_singleton. apply EF2. lia. }
  (* Aty *)
  destruct (os_aty _ _ _ _ _ _ _ _ _ _ (xr_ops _ _ _ _ _ _ _ _ _ HX) 0%nat s4 p2 bs p1 HJ4 Sb4 Lb) as (s5 & E5 & T5 & HJ5).
  { by apply (touch_wok _ _ _ _ _ T4). } { apply disj_blocks; lia. }
  { rewrite (touch_aligned _ _ _ _ T4). unfold is_aligned. cbn. by rewrite Al2. }
  { rewrite (touch_aligned _ _ _ _ T4). unfold is_aligned. cbn. by rewrite Al1. }
  { apply EF2. lia. } { apply EF2. lia. }
  assert (LB : length (B bs) = m) by (apply (os_len _ _ _ _ _ _ _ _ _ _ (xr_ops _ _ _ _ _ _ _ _ _ HX)); lia).
  assert (T35 : touch ([k + 5; k + 6]%nat ++ blocks s mb) s3 s5).
  { eapply touch_trans; [eapply touch_weaken; [exact T4|]|]. { intros b ->%elem_of_list_singleton. isin. }
    eapply touch_trans; [apply (touch_wr _ s4 (k + 5)); isin|]. eapply touch_weaken; [exact T5|]. intros b Hb'. apply elem_of_app. by right. }
  assert (Sx5 : seg s5 p1 (B bs)).
  { apply (touch_seg _ _ _ _ _ _ T5); [apply EF2; lia|]. apply seg_wr. rewrite LB. by apply (touch_wok _ _ _ _ _ T4). }
  assert (Sb5 : seg s5 p2 bs).
  { apply (touch_seg _ _ _ _ _ _ T5); [apply EF2; lia|]. apply seg_wr_disj; [|exact Sb4|apply disj_blocks; lia].
    rewrite LB. by apply (touch_wok _ _ _ _ _ T4). }
  assert (HWO : forall b, b ∈ blocks s mb -> b ∈ [mb; (k + 3)%nat; (k + 4)%nat] \/ (KD, b) ∈ (KD, (k + 6)%nat) :: (KD, (k + 5)%nat) :: owned1 s).
  { intros b Hb'. unfold blocks in Hb'. fold k in Hb'. rewrite !elem_of_cons, !elem_of_nil in Hb'.
    destruct (decide (b = mb)) as [->|]; [left; isin|]. destruct (decide (b = k + 3)%nat) as [->|]; [left; isin|]. destruct (decide (b = k + 4)%nat) as [->|]; [left; isin|].
    right. do 2 apply elem_of_list_further. apply owned1_kd. fold k. rewrite !elem_of_cons, elem_of_nil. lia. }
  assert (Ls5 : ledger [mb; (k + 3)%nat; (k + 4)%nat] ((KD, (k + 6)%nat) :: (KD, (k + 5)%nat) :: owned1 s) s s5).
  { eapply ledger_touch; [eapply ledger_W; [|exact Ls3]; intros b Hb'; by apply elem_of_nil in Hb'|exact T35|].
    intros b Hb'. apply elem_of_app in Hb' as [Hb'|Hb']; [right|by apply HWO].
    apply elem_of_cons in Hb' as [->|Hb']; [isin|]. apply elem_of_list_singleton in Hb' as ->. isin. }
  assert (N5 : nx s5 = (k + 7)%nat) by (rewrite (t_nx _ _ _ T35); lia).
  assert (En5 : en s5 = en s) by apply Ls5.
  assert (HnF5 : (k + 5)%nat ∉ blocks s mb) by (apply EF2; lia).
  assert (HnF6 : (k + 6)%nat ∉ blocks s mb) by (apply EF2; lia).
  assert (NC : ncall m n (blocks s mb) (fun _ => J) bs s5 0 (k + 5) (k + 6) (B bs)).
  { split; try done; try lia.
    - eapply ledger_unborn; [exact Hu|exact Ls5].
    - rewrite (touch_aligned _ _ _ _ T35). unfold is_aligned, p1. by rewrite Al1.
    - intros b Hb'. apply HF in Hb'. lia. }
  pose proof (newton_run m n A B (fun xs => B (A xs)) _ _ _ (blocks s mb) (fun _ => J) (xr_ops _ _ _ _ _ _ _ _ _ HX) bs opts s5 0%nat _ _ _ NC Hm ltac:(lia) Hfit) as HN.
  cbv zeta in HN. rewrite N5, En5 in HN. fold p1 p2 in HN.
  replace (k + 7 + 1)%nat with (k + 8)%nat in HN by lia. replace (k + 7 + 2)%nat with (k + 9)%nat in HN by lia.
  set (nw := l1c_l1qc_newton _ p1 _ p2 _ _ _ _) in *.
  (* the prefix is done *)
  match goal with |- context [(?c ;! call ?f p2 p1 ;! ?g)] => set (g0 := g) end.
  assert (EP : forall r t, g0 s5 = Ok r t -> (cblas_dcopy (Z.of_nat n) (Ptr bb bo) p2 ;! call (ax_Aty ax) p2 p1 ;! g0) s3 = Ok r t).
  { intros r t Er. rewrite (bind_ok _ _ _ _ _ E4), (bind_ok _ _ _ _ _ E5). exact Er. }
  assert (EU : forall e, nw s5 = Ub e -> (cblas_dcopy (Z.of_nat n) (Ptr bb bo) p2 ;! call (ax_Aty ax) p2 p1 ;! g0) s3 = Ub e).
  { intros e Er. rewrite (bind_ok _ _ _ _ _ E4), (bind_ok _ _ _ _ _ E5). unfold g0, bind. by rewrite Er. }
  clearbody nw. clear E4 E5 Hst.
  destruct (alloc_ok (en s) (k + 8)); cbn [negb] in HN |- *.
  2:{ unfold bind at 1. by rewrite (EU _ HN). }
  destruct (n_init m (B bs) opts) as [[tau stages]|].
  2:{ unfold bind at 1. by rewrite (EU _ HN). }
  destruct HN as [HN1 HN2].
  assert (Hnone : forall b, b ∈ [mb; (k + 3)%nat; (k + 4)%nat] -> dm s !! b = None).
  { intros b Hb'. repeat (apply elem_of_cons in Hb' as [->|Hb']); [done|apply Hu; fold k; lia|apply Hu; fold k; lia|by apply elem_of_nil in Hb']. }
  assert (Z1 : forall b o, p1 = Ptr b o -> o = 0) by (by intros b o [= <- <-]).
  assert (Z2 : forall b o, p2 = Ptr b o -> o = 0) by (by intros b o [= <- <-]).
  assert (FinFail : forall lb s6 W6, nw s5 = Ok lb s6 -> lb_status lb <> 0 -> ledger W6 [] s5 s6 -> (forall b, b ∈ W6 -> b ∈ blocks s mb) -> J s6 ->
    exists s', (let* res := (cblas_dcopy (Z.of_nat n) (Ptr bb bo) p2 ;! call (ax_Aty ax) p2 p1 ;! g0) in
      call_destroy (ax_destroy ax) ;! l1c_free_double p2 ;! l1c_free_double p1 ;! ret res) s3 = Ok (lb_status lb, Some lb) s' /\ same_heap s s' /\ grown s s').
  { intros lb s6 W6 E6 Hne L6 HW6 HJ6.
    rewrite (bind_ok _ _ _ (lb_status lb, Some lb) s6).
    2:{ apply EP. unfold g0. rewrite (bind_ok _ _ _ _ _ E6). rewrite (proj2 (Z.eqb_neq _ _) Hne). done. }
    assert (Ls6 : ledger [mb; (k + 3)%nat; (k + 4)%nat] ((KD, (k + 6)%nat) :: (KD, (k + 5)%nat) :: owned1 s) s s6).
    { eapply (ledger_trans2 _ _ _ _ []); [exact Ls5|exact L6|done|]. intros b Hb'. apply HW6 in Hb'. by apply HWO. }
    destruct (finish_run _ _ _ _ _ _ _ _ _ _ p1 p2 _ (lb_status lb, Some lb) Hu HX HJ6 Ls6 Z1 Z2) as (t' & E & L & _).
    exists t'. split; [exact E|]. split; [|by eapply ledger_grown]. eapply ledger_back; [exact Hu|exact L|done|]. intros b Hb'. rewrite (Hnone b Hb').
    pose proof (lg_len _ _ _ _ L b ltac:(apply not_elem_of_nil)) as Q. rewrite (Hnone b Hb') in Q. by destruct (dm t' !! b). }
  split.
  - intros Hj. destruct (HN1 Hj) as (s6 & E6 & L6 & _ & HJ6). apply (FinFail _ _ [] E6); [done|exact L6| |done]. intros b Hb'. by apply elem_of_nil in Hb'.
  - intros Hj. specialize (HN2 Hj). destruct (n_infeasible _ _ _ _ _).
    { destruct HN2 as (s6 & E6 & L6 & _ & HJ6). apply (FinFail _ _ (blocks s mb) E6); [done|exact L6|done|done]. }
    intros Hct. destruct (HN2 Hct) as (s6 & E6 & Sx6 & Ll & L6 & _ & HJ6). set (l := n_lb _ _ _ _ _ _ _ _ _) in *. clear HN1 HN2 FinFail.
    assert (Ls6 : ledger [mb; (k + 3)%nat; (k + 4)%nat] ((KD, (k + 6)%nat) :: (KD, (k + 5)%nat) :: owned1 s) s s6).
    { eapply (ledger_trans2 _ _ _ _ []); [exact Ls5|exact L6|done|]. intros b Hb'. apply elem_of_cons in Hb' as [->|Hb']; [right; isin|]. by apply HWO. }
    set (X := Ptr bx ox) in *. set (eta := lx_ l) in *.
    assert (WX6 : wok s6 X m) by (apply (ledger_wok _ _ _ _ _ _ _ Ls6); [done|done]).
    assert (AX6 : is_aligned s6 X = true) by (unfold X; rewrite (ledger_aligned _ _ _ _ _ _ Ls6) by done; done).
    assert (AP6 : is_aligned s6 p1 = true).
    { unfold p1. rewrite (ledger_aligned _ _ _ _ _ _ L6) by lia. rewrite (touch_aligned _ _ _ _ T35). unfold is_aligned. by rewrite Al1. }
    pose proof (dcopy_run s6 m p1 eta X Sx6 Ll WX6 ltac:(apply disj_blocks; lia)) as E7.
    set (s7 := wr X eta s6) in *.
    assert (T7 : touch [bx] s6 s7) by (apply touch_wr; left).
    assert (HbxF : bx ∉ blocks s mb) by (apply EF; done).
    assert (HJ7 : J s7).
    { apply (os_same _ _ _ _ _ _ _ _ _ _ (xr_ops _ _ _ _ _ _ _ _ _ HX) 0%nat s6); [done|]. eapply same_touch; [exact T7|].
      intros b ->%elem_of_list_singleton. done. }
    destruct (xr_mx _ _ _ _ _ _ _ _ _ HX s7 (k + 5)%nat 0 eta X HJ7) as (s8 & E8 & T8 & HJ8); [..|done|done|].
    { apply (touch_seg _ _ _ _ _ _ T7); [rewrite elem_of_list_singleton; lia|exact Sx6]. } { done. }
    { by apply (touch_wok _ _ _ _ _ T7). } { apply disj_blocks; lia. }
    { rewrite (touch_aligned _ _ _ _ T7). exact AP6. } { rewrite (touch_aligned _ _ _ _ T7). exact AX6. }
    fold p1 in E8. set (ys := fM fft1 fft2 s nr nc one eta) in *.
    assert (Lys : length ys = m) by (apply (xr_mlen _ _ _ _ _ _ _ _ _ HX); done).
    assert (E78 : wr X ys s7 = wr X ys s6) by (apply wr_overwrite'; [by rewrite Ll|by rewrite Ll]).
    rewrite E78 in T8.
    rewrite (bind_ok _ _ _ (0, Some (mkLB (asum_of m eta) (ltn_ l) (lcg_ l) 0)) s8).
    2:{ apply EP. unfold g0. rewrite (bind_ok _ _ _ _ _ E6). cbn [lb_status Z.eqb negb]. rewrite (bind_ok _ _ _ _ _ E7), (bind_ok _ _ _ _ _ E8). done. }
    assert (Ls8 : ledger [bx; mb; (k + 3)%nat; (k + 4)%nat] ((KD, (k + 6)%nat) :: (KD, (k + 5)%nat) :: owned1 s) s s8).
    { eapply (ledger_touch _ (bx :: (k + 5)%nat :: blocks s mb)).
      - eapply ledger_W; [|exact Ls6]. intros b Hb'. by right.
      - eapply touch_trans; [apply (touch_wr _ s6 bx ox ys); left|]. eapply touch_weaken; [exact T8|]. intros b Hb'. by right.
      - intros b Hb'. apply elem_of_cons in Hb' as [->|Hb']; [left; left|]. apply elem_of_cons in Hb' as [->|Hb']; [right; isin|].
        destruct (HWO b Hb') as [?|?]; [left; by right|by right]. }
    destruct (finish_run _ _ _ _ _ _ _ _ _ _ p1 p2 _ (0, Some (mkLB (asum_of m eta) (ltn_ l) (lcg_ l) 0)) Hu HX HJ8 Ls8 Z1 Z2) as (t' & E & L & Dt).
    exists t'. split; [exact E|]. split; [done|].
    assert (Hd6 : dm s6 !! bx = dm s !! bx).
    { apply (lg_dm _ _ _ _ Ls6); [rewrite !elem_of_cons, elem_of_nil; fold k in Hbx; lia|]. intros Hk. apply (lg_own _ _ _ _ Ls6) in Hk. lia. }
    assert (Hdx : dm t' !! bx = dm (wr X ys s) !! bx).
    { rewrite Dt by done. rewrite (t_dm _ _ _ T8) by (rewrite elem_of_cons; intros [?|?]; [lia|done]).
      cbn [wr X set_dm dm]. by rewrite !lookup_alter, Hd6. }
    assert (Hne : forall b, b <> bx -> dm (wr X ys s) !! b = dm s !! b) by (intros b Hb'; cbn [wr X set_dm dm]; by rewrite lookup_alter_ne).
    split; [|by eapply ledger_grown]. split; [|split; [|split]].
    + apply map_eq. intros b. destruct (decide (b = bx)) as [->|Hb']; [done|]. rewrite Hne by done.
      destruct (decide (b ∈ [mb; (k + 3)%nat; (k + 4)%nat])) as [Hw|Hw].
      * rewrite (Hnone b Hw). pose proof (lg_len _ _ _ _ L b ltac:(apply not_elem_of_nil)) as Q. rewrite (Hnone b Hw) in Q. by destruct (dm t' !! b).
      * apply (lg_dm _ _ _ _ L); [|apply not_elem_of_nil]. apply not_elem_of_cons. done.
    + apply map_eq. intros b. apply (lg_om _ _ _ _ L). apply not_elem_of_nil.
    + apply map_eq. intros b. apply (lg_pm _ _ _ _ L). apply not_elem_of_nil.
    + apply (lg_im _ _ _ _ L).
Qed.
End run.
