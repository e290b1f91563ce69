(** * Set-up and destruction of the one-dimensional transform, for every allocation schedule. *)
From Coq Require Import ZArith Lia.
From stdpp Require Import base numbers gmap list.
From Verif Require Import Globals Mem M_Math M_Memory M_Status M_FFTW M_Dct1 P_Loop P_Math P_Step P_Memory P_Own P_Own2 P_Own3 P_Newton P_FFTW P_Dct1.
Local Open Scope Z_scope.

Section plan.
Context `{N : Num}.
Implicit Types (s : st) (O : list (kind * nat)).
(** what planning number k leaves in the input (j = 0) and output (j = 1) array *)
Definition scr (e : env) (k : nat) (j : Z) (m : nat) : list T := tab m (fun i => scrib e k j (Z.of_nat i)).
Lemma scribble_run s m src dst : wok s src m -> wok s dst m ->
  scribble (Z.of_nat m) src dst s = Ok tt (wr dst (scr (en s) (nx s) 1 m) (wr src (scr (en s) (nx s) 0 m) s)).
Proof.
  intros Ws Wd. unfold scribble.
  assert (G : forall t p j, wok t p m -> for_ 0 (Z.of_nat m) (fun i => sto p i (scrib (en s) (nx s) j i)) t = Ok tt (wr p (scr (en s) (nx s) j m) t)).
  { intros t p j Hw. apply (for_cells0 (fun t => wok t p m)); [|done|done|done].
    intros t' i v H Hi. apply wok_wr; [|done]. eapply wok_padd; [exact H|]. simpl. lia. }
  rewrite (bind_ok _ _ _ _ _ (G s src 0 Ws)). apply G. apply wok_wr; [|done]. unfold scr. by rewrite tab_length.
Qed.
Lemma scr_len e k j m : length (scr e k j m) = m. Proof. apply tab_length. Qed.
Lemma ledger_gl W O s0 s f : ledger W O s0 s -> ledger W O s0 (set_gl f s).
Proof. intros []. by split. Qed.
Lemma acct_gl W l s0 s f : acct W l s0 s -> acct W l s0 (set_gl f s).
Proof. intros []. split; try done. by apply ledger_gl. Qed.
Lemma unborn_gl s f : unborn s -> unborn (set_gl f s). Proof. done. Qed.

(** a plan on two arrays of m > 0 doubles *)
Lemma plan1_own s m src dst k : unborn s -> (1 <= m)%nat -> wok s src m -> wok s dst m ->
  let s1 := wr dst (scr (en s) (nx s) 1 m) (wr src (scr (en s) (nx s) 0 m) s) in
  exists p s', fftw_plan_r2r_1d (Z.of_nat m) src dst k s = Ok p s' /\ ledger [] (own KO p) s1 s' /\
    gl s' = gl s /\ nx s' = S (nx s) /\ dm s' = dm s1 /\ al s' = al s /\
    ((p = Ptr (nx s) 0 /\ alloc_ok (en s) (nx s) = true /\ om s' = <[nx s := OPlan1 (Z.of_nat m) k src dst]> (om s)) \/
     (p = Null /\ alloc_ok (en s) (nx s) = false /\ om s' = om s)).
Proof.
  intros Hu Hm Ws Wd s1. unfold fftw_plan_r2r_1d. destruct (Z.leb_spec (Z.of_nat m) 0); [lia|].
  rewrite (bind_ok _ _ _ _ _ (scribble_run s m src dst Ws Wd)). fold s1.
  assert (H1 : forall p ys t, unborn t -> unborn (wr p ys t)).
  { intros [|b o] ys t Ht; [done|]. intros b' Hb'. simpl in *. destruct (Ht b' Hb') as (A & B & C). split; [|done].
    destruct (decide (b = b')) as [->|]; [by rewrite lookup_alter, A|by rewrite lookup_alter_ne]. }
  destruct (alloc_o_own s1 (OPlan1 (Z.of_nat m) k src dst)) as (p & s' & E & L & Eg & En & Ed & Ep & Ea & Hc); [by apply H1, H1|].
  exists p, s'. split; [done|]. split; [done|]. unfold s1 in *. rewrite !gl_wr in Eg. rewrite !nx_wr in *. rewrite !al_wr in Ea. rewrite !om_wr, !en_wr in Hc.
  split_and!; try done.
Qed.

Lemma set1_step {A} f (k : M A) s : (set1 f ;! k) s =
  k (set_gl (fun g => mkGlob _ (f (g_d1 g)) (g_d2 g) (g_tv g) (g_mt g) (g_printf g)) s).
Proof. done. Qed.

(** dct_destroy releases exactly what the statics point to *)
Lemma destroy1_run W O s0 s d : unborn s0 -> g_d1 (gl s) = d ->
  ledger W (own KD (d1_Ety_sparse d) ++ own KD (d1_x d) ++ own KD (d1_y d) ++ own KO (d1_plan_EMx d) ++ own KO (d1_plan_MtEty d) ++ O) s0 s ->
  (forall p b o, p ∈ [d1_Ety_sparse d; d1_x d; d1_y d; d1_plan_EMx d; d1_plan_MtEty d] -> p = Ptr b o -> o = 0) ->
  exists s', dct_destroy s = Ok tt s' /\ ledger W O s0 s' /\ gl s' = gl s /\ nx s' = nx s.
Proof.
  intros Hu Hd L Ho. unfold dct_destroy.
  rewrite (bind_ok _ _ _ d s) by (unfold get1, getg, bind, ret; by rewrite Hd).
  destruct (free_own _ _ _ _ _ Hu L) as (s1 & E1 & L1 & G1 & N1 & _); [intros b o; apply Ho; isin|].
  destruct (free_own _ _ _ _ _ Hu L1) as (s2 & E2 & L2 & G2 & N2 & _); [intros b o; apply Ho; isin|].
  destruct (free_own _ _ _ _ _ Hu L2) as (s3 & E3 & L3 & G3 & N3 & _); [intros b o; apply Ho; isin|].
  destruct (free_o_own _ _ _ _ _ Hu L3) as (s4 & E4 & L4 & G4 & N4 & _); [intros b o; apply Ho; isin|].
  destruct (free_o_own _ _ _ _ _ Hu L4) as (s5 & E5 & L5 & G5 & N5 & _); [intros b o; apply Ho; isin|].
  exists s5. split; [|split; [done|split; congruence]].
  unfold l1c_free_double, fftw_destroy_plan.
  by rewrite (bind_ok _ _ _ _ _ E1), (bind_ok _ _ _ _ _ E2), (bind_ok _ _ _ _ _ E3), (bind_ok _ _ _ _ _ E4).
Qed.
End plan.

Section setup.
Context `{N : Num}.
Implicit Types (s : st).
Definition root1 (m : Z) : T := sqrt_ (div one (mul (ofZ m) two)).
Definition ax1 (n m : Z) : AxFuns :=
  mkAx _ n m m m one (Fn F_dct_EMx) (Fn F_dct_MtEty) (Fn F_dct_MtEt_EMx) (Fn F_dct_Mx) (Fn F_dct_Mty)
    (Fn F_dct_Identity) (Fn F_dct_Identity) (Fn F_dct_Ex) (Fn F_dct_Ety) (Fn F_dct_destroy).
(** the transform made by a set-up in state s *)
Definition cfg_of s (mb : nat) (mo : Z) (m : nat) (ms : list nat) : cfg1 :=
  mkC1 (nx s + 3) (nx s + 4) (nx s) (nx s + 1) (nx s + 2) mb mo m ms (root1 (Z.of_nat m)) (scr (en s) (nx s + 3) 0 m).
(** the five requests of a set-up *)
Definition grants s (k : nat) : Prop := forall i, (i < k)%nat -> alloc_ok (en s) (nx s + i) = true.
Definition owned1 s : list (kind * nat) := [(KD, nx s); (KD, (nx s + 1)%nat); (KD, (nx s + 2)%nat); (KO, (nx s + 4)%nat); (KO, (nx s + 3)%nat)].

Lemma setup1_run s n (m : Z) mk ax : unborn s -> (0 < m)%Z ->
  (* all requests granted *)
  (grants s 5 /\ exists s', l1c_dct1_setup n m mk ax s = Ok (0, ax1 n m) s' /\ ledger [] (owned1 s) s s' /\
     (forall mb mo ms, mk = Ptr mb mo -> segi s mk ms -> n = Z.of_nat (length ms) -> 
        J1 (cfg_of s mb mo (Z.to_nat m) ms) s') /\
     (exists g, gl s' = mkGlob _ g (g_d2 (gl s)) (g_tv (gl s)) (g_mt (gl s)) (g_printf (gl s)) /\ nx s' = (nx s + 5)%nat)) \/
  (* a plan is refused *)
  (grants s 3 /\ ~ grants s 5 /\ exists s', l1c_dct1_setup n m mk ax s = Ok (L1C_DCT_INIT_FAILURE, ax) s' /\ ledger [] [] s s') \/
  (* an array is refused: dct_destroy also gets the plans of the previous transform *)
  (~ grants s 3 /\ exists s', l1c_dct1_setup n m mk ax s = (fftw_destroy_plan (d1_plan_EMx (g_d1 (gl s))) ;! fftw_destroy_plan (d1_plan_MtEty (g_d1 (gl s))) ;! ret (L1C_OUT_OF_MEMORY, ax)) s' /\
     ledger [] [] s s').
Proof.
  intros Hu Hm. destruct (Z_of_nat_complete m ltac:(lia)) as [M ->]. rewrite Nat2Z.id. set (m := Z.of_nat M) in *.
  assert (HM1 : (1 <= M)%nat) by (unfold m in Hm; lia).
  unfold l1c_dct1_setup.
  destruct (calloc_own [] [] s s m Hu (acct_nil s)) as (pe & s1 & E1 & A1 & G1 & P1 & O1 & N1).
  rewrite (bind_ok _ _ _ _ _ E1). rewrite set1_step.
  set (t1 := set_gl _ s1). assert (B1 : acct [] _ s t1) by (apply acct_gl; exact A1).
  destruct (calloc_own [] _ s t1 m Hu B1) as (px & s2 & E2 & A2 & G2 & P2 & O2 & N2).
  rewrite (bind_ok _ _ _ _ _ E2). rewrite set1_step.
  set (t2 := set_gl _ s2). assert (B2 : acct [] _ s t2) by (apply acct_gl; exact A2).
  destruct (calloc_own [] _ s t2 m Hu B2) as (py & s3 & E3 & A3 & G3 & P3 & O3 & N3).
  rewrite (bind_ok _ _ _ _ _ E3). rewrite set1_step.
  set (t3 := set_gl _ s3). assert (B3 : acct [] _ s t3) by (apply acct_gl; exact A3).
  clear A1 A2 A3 B1 B2. cbn [app] in B3.
  change (nx t1) with (nx s1) in *. change (nx t2) with (nx s2) in *. rewrite N2, N1 in *. clear E1 E2 E3.
  assert (Eg3 : gl t3 = mkGlob _ (mkD1 _ (d1_plan_MtEty (g_d1 (gl s))) (d1_plan_EMx (g_d1 (gl s))) pe px py (d1_mask (g_d1 (gl s))) (d1_n (g_d1 (gl s))) (d1_m (g_d1 (gl s))) (d1_root (g_d1 (gl s)))) (g_d2 (gl s)) (g_tv (gl s)) (g_mt (gl s)) (g_printf (gl s))).
  { unfold t3. cbn [set_gl gl]. rewrite G3. unfold t2. cbn [set_gl gl]. rewrite G2. unfold t1. cbn [set_gl gl]. rewrite G1. done. }
  assert (Enx3 : nx t3 = (nx s + 3)%nat) by (change (nx t3) with (nx s3); rewrite N3; lia).
  assert (Eom3 : om t3 = om s) by (change (om t3) with (om s3); rewrite O3; change (om t2) with (om s2); rewrite O2; done).
  clearbody t3. clear G1 G2 G3 P1 P2 P3 O1 O2 O3 N1 N2 N3. clear t1 t2 s1 s2 s3.
  pose proof (ac_l _ _ _ _ B3) as L3. pose proof (ac_e _ _ _ _ B3) as HE.
  unfold owns in L3. cbn [mbind list_bind e_p app] in L3. rewrite app_nil_r in L3.
  apply Forall_cons in HE as [HEe HE]. apply Forall_cons in HE as [HEx HE]. apply Forall_cons in HE as [HEy _].
  unfold ent_ok in HEe, HEx, HEy. cbn [e_p e_b e_n e_c] in *.
  assert (Hoff : forall p b o, p ∈ [pe; px; py] -> p = Ptr b o -> o = 0).
  { intros p b o Hp ->. repeat (apply elem_of_cons in Hp as [Hp|Hp]); [| | |by apply elem_of_nil in Hp]; subst.
    - destruct HEe as [(E & _)|(E & _)]; by inversion E.
    - destruct HEx as [(E & _)|(E & _)]; by inversion E.
    - destruct HEy as [(E & _)|(E & _)]; by inversion E. }
  destruct (is_null px || is_null py || is_null pe) eqn:En0.
  { (* out of memory *)
    right; right. split.
    - intros HG. pose proof (HG 0%nat ltac:(lia)) as Q0. pose proof (HG 1%nat ltac:(lia)) as Q1. pose proof (HG 2%nat ltac:(lia)) as Q2.
      rewrite Nat.add_0_r in Q0. replace (nx s + 1)%nat with (S (nx s)) in Q1 by lia. replace (nx s + 2)%nat with (S (S (nx s))) in Q2 by lia.
      destruct HEe as [(E & _)|(E & [?|?])]; [|lia|congruence]. destruct HEx as [(E' & _)|(E' & [?|?])]; [|lia|congruence].
      destruct HEy as [(E'' & _)|(E'' & [?|?])]; [|lia|congruence]. subst. done.
    - unfold dct_destroy.
      destruct (free_own _ _ _ _ _ Hu L3) as (u1 & F1 & L4 & _); [intros b o; apply Hoff; isin|].
      destruct (free_own _ _ _ _ _ Hu L4) as (u2 & F2 & L5 & _); [intros b o; apply Hoff; isin|].
      assert (L5' : ledger [] (own KD py ++ []) s u2) by (by rewrite app_nil_r).
      destruct (free_own _ _ _ _ _ Hu L5') as (u3 & F3 & L6 & _); [intros b o; apply Hoff; isin|].
      exists u3. split; [|done].
      unfold bind at 1. unfold bind at 1. unfold get1 at 1. unfold bind at 1, getg at 1, ret at 1.
      rewrite Eg3. cbn [g_d1 d1_Ety_sparse d1_x d1_y d1_plan_EMx d1_plan_MtEty]. unfold l1c_free_double.
      rewrite (bind_ok _ _ _ _ _ F1), (bind_ok _ _ _ _ _ F2), (bind_ok _ _ _ _ _ F3).
      unfold bind. destruct (fftw_destroy_plan _ u3); [|done]. destruct (fftw_destroy_plan _ _); done. }
  apply orb_false_iff in En0 as [En0 Ene]. apply orb_false_iff in En0 as [Enx Eny].
  destruct HEe as [(-> & _ & Ge & De & Ae)|(-> & _)]; [|done].
  destruct HEx as [(-> & _ & Gx & Dx & Ax)|(-> & _)]; [|done].
  destruct HEy as [(-> & _ & Gy & Dy & Ay)|(-> & _)]; [|done]. clear Ene Enx Eny.
  rewrite set1_step.
  set (t4 := set_gl _ t3).
  assert (W0 : forall b, b ∈ [nx s; S (nx s); S (S (nx s))] -> wok t4 (Ptr b 0) M).
  { intros b Hb. repeat (apply elem_of_cons in Hb as [->|Hb]); [| | |by apply elem_of_nil in Hb];
      (eapply wok_block; [eassumption|]; rewrite fmap_length, const_length; unfold m; lia). }
  pose proof (W0 (nx s) ltac:(isin)) as We. pose proof (W0 (S (nx s)) ltac:(isin)) as Wx. pose proof (W0 (S (S (nx s))) ltac:(isin)) as Wy. clear W0.
  assert (U4 : unborn t4) by (apply unborn_gl; eapply ledger_unborn; [exact Hu|exact L3]).
  assert (En4 : en t4 = en s) by (apply (lg_en _ _ _ _ L3)).
  assert (Nx4 : nx t4 = (nx s + 3)%nat) by exact Enx3.
  assert (Gl4 : gl t4 = mkGlob _ (mkD1 _ (d1_plan_MtEty (g_d1 (gl s))) (d1_plan_EMx (g_d1 (gl s))) (Ptr (nx s) 0) (Ptr (S (nx s)) 0) (Ptr (S (S (nx s))) 0) mk n m (root1 m)) (g_d2 (gl s)) (g_tv (gl s)) (g_mt (gl s)) (g_printf (gl s))).
  { unfold t4. cbn [set_gl gl]. by rewrite Eg3. }
  assert (L4 : ledger [] (owns [mkEnt (nx s) m [] (Ptr (nx s) 0); mkEnt (nx s) m [] (Ptr (S (nx s)) 0); mkEnt (nx s) m [] (Ptr (S (S (nx s))) 0)]) s t4) by (apply ledger_gl; exact L3).
  unfold owns in L4. cbn [mbind list_bind e_p app own] in L4.
  assert (Om4 : om t4 = om s) by exact Eom3.
  assert (Al4 : al t4 = al t3) by done.
  clearbody t4. clear B3 L3 De Dx Dy.
  destruct (plan1_own t4 M (Ptr (nx s) 0) (Ptr (S (nx s)) 0) REDFT10 U4 HM1 We Wx) as (pm & s5 & E5 & L5 & G5 & N5 & D5 & A5 & C5).
  fold m in E5. rewrite (bind_ok _ _ _ _ _ E5). clear E5.
  set (w4 := wr _ _ _) in L5, D5.
  assert (T4 : touch [nx s; S (nx s); S (S (nx s))] t4 w4).
  { unfold w4. eapply touch_trans; [apply touch_wr; isin|apply touch_wr; isin]. }
  assert (L4w : ledger [] [(KD, nx s); (KD, S (nx s)); (KD, S (S (nx s)))] s w4).
  { eapply ledger_touch; [exact L4|exact T4|]. intros b Hb. right.
    repeat (apply elem_of_cons in Hb as [->|Hb]); [| | |by apply elem_of_nil in Hb]; isin. }
  assert (U5 : unborn s5).
  { eapply ledger_unborn; [|exact L5]. eapply ledger_unborn; [exact Hu|exact L4w]. }
  rewrite set1_step.
  set (t5 := set_gl _ s5).
  assert (Gl5 : gl t5 = mkGlob _ (mkD1 _ pm (d1_plan_EMx (g_d1 (gl s))) (Ptr (nx s) 0) (Ptr (S (nx s)) 0) (Ptr (S (S (nx s))) 0) mk n m (root1 m)) (g_d2 (gl s)) (g_tv (gl s)) (g_mt (gl s)) (g_printf (gl s))).
  { unfold t5. cbn [set_gl gl]. by rewrite G5, Gl4. }
  assert (L5t : ledger [] (own KO pm ++ [(KD, nx s); (KD, S (nx s)); (KD, S (S (nx s)))]) s t5).
  { apply ledger_gl. eapply (ledger_trans []); [exact L4w|exact L5|]. intros b _. apply not_elem_of_nil. }
  assert (We5 : seg t5 (Ptr (nx s) 0) (scr (en s) (nx s + 3) 0 M)).
  { intros i v Hi. unfold cell. change (dm t5) with (dm s5). rewrite D5.
    assert (Sw : seg w4 (Ptr (nx s) 0) (scr (en s) (nx s + 3) 0 M)).
    { unfold w4. rewrite En4, Nx4. apply seg_wr_disj; [|apply seg_wr; by rewrite scr_len|apply disj_blocks; lia].
      rewrite scr_len. apply wok_wr; [by rewrite scr_len|done]. }
    exact (Sw i v Hi). }
  assert (Wok5 : forall b, wok t4 (Ptr b 0) M -> wok t5 (Ptr b 0) M).
  { intros b Hb i Hi. unfold cell. change (dm t5) with (dm s5). rewrite D5. 
    exact (touch_wok _ _ _ _ _ T4 Hb i Hi). }
  apply Wok5 in Wx, Wy. clear Wok5.
  assert (U5' : unborn t5) by (by apply unborn_gl).
  assert (En5 : en t5 = en s) by (apply (lg_en _ _ _ _ L5t)).
  assert (Nx5 : nx t5 = (nx s + 4)%nat) by (change (nx t5) with (nx s5); rewrite N5, Nx4; lia).
  assert (Al5 : al t5 = al t3) by (change (al t5) with (al s5); rewrite A5; exact Al4).
  assert (C5' : (pm = Ptr (nx s + 3) 0 /\ alloc_ok (en s) (nx s + 3) = true /\
            om t5 = <[(nx s + 3)%nat := OPlan1 (Z.of_nat M) REDFT10 (Ptr (nx s) 0) (Ptr (S (nx s)) 0)]> (om s)) \/
         (pm = Null /\ alloc_ok (en s) (nx s + 3) = false /\ om t5 = om s)).
  { change (om t5) with (om s5). rewrite Nx4, En4, Om4 in C5. exact C5. }
  clearbody t5. clear T4 L4 L4w L5 D5 A5 C5 G5 N5 U5 w4 Om4 Al4 Gl4 Nx4 En4 U4 We.
  destruct (plan1_own t5 M (Ptr (S (nx s)) 0) (Ptr (S (S (nx s))) 0) REDFT01 U5' HM1 Wx Wy) as (pe & s6 & E6 & L6 & G6 & N6 & D6 & A6 & C6).
  fold m in E6. rewrite (bind_ok _ _ _ _ _ E6). clear E6.
  set (w5 := wr _ _ _) in L6, D6.
  assert (T5 : touch [S (nx s); S (S (nx s))] t5 w5).
  { unfold w5. eapply touch_trans; [apply touch_wr; isin|apply touch_wr; isin]. }
  assert (L5w : ledger [] (own KO pm ++ [(KD, nx s); (KD, S (nx s)); (KD, S (S (nx s)))]) s w5).
  { eapply ledger_touch; [exact L5t|exact T5|]. intros b Hb. right. apply elem_of_app. right.
    repeat (apply elem_of_cons in Hb as [->|Hb]); [| |by apply elem_of_nil in Hb]; isin. }
  rewrite set1_step. set (t6 := set_gl _ s6).
  assert (Gl6 : gl t6 = mkGlob _ (mkD1 _ pm pe (Ptr (nx s) 0) (Ptr (S (nx s)) 0) (Ptr (S (S (nx s))) 0) mk n m (root1 m)) (g_d2 (gl s)) (g_tv (gl s)) (g_mt (gl s)) (g_printf (gl s))).
  { unfold t6. cbn [set_gl gl]. by rewrite G6, Gl5. }
  assert (L6t : ledger [] (own KO pe ++ own KO pm ++ [(KD, nx s); (KD, S (nx s)); (KD, S (S (nx s)))]) s t6).
  { apply ledger_gl. eapply (ledger_trans []); [exact L5w|exact L6|]. intros b _. apply not_elem_of_nil. }
  assert (Lfin : ledger [] (own KD (Ptr (nx s) 0) ++ own KD (Ptr (S (nx s)) 0) ++ own KD (Ptr (S (S (nx s))) 0) ++ own KO pe ++ own KO pm ++ []) s t6).
  { eapply ledger_perm; [|exact L6t]. rewrite app_nil_r. cbn [own app].
    rewrite app_assoc, Permutation_app_comm. done. }
  rewrite Nx5, En5 in C6.
  assert (G3 : grants s 3).
  { intros i Hi. destruct i as [|[|[|i]]]; [| | |lia].
    - by rewrite Nat.add_0_r.
    - by replace (nx s + 1)%nat with (S (nx s)) by lia.
    - by replace (nx s + 2)%nat with (S (S (nx s))) by lia. }
  destruct (is_null pm || is_null pe) eqn:Enp.
  { right; left. split; [done|]. split.
    - intros HG. pose proof (HG 3%nat ltac:(lia)) as Q3. pose proof (HG 4%nat ltac:(lia)) as Q4.
      destruct C5' as [(-> & _)|(_ & ? & _)]; [|congruence]. destruct C6 as [(-> & _)|(_ & ? & _)]; [|congruence]. done.
    - destruct (destroy1_run [] [] s t6 _ Hu eq_refl) as (s7 & E7 & L7 & _).
      + rewrite Gl6. exact Lfin.
      + rewrite Gl6. cbn [g_d1 d1_Ety_sparse d1_x d1_y d1_plan_EMx d1_plan_MtEty]. intros p b o Hp ->.
        repeat (apply elem_of_cons in Hp as [Hp|Hp]); [..|by apply elem_of_nil in Hp]; try (by inversion Hp).
        * destruct C6 as [(-> & _)|(-> & _)]; by inversion Hp.
        * destruct C5' as [(-> & _)|(-> & _)]; by inversion Hp.
      + exists s7. split; [|done]. by rewrite (bind_ok _ _ _ _ _ E7). }
  apply orb_false_iff in Enp as [Np1 Np2].
  destruct C5' as [(-> & Q3 & Om5)|(-> & _)]; [|done]. destruct C6 as [(-> & Q4 & Om6)|(-> & _)]; [|done].
  left. split.
  { intros i Hi. destruct i as [|[|[|[|[|i]]]]]; [| | | | |lia]; try (apply G3; lia); done. }
  exists t6. split; [done|]. split.
  { cbn [own app] in Lfin. unfold owned1. replace (nx s + 1)%nat with (S (nx s)) by lia. replace (nx s + 2)%nat with (S (S (nx s))) by lia. exact Lfin. }
  split; [|rewrite Gl6; eexists; split; [reflexivity|]; change (nx t6) with (nx s6); rewrite N6, Nx5; lia].
  intros mb mo ms -> Hms ->.
  assert (Om6' : om t6 = om s6) by done.
  split; cbn [cfg_of c_pm c_pe c_e c_x c_y c_mb c_mo c_m c_mask c_root c_e0].
  - rewrite Gl6. cbn [g_d1]. unfold st1, cfg_of, c_n. cbn [c_pm c_pe c_e c_x c_y c_mb c_mo c_m c_mask c_root c_e0].
    replace (nx s + 1)%nat with (S (nx s)) by lia. replace (nx s + 2)%nat with (S (S (nx s))) by lia.
    done.
  - rewrite Om6', Om6, Om5. rewrite lookup_insert_ne by lia. rewrite lookup_insert.
    by replace (nx s + 1)%nat with (S (nx s)) by lia.
  - rewrite Om6', Om6, lookup_insert. by replace (nx s + 1)%nat with (S (nx s)) by lia; replace (nx s + 2)%nat with (S (S (nx s))) by lia.
  - eapply segi_im; [|exact Hms]. by rewrite (lg_im _ _ _ _ L6t).
  - exists (scr (en s) (nx s + 3) 0 M). split; [|by rewrite scr_len].
    intros i v Hi. unfold cell. change (dm t6) with (dm s6). rewrite D6. 
    assert (Hni : nx s ∉ [S (nx s); S (S (nx s))]) by notin. exact (touch_seg _ _ _ _ _ _ T5 Hni We5 i v Hi).
  - replace (nx s + 1)%nat with (S (nx s)) by lia. intros i Hi. unfold cell. change (dm t6) with (dm s6). rewrite D6.
    exact (touch_wok _ _ _ _ _ T5 Wx i Hi).
  - replace (nx s + 2)%nat with (S (S (nx s))) by lia. intros i Hi. unfold cell. change (dm t6) with (dm s6). rewrite D6.
    exact (touch_wok _ _ _ _ _ T5 Wy i Hi).
  - unfold is_aligned. change (al t6) with (al s6). by rewrite A6, Al5, Ae.
  - unfold is_aligned. change (al t6) with (al s6). replace (nx s + 1)%nat with (S (nx s)) by lia. by rewrite A6, Al5, Ax.
  - unfold is_aligned. change (al t6) with (al s6). replace (nx s + 2)%nat with (S (S (nx s))) by lia. by rewrite A6, Al5, Ay.
Qed.
Lemma cfg_ok s mb mo m ms : (1 <= m)%nat -> (forall k, k ∈ ms -> (k < m)%nat) -> ok1 (cfg_of s mb mo m ms).
Proof.
  intros Hm Hk. split; cbn [cfg_of c_pm c_pe c_e c_x c_y c_mb c_mo c_m c_mask c_root c_e0]; try done.
  - repeat (apply NoDup_cons; split; [notin|]). apply NoDup_nil_2.
  - apply scr_len.
Qed.
End setup.
