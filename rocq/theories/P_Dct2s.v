(** * Set-up and destruction of the two-dimensional transform, for every allocation schedule. *)
From Coq Require Import ZArith Lia.
From stdpp Require Import base numbers gmap list.
From Verif Require Import Globals Mem M_Math M_Memory M_Status M_FFTW M_Dct2 P_Loop P_Math P_Step P_Memory P_Own P_Own2 P_Own3 P_Newton P_FFTW P_Dct1 P_Dct1s P_Dct2.
Local Open Scope Z_scope.

Section plan.
Context `{N : Num}.
Implicit Types (s : st) (O : list (kind * nat)).
Lemma malloc_run s n : unborn s ->
  (exists s', l1c_malloc_double n s = Ok (Ptr (nx s) 0) s' /\ 0 <= n /\ alloc_ok (en s) (nx s) = true /\
     same_rest s s' /\ nx s' = S (nx s) /\ pm s' = pm s /\ al s' (nx s) = true /\
     dm s' = <[nx s := replicate (Z.to_nat n) None]> (dm s)) \/
  (l1c_malloc_double n s = Ok Null (tick s) /\ (n < 0 \/ alloc_ok (en s) (nx s) = false)).
Proof.
  intros Hub. unfold l1c_malloc_double.
  destruct (alloc_d_cases n s) as [(E & H1 & H2)|(E & H1)]; [left|right; done].
  pose proof (alloc_d_frame _ _ _ _ E) as (F1 & F2 & F3). eexists. split; [exact E|]. split_and!; try done.
  simpl. by rewrite Nat.eqb_refl.
Qed.
Lemma malloc_acct W l s0 s n : unborn s0 -> acct W l s0 s ->
  exists p s', l1c_malloc_double n s = Ok p s' /\
    acct W (l ++ [mkEnt (nx s) n (replicate (Z.to_nat n) None) p]) s0 s' /\
    gl s' = gl s /\ pm s' = pm s /\ om s' = om s /\ nx s' = S (nx s).
Proof.
  intros Hu [L HE HB HO]. pose proof (ledger_unborn _ _ _ _ Hu L) as Hus.
  pose proof (lg_nx _ _ _ _ L) as Hnx.
  destruct (malloc_run s n Hus) as [(s' & E & Hn & Hok & (R1 & R2 & R3 & R4 & R5 & R6) & Enx & Epm & Eal & Edm)|(E & Hno)].
  - exists (Ptr (nx s) 0), s'. split; [done|]. split; [|auto]. split.
    + rewrite owns_snoc. simpl. apply (ledger_perm W ((KD, nx s) :: owns l)); [apply Permutation_cons_append|].
      split.
      * intros k b [[= -> ->]|Hk]%elem_of_cons.
        -- split; [lia|]. simpl. rewrite Edm, lookup_insert. eauto.
        -- destruct (lg_own _ _ _ _ L k b Hk) as [? Hh]. split; [lia|]. destruct k; simpl in *.
           ++ rewrite Edm, lookup_insert_ne by lia. done.
           ++ by rewrite Epm.
           ++ by rewrite R2.
      * apply NoDup_cons. split; [|apply L]. intros Hk. apply (lg_own _ _ _ _ L) in Hk. lia.
      * intros b Hb [Hne Hk]%not_elem_of_cons. rewrite Edm, lookup_insert_ne by congruence. by apply L.
      * intros b [Hne Hk]%not_elem_of_cons. rewrite Edm, lookup_insert_ne by congruence. by apply L.
      * intros b [Hne Hk]%not_elem_of_cons. rewrite Epm. by apply L.
      * intros b [Hne Hk]%not_elem_of_cons. rewrite R2. by apply L.
      * rewrite R1. apply L.
      * rewrite R3. apply L.
      * lia.
      * intros b Hb. rewrite R6 by lia. by apply L.
    + apply Forall_app. split.
      * rewrite Forall_forall in HE, HB |- *. intros e He. specialize (HE e He). specialize (HB e He). simpl in HB.
        destruct HE as [(P1 & P2 & P3 & P4 & P5)|?]; [left|by right].
        split; [done|]. split; [done|]. split; [done|]. rewrite Edm, lookup_insert_ne by lia. split; [done|]. rewrite R6 by lia. done.
      * apply Forall_cons; split; [|constructor]. left. simpl. rewrite <- (lg_en _ _ _ _ L), Edm, lookup_insert. auto.
    + apply Forall_app. split.
      * eapply Forall_impl; [exact HB|]. simpl. intros e ?. lia.
      * apply Forall_cons; split; [|constructor]. simpl. lia.
    + intros b Hb. rewrite Edm, lookup_insert_ne by lia. by apply HO.
  - exists Null, (tick s). split; [done|]. split; [|auto]. split.
    + rewrite owns_snoc. simpl. rewrite app_nil_r. destruct L as [Q1 Q2 Q3 Q4 Q5 Q6 Q7 Q8 Q9 Q10]. split; simpl; auto.
      intros k b Hk. destruct (Q1 k b Hk) as [? Hh]. split; [lia|]. done.
    + apply Forall_app. split.
      * done.
      * apply Forall_cons; split; [|constructor]. right. simpl. rewrite <- (lg_en _ _ _ _ L). auto.
    + apply Forall_app. split.
      * eapply Forall_impl; [exact HB|]. simpl. intros e ?. lia.
      * apply Forall_cons; split; [|constructor]. simpl. lia.
    + done.
Qed.

Lemma plan2_own s nr nc src dst k : unborn s -> (1 <= nr)%nat -> (1 <= nc)%nat -> wok s src (nr * nc) -> wok s dst (nr * nc) ->
  let m := (nr * nc)%nat in
  let s1 := wr dst (scr (en s) (nx s) 1 m) (wr src (scr (en s) (nx s) 0 m) s) in
  exists p s', fftw_plan_r2r_2d (Z.of_nat nr) (Z.of_nat nc) src dst k s = Ok p s' /\ ledger [] (own KO p) s1 s' /\
    gl s' = gl s /\ nx s' = S (nx s) /\ dm s' = dm s1 /\ al s' = al s /\
    ((p = Ptr (nx s) 0 /\ alloc_ok (en s) (nx s) = true /\ om s' = <[nx s := OPlan2 (Z.of_nat nr) (Z.of_nat nc) k src dst]> (om s)) \/
     (p = Null /\ alloc_ok (en s) (nx s) = false /\ om s' = om s)).
Proof.
  intros Hu Hr Hc Ws Wd m s1. unfold fftw_plan_r2r_2d. destruct (Z.leb_spec (Z.of_nat nr) 0); [lia|]. destruct (Z.leb_spec (Z.of_nat nc) 0); [lia|].
  cbn [orb]. rewrite <- Nat2Z.inj_mul. fold m.
  rewrite (bind_ok _ _ _ _ _ (scribble_run s m src dst Ws Wd)). fold s1.
  assert (H1 : forall p ys t, unborn t -> unborn (wr p ys t)).
  { intros [|b o] ys t Ht; [done|]. intros b' Hb'. simpl in *. destruct (Ht b' Hb') as (A & B & C). split; [|done].
    destruct (decide (b = b')) as [->|]; [by rewrite lookup_alter, A|by rewrite lookup_alter_ne]. }
  destruct (alloc_o_own s1 (OPlan2 (Z.of_nat nr) (Z.of_nat nc) k src dst)) as (p & s' & E & L & Eg & En & Ed & Ep & Ea & Hcs); [by apply H1, H1|].
  exists p, s'. split; [done|]. split; [done|]. unfold s1 in *. rewrite !gl_wr in Eg. rewrite !nx_wr in *. rewrite !al_wr in Ea. rewrite !om_wr, !en_wr in Hcs.
  split_and!; try done.
Qed.
Lemma set2_step {A} f (k : M A) s : (set2 f ;! k) s =
  k (set_gl (fun g => mkGlob _ (g_d1 g) (f (g_d2 g)) (g_tv g) (g_mt g) (g_printf g)) s).
Proof. done. Qed.
(** dct2_destroy releases exactly what the statics point to *)
Lemma destroy2_run W O s0 s d : unborn s0 -> g_d2 (gl s) = d ->
  ledger W (own KD (d2_Ety_sparse d) ++ own KD (d2_x d) ++ own KD (d2_y d) ++ own KO (d2_plan_EMx d) ++ own KO (d2_plan_MtEty d) ++ O) s0 s ->
  (forall p b o, p ∈ [d2_Ety_sparse d; d2_x d; d2_y d; d2_plan_EMx d; d2_plan_MtEty d] -> p = Ptr b o -> o = 0) ->
  exists s', dct2_destroy s = Ok tt s' /\ ledger W O s0 s' /\ gl s' = gl s /\ nx s' = nx s.
Proof.
  intros Hu Hd L Ho. unfold dct2_destroy.
  rewrite (bind_ok _ _ _ d s) by (unfold get2, getg, bind, ret; by rewrite Hd).
  destruct (free_own _ _ _ _ _ Hu L) as (s1 & E1 & L1 & G1 & N1 & _); [intros b o; apply Ho; isin|].
  destruct (free_own _ _ _ _ _ Hu L1) as (s2 & E2 & L2 & G2 & N2 & _); [intros b o; apply Ho; isin|].
  destruct (free_own _ _ _ _ _ Hu L2) as (s3 & E3 & L3 & G3 & N3 & _); [intros b o; apply Ho; isin|].
  destruct (free_o_own _ _ _ _ _ Hu L3) as (s4 & E4 & L4 & G4 & N4 & _); [intros b o; apply Ho; isin|].
  destruct (free_o_own _ _ _ _ _ Hu L4) as (s5 & E5 & L5 & G5 & N5 & _); [intros b o; apply Ho; isin|].
  exists s5. split; [|split; [done|split; congruence]].
  unfold l1c_free_double, fftw_destroy_plan.
  by rewrite (bind_ok _ _ _ _ _ E1), (bind_ok _ _ _ _ _ E2), (bind_ok _ _ _ _ _ E3), (bind_ok _ _ _ _ _ E4).
Qed.
(** the loop that clears the three arrays *)
Lemma clear3_run s m a b c : NoDup [a; b; c] -> wok s (Ptr a 0) m -> wok s (Ptr b 0) m -> wok s (Ptr c 0) m ->
  exists s', for_ 0 (Z.of_nat m) (fun i => sto (Ptr a 0) i zero ;! sto (Ptr b 0) i zero ;! sto (Ptr c 0) i zero) s = Ok tt s' /\ touch [a; b; c] s s'.
Proof.
  intros ND Wa Wb Wc. unfold for_. rewrite Z.sub_0_r, Nat2Z.id.
  apply (forn_rel (fun _ t => touch [a; b; c] s t)); [apply touch_refl|].
  intros k t Hk Ht. rewrite Z.add_0_l.
  assert (G : forall t p v, wok t p m -> is_Some (cell t p (Z.of_nat k))) by (intros t0 p v Hw; apply Hw; done).
  set (t1 := wr (padd (Ptr a 0) (Z.of_nat k)) [zero] t).
  assert (T1 : touch [a; b; c] t t1) by (apply touch_wr; isin).
  set (t2 := wr (padd (Ptr b 0) (Z.of_nat k)) [zero] t1).
  assert (T2 : touch [a; b; c] t1 t2) by (apply touch_wr; isin).
  eexists. split.
  - rewrite (bind_ok _ _ _ _ _ (sto_ok t (Ptr a 0) (Z.of_nat k) zero (touch_wok _ _ _ _ _ Ht Wa k Hk))). fold t1.
    rewrite (bind_ok _ _ _ _ _ (sto_ok t1 (Ptr b 0) (Z.of_nat k) zero (touch_wok _ _ _ _ _ T1 (touch_wok _ _ _ _ _ Ht Wb) k Hk))). fold t2.
    exact (sto_ok t2 (Ptr c 0) (Z.of_nat k) zero (touch_wok _ _ _ _ _ T2 (touch_wok _ _ _ _ _ T1 (touch_wok _ _ _ _ _ Ht Wc)) k Hk)).
  - eapply touch_trans; [exact Ht|]. eapply touch_trans; [exact T1|]. eapply touch_trans; [exact T2|]. apply touch_wr. isin.
Qed.
End plan.

Section setup.
Context `{N : Num}.
Implicit Types (s : st).
Definition root2 (nr nc : Z) : T := sqrt_ (div one (mul (mul (ofZ nr) (ofZ nc)) (ofZ 4))).
Definition ax2 (n m : Z) : AxFuns :=
  mkAx _ n m m m one (Fn F_dct2_EMx) (Fn F_dct2_MtEty) (Fn F_dct2_MtEt_EMx) (Fn F_dct2_Mx) (Fn F_dct2_Mty)
    (Fn F_dct2_Identity) (Fn F_dct2_Identity) (Fn F_dct2_Ex) (Fn F_dct2_Ety) (Fn F_dct2_destroy).
(** the transform made by a set-up in state s *)
Definition cfg2_of s (mb : nat) (mo : Z) (nr nc : nat) (ms : list nat) : cfg2 :=
  mkC2 (nx s + 3) (nx s + 4) (nx s) (nx s + 1) (nx s + 2) mb mo nr nc ms (root2 (Z.of_nat nr) (Z.of_nat nc)) (scr (en s) (nx s + 3) 0 (nr * nc)).
(** request i of the set-up, if it was granted *)
Definition got s (i : nat) (k : kind) : list (kind * nat) := if alloc_ok (en s) (nx s + i) then [(k, (nx s + i)%nat)] else [].

Lemma setup2_run s n (nr nc : nat) mk ax : unborn s -> (1 <= nr)%nat -> (1 <= nc)%nat -> Z.of_nat (nr * nc) <= INT_MAX ->
  (* all requests granted *)
  (grants s 5 /\ exists s', l1c_dct2_setup n (Z.of_nat nr) (Z.of_nat nc) mk ax s = Ok (0, ax2 n (Z.of_nat (nr * nc))) s' /\ ledger [] (owned1 s) s s' /\
     (forall mb mo ms, mk = Ptr mb mo -> segi s mk ms -> n = Z.of_nat (length ms) -> 
        J2 (cfg2_of s mb mo nr nc ms) s') /\
     (exists g, gl s' = mkGlob _ (g_d1 (gl s)) g (g_tv (gl s)) (g_mt (gl s)) (g_printf (gl s)) /\ nx s' = (nx s + 5)%nat)) \/
  (* a plan is refused: what was granted stays allocated *)
  (grants s 3 /\ ~ grants s 5 /\ exists s', l1c_dct2_setup n (Z.of_nat nr) (Z.of_nat nc) mk ax s = Ok (L1C_DCT_INIT_FAILURE, ax) s' /\
     ledger [] (got s 0 KD ++ got s 1 KD ++ got s 2 KD ++ got s 4 KO ++ got s 3 KO) s s') \/
  (* an array is refused: the others stay allocated *)
  (~ grants s 3 /\ exists s', l1c_dct2_setup n (Z.of_nat nr) (Z.of_nat nc) mk ax s = Ok (L1C_OUT_OF_MEMORY, ax) s' /\
     ledger [] (got s 0 KD ++ got s 1 KD ++ got s 2 KD) s s').
Proof.
  intros Hu Hr Hc Hint. set (M := (nr * nc)%nat) in *.
  assert (HM1 : (1 <= M)%nat) by (unfold M; nia).
  unfold l1c_dct2_setup. rewrite (bind_ok _ _ _ (Z.of_nat M) s).
  2:{ unfold i32, in_int. rewrite <- Nat2Z.inj_mul. fold M. destruct (_ && _) eqn:E; [done|]. apply andb_false_iff in E as [E|E]; apply Z.leb_gt in E; unfold INT_MIN in *; lia. }
  set (m := Z.of_nat M).
  destruct (malloc_acct [] [] s s m Hu (acct_nil s)) as (pe & s1 & E1 & A1 & G1 & P1 & O1 & N1).
  rewrite (bind_ok _ _ _ _ _ E1). rewrite set2_step.
  set (t1 := set_gl _ s1). assert (B1 : acct [] _ s t1) by (apply acct_gl; exact A1).
  destruct (malloc_acct [] _ s t1 m Hu B1) as (px & s2 & E2 & A2 & G2 & P2 & O2 & N2).
  rewrite (bind_ok _ _ _ _ _ E2). rewrite set2_step.
  set (t2 := set_gl _ s2). assert (B2 : acct [] _ s t2) by (apply acct_gl; exact A2).
  destruct (malloc_acct [] _ s t2 m Hu B2) as (py & s3 & E3 & A3 & G3 & P3 & O3 & N3).
  rewrite (bind_ok _ _ _ _ _ E3). rewrite set2_step.
  set (t3 := set_gl _ s3). assert (B3 : acct [] _ s t3) by (apply acct_gl; exact A3).
  clear A1 A2 A3 B1 B2. cbn [app] in B3.
  change (nx t1) with (nx s1) in *. change (nx t2) with (nx s2) in *. rewrite N2, N1 in *. clear E1 E2 E3.
  assert (Eg3 : gl t3 = mkGlob _ (g_d1 (gl s)) (mkD2 _ (d2_plan_MtEty (g_d2 (gl s))) (d2_plan_EMx (g_d2 (gl s))) pe px py (d2_mask (g_d2 (gl s))) (d2_n (g_d2 (gl s))) (d2_mrow (g_d2 (gl s))) (d2_mcol (g_d2 (gl s))) (d2_root (g_d2 (gl s)))) (g_tv (gl s)) (g_mt (gl s)) (g_printf (gl s))).
  { unfold t3. cbn [set_gl gl]. rewrite G3. unfold t2. cbn [set_gl gl]. rewrite G2. unfold t1. cbn [set_gl gl]. rewrite G1. done. }
  assert (Enx3 : nx t3 = (nx s + 3)%nat) by (change (nx t3) with (nx s3); rewrite N3; lia).
  assert (Eom3 : om t3 = om s) by (change (om t3) with (om s3); rewrite O3; change (om t2) with (om s2); rewrite O2; done).
  clearbody t3. clear G1 G2 G3 P1 P2 P3 O1 O2 O3 N1 N2 N3. clear t1 t2 s1 s2 s3.
  pose proof (ac_l _ _ _ _ B3) as L3. pose proof (ac_e _ _ _ _ B3) as HE.
  unfold owns in L3. cbn [mbind list_bind e_p app] in L3.
  apply Forall_cons in HE as [HEe HE]. apply Forall_cons in HE as [HEx HE]. apply Forall_cons in HE as [HEy _].
  unfold ent_ok in HEe, HEx, HEy. cbn [e_p e_b e_n e_c] in *.
  assert (Ge : own KD pe = got s 0 KD).
  { unfold got. rewrite Nat.add_0_r. destruct HEe as [(-> & _ & -> & _)|(-> & [?| ->])]; [done|lia|done]. }
  assert (Gx : own KD px = got s 1 KD).
  { unfold got. replace (nx s + 1)%nat with (S (nx s)) by lia. destruct HEx as [(-> & _ & -> & _)|(-> & [?| ->])]; [done|lia|done]. }
  assert (Gy : own KD py = got s 2 KD).
  { unfold got. replace (nx s + 2)%nat with (S (S (nx s))) by lia. destruct HEy as [(-> & _ & -> & _)|(-> & [?| ->])]; [done|lia|done]. }
  destruct (is_null px || is_null py || is_null pe) eqn:En0.
  { (* out of memory *)
    right; right. split.
    - intros HG. pose proof (HG 0%nat ltac:(lia)) as Q0. pose proof (HG 1%nat ltac:(lia)) as Q1. pose proof (HG 2%nat ltac:(lia)) as Q2.
      rewrite Nat.add_0_r in Q0. replace (nx s + 1)%nat with (S (nx s)) in Q1 by lia. replace (nx s + 2)%nat with (S (S (nx s))) in Q2 by lia.
      destruct HEe as [(E & _)|(E & [?|?])]; [|lia|congruence]. destruct HEx as [(E' & _)|(E' & [?|?])]; [|lia|congruence].
      destruct HEy as [(E'' & _)|(E'' & [?|?])]; [|lia|congruence]. subst. done.
    - exists t3. split; [done|]. rewrite <- Ge, <- Gx, <- Gy. rewrite app_nil_r in L3. exact L3. }
  apply orb_false_iff in En0 as [En0 Ene]. apply orb_false_iff in En0 as [Enx Eny].
  destruct HEe as [(-> & _ & Qe & De & Ae)|(-> & _)]; [|done].
  destruct HEx as [(-> & _ & Qx & Dx & Ax)|(-> & _)]; [|done].
  destruct HEy as [(-> & _ & Qy & Dy & Ay)|(-> & _)]; [|done]. clear Ene Enx Eny.
  assert (W0 : forall b, b ∈ [nx s; S (nx s); S (S (nx s))] -> wok t3 (Ptr b 0) M).
  { intros b Hb. repeat (apply elem_of_cons in Hb as [->|Hb]); [| | |by apply elem_of_nil in Hb];
      (eapply wok_block; [eassumption|]; rewrite replicate_length; unfold m; lia). }
  pose proof (W0 (nx s) ltac:(isin)) as We. pose proof (W0 (S (nx s)) ltac:(isin)) as Wx. pose proof (W0 (S (S (nx s))) ltac:(isin)) as Wy. clear W0.
  destruct (clear3_run t3 M (nx s) (S (nx s)) (S (S (nx s)))) as (u3 & Eu & Tu); [|done|done|done|].
  { repeat (apply NoDup_cons; split; [notin|]). apply NoDup_nil_2. }
  rewrite (bind_ok _ _ _ _ _ Eu). clear Eu.
  rewrite set2_step.
  set (t4 := set_gl _ u3).
  apply (touch_wok _ _ _ _ _ Tu) in We, Wx, Wy.
  assert (L3' : ledger [] [(KD, nx s); (KD, S (nx s)); (KD, S (S (nx s)))] s u3).
  { eapply ledger_touch; [exact L3|exact Tu|]. intros b Hb. right.
    repeat (apply elem_of_cons in Hb as [->|Hb]); [| | |by apply elem_of_nil in Hb]; cbn [own app]; isin. }
  assert (U4 : unborn t4) by (apply unborn_gl; eapply ledger_unborn; [exact Hu|exact L3']).
  assert (En4 : en t4 = en s) by (apply (lg_en _ _ _ _ L3')).
  assert (Nx4 : nx t4 = (nx s + 3)%nat) by (change (nx t4) with (nx u3); by rewrite (t_nx _ _ _ Tu)).
  assert (Gl4 : gl t4 = mkGlob _ (g_d1 (gl s)) (mkD2 _ (d2_plan_MtEty (g_d2 (gl s))) (d2_plan_EMx (g_d2 (gl s))) (Ptr (nx s) 0) (Ptr (S (nx s)) 0) (Ptr (S (S (nx s))) 0) mk n (Z.of_nat nr) (Z.of_nat nc) (root2 (Z.of_nat nr) (Z.of_nat nc))) (g_tv (gl s)) (g_mt (gl s)) (g_printf (gl s))).
  { unfold t4. cbn [set_gl gl]. by rewrite (t_gl _ _ _ Tu), Eg3. }
  assert (L4 : ledger [] [(KD, nx s); (KD, S (nx s)); (KD, S (S (nx s)))] s t4) by (apply ledger_gl; exact L3').
  assert (Om4 : om t4 = om s) by (change (om t4) with (om u3); by rewrite (t_om _ _ _ Tu)).
  assert (Al4 : al t4 = al t3) by (change (al t4) with (al u3); by rewrite (t_al _ _ _ Tu)).
  change (wok t4 (Ptr (nx s) 0) M) in We. change (wok t4 (Ptr (S (nx s)) 0) M) in Wx. change (wok t4 (Ptr (S (S (nx s))) 0) M) in Wy.
  clearbody t4. clear B3 L3 L3' De Dx Dy Tu u3.
  destruct (plan2_own t4 nr nc (Ptr (nx s) 0) (Ptr (S (nx s)) 0) REDFT10 U4 Hr Hc We Wx) as (pm & s5 & E5 & L5 & G5 & N5 & D5 & A5 & C5).
  rewrite (bind_ok _ _ _ _ _ E5). clear E5. fold M in L5, D5.
  set (w4 := wr _ _ _) in L5, D5.
  assert (T4 : touch [nx s; S (nx s); S (S (nx s))] t4 w4).
  { unfold w4. eapply touch_trans; [apply touch_wr; isin|apply touch_wr; isin]. }
  assert (L4w : ledger [] [(KD, nx s); (KD, S (nx s)); (KD, S (S (nx s)))] s w4).
  { eapply ledger_touch; [exact L4|exact T4|]. intros b Hb. right.
    repeat (apply elem_of_cons in Hb as [->|Hb]); [| | |by apply elem_of_nil in Hb]; isin. }
  assert (U5 : unborn s5).
  { eapply ledger_unborn; [|exact L5]. eapply ledger_unborn; [exact Hu|exact L4w]. }
  rewrite set2_step.
  set (t5 := set_gl _ s5).
  assert (Gl5 : gl t5 = mkGlob _ (g_d1 (gl s)) (mkD2 _ pm (d2_plan_EMx (g_d2 (gl s))) (Ptr (nx s) 0) (Ptr (S (nx s)) 0) (Ptr (S (S (nx s))) 0) mk n (Z.of_nat nr) (Z.of_nat nc) (root2 (Z.of_nat nr) (Z.of_nat nc))) (g_tv (gl s)) (g_mt (gl s)) (g_printf (gl s))).
  { unfold t5. cbn [set_gl gl]. by rewrite G5, Gl4. }
  assert (L5t : ledger [] (own KO pm ++ [(KD, nx s); (KD, S (nx s)); (KD, S (S (nx s)))]) s t5).
  { apply ledger_gl. eapply (ledger_trans []); [exact L4w|exact L5|]. intros b _. apply not_elem_of_nil. }
  assert (We5 : seg t5 (Ptr (nx s) 0) (scr (en s) (nx s + 3) 0 M)).
  { intros i v Hi. unfold cell. change (dm t5) with (dm s5). rewrite D5.
    assert (Sw : seg w4 (Ptr (nx s) 0) (scr (en s) (nx s + 3) 0 M)).
    { unfold w4. rewrite En4, Nx4. apply seg_wr_disj; [|apply seg_wr; by rewrite scr_len|apply disj_blocks; lia].
      rewrite scr_len. apply wok_wr; [by rewrite scr_len|done]. }
    exact (Sw i v Hi). }
  assert (Wok5 : forall b, wok t4 (Ptr b 0) M -> wok t5 (Ptr b 0) M).
  { intros b Hb i Hi. unfold cell. change (dm t5) with (dm s5). rewrite D5. 
    exact (touch_wok _ _ _ _ _ T4 Hb i Hi). }
  apply Wok5 in Wx, Wy. clear Wok5.
  assert (U5' : unborn t5) by (by apply unborn_gl).
  assert (En5 : en t5 = en s) by (apply (lg_en _ _ _ _ L5t)).
  assert (Nx5 : nx t5 = (nx s + 4)%nat) by (change (nx t5) with (nx s5); rewrite N5, Nx4; lia).
  assert (Al5 : al t5 = al t3) by (change (al t5) with (al s5); rewrite A5; exact Al4).
  assert (C5' : (pm = Ptr (nx s + 3) 0 /\ alloc_ok (en s) (nx s + 3) = true /\
            om t5 = <[(nx s + 3)%nat := OPlan2 (Z.of_nat nr) (Z.of_nat nc) REDFT10 (Ptr (nx s) 0) (Ptr (S (nx s)) 0)]> (om s)) \/
         (pm = Null /\ alloc_ok (en s) (nx s + 3) = false /\ om t5 = om s)).
  { change (om t5) with (om s5). rewrite Nx4, En4, Om4 in C5. exact C5. }
  clearbody t5. clear T4 L4 L4w L5 D5 A5 C5 G5 N5 U5 w4 Om4 Al4 Gl4 Nx4 En4 U4 We.
  destruct (plan2_own t5 nr nc (Ptr (S (nx s)) 0) (Ptr (S (S (nx s))) 0) REDFT01 U5' Hr Hc Wx Wy) as (pe & s6 & E6 & L6 & G6 & N6 & D6 & A6 & C6).
  rewrite (bind_ok _ _ _ _ _ E6). clear E6. fold M in L6, D6.
  set (w5 := wr _ _ _) in L6, D6.
  assert (T5 : touch [S (nx s); S (S (nx s))] t5 w5).
  { unfold w5. eapply touch_trans; [apply touch_wr; isin|apply touch_wr; isin]. }
  assert (L5w : ledger [] (own KO pm ++ [(KD, nx s); (KD, S (nx s)); (KD, S (S (nx s)))]) s w5).
  { eapply ledger_touch; [exact L5t|exact T5|]. intros b Hb. right. apply elem_of_app. right.
    repeat (apply elem_of_cons in Hb as [->|Hb]); [| |by apply elem_of_nil in Hb]; isin. }
  rewrite set2_step. set (t6 := set_gl _ s6).
  assert (Gl6 : gl t6 = mkGlob _ (g_d1 (gl s)) (mkD2 _ pm pe (Ptr (nx s) 0) (Ptr (S (nx s)) 0) (Ptr (S (S (nx s))) 0) mk n (Z.of_nat nr) (Z.of_nat nc) (root2 (Z.of_nat nr) (Z.of_nat nc))) (g_tv (gl s)) (g_mt (gl s)) (g_printf (gl s))).
  { unfold t6. cbn [set_gl gl]. by rewrite G6, Gl5. }
  assert (L6t : ledger [] (own KO pe ++ own KO pm ++ [(KD, nx s); (KD, S (nx s)); (KD, S (S (nx s)))]) s t6).
  { apply ledger_gl. eapply (ledger_trans []); [exact L5w|exact L6|]. intros b _. apply not_elem_of_nil. }
  rewrite Nx5, En5 in C6.
  assert (Gpm : own KO pm = got s 3 KO) by (unfold got; destruct C5' as [(-> & -> & _)|(-> & -> & _)]; done).
  assert (Gpe : own KO pe = got s 4 KO) by (unfold got; destruct C6 as [(-> & -> & _)|(-> & -> & _)]; done).
  assert (Lfin : ledger [] (got s 0 KD ++ got s 1 KD ++ got s 2 KD ++ got s 4 KO ++ got s 3 KO) s t6).
  { eapply ledger_perm; [|exact L6t]. rewrite <- Ge, <- Gx, <- Gy, Gpm, Gpe. cbn [own app].
    rewrite app_assoc, Permutation_app_comm. done. }
  assert (G3 : grants s 3).
  { intros i Hi. destruct i as [|[|[|i]]]; [| | |lia].
    - by rewrite Nat.add_0_r.
    - by replace (nx s + 1)%nat with (S (nx s)) by lia.
    - by replace (nx s + 2)%nat with (S (S (nx s))) by lia. }
  destruct (is_null pe || is_null pm) eqn:Enp.
  { right; left. split; [done|]. split.
    - intros HG. pose proof (HG 3%nat ltac:(lia)) as Q3. pose proof (HG 4%nat ltac:(lia)) as Q4.
      destruct C5' as [(-> & _)|(_ & ? & _)]; [|congruence]. destruct C6 as [(-> & _)|(_ & ? & _)]; [|congruence]. done.
    - exists t6. split; [done|exact Lfin]. }
  apply orb_false_iff in Enp as [Np1 Np2].
  destruct C5' as [(-> & Q3 & Om5)|(-> & _)]; [|done]. destruct C6 as [(-> & Q4 & Om6)|(-> & _)]; [|done].
  left. split.
  { intros i Hi. destruct i as [|[|[|[|[|i]]]]]; [| | | | |lia]; try (apply G3; lia); done. }
  exists t6. split; [done|]. split.
  { rewrite <- Ge, <- Gx, <- Gy, <- Gpm, <- Gpe in Lfin. cbn [own app] in Lfin. unfold owned1. replace (nx s + 1)%nat with (S (nx s)) by lia. replace (nx s + 2)%nat with (S (S (nx s))) by lia. exact Lfin. }
  split; [|rewrite Gl6; eexists; split; [reflexivity|]; change (nx t6) with (nx s6); rewrite N6, Nx5; lia].
  intros mb mo ms -> Hms ->.
  assert (Om6' : om t6 = om s6) by done.
  split; cbn [cfg2_of c2_pm c2_pe c2_e c2_x c2_y c2_mb c2_mo c2_nr c2_nc c2_mask c2_root c2_e0].
  - rewrite Gl6. cbn [g_d2]. unfold st2, cfg2_of, c2_n. cbn [c2_pm c2_pe c2_e c2_x c2_y c2_mb c2_mo c2_nr c2_nc c2_mask c2_root c2_e0].
    replace (nx s + 1)%nat with (S (nx s)) by lia. replace (nx s + 2)%nat with (S (S (nx s))) by lia.
    done.
  - rewrite Om6', Om6, Om5. rewrite lookup_insert_ne by lia. rewrite lookup_insert.
    by replace (nx s + 1)%nat with (S (nx s)) by lia.
  - rewrite Om6', Om6, lookup_insert. by replace (nx s + 1)%nat with (S (nx s)) by lia; replace (nx s + 2)%nat with (S (S (nx s))) by lia.
  - eapply segi_im; [|exact Hms]. by rewrite (lg_im _ _ _ _ L6t).
  - exists (scr (en s) (nx s + 3) 0 M). split; [|by rewrite scr_len].
    intros i v Hi. unfold cell. change (dm t6) with (dm s6). rewrite D6. 
    assert (Hni : nx s ∉ [S (nx s); S (S (nx s))]) by notin. exact (touch_seg _ _ _ _ _ _ T5 Hni We5 i v Hi).
  - replace (nx s + 1)%nat with (S (nx s)) by lia. intros i Hi. unfold cell. change (dm t6) with (dm s6). rewrite D6.
    exact (touch_wok _ _ _ _ _ T5 Wx i Hi).
  - replace (nx s + 2)%nat with (S (S (nx s))) by lia. intros i Hi. unfold cell. change (dm t6) with (dm s6). rewrite D6.
    exact (touch_wok _ _ _ _ _ T5 Wy i Hi).
  - unfold is_aligned. change (al t6) with (al s6). by rewrite A6, Al5, Ae.
  - unfold is_aligned. change (al t6) with (al s6). replace (nx s + 1)%nat with (S (nx s)) by lia. by rewrite A6, Al5, Ax.
  - unfold is_aligned. change (al t6) with (al s6). replace (nx s + 2)%nat with (S (S (nx s))) by lia. by rewrite A6, Al5, Ay.
Qed.
Lemma cfg2_ok s mb mo nr nc ms : (1 <= nr)%nat -> (1 <= nc)%nat -> Z.of_nat (nr * nc) <= INT_MAX -> (forall k, k ∈ ms -> (k < nr * nc)%nat) -> ok2 (cfg2_of s mb mo nr nc ms).
Proof.
  intros Hr Hc Hi Hk. split; cbn [cfg2_of c2_pm c2_pe c2_e c2_x c2_y c2_mb c2_mo c2_nr c2_nc c2_mask c2_root c2_e0]; try done.
  - repeat (apply NoDup_cons; split; [notin|]). apply NoDup_nil_2.
  - apply scr_len.
Qed.
End setup.
