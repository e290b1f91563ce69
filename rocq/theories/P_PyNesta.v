(** * nesta_dctTV from Python: the two arguments, the two work vectors, and the way out. *)
From stdpp Require Import base list gmap strings.
From Coq Require Import ZArith Lia.
From Verif Require Import Globals Mem M_Math M_Memory M_Status M_CG M_LineSearch M_FFTW M_Dct1 M_Dct2 M_Dct M_TVt M_Newton M_L1qcDct M_Bregman M_Nesta M_MexUtils M_Mex
  P_Mem P_Memory P_CG P_FFTW P_Own S_DctApi P_Dct1s S_L1qcDct P_L1qcDct T_L1qcDct S_Mex P_Mex P_MexNesta M_Py S_Py P_Py P_Py2.
Local Open Scope Z_scope.

Section nesta.
Context `{N : Num}.
Context (fft1 : fkind -> list T -> list T) (fft2 : fkind -> nat -> nat -> list T -> list T).
Implicit Types (p q r : pst) (s : st) (h : how).

(** ** Which request is which *)
(** the number of requests numpy makes to turn object i into an array of doubles, of ints *)
Definition new_d p (i : nat) : nat := match ps_o p !! i with Some (_, NdDouble _ _) => 0 | _ => 1 end.
Definition new_i p (i : nat) : nat := match ps_o p !! i with Some (_, NdInt _ _) => 0 | _ => 1 end.
(** the number of the first request after the conversions *)
Definition base p (k : nesta_kw) : nat := (nx (ps_c p) + new_d p (nk_b k) + new_i p (nk_pix k))%nat.
Lemma from_otf_d_nx p i dims xs a q : holds_d p i dims xs -> from_otf_d i p = POk (Some a) q ->
  nx (ps_c q) = (nx (ps_c p) + new_d p i)%nat /\ forall j, (nx (ps_c p) <= j < nx (ps_c q))%nat -> alloc_ok (en (ps_c p)) j = true.
Proof.
  intros (c & o & Eo & H). unfold from_otf_d, new_d. rewrite Eo.
  assert (HN : conv_d (ps_env p) i = Some (dims, xs) -> match conv_d (ps_env p) i with None => POk None (set_exc EConv p) | Some (d, x) => new_nd_d d (Some <$> x) p end = POk (Some a) q ->
    nx (ps_c q) = (nx (ps_c p) + 1)%nat /\ forall j, (nx (ps_c p) <= j < nx (ps_c q))%nat -> alloc_ok (en (ps_c p)) j = true).
  { intros ->. unfold new_nd_d. destruct (alloc_ok _ _) eqn:Ea; [|done]. intros [= _ <-]. cbn. split; [lia|]. intros j Hj. by replace j with (nx (ps_c p)) by lia. }
  destruct o; try exact (HN H). unfold pbind, incref, pret. rewrite Eo. intros [= _ <-]. cbn. split; [lia|]. intros j Hj. lia.
Qed.
Lemma from_otf_i_nx p i dims zs a q : holds_i p i dims zs -> from_otf_i i p = POk (Some a) q ->
  nx (ps_c q) = (nx (ps_c p) + new_i p i)%nat /\ forall j, (nx (ps_c p) <= j < nx (ps_c q))%nat -> alloc_ok (en (ps_c p)) j = true.
Proof.
  intros (c & o & Eo & H). unfold from_otf_i, new_i. rewrite Eo.
  assert (HN : conv_i (ps_env p) i = Some (dims, zs) -> match conv_i (ps_env p) i with None => POk None (set_exc EConv p) | Some (d, x) => new_nd_i d x p end = POk (Some a) q ->
    nx (ps_c q) = (nx (ps_c p) + 1)%nat /\ forall j, (nx (ps_c p) <= j < nx (ps_c q))%nat -> alloc_ok (en (ps_c p)) j = true).
  { intros ->. unfold new_nd_i. destruct (alloc_ok _ _) eqn:Ea; [|done]. intros [= _ <-]. cbn. split; [lia|]. intros j Hj. by replace j with (nx (ps_c p)) by lia. }
  destruct o; try exact (HN H). unfold pbind, incref, pret. rewrite Eo. intros [= _ <-]. cbn. split; [lia|]. intros j Hj. lia.
Qed.
(** the first conversion does not change what the second is given *)
Lemma from_otf_d_kind p i dims xs a q j dims2 zs : fresh_py p -> holds_d p i dims xs -> from_otf_d i p = POk (Some a) q -> holds_i p j dims2 zs -> holds_i q j dims2 zs /\ new_i q j = new_i p j.
Proof.
  intros F Hd E Hi. destruct (from_otf_d_run p i dims xs F Hd) as [[_ E1]|(h & q1 & b & off & c & E1 & Tk & _)]; rewrite E1 in E; [done|]. injection E as _ <-. split; [exact (took_holds_i h p q1 j dims2 zs F Tk Hi)|].
  destruct Hi as (c' & o & Eo & _). unfold new_i. rewrite (tk_o _ _ _ Tk), Eo.
  destruct (decide (j = key h)) as [->|Hne]; [|by rewrite doO_ne, Eo by done].
  destruct h as [l|l d y|l d y]; cbn in *.
  - unfold doO. rewrite lookup_partial_alter, Eo. by destruct o.
  - exfalso. pose proof (tk_new _ _ _ Tk I) as Q. cbn in Q. pose proof (fresh_lt _ _ _ F Eo). lia.
  - exfalso. pose proof (tk_new _ _ _ Tk I) as Q. cbn in Q. pose proof (fresh_lt _ _ _ F Eo). lia.
Qed.

(** ** The way from the arrays to the set-up of the transforms *)
Definition nesta_tail (k : nesta_kw) (mtot n : Z) (x_ours b_ours pix_idx : ptr) (bA pA : nat) : PM (option nat) :=
  let fail x_ours b_ours := cc (l1c_free_double x_ours) ;@ cc (l1c_free_double b_ours) ;@ decref bA ;@ decref pA ;@ pret None in
  let@ su := cc (l1c_setup_dctTV_transforms n (nk_mrow k) (nk_mcol k) (kw (nk_alpha_v k) zero) (kw (nk_alpha_h k) zero)
                   (kw (nk_dct_mode k) dct1) (kw (nk_bp_mode k) analysis) pix_idx ax_local) in
  let '(st, ax_funs) := su in
  if negb (st =? 0) then raise_ ERuntimeError ;@ fail x_ours b_ours else
  let@ status := cc (l1c_nesta (call fft1 fft2) mtot x_ours n b_ours ax_funs (py_nesta_opts k)) in
  let@ r := SimpleDoubleCopy [nk_mrow k; nk_mcol k] x_ours in
  match r with
  | None => fail x_ours b_ours
  | Some xA => decref bA ;@ decref pA ;@ cc (l1c_free_double b_ours) ;@ cc (l1c_free_double x_ours) ;@ build_tuple [VRef xA; VInt status]
  end.
(** the heap when the transforms are set up: x_ours, zero, and b_ours, the measurements, are the blocks x and x+1 *)
Record laid q (m : nat) (bs : list T) s : Prop := {
  la_dm : dm s = <[S (nx (ps_c q)) := Some <$> bs]> (<[nx (ps_c q) := Some <$> const_of m zero]> (dm (ps_c q)));
  la_im : im s = im (ps_c q); la_pm : pm s = pm (ps_c q); la_om : om s = om (ps_c q); la_en : en s = en (ps_c q); la_nx : nx s = S (S (nx (ps_c q)));
  la_al : al s (S (nx (ps_c q))) = true }.
Lemma free_ok b s l : dm s !! b = Some l -> l1c_free_double (Ptr b 0) s = Ok tt (set_dm (delete b) s).
Proof. intros E. unfold l1c_free_double. cbn. by rewrite E. Qed.

Definition modes_ok (k : nesta_kw) : Prop :=
  (kw (nk_dct_mode k) dct1 = dct1 \/ kw (nk_dct_mode k) dct1 = dct2) /\ (kw (nk_bp_mode k) analysis = analysis \/ kw (nk_bp_mode k) analysis = synthesis).
Lemma modes_run k p : modes_ok k -> is_bpmode_valid (kw (nk_bp_mode k) analysis) p = POk true p /\ is_dctmode_valid (kw (nk_dct_mode k) dct1) p = POk true p.
Proof. intros [[H1|H1] [H2|H2]]; unfold is_bpmode_valid, is_dctmode_valid; rewrite H1, H2; done. Qed.

Lemma nesta_begin p k (nr nc : nat) zs bs : fresh_py p -> modes_ok k -> nk_mrow k = Z.of_nat nr -> nk_mcol k = Z.of_nat nc -> Z.of_nat (nr * nc) <= INT_MAX ->
  holds_d p (nk_b k) [Z.of_nat (length bs)] bs -> holds_i p (nk_pix k) [Z.of_nat (length zs)] zs -> length bs = length zs -> (1 <= length zs <= nr * nc)%nat ->
  let x := base p k in
  ((exists i, (nx (ps_c p) <= i < x + 2)%nat /\ alloc_ok (en (ps_c p)) i = false) /\
   exists p', py_nesta fft1 fft2 (Some k) p = POk None p' /\ same_py p p' /\ (ps_exc p' = Some ERuntimeError \/ ps_exc p' = Some EMemoryError)) \/
  ((forall i, (nx (ps_c p) <= i < x + 2)%nat -> alloc_ok (en (ps_c p)) i = true) /\
   exists h1 h2 q dims1 dims2 b off mb mo s, held p h1 h2 q dims1 dims2 bs zs b off mb mo /\ nx (ps_c q) = x /\ laid q (nr * nc) bs s /\ unborn s /\
     ints s (Ptr mb mo) zs /\ dm s !! mb = None /\ (mb < x)%nat /\
     py_nesta fft1 fft2 (Some k) p = nesta_tail k (Z.of_nat (nr * nc)) (Z.of_nat (length zs)) (Ptr x 0) (Ptr (S x) 0) (Ptr mb mo) (key h1) (key h2) (set_c s q)).
Proof.
  intros F Hmd Emr Emc Hf Hb Hi HL Hn x. unfold py_nesta. cbv zeta. destruct (modes_run k p Hmd) as [M1 M2]. rewrite (pbind_ok _ _ _ _ _ M1). cbn [negb]. rewrite (pbind_ok _ _ _ _ _ M2). cbn [negb].
  destruct (take_both p _ _ _ _ _ _ F Hb Hi) as [(r1 & r2 & p1 & p2 & c & E1 & E2 & Hor & E3 & Hs & i & Hi1 & Ei)|(h1 & h2 & p1 & q & b & off & mb & mo & E1 & E2 & HH & Hq2)].
  - left. rewrite (pbind_ok _ _ _ _ _ E1), (pbind_ok _ _ _ _ _ E2). cbv zeta. split.
    { exists (nx (ps_c p) + i)%nat. split; [unfold x, base; lia|done]. }
    assert (EX : (raise_ ERuntimeError ;@ cc (l1c_free_double Null) ;@ cc (l1c_free_double Null) ;@ xdecref r1 ;@ xdecref r2 ;@ pret (None (A := nat))) p2 = POk None (mkPst c (ps_o p) (Some ERuntimeError) (ps_env p))).
    { rewrite (pbind_ok _ _ _ tt (set_exc ERuntimeError p2)) by done. rewrite !(pbind_ok _ _ (set_exc ERuntimeError p2) tt (set_exc ERuntimeError p2)) by (by destruct p2).
      rewrite <- pbind_assoc, (pbind_ok _ _ _ _ _ (E3 ERuntimeError)). done. }
    exists (mkPst c (ps_o p) (Some ERuntimeError) (ps_env p)). split.
    { destruct r1, r2; try exact EX. destruct Hor; done. }
    split; [split; done|]. by left.
  - destruct (from_otf_d_kind _ _ _ _ _ _ _ _ _ F Hb E1 Hi) as [Hi1 Ki].
    destruct (from_otf_i_nx _ _ _ _ _ _ Hi1 E2) as [X2 G2]. destruct (from_otf_d_nx _ _ _ _ _ _ Hb E1) as [X1 G1].
    assert (Hx : nx (ps_c q) = x) by (by rewrite X2, X1, Ki).
    assert (Ep1 : en (ps_c p1) = en (ps_c p)).
    { destruct (from_otf_d_run p _ _ _ F Hb) as [[_ E0]|(h0 & q0 & b0 & off0 & c0 & E0 & Tk0 & _)]; rewrite E0 in E1; [done|]. injection E1 as _ <-. apply Tk0. }
    assert (HG : forall i, (nx (ps_c p) <= i < nx (ps_c q))%nat -> alloc_ok (en (ps_c p)) i = true).
    { intros i Hi0. destruct (Nat.lt_ge_cases i (nx (ps_c p1))); [apply G1; lia|]. rewrite <- Ep1. apply G2. lia. }
    rewrite (pbind_ok _ _ _ _ _ E1), (pbind_ok _ _ _ _ _ E2). cbn [xdecref]. cbv zeta.
    rewrite (pbind_ok _ _ _ _ _ (hd_o1 _ _ _ _ _ _ _ _ _ _ _ _ HH)), (pbind_ok _ _ _ _ _ (hd_o2 _ _ _ _ _ _ _ _ _ _ _ _ HH)). cbv iota.
    assert (Hm : nk_mrow k * nk_mcol k = Z.of_nat (nr * nc)) by (rewrite Emr, Emc; lia). rewrite Hm.
    rewrite (pbind_cc _ _ q _ _ (i32_ok (Z.of_nat (nr * nc)) (ps_c q) ltac:(unfold INT_MIN; lia))).
    replace (set_c (ps_c q) q) with q by (by destruct q).
    rewrite !int_of_size_id by (unfold INT_MIN; lia). rewrite HL, Z.eqb_refl, (proj2 (Z.ltb_ge _ _)) by lia. cbn [negb orb].
    pose proof (hd_fresh _ _ _ _ _ _ _ _ _ _ _ _ HH) as Fq. pose proof (hd_en _ _ _ _ _ _ _ _ _ _ _ _ HH) as Een. pose proof (hd_nx _ _ _ _ _ _ _ _ _ _ _ _ HH) as Hnx. rewrite <- Een.
    assert (Hb' : l1c_malloc_double (Z.of_nat (length zs)) = l1c_malloc_double (Z.of_nat (length bs))) by (by rewrite HL).
    (* leaving with MemoryError *)
    assert (EX : forall r, ps_o r = ps_o q -> dm (ps_c r) = dm (ps_c q) -> im (ps_c r) = im (ps_c q) -> pm (ps_c r) = pm (ps_c q) -> om (ps_c r) = om (ps_c q) -> ps_exc r = Some EMemoryError ->
      exists p', (decref (key h1) ;@ decref (key h2) ;@ pret (None (A := nat))) r = POk None p' /\ same_py p p' /\ (ps_exc p' = Some ERuntimeError \/ ps_exc p' = Some EMemoryError)).
    { intros r R1 R2 R3 R4 R5 R6. rewrite (drop_both _ _ _ _ _ _ _ _ _ _ _ _ HH) by (split; [by rewrite R1|by rewrite R1|by intros b' _; rewrite R2|done]). eexists. split; [reflexivity|]. split; [|by right].
      split; [cbn; rewrite R1; apply (back_o _ _ _ _ _ _ _ _ _ _ _ _ HH F)|].
      split; [cbn; rewrite R2; apply (back_dm _ _ _ _ _ _ _ _ _ _ _ _ HH F)|]. split; [cbn; rewrite R5; apply (held_om _ _ _ _ _ _ _ _ _ _ _ _ HH)|]. split; [cbn; rewrite R4; apply (held_pm _ _ _ _ _ _ _ _ _ _ _ _ HH)|cbn; rewrite R3; apply (back_im _ _ _ _ _ _ _ _ _ _ _ _ HH F)]. }
    destruct (calloc_run (ps_c q) (Z.of_nat (nr * nc)) (proj1 Fq)) as [(s3 & EC & _ & Ea & (R1 & R2 & R3 & R4 & R5 & R6) & N3 & P3 & A3 & D3)|(EC & [Hneg|Ea])]; [|lia|].
    + rewrite Nat2Z.id in D3. rewrite Hx in *. rewrite (pbind_cc _ _ q _ _ EC).
      assert (En3 : en s3 = en (ps_c q)) by done.
      assert (Q3 : dm s3 !! x = Some (Some <$> const_of (nr * nc) zero)) by (by rewrite D3, lookup_insert).
      assert (DX : delete x (<[x := Some <$> const_of (nr * nc) zero]> (dm (ps_c q))) = dm (ps_c q)) by (apply delete_insert, (proj1 Fq); lia).
      set (q3 := set_c s3 q).
      destruct (alloc_ok (en (ps_c q)) (S x)) eqn:Eb.
      * right. split. { intros i Hi0. destruct (Nat.lt_ge_cases i x); [rewrite Een; apply HG; lia|]. assert (i = x \/ i = S x) as [-> | ->] by lia; done. }
        rewrite Hb'. rewrite (pbind_cc _ _ q3 _ _ (mal s3 (length bs) ltac:(by rewrite En3, N3))). rewrite N3. cbn [is_null orb].
        set (s4 := x_made (length bs) s3). set (q4 := set_c s4 q3).
        pose proof (held_b _ _ _ _ _ _ _ _ _ _ _ _ HH ltac:(lia)) as Hbq. pose proof (hd_mb _ _ _ _ _ _ _ _ _ _ _ _ HH) as Hmb. rewrite Hx in Hbq, Hmb.
        assert (D4 : dm s4 = <[S x := replicate (length bs) None]> (dm s3)) by (unfold s4; cbn; by rewrite N3).
        assert (ED : cblas_dcopy (Z.of_nat (length bs)) (Ptr b off) (Ptr (S x) 0) s4 = Ok tt (wr (Ptr (S x) 0) bs s4)).
        { apply dcopy_run; [|done| |apply disj_blocks; lia].
          - eapply seg_dmb; [|apply (hd_seg _ _ _ _ _ _ _ _ _ _ _ _ HH)]. rewrite D4, D3, !lookup_insert_ne by lia. done.
          - eapply wok_block; [rewrite D4; apply lookup_insert|by rewrite replicate_length]. }
        rewrite <- HL. rewrite (pbind_cc _ _ q4 _ _ ED). rewrite HL.
        rewrite (wr_block _ _ (replicate (length bs) None)) by (first [by rewrite D4, lookup_insert|by rewrite replicate_length]).
        set (s5 := set_dm _ s4).
        assert (D5 : dm s5 = <[S x := Some <$> bs]> (<[x := Some <$> const_of (nr * nc) zero]> (dm (ps_c q)))). { unfold s5. cbn [dm set_dm]. rewrite D4, insert_insert, D3. done. }
        exists h1, h2, q, [Z.of_nat (length bs)], [Z.of_nat (length zs)], b, off, mb, mo, s5. split; [done|]. split; [done|]. split.
        { split; rewrite ?Hx; try done; cbn; rewrite ?N3; [done|]. by rewrite ?Nat.eqb_refl. }
        split; [|split; [|split; [|split]]].
        -- intros b' Hb0. cbn in Hb0. rewrite N3 in Hb0. rewrite D5, !lookup_insert_ne by lia. cbn. rewrite R2, P3. apply (proj1 Fq). lia.
        -- intros i j Hj. pose proof (hd_ints _ _ _ _ _ _ _ _ _ _ _ _ HH i j Hj) as Q. unfold ldi in *. cbn. rewrite R1.
           destruct (0 <=? mo + Z.of_nat i); [|done]. destruct (im (ps_c q) !! mb) as [lq|]; [|done]. destruct (lq !! Z.to_nat (mo + Z.of_nat i)); [|done]. by injection Q as ->.
        -- rewrite D5, !lookup_insert_ne by lia. apply (hd_kind _ _ _ _ _ _ _ _ _ _ _ _ HH).
        -- done.
        -- unfold nesta_tail. rewrite ?Emr, ?Emc. reflexivity.
      * left. split; [exists (S x); split; [lia|done]|].
        rewrite (pbind_cc _ _ q3 _ _ (mal_no s3 _ ltac:(by rewrite En3, N3))). cbn [is_null orb].
        rewrite (pbind_ok _ _ _ tt (set_exc EMemoryError (set_c (tick s3) q3))) by done. set (qe := set_exc _ _).
        rewrite (pbind_cc _ _ qe _ _ (free_ok x (tick s3) _ Q3)).
        rewrite (pbind_cc _ _ (set_c (set_dm (delete x) (tick s3)) qe) tt (set_dm (delete x) (tick s3))) by done.
        apply EX; try done. cbn. by rewrite D3, DX.
    + left. split; [exists x; split; [lia|by rewrite Hx in Ea]|]. rewrite Hx in *. rewrite (pbind_cc _ _ q _ _ EC). set (q3 := set_c (tick (ps_c q)) q).
      destruct (alloc_ok (en (ps_c q)) (S x)) eqn:Eb.
      * rewrite Hb'. rewrite (pbind_cc _ _ q3 _ _ (mal (tick (ps_c q)) (length bs) ltac:(cbn; by rewrite Hx))). cbn [is_null orb].
        rewrite (pbind_ok _ _ _ tt (set_exc EMemoryError (set_c (x_made (length bs) (tick (ps_c q))) q3))) by done. set (qe := set_exc _ _).
        rewrite (pbind_cc _ _ qe tt (ps_c qe)) by done.
        change (nx (tick (ps_c q))) with (S (nx (ps_c q))). rewrite Hx.
        assert (Dq : dm (ps_c qe) = <[S x := replicate (length bs) None]> (dm (ps_c q))) by (cbn; by rewrite Hx).
        rewrite (pbind_cc _ _ (set_c (ps_c qe) qe) _ _ (free_ok (S x) (ps_c qe) (replicate (length bs) None) ltac:(rewrite Dq, lookup_insert; done))).
        apply EX; try done. cbn [ps_c set_c set_dm dm]. rewrite Dq. apply delete_insert, (proj1 Fq). lia.
      * rewrite (pbind_cc _ _ q3 _ _ (mal_no (tick (ps_c q)) _ ltac:(cbn; by rewrite Hx))). cbn [is_null orb].
        rewrite (pbind_ok _ _ _ tt (set_exc EMemoryError (set_c (tick (tick (ps_c q))) q3))) by done. set (qe := set_exc _ _).
        rewrite (pbind_cc _ _ qe tt (ps_c qe)) by done. rewrite (pbind_cc _ _ (set_c (ps_c qe) qe) tt (ps_c qe)) by done.
        apply EX; done.
Qed.

(** ** The ways out *)
Section tail.
Context p h1 h2 q dims1 dims2 xs zs b off mb mo (H : held p h1 h2 q dims1 dims2 xs zs b off mb mo) (Fp : fresh_py p).
Context (m : nat) (bs : list T) (s : st) (La : laid q m bs s).
Notation x := (nx (ps_c q)).
Lemma key1 : (key h1 < x)%nat. Proof. apply H. Qed.
Lemma key2 : (key h2 < x)%nat. Proof. apply H. Qed.
Lemma unD_pt h (D D' : gmap nat (list (option T))) c : D !! c = D' !! c -> unD h D !! c = unD h D' !! c.
Proof. intros E. destruct h as [j|j d y|j d y]; cbn; [done| |done]. destruct (decide (c = j)) as [->|]; [by rewrite !lookup_delete|by rewrite !lookup_delete_ne by done]. Qed.
(** the blocks of the caller are as they were, the later ones as in D *)
Lemma un_dm (D : gmap nat (list (option T))) c : (forall c, (c < x)%nat -> D !! c = dm (ps_c q) !! c) -> unD h2 (unD h1 D) !! c = if decide (c < x)%nat then dm (ps_c p) !! c else D !! c.
Proof.
  intros HD. destruct (decide (c < x)%nat) as [Hc|Hc].
  - rewrite <- (back_dm _ _ _ _ _ _ _ _ _ _ _ _ H Fp). apply unD_pt, unD_pt. by apply HD.
  - pose proof key1. pose proof key2. apply (back_keep _ _ _ _ _ _ _ _ _ _ _ _ H); lia.
Qed.

(** the set-up of the transforms fails and has changed no block *)
Lemma setup_fails k n st ax s4 : same_heap s s4 ->
  l1c_setup_dctTV_transforms n (nk_mrow k) (nk_mcol k) (kw (nk_alpha_v k) zero) (kw (nk_alpha_h k) zero) (kw (nk_dct_mode k) dct1) (kw (nk_bp_mode k) analysis) (Ptr mb mo) ax_local s = Ok (st, ax) s4 -> st <> 0 ->
  exists p', nesta_tail k (Z.of_nat m) n (Ptr x 0) (Ptr (S x) 0) (Ptr mb mo) (key h1) (key h2) (set_c s q) = POk None p' /\ ps_exc p' = Some ERuntimeError /\ same_py p p'.
Proof.
  intros (S1 & S2 & S3 & S4) E Hst. unfold nesta_tail. cbv zeta. rewrite (pbind_cc _ _ (set_c s q) _ _ E). cbv iota. rewrite (proj2 (Z.eqb_neq _ _) Hst). cbn [negb].
  rewrite (pbind_ok _ _ _ tt (set_exc ERuntimeError (set_c s4 (set_c s q)))) by done. set (qe := set_exc _ _).
  pose proof (hd_fresh _ _ _ _ _ _ _ _ _ _ _ _ H) as Fq.
  rewrite (pbind_cc _ _ qe _ _ (free_ok x s4 (Some <$> const_of m zero) ltac:(rewrite S1, (la_dm _ _ _ _ La), lookup_insert_ne, lookup_insert by lia; done))).
  rewrite (pbind_cc _ _ (set_c (set_dm (delete x) s4) qe) _ _ (free_ok (S x) (set_dm (delete x) s4) (Some <$> bs) ltac:(cbn; rewrite lookup_delete_ne, S1, (la_dm _ _ _ _ La), lookup_insert by lia; done))).
  set (r := set_c _ _).
  assert (Dr : dm (ps_c r) = dm (ps_c q)).
  { cbn. rewrite S1, (la_dm _ _ _ _ La). rewrite delete_insert_ne by lia. rewrite (delete_insert (dm (ps_c q)) x) by (apply (proj1 Fq); lia). apply delete_insert. apply (proj1 Fq). lia. }
  assert (Ir : im (ps_c r) = im (ps_c q)) by (cbn; rewrite S4; apply La).
  rewrite (drop_both _ _ _ _ _ _ _ _ _ _ _ _ H) by (split; [done|done|by intros b' _; rewrite Dr|done]). eexists. split; [reflexivity|]. split; [done|].
  split; [apply (back_o _ _ _ _ _ _ _ _ _ _ _ _ H Fp)|].
  split; [change (unD h2 (unD h1 (dm (ps_c r))) = dm (ps_c p)); rewrite Dr; apply (back_dm _ _ _ _ _ _ _ _ _ _ _ _ H Fp)|].
  split; [cbn; rewrite S2, (la_om _ _ _ _ La); apply (held_om _ _ _ _ _ _ _ _ _ _ _ _ H)|]. split; [cbn; rewrite S3, (la_pm _ _ _ _ La); apply (held_pm _ _ _ _ _ _ _ _ _ _ _ _ H)|].
  change (unI h2 (unI h1 (im (ps_c r))) = im (ps_c p)); rewrite Ir; apply (back_im _ _ _ _ _ _ _ _ _ _ _ _ H Fp).
Qed.

(** the memory at the end, when it was s4 after the solver: x_ours and b_ours are gone *)
Definition left_of s4 (extra : gmap nat (list (option T))) p' : Prop :=
  im (ps_c p') = im (ps_c p) /\ om (ps_c p') = om s4 /\ pm (ps_c p') = pm s4 /\
  forall c, dm (ps_c p') !! c = if decide (c < x)%nat then dm (ps_c p) !! c else if decide (c = x \/ c = S x) then None else match extra !! c with Some l => Some l | None => dm s4 !! c end.

(** the solver has returned, with img in x_ours *)
Record solved s4 (img : list T) : Prop := {
  so_im : im s4 = im (ps_c q); so_old : forall c, (c < x)%nat -> dm s4 !! c = dm (ps_c q) !! c; so_x : dm s4 !! x = Some (Some <$> img); so_b : is_Some (dm s4 !! S x);
  so_len : length img = m; so_unborn : unborn s4; so_nx : (x + 2 <= nx s4)%nat; so_en : en s4 = en (ps_c p) }.
Lemma solver_returns k (nr nc : nat) n ax s1 s4 status img : nk_mrow k = Z.of_nat nr -> nk_mcol k = Z.of_nat nc -> m = (nr * nc)%nat -> Z.of_nat nr <= INT_MAX -> Z.of_nat m <= INT_MAX ->
  l1c_setup_dctTV_transforms n (nk_mrow k) (nk_mcol k) (kw (nk_alpha_v k) zero) (kw (nk_alpha_h k) zero) (kw (nk_dct_mode k) dct1) (kw (nk_bp_mode k) analysis) (Ptr mb mo) ax_local s = Ok (0, ax) s1 ->
  l1c_nesta (call fft1 fft2) (Z.of_nat m) (Ptr x 0) n (Ptr (S x) 0) ax (py_nesta_opts k) s1 = Ok status s4 -> solved s4 img ->
  let a := nx s4 in let A := NdDouble [Z.of_nat nr; Z.of_nat nc] (Ptr a 0) in
  exists (r : option nat) p', nesta_tail k (Z.of_nat m) n (Ptr x 0) (Ptr (S x) 0) (Ptr mb mo) (key h1) (key h2) (set_c s q) = POk r p' /\
    ((r = None /\ ps_exc p' = Some EMemoryError /\ alloc_ok (en (ps_c p)) a = false /\ ps_o p' = ps_o p /\ left_of s4 ∅ p') \/
     (r = None /\ ps_exc p' = Some EMemoryError /\ alloc_ok (en (ps_c p)) a = true /\ alloc_ok (en (ps_c p)) (a + 1) = false /\ ps_o p' = <[a := (1%nat, A)]> (ps_o p) /\ left_of s4 {[a := Some <$> img]} p') \/
     (r = Some (a + 1)%nat /\ ps_exc p' = ps_exc p /\ alloc_ok (en (ps_c p)) a = true /\ alloc_ok (en (ps_c p)) (a + 1) = true /\
        ps_o p' = <[(a + 1)%nat := (1%nat, PyTuple [VRef a; VInt status])]> (<[a := (2%nat, A)]> (ps_o p)) /\ left_of s4 {[a := Some <$> img]} p')).
Proof.
  intros Emr Emc Em Hr Hm E1 E2 [SI SO SX [cb SB] SL SU SN SE] a A. unfold nesta_tail. cbv zeta. rewrite (pbind_cc _ _ (set_c s q) _ _ E1). cbv iota. rewrite Z.eqb_refl. cbn [negb].
  rewrite (pbind_cc _ _ (set_c s1 (set_c s q)) _ _ E2). set (q4 := set_c s4 (set_c s1 (set_c s q))). rewrite Emr, Emc.
  pose proof (hd_fresh _ _ _ _ _ _ _ _ _ _ _ _ H) as Fq. pose proof key1 as K1. pose proof key2 as K2.
  assert (F4 : fresh_py q4).
  { split; [exact SU|]. intros c Hc. cbn in *. rewrite SI. apply (proj2 Fq). lia. }
  assert (Sx : seg (ps_c q4) (Ptr x 0) img).
  { intros i v Hi. unfold cell. cbn. rewrite SX. rewrite (proj2 (Z.leb_le 0 _)) by lia. rewrite ?Z.add_0_l, Nat2Z.id, list_lookup_fmap, Hi. done. }
  destruct (copy_run q4 nr nc x 0 img F4 ltac:(by rewrite SL) Hr ltac:(by rewrite <- Em) ltac:(cbn; lia) Sx) as [[Rf EC]|(Ga & q5 & EC & Tk5 & N5)].
  - rewrite (pbind_ok _ _ _ _ _ EC). set (q5 := mkPst _ _ _ _).
    rewrite (pbind_cc _ _ q5 _ _ (free_ok x (tick s4) _ SX)).
    rewrite (pbind_cc _ _ (set_c (set_dm (delete x) (tick s4)) q5) _ _ (free_ok (S x) (set_dm (delete x) (tick s4)) cb ltac:(cbn; rewrite lookup_delete_ne by lia; done))).
    set (r := set_c _ _).
    assert (Dr : forall c, dm (ps_c r) !! c = if decide (c = x \/ c = S x) then None else dm s4 !! c).
    { intros c. cbn. destruct (decide (c = x \/ c = S x)) as [[-> | ->]|Hc]; [by rewrite lookup_delete_ne, lookup_delete by lia|by rewrite lookup_delete|by rewrite !lookup_delete_ne by lia]. }
    assert (Do : forall c, (c < x)%nat -> dm (ps_c r) !! c = dm (ps_c q) !! c) by (intros c Hc; rewrite Dr, decide_False by lia; by apply SO).
    rewrite (drop_both _ _ _ _ _ _ _ _ _ _ _ _ H) by (split; [done|done|exact Do|exact SI]).
    eexists None, _. split; [reflexivity|]. left. split; [done|]. split; [done|]. split; [unfold refused in Rf; cbn in Rf; by rewrite SE in Rf|]. split; [apply (back_o _ _ _ _ _ _ _ _ _ _ _ _ H Fp)|].
    split; [cbn; rewrite SI; apply (back_im _ _ _ _ _ _ _ _ _ _ _ _ H Fp)|]. split; [done|]. split; [done|]. intros c. rewrite lookup_empty.
    change (dm (ps_c (release h1 h2 r))) with (unD h2 (unD h1 (dm (ps_c r)))). rewrite (un_dm _ c Do). destruct (decide (c < x)%nat); [done|]. apply Dr.
  - rewrite (pbind_ok _ _ _ _ _ EC). change (nx (ps_c q4)) with a in *.
    pose proof (tk_o _ _ _ Tk5) as O5. pose proof (tk_dm _ _ _ Tk5) as D5. pose proof (tk_im _ _ _ Tk5) as I5. pose proof (tk_pm _ _ _ Tk5) as P5. pose proof (tk_om _ _ _ Tk5) as OM5. pose proof (tk_en _ _ _ Tk5) as E5. cbn in D5, I5, P5, OM5, E5.
    assert (O5' : ps_o q5 = <[a := (1%nat, A)]> (ps_o q)) by (rewrite O5; done).
    assert (Ha : (x + 2 <= a)%nat) by done.
    assert (Do : forall c, (c < x)%nat -> dm (ps_c q5) !! c = dm (ps_c q) !! c) by (intros c Hc; rewrite D5, lookup_insert_ne by lia; by apply SO).
    rewrite (drop_both _ _ _ _ _ _ _ _ _ _ _ _ H); [|split; [by rewrite O5', lookup_insert_ne by lia|by rewrite O5', lookup_insert_ne by lia|exact Do|by rewrite I5]].
    set (q6 := release h1 h2 q5).
    assert (D6 : forall c, dm (ps_c q6) !! c = if decide (c < x)%nat then dm (ps_c p) !! c else dm (ps_c q5) !! c) by (intros c; apply un_dm, Do).
    assert (D5x : forall c, c <> a -> dm (ps_c q5) !! c = dm s4 !! c) by (intros c Hc; rewrite D5; by rewrite lookup_insert_ne by done).
    rewrite (pbind_cc _ _ q6 _ _ (free_ok (S x) (ps_c q6) cb ltac:(rewrite D6, decide_False by lia; rewrite D5x by lia; done))).
    rewrite (pbind_cc _ _ (set_c (set_dm (delete (S x)) (ps_c q6)) q6) _ _ (free_ok x (set_dm (delete (S x)) (ps_c q6)) (Some <$> img) ltac:(cbn [set_dm dm]; rewrite lookup_delete_ne, D6, decide_False by lia; rewrite D5x by lia; done))).
    set (q7 := set_c _ _).
    assert (O7 : ps_o q7 = <[a := (1%nat, A)]> (ps_o p)).
    { change (unO h2 (unO h1 (ps_o q5)) = <[a := (1%nat, A)]> (ps_o p)). rewrite O5'. rewrite (back_insert_o _ _ _ _ _ _ _ _ _ _ _ _ H) by lia. by rewrite (back_o _ _ _ _ _ _ _ _ _ _ _ _ H Fp). }
    assert (D7 : forall c, dm (ps_c q7) !! c = if decide (c < x)%nat then dm (ps_c p) !! c else if decide (c = x \/ c = S x) then None else match ({[a := Some <$> img]} : gmap nat (list (option T))) !! c with Some l => Some l | None => dm s4 !! c end).
    { intros c. change (dm (ps_c q7)) with (delete x (delete (S x) (dm (ps_c q6)))). destruct (decide (c = x \/ c = S x)) as [[-> | ->]|Hc].
      - rewrite decide_False by lia. by rewrite lookup_delete.
      - rewrite decide_False by lia. by rewrite lookup_delete_ne, lookup_delete by lia.
      - rewrite !lookup_delete_ne by lia. rewrite D6. destruct (decide (c < x)%nat); [done|]. destruct (decide (c = a)) as [->|Hca]; [by rewrite D5, lookup_insert, lookup_singleton|]. rewrite lookup_singleton_ne by done. by apply D5x. }
    assert (I7 : im (ps_c q7) = im (ps_c p)). { change (unI h2 (unI h1 (im (ps_c q5))) = im (ps_c p)). rewrite I5, SI. apply (back_im _ _ _ _ _ _ _ _ _ _ _ _ H Fp). }
    assert (M7 : om (ps_c q7) = om s4) by exact OM5. assert (P7 : pm (ps_c q7) = pm s4) by exact P5.
    assert (X7 : ps_exc q7 = ps_exc p). { change (ps_exc q5 = ps_exc p). rewrite (tk_exc _ _ _ Tk5). apply H. }
    assert (N7 : nx (ps_c q7) = (a + 1)%nat) by (change (nx (ps_c q5) = (a + 1)%nat); rewrite N5; lia).
    assert (e7 : en (ps_c q7) = en (ps_c p)) by (change (en (ps_c q5) = en (ps_c p)); by rewrite E5, SE).
    assert (Ga' : alloc_ok (en (ps_c p)) a = true) by (cbn in Ga; by rewrite SE in Ga).
    clearbody q7. clear q6 D6.
    unfold build_tuple. destruct (alloc_ok (en (ps_c q7)) (nx (ps_c q7))) eqn:Eb.
    + erewrite pbind_ok by (unfold new_object; rewrite Eb; reflexivity). cbv iota. rewrite N7, O7.
      erewrite pbind_ok.
      2:{ cbn [incref_items]. erewrite pbind_ok; [reflexivity|]. unfold incref. cbn [ps_o]. rewrite lookup_insert_ne, lookup_insert by lia. reflexivity. }
      eexists (Some (a + 1)%nat), _. split; [reflexivity|]. right. right. split; [done|]. split; [done|]. split; [done|]. split; [by rewrite <- N7, <- e7|]. split; [|by split].
      cbn [set_o ps_o]. rewrite (insert_commute _ a (a + 1)%nat) by lia. by rewrite insert_insert.
    + erewrite pbind_ok by (unfold new_object; rewrite Eb; reflexivity). eexists None, _. split; [reflexivity|]. right. left. split; [done|]. split; [done|]. split; [done|]. split; [by rewrite <- N7, <- e7|]. split; [done|]. by split.
Qed.
(** the set-up or the solver is undefined *)
Lemma solver_ub k n ax s1 e :
  l1c_setup_dctTV_transforms n (nk_mrow k) (nk_mcol k) (kw (nk_alpha_v k) zero) (kw (nk_alpha_h k) zero) (kw (nk_dct_mode k) dct1) (kw (nk_bp_mode k) analysis) (Ptr mb mo) ax_local s = Ok (0, ax) s1 ->
  l1c_nesta (call fft1 fft2) (Z.of_nat m) (Ptr x 0) n (Ptr (S x) 0) ax (py_nesta_opts k) s1 = Ub e ->
  nesta_tail k (Z.of_nat m) n (Ptr x 0) (Ptr (S x) 0) (Ptr mb mo) (key h1) (key h2) (set_c s q) = PUb e.
Proof.
  intros E1 E2. unfold nesta_tail. cbv zeta. rewrite (pbind_cc _ _ (set_c s q) _ _ E1). cbv iota. rewrite Z.eqb_refl. cbn [negb]. by apply pbind_ccub.
Qed.
End tail.
End nesta.
