(** * l1qc_dct from Python: what happens after the arguments are arrays. *)
From stdpp Require Import base list gmap strings.
From Coq Require Import ZArith Lia.
From Verif Require Import Globals Mem M_Math M_Memory M_Status M_CG M_LineSearch M_FFTW M_Dct1 M_Dct2 M_Dct M_TVt M_Newton M_L1qcDct M_Bregman M_Nesta M_MexUtils M_Mex
  P_Mem P_Memory P_CG P_FFTW S_DctApi P_Dct1s S_L1qcDct P_L1qcDct T_L1qcDct M_Py S_Py P_Py P_Py2.
Local Open Scope Z_scope.

Section l1qc.
Context `{N : Num}.
Context (fft1 : fkind -> list T -> list T) (fft2 : fkind -> nat -> nat -> list T -> list T).
Implicit Types (p q r : pst) (s : st).
(** the entries of the dict that is returned *)
Definition info (l : LBResult) : list (string * pyval) :=
  [("l1", VDbl (lb_l1 l)); ("total_newton_iter", VInt (lb_newton l)); ("total_cg_iter", VInt (lb_cg l)); ("status", VInt (Z.lor (lb_status l) 0))]%string.
(** the rest of py_l1qc_dct, from the call of the solver on *)
Definition l1qc_tail (mrow mcol : Z) (opts : L1qcOpts) (x_ours : ptr) (n : Z) (b pix_idx : ptr) (bA pA : nat) : PM (option nat) :=
  let fail x_ours := decref bA ;@ decref pA ;@ cc (l1c_free_double x_ours) ;@ pret None in
  let@ res := cc (l1qc_dct fft1 fft2 mrow mcol x_ours n b pix_idx opts) in
  let '(status, lb) := res in
  let lb_res := match lb with Some r => r | None => mkLB pinf 0 0 0 end in
  if negb (status =? 0) then raise_ ERuntimeError ;@ fail x_ours else
  let@ x_out := SimpleDoubleCopy [mrow; mcol] x_ours in
  match x_out with
  | None => fail x_ours
  | Some xA =>
      let@ d := build_dict [("l1", VDbl (lb_l1 lb_res)); ("total_newton_iter", VInt (lb_newton lb_res));
                            ("total_cg_iter", VInt (lb_cg lb_res)); ("status", VInt (Z.lor (lb_status lb_res) status))] in
      match d with
      | None => decref xA ;@ fail x_ours
      | Some dA => decref bA ;@ decref pA ;@ cc (l1c_free_double x_ours) ;@ build_tuple [VRef xA; VRef dA]
      end
  end.

(** The call l1qc_dct(nr, nc, b, pix_idx, ...): b converts to the n doubles bs, pix_idx to n indices (counted
    from zero) of the nr x nc image. *)
Record l1qc_py_call p (k : l1qc_kw) (nr nc : nat) (ms : list nat) (bs : list T) : Prop := {
  pl_fresh : fresh_py p; pl_mrow : lk_mrow k = Z.of_nat nr; pl_mcol : lk_mcol k = Z.of_nat nc;
  pl_r : (1 <= nr)%nat; pl_c : (1 <= nc)%nat; pl_fit : 2 * Z.of_nat (nr * nc) + 1 <= INT_MAX;
  pl_b : holds_d p (lk_b k) [Z.of_nat (length bs)] bs; pl_pix : holds_i p (lk_pix k) [Z.of_nat (length ms)] (Z.of_nat <$> ms);
  pl_len : length bs = length ms; pl_n : (1 <= length ms <= nr * nc)%nat; pl_in : forall j, j ∈ ms -> (j < nr * nc)%nat;
  pl_mode : kw (lk_dct_mode k) dct1 = dct1 \/ kw (lk_dct_mode k) dct1 = dct2 }.
(** the C heap when the solver is called: b and pix_idx are arrays, x_ours is allocated *)
Definition given p (k : l1qc_kw) : st :=
  match (from_otf_d (lk_b k) ;@ from_otf_i (lk_pix k) ;@ cc (l1c_calloc_double (lk_mrow k * lk_mcol k))) p with POk _ q => ps_c q | PUb _ => ps_c p end.

Section tail.
Context p h1 h2 q dims1 dims2 xs zs b off mb mo (H : held p h1 h2 q dims1 dims2 xs zs b off mb mo) (Fp : fresh_py p).
Notation x := (nx (ps_c q)).
(** x_ours is the block after those of q *)
Record with_x (m : nat) s3 : Prop := {
  wx_dm : dm s3 = <[x := Some <$> const_of m zero]> (dm (ps_c q)); wx_im : im s3 = im (ps_c q); wx_pm : pm s3 = pm (ps_c q); wx_om : om s3 = om (ps_c q);
  wx_en : en s3 = en (ps_c q); wx_nx : nx s3 = S x }.
Lemma x_key1 : x <> key h1. Proof. pose proof (hd_lt1 _ _ _ _ _ _ _ _ _ _ _ _ H). lia. Qed.
Lemma x_key2 : x <> key h2. Proof. pose proof (hd_lt2 _ _ _ _ _ _ _ _ _ _ _ _ H). lia. Qed.
(** the common end: both references and x_ours are released *)
Lemma release_all r (cs : list (option T)) : agree h1 h2 q r -> dm (ps_c r) !! x = Some cs -> forall {A} (k : PM A),
  (decref (key h1) ;@ decref (key h2) ;@ cc (l1c_free_double (Ptr x 0)) ;@ k) r =
  k (mkPst (set_dm (delete x) (ps_c (release h1 h2 r))) (unO h2 (unO h1 (ps_o r))) (ps_exc r) (ps_env r)).
Proof.
  intros A Hx B k. rewrite (drop_both _ _ _ _ _ _ _ _ _ _ _ _ H r A).
  erewrite pbind_cc; [reflexivity|]. unfold l1c_free_double, free_d. change (0 =? 0) with true. cbv iota.
  replace (dm (ps_c (release h1 h2 r)) !! x) with (Some cs); [reflexivity|]. cbn. rewrite (back_keep _ _ _ _ _ _ _ _ _ _ _ _ H) by (first [apply x_key1|apply x_key2]). done.
Qed.

Lemma tail_fail m mrow mcol opts n pb ppix s3 st lb s4 : with_x m s3 -> kept s3 s4 ->
  l1qc_dct fft1 fft2 mrow mcol (Ptr x 0) n pb ppix opts s3 = Ok (st, lb) s4 -> st <> 0 ->
  exists p', l1qc_tail mrow mcol opts (Ptr x 0) n pb ppix (key h1) (key h2) (set_c s3 q) = POk None p' /\ ps_exc p' = Some ERuntimeError /\ kept_py p p' /\
    (same_heap s3 s4 -> same_py p p').
Proof.
  intros W [K1 K2] E Hst. unfold l1qc_tail. cbv zeta. rewrite (pbind_cc _ _ (set_c s3 q) _ _ E). cbv iota. rewrite (proj2 (Z.eqb_neq _ _) Hst). cbn [negb].
  rewrite (pbind_ok _ _ _ tt (set_exc ERuntimeError (set_c s4 (set_c s3 q)))) by done.
  assert (Hdm : forall b', (b' < x)%nat -> dm s4 !! b' = dm (ps_c q) !! b').
  { intros b' Hb'. rewrite K1 by (rewrite (wx_nx _ _ W); lia). rewrite (wx_dm _ _ W). by rewrite lookup_insert_ne by lia. }
  assert (Hx : dm s4 !! x = Some (Some <$> const_of m zero)).
  { rewrite K1 by (rewrite (wx_nx _ _ W); lia). by rewrite (wx_dm _ _ W), lookup_insert. }
  assert (Him : im s4 = im (ps_c q)) by (rewrite K2; apply W).
  rewrite (release_all _ (Some <$> const_of m zero)); [|split; cbn; try done|done].
  eexists. split; [reflexivity|]. split; [done|]. split.
  - split; [|split]; cbn.
    + apply (back_o _ _ _ _ _ _ _ _ _ _ _ _ H Fp).
    + rewrite Him. apply (back_im _ _ _ _ _ _ _ _ _ _ _ _ H Fp).
    + intros b' Hb'. pose proof (hd_nx _ _ _ _ _ _ _ _ _ _ _ _ H). rewrite lookup_delete_ne by lia. rewrite (back_old _ _ _ _ _ _ _ _ _ _ _ _ H) by done. rewrite Hdm by lia.
      rewrite (held_dm _ _ _ _ _ _ _ _ _ _ _ _ H). pose proof (hd_n1 _ _ _ _ _ _ _ _ _ _ _ _ H) as N1. destruct h1; cbn in *; try done. specialize (N1 I). by rewrite lookup_insert_ne by lia.
  - intros (S1 & S2 & S3 & S4). split; [apply (back_o _ _ _ _ _ _ _ _ _ _ _ _ H Fp)|]. split; [|split; [|split]]; cbn.
    + rewrite S1, (wx_dm _ _ W), (back_insert_dm _ _ _ _ _ _ _ _ _ _ _ _ H) by lia. rewrite delete_insert; [apply (back_dm _ _ _ _ _ _ _ _ _ _ _ _ H Fp)|].
      rewrite (back_dm _ _ _ _ _ _ _ _ _ _ _ _ H Fp). apply (proj1 Fp). apply H.
    + rewrite S2, (wx_om _ _ W). apply (held_om _ _ _ _ _ _ _ _ _ _ _ _ H).
    + rewrite S3, (wx_pm _ _ W). apply (held_pm _ _ _ _ _ _ _ _ _ _ _ _ H).
    + rewrite Him. apply (back_im _ _ _ _ _ _ _ _ _ _ _ _ H Fp).
Qed.

(** what is added when the image and the dict are returned, each with c references *)
Definition made p (nr nc : nat) (img : list T) (l : LBResult) (c a d : nat) : gmap nat (nat * pyobj) :=
  <[d := (c, PyDict (info l))]> (<[a := (c, NdDouble [Z.of_nat nr; Z.of_nat nc] (Ptr a 0))]> (ps_o p)).
Record adds p (img : list T) (O : gmap nat (nat * pyobj)) (a : nat) p' : Prop := {
  ad_o : ps_o p' = O; ad_dm : dm (ps_c p') = <[a := Some <$> img]> (dm (ps_c p)); ad_im : im (ps_c p') = im (ps_c p); ad_pm : pm (ps_c p') = pm (ps_c p); ad_om : om (ps_c p') = om (ps_c p);
  ad_en : en (ps_c p') = en (ps_c p) }.

Lemma tail_ok nr nc opts n pb ppix s3 lb s4 img : with_x (nr * nc) s3 -> length img = (nr * nc)%nat -> Z.of_nat nr <= INT_MAX -> Z.of_nat (nr * nc) <= INT_MAX ->
  l1qc_dct fft1 fft2 (Z.of_nat nr) (Z.of_nat nc) (Ptr x 0) n pb ppix opts s3 = Ok (0, Some lb) s4 -> same_heap (wr (Ptr x 0) img s3) s4 -> grown s3 s4 ->
  let a := nx s4 in
  exists (r : option nat) p', l1qc_tail (Z.of_nat nr) (Z.of_nat nc) opts (Ptr x 0) n pb ppix (key h1) (key h2) (set_c s3 q) = POk r p' /\ (nx (ps_c p) < a)%nat /\
    ((r = None /\ ps_exc p' = Some EMemoryError /\ same_py p p' /\ exists i, (i < 2)%nat /\ alloc_ok (en (ps_c p)) (a + i) = false) \/
     (r = None /\ ps_exc p' = Some EMemoryError /\ adds p img (made p nr nc img lb 1 a (a + 1)) a p' /\ alloc_ok (en (ps_c p)) (a + 2) = false) \/
     (r = Some (a + 2)%nat /\ ps_exc p' = ps_exc p /\ adds p img (<[(a + 2)%nat := (1%nat, PyTuple [VRef a; VRef (a + 1)])]> (made p nr nc img lb 2 a (a + 1))) a p')).
Proof.
  intros W HL Hr Hm E (S1 & S2 & S3 & S4) [G1 G2] a. unfold l1qc_tail. cbv zeta. rewrite (pbind_cc _ _ (set_c s3 q) _ _ E). cbv iota. rewrite Z.eqb_refl. cbn [negb].
  assert (Hblk : dm s3 !! x = Some (Some <$> const_of (nr * nc) zero)) by (by rewrite (wx_dm _ _ W), lookup_insert).
  assert (Hlen : length img = length (Some <$> const_of (nr * nc) (zero : T))) by (by rewrite fmap_length, const_length).
  rewrite (wr_block _ _ _ _ Hblk Hlen) in *. cbn in S1, S2, S3, S4.
  rewrite (wx_dm _ _ W), insert_insert in S1. rewrite (wx_om _ _ W) in S2. rewrite (wx_pm _ _ W) in S3. rewrite (wx_im _ _ W) in S4. rewrite (wx_nx _ _ W) in G1. rewrite (wx_en _ _ W) in G2.
  pose proof (hd_fresh _ _ _ _ _ _ _ _ _ _ _ _ H) as Fq. pose proof (hd_nx _ _ _ _ _ _ _ _ _ _ _ _ H) as Hnq.
  set (p4 := set_c s4 (set_c s3 q)).
  assert (F4 : fresh_py p4).
  { split.
    - intros b' Hb'. cbn in *. rewrite S1, S2, S3. rewrite lookup_insert_ne by lia. apply (proj1 Fq). lia.
    - intros b' Hb'. cbn in *. rewrite S4. apply (proj2 Fq). lia. }
  assert (Sx : seg (ps_c p4) (Ptr x 0) img).
  { intros i v Hi. unfold cell. cbn. rewrite S1, lookup_insert. rewrite (proj2 (Z.leb_le 0 _)) by lia. rewrite ?Z.add_0_l, Nat2Z.id, list_lookup_fmap, Hi. done. }
  assert (Hd4 : forall D' : gmap nat (list (option T)), (forall b', (b' < x)%nat -> D' !! b' = dm s4 !! b') -> forall b', (b' < x)%nat -> D' !! b' = dm (ps_c q) !! b').
  { intros D' HD b' Hb'. rewrite HD by done. rewrite S1. by rewrite lookup_insert_ne by lia. }
  assert (Hena : en s4 = en (ps_c p)) by (rewrite G2; apply H).
  assert (Ha : (x < a)%nat) by (unfold a; lia).
  (* the failing end, from a state whose memory and objects are those of s4 *)
  assert (Hfail : forall r, ps_o r = ps_o q -> dm (ps_c r) = dm s4 -> im (ps_c r) = im s4 -> pm (ps_c r) = pm s4 -> om (ps_c r) = om s4 ->
    exists p', (decref (key h1) ;@ decref (key h2) ;@ cc (l1c_free_double (Ptr x 0)) ;@ pret (None (A := nat))) r = POk None p' /\ ps_exc p' = ps_exc r /\ same_py p p').
  { intros r Ro Rd Ri Rp Rm. rewrite (release_all r (Some <$> img)).
    - eexists. split; [reflexivity|]. split; [done|]. split; [cbn; rewrite Ro; apply (back_o _ _ _ _ _ _ _ _ _ _ _ _ H Fp)|]. split; [|split; [|split]]; cbn.
      + rewrite Rd, S1, (back_insert_dm _ _ _ _ _ _ _ _ _ _ _ _ H) by lia. rewrite (back_dm _ _ _ _ _ _ _ _ _ _ _ _ H Fp). rewrite delete_insert; [done|]. by apply (proj1 Fp).
      + rewrite Rm, S2. apply (held_om _ _ _ _ _ _ _ _ _ _ _ _ H).
      + rewrite Rp, S3. apply (held_pm _ _ _ _ _ _ _ _ _ _ _ _ H).
      + rewrite Ri, S4. apply (back_im _ _ _ _ _ _ _ _ _ _ _ _ H Fp).
    - split; [by rewrite Ro|by rewrite Ro| |by rewrite Ri, S4]. apply Hd4. intros b' _. by rewrite Rd.
    - by rewrite Rd, S1, lookup_insert. }
  destruct (copy_run p4 nr nc x 0 img F4 HL Hr Hm ltac:(cbn; lia) Sx) as [[R EC]|(R & q5 & EC & T5 & N5)].
  - rewrite (pbind_ok _ _ _ _ _ EC). cbv iota. edestruct Hfail as (p' & Ef & Ex & Sm); [..|exists None, p'; split; [exact Ef|]]; try done. split; [lia|]. left. split; [done|]. split; [by rewrite Ex|]. split; [done|].
    exists 0%nat. split; [lia|]. unfold refused in R. cbn in R. rewrite Nat.add_0_r, <- Hena. done.
  - rewrite (pbind_ok _ _ _ _ _ EC). cbv iota. change (nx (ps_c p4)) with a in *.
    pose proof T5 as [To Te Tv Td Ti Tp Tm Ten _ _ _ T5f _ _ _]. cbn in Td, Ti, Tp, Tm, Ten, Te, Tv.
    unfold build_dict. destruct (alloc_ok (en (ps_c q5)) (nx (ps_c q5))) eqn:Ea1.
    2:{ erewrite pbind_ok by (unfold new_object; rewrite Ea1; reflexivity). cbv iota.
        set (r := set_exc _ _). assert (Hr5 : has_ref (KD a [Z.of_nat nr; Z.of_nat nc] img) q5 r) by (split; [done|]; cbn; rewrite Td, lookup_insert; done).
        change a with (key (KD a [Z.of_nat nr; Z.of_nat nc] img)) at 1. rewrite (pbind_ok _ _ _ _ _ (drop_run _ _ _ _ T5 Hr5)).
        edestruct (Hfail (undo (KD a [Z.of_nat nr; Z.of_nat nc] img) r)) as (p' & Ef & Ex & Sm); [..|exists None, p'; split; [exact Ef|]].
        - change (unO (KD a [Z.of_nat nr; Z.of_nat nc] img) (ps_o q5) = ps_o q). rewrite To. rewrite unO_doO; [done|]. intros _. by apply F4.
        - cbn. rewrite Td. rewrite delete_insert; [done|]. by apply F4.
        - cbn. by rewrite Ti.
        - cbn. by rewrite Tp.
        - cbn. by rewrite Tm.
        - split; [lia|]. left. split; [done|]. split; [by rewrite Ex|]. split; [done|]. exists 1%nat. split; [lia|]. rewrite <- Hena, <- Ten. rewrite N5 in Ea1. by rewrite Nat.add_1_r. }
    erewrite pbind_ok by (unfold new_object; rewrite Ea1; reflexivity). cbv iota. rewrite N5. set (r6 := mkPst _ _ _ _).
    assert (O6 : ps_o r6 = <[S a := (1%nat, PyDict (info lb))]> (<[a := (1%nat, NdDouble [Z.of_nat nr; Z.of_nat nc] (Ptr a 0))]> (ps_o q))).
    { cbn. rewrite To. f_equal. }
    rewrite (release_all r6 (Some <$> img)).
    2:{ pose proof (hd_lt1 _ _ _ _ _ _ _ _ _ _ _ _ H). pose proof (hd_lt2 _ _ _ _ _ _ _ _ _ _ _ _ H). split.
        - rewrite O6. rewrite !lookup_insert_ne by lia. done.
        - rewrite O6. rewrite !lookup_insert_ne by lia. done.
        - apply Hd4. intros b' Hb'. cbn. rewrite Td. by rewrite lookup_insert_ne by lia.
        - cbn. by rewrite Ti, S4. }
    2:{ cbn. rewrite Td, lookup_insert_ne by lia. by rewrite S1, lookup_insert. }
    set (p6 := mkPst _ _ _ _).
    assert (A6 : adds p img (made p nr nc img lb 1 a (a + 1)) a p6).
    { split; cbn.
      - rewrite To. change (doO (KD a [Z.of_nat nr; Z.of_nat nc] img) (ps_o p4)) with (<[a := (1%nat, NdDouble [Z.of_nat nr; Z.of_nat nc] (Ptr a 0))]> (ps_o q)).
        rewrite (back_insert_o _ _ _ _ _ _ _ _ _ _ _ _ H) by lia. rewrite (back_insert_o _ _ _ _ _ _ _ _ _ _ _ _ H) by lia.
        rewrite (back_o _ _ _ _ _ _ _ _ _ _ _ _ H Fp). unfold made. by rewrite Nat.add_1_r.
      - rewrite Td, S1. rewrite (back_insert_dm _ _ _ _ _ _ _ _ _ _ _ _ H) by lia. rewrite (back_insert_dm _ _ _ _ _ _ _ _ _ _ _ _ H) by lia.
        rewrite (back_dm _ _ _ _ _ _ _ _ _ _ _ _ H Fp). rewrite delete_insert_ne by lia. rewrite delete_insert; [done|]. by apply (proj1 Fp).
      - rewrite Ti, S4. apply (back_im _ _ _ _ _ _ _ _ _ _ _ _ H Fp).
      - rewrite Tp, S3. apply (held_pm _ _ _ _ _ _ _ _ _ _ _ _ H).
      - rewrite Tm, S2. apply (held_om _ _ _ _ _ _ _ _ _ _ _ _ H).
      - by rewrite Ten. }
    assert (E6 : ps_exc p6 = ps_exc p) by (cbn; rewrite Te; apply H).
    assert (N6 : nx (ps_c p6) = (a + 2)%nat) by (cbn; rewrite N5; lia).
    clearbody p6. clear r6 O6. destruct A6 as [Ao Ad Ai Ap Am Aen].
    replace (S a) with (a + 1)%nat by lia. unfold build_tuple. destruct (alloc_ok (en (ps_c p6)) (nx (ps_c p6))) eqn:Ea2.
    2:{ erewrite pbind_ok by (unfold new_object; rewrite Ea2; reflexivity). eexists None, _. split; [reflexivity|]. split; [lia|]. right. left. split; [done|]. split; [done|].
        split; [by split|]. by rewrite <- N6, <- Aen. }
    erewrite pbind_ok by (unfold new_object; rewrite Ea2; reflexivity). cbv iota. rewrite N6. rewrite Ao. unfold made.
    erewrite pbind_ok.
    2:{ cbn [incref_items]. erewrite pbind_ok.
        2:{ unfold incref. cbn [ps_o]. repeat first [rewrite lookup_insert | rewrite lookup_insert_ne by lia]. reflexivity. }
        erewrite pbind_ok.
        2:{ unfold incref. cbn [ps_o set_o]. repeat first [rewrite lookup_insert | rewrite lookup_insert_ne by lia]. reflexivity. }
        reflexivity. }
    eexists (Some (a + 2)%nat), _. split; [reflexivity|]. split; [lia|]. right. right. split; [done|]. split; [done|]. split; cbn; try done.
    apply map_eq. intros i. unfold made.
    destruct (decide (i = a)) as [->|Ha']; [|destruct (decide (i = a + 1)%nat) as [->|Hd']; [|destruct (decide (i = a + 2)%nat) as [->|Ht']]];
      repeat first [rewrite lookup_insert | rewrite lookup_insert_ne by lia]; done.
Qed.
End tail.
End l1qc.
