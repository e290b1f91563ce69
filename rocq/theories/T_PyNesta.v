(** * C80: nesta_dctTV from Python (interfaces/python/l1cPy.c). *)
From Coq Require Import ZArith Lia Reals Lra.
From stdpp Require Import base numbers gmap list strings.
From Verif Require Import Globals Mem M_Math M_Memory M_Status M_CG M_LineSearch M_FFTW M_Dct1 M_Dct2 M_Dct M_TVt M_Newton M_L1qcDct M_Bregman M_Nesta
  M_MexUtils M_Mex P_Mem P_Loop S_Mem P_Touch P_Math P_CG P_Memory P_Own P_Newton P_FFTW P_Dct1s S_DctApi P_Dct S_L1qcDct S_Mex P_Mex
  S_Xform P_Xform S_TVtApi P_TVt P_TVs P_TVa T_TVt P_Nesta P_Nesta2 P_MexNesta L_ER S_Vec S_Newt S_Dct T_Bregman T_Nesta T_NestaTV T_L1qcDct P_MathR P_TVR P_DctE P_TVtE
  M_Py S_Py P_Py P_Py2 T_PyL1qc P_PyNesta S_Nesta S_NestaRate T_NestaTVRate T_Dct.
Local Open Scope Z_scope.

Section C80.
Context `{N : Num}.
Context (fft1 : fkind -> list T -> list T) (fft2 : fkind -> nat -> nat -> list T -> list T).
Hypothesis fft1_len : forall k xs, length (fft1 k xs) = length xs.
Hypothesis fft2_len : forall k nr nc xs, length xs = (nr * nc)%nat -> length (fft2 k nr nc xs) = (nr * nc)%nat.
Implicit Types (p q : pst) (k : nesta_kw).
Notation py := (py_nesta fft1 fft2).
Notation av k := (kw (nk_alpha_v k) zero). Notation ah k := (kw (nk_alpha_h k) zero).

(** ** What it rejects *)
Theorem py_nesta_bad_arguments p : py None p = POk None (set_exc ETypeError p).
Proof. done. Qed.
Theorem py_nesta_bad_mode p k : ~ modes_ok k -> py (Some k) p = POk None (set_exc EValueError p).
Proof.
  intros H. unfold py_nesta, is_bpmode_valid, is_dctmode_valid. cbv zeta.
  destruct (Z.eqb_spec (kw (nk_bp_mode k) analysis) analysis) as [E1|E1], (Z.eqb_spec (kw (nk_bp_mode k) analysis) synthesis) as [E2|E2]; cbn [negb andb]; try done;
    (rewrite (pbind_ok _ _ _ true p) by done; cbn [negb];
     destruct (Z.eqb_spec (kw (nk_dct_mode k) dct1) dct1) as [E3|E3], (Z.eqb_spec (kw (nk_dct_mode k) dct1) dct2) as [E4|E4]; cbn [negb andb]; try done; exfalso; apply H; split; tauto).
Qed.
(** the arrays do not fit the image; nothing changes *)
Theorem py_nesta_rejects p k dims1 dims2 xs zs : fresh_py p -> can_convert p -> modes_ok k -> holds_d p (nk_b k) dims1 xs -> holds_i p (nk_pix k) dims2 zs ->
  (length dims1 <> 1%nat \/ length dims2 <> 1%nat -> exists p', py (Some k) p = POk None p' /\ ps_exc p' = Some EIndexError /\ same_py p p') /\
  (forall n n', dims1 = [n] -> dims2 = [n'] -> ~ INT_MIN <= nk_mrow k * nk_mcol k <= INT_MAX -> py (Some k) p = PUb UbOverflow) /\
  (forall n n', dims1 = [n] -> dims2 = [n'] -> INT_MIN <= nk_mrow k * nk_mcol k <= INT_MAX -> 0 <= n <= INT_MAX -> 0 <= n' <= INT_MAX -> nk_mrow k * nk_mcol k < n \/ n <> n' ->
     exists p', py (Some k) p = POk None p' /\ ps_exc p' = Some EValueError /\ same_py p p').
Proof.
  intros F [C0 C1] Hmd Hb Hi. unfold py_nesta. cbv zeta. destruct (modes_run k p Hmd) as [M1 M2]. rewrite (pbind_ok _ _ _ _ _ M1). cbn [negb]. rewrite (pbind_ok _ _ _ _ _ M2). cbn [negb].
  destruct (take_both p (nk_b k) (nk_pix k) dims1 dims2 xs zs F Hb Hi) as [(r1 & r2 & p1 & p2 & c & _ & _ & _ & _ & _ & i & Hi1 & Ei)|(h1 & h2 & p1 & q & b & off & mb & mo & E1 & E2 & HH & _)].
  { exfalso. destruct i as [|[|i]]; [rewrite Nat.add_0_r in Ei; congruence|congruence|lia]. }
  rewrite (pbind_ok _ _ _ _ _ E1), (pbind_ok _ _ _ _ _ E2). cbn [xdecref]. cbv zeta.
  rewrite (pbind_ok _ _ _ _ _ (hd_o1 _ _ _ _ _ _ _ _ _ _ _ _ HH)), (pbind_ok _ _ _ _ _ (hd_o2 _ _ _ _ _ _ _ _ _ _ _ _ HH)).
  assert (HX : forall e, exists p', (raise_ e ;@ cc (l1c_free_double Null) ;@ cc (l1c_free_double Null) ;@ decref (key h1) ;@ decref (key h2) ;@ pret (None (A := nat))) q = POk None p' /\ ps_exc p' = Some e /\ same_py p p').
  { intros e. rewrite (pbind_ok _ _ _ tt (set_exc e q)) by done. rewrite !(pbind_ok _ _ (set_exc e q) tt (set_exc e q)) by (by destruct q).
    rewrite (drop_both _ _ _ _ _ _ _ _ _ _ _ _ HH) by done. eexists. split; [reflexivity|]. split; [done|]. split; [apply (back_o _ _ _ _ _ _ _ _ _ _ _ _ HH F)|].
    split; [apply (back_dm _ _ _ _ _ _ _ _ _ _ _ _ HH F)|]. split; [apply (held_om _ _ _ _ _ _ _ _ _ _ _ _ HH)|]. split; [apply (held_pm _ _ _ _ _ _ _ _ _ _ _ _ HH)|apply (back_im _ _ _ _ _ _ _ _ _ _ _ _ HH F)]. }
  split; [|split].
  - intros Hd. destruct dims1 as [|n [|]]; [apply HX| |apply HX]. destruct dims2 as [|n' [|]]; [apply HX| |apply HX]. simpl in Hd. lia.
  - intros n n' -> -> Hov. apply pbind_ccub. unfold i32.
    destruct (in_int (nk_mrow k * nk_mcol k)) eqn:Ei; [|done]. exfalso. apply Hov. unfold in_int in Ei. apply andb_prop in Ei as [Ea Eb]. apply Z.leb_le in Ea. apply Z.leb_le in Eb. lia.
  - intros n n' -> -> Hf Hn Hn' Hbad. rewrite (pbind_cc _ _ q _ _ (i32_ok _ _ Hf)).
    rewrite !int_of_size_id by (unfold INT_MIN; lia).
    replace ((nk_mrow k * nk_mcol k <? n) || negb (n =? n')) with true; [|symmetry; destruct Hbad as [Hlt|Hne]; [by rewrite (proj2 (Z.ltb_lt _ _) Hlt)|rewrite (proj2 (Z.eqb_neq _ _) Hne); by rewrite orb_true_r]].
    replace (set_c (ps_c q) q) with q by (by destruct q). apply HX.
Qed.

(** ** A call whose arrays fit: nr x nc pixels, as many measurements as pixel numbers, at most one for each pixel *)
Record nesta_py_call p k (nr nc : nat) (bs : list T) (zs : list Z) : Prop := {
  pn_fresh : fresh_py p; pn_modes : modes_ok k; pn_r : nk_mrow k = Z.of_nat nr; pn_c : nk_mcol k = Z.of_nat nc; pn_fit : Z.of_nat (nr * nc) <= INT_MAX;
  pn_b : holds_d p (nk_b k) [Z.of_nat (length bs)] bs; pn_i : holds_i p (nk_pix k) [Z.of_nat (length zs)] zs; pn_len : length bs = length zs; pn_n : (1 <= length zs <= nr * nc)%nat }.
(** all requests before number i are granted *)
Definition grants_before p (i : nat) : Prop := forall j, (nx (ps_c p) <= j < i)%nat -> alloc_ok (en (ps_c p)) j = true.
(** no memory for the arrays or the two vectors: nothing changes *)
Theorem py_nesta_no_memory p k nr nc bs zs : nesta_py_call p k nr nc bs zs -> ~ grants_before p (base p k + 2) ->
  exists p', py (Some k) p = POk None p' /\ same_py p p' /\ (ps_exc p' = Some ERuntimeError \/ ps_exc p' = Some EMemoryError).
Proof.
  intros [F Hmd Er Ec Hf Hb Hi HL Hn] HG. destruct (nesta_begin fft1 fft2 p k nr nc zs bs F Hmd Er Ec Hf Hb Hi HL Hn) as [(_ & H)|(H & _)]; done.
Qed.
Lemma go p k nr nc bs zs : nesta_py_call p k nr nc bs zs -> grants_before p (base p k + 2) ->
  exists h1 h2 q dims1 dims2 b off mb mo s, held p h1 h2 q dims1 dims2 bs zs b off mb mo /\ nx (ps_c q) = base p k /\ laid q (nr * nc) bs s /\ unborn s /\
     ints s (Ptr mb mo) zs /\ dm s !! mb = None /\ (mb < base p k)%nat /\ nx s = (base p k + 2)%nat /\ en s = en (ps_c p) /\
     py (Some k) p = nesta_tail fft1 fft2 k (Z.of_nat (nr * nc)) (Z.of_nat (length zs)) (Ptr (nx (ps_c q)) 0) (Ptr (S (nx (ps_c q))) 0) (Ptr mb mo) (key h1) (key h2) (set_c s q).
Proof.
  intros [F Hmd Er Ec Hf Hb Hi HL Hn] HG. destruct (nesta_begin fft1 fft2 p k nr nc zs bs F Hmd Er Ec Hf Hb Hi HL Hn) as [((i & Hi1 & Ei) & _)|(_ & H)].
  { specialize (HG i Hi1). congruence. }
  destruct H as (h1 & h2 & q & dims1 & dims2 & b & off & mb & mo & s & HH & Hx & La & Hu & Hz & Hk & Hmb & E).
  exists h1, h2, q, dims1, dims2, b, off, mb, mo, s. rewrite Hx. split_and!; try done; [rewrite (la_nx _ _ _ _ La), Hx; lia|]. rewrite (la_en _ _ _ _ La). apply HH.
Qed.
Lemma in_int_m nr nc : Z.of_nat (nr * nc) <= INT_MAX -> in_int (Z.of_nat nr * Z.of_nat nc) = true.
Proof. intros. unfold in_int, INT_MIN. rewrite !(proj2 (Z.leb_le _ _)) by lia. done. Qed.
(** ** The transforms do not take the pixel numbers or the weights: RuntimeError, nothing changes *)
Theorem py_nesta_transforms_reject p k nr nc bs zs : nesta_py_call p k nr nc bs zs -> grants_before p (base p k + 2) ->
  ~ tv_accepts (Z.of_nat (length zs)) (Z.of_nat nr) (Z.of_nat nc) (av k) (ah k) zs ->
  exists p', py (Some k) p = POk None p' /\ ps_exc p' = Some ERuntimeError /\ same_py p p'.
Proof.
  intros HC HG HA. destruct (go _ _ _ _ _ _ HC HG) as (h1 & h2 & q & dims1 & dims2 & b & off & mb & mo & s & HH & Hx & La & Hu & Hz & Hk & Hmb & Hnx & Hen & E).
  destruct (tv_setup_decides s (Z.of_nat (length zs)) (Z.of_nat nr) (Z.of_nat nc) (av k) (ah k) (kw (nk_dct_mode k) dct1) (kw (nk_bp_mode k) analysis) (Ptr mb mo) ax_local zs Hu (in_int_m _ _ (pn_fit _ _ _ _ _ _ HC)) ltac:(done)) as (HD & _).
  destruct (HD HA) as (s' & ES & D1 & D2 & D3 & D4 & _).
  destruct (setup_fails fft1 fft2 p h1 h2 q _ _ _ _ _ _ _ _ HH (pn_fresh _ _ _ _ _ _ HC) (nr * nc) bs s La k (Z.of_nat (length zs)) L1C_INVALID_ARGUMENT ax_local s') as (p' & Ep & Ex & Hs).
  - done.
  - by rewrite (pn_r _ _ _ _ _ _ HC), (pn_c _ _ _ _ _ _ HC).
  - done.
  - exists p'. by rewrite E.
Qed.
(** so many coefficients that an int cannot count them: undefined *)
Theorem py_nesta_coefficients_overflow p k nr nc bs zs : nesta_py_call p k nr nc bs zs -> grants_before p (base p k + 2) ->
  tv_accepts (Z.of_nat (length zs)) (Z.of_nat nr) (Z.of_nat nc) (av k) (ah k) zs -> INT_MAX < Z.of_nat (width (av k) (ah k) (nr * nc)) -> py (Some k) p = PUb UbOverflow.
Proof.
  intros HC HG HA HW. destruct (go _ _ _ _ _ _ HC HG) as (h1 & h2 & q & dims1 & dims2 & b & off & mb & mo & s & HH & Hx & La & Hu & Hz & Hk & Hmb & Hnx & Hen & E).
  destruct (tv_setup_decides s (Z.of_nat (length zs)) (Z.of_nat nr) (Z.of_nat nc) (av k) (ah k) (kw (nk_dct_mode k) dct1) (kw (nk_bp_mode k) analysis) (Ptr mb mo) ax_local zs Hu (in_int_m _ _ (pn_fit _ _ _ _ _ _ HC)) ltac:(done)) as (_ & HD & _).
  rewrite E. unfold nesta_tail. cbv zeta. apply pbind_ccub. rewrite (pn_r _ _ _ _ _ _ HC), (pn_c _ _ _ _ _ _ HC). apply HD; [done|]. by rewrite m_nat.
Qed.
(** no memory for the work array of the transforms *)
Theorem py_nesta_no_work_array p k nr nc bs zs : nesta_py_call p k nr nc bs zs -> grants_before p (base p k + 2) ->
  tv_accepts (Z.of_nat (length zs)) (Z.of_nat nr) (Z.of_nat nc) (av k) (ah k) zs -> Z.of_nat (width (av k) (ah k) (nr * nc)) <= INT_MAX -> alloc_ok (en (ps_c p)) (base p k + 2) = false ->
  exists p', py (Some k) p = POk None p' /\ ps_exc p' = Some ERuntimeError /\ same_py p p'.
Proof.
  intros HC HG HA HW HR. destruct (go _ _ _ _ _ _ HC HG) as (h1 & h2 & q & dims1 & dims2 & b & off & mb & mo & s & HH & Hx & La & Hu & Hz & Hk & Hmb & Hnx & Hen & E).
  destruct (tv_setup_no_work_array s (Z.of_nat (length zs)) (Z.of_nat nr) (Z.of_nat nc) (av k) (ah k) (kw (nk_dct_mode k) dct1) (kw (nk_bp_mode k) analysis) (Ptr mb mo) ax_local zs Hu (in_int_m _ _ (pn_fit _ _ _ _ _ _ HC)) ltac:(done) HA)
    as (ax' & s' & ES & D1 & D2 & D3 & D4 & _); [by rewrite m_nat|by rewrite Hen, Hnx|].
  destruct (setup_fails fft1 fft2 p h1 h2 q _ _ _ _ _ _ _ _ HH (pn_fresh _ _ _ _ _ _ HC) (nr * nc) bs s La k (Z.of_nat (length zs)) L1C_OUT_OF_MEMORY ax' s') as (p' & Ep & Ex & Hs).
  - done.
  - by rewrite (pn_r _ _ _ _ _ _ HC), (pn_c _ _ _ _ _ _ HC).
  - done.
  - exists p'. by rewrite E.
Qed.

(** ** The answer *)
(** compared with p, the double blocks Dl and the FFTW objects Ol are new in p' *)
Definition leaks p p' (Dl Ol : list nat) : Prop :=
  im (ps_c p') = im (ps_c p) /\ pm (ps_c p') = pm (ps_c p) /\ (forall b, b ∉ Dl -> dm (ps_c p') !! b = dm (ps_c p) !! b) /\ (forall b, b ∉ Ol -> om (ps_c p') !! b = om (ps_c p) !! b) /\
  (forall b, b ∈ Dl -> dm (ps_c p) !! b = None /\ is_Some (dm (ps_c p') !! b)) /\ (forall b, b ∈ Ol -> om (ps_c p) !! b = None /\ is_Some (om (ps_c p') !! b)).
(** the blocks of the transforms *)
Definition xf_d (x : nat) : list nat := [x + 2; x + 3; x + 4; x + 5]%nat.
Definition xf_o (x : nat) : list nat := [x + 6; x + 7]%nat.
(** The result r of a call that gets to the answer (img, status); the array is request number a, the tuple a+1, and
    x the number of x_ours.  In every case the blocks of the transforms stay behind. *)
Definition answers p (x a nr nc : nat) (img : list T) (status : Z) (r : option nat) p' : Prop :=
  let A := NdDouble [Z.of_nat nr; Z.of_nat nc] (Ptr a 0) in
  (alloc_ok (en (ps_c p)) a = false /\ r = None /\ ps_exc p' = Some EMemoryError /\ ps_o p' = ps_o p /\ leaks p p' (xf_d x) (xf_o x)) \/
  (alloc_ok (en (ps_c p)) a = true /\ alloc_ok (en (ps_c p)) (a + 1) = false /\ r = None /\ ps_exc p' = Some EMemoryError /\
     ps_o p' = <[a := (1%nat, A)]> (ps_o p) /\ dm (ps_c p') !! a = Some (Some <$> img) /\ leaks p p' (a :: xf_d x) (xf_o x)) \/
  (alloc_ok (en (ps_c p)) a = true /\ alloc_ok (en (ps_c p)) (a + 1) = true /\ r = Some (a + 1)%nat /\ ps_exc p' = ps_exc p /\
     ps_o p' = <[(a + 1)%nat := (1%nat, PyTuple [VRef a; VInt status])]> (<[a := (2%nat, A)]> (ps_o p)) /\ dm (ps_c p') !! a = Some (Some <$> img) /\ leaks p p' (a :: xf_d x) (xf_o x)).

Lemma seg_of (t : st) j (l : list T) : dm t !! j = Some (Some <$> l) -> seg t (Ptr j 0) l.
Proof. intros E i v Hi. unfold cell. rewrite E, (proj2 (Z.leb_le _ _)) by lia. by rewrite ?Z.add_0_l, Nat2Z.id, list_lookup_fmap, Hi. Qed.
Lemma x_new p k : (nx (ps_c p) <= base p k)%nat. Proof. unfold base. lia. Qed.
(** the transforms are set up *)
Section ready.
Context p k (nr nc : nat) (bs : list T) (zs : list Z) (HC : nesta_py_call p k nr nc bs zs).
Context (HA : tv_accepts (Z.of_nat (length zs)) (Z.of_nat nr) (Z.of_nat nc) (av k) (ah k) zs) (HW : Z.of_nat (width (av k) (ah k) (nr * nc)) <= INT_MAX).
Notation x := (base p k). Notation ms := (Z.to_nat <$> zs). Notation mode := (kw (nk_dct_mode k) dct1). Notation bp := (kw (nk_bp_mode k) analysis). Notation m := (nr * nc)%nat.
Lemma zs_ms : zs = Z.of_nat <$> ms.
Proof. rewrite <- list_fmap_compose. symmetry. rewrite <- (list_fmap_id zs) at 2. apply list_fmap_ext. intros i z Hi. cbn. rewrite Z2Nat.id; [done|]. destruct HA as (_ & _ & _ & _ & _ & _ & Hz). apply (Hz z). by apply elem_of_list_lookup_2 in Hi. Qed.
Lemma ms_in j : j ∈ ms -> (j < m)%nat.
Proof. intros Hj. apply elem_of_list_fmap in Hj as (z & -> & Hz). destruct HA as (_ & _ & _ & _ & _ & _ & H). specialize (H z Hz). lia. Qed.
Record prepared h1 h2 q dims1 dims2 b off mb mo s ax s1 sb axb J : Prop := {
  pr_held : held p h1 h2 q dims1 dims2 bs zs b off mb mo; pr_x : nx (ps_c q) = x; pr_laid : laid q m bs s; pr_mb : (mb < x)%nat; pr_kind : dm s !! mb = None; pr_un : unborn s; pr_nx : nx s = (x + 2)%nat; pr_en : en s = en (ps_c p);
  pr_set : l1c_setup_dctTV_transforms (Z.of_nat (length zs)) (nk_mrow k) (nk_mcol k) (av k) (ah k) mode bp (Ptr mb mo) ax_local s = Ok (0, ax) s1;
  pr_st : started_t s (Z.of_nat nr) (Z.of_nat nc) (av k) (ah k) mode bp mb mo ms ax s1; pr_live : live fft1 fft2 s nr nc (av k) (ah k) mode bp mb ms ax s1 sb axb J;
  pr_py : py (Some k) p = nesta_tail fft1 fft2 k (Z.of_nat m) (Z.of_nat (length zs)) (Ptr (nx (ps_c q)) 0) (Ptr (S (nx (ps_c q))) 0) (Ptr mb mo) (key h1) (key h2) (set_c s q) }.
Lemma prepare : grants_before p (x + 8) -> exists h1 h2 q dims1 dims2 b off mb mo s ax s1 sb axb J, prepared h1 h2 q dims1 dims2 b off mb mo s ax s1 sb axb J.
Proof.
  intros HG. destruct (go _ _ _ _ _ _ HC ltac:(intros j Hj; apply HG; lia)) as (h1 & h2 & q & dims1 & dims2 & b & off & mb & mo & s & HH & Hx & La & Hu & Hz & Hk & Hmb & Hnx & Hen & E).
  assert (Lm : length ms = length zs) by apply fmap_length.
  pose proof HA as (_ & _ & _ & H4 & H5 & H6 & _). pose proof (pn_n _ _ _ _ _ _ HC) as Hn.
  destruct (started_t_exists s nr nc (av k) (ah k) mode bp mb mo ms ax_local Hu ltac:(lia)) as (ax & s1 & ES & HS); try done; try nia.
  - rewrite zs_ms in Hz. intros i j Hi. apply (Hz i (Z.of_nat j)). by rewrite list_lookup_fmap, Hi.
  - intros H. specialize (H6 H). lia.
  - exact ms_in.
  - intros j Hj. rewrite Hen, Hnx. apply HG. unfold base in *. lia.
  - destruct (started_live fft1 fft2 fft1_len fft2_len _ _ _ _ _ _ _ _ _ _ _ _ HS) as (r & c & sb & axb & J & Er & Ec & L).
    apply Nat2Z.inj in Er as <-. apply Nat2Z.inj in Ec as <-. exists h1, h2, q, dims1, dims2, b, off, mb, mo, s, ax, s1, sb, axb, J.
    split; try done. by rewrite (pn_r _ _ _ _ _ _ HC), (pn_c _ _ _ _ _ _ HC), <- Lm.
Qed.
Context h1 h2 q dims1 dims2 b off mb mo s ax s1 sb axb J (HP : prepared h1 h2 q dims1 dims2 b off mb mo s ax s1 sb axb J).
Notation L := (pr_live _ _ _ _ _ _ _ _ _ _ _ _ _ _ _ HP).
Lemma s1_led : ledger [] (owned1 sb ++ [(P_Own.KD, nx s)]) s s1. Proof. exact (lv_led _ _ _ _ _ _ _ _ _ _ _ _ _ _ _ _ L). Qed.
Lemma s1_nx : nx s1 = (x + 8)%nat. Proof. rewrite (P_MexNesta.started_t_nx _ _ _ _ _ _ _ _ _ _ _ _ (pr_st _ _ _ _ _ _ _ _ _ _ _ _ _ _ _ HP)), (pr_nx _ _ _ _ _ _ _ _ _ _ _ _ _ _ _ HP). lia. Qed.
Lemma s1_en : en s1 = en (ps_c p). Proof. rewrite (lg_en _ _ _ _ s1_led). apply (pr_en _ _ _ _ _ _ _ _ _ _ _ _ _ _ _ HP). Qed.
Lemma s1_unborn : unborn s1. Proof. exact (ledger_unborn _ _ _ _ (pr_un _ _ _ _ _ _ _ _ _ _ _ _ _ _ _ HP) s1_led). Qed.
Lemma owns j kd : (kd, j) ∈ owned1 sb ++ [(P_Own.KD, nx s)] <-> (kd = P_Own.KD /\ j ∈ xf_d x) \/ (kd = P_Own.KO /\ j ∈ xf_o x).
Proof.
  pose proof (lv_nx _ _ _ _ _ _ _ _ _ _ _ _ _ _ _ _ L) as En. rewrite (pr_nx _ _ _ _ _ _ _ _ _ _ _ _ _ _ _ HP) in En. unfold owned1, xf_d, xf_o. cbn [app]. rewrite (pr_nx _ _ _ _ _ _ _ _ _ _ _ _ _ _ _ HP), En, !elem_of_cons, !elem_of_nil. split.
  - intros H. repeat destruct H as [[= -> ->]|H]; try done; [left|left|left|right|right|left]; (split; [done|lia]).
  - intros [[-> H]|[-> H]].
    + assert (j = S (x + 2) \/ j = S (x + 2) + 1 \/ j = S (x + 2) + 2 \/ j = x + 2)%nat as [->|[->|[->| ->]]] by lia; auto 10.
    + assert (j = S (x + 2) + 4 \/ j = S (x + 2) + 3)%nat as [->| ->] by lia; auto 10.
Qed.
Lemma s1_dm j : j ∉ xf_d x -> dm s1 !! j = dm s !! j.
Proof. intros Hj. apply (lg_dm _ _ _ _ s1_led); [apply not_elem_of_nil|]. rewrite owns. intros [[_ H]|[[=] _]]. done. Qed.
Lemma s_dm j : dm s !! j = if decide (j = S x) then Some (Some <$> bs) else if decide (j = x) then Some (Some <$> const_of m zero) else dm (ps_c q) !! j.
Proof.
  rewrite (la_dm _ _ _ _ (pr_laid _ _ _ _ _ _ _ _ _ _ _ _ _ _ _ HP)), (pr_x _ _ _ _ _ _ _ _ _ _ _ _ _ _ _ HP). destruct (decide (j = S x)) as [->|]; [by rewrite lookup_insert|]. rewrite lookup_insert_ne by done.
  destruct (decide (j = x)) as [->|]; [by rewrite lookup_insert|]. by rewrite lookup_insert_ne.
Qed.
Lemma not_xf j : (j < x + 2)%nat -> j ∉ xf_d x. Proof. unfold xf_d. rewrite !elem_of_cons, elem_of_nil. lia. Qed.
Lemma new_py j : (nx (ps_c p) <= j)%nat -> dm (ps_c p) !! j = None /\ om (ps_c p) !! j = None.
Proof. intros Hj. destruct (proj1 (pn_fresh _ _ _ _ _ _ HC) j Hj) as (H1 & H2 & H3). done. Qed.
(** the solver has returned status with img in x_ours *)
Lemma answer s4 status img : same_blocks s1 s4 -> (forall j, j <> x -> j ∉ blocks_t s mb -> dm s4 !! j = dm s1 !! j) -> seg s4 (Ptr x 0) img -> length img = m ->
  en s4 = en s1 -> (nx s1 <= nx s4)%nat -> unborn s4 ->
  l1c_nesta (call fft1 fft2) (Z.of_nat m) (Ptr x 0) (Z.of_nat (length zs)) (Ptr (S x) 0) ax (py_nesta_opts k) s1 = Ok status s4 ->
  exists r p', py (Some k) p = POk r p' /\ answers p x (nx s4) nr nc img status r p'.
Proof.
  intros (B1 & B2 & B3 & B4) HD Sx Lx En Nx Hu ER0.
  pose proof (pr_held _ _ _ _ _ _ _ _ _ _ _ _ _ _ _ HP) as HH. pose proof (pr_x _ _ _ _ _ _ _ _ _ _ _ _ _ _ _ HP) as Hx. pose proof (pr_laid _ _ _ _ _ _ _ _ _ _ _ _ _ _ _ HP) as La. pose proof (pr_nx _ _ _ _ _ _ _ _ _ _ _ _ _ _ _ HP) as Hnx.
  pose proof s1_nx as N1. pose proof (x_new p k) as Hxn. pose proof (pn_n _ _ _ _ _ _ HC) as Hn. pose proof (pn_fit _ _ _ _ _ _ HC) as Hf.
  pose proof (pr_mb _ _ _ _ _ _ _ _ _ _ _ _ _ _ _ HP) as Hmx.
  assert (Hm : dm s4 !! mb = dm s1 !! mb).
  { specialize (B1 mb). rewrite s1_dm in * by (apply not_xf; lia). rewrite (pr_kind _ _ _ _ _ _ _ _ _ _ _ _ _ _ _ HP) in *. by destruct (dm s4 !! mb). }
  assert (Hold : forall j, (j < x + 2)%nat -> j <> x -> dm s4 !! j = dm s !! j).
  { intros j Hj Hne. destruct (decide (j = mb)) as [->|Hmb]; [rewrite Hm; apply s1_dm, not_xf; lia|]. rewrite HD; [apply s1_dm, not_xf; lia|done|]. unfold blocks_t. rewrite Hnx, !elem_of_cons, elem_of_nil. lia. }
  assert (Hsx : dm s4 !! x = Some (Some <$> img)).
  { specialize (B1 x). rewrite (s1_dm x) in B1 by (apply not_xf; lia). rewrite (s_dm x), decide_False, decide_True in B1 by lia. destruct (dm s4 !! x) as [l|] eqn:El; [|done]. cbn in B1. rewrite fmap_length, const_length in B1. injection B1 as Ll.
    f_equal. apply list_eq. intros i. rewrite list_lookup_fmap. destruct (img !! i) as [v|] eqn:Ei.
    - specialize (Sx i v Ei). unfold cell in Sx. rewrite El, (proj2 (Z.leb_le _ _)) in Sx by lia. rewrite ?Z.add_0_l, Nat2Z.id in Sx. exact Sx.
    - apply lookup_ge_None in Ei. apply lookup_ge_None. lia. }
  assert (SV : solved p q m s4 img).
  { split; rewrite ?Hx.
    - rewrite B4, (lg_im _ _ _ _ s1_led). apply La.
    - intros c Hc. rewrite Hold by lia. rewrite s_dm, !decide_False by lia. done.
    - exact Hsx.
    - rewrite Hold by lia. rewrite s_dm, decide_True by lia. eauto.
    - exact Lx.
    - exact Hu.
    - lia.
    - by rewrite En, s1_en. }
  assert (Hr : Z.of_nat nr <= INT_MAX) by (clear - Hn Hf; destruct nc; nia).
  destruct (solver_returns fft1 fft2 p h1 h2 q _ _ _ _ _ _ _ _ HH (pn_fresh _ _ _ _ _ _ HC) m s k nr nc (Z.of_nat (length zs)) ax s1 s4 status img (pn_r _ _ _ _ _ _ HC) (pn_c _ _ _ _ _ _ HC) eq_refl Hr Hf (pr_set _ _ _ _ _ _ _ _ _ _ _ _ _ _ _ HP) ltac:(by rewrite Hx) SV)
    as (r & p' & Er & HR).
  exists r, p'. split; [by rewrite (pr_py _ _ _ _ _ _ _ _ _ _ _ _ _ _ _ HP)|]. set (a := nx s4) in *.
  assert (HL : forall ex (Dl : list nat), left_of p q s4 ex p' -> (forall c, is_Some (ex !! c) -> c = a) -> (forall c, c ∈ Dl <-> c ∈ xf_d x \/ is_Some (ex !! c)) -> leaks p p' Dl (xf_o x)).
  { intros ex Dl (L1 & L2 & L3 & L4) Hex HDl. rewrite Hx in L4. split; [done|]. split; [|split; [|split; [|split]]].
    - rewrite L3. apply map_eq. intros c. rewrite B2. rewrite (lg_pm _ _ _ _ s1_led); [by rewrite (la_pm _ _ _ _ La), (held_pm _ _ _ _ _ _ _ _ _ _ _ _ HH)|]. rewrite owns. intros [[[=] _]|[[=] _]].
    - intros c Hc. rewrite L4. destruct (decide (c < x)%nat) as [|Hcx]; [done|]. destruct (decide (c = x \/ c = S x)) as [Hc2|Hc2]; [symmetry; apply new_py; lia|].
      destruct (ex !! c) eqn:Ex; [exfalso; apply Hc; apply HDl; right; rewrite Ex; eauto|]. rewrite HDl in Hc.
      assert (Hcx2 : c ∉ xf_d x) by tauto. rewrite (proj1 (new_py c ltac:(lia))).
      assert (length <$> dm s4 !! c = None) as Hln.
      { rewrite B1, s1_dm, s_dm, !decide_False by (done || lia). rewrite (proj1 (proj1 (hd_fresh _ _ _ _ _ _ _ _ _ _ _ _ HH) c ltac:(lia))). done. }
      by destruct (dm s4 !! c).
    - intros c Hc. rewrite L2, B3. rewrite (lg_om _ _ _ _ s1_led); [by rewrite (la_om _ _ _ _ La), (held_om _ _ _ _ _ _ _ _ _ _ _ _ HH)|]. rewrite owns. intros [[[=] _]|[_ H]]. done.
    - intros c Hc. apply HDl in Hc. assert (Hcn : (x + 2 <= c)%nat) by (destruct Hc as [Hc|Hc]; [unfold xf_d in Hc; rewrite !elem_of_cons, elem_of_nil in Hc; lia|apply Hex in Hc; lia]).
      split; [apply new_py; lia|]. rewrite L4, !decide_False by lia. destruct (ex !! c) as [l|] eqn:Ex; [eauto|]. destruct Hc as [Hc|[? Hc]]; [|done].
      destruct (lg_own _ _ _ _ s1_led P_Own.KD c ltac:(apply owns; left; done)) as [_ [l Hl]]. cbn in Hl. specialize (B1 c). rewrite Hl in B1. destruct (dm s4 !! c); [eauto|done].
    - intros c Hc. assert (Hcn : (x + 2 <= c)%nat) by (unfold xf_o in Hc; rewrite !elem_of_cons, elem_of_nil in Hc; lia). split; [apply new_py; lia|]. rewrite L2, B3.
      exact (proj2 (lg_own _ _ _ _ s1_led P_Own.KO c ltac:(apply owns; right; done))). }
  assert (HL0 : left_of p q s4 ∅ p' -> leaks p p' (xf_d x) (xf_o x)).
  { intros HLo. apply (HL ∅); [done|intros c [? H]; by rewrite lookup_empty in H|]. intros c. rewrite lookup_empty. split; [tauto|intros [?|[? [=]]]; done]. }
  assert (HL1 : left_of p q s4 {[a := Some <$> img]} p' -> dm (ps_c p') !! a = Some (Some <$> img) /\ leaks p p' (a :: xf_d x) (xf_o x)).
  { intros HLo. split.
    - destruct HLo as (_ & _ & _ & L4). rewrite L4, Hx, !decide_False by lia. by rewrite lookup_singleton.
    - apply (HL {[a := Some <$> img]}); [done|intros c [? H]; by apply lookup_singleton_Some in H as [<- _]|]. intros c. rewrite elem_of_cons. split.
      + intros [->|H]; [right; rewrite lookup_singleton; eauto|by left].
      + intros [H|[? H]]; [by right|]. apply lookup_singleton_Some in H as [<- _]. by left. }
  destruct HR as [(-> & Ex & G1 & Eo & HLo)|[(-> & Ex & G1 & G2 & Eo & HLo)|(-> & Ex & G1 & G2 & Eo & HLo)]].
  - left. split_and!; try done. by apply HL0.
  - destruct (HL1 HLo) as [Ha HLk]. right. left. done.
  - destruct (HL1 HLo) as [Ha HLk]. right. right. done.
Qed.
Lemma s1_x : dm s1 !! x = Some (Some <$> const_of m zero).
Proof. rewrite s1_dm by (apply not_xf; lia). by rewrite s_dm, decide_False, decide_True by lia. Qed.
Lemma s1_b : dm s1 !! S x = Some (Some <$> bs).
Proof. rewrite s1_dm by (apply not_xf; lia). by rewrite s_dm, decide_True by lia. Qed.
Lemma ax_q : ax_m ax = Z.of_nat (if bp =? synthesis then width (av k) (ah k) m else m) /\ ax_n ax = Z.of_nat (length zs) /\ exists w : nat, ax_p ax = Z.of_nat w.
Proof.
  destruct (lv_ax _ _ _ _ _ _ _ _ _ _ _ _ _ _ _ _ L) as (a0 & ->). unfold ax_fin. rewrite fmap_length. destruct (bp =? synthesis); cbn; eauto.
Qed.
(** the solver returns without touching x_ours *)
Lemma answer_zero s4 status : ledger [] [] s1 s4 ->
  l1c_nesta (call fft1 fft2) (Z.of_nat m) (Ptr x 0) (Z.of_nat (length zs)) (Ptr (S x) 0) ax (py_nesta_opts k) s1 = Ok status s4 ->
  exists r p', py (Some k) p = POk r p' /\ answers p x (nx s4) nr nc (const_of m zero) status r p'.
Proof.
  intros HL E. assert (Hd : forall j, dm s4 !! j = dm s1 !! j) by (intros j; apply (lg_dm _ _ _ _ HL); apply not_elem_of_nil). apply (answer s4); try done.
  - split; [intros j; by rewrite Hd|]. split; [intros j; apply (lg_pm _ _ _ _ HL), not_elem_of_nil|]. split; [intros j; apply (lg_om _ _ _ _ HL), not_elem_of_nil|apply HL].
  - apply seg_of. by rewrite Hd, s1_x.
  - apply const_length.
  - apply HL.
  - apply HL.
  - exact (ledger_unborn _ _ _ _ s1_unborn HL).
Qed.
(** the sizes agree *)
Lemma sizes_agree : bp = analysis \/ width (av k) (ah k) m = m -> ax_m ax = Z.of_nat m.
Proof. intros H. destruct ax_q as (-> & _). destruct (Z.eqb_spec bp synthesis) as [E|E]; [|done]. destruct H as [H|H]; [by rewrite H in E|by rewrite H]. Qed.
(** the solver does not get its memory *)
Lemma solver_starved : bp = analysis \/ width (av k) (ah k) m = m -> (exists j, (8 <= j < 18)%nat /\ alloc_ok (en (ps_c p)) (x + j) = false) ->
  exists s4, ledger [] [] s1 s4 /\ l1c_nesta (call fft1 fft2) (Z.of_nat m) (Ptr x 0) (Z.of_nat (length zs)) (Ptr (S x) 0) ax (py_nesta_opts k) s1 = Ok L1C_OUT_OF_MEMORY s4.
Proof.
  intros Hm (j & Hj & Ej). destruct ax_q as (_ & En & w & Ep). pose proof (sizes_agree Hm) as Em.
  destruct (nprob_new_run s1 m (length zs) w ax s1_unborn Em En Ep) as (np & t & E & Eg & Hn & Hd & [(-> & Hg & _)|(-> & _ & HL)]).
  - exfalso. specialize (Hg (j - 8)%nat ltac:(lia)). rewrite s1_nx, s1_en in Hg. replace (x + 8 + (j - 8))%nat with (x + j)%nat in Hg by lia. congruence.
  - exists t. split; [done|]. unfold l1c_nesta. rewrite En, Em, !Z.eqb_refl. cbn [negb orb]. by rewrite (bind_ok _ _ _ _ _ E).
Qed.
(** synthesis without weights: the work array is read before it is written *)
Lemma synthesis_uninit : bp = synthesis -> width (av k) (ah k) m = m -> (forall j, (8 <= j < 18)%nat -> alloc_ok (en (ps_c p)) (x + j) = true) ->
  l1c_nesta (call fft1 fft2) (Z.of_nat m) (Ptr x 0) (Z.of_nat (length zs)) (Ptr (S x) 0) ax (py_nesta_opts k) s1 = Ub UbUninit.
Proof.
  intros Hs Hw HG. destruct ax_q as (_ & En & w & Ep). pose proof (sizes_agree (or_intror Hw)) as Em.
  destruct (nprob_new_run s1 m (length zs) w ax s1_unborn Em En Ep) as (np & t & E & Eg & Hn & Hd & [(-> & _ & Hn' & HL & _)|(-> & (j & Hj & Ej) & _)]).
  2:{ exfalso. rewrite s1_nx, s1_en in Ej. specialize (HG (8 + j)%nat ltac:(lia)). replace (x + (8 + j))%nat with (x + 8 + j)%nat in HG by lia. congruence. }
  unfold l1c_nesta. rewrite En, Em, !Z.eqb_refl. cbn [negb orb]. rewrite (bind_ok _ _ _ _ _ E). cbv iota beta. apply bind_ub. unfold nesta_setup.
  assert (HQ : Jx J axb nr nc (av k) (ah k) (nx s) Fresh t).
  { eapply (Q_same _ _ _ _ _ _ _ _ _ _ _ _ _ _ _ _ L Fresh); [exact (lv_J _ _ _ _ _ _ _ _ _ _ _ _ _ _ _ _ L)|]. split; [|split; [done|apply HL]]. intros c Hc. pose proof s1_nx as N1. pose proof (pr_nx _ _ _ _ _ _ _ _ _ _ _ _ _ _ _ HP) as N0. pose proof (pr_mb _ _ _ _ _ _ _ _ _ _ _ _ _ _ _ HP) as Hmb.
    assert (c < nx s1)%nat by (unfold blocks_t in Hc; rewrite !elem_of_cons, elem_of_nil in Hc; lia).
    split; [apply Hd; lia|]. split; [by rewrite (lg_im _ _ _ _ HL)|].
    assert (HO : forall kd, (kd, c) ∉ np_owns (np0 (nx s1) m (length zs) w)) by (intros kd Hk; apply (lg_own _ _ _ _ HL) in Hk as [Hk _]; lia).
    split; [apply (lg_pm _ _ _ _ HL), HO|]. split; [apply (lg_om _ _ _ _ HL), HO|]. apply (lg_al _ _ _ _ HL). lia. }
  destruct (lv_ax _ _ _ _ _ _ _ _ _ _ _ _ _ _ _ _ L) as (a0 & Ea0). rewrite Ea0. unfold ax_fin. rewrite Hs. change (synthesis =? synthesis) with true. cbn [ax_Wz ax_Wtx ax_Rx ax_Rty fptr_is_null orb np_ax ax_Aty call].
  apply bind_ub. eapply u_Aty; [exact L|exact HQ].
Qed.
End ready.

(** ** Synthesis mode never works.  With weights the solver refuses the vector of nr*nc numbers it is given: the
    answer is an image of zeros with the status of an invalid argument, and no exception *)
Theorem py_nesta_synthesis_weights p k nr nc bs zs : nesta_py_call p k nr nc bs zs -> tv_accepts (Z.of_nat (length zs)) (Z.of_nat nr) (Z.of_nat nc) (av k) (ah k) zs ->
  Z.of_nat (width (av k) (ah k) (nr * nc)) <= INT_MAX -> grants_before p (base p k + 8) -> kw (nk_bp_mode k) analysis = synthesis -> ltb_ zero (av k) = true \/ ltb_ zero (ah k) = true ->
  exists r p', py (Some k) p = POk r p' /\ answers p (base p k) (base p k + 8) nr nc (const_of (nr * nc) zero) L1C_INVALID_ARGUMENT r p'.
Proof.
  intros HC HA HW HG Hs Hw. destruct (prepare _ _ _ _ _ _ HC HA HW HG) as (h1 & h2 & q & dims1 & dims2 & b & off & mb & mo & s & ax & s1 & sb & axb & J & HP).
  destruct (answer_zero _ _ _ _ _ _ HC _ _ _ _ _ _ _ _ _ _ _ _ _ _ _ HP s1 L1C_INVALID_ARGUMENT) as (r & p' & E & HR).
  - apply ledger_nil.
  - destruct (ax_q _ _ _ _ _ _ _ _ _ _ _ _ _ _ _ _ _ _ _ _ _ HP) as (Em & En & _). pose proof (pn_n _ _ _ _ _ _ HC) as Hn. unfold l1c_nesta. rewrite En, Em, Hs, Z.eqb_refl. change (synthesis =? synthesis) with true. cbv iota.
    rewrite (proj2 (Z.eqb_neq _ _)); [done|]. unfold width. destruct Hw as [-> | ->]; destruct (ltb_ _ _); lia.
  - exists r, p'. split; [done|]. by rewrite (s1_nx _ _ _ _ _ _ _ _ _ _ _ _ _ _ _ _ _ _ _ _ _ HP) in HR.
Qed.
(** ... and without weights memory is read that nobody wrote *)
Theorem py_nesta_synthesis_undefined p k nr nc bs zs : nesta_py_call p k nr nc bs zs -> tv_accepts (Z.of_nat (length zs)) (Z.of_nat nr) (Z.of_nat nc) (av k) (ah k) zs ->
  grants_before p (base p k + 18) -> kw (nk_bp_mode k) analysis = synthesis -> ltb_ zero (av k) = false -> ltb_ zero (ah k) = false -> py (Some k) p = PUb UbUninit.
Proof.
  intros HC HA HG Hs Hv Hh. assert (Hw : width (av k) (ah k) (nr * nc) = (nr * nc)%nat) by (unfold width; rewrite Hv, Hh; lia).
  destruct (prepare _ _ _ _ _ _ HC HA ltac:(rewrite Hw; apply HC) ltac:(intros j Hj; apply HG; lia)) as (h1 & h2 & q & dims1 & dims2 & b & off & mb & mo & s & ax & s1 & sb & axb & J & HP).
  rewrite (pr_py _ _ _ _ _ _ _ _ _ _ _ _ _ _ _ _ _ _ _ _ _ HP). eapply solver_ub; [exact (pr_set _ _ _ _ _ _ _ _ _ _ _ _ _ _ _ _ _ _ _ _ _ HP)|]. rewrite (pr_x _ _ _ _ _ _ _ _ _ _ _ _ _ _ _ _ _ _ _ _ _ HP).
  eapply synthesis_uninit; [exact HP|done|done|]. intros j Hj. apply HG. pose proof (x_new p k). lia.
Qed.
(** ** The solver does not get its memory: zeros with the status of out of memory, and no exception *)
Theorem py_nesta_solver_memory p k nr nc bs zs : nesta_py_call p k nr nc bs zs -> tv_accepts (Z.of_nat (length zs)) (Z.of_nat nr) (Z.of_nat nc) (av k) (ah k) zs ->
  Z.of_nat (width (av k) (ah k) (nr * nc)) <= INT_MAX -> grants_before p (base p k + 8) -> kw (nk_bp_mode k) analysis = analysis \/ width (av k) (ah k) (nr * nc) = (nr * nc)%nat ->
  (exists j, (8 <= j < 18)%nat /\ alloc_ok (en (ps_c p)) (base p k + j) = false) ->
  exists a r p', (base p k + 8 <= a)%nat /\ py (Some k) p = POk r p' /\ answers p (base p k) a nr nc (const_of (nr * nc) zero) L1C_OUT_OF_MEMORY r p'.
Proof.
  intros HC HA HW HG Hs HR. destruct (prepare _ _ _ _ _ _ HC HA HW HG) as (h1 & h2 & q & dims1 & dims2 & b & off & mb & mo & s & ax & s1 & sb & axb & J & HP).
  destruct (solver_starved _ _ _ _ _ _ _ _ _ _ _ _ _ _ _ _ _ _ _ _ _ HP Hs HR) as (s4 & HL & E4).
  destruct (answer_zero _ _ _ _ _ _ HC _ _ _ _ _ _ _ _ _ _ _ _ _ _ _ HP s4 L1C_OUT_OF_MEMORY HL E4) as (r & p' & E & HA').
  exists (nx s4), r, p'. split; [|done]. rewrite <- (s1_nx _ _ _ _ _ _ _ _ _ _ _ _ _ _ _ _ _ _ _ _ _ HP). apply HL.
Qed.
(** ** Nothing of an answer is ever released: when the caller drops the tuple, the array is still counted once,
    and its data and the six blocks of the transforms are still in use *)
Theorem py_nesta_result_never_released p (x a nr nc : nat) img status r p' : fresh_py p -> (nx (ps_c p) <= x)%nat -> (x + 8 <= a)%nat -> answers p x a nr nc img status (Some r) p' ->
  exists p'', decref r p' = POk tt p'' /\ ps_o p'' = <[a := (1%nat, NdDouble [Z.of_nat nr; Z.of_nat nc] (Ptr a 0))]> (ps_o p) /\
    dm (ps_c p'') !! a = Some (Some <$> img) /\ leaks p p'' (a :: xf_d x) (xf_o x).
Proof.
  intros F Hx Ha [(_ & H & _)|[(_ & _ & H & _)|(_ & _ & [= ->] & _ & Eo & Ed & HL)]]; try discriminate H.
  assert (Na : ps_o p !! (a + 1)%nat = None) by (apply F; lia).
  eexists. split.
  - unfold decref. rewrite Eo, lookup_insert. rewrite delete_insert by (by rewrite lookup_insert_ne by lia). cbn [decref_items]. erewrite pbind_ok; [reflexivity|]. unfold decref1. cbn [set_o ps_o]. rewrite lookup_insert, insert_insert. reflexivity.
  - done.
Qed.
End C80.

(** ** A result *)
Section result.
Local Open Scope R_scope.
(** FFTW computes its documented transforms of finite data *)
Context (fft1 : fkind -> list er -> list er) (fft2 : fkind -> nat -> nat -> list er -> list er).
Hypothesis fft1_len : forall k xs, length (fft1 k xs) = length xs.
Hypothesis fft2_len : forall k nr nc xs, length xs = (nr * nc)%nat -> length (fft2 k nr nc xs) = (nr * nc)%nat.
Hypothesis fft1_exact : forall k (x : list R), fft1 k (fin x) = fin (dft1 k x).
Hypothesis fft2_exact : forall k nr nc (x : list R), length x = (nr * nc)%nat -> fft2 k nr nc (fin x) = fin (dft2 k nr nc x).
Notation py := (@py_nesta ER fft1 fft2).
(** A sensible call: analysis mode; finite measurements and weights; different pixels; sigma and mu positive;
    the measurements not all zero (or no stage asked for). *)
Record nesta_py_sensible (p : @pst ER) (k : @nesta_kw ER) (nr nc : nat) (bv : list R) (zs : list Z) (rv rh sg : R) : Prop := {
  py_call_ : @nesta_py_call ER p k nr nc (fin bv) zs; py_av : kw (nk_alpha_v k) (@zero ER) = Fin rv; py_ah : kw (nk_alpha_h k) (@zero ER) = Fin rh;
  py_acc : @tv_accepts ER (Z.of_nat (length zs)) (Z.of_nat nr) (Z.of_nat nc) (Fin rv) (Fin rh) zs; py_w : (Z.of_nat (@width ER (Fin rv) (Fin rh) (nr * nc)) <= INT_MAX)%Z;
  py_bp : kw (nk_bp_mode k) analysis = analysis; py_nd : NoDup zs;
  py_sigma : kw (nk_sigma k) (@lit ER 1 100) = Fin sg; py_sg : 0 < sg; py_mu : exists mu, kw (nk_mu k) (@lit ER 1 100000) = Fin mu /\ 0 < mu;
  py_cont : (kw (nk_n_continue k) 5 < INT_MAX)%Z; py_nz : (kw (nk_n_continue k) 5 <= 0)%Z \/ exists i, nth i bv 0 <> 0 }.
(** With the memory for the transforms and the solver, the queue of the last values decides: refused or not aligned it
    makes the call undefined; otherwise the answer is an image whose measured pixels are within sigma of the
    measurements, with status 0. *)
Theorem py_nesta_outcome p k nr nc bv zs rv rh sg : nesta_py_sensible p k nr nc bv zs rv rh sg -> let x := @base ER p k in @grants_before ER p (x + 18) ->
  (alloc_ok (en (ps_c p)) (x + 18) = false -> py (Some k) p = PUb UbOob) /\
  (alloc_ok (en (ps_c p)) (x + 18) = true -> luck (en (ps_c p)) (x + 18) <> true -> (1 <= kw (nk_n_continue k) 5)%Z -> py (Some k) p = PUb UbAlign) /\
  (alloc_ok (en (ps_c p)) (x + 18) = true -> luck (en (ps_c p)) (x + 18) = true \/ (kw (nk_n_continue k) 5 <= 0)%Z ->
     exists img a r p', (x + 8 <= a)%nat /\ py (Some k) p = POk r p' /\ @answers ER p x a nr nc (fin img) 0 r p' /\
       length img = (nr * nc)%nat /\ nrm2 (vlin 1 (sample (Z.to_nat <$> zs) img) (-1) bv) <= sg /\
       (* it comes out of n_continue stages that end with the smoothing mu and the tolerance tol of the keywords *)
       (forall mu tol, kw (nk_mu k) (@lit ER 1 100000) = Fin mu -> kw (nk_tol k) (@lit ER 1 100000) = Fin tol -> 0 < tol -> (1 <= kw (nk_n_continue k) 5)%Z -> (exists i, nth i bv 0 <> 0) ->
          let px := Z.to_nat <$> zs in
          staged (nr * nc) (nblocks rv rh * (nr * nc)) (sample px) bv sg (dictT (xf_fwd (Z.of_nat nr) (Z.of_nat nc) (kw (nk_dct_mode k) dct1)) nr nc rv rh) (R_sqrt.sqrt (1 + 4 * rv ^ 2 + 4 * rh ^ 2)) mu tol
            (Z.to_nat (kw (nk_n_continue k) 5%Z)) (spread (nr * nc) px bv) img)).
Proof.
  intros [HC Eav Eah HA HW Hbp ND Es Hsg Hmu Hc Hnz] x HG.
  destruct (@prepare ER fft1 fft2 fft1_len fft2_len p k nr nc (fin bv) zs HC) as (h1 & h2 & q & dims1 & dims2 & b & off & mb & mo & s & ax & s1 & sb & axb & J & HP).
  { rewrite Eav, Eah. exact HA. }
  { rewrite Eav, Eah. exact HW. }
  { intros j Hj. apply HG. unfold x. lia. }
  pose proof (@s1_nx ER fft1 fft2 _ _ _ _ _ _ _ _ _ _ _ _ _ _ _ _ _ _ _ _ _ HP) as N1. pose proof (@s1_en ER fft1 fft2 _ _ _ _ _ _ _ _ _ _ _ _ _ _ _ _ _ _ _ _ _ HP) as E1.
  pose proof (@pr_nx ER fft1 fft2 _ _ _ _ _ _ _ _ _ _ _ _ _ _ _ _ _ _ _ _ _ HP) as N0. pose proof (@pr_mb ER fft1 fft2 _ _ _ _ _ _ _ _ _ _ _ _ _ _ _ _ _ _ _ _ _ HP) as Hmb. pose proof (@pr_x ER fft1 fft2 _ _ _ _ _ _ _ _ _ _ _ _ _ _ _ _ _ _ _ _ _ HP) as Hx.
  pose proof (@s1_x ER fft1 fft2 _ _ _ _ _ _ _ _ _ _ _ _ _ _ _ _ _ _ _ _ _ HP) as X1. pose proof (@s1_b ER fft1 fft2 _ _ _ _ _ _ _ _ _ _ _ _ _ _ _ _ _ _ _ _ _ HP) as B1. pose proof (@s1_led ER fft1 fft2 _ _ _ _ _ _ _ _ _ _ _ _ _ _ _ _ _ _ _ _ _ HP) as HL.
  pose proof (@pr_laid ER fft1 fft2 _ _ _ _ _ _ _ _ _ _ _ _ _ _ _ _ _ _ _ _ _ HP) as La.
  fold x in N1, N0, Hmb, Hx, X1, B1.
  assert (Lz : length (Z.to_nat <$> zs) = length zs) by apply fmap_length.
  assert (HF : forall j, j ∈ blocks_t s mb -> j <> x /\ j <> S x). { intros j Hj. unfold blocks_t in Hj. rewrite N0, !elem_of_cons, elem_of_nil in Hj. lia. }
  assert (HT : tv_nesta_call fft1 fft2 s (Z.of_nat nr) (Z.of_nat nc) rv rh (kw (nk_dct_mode k) dct1) mb mo (Z.to_nat <$> zs) ax s1 s1 x (S x) bv (@py_nesta_opts ER k) sg).
  { split; try done; try lia.
    - rewrite <- Eav, <- Eah, <- Hbp. exact (@pr_st ER fft1 fft2 _ _ _ _ _ _ _ _ _ _ _ _ _ _ _ _ _ _ _ _ _ HP).
    - cbv zeta. apply h_nil.
    - apply NoDup_fmap_2_strong; [|done]. intros z1 z2 H1 H2 E. destruct HA as (_ & _ & _ & _ & _ & _ & HI). pose proof (HI z1 H1). pose proof (HI z2 H2). lia.
    - exact (@s1_unborn ER fft1 fft2 _ _ _ _ _ _ _ _ _ _ _ _ _ _ _ _ _ _ _ _ _ HP).
    - intros H. by destruct (HF _ H).
    - intros H. by destruct (HF _ H).
    - apply (@seg_of ER). exact B1.
    - pose proof (@pn_len ER _ _ _ _ _ _ HC) as Q. rewrite fin_length in Q. by rewrite Lz.
    - rewrite m_nat. eapply (@wok_block ER); [exact X1|]. by rewrite fmap_length, (@const_length ER).
    - unfold is_aligned. cbn. rewrite (@lg_al ER _ _ _ _ HL) by lia. rewrite <- Hx, (@la_al ER _ _ _ _ La). done. }
  assert (G10 : granted s1 10). { intros j Hj. rewrite E1, N1. apply HG. pose proof (@x_new ER p k). fold x in H. lia. }
  assert (QE : (nx s1 + 10)%nat = (x + 18)%nat) by lia.
  destruct (nesta_tv_outcome fft1 fft2 fft1_len fft2_len fft1_exact fft2_exact _ _ _ _ _ _ _ _ _ _ _ _ _ _ _ _ _ HT Hnz) as (_ & H2 & H3 & H4).
  assert (HU : forall e, tv_nesta fft1 fft2 (Z.of_nat nr) (Z.of_nat nc) (Z.to_nat <$> zs) x (S x) ax (@py_nesta_opts ER k) s1 = Ub e -> py (Some k) p = PUb e).
  { intros e Ee. rewrite (@pr_py ER fft1 fft2 _ _ _ _ _ _ _ _ _ _ _ _ _ _ _ _ _ _ _ _ _ HP). eapply (@solver_ub ER); [exact (@pr_set ER fft1 fft2 _ _ _ _ _ _ _ _ _ _ _ _ _ _ _ _ _ _ _ _ _ HP)|].
    rewrite Hx. unfold tv_nesta in Ee. rewrite Lz, <- Nat2Z.inj_mul in Ee. exact Ee. }
  assert (G11 : alloc_ok (en (ps_c p)) (x + 18) = true -> granted s1 11).
  { intros Hq j Hj. destruct (decide (j = 10%nat)) as [->|]; [by rewrite E1, QE|]. apply G10. lia. }
  split; [|split].
  - intros Hq. apply HU, H2; [done|]. by rewrite E1, QE.
  - intros Hq Hl Hn. apply HU, H3; [by apply G11| |done]. unfold queue_aligned. by rewrite E1, QE.
  - intros Hq Hl. destruct H4 as (t' & img & Erun & HB & HD & Sx & Lx & Fx & En & Nx & Hu & _); [by apply G11|unfold queue_aligned; by rewrite E1, QE|].
    assert (HST : forall mu tol, kw (nk_mu k) (@lit ER 1 100000) = Fin mu -> kw (nk_tol k) (@lit ER 1 100000) = Fin tol -> 0 < tol -> (1 <= kw (nk_n_continue k) 5)%Z -> (exists i, nth i bv 0 <> 0) ->
      staged (nr * nc) (nblocks rv rh * (nr * nc)) (sample (Z.to_nat <$> zs)) bv sg (dictT (xf_fwd (Z.of_nat nr) (Z.of_nat nc) (kw (nk_dct_mode k) dct1)) nr nc rv rh) (R_sqrt.sqrt (1 + 4 * rv ^ 2 + 4 * rh ^ 2)) mu tol
        (Z.to_nat (kw (nk_n_continue k) 5%Z)) (spread (nr * nc) (Z.to_nat <$> zs) bv) img).
    { intros mu tol Emu Etol Htol Hnc Hnz'. destruct (C68_stages_tv fft1 fft2 fft1_len fft2_len fft1_exact fft2_exact _ _ _ _ _ _ _ _ _ _ _ _ _ _ _ _ _ _ _ _ HT Emu Etol Htol Hnc Hnz' Erun) as (x' & Sx' & Lx' & _ & HSt).
      rewrite <- Nat2Z.inj_mul, !Nat2Z.id in HSt. rewrite m_nat in Lx'. rewrite m_nat in Lx.
      assert (x' = img) as ->; [|exact HSt]. apply fin_inj. refine (@seg_inj ER _ _ _ _ Sx' Sx _). rewrite !fin_length. congruence. }
    rewrite m_nat in Lx. unfold tv_nesta in Erun. rewrite Lz, <- Nat2Z.inj_mul in Erun.
    destruct (@answer ER fft1 fft2 p k nr nc (fin bv) zs HC _ _ _ _ _ _ _ _ _ _ _ _ _ _ _ HP t' 0%Z (fin img)) as (r & p' & E & HR).
    { exact HB. }
    { exact HD. }
    { exact Sx. }
    { by rewrite fin_length. }
    { exact En. }
    { exact Nx. }
    { exact Hu. }
    { exact Erun. }
    exists img, (nx t'), r, p'. split; [lia|]. split; [exact E|]. split; [exact HR|]. split; [done|]. split; [exact Fx|]. exact HST.
Qed.
End result.

(** ** Cases: a 3 x 3 image; object 1 is a list of two measurements, object 0 an array with the pixel numbers *)
Module PyNestaEx.
Import L1qcEx.
Local Open Scope R_scope.
Definition bv : list R := [1; 3].
Definition user (e : @env ER) (bs : list R) (zs : list Z) : @pst ER := @PyL1qcEx.user ER e (fin bs) zs.
(** nesta_dctTV(3, 3, b, pix_idx, alpha_v=av, alpha_h=ah, sigma=0.1, mu=0.01, tol=0.001, n_continue=5, verbose=0, bp_mode=bp) *)
Definition args (av ah : R) (bp : Z) : @nesta_kw ER :=
  @mkNestaKw ER 3 3 1 0 (Some (Fin av)) (Some (Fin ah)) (Some (Fin (/ 10))) (Some (Fin (/ 100))) (Some (Fin (/ 1000))) (Some 5%Z) (Some 0%Z) None (Some bp).
Lemma call_ok e bs zs av ah bp : length bs = length zs -> (1 <= length zs <= 9)%nat -> bp = analysis \/ bp = synthesis -> @nesta_py_call ER (user e bs zs) (args av ah bp) 3 3 (fin bs) zs.
Proof.
  intros HL Hn Hbp. split; [apply (@PyL1qcEx.user_fresh ER)|split; [by left|exact Hbp]|reflexivity|reflexivity|vm_compute; discriminate|apply (@PyL1qcEx.user_d ER)|apply (@PyL1qcEx.user_i ER)| |exact Hn].
  by rewrite fin_length.
Qed.
(** x_ours is block 3, b_ours 4, the transforms are 5 to 10, the solver's requests 11 to 20, its queue 21 *)
Lemma base3 e bs zs av ah bp : @base ER (user e bs zs) (args av ah bp) = 3%nat. Proof. reflexivity. Qed.
Definition without (i : nat) : @env ER := @mkEnv ER (fun j => negb (Nat.eqb i j)) (fun _ => true) (fun _ _ _ => @zero ER).
Lemma grants_env0 bs zs i : @grants_before ER (user (@env0 ER) bs zs) i. Proof. intros j _. reflexivity. Qed.
Lemma grants_without bs zs i n : (n <= i)%nat -> @grants_before ER (user (without i) bs zs) n.
Proof. intros Hn j Hj. change (negb (Nat.eqb i j) = true). by rewrite (proj2 (Nat.eqb_neq _ _)) by lia. Qed.
Lemma acc av ah : 0 <= av -> 0 <= ah -> @tv_accepts ER 2 3 3 (Fin av) (Fin ah) [0; 4]%Z.
Proof.
  intros. split; [lia|]. split; [lia|]. split; [lia|]. split; [by apply NestaTVEx.not_neg|]. split; [by apply NestaTVEx.not_neg|]. split; [lia|].
  intros z Hz. apply elem_of_cons in Hz as [->|Hz]; [lia|]. apply elem_of_list_singleton in Hz as ->. lia.
Qed.
Lemma w27 av ah : (Z.of_nat (@width ER (Fin av) (Fin ah) (3 * 3)) <= INT_MAX)%Z.
Proof. unfold width. destruct (ltb_ _ _), (ltb_ _ _); vm_compute; discriminate. Qed.
Lemma sensible e : nesta_py_sensible (user e bv [0; 4]%Z) (args 1 1 analysis) 3 3 bv [0; 4]%Z 1 1 (/ 10).
Proof.
  split.
  - apply call_ok; [done|simpl; lia|by left].
  - reflexivity.
  - reflexivity.
  - apply acc; lra.
  - apply w27.
  - reflexivity.
  - apply (bool_decide_unpack _). vm_compute. done.
  - reflexivity.
  - lra.
  - exists (/ 100). split; [reflexivity|lra].
  - reflexivity.
  - right. exists 0%nat. cbn. lra.
Qed.
(** all memory is granted and the queue aligned: the call works *)
Example nesta_works : exists img a p', (11 <= a)%nat /\ @py_nesta ER f1 f2 (Some (args 1 1 analysis)) (user (@env0 ER) bv [0; 4]%Z) = POk (Some (a + 1)%nat) p' /\
  ps_o p' !! (a + 1)%nat = Some (1%nat, @PyTuple ER [@VRef ER a; @VInt ER 0]) /\ dm (ps_c p') !! a = Some (Some <$> fin img) /\
  @answers ER (user (@env0 ER) bv [0; 4]%Z) 3 a 3 3 (fin img) 0 (Some (a + 1)%nat) p' /\ length img = 9%nat /\ nrm2 (vlin 1 (sample [0; 4]%nat img) (-1) bv) <= / 10 /\
  staged 9 (nblocks 1 1 * 9) (sample [0; 4]%nat) bv (/ 10) (dictT (xf_fwd 3 3 dct1) 3 3 1 1) (R_sqrt.sqrt (1 + 4 * 1 ^ 2 + 4 * 1 ^ 2)) (/ 100) (/ 1000) 5 (spread 9 [0; 4]%nat bv) img.
Proof.
  destruct (py_nesta_outcome f1 f2 f1_len f2_len f1_exact f2_exact _ _ _ _ _ _ _ _ _ (sensible (@env0 ER)) (grants_env0 _ _ _)) as (_ & _ & H).
  destruct H as (img & a & r & p' & Ha & E & HR & Li & Fx & HSt); [reflexivity|by left|]. rewrite base3 in *.
  pose proof HR as [(G & _)|[(_ & G & _)|(_ & _ & -> & _ & Eo & Ed & _)]]; [discriminate G|discriminate G|].
  exists img, a, p'. split; [lia|]. split; [exact E|]. split; [rewrite Eo; apply lookup_insert|]. split; [exact Ed|]. split; [exact HR|]. split; [exact Li|]. split; [exact Fx|]. apply HSt; try done; [lra|]. exists 0%nat. cbn. lra.
Qed.
(** pixel 9 of 9 (counted from 0) or a negative weight: RuntimeError; three measurements at two pixels: ValueError;
    bp_mode 7: ValueError; no memory for b_ours: MemoryError or RuntimeError; none for the transforms: RuntimeError *)
Example nesta_rejected :
  (exists p', @py_nesta ER f1 f2 (Some (args 1 1 analysis)) (user (@env0 ER) bv [0; 9]%Z) = POk None p' /\ ps_exc p' = Some ERuntimeError) /\
  (exists p', @py_nesta ER f1 f2 (Some (args (-1) 1 analysis)) (user (@env0 ER) bv [0; 4]%Z) = POk None p' /\ ps_exc p' = Some ERuntimeError) /\
  (exists p', @py_nesta ER f1 f2 (Some (args 1 1 analysis)) (user (@env0 ER) [1; 2; 3] [0; 4]%Z) = POk None p' /\ ps_exc p' = Some EValueError) /\
  (exists p', @py_nesta ER f1 f2 (Some (args 1 1 7)) (user (@env0 ER) bv [0; 4]%Z) = POk None p' /\ ps_exc p' = Some EValueError) /\
  (exists p', @py_nesta ER f1 f2 (Some (args 1 1 analysis)) (user (without 4) bv [0; 4]%Z) = POk None p' /\ @same_py ER (user (without 4) bv [0; 4]%Z) p') /\
  (exists p', @py_nesta ER f1 f2 (Some (args 1 1 analysis)) (user (without 5) bv [0; 4]%Z) = POk None p' /\ ps_exc p' = Some ERuntimeError /\ @same_py ER (user (without 5) bv [0; 4]%Z) p').
Proof.
  assert (C2 : forall e zs av ah, length zs = 2%nat -> @nesta_py_call ER (user e bv zs) (args av ah analysis) 3 3 (fin bv) zs) by (intros e zs av ah Hz; apply call_ok; [by rewrite Hz|rewrite Hz; lia|by left]).
  split_and!.
  - destruct (@py_nesta_transforms_reject ER f1 f2 _ _ _ _ _ _ (C2 (@env0 ER) [0; 9]%Z 1 1 eq_refl) (grants_env0 _ _ _)) as (p' & E & Ex & _); [|by exists p'].
    intros (_ & _ & _ & _ & _ & _ & H). specialize (H 9%Z ltac:(apply elem_of_cons; right; apply elem_of_list_singleton; reflexivity)). lia.
  - destruct (@py_nesta_transforms_reject ER f1 f2 _ _ _ _ _ _ (C2 (@env0 ER) [0; 4]%Z (-1) 1 eq_refl) (grants_env0 _ _ _)) as (p' & E & Ex & _); [|by exists p'].
    intros (_ & _ & _ & H & _). cbn [args nk_alpha_v kw] in H. rewrite zero_ER, zero_RN in H. cbn [ltb_ ER er_ltb] in H. unfold Rltb in H. destruct (Rlt_dec _ _); [discriminate H|lra].
  - destruct (@py_nesta_rejects ER f1 f2 (user (@env0 ER) [1; 2; 3] [0; 4]%Z) (args 1 1 analysis) [3%Z] [2%Z] (fin [1; 2; 3]) [0; 4]%Z) as (_ & _ & H).
    + apply (@PyL1qcEx.user_fresh ER). + by split. + split; by left. + apply (@PyL1qcEx.user_d ER). + apply (@PyL1qcEx.user_i ER).
    + destruct (H 3%Z 2%Z eq_refl eq_refl) as (p' & E & Ex & _); [vm_compute; split; discriminate|vm_compute; split; discriminate|vm_compute; split; discriminate|right; lia|]. by exists p'.
  - eexists. split; [apply (@py_nesta_bad_mode ER f1 f2)|reflexivity]. intros [_ [H|H]]; discriminate H.
  - destruct (@py_nesta_no_memory ER f1 f2 _ _ _ _ _ _ (C2 (without 4) [0; 4]%Z 1 1 eq_refl)) as (p' & E & Hs & _); [|by exists p'].
    intros H. assert (Q := H 4%nat). rewrite base3 in Q. specialize (Q ltac:(change (2 <= 4 < 3 + 2)%nat; lia)). discriminate Q.
  - destruct (@py_nesta_no_work_array ER f1 f2 _ _ _ _ _ _ (C2 (without 5) [0; 4]%Z 1 1 eq_refl)) as (p' & E & Ex & Hs); [|apply acc; lra|apply w27|reflexivity|by exists p'].
    apply grants_without. rewrite base3. lia.
Qed.
(** the queue is refused or not aligned; synthesis mode without weights *)
Example nesta_undefined :
  @py_nesta ER f1 f2 (Some (args 1 1 analysis)) (user (without 21) bv [0; 4]%Z) = PUb UbOob /\
  @py_nesta ER f1 f2 (Some (args 1 1 analysis)) (user (@mkEnv ER (fun _ => true) (fun _ => false) (fun _ _ _ => @zero ER)) bv [0; 4]%Z) = PUb UbAlign /\
  @py_nesta ER f1 f2 (Some (args 0 0 synthesis)) (user (@env0 ER) bv [0; 4]%Z) = PUb UbUninit.
Proof.
  split_and!.
  - destruct (py_nesta_outcome f1 f2 f1_len f2_len f1_exact f2_exact _ _ _ _ _ _ _ _ _ (sensible (without 21))) as (H & _); [apply grants_without; rewrite base3; lia|]. by apply H.
  - destruct (py_nesta_outcome f1 f2 f1_len f2_len f1_exact f2_exact _ _ _ _ _ _ _ _ _ (sensible (@mkEnv ER (fun _ => true) (fun _ => false) (fun _ _ _ => @zero ER)))) as (_ & H & _); [intros j _; reflexivity|]. by apply H.
  - apply (@py_nesta_synthesis_undefined ER f1 f2 f1_len f2_len _ _ 3 3 (fin bv) [0; 4]%Z); [apply call_ok; [done|simpl; lia|by right]|apply acc; lra|apply grants_env0|reflexivity| |];
      cbn [args nk_alpha_v nk_alpha_h kw]; rewrite zero_ER, zero_RN; cbn [ltb_ ER er_ltb]; unfold Rltb; (destruct (Rlt_dec _ _); [lra|reflexivity]).
Qed.
(** A failure that is no error: in synthesis mode with weights, or when the solver gets no memory, the caller receives
    an image of zeros and no exception *)
Theorem py_nesta_failure_raises_refuted : exists (p : @pst ER) k a p', @nesta_py_call ER p k 3 3 (fin bv) [0; 4]%Z /\ kw (nk_bp_mode k) analysis = synthesis /\
  @py_nesta ER f1 f2 (Some k) p = POk (Some (a + 1)%nat) p' /\ ps_exc p' = None /\
  ps_o p' !! (a + 1)%nat = Some (1%nat, @PyTuple ER [@VRef ER a; @VInt ER L1C_INVALID_ARGUMENT]) /\ dm (ps_c p') !! a = Some (Some <$> @const_of ER 9 (@zero ER)).
Proof.
  assert (HC : @nesta_py_call ER (user (@env0 ER) bv [0; 4]%Z) (args 1 1 synthesis) 3 3 (fin bv) [0; 4]%Z) by (apply call_ok; [done|simpl; lia|by right]).
  destruct (@py_nesta_synthesis_weights ER f1 f2 f1_len f2_len _ _ _ _ _ _ HC) as (r & p' & E & HR); [apply acc; lra|apply w27|apply grants_env0|reflexivity| |].
  { left. cbn [args nk_alpha_v kw]. rewrite zero_ER, zero_RN. cbn [ltb_ ER er_ltb]. unfold Rltb. destruct (Rlt_dec _ _); [reflexivity|lra]. }
  destruct HR as [(G & _)|[(_ & G & _)|(_ & _ & -> & Ex & Eo & Ed & _)]]; [discriminate G|discriminate G|].
  eexists _, _, _, p'. split; [exact HC|]. split; [reflexivity|]. split; [exact E|]. split; [exact Ex|]. split; [rewrite Eo; apply lookup_insert|exact Ed].
Qed.
Example nesta_starved : exists a p', @py_nesta ER f1 f2 (Some (args 1 1 analysis)) (user (without 15) bv [0; 4]%Z) = POk (Some (a + 1)%nat) p' /\ ps_exc p' = None /\
  ps_o p' !! (a + 1)%nat = Some (1%nat, @PyTuple ER [@VRef ER a; @VInt ER L1C_OUT_OF_MEMORY]) \/
  (a <= 15)%nat /\ @py_nesta ER f1 f2 (Some (args 1 1 analysis)) (user (without 15) bv [0; 4]%Z) = POk None p'.
Proof.
  assert (HC : @nesta_py_call ER (user (without 15) bv [0; 4]%Z) (args 1 1 analysis) 3 3 (fin bv) [0; 4]%Z) by (apply call_ok; [done|simpl; lia|by left]).
  destruct (@py_nesta_solver_memory ER f1 f2 f1_len f2_len _ _ _ _ _ _ HC) as (a & r & p' & Ha & E & HR); [apply acc; lra|apply w27|apply grants_without; rewrite base3; lia|by left|exists 12%nat; split; [lia|reflexivity]|].
  assert (GA : forall j, @alloc_ok ER (en (ps_c (user (without 15) bv [0; 4]%Z))) j = false -> j = 15%nat) by (intros j Hj; change (negb (Nat.eqb 15 j) = false) in Hj; apply negb_false_iff, Nat.eqb_eq in Hj; lia).
  destruct HR as [(G & -> & _)|[(_ & G & -> & _)|(_ & _ & -> & Ex & Eo & Ed & _)]].
  - exists a, p'. right. split; [apply GA in G; lia|exact E].
  - exists a, p'. right. split; [apply GA in G; lia|exact E].
  - exists a, p'. left. split; [exact E|]. split; [exact Ex|]. rewrite Eo. apply lookup_insert.
Qed.
(** Every successful call loses memory: the image, and the six blocks of the transforms *)
Theorem py_nesta_releases_memory_refuted : exists (p : @pst ER) k bs zs r p' p'' a, nesta_py_sensible p k 3 3 bs zs 1 1 (/ 10) /\
  @py_nesta ER f1 f2 (Some k) p = POk (Some r) p' /\ decref r p' = POk tt p'' /\ ps_o p !! a = None /\ (exists o, ps_o p'' !! a = Some (1%nat, o)) /\
  Forall (fun b => dm (ps_c p) !! b = None /\ is_Some (dm (ps_c p'') !! b)) [a; 5; 6; 7; 8]%nat /\ Forall (fun b => om (ps_c p) !! b = None /\ is_Some (om (ps_c p'') !! b)) [9; 10]%nat.
Proof.
  destruct nesta_works as (img & a & p' & Ha & E & _ & _ & HR & _).
  destruct (@py_nesta_result_never_released ER (user (@env0 ER) bv [0; 4]%Z) 3 a 3 3 (fin img) 0 (a + 1) p') as (p'' & ED & Eo & Edm & (_ & _ & _ & _ & H1 & H2)).
  { apply (@PyL1qcEx.user_fresh ER). } { change (2 <= 3)%nat. lia. } { lia. } { exact HR. }
  exists (user (@env0 ER) bv [0; 4]%Z), (args 1 1 analysis), bv, [0; 4]%Z, (a + 1)%nat, p', p'', a. split; [apply sensible|]. split; [exact E|]. split; [exact ED|]. split; [|split; [|split]].
  - apply (proj2 (@PyL1qcEx.user_fresh ER (@env0 ER) (fin bv) [0; 4]%Z)). change (2 <= a)%nat. lia.
  - rewrite Eo, lookup_insert. eauto.
  - apply Forall_forall. exact H1.
  - apply Forall_forall. exact H2.
Qed.
End PyNestaEx.

Print Assumptions py_nesta_bad_arguments.
Print Assumptions py_nesta_bad_mode.
Print Assumptions py_nesta_rejects.
Print Assumptions py_nesta_no_memory.
Print Assumptions py_nesta_transforms_reject.
Print Assumptions py_nesta_coefficients_overflow.
Print Assumptions py_nesta_no_work_array.
Print Assumptions py_nesta_synthesis_weights.
Print Assumptions py_nesta_synthesis_undefined.
Print Assumptions py_nesta_solver_memory.
Print Assumptions py_nesta_result_never_released.
Print Assumptions py_nesta_outcome.
Print Assumptions PyNestaEx.py_nesta_failure_raises_refuted.
Print Assumptions PyNestaEx.py_nesta_releases_memory_refuted.
