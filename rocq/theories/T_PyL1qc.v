(** * C78: l1qc_dct from Python (interfaces/python/l1cPy.c). *)
From Coq Require Import ZArith Lia Reals Lra.
From stdpp Require Import base numbers gmap list strings.
From Flocq Require Import Core.Core.
From Verif Require Import Globals Mem M_Math M_Memory M_Status M_CG M_LineSearch M_FFTW M_Dct1 M_Dct2 M_Dct M_TVt M_Newton M_L1qcDct M_Bregman M_Nesta M_MexUtils M_Mex
  P_Mem P_Loop S_Mem P_Memory P_Own P_CG P_Newton P_Newt2 P_Newt3 P_Newt5 P_Newt7 P_FFTW P_Dct1s P_Dct2s P_TVR L_ER S_Dct L_Cos P_DctR S_Xform S_DctApi P_Dct P_DctA E_Dct S_L1qcDct P_L1qcDct T_Dct T_DctLife
  L_Sum S_Vec L_Lin P_NewtX P_NewtX2 P_NewtX3 P_NewtR P_Newt8 T_Newton P_DctE S_Newt T_L1qcDct T_TVt M_Py S_Py P_Py P_Py2 P_Py3.
Local Open Scope Z_scope.

Section C78.
Context `{N : Num}.
Context (fft1 : fkind -> list T -> list T) (fft2 : fkind -> nat -> nat -> list T -> list T).
Hypothesis fft1_len : forall k xs, length (fft1 k xs) = length xs.
Hypothesis fft2_len : forall k nr nc xs, length xs = (nr * nc)%nat -> length (fft2 k nr nc xs) = (nr * nc)%nat.
Implicit Types (p q : pst).
Notation py := (py_l1qc_dct fft1 fft2).
Notation solver p k x ms b off mb mo := (l1qc_dct fft1 fft2 (lk_mrow k) (lk_mcol k) (Ptr x 0) (Z.of_nat (length ms)) (Ptr b off) (Ptr mb mo) (py_l1qc_opts k) (given p k)).

(** ** What it rejects *)
Theorem py_l1qc_bad_arguments p : py None p = POk None (set_exc ETypeError p).
Proof. done. Qed.
Theorem py_l1qc_bad_mode p k : kw (lk_dct_mode k) dct1 <> dct1 -> kw (lk_dct_mode k) dct1 <> dct2 -> py (Some k) p = POk None (set_exc EValueError p).
Proof.
  intros H1 H2. unfold py_l1qc_dct, is_dctmode_valid. cbn [lo_dct_mode py_l1qc_opts]. rewrite (proj2 (Z.eqb_neq _ _) H1), (proj2 (Z.eqb_neq _ _) H2). done.
Qed.
Lemma mode_ok k p : kw (lk_dct_mode k) dct1 = dct1 \/ kw (lk_dct_mode k) dct1 = dct2 -> is_dctmode_valid (lo_dct_mode (py_l1qc_opts k)) p = POk true p.
Proof. intros [H|H]; unfold is_dctmode_valid; cbn [lo_dct_mode py_l1qc_opts]; rewrite H; done. Qed.

(** an error before x_ours is allocated releases both references *)
Lemma fail_early p h1 h2 q dims1 dims2 xs zs b off mb mo e : held p h1 h2 q dims1 dims2 xs zs b off mb mo -> fresh_py p ->
  exists p', (decref (key h1) ;@ decref (key h2) ;@ cc (l1c_free_double Null) ;@ pret (None (A := nat))) (set_exc e q) = POk None p' /\ ps_exc p' = Some e /\ same_py p p'.
Proof.
  intros H F. rewrite (drop_both _ _ _ _ _ _ _ _ _ _ _ _ H) by done. eexists. split; [reflexivity|]. split; [done|]. split; [apply (back_o _ _ _ _ _ _ _ _ _ _ _ _ H F)|].
  split; [apply (back_dm _ _ _ _ _ _ _ _ _ _ _ _ H F)|]. split; [apply (held_om _ _ _ _ _ _ _ _ _ _ _ _ H)|]. split; [apply (held_pm _ _ _ _ _ _ _ _ _ _ _ _ H)|apply (back_im _ _ _ _ _ _ _ _ _ _ _ _ H F)].
Qed.
(** memory for both conversions *)
Definition can_convert p : Prop := alloc_ok (en (ps_c p)) (nx (ps_c p)) = true /\ alloc_ok (en (ps_c p)) (nx (ps_c p) + 1) = true.
(** the arrays do not fit the image; nothing changes *)
Theorem py_l1qc_rejects p k dims1 dims2 xs zs : fresh_py p -> can_convert p -> kw (lk_dct_mode k) dct1 = dct1 \/ kw (lk_dct_mode k) dct1 = dct2 ->
  holds_d p (lk_b k) dims1 xs -> holds_i p (lk_pix k) dims2 zs ->
  (length dims1 <> 1%nat \/ length dims2 <> 1%nat -> exists p', py (Some k) p = POk None p' /\ ps_exc p' = Some EIndexError /\ same_py p p') /\
  (forall n n', dims1 = [n] -> dims2 = [n'] -> ~ INT_MIN <= lk_mrow k * lk_mcol k <= INT_MAX -> py (Some k) p = PUb UbOverflow) /\
  (forall n n', dims1 = [n] -> dims2 = [n'] -> INT_MIN <= lk_mrow k * lk_mcol k <= INT_MAX -> 0 <= n <= INT_MAX -> 0 <= n' <= INT_MAX -> lk_mrow k * lk_mcol k < n \/ n <> n' ->
     exists p', py (Some k) p = POk None p' /\ ps_exc p' = Some EValueError /\ same_py p p').
Proof.
  intros F [C0 C1] Hmode Hb Hi. unfold py_l1qc_dct. rewrite (pbind_ok _ _ _ _ _ (mode_ok k p Hmode)). cbn [negb].
  destruct (take_both p (lk_b k) (lk_pix k) dims1 dims2 xs zs F Hb Hi) as [(r1 & r2 & p1 & p2 & c & _ & _ & _ & _ & _ & i & Hi1 & Ei)|(h1 & h2 & p1 & q & b & off & mb & mo & E1 & E2 & HH & _)].
  { exfalso. destruct i as [|[|i]]; [rewrite Nat.add_0_r in Ei; congruence|congruence|lia]. }
  rewrite (pbind_ok _ _ _ _ _ E1), (pbind_ok _ _ _ _ _ E2). cbn [xdecref]. cbv zeta.
  rewrite (pbind_ok _ _ _ _ _ (hd_o1 _ _ _ _ _ _ _ _ _ _ _ _ HH)), (pbind_ok _ _ _ _ _ (hd_o2 _ _ _ _ _ _ _ _ _ _ _ _ HH)).
  assert (HX : forall e, exists p', (raise_ e ;@ decref (key h1) ;@ decref (key h2) ;@ cc (l1c_free_double Null) ;@ pret (None (A := nat))) q = POk None p' /\ ps_exc p' = Some e /\ same_py p p').
  { intros e. rewrite (pbind_ok _ _ _ tt (set_exc e q)) by done. by apply (fail_early _ _ _ _ _ _ _ _ _ _ _ _ e HH). }
  split; [|split].
  - intros Hd. destruct dims1 as [|n [|]]; [apply HX| |apply HX]. destruct dims2 as [|n' [|]]; [apply HX| |apply HX]. simpl in Hd. lia.
  - intros n n' -> -> Hov. apply pbind_ccub. unfold i32.
    destruct (in_int (lk_mrow k * lk_mcol k)) eqn:Ei; [|done]. exfalso. apply Hov. unfold in_int in Ei. apply andb_prop in Ei as [Ea Eb]. apply Z.leb_le in Ea. apply Z.leb_le in Eb. lia.
  - intros n n' -> -> Hf Hn Hn' Hbad. rewrite (pbind_cc _ _ q _ _ (i32_ok _ _ Hf)).
    rewrite !int_of_size_id by (unfold INT_MIN; lia).
    replace ((lk_mrow k * lk_mcol k <? n) || negb (n =? n')) with true; [|symmetry; destruct Hbad as [Hlt|Hne]; [by rewrite (proj2 (Z.ltb_lt _ _) Hlt)|rewrite (proj2 (Z.eqb_neq _ _) Hne); by rewrite orb_true_r]].
    replace (set_c (ps_c q) q) with q by (by destruct q). apply HX.
Qed.

(** ** The call of the solver *)
Lemma py_begin p k nr nc zs bs : fresh_py p -> lk_mrow k = Z.of_nat nr -> lk_mcol k = Z.of_nat nc -> Z.of_nat (nr * nc) <= INT_MAX ->
  holds_d p (lk_b k) [Z.of_nat (length bs)] bs -> holds_i p (lk_pix k) [Z.of_nat (length zs)] zs -> length bs = length zs -> (1 <= length zs <= nr * nc)%nat ->
  kw (lk_dct_mode k) dct1 = dct1 \/ kw (lk_dct_mode k) dct1 = dct2 ->
  (exists p', py (Some k) p = POk None p' /\ same_py p p' /\ (ps_exc p' = Some ERuntimeError \/ ps_exc p' = Some EMemoryError) /\ exists i, (i <= 2)%nat /\ alloc_ok (en (ps_c p)) (nx (ps_c p) + i) = false) \/
  (exists h1 h2 q dims1 dims2 b off mb mo, held p h1 h2 q dims1 dims2 bs zs b off mb mo /\ with_x q (nr * nc) (given p k) /\
     unborn (given p k) /\ ints (given p k) (Ptr mb mo) zs /\ dm (given p k) !! mb = None /\ (mb < nx (given p k))%nat /\ seg (given p k) (Ptr b off) bs /\
     wok (given p k) (Ptr (nx (ps_c q)) 0) (nr * nc) /\ is_aligned (given p k) (Ptr (nx (ps_c q)) 0) = true /\
     py (Some k) p = l1qc_tail fft1 fft2 (Z.of_nat nr) (Z.of_nat nc) (py_l1qc_opts k) (Ptr (nx (ps_c q)) 0) (Z.of_nat (length zs)) (Ptr b off) (Ptr mb mo) (key h1) (key h2) (set_c (given p k) q)).
Proof.
  intros F Emr Emc Hf Hb Hi HL Hn Hmode. unfold py_l1qc_dct. rewrite (pbind_ok _ _ _ _ _ (mode_ok k p Hmode)). cbn [negb].
  destruct (take_both p _ _ _ _ _ _ F Hb Hi) as [(r1 & r2 & p1 & p2 & c & E1 & E2 & Hor & E3 & Hs & i & Hi1 & Ei)|(h1 & h2 & p1 & q & b & off & mb & mo & E1 & E2 & HH & Hq2)].
  - left. rewrite (pbind_ok _ _ _ _ _ E1), (pbind_ok _ _ _ _ _ E2). cbv zeta.
    assert (EX : (raise_ ERuntimeError ;@ xdecref r1 ;@ xdecref r2 ;@ cc (l1c_free_double Null) ;@ pret (None (A := nat))) p2 = POk None (mkPst c (ps_o p) (Some ERuntimeError) (ps_env p))).
    { rewrite (pbind_ok _ _ _ tt (set_exc ERuntimeError p2)) by done. rewrite <- pbind_assoc, (pbind_ok _ _ _ _ _ (E3 ERuntimeError)). done. }
    exists (mkPst c (ps_o p) (Some ERuntimeError) (ps_env p)). split.
    { destruct r1, r2; try exact EX. destruct Hor; done. }
    split; [split; done|]. split; [by left|]. exists i. split; [lia|done].
  - rewrite (pbind_ok _ _ _ _ _ E1), (pbind_ok _ _ _ _ _ E2). cbn [xdecref]. cbv zeta.
    rewrite (pbind_ok _ _ _ _ _ (hd_o1 _ _ _ _ _ _ _ _ _ _ _ _ HH)), (pbind_ok _ _ _ _ _ (hd_o2 _ _ _ _ _ _ _ _ _ _ _ _ HH)). cbv iota.
    assert (Hm : lk_mrow k * lk_mcol k = Z.of_nat (nr * nc)) by (rewrite Emr, Emc; lia).
    assert (Eg : given p k = match cc (l1c_calloc_double (lk_mrow k * lk_mcol k)) q with POk _ q' => ps_c q' | PUb _ => ps_c p end).
    { unfold given. rewrite (pbind_ok _ _ _ _ _ E1), (pbind_ok _ _ _ _ _ E2). done. }
    rewrite Hm in *. rewrite (pbind_cc _ _ q _ _ (i32_ok (Z.of_nat (nr * nc)) (ps_c q) ltac:(unfold INT_MIN; lia))).
    replace (set_c (ps_c q) q) with q by (by destruct q).
    rewrite !int_of_size_id by (unfold INT_MIN; lia). rewrite HL, Z.eqb_refl, (proj2 (Z.ltb_ge _ _)) by lia. cbn [negb orb].
    pose proof (hd_fresh _ _ _ _ _ _ _ _ _ _ _ _ HH) as Fq.
    destruct (calloc_run (ps_c q) (Z.of_nat (nr * nc)) (proj1 Fq)) as [(s3 & EC & _ & Ea & (R1 & R2 & R3 & R4 & R5 & R6) & N3 & P3 & A3 & D3)|(EC & [Hneg|Ea])]; [right|lia|left].
    + assert (Eg3 : given p k = s3) by (rewrite Eg; unfold cc; by rewrite EC). rewrite Eg3. clear Eg.
      assert (W3 : with_x q (nr * nc) s3) by (split; try done; rewrite D3, Nat2Z.id; done).
      exists h1, h2, q, [Z.of_nat (length bs)], [Z.of_nat (length zs)], b, off, mb, mo. split; [done|]. split; [done|].
      pose proof (held_b _ _ _ _ _ _ _ _ _ _ _ _ HH ltac:(lia)) as Hbq. pose proof (hd_mb _ _ _ _ _ _ _ _ _ _ _ _ HH) as Hmb. split; [|split; [|split; [|split; [|split; [|split; [|split]]]]]].
      * intros b' Hb'. rewrite N3 in Hb'. rewrite D3, lookup_insert_ne by lia. rewrite R2, P3. apply (proj1 Fq). lia.
      * intros i j Hj. pose proof (hd_ints _ _ _ _ _ _ _ _ _ _ _ _ HH i j Hj) as Q. unfold ldi in *. rewrite R1.
        destruct (0 <=? mo + Z.of_nat i); [|done]. destruct (im (ps_c q) !! mb) as [lq|]; [|done]. destruct (lq !! Z.to_nat (mo + Z.of_nat i)); [|done]. by injection Q as ->.
      * rewrite D3, lookup_insert_ne by lia. apply (hd_kind _ _ _ _ _ _ _ _ _ _ _ _ HH).
      * lia.
      * intros i v Hv. pose proof (hd_seg _ _ _ _ _ _ _ _ _ _ _ _ HH i v Hv) as Q. unfold cell in *. rewrite D3, lookup_insert_ne by lia. done.
      * eapply wok_block; [rewrite D3; apply lookup_insert|]. by rewrite fmap_length, const_length, Nat2Z.id.
      * unfold is_aligned. by rewrite A3.
      * rewrite (pbind_cc _ _ q _ _ EC). cbn [is_null]. rewrite Emr, Emc. reflexivity.
    + assert (EX : exists p', (raise_ EMemoryError ;@ decref (key h1) ;@ decref (key h2) ;@ cc (l1c_free_double Null) ;@ pret (None (A := nat))) (set_c (tick (ps_c q)) q) = POk None p' /\ ps_exc p' = Some EMemoryError /\ same_py p p').
      { rewrite (pbind_ok _ _ _ tt (set_exc EMemoryError (set_c (tick (ps_c q)) q))) by done. rewrite (drop_both _ _ _ _ _ _ _ _ _ _ _ _ HH) by (split; done). eexists. split; [reflexivity|]. split; [done|]. split; [apply (back_o _ _ _ _ _ _ _ _ _ _ _ _ HH F)|].
        split; [apply (back_dm _ _ _ _ _ _ _ _ _ _ _ _ HH F)|]. split; [apply (held_om _ _ _ _ _ _ _ _ _ _ _ _ HH)|]. split; [apply (held_pm _ _ _ _ _ _ _ _ _ _ _ _ HH)|apply (back_im _ _ _ _ _ _ _ _ _ _ _ _ HH F)]. }
      destruct EX as (p' & EX & Ex & Sm). exists p'. split; [by rewrite (pbind_cc _ _ q _ _ EC)|]. split; [done|]. split; [by right|].
      pose proof (hd_nx _ _ _ _ _ _ _ _ _ _ _ _ HH). exists (nx (ps_c q) - nx (ps_c p))%nat. split; [lia|]. rewrite <- (hd_en _ _ _ _ _ _ _ _ _ _ _ _ HH). by replace (nx (ps_c p) + (nx (ps_c q) - nx (ps_c p)))%nat with (nx (ps_c q)) by lia.
Qed.
Lemma py_start p k nr nc ms bs : l1qc_py_call p k nr nc ms bs ->
  (exists p', py (Some k) p = POk None p' /\ same_py p p' /\ (ps_exc p' = Some ERuntimeError \/ ps_exc p' = Some EMemoryError) /\ exists i, (i <= 2)%nat /\ alloc_ok (en (ps_c p)) (nx (ps_c p) + i) = false) \/
  (exists h1 h2 q dims1 dims2 zs b off mb mo, held p h1 h2 q dims1 dims2 bs zs b off mb mo /\ with_x q (nr * nc) (given p k) /\
     dct_call (given p k) nr nc mb mo ms b off bs (nx (ps_c q)) 0 /\
     py (Some k) p = l1qc_tail fft1 fft2 (Z.of_nat nr) (Z.of_nat nc) (py_l1qc_opts k) (Ptr (nx (ps_c q)) 0) (Z.of_nat (length ms)) (Ptr b off) (Ptr mb mo) (key h1) (key h2) (set_c (given p k) q)).
Proof.
  intros [F Emr Emc Hr Hc Hf Hb Hi HL Hn Hin Hmode].
  destruct (py_begin p k nr nc (Z.of_nat <$> ms) bs F Emr Emc ltac:(lia) Hb ltac:(by rewrite fmap_length) ltac:(by rewrite fmap_length) ltac:(by rewrite fmap_length) Hmode) as [H|(h1 & h2 & q & dims1 & dims2 & b & off & mb & mo & HH & W & U & HI & HK & HB & HS & HW & HA & E)]; [by left|right].
  exists h1, h2, q, dims1, dims2, (Z.of_nat <$> ms), b, off, mb, mo. split; [done|]. split; [done|]. rewrite fmap_length in E. split; [|done].
  split; try done. intros i j Hj. apply HI. by rewrite list_lookup_fmap, Hj.
Qed.
(** every keyword reaches the option of the same name (or cg_tol, cg_maxiter for cgtol, cgmaxiter), with these defaults; the
    module sets neither tau nor lbiter, is never warm started and does not report on CG *)
Theorem py_l1qc_keywords p k nr nc ms bs : l1qc_py_call p k nr nc ms bs -> (forall i, (i <= 2)%nat -> alloc_ok (en (ps_c p)) (nx (ps_c p) + i) = true) ->
  exists o x b off mb mo q h1 h2, dct_call (given p k) nr nc mb mo ms b off bs x 0 /\
    py (Some k) p = l1qc_tail fft1 fft2 (Z.of_nat nr) (Z.of_nat nc) o (Ptr x 0) (Z.of_nat (length ms)) (Ptr b off) (Ptr mb mo) h1 h2 (set_c (given p k) q) /\
    lo_epsilon o = kw (lk_epsilon k) (lit 1 100) /\ lo_mu o = kw (lk_mu k) (lit 10 1) /\ lo_lbtol o = kw (lk_lbtol k) (lit 1 1000) /\
    lo_newton_tol o = kw (lk_newton_tol k) (lit 1 1000) /\ lo_newton_max_iter o = kw (lk_newton_max_iter k) 50 /\ lo_verbose o = kw (lk_verbose k) 0 /\
    lo_l1_tol o = kw (lk_l1_tol k) (lit 1 100000) /\ lo_cg_tol o = kw (lk_cgtol k) (lit 1 100000000) /\ lo_cg_maxiter o = kw (lk_cgmaxiter k) 200 /\
    lo_dct_mode o = kw (lk_dct_mode k) 1 /\ lo_tau o = zero /\ lo_lbiter o = 0 /\ lo_warm_start_cg o = 0 /\ lo_cg_verbose o = 0.
Proof.
  intros HC HG. destruct (py_start p k nr nc ms bs HC) as [(p' & _ & _ & _ & i & Hi & E)|(h1 & h2 & q & dims1 & dims2 & zs & b & off & mb & mo & _ & _ & DC & E)].
  - rewrite HG in E by done. discriminate E.
  - by exists (py_l1qc_opts k), (nx (ps_c q)), b, off, mb, mo, q, (key h1), (key h2).
Qed.
(** an index outside the image *)
Theorem py_l1qc_bad_index p k nr nc zs bs : fresh_py p -> lk_mrow k = Z.of_nat nr -> lk_mcol k = Z.of_nat nc -> (1 <= nr)%nat -> (1 <= nc)%nat -> Z.of_nat (nr * nc) <= INT_MAX ->
  holds_d p (lk_b k) [Z.of_nat (length bs)] bs -> holds_i p (lk_pix k) [Z.of_nat (length zs)] zs -> length bs = length zs -> (1 <= length zs <= nr * nc)%nat ->
  kw (lk_dct_mode k) dct1 = dct1 \/ kw (lk_dct_mode k) dct1 = dct2 -> (exists z, z ∈ zs /\ ~ (0 <= z < Z.of_nat (nr * nc))) ->
  exists p', py (Some k) p = POk None p' /\ same_py p p' /\ (ps_exc p' = Some ERuntimeError \/ ps_exc p' = Some EMemoryError /\ exists i, (i <= 2)%nat /\ alloc_ok (en (ps_c p)) (nx (ps_c p) + i) = false).
Proof.
  intros F Emr Emc Hr Hc Hf Hb Hi HL Hn Hmode Hz.
  destruct (py_begin p k nr nc zs bs F Emr Emc Hf Hb Hi HL Hn Hmode) as [(p' & E & Sm & Ex & Hr')|(h1 & h2 & q & dims1 & dims2 & b & off & mb & mo & HH & W & U & HI & HK & HB & HS & HW & HA & E)].
  - exists p'. split; [done|]. split; [done|]. destruct Ex as [Ex|Ex]; [by left|by right].
  - pose proof (l1qc_dct_rejects_index fft1 fft2 (given p k) (Z.of_nat nr) (Z.of_nat nc) (Ptr (nx (ps_c q)) 0) (Ptr b off) (Ptr mb mo) (py_l1qc_opts k) zs U ltac:(lia) ltac:(lia) ltac:(lia) HI ltac:(by rewrite <- Nat2Z.inj_mul)) as ES.
    destruct (tail_fail fft1 fft2 p h1 h2 q _ _ _ _ _ _ _ _ HH F (nr * nc) _ _ _ _ _ _ _ _ _ _ W ltac:(split; done) ES ltac:(done)) as (p1 & E1 & Ex & K & Sm).
    exists p1. split; [by rewrite E|]. split; [apply Sm; by split|by left].
Qed.

Lemma fM_len s nr nc one xs : length (fM fft1 fft2 s nr nc one xs) = (nr * nc)%nat.
Proof. unfold fM. destruct one; apply tab_length. Qed.
(** no int counter of the solver overflows *)
Definition py_counters_fit p k nr nc ms bs : Prop := counters_fit fft1 fft2 (given p k) nr nc (py_l1qc_opts k) ms bs.
(** the solver, called correctly, returned success, the image img and the statistics l *)
Definition solver_gives p k nr nc ms bs (img : list T) (l : LBResult) : Prop := exists x b off mb mo s4,
  dct_call (given p k) nr nc mb mo ms b off bs x 0 /\ solver p k x ms b off mb mo = Ok (0, Some l) s4 /\ seg s4 (Ptr x 0) img /\ length img = (nr * nc)%nat /\ lb_status l = 0.

(** ** Whenever the call returns, it is one of three:
    - NULL with an exception.  All objects have the reference counts they had, the caller's memory is as it was.
      Unless the set-up of the transforms was refused memory, there is no new memory in use.
    - NULL because there is no memory for the tuple: the image and the dict are never released.
    - a tuple of the nr x nc image, row after row, and the statistics. *)
Theorem py_l1qc_outcome p k nr nc ms bs r p' : l1qc_py_call p k nr nc ms bs -> py_counters_fit p k nr nc ms bs -> py (Some k) p = POk r p' ->
  (r = None /\ (ps_exc p' = Some ERuntimeError \/ ps_exc p' = Some EMemoryError) /\ kept_py p p' /\ (grants (given p k) 5 -> same_py p p')) \/
  exists img l a d t, solver_gives p k nr nc ms bs img l /\ NoDup [a; d; t] /\ Forall (fun j => nx (ps_c p) < j)%nat [a; d; t] /\
   ((r = None /\ ps_exc p' = Some EMemoryError /\ adds p img (made p nr nc img l 1 a d) a p') \/
    (r = Some t /\ ps_exc p' = ps_exc p /\ adds p img (<[t := (1%nat, PyTuple [VRef a; VRef d])]> (made p nr nc img l 2 a d)) a p')).
Proof.
  intros HC Hct E. pose proof HC as [F Emr Emc Hr Hc Hf Hb Hi HL Hn Hin Hmode].
  assert (SK : forall p1, same_py p p1 -> kept_py p p1) by (intros p1 (S1 & S2 & S3 & S4 & S5); split; [done|]; split; [done|]; intros b _; by rewrite S2).
  destruct (py_start p k nr nc ms bs HC) as [(p1 & E1 & Sm & Ex & _)|(h1 & h2 & q & dims1 & dims2 & zs & b & off & mb & mo & HH & W & DC & EP)].
  { rewrite E1 in E. injection E as <- <-. left. split; [done|]. split; [done|]. split; [by apply SK|done]. }
  rewrite EP in E.
  destruct (l1qc_dct fft1 fft2 (Z.of_nat nr) (Z.of_nat nc) (Ptr (nx (ps_c q)) 0) (Z.of_nat (length ms)) (Ptr b off) (Ptr mb mo) (py_l1qc_opts k) (given p k)) as [[st lb] s4|e] eqn:ES.
  2:{ exfalso. unfold l1qc_tail in E. cbv zeta in E. by rewrite (pbind_ccub _ _ (set_c (given p k) q) _ ES) in E. }
  destruct (decide (st = 0)) as [->|Hst].
  - destruct (grants_dec (given p k) 5) as [HG|HG].
    2:{ destruct (l1qc_dct_status fft1 fft2 fft1_len fft2_len _ _ _ _ _ _ _ _ _ _ _ _ _ _ _ DC Hct ES) as [_ Q]. by apply Q in HG. }
    pose proof (l1qc_dct_grown fft1 fft2 fft1_len fft2_len _ _ _ _ _ _ _ _ _ _ _ _ _ _ _ DC HG Hct ES) as HGr.
    destruct (l1qc_dct_outcome fft1 fft2 fft1_len fft2_len _ _ _ _ _ _ _ _ _ _ _ _ _ _ _ DC HG Hct ES) as [(Q & _)|[(l & _ & _ & [Q|Q] & _)|(_ & l & eta & -> & Hls & Leta & Hl1 & HS)]]; [done|done|done|].
    set (img := fM _ _ _ _ _ _ _) in HS.
    assert (Limg : length img = (nr * nc)%nat) by (by apply fM_len).
    assert (Sg : seg s4 (Ptr (nx (ps_c q)) 0) img).
    { assert (Q : seg (wr (Ptr (nx (ps_c q)) 0) img (given p k)) (Ptr (nx (ps_c q)) 0) img) by (apply seg_wr; rewrite Limg; apply DC).
      intros i v Hi'. unfold cell. rewrite (proj1 HS). by apply Q. }
    destruct (tail_ok fft1 fft2 p h1 h2 q _ _ _ _ _ _ _ _ HH F nr nc (py_l1qc_opts k) _ _ _ _ l s4 img W Limg ltac:(nia) ltac:(lia) ES HS HGr) as (r' & p1 & E1 & Hlt & HO).
    pose proof (eq_trans (eq_sym E1) E) as Q. injection Q as -> ->.
    assert (GV : solver_gives p k nr nc ms bs img l).
    { exists (nx (ps_c q)), b, off, mb, mo, s4. rewrite Emr, Emc. done. }
    destruct HO as [(-> & Ex & Sm & _)|[(-> & Ex & Ad & _)|(-> & Ex & Ad)]].
    + left. split; [done|]. split; [by right|]. split; [by apply SK|done].
    + right. exists img, l, (nx s4), (nx s4 + 1)%nat, (nx s4 + 2)%nat. split; [done|]. split; [|split].
      * repeat constructor; rewrite ?elem_of_cons, elem_of_nil; lia.
      * repeat constructor; lia.
      * left. done.
    + right. exists img, l, (nx s4), (nx s4 + 1)%nat, (nx s4 + 2)%nat. split; [done|]. split; [|split].
      * repeat constructor; rewrite ?elem_of_cons, elem_of_nil; lia.
      * repeat constructor; lia.
      * right. done.
  - pose proof (l1qc_dct_error_keeps_output fft1 fft2 fft1_len fft2_len _ _ _ _ _ _ _ _ _ _ _ _ _ _ _ DC Hct ES Hst) as KP.
    destruct (tail_fail fft1 fft2 p h1 h2 q _ _ _ _ _ _ _ _ HH F (nr * nc) _ _ _ _ _ _ _ _ _ _ W KP ES Hst) as (p1 & E1 & Ex & K & Sm).
    pose proof (eq_trans (eq_sym E1) E) as Q. injection Q as <- <-. left. split; [done|]. split; [by left|]. split; [done|].
    intros HG. apply Sm. destruct (l1qc_dct_outcome fft1 fft2 fft1_len fft2_len _ _ _ _ _ _ _ _ _ _ _ _ _ _ _ DC HG Hct ES) as [(_ & _ & Q)|[(l & _ & _ & _ & Q)|(Q & _)]]; [exact Q|exact Q|congruence].
Qed.

(** With memory for everything outside the solver: the result of the solver is the result of the call. *)
Lemma py_l1qc_returns p k nr nc ms bs : l1qc_py_call p k nr nc ms bs -> (forall i, alloc_ok (en (ps_c p)) i = true) ->
  exists h1 h2 q b off mb mo, dct_call (given p k) nr nc mb mo ms b off bs (nx (ps_c q)) 0 /\ en (given p k) = en (ps_c p) /\
    py (Some k) p = l1qc_tail fft1 fft2 (Z.of_nat nr) (Z.of_nat nc) (py_l1qc_opts k) (Ptr (nx (ps_c q)) 0) (Z.of_nat (length ms)) (Ptr b off) (Ptr mb mo) (key h1) (key h2) (set_c (given p k) q) /\
    (forall st lb s4, solver p k (nx (ps_c q)) ms b off mb mo = Ok (st, lb) s4 -> st <> 0 -> kept (given p k) s4 -> 
       exists p', py (Some k) p = POk None p' /\ ps_exc p' = Some ERuntimeError /\ kept_py p p' /\ (same_heap (given p k) s4 -> same_py p p')) /\
    (forall l s4 img, solver p k (nx (ps_c q)) ms b off mb mo = Ok (0, Some l) s4 -> length img = (nr * nc)%nat -> same_heap (wr (Ptr (nx (ps_c q)) 0) img (given p k)) s4 -> grown (given p k) s4 ->
       exists p', let a := nx s4 in py (Some k) p = POk (Some (a + 2)%nat) p' /\ ps_exc p' = ps_exc p /\ (nx (ps_c p) < a)%nat /\
         adds p img (<[(a + 2)%nat := (1%nat, PyTuple [VRef a; VRef (a + 1)])]> (made p nr nc img l 2 a (a + 1))) a p').
Proof.
  intros HC HG. pose proof HC as [F Emr Emc Hr Hc Hf Hb Hi HL Hn Hin Hmode].
  destruct (py_start p k nr nc ms bs HC) as [(p1 & _ & _ & _ & i & _ & Q)|(h1 & h2 & q & dims1 & dims2 & zs & b & off & mb & mo & HH & W & DC & EP)]; [by rewrite HG in Q|].
  exists h1, h2, q, b, off, mb, mo. split; [done|]. split; [by rewrite (wx_en _ _ _ W), (hd_en _ _ _ _ _ _ _ _ _ _ _ _ HH)|]. split; [done|]. rewrite EP, Emr, Emc. split.
  - intros st lb s4 ES Hst KP. apply (tail_fail fft1 fft2 p h1 h2 q _ _ _ _ _ _ _ _ HH F (nr * nc) _ _ _ _ _ _ _ _ _ _ W KP ES Hst).
  - intros l s4 img ES Li HS HGr.
    destruct (tail_ok fft1 fft2 p h1 h2 q _ _ _ _ _ _ _ _ HH F nr nc (py_l1qc_opts k) _ _ _ _ l s4 img W Li ltac:(nia) ltac:(lia) ES HS HGr) as (r' & p1 & E1 & Hlt & HO).
    destruct HO as [(_ & _ & _ & i & _ & Q)|[(_ & _ & _ & Q)|(-> & Ex & Ad)]]; [by rewrite HG in Q|by rewrite HG in Q|].
    exists p1. cbv zeta. done.
Qed.

(** ** Every result is leaked: when the caller drops the tuple, the image and the dict stay, although nothing
    refers to them any more *)
Theorem py_l1qc_result_never_released p k nr nc ms bs t p' : l1qc_py_call p k nr nc ms bs -> py_counters_fit p k nr nc ms bs -> py (Some k) p = POk (Some t) p' ->
  exists a d img l p'', decref t p' = POk tt p'' /\ ps_o p'' = made p nr nc img l 1 a d /\ dm (ps_c p'') = <[a := Some <$> img]> (dm (ps_c p)) /\
    a <> d /\ ps_o p !! a = None /\ ps_o p !! d = None /\ dm (ps_c p) !! a = None /\ length img = (nr * nc)%nat.
Proof.
  intros HC Hct E. pose proof (pl_fresh _ _ _ _ _ _ HC) as F.
  destruct (py_l1qc_outcome _ _ _ _ _ _ _ _ HC Hct E) as [(Q & _)|(img & l & a & d & t' & G & HN & HF & [(Q & _)|(Q & _ & [Ao Ad _ _ _ _])])]; [done|done|]. injection Q as <-.
  apply NoDup_cons in HN as [Na HN]. apply NoDup_cons in HN as [Nd _]. rewrite !elem_of_cons in Na. rewrite !elem_of_cons in Nd.
  apply Forall_cons in HF as [Fa HF]. apply Forall_cons in HF as [Fd HF]. apply Forall_cons in HF as [Ft _].
  destruct G as (x & b & off & mb & mo & s4 & _ & _ & _ & Limg & _).
  exists a, d, img, l. eexists. split.
  { unfold decref. rewrite Ao, lookup_insert. cbn [decref_items]. unfold made.
    assert (Na1 : a <> d) by (intros Q; apply Na; tauto). assert (Na2 : a <> t) by (intros Q; apply Na; tauto). assert (Nd2 : d <> t) by (intros Q; apply Nd; tauto).
    erewrite pbind_ok.
    2:{ unfold decref1. cbn [ps_o set_o]. rewrite delete_insert; [|rewrite !lookup_insert_ne by done; apply F; lia]. rewrite lookup_insert_ne by done. rewrite lookup_insert. reflexivity. }
    erewrite pbind_ok.
    2:{ unfold decref1. cbn [ps_o set_o]. rewrite lookup_insert_ne by done. rewrite lookup_insert. reflexivity. }
    reflexivity. }
  assert (Na1 : a <> d) by (intros Q; apply Na; tauto). split; [|split; [exact Ad|]].
  - cbn. unfold made. apply map_eq. intros i. destruct (decide (i = a)) as [->|]; [|destruct (decide (i = d)) as [->|]]; repeat first [rewrite lookup_insert | rewrite lookup_insert_ne by done]; done.
  - split; [done|]. split; [apply F; lia|]. split; [apply F; lia|]. split; [apply F; lia|done].
Qed.
End C78.

(** ** What the Python user gets, in exact arithmetic *)
Section C78R.
Local Open Scope R_scope.
Context (fft1 : fkind -> list er -> list er) (fft2 : fkind -> nat -> nat -> list er -> list er).
Hypothesis fft1_len : forall k xs, length (fft1 k xs) = length xs.
Hypothesis fft2_len : forall k nr nc xs, length xs = (nr * nc)%nat -> length (fft2 k nr nc xs) = (nr * nc)%nat.
Hypothesis fft1_exact : forall k (x : list R), fft1 k (fin x) = fin (dft1 k x).
Hypothesis fft2_exact : forall k nr nc (x : list R), length x = (nr * nc)%nat -> fft2 k nr nc (fin x) = fin (dft2 k nr nc x).
Notation py := (@py_l1qc_dct ER fft1 fft2).
Notation opts k := (@py_l1qc_opts ER k).
(** the number of barrier stages is stages *)
Definition py_starts (p : @pst ER) (k : @l1qc_kw ER) nr nc ms (bv : list R) tau stages : Prop :=
  @starts ER (nr * nc) (@start ER fft1 fft2 (@given ER p k) nr nc (opts k) ms (fin bv)) (opts k) tau stages /\ @counts_fit ER (opts k) stages.
(** With all memory and eps >= 0 the result is a tuple of an image that reproduces the measurements up to eps,
    and of the statistics with the l1 norm of its DCT.  The caller's objects are as before. *)
Theorem py_l1qc_reproduces_measurements (p : @pst ER) (k : @l1qc_kw ER) nr nc ms (bv : list R) (e : R) tau stages :
  @l1qc_py_call ER p k nr nc ms (fin bv) -> (forall i, alloc_ok (en (ps_c p)) i = true) -> NoDup ms -> planner_finite (@given ER p k) ->
  kw (lk_epsilon k) (@lit ER 1 100) = Fin e -> 0 <= e -> py_starts p k nr nc ms bv tau stages ->
  exists t p' a d img l, py (Some k) p = POk (Some t) p' /\ ps_exc p' = ps_exc p /\ ps_o p' !! t = Some (1%nat, PyTuple [VRef a; VRef d]) /\
    ps_o p' !! a = Some (2%nat, @NdDouble ER [Z.of_nat nr; Z.of_nat nc] (Ptr a 0)) /\ @seg ER (ps_c p') (Ptr a 0) (fin img) /\ length img = (nr * nc)%nat /\
    ps_o p' !! d = Some (2%nat, @PyDict ER (@info ER l)) /\
    nrm2 (resid (sample ms) bv img) <= e /\ (0 < e -> nrm2 (resid (sample ms) bv img) < e) /\
    lb_l1 l = Fin (nrm1 (xf_fwd (Z.of_nat nr) (Z.of_nat nc) (kw (lk_dct_mode k) dct1) img)) /\
    (forall i, (i < nx (ps_c p))%nat -> ps_o p' !! i = ps_o p !! i /\ dm (ps_c p') !! i = dm (ps_c p) !! i) /\ im (ps_c p') = im (ps_c p).
Proof.
  intros HC HG ND HP He He0 [Hs Hct]. pose proof (pl_mrow _ _ _ _ _ _ HC) as Emr. pose proof (pl_mcol _ _ _ _ _ _ HC) as Emc.
  destruct (@py_l1qc_returns ER fft1 fft2 p k nr nc ms (fin bv) HC HG) as (h1 & h2 & q & b & off & mb & mo & DC & Een & _ & _ & HR). rewrite Emr, Emc in HR.
  assert (HG' : forall i, alloc_ok (en (@given ER p k)) i = true) by (intros i; rewrite Een; apply HG).
  destruct (l1qc_dct_reproduces_measurements fft1 fft2 fft1_len fft2_len fft1_exact fft2_exact (@given ER p k) nr nc mb mo ms b off bv (nx (ps_c q)) 0%Z (opts k) e tau stages DC HG' ND HP He He0 Hs Hct) as (l & s4 & img & ES & Li & HS & F1 & F2 & F3).
  assert (Hct' : @counters_fit ER fft1 fft2 (@given ER p k) nr nc (opts k) ms (fin bv)).
  { intros tau' stages' Hs'. unfold starts in Hs, Hs'. pose proof (eq_trans (eq_sym Hs) Hs') as Q. by injection Q as _ <-. }
  pose proof (@l1qc_dct_grown ER fft1 fft2 fft1_len fft2_len _ _ _ _ _ _ _ _ _ _ _ _ _ _ _ DC ltac:(intros i _; apply HG') Hct' ES) as HGr.
  destruct (HR l s4 (fin img) ES ltac:(by rewrite fin_length) HS HGr) as (p' & E & Ex & Hlt & [Ao Ad Ai Ap Aom Aen]).
  set (a := nx s4) in *. exists (a + 2)%nat, p', a, (a + 1)%nat, img, l. split; [exact E|]. split; [done|].
  rewrite Ao. unfold made. split; [by rewrite lookup_insert|]. split; [rewrite !lookup_insert_ne by lia; by rewrite lookup_insert|].
  split. { intros i v Hi. unfold cell. replace (0 + Z.of_nat i)%Z with (Z.of_nat i) by lia. rewrite (proj2 (Z.leb_le 0 (Z.of_nat i))) by lia. rewrite Ad, lookup_insert, Nat2Z.id, list_lookup_fmap, Hi. done. }
  split; [done|]. split; [rewrite lookup_insert_ne by lia; by rewrite lookup_insert|]. split; [done|]. split; [done|]. split; [done|]. split; [|done].
  intros i Hi. rewrite Ad. rewrite !lookup_insert_ne by lia. done.
Qed.
(** a negative eps: RuntimeError, and nothing has changed *)
Theorem py_l1qc_negative_eps (p : @pst ER) (k : @l1qc_kw ER) nr nc ms (bv : list R) (e : R) tau stages :
  @l1qc_py_call ER p k nr nc ms (fin bv) -> (forall i, alloc_ok (en (ps_c p)) i = true) -> NoDup ms -> planner_finite (@given ER p k) ->
  kw (lk_epsilon k) (@lit ER 1 100) = Fin e -> e < 0 -> py_starts p k nr nc ms bv tau stages ->
  exists p', py (Some k) p = POk None p' /\ ps_exc p' = Some ERuntimeError /\ same_py p p'.
Proof.
  intros HC HG ND HP He He0 [Hs _]. pose proof (pl_mrow _ _ _ _ _ _ HC) as Emr. pose proof (pl_mcol _ _ _ _ _ _ HC) as Emc.
  destruct (@py_l1qc_returns ER fft1 fft2 p k nr nc ms (fin bv) HC HG) as (h1 & h2 & q & b & off & mb & mo & DC & Een & _ & HR & _). rewrite Emr, Emc in HR.
  assert (HG' : forall i, alloc_ok (en (@given ER p k)) i = true) by (intros i; rewrite Een; apply HG).
  destruct (l1qc_dct_negative_eps fft1 fft2 fft1_len fft2_len fft1_exact fft2_exact (@given ER p k) nr nc mb mo ms b off bv (nx (ps_c q)) 0%Z (opts k) e tau stages DC HG' ND HP He He0 Hs) as (l & s4 & ES & HS).
  destruct (HR _ _ _ ES ltac:(done) (same_kept _ _ HS)) as (p' & E & Ex & _ & Sm). exists p'. split; [done|]. split; [done|]. by apply Sm.
Qed.
(** measurements that are all zero: undefined, whatever the other keywords, for the module has no keyword lbiter *)
Theorem py_l1qc_zero_measurements_undefined (p : @pst ER) (k : @l1qc_kw ER) nr nc ms (bv : list R) (lt mu : R) :
  @l1qc_py_call ER p k nr nc ms (fin bv) -> (forall i, alloc_ok (en (ps_c p)) i = true) -> NoDup ms -> planner_zero (@given ER p k) ->
  (forall i, nth i bv 0 = 0) -> 0 < lt -> 1 < mu -> kw (lk_lbtol k) (@lit ER 1 1000) = Fin lt -> kw (lk_mu k) (@ofZ ER 10) = Fin mu ->
  py (Some k) p = PUb UbCast.
Proof.
  intros HC HG ND HP Hz Hl Hmu El Em.
  destruct (@py_l1qc_returns ER fft1 fft2 p k nr nc ms (fin bv) HC HG) as (h1 & h2 & q & b & off & mb & mo & DC & Een & EP & _ & _).
  rewrite EP. unfold l1qc_tail. cbv zeta. apply pbind_ccub.
  apply (l1qc_dct_zero_measurements_undefined fft1 fft2 fft1_len fft2_len fft1_exact fft2_exact (@given ER p k) nr nc mb mo ms b off bv (nx (ps_c q)) 0%Z (opts k) lt mu DC); try done.
  intros i; rewrite Een; apply HG.
Qed.
End C78R.

(** ** Concrete cases *)
Module PyL1qcEx.
Section ex.
Context `{N : Num}.
(** object 0 is an array of ints, object 1 a list of numbers; each is referred to once *)
Definition user (e : env) (bs : list T) (zs : list Z) : pst :=
  mkPst (mkSt ∅ {[0%nat := zs]} ∅ ∅ (fun _ => true) 2 e glob0) (<[1%nat := (1%nat, PyOther)]> {[0%nat := (1%nat, NdInt [Z.of_nat (length zs)] (Ptr 0 0))]}) None
        (mkPyEnv (fun _ => Some ([Z.of_nat (length bs)], bs)) (fun _ => None)).
Lemma user_fresh e bs zs : fresh_py (user e bs zs).
Proof.
  split; [intros b Hb; done|]. intros b Hb. change (2 <= b)%nat in Hb. cbn [user ps_c ps_o im]. split; [by rewrite lookup_singleton_ne by lia|]. by rewrite lookup_insert_ne, lookup_singleton_ne by lia.
Qed.
Lemma user_d e bs zs : holds_d (user e bs zs) 1 [Z.of_nat (length bs)] bs.
Proof. exists 0%nat, PyOther. split; [apply lookup_insert|done]. Qed.
Lemma user_i e bs zs : holds_i (user e bs zs) 0 [Z.of_nat (length zs)] zs.
Proof.
  exists 0%nat, (NdInt [Z.of_nat (length zs)] (Ptr 0 0)). split; [done|]. split; [done|]. exists 0%nat, 0. split; [done|]. split; [|split; [done|cbn; lia]].
  intros i z Hi. unfold ldi. destruct (Z.leb_spec 0 (0 + Z.of_nat i)); [|lia]. cbn [user ps_c im]. rewrite lookup_singleton. replace (Z.to_nat (0 + Z.of_nat i)) with i by lia. by rewrite Hi.
Qed.
Lemma user_no_tuple e bs zs i c items : ps_o (user e bs zs) !! i = Some (c, PyTuple items) -> False.
Proof.
  cbn [user ps_o]. intros H. destruct (decide (i = 1%nat)) as [->|]; [rewrite lookup_insert in H; discriminate H|]. rewrite lookup_insert_ne in H by done.
  apply lookup_singleton_Some in H as [_ H]. discriminate H.
Qed.
(** l1qc_dct(2, 2, b, pix_idx, epsilon=..., mu=10, lbtol=1, ...) *)
Definition args (eps : option T) (mode : Z) : l1qc_kw :=
  mkL1qcKw 2 2 1 0 eps (Some (ofZ 10)) (Some one) (Some one) (Some 5) None (Some one) (Some one) (Some 10) (Some mode).
Lemma user_call e bs ms eps mode : length bs = length ms -> (1 <= length ms <= 4)%nat -> (forall j, j ∈ ms -> (j < 4)%nat) -> mode = dct1 \/ mode = dct2 ->
  l1qc_py_call (user e bs (Z.of_nat <$> ms)) (args eps mode) 2 2 ms bs.
Proof.
  intros HL Hn Hin Hm. split; [apply user_fresh|done|done|lia|lia|unfold INT_MAX; lia|apply user_d| |done|done|done|done].
  pose proof (user_i e bs (Z.of_nat <$> ms)) as Q. by rewrite fmap_length in Q.
Qed.
End ex.
Local Open Scope R_scope.
Lemma nrm2_le_nrm1 (x : list R) : nrm2sq x <= nrm1 x * nrm1 x.
Proof.
  unfold nrm2sq, nrm1. rewrite <- Rsum_scal_r. apply Rsum_le. intros i Hi.
  assert (Q : Rabs (nth i x 0) <= Rsum (length x) (fun j => Rabs (nth j x 0))).
  { apply (Rsum_term_le (length x) (fun j => Rabs (nth j x 0)) i); [intros; apply Rabs_pos|done]. }
  pose proof (Rabs_pos (nth i x 0)). assert (E : (nth i x 0) ^ 2 = Rabs (nth i x 0) * Rabs (nth i x 0)) by (rewrite <- Rabs_mult, Rabs_pos_eq; nra). rewrite E. nra.
Qed.
(** tau starts at 1 and a single barrier stage reaches lbtol = 1 *)
Lemma one_stage m (x : list R) (o : @L1qcOpts ER) mu : (1 <= m)%nat -> length x = m -> INR (2 * m + 1) <= nrm1 x -> INR (2 * m + 1) <= mu ->
  lo_lbtol o = Fin 1 -> lo_mu o = Fin mu -> lo_lbiter o = 0%Z -> @starts ER m (fin x) o (Fin 1) 1.
Proof.
  intros Hm Lx Hx Hmu El Em Ei. assert (P : 1 < INR (2 * m + 1)) by (apply (lt_INR 1); lia).
  assert (E : @n_tau0 ER m (fin x) = Fin 1).
  { unfold n_tau0. rewrite asum_ER by done. unfold one. rewrite !P_NewtR.ofZ_ER. replace (IZR (2 * Z.of_nat m + 1)) with (INR (2 * m + 1)) by (rewrite INR_IZR_INZ; f_equal; lia).
    unfold dmax. cbn [div ER er_div]. destruct (Req_EM_T (nrm1 x) 0); [lra|]. cbn [ltb_ ER er_ltb]. unfold Rltb.
    destruct (Rlt_dec _ _) as [Hlt|Hlt]; [|done]. exfalso.
    assert (INR (2 * m + 1) / nrm1 x <= 1) by (apply Rmult_le_reg_r with (nrm1 x); [lra|]; unfold Rdiv; rewrite Rmult_assoc, Rinv_l by lra; lra). lra. }
  unfold starts, n_init. rewrite Ei, El, Em. cbn [Z.eqb]. unfold n_stages. rewrite E.
  assert (LG : forall y, 0 < y -> er_log (Fin y) = Fin (ln y)).
  { intros y Hy. cbn. destruct (Rlt_dec y 0); [lra|]. destruct (Req_EM_T y 0); [lra|done]. }
  assert (Lmu : 0 < ln mu) by (rewrite <- ln_1; apply ln_increasing; lra).
  assert (Lm : 0 < ln (INR (2 * m + 1))) by (rewrite <- ln_1; apply ln_increasing; lra).
  assert (Lle : ln (INR (2 * m + 1)) <= ln mu) by (destruct Hmu as [Hmu| ->]; [left; apply ln_increasing; lra|lra]).
  unfold two, one. rewrite !P_NewtR.ofZ_ER. cbn [add mul sub div log_ ER er_mul er_add er_div ceil_ toint].
  replace (2 * IZR (Z.of_nat m) + 1) with (INR (2 * m + 1)) by (rewrite !INR_IZR_INZ, <- mult_IZR, <- plus_IZR; f_equal; lia).
  rewrite !LG by lra. cbn [er_sub er_opp er_add]. unfold er_div. destruct (Req_EM_T (ln mu) 0); [lra|]. cbn [er_ceil er_toint]. rewrite Ztrunc_IZR.
  rewrite (Zceil_imp 1); [done|]. rewrite ln_1. split.
  - apply Rmult_lt_reg_r with (ln mu); [lra|]. unfold Rdiv. rewrite Rmult_assoc, Rinv_l by lra. change (1 - 1)%Z with 0%Z. lra.
  - apply Rmult_le_reg_r with (ln mu); [lra|]. unfold Rdiv. rewrite Rmult_assoc, Rinv_l by lra. lra.
Qed.
Import L1qcEx.
Definition stE := @st ER. Definition pstE := @pst ER.
(** pixels 3 and 0 of a 2 x 2 image are measured as 100 and 200 *)
Definition ms : list nat := [3; 0]%nat.
Definition p0 (e : @env ER) (b0 b1 : R) : pstE := @user ER e (fin [b0; b1]) (Z.of_nat <$> ms).
Lemma call e b0 b1 eps mode : mode = dct1 \/ mode = dct2 -> @l1qc_py_call ER (p0 e b0 b1) (@args ER eps mode) 2 2 ms (fin [b0; b1]).
Proof. intros Hm. apply (@user_call ER); [by rewrite fin_length|simpl; lia| |done]. intros j Hj. repeat (apply elem_of_cons in Hj as [->|Hj]; [lia|]). by apply elem_of_nil in Hj. Qed.
Lemma given_en (p : pstE) k nr nc ms bs : @l1qc_py_call ER p k nr nc ms bs -> en (ps_c p) = @env0 ER -> en (@given ER p k) = @env0 ER.
Proof. intros HC E. destruct (@py_l1qc_returns ER f1 f2 p k nr nc ms bs HC) as (_ & _ & _ & _ & _ & _ & _ & _ & Q & _); [by rewrite E|]. by rewrite Q. Qed.
Lemma starts1 b0 b1 eps mode : 9 * 9 <= b0 ^ 2 + b1 ^ 2 -> mode = dct1 \/ mode = dct2 -> py_starts f1 f2 (p0 (@env0 ER) b0 b1) (@args ER eps mode) 2 2 ms [b0; b1] (Fin 1) 1.
Proof.
  intros Hb Hm. pose proof (call (@env0 ER) b0 b1 eps mode Hm) as HC. pose proof (given_en _ _ _ _ _ _ HC eq_refl) as Ee. split.
  - pose proof (zeros0 _ Ee) as HZ. set (w := vec 4 (fun _ => 0)). assert (Lw : length w = (2 * 2)%nat) by apply vec_len.
    set (g := @given ER _ _) in *.
    assert (Ew : @scr ER (en g) (nx g + 3) 0 (2 * 2) = fin w). { apply tab_fin'. intros i _. apply HZ. }
    unfold start. pose proof (fAt_fin f1 f2 f1_exact f2_exact 2 2 ltac:(lia) ltac:(lia) mode g ms w [b0; b1] Lw Ew) as Q.
    set (x0 := xf_fwd _ _ _ _) in Q. change (lo_dct_mode (py_l1qc_opts (args eps mode))) with mode. rewrite Q. clear Q.
    assert (L0 : length x0 = 4%nat) by apply fwd_len.
    apply (one_stage 4 x0 _ 10); [lia|exact L0| |simpl; lra|cbn; f_equal; lra|cbn; f_equal; lra|reflexivity].
    replace (INR (2 * 4 + 1)) with 9 by (simpl; lra).
    pose proof (nrm2_le_nrm1 x0) as N1. unfold x0 in N1 at 1. rewrite xf_iso in N1; [|lia|lia|by rewrite (@scatter_len RN)].
    assert (E : nrm2sq (@scatter RN ms (@at_ RN [b0; b1]) w) = b0 ^ 2 + b1 ^ 2) by (cbn; ring). rewrite E in N1.
    assert (0 <= nrm1 x0) by (apply Rsum_nonneg; intros; apply Rabs_pos). nra.
  - unfold counts_fit, INT_MAX. cbn. unfold n_fuel, cgm. cbn. lia.
Qed.
Lemma distinct_ms : NoDup ms. Proof. exact distinct. Qed.
(** epsilon is not given: 1/100.  The image reproduces both measurements to less than 1/100, by 2D or 1D transform *)
Example py_works mode : mode = dct1 \/ mode = dct2 -> exists t p' a d img, @py_l1qc_dct ER f1 f2 (Some (@args ER None mode)) (p0 (@env0 ER) 100 200) = POk (Some t) p' /\ ps_exc p' = None /\
  ps_o p' !! t = Some (1%nat, PyTuple [VRef a; VRef d]) /\ ps_o p' !! a = Some (2%nat, @NdDouble ER [2; 2]%Z (Ptr a 0)) /\ @seg ER (ps_c p') (Ptr a 0) (fin img) /\ length img = 4%nat /\
  nrm2 (resid (sample ms) [100; 200] img) < 1 / 100.
Proof.
  intros Hm. pose proof (call (@env0 ER) 100 200 None mode Hm) as HC.
  destruct (py_l1qc_reproduces_measurements f1 f2 f1_len f2_len f1_exact f2_exact (p0 (@env0 ER) 100 200) (@args ER None mode) 2 2 ms [100; 200] (1 / 100) _ _ HC (fun _ => eq_refl) distinct_ms
    (zero_finite _ (zeros0 _ (given_en _ _ _ _ _ _ HC eq_refl))) eq_refl ltac:(lra) (starts1 100 200 None mode ltac:(lra) Hm)) as (t & p' & a & d & img & l & E & Ex & Et & Ea & Sg & Li & _ & _ & Hlt & _).
  exists t, p', a, d, img. repeat (split; [done|]). apply Hlt. lra.
Qed.
Example py_negative_eps : exists p', @py_l1qc_dct ER f1 f2 (Some (@args ER (Some (Fin (-1))) dct2)) (p0 (@env0 ER) 100 200) = POk None p' /\ ps_exc p' = Some ERuntimeError /\ same_py (p0 (@env0 ER) 100 200) p'.
Proof.
  pose proof (call (@env0 ER) 100 200 (Some (Fin (-1))) dct2 (or_intror eq_refl)) as HC.
  exact (py_l1qc_negative_eps f1 f2 f1_len f2_len f1_exact f2_exact (p0 (@env0 ER) 100 200) (@args ER (Some (Fin (-1))) dct2) 2 2 ms [100; 200] (-1) _ _ HC (fun _ => eq_refl) distinct_ms
    (zero_finite _ (zeros0 _ (given_en _ _ _ _ _ _ HC eq_refl))) eq_refl ltac:(lra) (starts1 100 200 _ dct2 ltac:(lra) (or_intror eq_refl))).
Qed.
Example py_zero_measurements : @py_l1qc_dct ER f1 f2 (Some (@args ER None dct1)) (p0 (@env0 ER) 0 0) = PUb UbCast.
Proof.
  pose proof (call (@env0 ER) 0 0 None dct1 (or_introl eq_refl)) as HC.
  apply (py_l1qc_zero_measurements_undefined f1 f2 f1_len f2_len f1_exact f2_exact (p0 (@env0 ER) 0 0) (@args ER None dct1) 2 2 ms [0; 0] 1 10 HC (fun _ => eq_refl) distinct_ms (zeros0 _ (given_en _ _ _ _ _ _ HC eq_refl))); try lra; [|cbn; f_equal; lra|cbn; f_equal; lra].
  by intros [|[|[|]]].
Qed.
(** Every result is leaked: a call that works, and a caller that releases all it got.  The image stays in memory,
    and the array and the dict are still counted as in use. *)
Theorem py_l1qc_releases_result_refuted : exists (p : pstE) k t p' p'' a d, (exists ms bs, @l1qc_py_call ER p k 2 2 ms bs) /\
  @py_l1qc_dct ER f1 f2 (Some k) p = POk (Some t) p' /\ decref t p' = POk tt p'' /\
  ps_o p !! a = None /\ ps_o p !! d = None /\ dm (ps_c p) !! a = None /\
  ps_o p'' !! a = Some (1%nat, @NdDouble ER [2; 2]%Z (Ptr a 0)) /\ (exists items, ps_o p'' !! d = Some (1%nat, @PyDict ER items)) /\ (exists l, dm (ps_c p'') !! a = Some l /\ length l = 4%nat) /\
  (* nothing refers to them *)
  forall i c items, ps_o p'' !! i = Some (c, @PyTuple ER items) -> False.
Proof.
  destruct (py_works dct1 (or_introl eq_refl)) as (t & p' & _ & _ & _ & E & _). pose proof (call (@env0 ER) 100 200 None dct1 (or_introl eq_refl)) as HC.
  assert (CF : @py_counters_fit ER f1 f2 (p0 (@env0 ER) 100 200) (@args ER None dct1) 2 2 ms (fin [100; 200])).
  { intros tau st Hs. destruct (starts1 100 200 None dct1 ltac:(lra) (or_introl eq_refl)) as [Q1 Q2]. unfold starts in Hs, Q1. pose proof (eq_trans (eq_sym Q1) Hs) as Q. by injection Q as _ <-. }
  destruct (@py_l1qc_result_never_released ER f1 f2 f1_len f2_len (p0 (@env0 ER) 100 200) (@args ER None dct1) 2 2 ms (fin [100; 200]) t p' HC CF E) as (a & d & img & l & p'' & ED & EO & EM & Hne & Na & Nd & Nm & Li).
  exists (p0 (@env0 ER) 100 200), (@args ER None dct1), t, p', p'', a, d. split; [exact (ex_intro _ _ (ex_intro _ _ HC))|]. split; [exact E|]. split; [exact ED|]. split; [exact Na|]. split; [exact Nd|]. split; [exact Nm|].
  rewrite EO, EM. unfold made. split; [|split; [|split]].
  - rewrite lookup_insert_ne by done. apply lookup_insert.
  - eexists. apply lookup_insert.
  - eexists. split; [apply lookup_insert|]. by rewrite fmap_length.
  - intros i c items Hi. destruct (decide (i = d)) as [->|]; [rewrite lookup_insert in Hi; discriminate Hi|]. rewrite lookup_insert_ne in Hi by done.
    destruct (decide (i = a)) as [->|]; [rewrite lookup_insert in Hi; discriminate Hi|]. rewrite lookup_insert_ne in Hi by done. exact (@user_no_tuple ER _ _ _ _ _ _ Hi).
Qed.
(** rejected calls: 65536 x 65536 pixels; index 4 of a 2 x 2 image; three measurements, two indices; dct_mode = 7 *)
Definition huge : @l1qc_kw ER := @mkL1qcKw ER 65536 65536 1 0 None None None None None None None None None None.
(** its keywords reach the solver *)
Example py_keywords mode : mode = dct1 \/ mode = dct2 -> exists o x b off mb mo q h1 h2, @py_l1qc_dct ER f1 f2 (Some (@args ER None mode)) (p0 (@env0 ER) 100 200) =
    @l1qc_tail ER f1 f2 2 2 o (Ptr x 0) 2 (Ptr b off) (Ptr mb mo) h1 h2 (set_c (@given ER (p0 (@env0 ER) 100 200) (@args ER None mode)) q) /\
  lo_epsilon o = Fin (1 / 100) /\ lo_newton_max_iter o = 5%Z /\ lo_cg_maxiter o = 10%Z /\ lo_dct_mode o = mode.
Proof.
  intros Hm. destruct (@py_l1qc_keywords ER f1 f2 _ _ _ _ _ _ (call (@env0 ER) 100 200 None mode Hm) ltac:(done)) as (o & x & b & off & mb & mo & q & h1 & h2 & _ & E & E1 & _ & _ & _ & E2 & _ & _ & _ & E3 & E4 & _).
  exists o, x, b, off, mb, mo, q, h1, h2. split; [exact E|]. split; [exact E1|]. split; [exact E2|]. split; [exact E3|exact E4].
Qed.
Example py_overflow : @py_l1qc_dct ER f1 f2 (Some huge) (p0 (@env0 ER) 1 2) = PUb UbOverflow.
Proof.
  destruct (@py_l1qc_rejects ER f1 f2 (p0 (@env0 ER) 1 2) huge [2%Z] [2%Z] (fin [1; 2]) (Z.of_nat <$> ms) (@user_fresh ER _ _ _) (conj eq_refl eq_refl) (or_introl eq_refl) (@user_d ER _ (fin [1; 2]) _) (@user_i ER _ _ (Z.of_nat <$> ms))) as (_ & H & _).
  apply (H 2%Z 2%Z eq_refl eq_refl). unfold INT_MIN, INT_MAX. cbn. lia.
Qed.
Example py_index_4 : exists p', @py_l1qc_dct ER f1 f2 (Some (@args ER None dct1)) (@user ER (@env0 ER) (fin [1; 2]) [3; 4]%Z) = POk None p' /\ same_py (@user ER (@env0 ER) (fin [1; 2]) [3; 4]%Z) p' /\ ps_exc p' = Some ERuntimeError.
Proof.
  destruct (@py_l1qc_bad_index ER f1 f2 (@user ER (@env0 ER) (fin [1; 2]) [3; 4]%Z) (@args ER None dct1) 2 2 [3; 4]%Z (fin [1; 2]) (@user_fresh ER _ _ _) eq_refl eq_refl ltac:(lia) ltac:(lia) ltac:(unfold INT_MAX; lia)
    (@user_d ER _ (fin [1; 2]) _) (@user_i ER _ _ [3; 4]%Z) eq_refl ltac:(cbn; lia) (or_introl eq_refl)) as (p' & E & Sm & [Ex|(_ & i & _ & Q)]).
  - exists 4%Z. split; [right; left|cbn; lia].
  - exists p'. split; [exact E|]. split; [exact Sm|exact Ex].
  - discriminate Q.
Qed.
Example py_lengths : exists p', @py_l1qc_dct ER f1 f2 (Some (@args ER None dct1)) (@user ER (@env0 ER) (fin [1; 2; 3]) [3; 0]%Z) = POk None p' /\ ps_exc p' = Some EValueError /\ same_py (@user ER (@env0 ER) (fin [1; 2; 3]) [3; 0]%Z) p'.
Proof.
  destruct (@py_l1qc_rejects ER f1 f2 (@user ER (@env0 ER) (fin [1; 2; 3]) [3; 0]%Z) (@args ER None dct1) [3%Z] [2%Z] (fin [1; 2; 3]) [3; 0]%Z (@user_fresh ER _ _ _) (conj eq_refl eq_refl) (or_introl eq_refl) (@user_d ER _ (fin [1; 2; 3]) _) (@user_i ER _ _ [3; 0]%Z)) as (_ & _ & H).
  apply (H 3%Z 2%Z eq_refl eq_refl); unfold INT_MIN, INT_MAX; cbn; lia.
Qed.
Example py_mode_7 (p : pstE) : @py_l1qc_dct ER f1 f2 (Some (@args ER None 7)) p = POk None (set_exc EValueError p).
Proof. apply (@py_l1qc_bad_mode ER f1 f2); discriminate. Qed.
End PyL1qcEx.

Print Assumptions py_l1qc_bad_arguments.
Print Assumptions py_l1qc_bad_mode.
Print Assumptions py_l1qc_rejects.
Print Assumptions py_l1qc_keywords.
Print Assumptions py_l1qc_bad_index.
Print Assumptions py_l1qc_outcome.
Print Assumptions py_l1qc_result_never_released.
Print Assumptions py_l1qc_reproduces_measurements.
Print Assumptions py_l1qc_negative_eps.
Print Assumptions py_l1qc_zero_measurements_undefined.
Print Assumptions PyL1qcEx.py_l1qc_releases_result_refuted.
