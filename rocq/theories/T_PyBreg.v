(** * C79: breg_anistropic_TV from Python (interfaces/python/l1cPy.c). *)
From Coq Require Import ZArith Lia.
From stdpp Require Import base numbers gmap list strings.
From Verif Require Import Globals Mem M_Math M_Memory M_Status M_CG M_LineSearch M_FFTW M_Dct1 M_Dct2 M_Dct M_TVt M_Newton M_L1qcDct M_Bregman M_Nesta
  T_Bregman M_Logging M_MexUtils M_Mex P_Mem P_Loop S_Mem P_Touch P_Memory P_Own P_Math P_CG P_Bregman P_Breg2 P_Breg3 S_DctApi S_L1qcDct S_Mex P_Mex P_MexNesta
  M_Py S_Py P_Py P_Py2.
Local Open Scope Z_scope.

Section C79.
Context `{N : Num}.
Implicit Types (p q r : pst) (s : st).
(** breg_anistropic_TV(f, ...): f is, or numpy makes of it, an n x m array with the entries xs, row after row *)
Record breg_py_call p (k : breg_kw) (n m : nat) (xs : list T) : Prop := {
  pb_fresh : fresh_py p; pb_f : holds_d p (bk_f k) [Z.of_nat n; Z.of_nat m] xs; pb_len : length xs = (n * m)%nat;
  pb_n : (3 <= n)%nat; pb_m : (3 <= m)%nat; pb_fit : Z.of_nat (n * m) <= INT_MAX; pb_mi : kw (bk_max_iter k) 1000 < INT_MAX; pb_mj : kw (bk_max_jac_iter k) 1 < INT_MAX }.
Notation mu_of k := (kw (bk_mu k) (ofZ 10)).
Notation tol_of k := (kw (bk_tol k) (lit 1 1000)).
Notation mi_of k := (kw (bk_max_iter k) 1000).
Notation mj_of k := (kw (bk_max_jac_iter k) 1).

(** ** The reference to f *)
Lemma drop1 h p q r : took h p q -> ps_o r !! key h = ps_o q !! key h -> (forall b, (b < nx (ps_c q))%nat -> dm (ps_c r) !! b = dm (ps_c q) !! b) -> im (ps_c r) = im (ps_c q) ->
  decref (key h) r = POk tt (undo h r).
Proof.
  intros Tk Ho Hd Hi. eapply drop_run; [exact Tk|]. split; [done|]. pose proof (tk_lt _ _ _ Tk) as Hlt. pose proof (tk_dm _ _ _ Tk) as Ed. pose proof (tk_im _ _ _ Tk) as Ei.
  destruct h; cbn in *; [done| |].
  - rewrite Hd by done. rewrite Ed, lookup_insert. eauto.
  - rewrite Hi, Ei, lookup_insert. eauto.
Qed.
Lemma took_unO h p q : fresh_py p -> took h p q -> unO h (ps_o q) = ps_o p.
Proof. intros F Tk. rewrite (tk_o _ _ _ Tk). apply unO_doO. intros Hn. apply F. by apply (tk_new _ _ _ Tk). Qed.
Lemma took_unD h p q : fresh_py p -> took h p q -> unD h (dm (ps_c q)) = dm (ps_c p).
Proof. intros F Tk. rewrite (tk_dm _ _ _ Tk). apply unD_doD. intros Hn. apply F. by apply (tk_new _ _ _ Tk). Qed.
Lemma took_unI h p q : fresh_py p -> took h p q -> unI h (im (ps_c q)) = im (ps_c p).
Proof. intros F Tk. rewrite (tk_im _ _ _ Tk). apply unI_doI. intros Hn. apply F. by apply (tk_new _ _ _ Tk). Qed.
(** the heap of q again *)
Lemma drop_same h p q r : fresh_py p -> took h p q -> ps_o r = ps_o q -> same_heap (ps_c q) (ps_c r) ->
  exists r', decref (key h) r = POk tt r' /\ ps_exc r' = ps_exc r /\ same_py p r'.
Proof.
  intros F Tk Ho (S1 & S2 & S3 & S4). exists (undo h r). split; [eapply drop1; [done|by rewrite Ho|by intros b _; rewrite S1|done]|]. split; [done|].
  split; [cbn; rewrite Ho; by apply took_unO|]. split; [cbn; rewrite S1; by apply took_unD|]. split; [cbn; rewrite S2; apply Tk|]. split; [cbn; rewrite S3; apply Tk|]. cbn. rewrite S4. by apply took_unI.
Qed.
Lemma free_ok b s l : dm s !! b = Some l -> l1c_free_double (Ptr b 0) s = Ok tt (set_dm (delete b) s).
Proof. intros E. unfold l1c_free_double. cbn. by rewrite E. Qed.

(** ** What it rejects *)
Theorem py_breg_bad_arguments p : py_breg None p = POk None (set_exc ETypeError p).
Proof. done. Qed.
(** not two-dimensional: IndexError; a side below three: ValueError *)
Theorem py_breg_rejects p k dims xs : fresh_py p -> holds_d p (bk_f k) dims xs -> alloc_ok (en (ps_c p)) (nx (ps_c p)) = true ->
  (length dims <> 2%nat -> exists p', py_breg (Some k) p = POk None p' /\ ps_exc p' = Some EIndexError /\ same_py p p') /\
  (forall n m, dims = [n; m] -> 0 <= n <= INT_MAX -> 0 <= m <= INT_MAX -> n < 3 \/ m < 3 -> exists p', py_breg (Some k) p = POk None p' /\ ps_exc p' = Some EValueError /\ same_py p p') /\
  (forall n m, dims = [n; m] -> 3 <= n <= INT_MAX -> 3 <= m <= INT_MAX -> INT_MAX < n * m -> py_breg (Some k) p = PUb UbOverflow).
Proof.
  intros F Hh Ha. unfold py_breg. cbv zeta.
  destruct (from_otf_d_run p _ _ _ F Hh) as [(Q & _)|(h & q & b & off & c & E & Tk & _ & Ho & Sg)]; [unfold refused in Q; congruence|].
  rewrite (pbind_ok _ _ _ _ _ E). cbn [xdecref]. rewrite (pbind_ok _ _ _ (dims, Ptr b off) q) by (unfold nd_of; by rewrite Ho).
  assert (HX : forall e, exists p', (raise_ e ;@ decref (key h) ;@ pret (None (A := nat))) q = POk None p' /\ ps_exc p' = Some e /\ same_py p p').
  { intros e. destruct (drop_same h p q (set_exc e q) F Tk eq_refl ltac:(by split)) as (r' & Er & Ex & Sm). exists r'. split; [|done].
    rewrite (pbind_ok _ _ _ tt (set_exc e q)) by done. by rewrite (pbind_ok _ _ _ _ _ Er). }
  split; [|split].
  - intros Hd. destruct dims as [|n [|m [|]]]; try apply HX. done.
  - intros n m -> Hn Hm Hor. rewrite !int_of_size_id by (unfold INT_MIN; lia). replace ((n <? 3) || (m <? 3)) with true; [apply HX|].
    destruct Hor as [H|H]; [by rewrite (proj2 (Z.ltb_lt _ _) H)|by rewrite (proj2 (Z.ltb_lt _ _) H), orb_true_r].
  - intros n m -> Hn Hm Hov. rewrite !int_of_size_id by (unfold INT_MIN; lia). rewrite !(proj2 (Z.ltb_ge _ _)) by lia. cbn [orb]. apply pbind_ccub. unfold i32, in_int.
    rewrite (proj2 (Z.leb_gt (n * m) INT_MAX)) by lia. by rewrite andb_false_r.
Qed.

(** ** Every way a sensible call can go *)
(** the new objects and blocks of a successful call; count is the array's reference count *)
Definition returned p (n m : nat) (img : list T) (a count : nat) p' : Prop :=
  ps_o p !! a = None /\ dm (ps_c p) !! a = None /\ ps_o p' = <[a := (count, NdDouble [Z.of_nat n; Z.of_nat m] (Ptr a 0))]> (ps_o p) /\
  dm (ps_c p') = <[a := Some <$> img]> (dm (ps_c p)) /\ im (ps_c p') = im (ps_c p) /\ pm (ps_c p') = pm (ps_c p) /\ om (ps_c p') = om (ps_c p).
(** all that has changed is that there are these further blocks *)
Definition only_new p p' (bs : list nat) : Prop :=
  ps_o p' = ps_o p /\ im (ps_c p') = im (ps_c p) /\ pm (ps_c p') = pm (ps_c p) /\ om (ps_c p') = om (ps_c p) /\
  (forall b, b ∉ bs -> dm (ps_c p') !! b = dm (ps_c p) !! b) /\ Forall (fun b => dm (ps_c p) !! b = None /\ is_Some (dm (ps_c p') !! b)) bs.

(** how many requests numpy makes to turn object i into an array of doubles *)
Definition converted p (i : nat) : nat := match ps_o p !! i with Some (_, NdDouble _ _) => 0 | _ => 1 end.
Lemma from_otf_nx p i dims xs a q : holds_d p i dims xs -> from_otf_d i p = POk (Some a) q ->
  nx (ps_c q) = (nx (ps_c p) + converted p i)%nat /\ (converted p i = 1%nat -> alloc_ok (en (ps_c p)) (nx (ps_c p)) = true).
Proof.
  intros (c & o & Eo & H). unfold from_otf_d, converted. rewrite Eo.
  assert (HN : conv_d (ps_env p) i = Some (dims, xs) -> match conv_d (ps_env p) i with None => POk None (set_exc EConv p) | Some (d, x) => new_nd_d d (Some <$> x) p end = POk (Some a) q ->
    nx (ps_c q) = (nx (ps_c p) + 1)%nat /\ (1%nat = 1%nat -> alloc_ok (en (ps_c p)) (nx (ps_c p)) = true)).
  { intros ->. unfold new_nd_d. destruct (alloc_ok _ _) eqn:Ea; [|done]. intros [= _ <-]. cbn. split; [lia|done]. }
  destruct o; try exact (HN H). unfold pbind, incref, pret. rewrite Eo. intros [= _ <-]. cbn. split; [lia|done].
Qed.
Lemma from_otf_no p i dims xs q : holds_d p i dims xs -> from_otf_d i p = POk None q -> converted p i = 1%nat.
Proof.
  intros (c & o & Eo & H). unfold from_otf_d, converted. rewrite Eo. destruct o; try done. unfold pbind, incref, pret. rewrite Eo. done.
Qed.
Theorem py_breg_outcome p k n m xs : breg_py_call p k n m xs -> let i := (nx (ps_c p) + converted p (bk_f k))%nat in
  (* numpy has no memory for its copy of f *)
  (converted p (bk_f k) = 1%nat /\ alloc_ok (en (ps_c p)) (nx (ps_c p)) = false /\ exists p', py_breg (Some k) p = POk None p' /\ ps_exc p' = Some ERuntimeError /\ same_py p p') \/
  (converted p (bk_f k) = 1%nat -> alloc_ok (en (ps_c p)) (nx (ps_c p)) = true) /\
    (* f_ours (request i) or uk (request i + 1) is refused: the other one is never released *)
    (((alloc_ok (en (ps_c p)) i = false \/ alloc_ok (en (ps_c p)) (i + 1) = false) /\
        exists p', py_breg (Some k) p = POk None p' /\ ps_exc p' = Some EMemoryError /\ only_new p p' (filter (fun j => alloc_ok (en (ps_c p)) j = true) [i; (i + 1)%nat])) \/
    (* one of the solver's eight requests or the array to return is refused *)
     ((exists j, (j < 9)%nat /\ alloc_ok (en (ps_c p)) (i + 2 + j) = false) /\ alloc_ok (en (ps_c p)) i = true /\ alloc_ok (en (ps_c p)) (i + 1) = true /\
        exists p', py_breg (Some k) p = POk None p' /\ ps_exc p' = Some EMemoryError /\ same_py p p') \/
    (* success: the array is counted twice *)
     ((forall j, (j < 11)%nat -> alloc_ok (en (ps_c p)) (i + j) = true) /\
        exists K p', stops (breg_err n m (Z.to_nat (mj_of k)) (mu_of k) (mul two (mu_of k)) xs) (tol_of k) (Z.to_nat (mi_of k)) K /\
          py_breg (Some k) p = POk (Some (i + 10)%nat) p' /\ ps_exc p' = ps_exc p /\
          returned p n m (b_u (breg_at n m (Z.to_nat (mj_of k)) (mu_of k) (mul two (mu_of k)) xs K)) (i + 10) 2 p')).
Proof.
  intros [F Hh Lx Hn Hm Hf Hmi Hmj]. unfold py_breg. cbv zeta.
  destruct (from_otf_d_run p _ _ _ F Hh) as [(Q & E)|(h & q & b & off & c & E & Tk & Hdi & Ho & Sg)].
  { left. split; [by eapply from_otf_no|]. split; [done|]. rewrite (pbind_ok _ _ _ _ _ E). eexists. split; [reflexivity|]. split; [done|]. by split. }
  right. rewrite (pbind_ok _ _ _ _ _ E). cbn [xdecref]. rewrite (pbind_ok _ _ _ ([Z.of_nat n; Z.of_nat m], Ptr b off) q) by (unfold nd_of; by rewrite Ho).
  rewrite !int_of_size_id by (unfold INT_MIN; nia). rewrite !(proj2 (Z.ltb_ge _ _)) by lia. cbn [orb].
  replace (Z.of_nat n * Z.of_nat m) with (Z.of_nat (n * m)) by lia.
  rewrite (pbind_cc _ _ q _ _ (i32_ok (Z.of_nat (n * m)) (ps_c q) ltac:(unfold INT_MIN; lia))). replace (set_c (ps_c q) q) with q by (by destruct q).
  set (M := (n * m)%nat) in *.
  pose proof (tk_fresh _ _ _ Tk) as Fq. pose proof (tk_en _ _ _ Tk) as Een. pose proof (tk_nx _ _ _ Tk) as Enx.
  destruct (from_otf_nx _ _ _ _ _ _ Hh E) as [Hnx Hgr]. rewrite <- Hnx. split; [exact Hgr|]. set (i := nx (ps_c q)) in *.
  rewrite <- Een. set (e := en (ps_c q)) in *.
  assert (Hq : forall j, (i <= j)%nat -> dm (ps_c q) !! j = None /\ ps_o q !! j = None) by (intros j Hj; split; apply Fq; done).
  assert (Hkey : (key h < i)%nat) by apply Tk.
  assert (Hnew : forall j, (i <= j)%nat -> dm (ps_c p) !! j = None /\ ps_o p !! j = None) by (intros j Hj; split; apply F; lia).
  (* an exit through fail1 with some new blocks *)
  assert (LK : forall r bs, ps_o r = ps_o q -> im (ps_c r) = im (ps_c q) -> pm (ps_c r) = pm (ps_c q) -> om (ps_c r) = om (ps_c q) -> (forall b', b' ∉ bs -> dm (ps_c r) !! b' = dm (ps_c q) !! b') ->
    Forall (fun b' => (i <= b')%nat /\ is_Some (dm (ps_c r) !! b')) bs ->
    exists p', (raise_ EMemoryError ;@ decref (key h) ;@ pret (None (A := nat))) r = POk None p' /\ ps_exc p' = Some EMemoryError /\ only_new p p' bs).
  { intros r bs R1 R2 R3 R4 R5 R6. rewrite Forall_forall in R6.
    assert (Hd : decref (key h) (set_exc EMemoryError r) = POk tt (undo h (set_exc EMemoryError r))).
    { eapply drop1; [exact Tk|by cbn; rewrite R1| |done]. intros b' Hb'. cbn. apply R5. intros Hin. apply R6 in Hin. unfold i in Hin. lia. }
    exists (undo h (set_exc EMemoryError r)). split; [rewrite (pbind_ok _ _ _ tt (set_exc EMemoryError r)) by done; by rewrite (pbind_ok _ _ _ _ _ Hd)|]. split; [done|].
    assert (HU : forall b', b' <> key h -> unD h (dm (ps_c r)) !! b' = dm (ps_c r) !! b'). { intros b' Hb'. destruct h; cbn in *; try done. by rewrite lookup_delete_ne. }
    assert (HUq : forall b', b' <> key h -> dm (ps_c p) !! b' = dm (ps_c q) !! b'). { intros b' Hb'. rewrite (tk_dm _ _ _ Tk). destruct h; cbn in *; try done. by rewrite lookup_insert_ne. }
    split; [cbn; rewrite R1; by apply took_unO|]. split; [cbn; rewrite R2; by apply took_unI|]. split; [cbn; rewrite R3; apply Tk|]. split; [cbn; rewrite R4; apply Tk|]. split.
    - intros b' Hb'. cbn. destruct (decide (b' = key h)) as [->|Hne]; [|rewrite HU, HUq by done; by apply R5].
      rewrite <- (took_unD h p q F Tk). destruct h as [j|j d ys|j d ys]; cbn in *; [by apply R5|by rewrite !lookup_delete|by apply R5].
    - apply Forall_forall. intros b' Hb'. apply R6 in Hb' as [Hb1 Hb2]. split; [by apply Hnew|]. cbn. rewrite HU by lia. done. }
  destruct (alloc_ok e i) eqn:E0.
  2:{ left. split; [by left|]. rewrite (pbind_cc _ _ q _ _ (mal_no (ps_c q) _ E0)).
      set (q1 := set_c (tick (ps_c q)) q). cbn [is_null orb]. destruct (alloc_ok e (i + 1)) eqn:E1.
      - rewrite (pbind_cc _ _ q1 _ _ (mal (tick (ps_c q)) M ltac:(cbn; fold i; fold e; by rewrite Nat.add_1_r in E1))). cbn [is_null orb].
        destruct (LK (set_c (x_made M (tick (ps_c q))) q1) [(i + 1)%nat]) as (p' & Ep & Ex & Hp'); try done.
        + intros b' Hb'. cbn. rewrite lookup_insert_ne; [done|]. intros <-. apply Hb'. apply elem_of_list_singleton. fold i. lia.
        + apply Forall_singleton. split; [lia|]. cbn. fold i. rewrite Nat.add_1_r, lookup_insert. eauto.
        + exists p'. split; [exact Ep|]. split; [done|]. rewrite filter_cons_False by congruence. rewrite filter_cons_True by done. exact Hp'.
      - rewrite (pbind_cc _ _ q1 _ _ (mal_no (tick (ps_c q)) _ ltac:(cbn; fold i; fold e; by rewrite Nat.add_1_r in E1))). cbn [is_null orb].
        destruct (LK (set_c (tick (tick (ps_c q))) q1) []) as (p' & Ep & Ex & Hp'); try done.
        exists p'. split; [exact Ep|]. split; [done|]. rewrite !filter_cons_False by congruence. exact Hp'. }
  rewrite (pbind_cc _ _ q _ _ (mal (ps_c q) M E0)). set (q1 := set_c (x_made M (ps_c q)) q).
  destruct (alloc_ok e (i + 1)) eqn:E1.
  2:{ left. split; [by right|]. rewrite (pbind_cc _ _ q1 _ _ (mal_no (x_made M (ps_c q)) _ ltac:(cbn; fold i; fold e; by rewrite Nat.add_1_r in E1))). cbn [is_null orb].
      destruct (LK (set_c (tick (x_made M (ps_c q))) q1) [i]) as (p' & Ep & Ex & Hp'); try done.
      - intros b' Hb'. cbn. rewrite lookup_insert_ne; [done|]. intros <-. apply Hb'. by apply elem_of_list_singleton.
      - apply Forall_singleton. split; [lia|]. cbn. fold i. rewrite lookup_insert. eauto.
      - exists p'. split; [exact Ep|]. split; [done|]. rewrite filter_cons_True by done. rewrite filter_cons_False by congruence. exact Hp'. }
  right. rewrite (pbind_cc _ _ q1 _ _ (mal (x_made M (ps_c q)) M ltac:(cbn; fold i; fold e; by rewrite Nat.add_1_r in E1))). cbn [is_null orb].
  set (s2 := x_made M (x_made M (ps_c q))). change (nx (x_made M (ps_c q))) with (S i). fold i. set (q2 := set_c s2 q1).
  assert (D2 : dm s2 = <[S i := replicate M None]> (<[i := replicate M None]> (dm (ps_c q)))) by done.
  assert (Hb : (b < i)%nat).
  { destruct (Nat.lt_ge_cases b i) as [|Hb]; [done|]. destruct xs as [|v0 xs0]; [simpl in Lx; unfold M in Lx; nia|]. specialize (Sg 0%nat v0 eq_refl). unfold cell in Sg. rewrite (proj1 (Hq b Hb)) in Sg. by destruct (_ <=? _). }
  assert (W1 : wok s2 (Ptr i 0) M) by (eapply wok_block; [rewrite D2, lookup_insert_ne, lookup_insert by lia; reflexivity|by rewrite replicate_length]).
  assert (W2 : wok s2 (Ptr (S i) 0) M) by (eapply wok_block; [rewrite D2, lookup_insert; reflexivity|by rewrite replicate_length]).
  assert (ED : cblas_dcopy (Z.of_nat M) (Ptr b off) (Ptr i 0) s2 = Ok tt (wr (Ptr i 0) xs s2)).
  { apply dcopy_run; [|done|done|apply disj_blocks; lia]. eapply seg_dmb; [|exact Sg]. rewrite D2, !lookup_insert_ne by lia. done. }
  rewrite (pbind_cc _ _ q2 _ _ ED). set (t := wr (Ptr i 0) xs s2). set (q3 := set_c t q2).
  assert (Dt : dm t = <[i := Some <$> xs]> (<[S i := replicate M None]> (dm (ps_c q)))).
  { unfold t. rewrite (wr_block _ _ (replicate M None)); [|rewrite D2, lookup_insert_ne, lookup_insert by lia; done|by rewrite replicate_length].
    cbn [dm set_dm]. rewrite D2. rewrite (insert_commute _ (S i) i) by lia. by rewrite insert_insert. }
  assert (Ut : unborn t).
  { intros b' Hb'. change (nx t) with (S (S i)) in Hb'. rewrite Dt, !lookup_insert_ne by lia. apply Fq. lia. }
  destruct (breg_run t n m (S i) i xs (mu_of k) (tol_of k) (mi_of k) (mj_of k) Hf Ut) as [B1 B2].
  change (nx t) with (S (S i)) in *. assert (Et : en t = e) by done.
  assert (DE : (forall j, (j < 8)%nat -> alloc_ok e (i + 2 + j) = true) \/ (exists j, (j < 8)%nat /\ alloc_ok e (i + 2 + j) = false)).
  { destruct (decide (Forall (fun j => alloc_ok e (i + 2 + j) = true) (seq 0 8))) as [G|G].
    - left. intros j Hj. rewrite Forall_forall in G. apply (G j). apply elem_of_seq. lia.
    - right. apply not_Forall_Exists in G; [|intros j; apply _]. apply Exists_exists in G as (j & Hj & Ej). apply elem_of_seq in Hj. exists j. split; [lia|]. simpl in Ej. by destruct (alloc_ok e (i + 2 + j)). }
  destruct DE as [DE|(j & Hj & Ej)].
  2:{ left. split; [exists j; split; [lia|done]|]. split; [done|]. split; [done|].
      assert (some_refused t 8) as HR. { exists j. split; [done|]. rewrite Et. change (nx t) with (S (S i)). by replace (S (S i) + j)%nat with (i + 2 + j)%nat by lia. }
      destruct (B1 HR) as (s4 & E4 & Lg & _). rewrite (pbind_cc _ _ q3 _ _ E4). change (negb (L1C_OUT_OF_MEMORY =? 0)) with true. cbv iota.
      rewrite (pbind_ok _ _ _ tt (set_exc EMemoryError (set_c s4 q3))) by done.
      assert (D4 : forall b', dm s4 !! b' = dm t !! b') by (intros b'; apply (lg_dm _ _ _ _ Lg); apply not_elem_of_nil). apply map_eq in D4.
      set (qe := set_exc EMemoryError (set_c s4 q3)).
      rewrite (pbind_cc _ _ qe _ _ (free_ok i s4 (Some <$> xs) ltac:(rewrite D4, Dt, lookup_insert; done))).
      rewrite (pbind_cc _ _ (set_c (set_dm (delete i) s4) qe) _ _ (free_ok (S i) (set_dm (delete i) s4) (replicate M None) ltac:(cbn; rewrite lookup_delete_ne, D4, Dt, lookup_insert_ne, lookup_insert by lia; done))).
      match goal with |- context [pbind (decref (key h)) _ ?r0] => set (r1 := r0) end.
      destruct (drop_same h p q r1 F Tk eq_refl) as (p' & Ep & Ex & Sm).
      { split; [|split; [|split]].
        - cbn. rewrite D4, Dt. rewrite delete_insert by (rewrite lookup_insert_ne by lia; apply Hq; lia). apply delete_insert. apply Hq. lia.
        - cbn. apply map_eq. intros b'. rewrite (lg_om _ _ _ _ Lg) by apply not_elem_of_nil. done.
        - cbn. apply map_eq. intros b'. rewrite (lg_pm _ _ _ _ Lg) by apply not_elem_of_nil. done.
        - cbn. rewrite (lg_im _ _ _ _ Lg). done. }
      exists p'. split; [by rewrite (pbind_ok _ _ _ _ _ Ep)|]. split; [by rewrite Ex|done]. }
  assert (HG : all_granted t 8). { intros j Hj. rewrite Et. change (nx t) with (S (S i)). replace (S (S i) + j)%nat with (i + 2 + j)%nat by lia. by apply DE. }
  destruct (B2 ltac:(lia) ltac:(lia) Hmi Hmj ltac:(lia)) as (K & s4 & HK & E4 & Su & Lg & _ & N4).
  { apply seg_wr. by rewrite Lx. }
  { done. }
  { apply wok_wr; [by rewrite Lx|done]. }
  { cbn. by rewrite Nat.eqb_refl. }
  { done. }
  rewrite (pbind_cc _ _ q3 _ _ E4). change (negb (L1C_SUCCESS =? 0)) with false. cbv iota.
  set (img := b_u _) in Su. assert (Li : length img = M) by (by apply breg_at_len).
  set (q4 := set_c s4 q3). change (nx t) with (S (S i)) in N4.
  assert (D4 : forall b', b' <> S i -> dm s4 !! b' = dm t !! b') by (intros b' Hb'; apply (lg_dm _ _ _ _ Lg); [by rewrite elem_of_list_singleton|apply not_elem_of_nil]).
  assert (is_Some (dm s4 !! S i)) as [cu Hcu].
  { pose proof (lg_len _ _ _ _ Lg (S i) ltac:(apply not_elem_of_nil)) as Q. rewrite Dt, lookup_insert_ne, lookup_insert in Q by lia. destruct (dm s4 !! S i); [eauto|done]. }
  assert (O4 : om s4 = om (ps_c q)) by (apply map_eq; intros b'; rewrite (lg_om _ _ _ _ Lg) by apply not_elem_of_nil; done).
  assert (P4 : pm s4 = pm (ps_c q)) by (apply map_eq; intros b'; rewrite (lg_pm _ _ _ _ Lg) by apply not_elem_of_nil; done).
  assert (I4 : im s4 = im (ps_c q)) by (rewrite (lg_im _ _ _ _ Lg); done).
  assert (e4 : en s4 = e) by (rewrite (lg_en _ _ _ _ Lg); done).
  assert (F4 : fresh_py q4).
  { split.
    - intros b' Hb'. cbn in Hb'. cbn. rewrite D4, Dt, !lookup_insert_ne, O4, P4 by lia. apply Fq. lia.
    - intros b' Hb'. cbn in Hb'. cbn. rewrite I4. apply Fq. lia. }
  assert (HD4 : forall l, <[i := Some <$> xs]> (<[S i := l]> (dm (ps_c q))) = <[S i := l]> (dm t)).
  { intros l. rewrite Dt. rewrite (insert_commute _ (S i) i) by lia. by rewrite insert_insert. }
  assert (D4' : dm s4 = <[i := Some <$> xs]> (<[S i := cu]> (dm (ps_c q)))).
  { rewrite HD4. apply map_eq. intros b'. destruct (decide (b' = S i)) as [->|]; [by rewrite lookup_insert|]. rewrite lookup_insert_ne by done. by apply D4. }
  assert (DD : forall D : gmap nat (list (option T)), D !! i = None -> D !! S i = None -> delete (S i) (delete i (<[i := Some <$> xs]> (<[S i := cu]> D))) = D).
  { intros D H1 H2. rewrite delete_insert by (by rewrite lookup_insert_ne by lia). by apply delete_insert. }
  destruct (copy_run q4 n m (S i) 0 img F4 Li ltac:(unfold M in *; nia) Hf ltac:(cbn; lia) Su) as [(Rf & EC)|(Ga & q5 & EC & Tk5 & N5)].
  - left. split; [exists 8%nat; split; [lia|]|].
    { unfold refused in Rf. cbn in Rf. rewrite e4, N4 in Rf. by replace (i + 2 + 8)%nat with (S (S i) + 8)%nat by lia. }
    split; [done|]. split; [done|]. rewrite (pbind_ok _ _ _ _ _ EC).
    match goal with |- context [pbind (cc (l1c_free_double _)) _ ?r0] => set (qe := r0) end.
    rewrite (pbind_cc _ _ qe _ _ (free_ok i (tick s4) (Some <$> xs) ltac:(cbn; rewrite D4', lookup_insert; done))).
    rewrite (pbind_cc _ _ (set_c (set_dm (delete i) (tick s4)) qe) _ _ (free_ok (S i) (set_dm (delete i) (tick s4)) cu ltac:(cbn; rewrite lookup_delete_ne by lia; done))).
    match goal with |- context [pbind (decref (key h)) _ ?r0] => set (r1 := r0) end.
    destruct (drop_same h p q r1 F Tk eq_refl) as (p' & Ep & Ex & Sm).
    { split; [|split; [|split]]; [|done|done|done]. cbn. rewrite D4'. apply DD; apply Hq; lia. }
    exists p'. split; [by rewrite (pbind_ok _ _ _ _ _ Ep)|]. split; [by rewrite Ex|done].
  - right. assert (Ga' : alloc_ok e (i + 10) = true). { cbn in Ga. rewrite e4, N4 in Ga. by replace (i + 10)%nat with (S (S i) + 8)%nat by lia. }
    split. { intros j Hj. destruct j as [|[|j]]; [by rewrite Nat.add_0_r|done|]. destruct (decide (j = 8%nat)) as [->|]; [by replace (i + 10)%nat with (i + S (S 8))%nat in Ga' by lia|]. replace (i + S (S j))%nat with (i + 2 + j)%nat by lia. apply DE. lia. }
    assert (Ha : nx (ps_c q4) = (i + 10)%nat) by (cbn; rewrite N4; lia). rewrite Ha in *. set (a := (i + 10)%nat) in *.
    rewrite (pbind_ok _ _ _ _ _ EC).
    pose proof (tk_o _ _ _ Tk5) as O5. pose proof (tk_dm _ _ _ Tk5) as D5. pose proof (tk_im _ _ _ Tk5) as I5. pose proof (tk_pm _ _ _ Tk5) as P5. pose proof (tk_om _ _ _ Tk5) as OM5. cbn in D5, I5, P5, OM5.
    assert (O5' : ps_o q5 = <[a := (1%nat, NdDouble [Z.of_nat n; Z.of_nat m] (Ptr a 0))]> (ps_o q)).
    { rewrite O5. unfold doO, insert, map_insert. cbn [key]. done. }
    assert (Ed5 : decref (key h) q5 = POk tt (undo h q5)).
    { eapply drop1; [exact Tk|rewrite O5', lookup_insert_ne by lia; done| |by rewrite I5, I4]. intros b' Hb'. fold i in Hb'. rewrite D5, lookup_insert_ne by lia. rewrite D4', !lookup_insert_ne by lia. done. }
    rewrite (pbind_ok _ _ _ _ _ Ed5).
    assert (DU : dm (ps_c (undo h q5)) = <[i := Some <$> xs]> (<[S i := cu]> (<[a := Some <$> img]> (dm (ps_c p))))).
    { cbn. rewrite D5, D4'. rewrite !unD_insert by lia. rewrite (took_unD h p q F Tk). rewrite (insert_commute _ a i) by lia. f_equal. by rewrite (insert_commute _ a (S i)) by lia. }
    rewrite (pbind_cc _ _ (undo h q5) _ _ (free_ok i (ps_c (undo h q5)) (Some <$> xs) ltac:(rewrite DU, lookup_insert; done))).
    rewrite (pbind_cc _ _ (set_c (set_dm (delete i) (ps_c (undo h q5))) (undo h q5)) _ _ (free_ok (S i) (set_dm (delete i) (ps_c (undo h q5))) cu ltac:(cbn [set_dm dm]; rewrite DU, lookup_delete_ne, lookup_insert_ne, lookup_insert by lia; done))).
    match goal with |- context [build_O a ?r0] => set (r1 := r0) end.
    assert (Or : ps_o r1 = <[a := (1%nat, NdDouble [Z.of_nat n; Z.of_nat m] (Ptr a 0))]> (ps_o p)).
    { cbn. rewrite O5', unO_insert by lia. by rewrite (took_unO h p q F Tk). }
    exists K. eexists. split; [done|]. split; [|split].
    + unfold build_O, pbind, incref. rewrite Or, lookup_insert. reflexivity.
    + cbn. rewrite (tk_exc _ _ _ Tk5). cbn. apply Tk.
    + assert (Dr : dm (ps_c r1) = <[a := Some <$> img]> (dm (ps_c p))).
      { change (dm (ps_c r1)) with (delete (S i) (delete i (dm (ps_c (undo h q5))))). rewrite DU. apply DD; rewrite lookup_insert_ne by lia; apply Hnew; lia. }
      split; [apply Hnew; lia|]. split; [apply Hnew; lia|]. split; [cbn [set_o ps_o]; by rewrite insert_insert|]. split; [exact Dr|].
      split; [|split]; cbn; [rewrite I5, I4; by apply took_unI|rewrite P5, P4; apply Tk|rewrite OM5, O4; apply Tk].
Qed.
(** when the caller drops the result, it stays: one reference too many *)
Theorem py_breg_result_never_released p n m img a p' : returned p n m img a 2 p' ->
  exists p'', decref a p' = POk tt p'' /\ returned p n m img a 1 p''.
Proof.
  intros (H1 & H2 & H3 & H4 & H5). eexists. split; [unfold decref; rewrite H3, lookup_insert; reflexivity|].
  split; [done|]. split; [done|]. split; [cbn; by rewrite insert_insert|]. done.
Qed.
End C79.

(** ** Cases *)
Module PyBregEx.
Section ex.
Context `{N : Num}.
(** object 0 is a list of lists, of which numpy makes an array with these dimensions and entries *)
Definition user (e : env) (dims : list Z) (xs : list T) : pst :=
  mkPst (mkSt ∅ ∅ ∅ ∅ (fun _ => true) 1 e glob0) {[0%nat := (1%nat, PyOther)]} None (mkPyEnv (fun _ => Some (dims, xs)) (fun _ => None)).
Lemma user_fresh e dims xs : fresh_py (user e dims xs).
Proof. split; [intros b Hb; done|]. intros b Hb. change (1 <= b)%nat in Hb. cbn [user ps_c ps_o im]. split; [done|]. by rewrite lookup_singleton_ne by lia. Qed.
Lemma user_d e dims xs : holds_d (user e dims xs) 0 dims xs.
Proof. exists 0%nat, PyOther. split; [apply lookup_singleton|done]. Qed.
(** breg_anistropic_TV(f) with the default parameters *)
Definition defaults : breg_kw := mkBregKw 0 None None None None.
Lemma user_call e xs : length xs = 12%nat -> breg_py_call (user e [3; 4] xs) defaults 3 4 xs.
Proof. intros Lx. split; [apply user_fresh|apply user_d|done|lia|lia|unfold INT_MAX; lia|cbn; unfold INT_MAX; lia|cbn; unfold INT_MAX; lia]. Qed.
(** numpy's request is number 1, f_ours 2, uk 3, the solver 4 to 11, the array returned 12 *)
Definition without (i : nat) : env := mkEnv (fun j => negb (Nat.eqb i j)) (fun _ => true) (fun _ _ _ => zero).
(** all memory is granted: the call works, with object 12 the image *)
Example breg_works xs : length xs = 12%nat -> exists K p', stops (breg_err 3 4 1 (ofZ 10) (mul two (ofZ 10)) xs) (lit 1 1000) 1000 K /\
  py_breg (Some defaults) (user env0 [3; 4] xs) = POk (Some 12%nat) p' /\ ps_exc p' = None /\
  returned (user env0 [3; 4] xs) 3 4 (b_u (breg_at 3 4 1 (ofZ 10) (mul two (ofZ 10)) xs K)) 12 2 p'.
Proof.
  intros Lx. destruct (py_breg_outcome _ _ _ _ _ (user_call env0 xs Lx)) as [(_ & H & _)|(_ & [([H|H] & _)|[((j & _ & H) & _)|(_ & K & p' & HK & E & Ex & R)]])]; try discriminate H.
  exists K, p'. done.
Qed.
(** one of the eight requests of the solver is refused: MemoryError, nothing lost *)
Example breg_refused xs : length xs = 12%nat -> exists p', py_breg (Some defaults) (user (without 7) [3; 4] xs) = POk None p' /\ ps_exc p' = Some EMemoryError /\ same_py (user (without 7) [3; 4] xs) p'.
Proof.
  intros Lx. destruct (py_breg_outcome _ _ _ _ _ (user_call (without 7) xs Lx)) as [(_ & H & _)|(_ & [([H|H] & _)|[(_ & _ & _ & p' & E)|(H & _)]])]; try discriminate H.
  - by exists p'.
  - specialize (H 5%nat ltac:(lia)). discriminate H.
Qed.
(** a list of five numbers, a 2 x 5 array, and an array whose size does not fit an int *)
Example breg_rejected xs : (exists p', py_breg (Some defaults) (user env0 [5] xs) = POk None p' /\ ps_exc p' = Some EIndexError) /\
  (exists p', py_breg (Some defaults) (user env0 [2; 5] xs) = POk None p' /\ ps_exc p' = Some EValueError) /\ py_breg (Some defaults) (user env0 [50000; 50000] xs) = PUb UbOverflow.
Proof.
  split; [|split].
  - destruct (py_breg_rejects _ defaults _ _ (user_fresh env0 [5] xs) (user_d env0 [5] xs) eq_refl) as (H & _). destruct (H ltac:(done)) as (p' & E & Ex & _). by exists p'.
  - destruct (py_breg_rejects _ defaults _ _ (user_fresh env0 [2; 5] xs) (user_d env0 [2; 5] xs) eq_refl) as (_ & H & _).
    destruct (H 2 5 eq_refl ltac:(unfold INT_MAX; lia) ltac:(unfold INT_MAX; lia) ltac:(lia)) as (p' & E & Ex & _). by exists p'.
  - destruct (py_breg_rejects _ defaults _ _ (user_fresh env0 [50000; 50000] xs) (user_d env0 [50000; 50000] xs) eq_refl) as (_ & _ & H).
    apply (H 50000 50000 eq_refl); unfold INT_MAX; lia.
Qed.
(** A MemoryError that loses memory: f_ours is granted, uk refused, and f_ours is never released *)
Theorem py_breg_error_keeps_memory_refuted : exists p k n m xs p' b, breg_py_call p k n m xs /\ py_breg (Some k) p = POk None p' /\ ps_exc p' = Some EMemoryError /\
  dm (ps_c p) !! b = None /\ is_Some (dm (ps_c p') !! b).
Proof.
  set (xs := replicate 12 zero). exists (user (without 3) [3; 4] xs), defaults, 3%nat, 4%nat, xs. pose proof (user_call (without 3) xs ltac:(apply replicate_length)) as HC.
  destruct (py_breg_outcome _ _ _ _ _ HC) as [(_ & H & _)|(_ & [(_ & p' & E & Ex & Hp)|[(_ & _ & H & _)|(H & _)]])]; try discriminate H; [|specialize (H 1%nat ltac:(lia)); discriminate H].
  exists p', 2%nat. split; [exact HC|]. split; [exact E|]. split; [exact Ex|]. destruct Hp as (_ & _ & _ & _ & _ & Hp). rewrite filter_cons_True in Hp by done.
  apply Forall_cons in Hp as [Hp _]. exact Hp.
Qed.
(** Every result is lost: after the caller has released it, it is still counted once and its memory still in use *)
Theorem py_breg_releases_result_refuted : exists p k n m xs a p' p'', breg_py_call p k n m xs /\ py_breg (Some k) p = POk (Some a) p' /\ decref a p' = POk tt p'' /\
  ps_o p !! a = None /\ dm (ps_c p) !! a = None /\ (exists d, ps_o p'' !! a = Some (1%nat, NdDouble [Z.of_nat n; Z.of_nat m] d)) /\ is_Some (dm (ps_c p'') !! a).
Proof.
  set (xs := replicate 12 zero). destruct (breg_works xs ltac:(apply replicate_length)) as (K & p' & _ & E & _ & R). destruct (py_breg_result_never_released _ _ _ _ _ _ R) as (p'' & ED & (H1 & H2 & H3 & H4 & _)).
  exists (user env0 [3; 4] xs), defaults, 3%nat, 4%nat, xs, 12%nat, p', p''. split; [apply user_call; apply replicate_length|]. split; [exact E|]. split; [exact ED|]. split; [exact H1|]. split; [exact H2|].
  rewrite H3, H4, !lookup_insert. split; eauto.
Qed.
End ex.
End PyBregEx.

Print Assumptions py_breg_bad_arguments.
Print Assumptions py_breg_rejects.
Print Assumptions py_breg_outcome.
Print Assumptions py_breg_result_never_released.
Print Assumptions PyBregEx.py_breg_error_keeps_memory_refuted.
Print Assumptions PyBregEx.py_breg_releases_result_refuted.
