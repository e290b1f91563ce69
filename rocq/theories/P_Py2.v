(** * The two array arguments of l1qc_dct and nesta_dctTV, from Python: both references taken, both dropped. *)
From stdpp Require Import base list gmap.
From Coq Require Import ZArith Lia.
From Verif Require Import Globals Mem P_Mem P_Memory M_Math M_Memory M_MexUtils M_Mex P_CG S_DctApi S_L1qcDct P_L1qcDct M_Py S_Py P_Py.
Local Open Scope Z_scope.

Section both.
Context `{N : Num}.
Implicit Types (p q r : pst) (h : how).
(** both arguments are arrays in q: the measurements at (b, off), the indices at (mb, mo) *)
Record held p h1 h2 q (dims1 dims2 : list Z) (xs : list T) (zs : list Z) (b : nat) (off : Z) (mb : nat) (mo : Z) : Prop := {
  hd_tk : exists q1, took h1 p q1 /\ took h2 q1 q;
  hd_fresh : fresh_py q; hd_nx : (nx (ps_c p) <= nx (ps_c q))%nat; hd_en : en (ps_c q) = en (ps_c p); hd_exc : ps_exc q = ps_exc p;
  hd_i1 : forall D, doI h1 D = D; hd_d2 : forall D, doD h2 D = D; hd_ne : key h1 <> key h2;
  hd_lt1 : (key h1 < nx (ps_c q))%nat; hd_lt2 : (key h2 < nx (ps_c q))%nat;
  hd_n1 : new_key h1 -> (nx (ps_c p) <= key h1)%nat; hd_n2 : new_key h2 -> (nx (ps_c p) <= key h2)%nat;
  hd_o1 : nd_of (key h1) q = POk (dims1, Ptr b off) q; hd_o2 : nd_of (key h2) q = POk (dims2, Ptr mb mo) q;
  hd_seg : seg (ps_c q) (Ptr b off) xs; hd_ints : ints (ps_c q) (Ptr mb mo) zs; hd_kind : dm (ps_c q) !! mb = None; hd_mb : (mb < nx (ps_c q))%nat }.

(** nothing that was taken has changed *)
Record agree h1 h2 q r : Prop := {
  ag_1 : ps_o r !! key h1 = ps_o q !! key h1; ag_2 : ps_o r !! key h2 = ps_o q !! key h2;
  ag_dm : forall b, (b < nx (ps_c q))%nat -> dm (ps_c r) !! b = dm (ps_c q) !! b; ag_im : im (ps_c r) = im (ps_c q) }.
Definition release h1 h2 r : pst := undo h2 (undo h1 r).

Section held.
Context p h1 h2 q dims1 dims2 xs zs b off mb mo (H : held p h1 h2 q dims1 dims2 xs zs b off mb mo) (Fp : fresh_py p).
Lemma held_o : ps_o q = doO h2 (doO h1 (ps_o p)).
Proof. destruct (hd_tk _ _ _ _ _ _ _ _ _ _ _ _ H) as (q1 & T1 & T2). by rewrite (tk_o _ _ _ T2), (tk_o _ _ _ T1). Qed.
Lemma held_dm : dm (ps_c q) = doD h1 (dm (ps_c p)).
Proof. destruct (hd_tk _ _ _ _ _ _ _ _ _ _ _ _ H) as (q1 & T1 & T2). rewrite (tk_dm _ _ _ T2), (tk_dm _ _ _ T1). apply H. Qed.
Lemma held_im : im (ps_c q) = doI h2 (im (ps_c p)).
Proof. destruct (hd_tk _ _ _ _ _ _ _ _ _ _ _ _ H) as (q1 & T1 & T2). rewrite (tk_im _ _ _ T2), (tk_im _ _ _ T1). by rewrite (hd_i1 _ _ _ _ _ _ _ _ _ _ _ _ H). Qed.
Lemma held_pm : pm (ps_c q) = pm (ps_c p).
Proof. destruct (hd_tk _ _ _ _ _ _ _ _ _ _ _ _ H) as (q1 & T1 & T2). by rewrite (tk_pm _ _ _ T2), (tk_pm _ _ _ T1). Qed.
Lemma held_om : om (ps_c q) = om (ps_c p).
Proof. destruct (hd_tk _ _ _ _ _ _ _ _ _ _ _ _ H) as (q1 & T1 & T2). by rewrite (tk_om _ _ _ T2), (tk_om _ _ _ T1). Qed.
Lemma held_b : (1 <= length xs)%nat -> (b < nx (ps_c q))%nat.
Proof.
  intros HL. destruct (decide (b < nx (ps_c q))%nat) as [|Hn]; [done|]. destruct xs as [|x l]; [simpl in HL; lia|].
  pose proof (hd_seg _ _ _ _ _ _ _ _ _ _ _ _ H 0%nat x eq_refl) as Hc. unfold cell in Hc.
  destruct (proj1 (hd_fresh _ _ _ _ _ _ _ _ _ _ _ _ H) b ltac:(lia)) as [E _]. rewrite E in Hc. by destruct (_ <=? _).
Qed.
(** the reference to the array of ints is not a new array of doubles, and vice versa *)
Lemma not_KI : match h1 with KI _ _ _ => False | _ => True end.
Proof.
  destruct h1 as [| |j d z] eqn:E; [done|done|]. pose proof (hd_i1 _ _ _ _ _ _ _ _ _ _ _ _ H ∅) as Q. cbn in Q. 
  assert (Q' : (<[j:=z]> (∅ : gmap nat (list Z))) !! j = None) by (rewrite Q; apply lookup_empty). by rewrite lookup_insert in Q'.
Qed.
Lemma not_KD : match h2 with KD _ _ _ => False | _ => True end.
Proof.
  destruct h2 as [|j d z|] eqn:E; [done| |done]. pose proof (hd_d2 _ _ _ _ _ _ _ _ _ _ _ _ H ∅) as Q. cbn in Q. 
  assert (Q' : (<[j:=Some <$> z]> (∅ : gmap nat (list (option T)))) !! j = None) by (rewrite Q; apply lookup_empty). by rewrite lookup_insert in Q'.
Qed.
Lemma has_1 r : agree h1 h2 q r -> exists q1, took h1 p q1 /\ has_ref h1 q1 r.
Proof.
  intros A. destruct (hd_tk _ _ _ _ _ _ _ _ _ _ _ _ H) as (q1 & T1 & T2). exists q1. split; [done|]. split.
  - rewrite (ag_1 _ _ _ _ A), (tk_o _ _ _ T2). apply doO_ne. apply H.
  - pose proof not_KI as NK. pose proof (hd_lt1 _ _ _ _ _ _ _ _ _ _ _ _ H) as Hlt. pose proof held_dm as Hd. destruct h1 as [i|j d x|j d z]; [done| |done].
    cbn in *. rewrite (ag_dm _ _ _ _ A) by done. rewrite Hd. cbn. by rewrite lookup_insert.
Qed.
Lemma has_2 r : agree h1 h2 q r -> exists q1, took h2 q1 q /\ has_ref h2 q (undo h1 r).
Proof.
  intros A. destruct (hd_tk _ _ _ _ _ _ _ _ _ _ _ _ H) as (q1 & T1 & T2). exists q1. split; [done|]. pose proof (hd_ne _ _ _ _ _ _ _ _ _ _ _ _ H) as Hne. split.
  - cbn. unfold unO. rewrite lookup_partial_alter_ne by done. apply A.
  - pose proof not_KD as NK. pose proof not_KI as NK1. pose proof held_im as Hi. destruct h2 as [i|j d x|j d z]; [done|done|].
    cbn in *. rewrite (ag_im _ _ _ _ A), Hi. cbn. destruct h1; cbn; [|..|done]; by rewrite lookup_insert.
Qed.
Lemma drop_both r : agree h1 h2 q r -> forall {A} (k : PM A), (decref (key h1) ;@ decref (key h2) ;@ k) r = k (release h1 h2 r).
Proof.
  intros A B k. destruct (has_1 r A) as (q1 & T1 & R1). rewrite (pbind_ok _ _ _ _ _ (drop_run h1 p q1 r T1 R1)).
  destruct (has_2 r A) as (q2 & T2 & R2). by rewrite (pbind_ok _ _ _ _ _ (drop_run h2 q2 q _ T2 R2)).
Qed.
(** dropping both gives back what was there *)
Lemma fresh_o k : (nx (ps_c p) <= k)%nat -> ps_o p !! k = None. Proof. intros Hk. by apply (proj2 Fp). Qed.
Lemma back_o : unO h2 (unO h1 (ps_o q)) = ps_o p.
Proof.
  rewrite held_o, unO_doO_ne by apply H. rewrite (unO_doO h1).
  - apply unO_doO. intros Hn. apply fresh_o. by apply H.
  - intros Hn. apply fresh_o. by apply H.
Qed.
Lemma back_dm : unD h2 (unD h1 (dm (ps_c q))) = dm (ps_c p).
Proof.
  rewrite held_dm, unD_doD.
  - pose proof not_KD. by destruct h2.
  - intros Hn. apply (proj1 Fp). by apply H.
Qed.
Lemma back_im : unI h2 (unI h1 (im (ps_c q))) = im (ps_c p).
Proof.
  rewrite held_im. pose proof not_KI. replace (unI h1 (doI h2 (im (ps_c p)))) with (doI h2 (im (ps_c p))) by (by destruct h1).
  apply unI_doI. intros Hn. apply (proj2 Fp). by apply H.
Qed.
Lemma back_insert_o k v O : (nx (ps_c q) <= k)%nat -> unO h2 (unO h1 (<[k := v]> O)) = <[k := v]> (unO h2 (unO h1 O)).
Proof. intros Hk. pose proof (hd_lt1 _ _ _ _ _ _ _ _ _ _ _ _ H). pose proof (hd_lt2 _ _ _ _ _ _ _ _ _ _ _ _ H). rewrite !unO_insert by lia. done. Qed.
Lemma back_insert_dm k v D : (nx (ps_c q) <= k)%nat -> unD h2 (unD h1 (<[k := v]> D)) = <[k := v]> (unD h2 (unD h1 D)).
Proof. intros Hk. pose proof (hd_lt1 _ _ _ _ _ _ _ _ _ _ _ _ H). pose proof (hd_lt2 _ _ _ _ _ _ _ _ _ _ _ _ H). rewrite !unD_insert by lia. done. Qed.
Lemma back_keep D k : k <> key h1 -> k <> key h2 -> unD h2 (unD h1 D) !! k = D !! k.
Proof. intros H1 H2. pose proof not_KD. destruct h2; [|done|]; cbn in *; (destruct h1; cbn in *; [done| |done]; by rewrite lookup_delete_ne by congruence). Qed.
(** a block below nx p is not touched by the release *)
Lemma back_old D k : (k < nx (ps_c p))%nat -> unD h2 (unD h1 D) !! k = D !! k.
Proof.
  intros Hk. pose proof not_KD as NK. pose proof (hd_n1 _ _ _ _ _ _ _ _ _ _ _ _ H) as N1. destruct h2; [|done|]; cbn in *; (destruct h1; cbn in *; [done| |done]; specialize (N1 I); by rewrite lookup_delete_ne by lia).
Qed.
End held.

Lemma take_both p ib ip dims1 dims2 xs zs : fresh_py p -> holds_d p ib dims1 xs -> holds_i p ip dims2 zs ->
  (exists (r1 r2 : option nat) p1 p2 c, from_otf_d ib p = POk r1 p1 /\ from_otf_i ip p1 = POk r2 p2 /\ (r1 = None \/ r2 = None) /\
     (forall e, (xdecref r1 ;@ xdecref r2) (set_exc e p2) = POk tt (mkPst c (ps_o p) (Some e) (ps_env p))) /\ same_heap (ps_c p) c /\
     exists i, (i <= 1)%nat /\ alloc_ok (en (ps_c p)) (nx (ps_c p) + i) = false) \/
  (exists h1 h2 p1 q b off mb mo, from_otf_d ib p = POk (Some (key h1)) p1 /\ from_otf_i ip p1 = POk (Some (key h2)) q /\
     held p h1 h2 q dims1 dims2 xs zs b off mb mo /\ (nx (ps_c q) <= nx (ps_c p) + 2)%nat).
Proof.
  intros F Hb Hi.
  destruct (from_otf_d_run p ib dims1 xs F Hb) as [[R1 E1]|(h1 & q1 & b & off & c1 & E1 & T1 & I1 & O1 & S1)].
  - left. set (p1 := mkPst _ _ _ _) in E1. 
    assert (F1 : fresh_py p1) by (by apply fresh_tick).
    assert (Hi1 : holds_i p1 ip dims2 zs).
    { destruct Hi as (c & o & Eo & Ho). exists c, o. split; [done|]. destruct o; try done. destruct Ho as (-> & b & off & -> & Ha & Hbn & Hc). split; [done|]. exists b, off. split; [done|]. split; [|split; [done|cbn; lia]].
      intros k z Hk. specialize (Ha k z Hk). unfold ldi in *. cbn. destruct (_ <=? _); [|done]. destruct (im (ps_c p) !! b) as [l|]; [|done]. destruct (l !! Z.to_nat _); [|done]. by injection Ha as ->. }
    destruct (from_otf_i_run p1 ip dims2 zs F1 Hi1) as [[R2 E2]|(h2 & q2 & mb & mo & c2 & E2 & T2 & D2 & O2 & S2 & N2 & L2)].
    + eexists None, None, p1, _, _. split; [exact E1|]. split; [exact E2|]. split; [by left|]. split; [intros e; reflexivity|]. split; [done|]. exists 0%nat. rewrite Nat.add_0_r. by split; [lia|].
    + eexists None, (Some (key h2)), p1, q2, _. split; [exact E1|]. split; [exact E2|]. split; [by left|]. split; [|split].
      * intros e. cbn [xdecref]. rewrite (pbind_ok _ _ _ tt (set_exc e q2)) by done.
        rewrite (drop_run h2 p1 q2 (set_exc e q2) T2).
        2:{ split; [done|]. destruct h2; [done| |]; cbn.
            - rewrite (tk_dm _ _ _ T2). cbn. by rewrite lookup_insert.
            - rewrite (tk_im _ _ _ T2). cbn. by rewrite lookup_insert. }
        unfold undo. cbn. rewrite (tk_env _ _ _ T2). f_equal. f_equal.
        rewrite (tk_o _ _ _ T2). rewrite unO_doO; [done|]. intros Hn. apply (proj2 F1). by apply (tk_new _ _ _ T2).
      * destruct T2 as [To _ _ Td Ti Tp Tm Te _ _ _ _ Tn _ _]. split; [|split; [|split]]; cbn.
        -- rewrite Td, D2. rewrite <- (D2 (dm (ps_c p1))). rewrite unD_doD; [done|]. intros Hn. apply (proj1 F1). by apply Tn.
        -- by rewrite Tm.
        -- by rewrite Tp.
        -- rewrite Ti, unI_doI; [done|]. intros Hn. apply (proj2 F1). by apply Tn.
      * exists 0%nat. rewrite Nat.add_0_r. by split; [lia|].
  - assert (Hn1 : (nx (ps_c q1) <= nx (ps_c p) + 1)%nat).
    { destruct Hb as (c & o & Eo & Ho). unfold from_otf_d in E1. rewrite Eo in E1.
      assert (Q : forall cs d (r : nat), new_nd_d d cs p = POk (Some r) q1 -> (nx (ps_c q1) <= nx (ps_c p) + 1)%nat).
      { intros cs d r. unfold new_nd_d. destruct (alloc_ok _ _); [|done]. injection 1 as _ <-. cbn. lia. }
      destruct o; try (rewrite Ho in E1; by eapply Q). unfold pbind, incref in E1. rewrite Eo in E1. injection E1 as _ <-. cbn. lia. }
    pose proof (took_holds_i h1 p q1 ip dims2 zs F T1 Hi) as Hi1. pose proof (tk_fresh _ _ _ T1) as F1.
    destruct (from_otf_i_run q1 ip dims2 zs F1 Hi1) as [[R2 E2]|(h2 & q2 & mb & mo & c2 & E2 & T2 & D2 & O2 & S2 & N2 & L2)].
    + left. eexists (Some (key h1)), None, q1, _, _. split; [exact E1|]. split; [exact E2|]. split; [by right|]. split; [|split].
      * intros e. cbn [xdecref]. set (r := set_exc e _). rewrite (pbind_ok _ _ _ tt (undo h1 r)).
        2:{ apply (drop_run h1 p q1 r T1). split; [done|]. destruct h1; [done| |]; cbn.
            - rewrite (tk_dm _ _ _ T1). cbn. by rewrite lookup_insert.
            - rewrite (tk_im _ _ _ T1). cbn. by rewrite lookup_insert. }
        unfold pret, undo. cbn. rewrite (tk_env _ _ _ T1). f_equal. f_equal.
        rewrite (tk_o _ _ _ T1). rewrite unO_doO; [done|]. intros Hn. apply (proj2 F). by apply (tk_new _ _ _ T1).
      * destruct T1 as [To _ _ Td Ti Tp Tm Te _ _ _ _ Tn _ _]. split; [|split; [|split]]; cbn.
        -- rewrite Td. rewrite unD_doD; [done|]. intros Hn. apply (proj1 F). by apply Tn.
        -- by rewrite Tm.
        -- by rewrite Tp.
        -- rewrite Ti, unI_doI; [done|]. intros Hn. apply (proj2 F). by apply Tn.
      * unfold refused in R2. rewrite (tk_en _ _ _ T1) in R2. exists (nx (ps_c q1) - nx (ps_c p))%nat. pose proof (tk_nx _ _ _ T1). split; [lia|].
        replace (nx (ps_c p) + (nx (ps_c q1) - nx (ps_c p)))%nat with (nx (ps_c q1)) by lia. done.
    + right. exists h1, h2, q1, q2, b, off, mb, mo. split; [done|]. split; [done|].
      assert (Hne : key h1 <> key h2).
      { intros Ek. rewrite (tk_o _ _ _ T2) in O2. rewrite doO_key, <- Ek, O1 in O2.
        assert (Hn : new_key h2 -> False).
        { intros Hn. pose proof (tk_new _ _ _ T2 Hn) as Q. destruct (proj2 F1 (key h2) Q) as [_ Q2]. rewrite <- Ek in Q2. congruence. }
        destruct h2; cbn in *; [congruence|by apply Hn|by apply Hn]. }
      pose proof (tk_nx _ _ _ T1). pose proof (tk_nx _ _ _ T2). split; [|].
      * split; try done.
        -- eauto.
        -- apply T2.
        -- lia.
        -- by rewrite (tk_en _ _ _ T2), (tk_en _ _ _ T1).
        -- by rewrite (tk_exc _ _ _ T2), (tk_exc _ _ _ T1).
        -- pose proof (tk_lt _ _ _ T1). lia.
        -- apply T2.
        -- apply T1.
        -- intros Hn. pose proof (tk_new _ _ _ T2 Hn). lia.
        -- unfold nd_of. rewrite (tk_o _ _ _ T2), doO_ne by done. by rewrite O1.
        -- unfold nd_of. by rewrite O2.
        -- intros k v Hk. pose proof (S1 k v Hk) as Q. unfold cell in *. rewrite (tk_dm _ _ _ T2), D2. exact Q.
      * destruct Hi1 as (c & o & Eo & Ho). unfold from_otf_i in E2. rewrite Eo in E2.
        assert (Q : forall cs d (r : nat), new_nd_i d cs q1 = POk (Some r) q2 -> (nx (ps_c q2) <= nx (ps_c p) + 2)%nat).
        { intros cs d r. unfold new_nd_i. destruct (alloc_ok _ _); [|done]. injection 1 as _ <-. cbn. lia. }
        destruct o; try (rewrite Ho in E2; by eapply Q). unfold pbind, incref in E2. rewrite Eo in E2. injection E2 as _ <-. cbn. lia.
Qed.
End both.
