(** * References to Python objects: taking and dropping them. *)
From stdpp Require Import base list gmap.
From Coq Require Import ZArith Lia.
From Verif Require Import Globals Mem P_Mem P_Memory M_Math M_Memory M_MexUtils M_Mex P_CG S_DctApi S_L1qcDct M_Py S_Py.
Local Open Scope Z_scope.

Section monad.
Context `{N : Num}.
Lemma pbind_ok {A B} (m : PM A) (k : A -> PM B) p a q : m p = POk a q -> pbind m k p = k a q. Proof. unfold pbind. by intros ->. Qed.
Lemma pbind_ub {A B} (m : PM A) (k : A -> PM B) p e : m p = PUb e -> pbind m k p = PUb e. Proof. unfold pbind. by intros ->. Qed.
Lemma cc_ok {A} (m : M A) p a s : m (ps_c p) = Ok a s -> cc m p = POk a (set_c s p). Proof. unfold cc. by intros ->. Qed.
Lemma cc_ub {A} (m : M A) p e : m (ps_c p) = Ub e -> cc m p = PUb e. Proof. unfold cc. by intros ->. Qed.
Lemma pbind_cc {A B} (m : M A) (k : A -> PM B) p a s : m (ps_c p) = Ok a s -> pbind (cc m) k p = k a (set_c s p).
Proof. intros E. apply pbind_ok. by apply cc_ok. Qed.
Lemma pbind_ccub {A B} (m : M A) (k : A -> PM B) p e : m (ps_c p) = Ub e -> pbind (cc m) k p = PUb e.
Proof. intros E. apply pbind_ub. by apply cc_ub. Qed.
Lemma pbind_assoc {A B C} (m : PM A) (k : A -> PM B) (l : B -> PM C) p : pbind (pbind m k) l p = pbind m (fun a => pbind (k a) l) p.
Proof. unfold pbind. by destruct (m p). Qed.
Lemma pbind_inv {A B} (m : PM A) (k : A -> PM B) p b r : pbind m k p = POk b r -> exists a q, m p = POk a q /\ k a q = POk b r.
Proof. unfold pbind. destruct (m p); [eauto|done]. Qed.
End monad.

(** ** What taking a reference adds *)
Inductive how `{N : Num} : Type := KSame (i : nat) | KD (j : nat) (dims : list Z) (xs : list T) | KI (j : nat) (dims : list Z) (zs : list Z).
Section refs.
Context `{N : Num}.
Implicit Types (p q r : pst) (h : how).
Definition key h : nat := match h with KSame i => i | KD j _ _ => j | KI j _ _ => j end.
Definition do_o h (x : option (nat * pyobj)) : option (nat * pyobj) :=
  match h with KSame _ => (fun '(c, o) => (S c, o)) <$> x | KD j dims _ => Some (1%nat, NdDouble dims (Ptr j 0)) | KI j dims _ => Some (1%nat, NdInt dims (Ptr j 0)) end.
Definition un_o h (x : option (nat * pyobj)) : option (nat * pyobj) := match h with KSame _ => (fun '(c, o) => (pred c, o)) <$> x | _ => None end.
Definition doO h : gmap nat (nat * pyobj) -> gmap nat (nat * pyobj) := partial_alter (do_o h) (key h).
Definition unO h : gmap nat (nat * pyobj) -> gmap nat (nat * pyobj) := partial_alter (un_o h) (key h).
Definition doD h (D : gmap nat (list (option T))) : gmap nat (list (option T)) := match h with KD j _ xs => <[j := Some <$> xs]> D | _ => D end.
Definition unD h (D : gmap nat (list (option T))) : gmap nat (list (option T)) := match h with KD j _ _ => delete j D | _ => D end.
Definition doI h (I : gmap nat (list Z)) : gmap nat (list Z) := match h with KI j _ zs => <[j := zs]> I | _ => I end.
Definition unI h (I : gmap nat (list Z)) : gmap nat (list Z) := match h with KI j _ _ => delete j I | _ => I end.
Definition undo h p : pst := mkPst (set_dm (unD h) (set_im (unI h) (ps_c p))) (unO h (ps_o p)) (ps_exc p) (ps_env p).

Definition new_key h : Prop := match h with KSame _ => False | _ => True end.
Lemma unO_insert h k v O : k <> key h -> unO h (<[k := v]> O) = <[k := v]> (unO h O).
Proof. intros Hk. unfold unO, insert, map_insert. by apply partial_alter_commute. Qed.
Lemma unO_doO h O : (new_key h -> O !! key h = None) -> unO h (doO h O) = O.
Proof.
  intros H. unfold unO, doO. rewrite <- partial_alter_compose. rewrite <- (partial_alter_self O (key h)) at 2.
  apply partial_alter_ext. intros x Hx. destruct h as [i|j d xs|j d zs]; cbn in *; [|by rewrite H|by rewrite H].
  rewrite Hx. by destruct x as [[c o]|].
Qed.
Lemma unO_doO_ne h1 h2 O : key h1 <> key h2 -> unO h1 (doO h2 O) = doO h2 (unO h1 O).
Proof. intros Hk. unfold unO, doO. by apply partial_alter_commute. Qed.
Lemma doO_ne h O b : b <> key h -> doO h O !! b = O !! b. Proof. intros H. unfold doO. by rewrite lookup_partial_alter_ne. Qed.
Lemma doO_key h O : doO h O !! key h = do_o h (O !! key h). Proof. unfold doO. by rewrite lookup_partial_alter. Qed.
Lemma unD_insert h k v D : k <> key h -> unD h (<[k := v]> D) = <[k := v]> (unD h D).
Proof. intros Hk. destruct h; cbn in *; try done. by rewrite delete_insert_ne by congruence. Qed.
Lemma unD_doD h D : (new_key h -> D !! key h = None) -> unD h (doD h D) = D.
Proof. intros H. destruct h; cbn in *; try done. rewrite delete_insert; [done|]. by apply H. Qed.
Lemma unI_doI h I : (new_key h -> I !! key h = None) -> unI h (doI h I) = I.
Proof. intros H. destruct h; cbn in *; try done. rewrite delete_insert; [done|]. by apply H. Qed.

(** ** References taken *)
Record took h p q : Prop := {
  tk_o : ps_o q = doO h (ps_o p); tk_exc : ps_exc q = ps_exc p; tk_env : ps_env q = ps_env p;
  tk_dm : dm (ps_c q) = doD h (dm (ps_c p)); tk_im : im (ps_c q) = doI h (im (ps_c p)); tk_pm : pm (ps_c q) = pm (ps_c p); tk_om : om (ps_c q) = om (ps_c p);
  tk_en : en (ps_c q) = en (ps_c p); tk_gl : gl (ps_c q) = gl (ps_c p); tk_nx : (nx (ps_c p) <= nx (ps_c q))%nat;
  tk_al : forall b, (b < nx (ps_c p))%nat -> al (ps_c q) b = al (ps_c p) b;
  tk_fresh : fresh_py q; tk_new : new_key h -> (nx (ps_c p) <= key h)%nat; tk_lt : (key h < nx (ps_c q))%nat;
  tk_old : ~ new_key h -> exists c o, ps_o p !! key h = Some (S c, o) }.

Lemma fresh_lt p i x : fresh_py p -> ps_o p !! i = Some x -> (i < nx (ps_c p))%nat.
Proof. intros [_ F] H. destruct (decide (i < nx (ps_c p))%nat) as [|Hn]; [done|]. destruct (F i ltac:(lia)) as [_ E]. congruence. Qed.
Lemma fresh_tick p e : fresh_py p -> fresh_py (mkPst (tick (ps_c p)) (ps_o p) e (ps_env p)).
Proof. intros [U F]. split; [intros b Hb; apply U; cbn in Hb; lia|]. intros b Hb. apply F. cbn in Hb. lia. Qed.
Lemma fresh_new p o e dmf imf alf : fresh_py p -> 
  (forall b, (nx (ps_c p) < b)%nat -> dmf !! b = dm (ps_c p) !! b) -> (forall b, (nx (ps_c p) < b)%nat -> imf !! b = im (ps_c p) !! b) ->
  fresh_py (mkPst (mkSt dmf imf (pm (ps_c p)) (om (ps_c p)) alf (S (nx (ps_c p))) (en (ps_c p)) (gl (ps_c p))) (<[nx (ps_c p) := o]> (ps_o p)) e (ps_env p)).
Proof.
  intros [U F] Hd Hi. split.
  - intros b Hb. cbn in *. rewrite Hd by lia. apply U. lia.
  - intros b Hb. cbn in *. rewrite Hi by lia. rewrite lookup_insert_ne by lia. apply F. lia.
Qed.
Lemma new_nd_d_took p dims xs : fresh_py p -> alloc_ok (en (ps_c p)) (nx (ps_c p)) = true ->
  exists q, new_nd_d dims (Some <$> xs) p = POk (Some (nx (ps_c p))) q /\ took (KD (nx (ps_c p)) dims xs) p q.
Proof.
  intros F E. unfold new_nd_d. rewrite E. eexists. split; [reflexivity|]. destruct (F) as [U Fo].
  split; cbn; try done; try lia.
  - intros b Hb. by rewrite (proj2 (Nat.eqb_neq _ _)) by lia.
  - apply fresh_new; [done|..]; cbn; intros b Hb; rewrite ?lookup_insert_ne by lia; done.
Qed.
Lemma new_nd_i_took p dims zs : fresh_py p -> alloc_ok (en (ps_c p)) (nx (ps_c p)) = true ->
  exists q, new_nd_i dims zs p = POk (Some (nx (ps_c p))) q /\ took (KI (nx (ps_c p)) dims zs) p q.
Proof.
  intros F E. unfold new_nd_i. rewrite E. eexists. split; [reflexivity|].
  split; cbn; try done; try lia.
  apply fresh_new; [done|..]; cbn; intros b Hb; rewrite ?lookup_insert_ne by lia; done.
Qed.
Lemma same_took p i c o : fresh_py p -> ps_o p !! i = Some (S c, o) ->
  exists q, pbind (incref i) (fun _ => pret (Some i)) p = POk (Some i) q /\ took (KSame i) p q /\ ps_c q = ps_c p.
Proof.
  intros F E. unfold pbind, incref. rewrite E. eexists. split; [reflexivity|]. split; [|done].
  pose proof (fresh_lt _ _ _ F E) as Hlt.
  split; cbn; try done; try lia.
  - unfold doO, insert, map_insert. apply partial_alter_ext. intros x Hx. cbn in *. rewrite <- Hx. by rewrite E.
  - destruct F as [U Fo]. split; [done|]. intros b Hb. cbn in Hb. split; [by apply Fo|]. cbn. rewrite lookup_insert_ne by lia. by apply Fo.
  - eauto.
Qed.

Definition refused p : Prop := alloc_ok (en (ps_c p)) (nx (ps_c p)) = false.
Lemma from_otf_d_run p i dims xs : fresh_py p -> holds_d p i dims xs ->
  (refused p /\ from_otf_d i p = POk None (mkPst (tick (ps_c p)) (ps_o p) (Some EMemoryError) (ps_env p))) \/
  (exists h q b off c, from_otf_d i p = POk (Some (key h)) q /\ took h p q /\ (forall D, doI h D = D) /\
     ps_o q !! key h = Some (c, NdDouble dims (Ptr b off)) /\ seg (ps_c q) (Ptr b off) xs).
Proof.
  intros F (c & o & E & H). unfold from_otf_d. rewrite E.
  assert (Hn : match o with NdDouble _ _ => False | _ => True end -> conv_d (ps_env p) i = Some (dims, xs) ->
    (refused p /\ new_nd_d dims (Some <$> xs) p = POk None (mkPst (tick (ps_c p)) (ps_o p) (Some EMemoryError) (ps_env p))) \/
    (exists h q b off c, new_nd_d dims (Some <$> xs) p = POk (Some (key h)) q /\ took h p q /\ (forall D, doI h D = D) /\
     ps_o q !! key h = Some (c, NdDouble dims (Ptr b off)) /\ seg (ps_c q) (Ptr b off) xs)).
  { intros _ _. destruct (alloc_ok (en (ps_c p)) (nx (ps_c p))) eqn:Ea.
    - right. destruct (new_nd_d_took p dims xs F Ea) as (q & Eq & Tk). exists (KD (nx (ps_c p)) dims xs), q, (nx (ps_c p)), 0, 1%nat. split; [done|]. split; [done|]. split; [done|]. split.
      + rewrite (tk_o _ _ _ Tk), doO_key. done.
      + intros k v Hk. unfold cell. rewrite (tk_dm _ _ _ Tk). cbn. rewrite lookup_insert. rewrite (proj2 (Z.leb_le 0 _)) by lia. rewrite ?Z.add_0_l, Nat2Z.id, list_lookup_fmap, Hk. done.
    - left. split; [done|]. unfold new_nd_d. by rewrite Ea. }
  destruct o as [dims' d|dims' d|l|l|]; try (rewrite H; by apply Hn).
  right. destruct H as (-> & b & off & -> & Sg). destruct (same_took p i c _ F E) as (q & Eq & Tk & Ec). exists (KSame i), q, b, off, (S (S c)).
  split; [exact Eq|]. split; [done|]. split; [done|]. split; [by rewrite (tk_o _ _ _ Tk), doO_key; cbn; rewrite E|]. by rewrite Ec.
Qed.
Lemma from_otf_i_run p i dims zs : fresh_py p -> holds_i p i dims zs ->
  (refused p /\ from_otf_i i p = POk None (mkPst (tick (ps_c p)) (ps_o p) (Some EMemoryError) (ps_env p))) \/
  (exists h q b off c, from_otf_i i p = POk (Some (key h)) q /\ took h p q /\ (forall D, doD h D = D) /\
     ps_o q !! key h = Some (c, NdInt dims (Ptr b off)) /\ ints (ps_c q) (Ptr b off) zs /\ dm (ps_c q) !! b = None /\ (b < nx (ps_c q))%nat).
Proof.
  intros F (c & o & E & H). unfold from_otf_i. rewrite E.
  assert (Hn : 
    (refused p /\ new_nd_i dims zs p = POk None (mkPst (tick (ps_c p)) (ps_o p) (Some EMemoryError) (ps_env p))) \/
    (exists h q b off c, new_nd_i dims zs p = POk (Some (key h)) q /\ took h p q /\ (forall D, doD h D = D) /\
     ps_o q !! key h = Some (c, NdInt dims (Ptr b off)) /\ ints (ps_c q) (Ptr b off) zs /\ dm (ps_c q) !! b = None /\ (b < nx (ps_c q))%nat)).
  { destruct (alloc_ok (en (ps_c p)) (nx (ps_c p))) eqn:Ea.
    - right. destruct (new_nd_i_took p dims zs F Ea) as (q & Eq & Tk). exists (KI (nx (ps_c p)) dims zs), q, (nx (ps_c p)), 0, 1%nat. split; [done|]. split; [done|]. split; [done|]. split; [|split; [|split]].
      + rewrite (tk_o _ _ _ Tk), doO_key. done.
      + intros k v Hk. unfold ldi. rewrite (tk_im _ _ _ Tk). cbn. rewrite lookup_insert. rewrite (proj2 (Z.leb_le 0 _)) by lia. rewrite ?Z.add_0_l, Nat2Z.id, Hk. done.
      + rewrite (tk_dm _ _ _ Tk). cbn. by apply F.
      + apply (tk_lt _ _ _ Tk).
    - left. split; [done|]. unfold new_nd_i. by rewrite Ea. }
  destruct o as [dims' d|dims' d|l|l|]; try (rewrite H; by apply Hn).
  right. destruct H as (-> & b & off & -> & Sg & Hd & Hb). destruct (same_took p i c _ F E) as (q & Eq & Tk & Ec). exists (KSame i), q, b, off, (S (S c)).
  split; [exact Eq|]. split; [done|]. split; [done|]. split; [by rewrite (tk_o _ _ _ Tk), doO_key; cbn; rewrite E|]. by rewrite Ec.
Qed.
(** other objects keep what they hold *)
Lemma took_holds_i h p q i dims zs : fresh_py p -> took h p q -> holds_i p i dims zs -> holds_i q i dims zs.
Proof.
  intros F Tk (c & o & E & H).
  assert (Hq : exists c', ps_o q !! i = Some (S c', o)).
  { rewrite (tk_o _ _ _ Tk). destruct (decide (i = key h)) as [->|Hne].
    - rewrite doO_key, E. destruct h as [j|j d xs|j d xs]; cbn in *; [eauto| |]; exfalso; pose proof (tk_new _ _ _ Tk I); apply (fresh_lt _ _ _ F) in E; cbn in *; lia.
    - rewrite doO_ne by done. eauto. }
  destruct Hq as (c' & Eq). exists c', o. split; [done|].
  destruct o as [dims' d|dims' d|l|l|]; try (by rewrite (tk_env _ _ _ Tk)).
  destruct H as (-> & b & off & -> & Hi & Hd & Hb). split; [done|]. exists b, off. split; [done|].
  assert (Hk : new_key h -> b <> key h) by (intros Hn; pose proof (tk_new _ _ _ Tk Hn); lia).
  split; [|split].
  - intros k z Hk'. specialize (Hi k z Hk'). unfold ldi in *. rewrite (tk_im _ _ _ Tk).
    replace (doI h (im (ps_c p)) !! b) with (im (ps_c p) !! b) by (destruct h; cbn in *; [done|done|]; rewrite lookup_insert_ne; [done|]; intros ->; by apply Hk).
    destruct (_ <=? _); [|done]. destruct (im (ps_c p) !! b) as [l|]; [|done]. destruct (l !! Z.to_nat _); [|done]. by injection Hi as ->.
  - rewrite (tk_dm _ _ _ Tk). destruct h; cbn in *; try done. rewrite lookup_insert_ne; [done|]. intros ->. by apply Hk.
  - pose proof (tk_nx _ _ _ Tk). lia.
Qed.
Lemma took_seg h p q b off xs : took h p q -> (b < nx (ps_c p))%nat -> seg (ps_c p) (Ptr b off) xs -> seg (ps_c q) (Ptr b off) xs.
Proof.
  intros Tk Hb Sg k v Hk. specialize (Sg k v Hk). unfold cell in *. rewrite (tk_dm _ _ _ Tk). destruct h; cbn; try done.
  pose proof (tk_new _ _ _ Tk I). cbn in *. by rewrite lookup_insert_ne by lia.
Qed.

(** ** Dropping a reference *)
(** r still has what was taken *)
Definition has_ref h q r : Prop := ps_o r !! key h = ps_o q !! key h /\
  match h with KSame _ => True | KD j _ _ => is_Some (dm (ps_c r) !! j) | KI j _ _ => is_Some (im (ps_c r) !! j) end.
Lemma set_id s : set_dm (fun D => D) (set_im (fun D => D) s) = s. Proof. by destruct s. Qed.
Lemma drop_run h p q r : took h p q -> has_ref h q r -> decref (key h) r = POk tt (undo h r).
Proof.
  intros Tk [Ho Hb]. unfold decref. rewrite Ho, (tk_o _ _ _ Tk), doO_key. pose proof (tk_old _ _ _ Tk) as Old.
  destruct h as [i|j d xs|j d zs]; cbn in *.
  - destruct (Old (fun x => x)) as (c & o & E). rewrite E. cbn. unfold undo, set_o. do 2 f_equal.
    + unfold unD, unI. symmetry. by destruct (ps_c r).
    + unfold unO, insert, map_insert. apply partial_alter_ext. intros x Hx. cbn in *. rewrite <- Hx, Ho, (tk_o _ _ _ Tk). pose proof (doO_key (KSame i) (ps_o p)) as Q. cbn [key] in Q. rewrite Q. cbn. by rewrite E.
  - unfold decref1. rewrite Ho, (tk_o _ _ _ Tk). pose proof (doO_key (KD j d xs) (ps_o p)) as Q. cbn [key] in Q. rewrite Q. cbn. destruct Hb as [x Hx]. unfold cc. cbn. rewrite Hx. unfold undo, set_o, set_c. cbn. do 2 f_equal.
  - unfold decref1. rewrite Ho, (tk_o _ _ _ Tk). pose proof (doO_key (KI j d zs) (ps_o p)) as Q. cbn [key] in Q. rewrite Q. cbn. destruct Hb as [x Hx]. unfold cc. cbn. rewrite Hx. unfold undo, set_o, set_c. cbn. do 2 f_equal.
Qed.

(** ** The copy that is returned *)
Lemma int_of_size_id z : INT_MIN <= z <= INT_MAX -> int_of_size z = z.
Proof. intros H. unfold int_of_size. unfold INT_MIN, INT_MAX in H. rewrite Z.mod_small; lia. Qed.
Lemma copy_run p (nr nc : nat) b off xs : fresh_py p -> length xs = (nr * nc)%nat -> Z.of_nat nr <= INT_MAX -> Z.of_nat (nr * nc) <= INT_MAX -> (b < nx (ps_c p))%nat -> seg (ps_c p) (Ptr b off) xs ->
  let cp := SimpleDoubleCopy [Z.of_nat nr; Z.of_nat nc] (Ptr b off) in
  (refused p /\ cp p = POk None (mkPst (tick (ps_c p)) (ps_o p) (Some EMemoryError) (ps_env p))) \/
  (alloc_ok (en (ps_c p)) (nx (ps_c p)) = true /\ exists q, cp p = POk (Some (nx (ps_c p))) q /\ took (KD (nx (ps_c p)) [Z.of_nat nr; Z.of_nat nc] xs) p q /\ nx (ps_c q) = S (nx (ps_c p))).
Proof.
  intros F HL Hr HM Hb Sg cp. unfold cp, SimpleDoubleCopy, simple_new.
  rewrite (proj2 (forallb_forall _ _)) by (intros x [<-|[<-|[]]]; apply Z.leb_le; lia).
  assert (Hlen : Z.to_nat (foldr Z.mul 1 [Z.of_nat nr; Z.of_nat nc]) = (nr * nc)%nat) by (cbn [foldr]; lia).
  rewrite Hlen.
  destruct (alloc_ok (en (ps_c p)) (nx (ps_c p))) eqn:Ea.
  2:{ left. split; [done|]. erewrite pbind_ok by (unfold new_nd_d; rewrite Ea; reflexivity). done. }
  right. split; [done|]. set (a := nx (ps_c p)) in *.
  erewrite pbind_ok by (unfold new_nd_d; fold a; rewrite Ea; reflexivity).
  cbv iota. erewrite pbind_ok.
  2:{ unfold from_otf_d. cbn [ps_o]. rewrite lookup_insert. unfold pbind, incref. cbn [ps_o]. rewrite lookup_insert. unfold pret, set_o. cbn [ps_o ps_c ps_exc ps_env]. rewrite insert_insert. reflexivity. }
  cbv iota. erewrite pbind_ok.
  2:{ unfold nd_of. cbn [ps_o]. rewrite lookup_insert. reflexivity. }
  cbv iota. cbn [fold_left snd]. 
  assert (Hn : int_of_size (int_of_size (1 * Z.of_nat nr) * Z.of_nat nc) = Z.of_nat (nr * nc)).
  { rewrite Z.mul_1_l, (int_of_size_id (Z.of_nat nr)) by (unfold INT_MIN; lia). rewrite int_of_size_id; unfold INT_MIN; lia. }
  rewrite Hn. erewrite pbind_cc.
  2:{ cbn [ps_c]. apply dcopy_run with (xs := xs); [|done| |].
      - intros k v Hk. specialize (Sg k v Hk). unfold cell in *. cbn. rewrite lookup_insert_ne by (unfold a; lia). done.
      - eapply wok_block; [cbn; apply lookup_insert|]. by rewrite replicate_length.
      - unfold disj. left. unfold a. lia. }
  erewrite pbind_ok.
  2:{ unfold decref. cbn [ps_o set_c]. rewrite lookup_insert. unfold set_o. cbn [ps_o ps_c set_c ps_exc ps_env]. rewrite insert_insert. reflexivity. }
  eexists. split; [reflexivity|].
  set (s1 := tick _). assert (Hblk : dm s1 !! a = Some (replicate (nr * nc) None)) by (cbn; apply lookup_insert).
  rewrite (wr_block _ _ _ _ Hblk) by (by rewrite replicate_length).
  split; [|done]. split; cbn; try done; try lia.
  - by rewrite insert_insert.
  - intros b' Hb'. by rewrite (proj2 (Nat.eqb_neq _ _)) by lia.
  - apply fresh_new; [done|..]; cbn; intros b' Hb'; fold a in Hb'; rewrite ?lookup_insert_ne by lia; done.
Qed.
End refs.
