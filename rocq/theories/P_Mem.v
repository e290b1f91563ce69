(** * Basic facts about the memory model. *)
From Coq Require Import ZArith Lia.
From stdpp Require Import base numbers gmap list.
From Verif Require Export Mem.
Local Open Scope Z_scope.

Section facts.
Context `{N : Num}.
Implicit Types (s : st) (p q : ptr) (xs ys : list T).

(** [xs] can be read starting at [p] *)
Definition seg s p xs : Prop :=
  forall i v, xs !! i = Some v -> cell s p (Z.of_nat i) = Some (Some v).

(** [n] cells starting at [p] can be written *)
Definition wok s p (n : nat) : Prop :=
  forall i, (i < n)%nat -> is_Some (cell s p (Z.of_nat i)).

(** the ranges p[0..n-1] and q[0..k-1] do not overlap *)
Definition disj p (n : nat) q (k : nat) : Prop :=
  match p, q with
  | Ptr b o, Ptr b' o' => b = b' -> o + Z.of_nat n <= o' \/ o' + Z.of_nat k <= o \/ n = 0%nat \/ k = 0%nat
  | _, _ => True
  end.

(** vector given by a function on indices *)
Definition tab (n : nat) (f : nat -> T) : list T := f <$> seq 0 n.
(** entry of a vector *)
Definition at_ (xs : list T) (i : nat) : T := nth i xs zero.

Lemma tab_length n f : length (tab n f) = n.
Proof. unfold tab. rewrite fmap_length, seq_length. done. Qed.
Lemma tab_lookup n f i : (i < n)%nat -> tab n f !! i = Some (f i).
Proof. intros. unfold tab. rewrite list_lookup_fmap, lookup_seq_lt by done. done. Qed.
Lemma tab_S n f : tab (S n) f = tab n f ++ [f n].
Proof. unfold tab. rewrite seq_S, fmap_app. done. Qed.
Lemma tab_ext n f g : (forall i, (i < n)%nat -> f i = g i) -> tab n f = tab n g.
Proof.
  intros H. apply list_eq. intros i. destruct (decide (i < n)%nat).
  - rewrite !tab_lookup by done. f_equal. auto.
  - rewrite !lookup_ge_None_2; rewrite ?tab_length; auto; lia.
Qed.
Lemma at_tab n f i : (i < n)%nat -> at_ (tab n f) i = f i.
Proof. intros. unfold at_. apply nth_lookup_Some. by apply tab_lookup. Qed.
Lemma at_lookup xs i : (i < length xs)%nat -> xs !! i = Some (at_ xs i).
Proof. intros H. unfold at_. destruct (lookup_lt_is_Some_2 xs i H) as [x Hx]. rewrite Hx. f_equal. symmetry. by apply nth_lookup_Some. Qed.
Lemma lookup_at xs i v : xs !! i = Some v -> at_ xs i = v.
Proof. intros. unfold at_. by apply nth_lookup_Some. Qed.
Lemma tab_at xs : tab (length xs) (at_ xs) = xs.
Proof.
  apply list_eq. intros i. destruct (decide (i < length xs)%nat).
  - rewrite tab_lookup by done. by rewrite at_lookup.
  - rewrite !lookup_ge_None_2; rewrite ?tab_length; auto; lia.
Qed.
Lemma eq_tab xs n f : length xs = n -> (forall i, (i < n)%nat -> at_ xs i = f i) -> xs = tab n f.
Proof. intros <- H. rewrite <- (tab_at xs) at 1. apply tab_ext. done. Qed.
Lemma at_app_l xs ys i : (i < length xs)%nat -> at_ (xs ++ ys) i = at_ xs i.
Proof. intros. unfold at_. apply app_nth1. done. Qed.
Lemma at_app_r xs ys i : at_ (xs ++ ys) (length xs + i) = at_ ys i.
Proof. unfold at_. rewrite app_nth2 by lia. f_equal. lia. Qed.

Lemma list_inserts_app (A : Type) (k1 k2 l : list A) (i : nat) :
  list_inserts i (k1 ++ k2) l = list_inserts (length k1 + i) k2 (list_inserts i k1 l).
Proof.
  apply list_eq. intros j.
  assert (Hlen : forall (k : list A) i l, length (list_inserts i k l) = length l)
    by (intros; apply inserts_length).
  destruct (decide (j < length l)%nat) as [Hj|Hj].
  2:{ rewrite !lookup_ge_None_2; auto; rewrite !Hlen; lia. }
  destruct (decide (i <= j < i + length (k1 ++ k2))%nat) as [Hr|Hr].
  - rewrite list_lookup_inserts by lia.
    rewrite app_length in Hr.
    destruct (decide (j < i + length k1)%nat).
    + rewrite list_lookup_inserts_lt by lia. rewrite list_lookup_inserts by lia.
      rewrite lookup_app_l by lia. done.
    + rewrite list_lookup_inserts by (rewrite ?Hlen; lia).
      rewrite lookup_app_r by lia. f_equal. lia.
  - rewrite app_length in Hr.
    assert (Hc : (j < i \/ i + length k1 + length k2 <= j)%nat) by lia.
    destruct Hc.
    + rewrite !list_lookup_inserts_lt by lia. done.
    + rewrite !list_lookup_inserts_ge by (rewrite ?app_length; lia). done.
Qed.

(** *** cell and wr *)
Lemma cell_padd s p k i : cell s (padd p k) i = cell s p (k + i).
Proof. destruct p; simpl; auto. by rewrite Z.add_assoc. Qed.
Lemma padd_0 p : padd p 0 = p.
Proof. destruct p; simpl; auto. by rewrite Z.add_0_r. Qed.
Lemma padd_padd p i j : padd (padd p i) j = padd p (i + j).
Proof. destruct p; simpl; auto. by rewrite Z.add_assoc. Qed.

(** is q[j] inside p[0..n-1] ? *)
Definition inside p (n : nat) q (j : Z) : bool :=
  match p, q with
  | Ptr b o, Ptr b' o' => Nat.eqb b b' && (o <=? o' + j) && (o' + j <? o + Z.of_nat n)
  | _, _ => false
  end.
Definition poff p q : Z :=
  match p, q with Ptr _ o, Ptr _ o' => o' - o | _, _ => 0 end.

Definition nonneg p : Prop := match p with Null => True | Ptr _ o => 0 <= o end.

Lemma cell_wr s p ys q j :
  nonneg p ->
  cell (wr p ys s) q j =
    if inside p (length ys) q j then
      match cell s q j with Some _ => Some (ys !! Z.to_nat (poff p q + j)) | None => None end
    else cell s q j.
Proof.
  intros Hn. destruct p as [|b o]; simpl; [destruct q; done|].
  destruct q as [|b' o']; simpl; [done|].
  simpl in Hn. destruct (Nat.eqb_spec b b') as [->|Hne]; simpl.
  2:{ rewrite lookup_alter_ne by done. done. }
  rewrite lookup_alter. destruct (0 <=? o' + j) eqn:H0; [apply Z.leb_le in H0|apply Z.leb_gt in H0].
  2:{ destruct ((o <=? o' + j) && (o' + j <? o + Z.of_nat (length ys))) eqn:E; [|done].
      apply andb_true_iff in E as [E1 E2]. done. }
  destruct (dm s !! b') as [c|] eqn:Hb; simpl; [|by destruct (_ && _)].
  destruct ((o <=? o' + j) && (o' + j <? o + Z.of_nat (length ys))) eqn:E.
  - apply andb_true_iff in E as [E1 E2]. apply Z.leb_le in E1. apply Z.ltb_lt in E2.
    destruct (c !! Z.to_nat (o' + j)) eqn:Hc.
    + apply lookup_lt_Some in Hc.
      rewrite list_lookup_inserts by (rewrite ?fmap_length; lia).
      rewrite list_lookup_fmap.
      replace (Z.to_nat (o' + j) - Z.to_nat o)%nat with (Z.to_nat (o' - o + j)) by lia.
      destruct (ys !! Z.to_nat (o' - o + j)) eqn:Hy; [done|].
      apply lookup_ge_None_1 in Hy. lia.
    + apply lookup_ge_None_1 in Hc. apply lookup_ge_None_2. rewrite inserts_length. lia.
  - apply andb_false_iff in E. 
    destruct (decide (Z.to_nat (o'+j) < Z.to_nat o)%nat).
    + rewrite list_lookup_inserts_lt by lia. done.
    + destruct E as [E|E]; [apply Z.leb_gt in E; lia|apply Z.ltb_ge in E].
      rewrite list_lookup_inserts_ge by (rewrite fmap_length; lia). done.
Qed.

Lemma wr_nil s p : wr p [] s = s.
Proof.
  destruct p as [|b o]; simpl; [done|]. destruct s as [dm0 im0 pm0 om0 al0 nx0 en0 gl0]; unfold set_dm; simpl. f_equal.
  apply map_eq. intros i. destruct (decide (b = i)) as [<-|].
  - rewrite lookup_alter. by destruct (dm0 !! b).
  - by rewrite lookup_alter_ne.
Qed.

Lemma wr_app s p xs ys :
  nonneg p ->
  wr (padd p (Z.of_nat (length xs))) ys (wr p xs s) = wr p (xs ++ ys) s.
Proof.
  destruct p as [|b o]; simpl; [done|]. intros Ho. destruct s as [dm0 im0 pm0 om0 al0 nx0 en0 gl0]; unfold set_dm; simpl. f_equal.
  apply map_eq. intros i. destruct (decide (b = i)) as [<-|].
  - rewrite !lookup_alter. destruct (dm0 !! b); simpl; [|done]. f_equal.
    rewrite fmap_app, list_inserts_app, fmap_length. f_equal. lia.
  - by rewrite !lookup_alter_ne.
Qed.

Lemma wr_overwrite s p xs ys :
  nonneg p -> length xs = length ys ->
  wr p ys (wr p xs s) = wr p ys s.
Proof.
  destruct p as [|b o]; simpl; [done|]. intros Ho Hl. destruct s as [dm0 im0 pm0 om0 al0 nx0 en0 gl0]; unfold set_dm; simpl. f_equal.
  apply map_eq. intros i. destruct (decide (b = i)) as [<-|].
  2:{ by rewrite !lookup_alter_ne. }
  rewrite !lookup_alter. destruct (dm0 !! b) as [c|]; simpl; [|done]. f_equal.
  apply list_eq. intros j.
  destruct (decide (j < length c)%nat) as [Hj|Hj].
  2:{ rewrite !lookup_ge_None_2; auto; rewrite !inserts_length; lia. }
  destruct (decide (j < Z.to_nat o)%nat).
  { rewrite !list_lookup_inserts_lt by lia. done. }
  destruct (decide (j < Z.to_nat o + length ys)%nat).
  - rewrite !list_lookup_inserts by (rewrite ?inserts_length, ?fmap_length; lia). done.
  - rewrite !list_lookup_inserts_ge by (rewrite ?inserts_length, ?fmap_length; lia). done.
Qed.

Lemma wr_comm s p xs q ys :
  nonneg p -> nonneg q -> disj p (length xs) q (length ys) ->
  wr p xs (wr q ys s) = wr q ys (wr p xs s).
Proof.
  destruct p as [|b o]; simpl; [done|]. destruct q as [|b' o']; simpl; [done|].
  intros Ho Ho' Hd. destruct s as [dm0 im0 pm0 om0 al0 nx0 en0 gl0]; unfold set_dm; simpl. f_equal.
  destruct (decide (b = b')) as [<-|Hne].
  2:{ by rewrite alter_commute. }
  apply map_eq. intros i. destruct (decide (b = i)) as [<-|].
  2:{ by rewrite !lookup_alter_ne. }
  rewrite !lookup_alter. destruct (dm0 !! b) as [c|]; simpl; [|done]. f_equal.
  specialize (Hd eq_refl).
  apply list_eq. intros j.
  destruct (decide (j < length c)%nat) as [Hj|Hj].
  2:{ rewrite !lookup_ge_None_2; auto; rewrite !inserts_length; lia. }
  assert (Hlen : forall (k : list (option T)) i l, length (list_inserts i k l) = length l)
    by (intros; apply inserts_length).
  destruct (decide (Z.to_nat o <= j < Z.to_nat o + length xs)%nat) as [A|A];
  destruct (decide (Z.to_nat o' <= j < Z.to_nat o' + length ys)%nat) as [B|B]; try lia.
  - rewrite (list_lookup_inserts _ _ (Some <$> xs) j) by (rewrite ?Hlen, ?fmap_length; lia).
    assert (j < Z.to_nat o' \/ Z.to_nat o' + length ys <= j)%nat as [C|C] by lia.
    + rewrite (list_lookup_inserts_lt _ _ (Some <$> ys) j) by lia.
      rewrite (list_lookup_inserts _ _ (Some <$> xs) j) by (rewrite ?Hlen, ?fmap_length; lia). done.
    + rewrite (list_lookup_inserts_ge _ _ (Some <$> ys) j) by (rewrite ?fmap_length; lia).
      rewrite (list_lookup_inserts _ _ (Some <$> xs) j) by (rewrite ?Hlen, ?fmap_length; lia). done.
  - rewrite (list_lookup_inserts _ _ (Some <$> ys) j) by (rewrite ?Hlen, ?fmap_length; lia).
    assert (j < Z.to_nat o \/ Z.to_nat o + length xs <= j)%nat as [C|C] by lia.
    + rewrite (list_lookup_inserts_lt _ _ (Some <$> xs) j) by lia.
      rewrite (list_lookup_inserts _ _ (Some <$> ys) j) by (rewrite ?Hlen, ?fmap_length; lia). done.
    + rewrite (list_lookup_inserts_ge _ _ (Some <$> xs) j) by (rewrite ?fmap_length; lia).
      rewrite (list_lookup_inserts _ _ (Some <$> ys) j) by (rewrite ?Hlen, ?fmap_length; lia). done.
  - assert (j < Z.to_nat o' \/ Z.to_nat o' + length ys <= j)%nat as [C|C] by lia;
    assert (j < Z.to_nat o \/ Z.to_nat o + length xs <= j)%nat as [D|D] by lia;
    repeat first [ rewrite (list_lookup_inserts_lt _ _ (Some <$> xs) j) by lia
                 | rewrite (list_lookup_inserts_lt _ _ (Some <$> ys) j) by lia
                 | rewrite (list_lookup_inserts_ge _ _ (Some <$> xs) j) by (rewrite ?fmap_length; lia)
                 | rewrite (list_lookup_inserts_ge _ _ (Some <$> ys) j) by (rewrite ?fmap_length; lia) ]; done.
Qed.

(** *** single accesses *)
Lemma ld_ok s p i v : cell s p i = Some (Some v) -> ld p i s = Ok v s.
Proof. unfold ld. by intros ->. Qed.
Lemma sto_ok s p i v : is_Some (cell s p i) -> sto p i v s = Ok tt (wr (padd p i) [v] s).
Proof. unfold sto. intros [c ->]. done. Qed.
Lemma seg_ld s p xs i : seg s p xs -> (i < length xs)%nat -> ld p (Z.of_nat i) s = Ok (at_ xs i) s.
Proof. intros H Hi. apply ld_ok. apply H. by apply at_lookup. Qed.
Lemma wok_sto s p n i v : wok s p n -> (i < n)%nat ->
  sto p (Z.of_nat i) v s = Ok tt (wr (padd p (Z.of_nat i)) [v] s).
Proof. intros H Hi. apply sto_ok. by apply H. Qed.

Lemma seg_cell s p xs i : seg s p xs -> (i < length xs)%nat ->
  cell s p (Z.of_nat i) = Some (Some (at_ xs i)).
Proof. intros H Hi. apply H. by apply at_lookup. Qed.
Lemma seg_wok s p xs : seg s p xs -> wok s p (length xs).
Proof. intros H i Hi. rewrite (seg_cell s p xs) by done. eauto. Qed.
Lemma seg_nil s p : seg s p [].
Proof. intros i v. by rewrite lookup_nil. Qed.
Lemma wok_le s p n k : wok s p n -> (k <= n)%nat -> wok s p k.
Proof. intros H Hle i Hi. apply H. lia. Qed.
Lemma wok_padd s p n k l : wok s p n -> (k + l <= n)%nat -> wok s (padd p (Z.of_nat k)) l.
Proof. intros H Hle i Hi. rewrite cell_padd. rewrite <- Nat2Z.inj_add. apply H. lia. Qed.
Lemma seg_app s p xs ys :
  seg s p (xs ++ ys) <-> seg s p xs /\ seg s (padd p (Z.of_nat (length xs))) ys.
Proof.
  split.
  - intros H. split.
    + intros i v Hi. apply H. rewrite lookup_app_l; [done|]. by eapply lookup_lt_Some.
    + intros i v Hi. rewrite cell_padd. rewrite <- Nat2Z.inj_add. apply H.
      rewrite lookup_app_r by lia. rewrite <- Hi. f_equal. lia.
  - intros [H1 H2] i v Hi. apply lookup_app_Some in Hi as [Hi|[Hl Hi]].
    + by apply H1.
    + apply H2 in Hi. rewrite cell_padd in Hi. rewrite <- Hi. f_equal. lia.
Qed.
Lemma seg_ext s p xs n : (forall i, (i < n)%nat -> cell s p (Z.of_nat i) = Some (Some (at_ xs i))) ->
  length xs = n -> seg s p xs.
Proof. intros H Hl i v Hi. rewrite H. - by rewrite (lookup_at _ _ _ Hi). - rewrite <- Hl. by eapply lookup_lt_Some. Qed.
Lemma seg_inj s p xs ys : seg s p xs -> seg s p ys -> length xs = length ys -> xs = ys.
Proof.
  intros H1 H2 Hl. rewrite <- (tab_at xs). symmetry. apply eq_tab; [done|].
  intros i Hi. pose proof (seg_cell _ _ _ i H1 Hi) as E1.
  pose proof (seg_cell _ _ _ i H2 ltac:(lia)) as E2. congruence.
Qed.

Lemma disj_sym p n q k : disj p n q k -> disj q k p n.
Proof. destruct p, q; simpl; auto. intros H ->. destruct H as [|[|[|]]]; auto; lia. Qed.
Lemma disj_le p n q k n' k' : disj p n q k -> (n' <= n)%nat -> (k' <= k)%nat -> disj p n' q k'.
Proof. destruct p, q; simpl; auto. intros H Hn Hk Hb. specialize (H Hb). lia. Qed.
Lemma disj_inside p n q k j : disj p n q k -> 0 <= j < Z.of_nat k -> inside p n q j = false.
Proof.
  destruct p as [|b o], q as [|b' o']; simpl; auto. intros H Hj.
  destruct (Nat.eqb_spec b b') as [->|]; simpl; auto. specialize (H eq_refl).
  apply andb_false_iff.
  destruct (o <=? o' + j) eqn:E1; auto. destruct (o' + j <? o + Z.of_nat n) eqn:E2; auto.
  apply Z.leb_le in E1. apply Z.ltb_lt in E2. lia.
Qed.
Lemma inside_false_nil p q j : inside p 0 q j = false.
Proof.
  destruct p as [|b o], q as [|b' o']; simpl; auto.
  apply andb_false_iff. destruct (Nat.eqb b b'); simpl; auto.
  destruct (o <=? o' + j) eqn:E1; auto. right. apply Z.ltb_ge. apply Z.leb_le in E1. lia.
Qed.

Lemma wok_nonneg s p n : wok s p n -> (0 < n)%nat -> nonneg p.
Proof.
  intros H Hn. destruct (H 0%nat Hn) as [c Hc]. destruct p as [|b o]; simpl in *; [done|].
  rewrite Z.add_0_r in Hc. destruct (0 <=? o) eqn:E; [by apply Z.leb_le|done].
Qed.
(** [nonneg] never needs to be checked for an empty write *)
Lemma cell_wr' s p ys q j :
  wok s p (length ys) ->
  cell (wr p ys s) q j =
    if inside p (length ys) q j then Some (ys !! Z.to_nat (poff p q + j)) else cell s q j.
Proof.
  intros Hw. destruct ys as [|y ys].
  { rewrite wr_nil. simpl. by rewrite inside_false_nil. }
  assert (Hn : nonneg p) by (eapply wok_nonneg; [exact Hw|simpl; lia]).
  rewrite cell_wr by done. destruct (inside p (length (y :: ys)) q j) eqn:E; [|done].
  destruct p as [|b o]; [done|]. destruct q as [|b' o']; [done|]. simpl in E.
  apply andb_true_iff in E as [E E3]. apply andb_true_iff in E as [E1 E2].
  apply Nat.eqb_eq in E1. apply Z.leb_le in E2. apply Z.ltb_lt in E3. subst b'.
  assert (Hi : (Z.to_nat (o' + j - o) < length (y :: ys))%nat) by (simpl length; lia).
  destruct (Hw _ Hi) as [c Hc].
  assert (Hc' : cell s (Ptr b o') j = Some c).
  { unfold cell in Hc |- *. replace (o + Z.of_nat (Z.to_nat (o' + j - o))) with (o' + j) in Hc by lia. done. }
  rewrite Hc'. done.
Qed.
Lemma wok_wr s p ys q n : wok s p (length ys) -> wok s q n -> wok (wr p ys s) q n.
Proof.
  intros Hw H i Hi. rewrite cell_wr' by done. destruct (inside _ _ _ _) eqn:E; [|by apply H].
  destruct p as [|b o]; [done|]. destruct q as [|b' o']; [done|]. eauto.
Qed.
Lemma seg_wr s p ys : wok s p (length ys) -> seg (wr p ys s) p ys.
Proof.
  intros Hw i v Hi. rewrite cell_wr' by done.
  pose proof (lookup_lt_Some _ _ _ Hi) as Hl.
  destruct p as [|b o].
  { destruct (Hw i Hl) as [c Hc]. done. }
  simpl. rewrite Nat.eqb_refl. simpl.
  rewrite (proj2 (Z.leb_le _ _)) by lia. rewrite (proj2 (Z.ltb_lt _ _)) by lia. simpl.
  rewrite <- Hi. do 2 f_equal. lia.
Qed.
Lemma seg_wr_disj s p ys q xs :
  wok s p (length ys) -> seg s q xs -> disj p (length ys) q (length xs) -> seg (wr p ys s) q xs.
Proof.
  intros Hw H Hd i v Hi. rewrite cell_wr' by done.
  rewrite (disj_inside _ _ _ (length xs)) by (auto; apply lookup_lt_Some in Hi; lia). by apply H.
Qed.
Lemma cell_wr_other s p ys q j :
  wok s p (length ys) -> inside p (length ys) q j = false -> cell (wr p ys s) q j = cell s q j.
Proof. intros Hw H. rewrite cell_wr' by done. by rewrite H. Qed.

Lemma wr_app' s p xs ys :
  wok s p (length (xs ++ ys)) ->
  wr (padd p (Z.of_nat (length xs))) ys (wr p xs s) = wr p (xs ++ ys) s.
Proof.
  intros Hw. destruct (xs ++ ys) eqn:E.
  - apply app_nil in E as [-> ->]. by rewrite !wr_nil.
  - rewrite <- E. apply wr_app. eapply wok_nonneg; [exact Hw|simpl; lia].
Qed.
Lemma wr_overwrite' s p xs ys :
  wok s p (length xs) -> length xs = length ys -> wr p ys (wr p xs s) = wr p ys s.
Proof.
  intros Hw Hl. destruct xs as [|x xs].
  - destruct ys; [|done]. by rewrite !wr_nil.
  - apply wr_overwrite; [|done]. eapply wok_nonneg; [exact Hw|simpl; lia].
Qed.
Lemma wr_comm' s p xs q ys :
  wok s p (length xs) -> wok s q (length ys) -> disj p (length xs) q (length ys) ->
  wr p xs (wr q ys s) = wr q ys (wr p xs s).
Proof.
  intros Hp Hq Hd. destruct xs as [|x xs]; [by rewrite !wr_nil|].
  destruct ys as [|y ys]; [by rewrite !wr_nil|].
  apply wr_comm; auto; eapply wok_nonneg; eauto; simpl; lia.
Qed.

(** unchanged parts of the state *)
Lemma im_wr p ys s : im (wr p ys s) = im s. Proof. by destruct p. Qed.
Lemma pm_wr p ys s : pm (wr p ys s) = pm s. Proof. by destruct p. Qed.
Lemma om_wr p ys s : om (wr p ys s) = om s. Proof. by destruct p. Qed.
Lemma al_wr p ys s : al (wr p ys s) = al s. Proof. by destruct p. Qed.
Lemma nx_wr p ys s : nx (wr p ys s) = nx s. Proof. by destruct p. Qed.
Lemma en_wr p ys s : en (wr p ys s) = en s. Proof. by destruct p. Qed.
Lemma gl_wr p ys s : gl (wr p ys s) = gl s. Proof. by destruct p. Qed.
Lemma is_aligned_wr p ys s q : is_aligned (wr p ys s) q = is_aligned s q.
Proof. unfold is_aligned. by rewrite al_wr. Qed.

(** *** monad *)
Lemma bind_ok {A B} (m : M A) (k : A -> M B) s a s' : m s = Ok a s' -> bind m k s = k a s'.
Proof. unfold bind. by intros ->. Qed.
Lemma bind_ub {A B} (m : M A) (k : A -> M B) s e : m s = Ub e -> bind m k s = Ub e.
Proof. unfold bind. by intros ->. Qed.
Lemma bind_inv {A B} (m : M A) (k : A -> M B) s b s'' :
  bind m k s = Ok b s'' -> exists a s', m s = Ok a s' /\ k a s' = Ok b s''.
Proof. unfold bind. destruct (m s) eqn:E; [|done]. eauto. Qed.
Lemma i32_ok z s : INT_MIN <= z <= INT_MAX -> i32 z s = Ok z s.
Proof. intros H. unfold i32, in_int. rewrite (proj2 (Z.leb_le _ _)), (proj2 (Z.leb_le _ _)) by lia. done. Qed.
Lemma restrict_ok p n q k s : disj p n q k -> restrict p (Z.of_nat n) q (Z.of_nat k) s = Ok tt s.
Proof.
  intros H. unfold restrict, overlap. destruct p as [|b o], q as [|b' o']; simpl in *; try done.
  destruct (Nat.eqb_spec b b') as [->|]; simpl; [|done].
  specialize (H eq_refl).
  destruct (0 <? Z.of_nat n) eqn:E1; simpl; [|done].
  destruct (0 <? Z.of_nat k) eqn:E2; simpl; [|done].
  destruct (o <? o' + Z.of_nat k) eqn:E3; simpl; [|done].
  destruct (o' <? o + Z.of_nat n) eqn:E4; [|done].
  apply Z.ltb_lt in E1, E2, E3, E4. lia.
Qed.

(** *** loops *)
Lemma forn_inv (I : nat -> st) (k : nat) (lo : Z) (body : Z -> M unit) :
  (forall i, (i < k)%nat -> body (lo + Z.of_nat i) (I i) = Ok tt (I (S i))) ->
  forn k lo body (I 0%nat) = Ok tt (I k).
Proof.
  revert lo I. induction k as [|k IH]; intros lo I H; simpl; [done|].
  specialize (H 0%nat ltac:(lia)) as H0. rewrite Z.add_0_r in H0.
  rewrite (bind_ok _ _ _ _ _ H0).
  apply (IH (lo + 1) (fun i => I (S i))). intros i Hi.
  replace (lo + 1 + Z.of_nat i) with (lo + Z.of_nat (S i)) by lia. apply H. lia.
Qed.
End facts.
