(** * Specification vocabulary for memory.

    [seg s p xs]  : the array at p can be read and holds the list xs         (P_Mem.v)
    [wok s p n]   : n cells starting at p can be written                     (P_Mem.v)
    [disj p n q k]: p[0..n-1] and q[0..k-1] do not overlap                   (P_Mem.v)
    [wr p ys s]   : the state s with p[0..] overwritten by ys, nothing else changed (Mem.v) *)
From Coq Require Import ZArith Lia.
From stdpp Require Import base numbers gmap list.
From Verif Require Export P_Mem.
Local Open Scope Z_scope.

Section spec.
Context `{N : Num}.

(** The C function [op X D] turns the n-vector xs at X into the n-vector ys at D: from every state
    where X holds xs, D can be written and the two do not overlap, the call ends without undefined
    behaviour and the only change is that D now holds ys. *)
Definition computes (op : ptr -> ptr -> M unit) (n : nat) (xs ys : list T) : Prop :=
  length ys = n /\
  forall s X D, seg s X xs -> wok s D n -> disj D n X n -> op X D s = Ok tt (wr D ys s).

(** p points to the start of a block of exactly n doubles *)
Definition whole (s : st) (p : ptr) (n : nat) : Prop :=
  exists b c, p = Ptr b 0 /\ dm s !! b = Some c /\ length c = n.

(** every access of the run is fine *)
Definition safe {A} (m : M A) (s : st) : Prop := exists a s', m s = Ok a s'.

(** for executed examples: the returned value, and the contents of a block after the call *)
Definition result {A} (m : M A) (s : st) : option A := match m s with Ok a _ => Some a | Ub _ => None end.
Definition after {A} (m : M A) (s : st) (b : nat) : option (list (option T)) :=
  match m s with Ok _ s' => dm s' !! b | Ub _ => None end.

(** *** demonstration states *)
Definition env0 : env := mkEnv (fun _ => true) (fun _ => true) (fun _ _ _ => zero).
(** blocks 0,1,2,... hold the given contents; all aligned *)
Definition state_of (bl : list (list (option T))) : st :=
  mkSt (list_to_map (zip (seq 0 (length bl)) bl)) ∅ ∅ ∅ (fun _ => true) (length bl) env0 glob0.
(** a block holding xs, and an uninitialised block of n cells *)
Definition full (xs : list T) : list (option T) := Some <$> xs.
Definition fresh (n : nat) : list (option T) := replicate n None.

Lemma state_of_lookup bl b c : bl !! b = Some c -> dm (state_of bl) !! b = Some c.
Proof.
  intros H. simpl. apply elem_of_list_to_map_1.
  - rewrite fst_zip by (rewrite seq_length; lia). apply NoDup_ListNoDup. apply seq_NoDup.
  - apply elem_of_list_lookup. exists b. rewrite lookup_zip_with.
    rewrite lookup_seq_lt by (by eapply lookup_lt_Some). simpl. by rewrite H.
Qed.
Lemma state_of_seg bl b xs : bl !! b = Some (full xs) -> seg (state_of bl) (Ptr b 0) xs.
Proof.
  intros H i v Hi. unfold cell. rewrite (state_of_lookup _ _ _ H).
  rewrite (proj2 (Z.leb_le _ _)) by lia. rewrite Z.add_0_l, Nat2Z.id.
  unfold full. by rewrite list_lookup_fmap, Hi.
Qed.
Lemma state_of_wok bl b c n : bl !! b = Some c -> (n <= length c)%nat -> wok (state_of bl) (Ptr b 0) n.
Proof.
  intros H Hn i Hi. unfold cell. rewrite (state_of_lookup _ _ _ H).
  rewrite (proj2 (Z.leb_le _ _)) by lia. rewrite Z.add_0_l, Nat2Z.id.
  apply lookup_lt_is_Some_2. lia.
Qed.
Lemma disj_blocks b b' o o' n k : b <> b' -> disj (Ptr b o) n (Ptr b' o') k.
Proof. simpl. intros H E. done. Qed.

Lemma whole_wok s p n : whole s p n -> wok s p n.
Proof.
  intros (b & c & -> & Hb & Hc) i Hi. unfold cell. rewrite Hb.
  rewrite (proj2 (Z.leb_le _ _)) by lia. apply lookup_lt_is_Some_2. lia.
Qed.
Lemma whole_out s p n i : whole s p n -> i < 0 \/ Z.of_nat n <= i -> cell s p i = None.
Proof.
  intros (b & c & -> & Hb & Hc) Hi. unfold cell. rewrite Hb, Z.add_0_l.
  destruct (0 <=? i) eqn:E; [|done]. apply Z.leb_le in E. apply lookup_ge_None_2. lia.
Qed.
Lemma whole_wr s p n q ys : whole s p n -> whole (wr q ys s) p n.
Proof.
  intros (b & c & -> & Hb & Hc). destruct q as [|b' o']; simpl; [by exists b, c|].
  destruct (decide (b' = b)) as [->|Hne].
  - exists b, (list_inserts (Z.to_nat o') (Some <$> ys) c). split; [done|].
    split; [|by rewrite inserts_length]. simpl. by rewrite lookup_alter, Hb.
  - exists b, c. split; [done|]. split; [|done]. simpl. by rewrite lookup_alter_ne by done.
Qed.
Lemma ld_out s p i : cell s p i = None -> ld p i s = Ub UbOob.
Proof. unfold ld. by intros ->. Qed.
Lemma sto_out s p i v : cell s p i = None -> sto p i v s = Ub UbOob.
Proof. unfold sto. by intros ->. Qed.

(** [computes] pins the result down *)
Lemma computes_det op n xs ys zs s X D :
  computes op n xs ys -> computes op n xs zs ->
  seg s X xs -> wok s D n -> disj D n X n -> ys = zs.
Proof.
  intros [L1 H1] [L2 H2] Hs Hw Hd.
  specialize (H1 s X D Hs Hw Hd). specialize (H2 s X D Hs Hw Hd). rewrite H1 in H2.
  injection H2 as E. apply (seg_inj (wr D ys s) D); [| |congruence].
  - apply seg_wr. by rewrite L1.
  - rewrite E. apply seg_wr. by rewrite L2.
Qed.
End spec.
