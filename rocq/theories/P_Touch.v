(** * Frames: which blocks a piece of code may write, operators as arguments, and tactics for runs. *)
From Coq Require Import ZArith Lia.
From stdpp Require Import base numbers gmap list.
From Verif Require Export P_Loop P_Math S_Mem.
Local Open Scope Z_scope.

Section touch.
Context `{N : Num}.
Implicit Types (s : st) (W F : list nat).

(** s' differs from s at most in the contents of the blocks W *)
Record touch W s s' : Prop := mkTouch {
  t_dm : forall b, b ∉ W -> dm s' !! b = dm s !! b;
  t_len : forall b, length <$> dm s' !! b = length <$> dm s !! b;
  t_im : im s' = im s; t_pm : pm s' = pm s; t_om : om s' = om s; t_al : al s' = al s;
  t_nx : nx s' = nx s; t_en : en s' = en s; t_gl : gl s' = gl s
}.
Lemma touch_refl W s : touch W s s.
Proof. by split. Qed.
Lemma touch_trans W s1 s2 s3 : touch W s1 s2 -> touch W s2 s3 -> touch W s1 s3.
Proof.
  intros H1 H2. split.
  - intros b Hb. rewrite (t_dm _ _ _ H2), (t_dm _ _ _ H1) by done. done.
  - intros b. rewrite (t_len _ _ _ H2), (t_len _ _ _ H1). done.
  - by rewrite (t_im _ _ _ H2), (t_im _ _ _ H1).
  - by rewrite (t_pm _ _ _ H2), (t_pm _ _ _ H1).
  - by rewrite (t_om _ _ _ H2), (t_om _ _ _ H1).
  - by rewrite (t_al _ _ _ H2), (t_al _ _ _ H1).
  - by rewrite (t_nx _ _ _ H2), (t_nx _ _ _ H1).
  - by rewrite (t_en _ _ _ H2), (t_en _ _ _ H1).
  - by rewrite (t_gl _ _ _ H2), (t_gl _ _ _ H1).
Qed.
Lemma touch_weaken W W' s s' : touch W s s' -> (forall b, b ∈ W -> b ∈ W') -> touch W' s s'.
Proof. intros [] H. split; auto. Qed.
Lemma touch_wr W s b o ys : b ∈ W -> touch W s (wr (Ptr b o) ys s).
Proof.
  intros Hb. split; try done; simpl.
  - intros b' Hb'. apply lookup_alter_ne. intros ->. done.
  - intros b'. destruct (decide (b = b')) as [->|]; [|by rewrite lookup_alter_ne].
    rewrite lookup_alter. destruct (dm s !! b'); simpl; [|done]. f_equal. apply inserts_length.
Qed.
Lemma touch_cell W s s' b o i : touch W s s' -> b ∉ W -> cell s' (Ptr b o) i = cell s (Ptr b o) i.
Proof. intros [] Hb. unfold cell. by rewrite t_dm0. Qed.
Lemma touch_seg W s s' b o xs : touch W s s' -> b ∉ W -> seg s (Ptr b o) xs -> seg s' (Ptr b o) xs.
Proof. intros Ht Hb H i v Hi. rewrite (touch_cell W s s') by done. by apply H. Qed.
Lemma touch_wok W s s' p n : touch W s s' -> wok s p n -> wok s' p n.
Proof.
  intros [] H i Hi. specialize (H i Hi). destruct p as [|b o]; [done|]. unfold cell in *.
  destruct (0 <=? o + Z.of_nat i); [|done]. specialize (t_len0 b).
  destruct (dm s !! b) as [c|], (dm s' !! b) as [c'|]; simpl in *; try done.
  inversion t_len0 as [Hl]. apply lookup_lt_is_Some_2. rewrite Hl. by apply lookup_lt_is_Some_1.
Qed.
Lemma touch_aligned W s s' p : touch W s s' -> is_aligned s' p = is_aligned s p.
Proof. intros []. unfold is_aligned. by rewrite t_al0. Qed.
Lemma touch_ldp W s s' b c : touch W s s' -> pm s !! b = Some c -> pm s' !! b = Some c.
Proof. intros []. by rewrite t_pm0. Qed.

(** pointer outside a list of blocks *)
Definition outside (p : ptr) F : Prop := match p with Null => True | Ptr b _ => b ∉ F end.

(** [op] is a linear-operator callback: it computes [A] from n doubles to m doubles.  It may keep
    private data in the blocks F (with invariant J), which the callers' buffers avoid.  Nothing but
    J and the argument buffers is assumed about the state it is called in. *)
Record oper (F : list nat) (J : st -> Prop) (op : ptr -> ptr -> M unit) (n m : nat) (A : list T -> list T) : Prop := {
  op_run : forall s X xs D, J s -> seg s X xs -> length xs = n -> wok s D m -> disj D m X n ->
    is_aligned s X = true -> is_aligned s D = true -> outside X F -> outside D F ->
    exists s', op X D s = Ok tt s' /\ touch F (wr D (A xs) s) s' /\ J s';
  op_J : forall W s s', J s -> touch W s s' -> (forall b, b ∈ W -> b ∉ F) -> J s';
  op_len : forall xs, length xs = n -> length (A xs) = m
}.
End touch.

(** *** tactics *)
Lemma scal_of_len `{Num} n a xs : length (scal_of n a xs) = n. Proof. apply tab_length. Qed.
Lemma axpy_of_len `{Num} n a xs ys : length (axpy_of n a xs ys) = n. Proof. apply tab_length. Qed.
Lemma axpby_of_len `{Num} n a xs b ys : length (axpby_of n a xs b ys) = n. Proof. apply tab_length. Qed.
Lemma xmuly_of_len `{Num} n xs ys : length (xmuly_of n xs ys) = n. Proof. apply tab_length. Qed.
Lemma const_of_len `{Num} n a : length (const_of n a) = n. Proof. apply tab_length. Qed.
Lemma abs_of_len `{Num} n xs : length (abs_of n xs) = n. Proof. apply tab_length. Qed.
Global Hint Rewrite @scal_of_len @axpy_of_len @axpby_of_len @xmuly_of_len @const_of_len @abs_of_len @tab_length : len.
Ltac len := autorewrite with len; first [assumption | reflexivity | lia | done | (rewrite ?app_length; lia) ].

(** a <> b, hidden from lia (which splits every disequality in two cases) *)
Definition dn (a b : nat) : Prop := a <> b.
Lemma dn_sym a b : dn a b -> dn b a. Proof. unfold dn. auto. Qed.
Ltac neq := 
  match goal with
  | H : dn ?a ?b |- ?a <> ?b => exact H
  | H : dn ?a ?b |- ?b <> ?a => exact (dn_sym _ _ H)
  | |- dn _ _ => unfold dn; neq
  | |- _ => neq0
  end with neq0 := first [assumption | (apply not_eq_sym; assumption) | discriminate | lia | congruence].
(** b ∉ [..] for distinct blocks *)
Ltac notin := 
  match goal with
  | |- _ ∉ [] => apply not_elem_of_nil
  | |- _ ∉ _ :: _ => apply not_elem_of_cons; split; [neq|notin]
  | |- _ ∉ _ ++ _ => apply not_elem_of_app; split; notin
  | |- outside (Ptr _ _) _ => unfold outside; notin
  | |- _ => assumption
  end.
Ltac isin := 
  match goal with
  | |- _ ∈ _ :: _ => first [apply elem_of_list_here | apply elem_of_list_further; isin]
  | |- _ ∈ _ ++ _ => apply elem_of_app; first [left; isin | right; isin]
  | |- _ => assumption
  end.
Ltac dis := first [apply disj_blocks; neq | apply disj_sym; apply disj_blocks; neq | assumption].
Ltac wokt := 
  match goal with
  | H : wok ?s ?p ?n |- wok ?s ?p ?n => exact H
  | H : seg ?s ?p ?xs |- wok ?s ?p _ => eapply wok_le; [apply (seg_wok _ _ _ H)|len]
  | |- wok (wr _ _ _) _ _ => apply wok_wr; wokt
  | H : wok ?s ?p _ |- wok ?s ?p _ => eapply wok_le; [exact H|len]
  | H : touch _ ?s ?s' |- wok ?s' _ _ => apply (touch_wok _ _ _ _ _ H); wokt
  end.
(** wok goals after rewriting the length of a written vector *)
Ltac woklen := autorewrite with len; wokt.
Ltac segt :=
  match goal with
  | H : seg ?s ?p ?xs |- seg ?s ?p ?xs => exact H
  | |- seg (wr ?p ?ys _) ?p ?ys => apply seg_wr; woklen
  | |- seg (wr _ _ _) _ _ => apply seg_wr_disj; [woklen|segt|dis]
  | H : touch _ ?s ?s' |- seg ?s' _ _ => apply (touch_seg _ _ _ _ _ _ H); [notin|segt]
  end.
Ltac alt :=
  match goal with
  | H : is_aligned ?s ?p = true |- is_aligned ?s ?p = true => exact H
  | |- is_aligned (wr _ _ _) _ = true => rewrite is_aligned_wr; alt
  | H : touch _ ?s ?s' |- is_aligned ?s' _ = true => rewrite (touch_aligned _ _ _ _ H); alt
  end.
Ltac tcht :=
  match goal with
  | |- touch _ ?s ?s => apply touch_refl
  | H : touch ?W ?s ?s' |- touch ?W ?s ?s' => exact H
  | |- touch _ _ (wr _ _ _) => eapply touch_trans; [|apply touch_wr; isin]; tcht
  | H : touch _ ?s1 ?s' |- touch _ _ ?s' => eapply touch_trans; [|eapply touch_weaken; [exact H|]]; [tcht|]
  end.
(** from NoDup [a; b; ..]: all the inequalities *)
Ltac distinct H :=
  let D := fresh "D" in pose proof H as D;
  repeat match type of D with
  | NoDup (_ :: _) => let E := fresh "E" in apply NoDup_cons in D as [E D];
      repeat match type of E with
      | ?a ∉ ?b :: _ => let G := fresh "Ne" in apply not_elem_of_cons in E as [G E]; change (dn a b) in G
      end; clear E
  end; clear D.
(** b ∈ L from Hb : b ∈ L' *)
Ltac sub Hb := 
  repeat (rewrite elem_of_app in Hb || rewrite elem_of_cons in Hb || rewrite elem_of_nil in Hb);
  repeat (rewrite elem_of_app || rewrite elem_of_cons || rewrite elem_of_nil); clear - Hb; tauto.
