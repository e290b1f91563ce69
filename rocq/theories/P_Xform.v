(** * Histories keep a transform's invariant. *)
From Coq Require Import ZArith Lia.
From stdpp Require Import base list.
From Verif Require Import Mem P_Mem P_Touch P_Step P_Newton S_Xform.

Section xform.
Context `{N : Num} (F : list nat) (J : st -> Prop).
Implicit Types (s : st).
(** what has to be shown of one function *)
Definition computes (o : xop) (f : list T -> list T -> list T) : Prop :=
  forall s X xs D ds, J s -> good_call F o s X xs D ds -> length (f ds xs) = x_out o /\
    exists s', x_op o X D s = Ok tt s' /\ touch F (wr D (f ds xs) s) s' /\ J s'.
Lemma oper_computes o A : oper F J (x_op o) (x_in o) (x_out o) A -> computes o (fun _ => A).
Proof.
  intros H s X xs D ds HJ []. split; [by apply (op_len _ _ _ _ _ _ H)|].
  by apply (op_run _ _ _ _ _ _ H).
Qed.
Context (HJs : forall s s', J s -> same_on F s s' -> J s').
Context (ops : list xop).
(** a call that goes through keeps J (its result may be anything) *)
Definition keeps (o : xop) : Prop := forall s X xs D ds s', J s -> good_call F o s X xs D ds -> x_op o X D s = Ok tt s' -> J s'.
Lemma computes_keeps o f : computes o f -> keeps o.
Proof. intros H s X xs D ds s' HJ HG E. destruct (H s X xs D ds HJ HG) as (_ & s2 & E2 & _ & HJ2). congruence. Qed.
Context (HK : forall o, o ∈ ops -> keeps o).
Lemma hist_J s1 s2 : J s1 -> hist F ops s1 s2 -> J s2.
Proof.
  intros HJ H. induction H as [s|s1 s2 s3 H IH Hs|s1 s2 s3 o X xs D ds H IH Ho HG E]; [done| |].
  - eapply HJs; [by apply IH|done].
  - eapply HK; [exact Ho|by apply IH|exact HG|exact E].
Qed.
Lemma always_of s1 o f : J s1 -> computes o f -> always_d F ops s1 o f.
Proof.
  intros HJ HC s2 X xs D ds Hh HG. pose proof (hist_J _ _ HJ Hh) as HJ2.
  destruct (HC _ _ _ _ _ HJ2 HG) as (Lf & s3 & E & Ht & _). exists s3. split; [done|].
  pose proof (gc_d _ _ _ _ _ _ _ HG) as Wd. pose proof (gc_od _ _ _ _ _ _ _ HG) as Od.
  split; [|split; [done|]].
  - destruct D as [|b o']; [|eapply touch_seg; [exact Ht|exact Od|]; apply seg_wr; by rewrite Lf].
    destruct (f ds xs) as [|v vs] eqn:Ef; [intros i v Hi; by rewrite lookup_nil in Hi|].
    simpl in Lf. exfalso. destruct (Wd 0%nat) as [v' Hv]; [lia|]. done.
  - intros Y ys Oy Hd Sy. destruct Y as [|b o'].
    + destruct ys as [|v vs]; [intros i v Hi; by rewrite lookup_nil in Hi|]. exfalso. specialize (Sy 0%nat v eq_refl). done.
    + eapply touch_seg; [exact Ht|exact Oy|]. apply seg_wr_disj; rewrite ?Lf; done.
Qed.
End xform.
