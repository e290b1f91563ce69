(** * Tactics for symbolic execution: moving all the facts about a state over a step. *)
From Coq Require Import ZArith Lia.
From stdpp Require Import base numbers gmap list.
From Verif Require Export P_Touch.
Local Open Scope Z_scope.

Section step.
Context `{N : Num}.
Lemma touch_of_wr W s b o ys s' : touch W (wr (Ptr b o) ys s) s' -> touch (b :: W) s s'.
Proof.
  intros H. eapply touch_trans; [apply (touch_wr (b :: W)); left|]. eapply touch_weaken; [exact H|].
  intros c Hc. by right.
Qed.
Lemma seg_of_wr W s b o ys s' : touch W (wr (Ptr b o) ys s) s' -> b ∉ W -> wok s (Ptr b o) (length ys) -> seg s' (Ptr b o) ys.
Proof. intros H Hb Hw. apply (touch_seg _ _ _ _ _ _ H Hb). by apply seg_wr. Qed.
Lemma touch_nil W s s' : touch [] s s' -> touch W s s'.
Proof. intros H. eapply touch_weaken; [exact H|]. intros c Hc. by apply elem_of_nil in Hc. Qed.
End step.

(** forall b, b ∈ W -> b ∈ W0 *)
Ltac subW := let c := fresh "c" in let Hc := fresh "Hc" in intros c Hc; sub Hc.
(** forall b, b ∈ W -> b ∉ F, from the hypotheses [b ∉ F] *)
Ltac avoid := 
  let c := fresh "c" in let Hc := fresh "Hc" in intros c Hc;
  repeat (apply elem_of_cons in Hc as [->|Hc]; [assumption|]); by apply elem_of_nil in Hc.

(** Given HT : touch W t t', restate at t' everything known at t.  The old facts are cleared. *)
Ltac xfer HT :=
  match type of HT with touch ?W ?t ?t' =>
  repeat match goal with
  | H : seg t (Ptr ?b ?o) ?xs |- _ =>
      first
      [ let H' := fresh "H'" in
        assert (H' : seg t' (Ptr b o) xs) by (apply (touch_seg _ _ _ _ _ _ HT); [notin|exact H]);
        clear H; rename H' into H
      | apply seg_wok, (touch_wok _ _ _ _ _ HT) in H ]
  | H : wok t _ _ |- _ => apply (touch_wok _ _ _ _ _ HT) in H
  | H : is_aligned t _ = true |- _ => rewrite <- (touch_aligned _ _ _ _ HT) in H
  | H : pm t !! _ = Some _ |- _ => apply (touch_ldp _ _ _ _ _ HT) in H
  | H : touch ?W0 ?s0 t |- _ =>
      let H' := fresh "H'" in
      assert (H' : touch W0 s0 t') by (eapply touch_trans; [exact H|eapply touch_weaken; [exact HT|subW]]);
      clear H; rename H' into H
  | HO : oper ?F ?J _ _ _ _, H : ?J t |- _ =>
      let H' := fresh "H'" in
      assert (H' : J t') by (apply (op_J _ _ _ _ _ _ HO W t t' H HT); avoid);
      clear H; rename H' into H
  end
  end.

(** the current command writes ys to p:  E : cmd t = Ok v (wr p ys t) *)
Ltac after_wr Hnew t' :=
  match goal with
  | |- context [wr (Ptr ?b ?o) ?ys ?t] =>
      let HT := fresh "HT" in
      assert (HT : touch [b] t (wr (Ptr b o) ys t)) by (apply touch_wr; left);
      assert (Hnew : seg (wr (Ptr b o) ys t) (Ptr b o) ys) by (apply seg_wr; woklen);
      remember (wr (Ptr b o) ys t) as t' eqn:Heqt'; clear Heqt';
      xfer HT; clear HT
  end.
(** call the operator with specification HO at X (contents xs, length Lx) and D *)
Ltac ostep HO X D Lx Hnew HJ t' :=
  match type of HO with oper ?F ?J _ _ _ _ =>
  match goal with HJ0 : J ?t |- _ =>
      let E := fresh "E" in let HT := fresh "HT" in let LA := fresh "LA" in let H := fresh "H" in
      match type of Lx with length ?xs = _ =>
      pose proof (op_len _ _ _ _ _ _ HO xs Lx) as LA;
      pose proof (op_run _ _ _ _ _ _ HO t X xs D HJ0 ltac:(segt) Lx ltac:(wokt) ltac:(dis) ltac:(alt) ltac:(alt) ltac:(notin) ltac:(notin)) as H
      end;
      destruct H as (t' & E & HT & HJ'); rewrite (bind_ok _ _ _ _ _ E); clear E HJ0;
      match type of HT with touch _ (wr (Ptr ?b ?o) ?ys _) _ =>
        assert (Hnew : seg t' (Ptr b o) ys) by (apply (seg_of_wr _ _ _ _ _ _ HT); [assumption|woklen])
      end;
      apply touch_of_wr in HT; xfer HT; clear HT; rename HJ' into HJ
  end end.
(** run [cmd] by [lem], which says  cmd t = Ok tt (wr p ys t) *)
Ltac wstep lem Hnew t' :=
  rewrite (bind_ok _ _ _ tt _ lem);
  match type of lem with _ = Ok tt (wr (Ptr ?b ?o) ?ys ?t) =>
      let HT := fresh "HT" in
      assert (HT : touch [b] t (wr (Ptr b o) ys t)) by (apply touch_wr; left);
      assert (Hnew : seg (wr (Ptr b o) ys t) (Ptr b o) ys) by (apply seg_wr; woklen);
      clear lem; remember (wr (Ptr b o) ys t) as t' eqn:Heqt'; clear Heqt';
      xfer HT; clear HT
  end.
