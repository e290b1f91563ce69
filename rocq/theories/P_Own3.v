(** * Accounting for structs, plans and plain malloc. *)
From Coq Require Import ZArith Lia.
From stdpp Require Import base numbers gmap list.
From Verif Require Import P_Loop P_Math P_Touch P_Memory P_Own P_Own2.
Local Open Scope Z_scope.

Section own.
Context `{N : Num}.
Implicit Types (s : st) (O : list (kind * nat)).
Lemma alloc_o_own s x : unborn s ->
  exists p s', alloc_o x s = Ok p s' /\ ledger [] (own KO p) s s' /\ gl s' = gl s /\ nx s' = S (nx s) /\ dm s' = dm s /\ pm s' = pm s /\ al s' = al s /\
    ((p = Ptr (nx s) 0 /\ alloc_ok (en s) (nx s) = true /\ om s' = <[nx s := x]> (om s)) \/
     (p = Null /\ alloc_ok (en s) (nx s) = false /\ om s' = om s)).
Proof.
  intros Hu. unfold alloc_o. destruct (alloc_ok (en s) (nx s)) eqn:E.
  - eexists _, _. split; [reflexivity|]. split; [|split_and!; try done; left; done].
    split; simpl; try done.
    + intros k b Hk. apply elem_of_list_singleton in Hk as [= -> ->]. split; [lia|]. simpl. rewrite lookup_insert. eauto.
    + apply NoDup_singleton.
    + intros b Hb. rewrite lookup_insert_ne; [done|]. intros E'. apply Hb. rewrite E'. left.
    + lia.
  - eexists _, _. split; [reflexivity|]. split; [|split_and!; try done; right; done].
    split; simpl; try done; try lia.
    + intros k b Hk. by apply elem_of_nil in Hk.
    + apply NoDup_nil_2.
Qed.
Lemma free_o_own W O s0 s p : unborn s0 -> ledger W (own KO p ++ O) s0 s -> (forall b o, p = Ptr b o -> o = 0) ->
  exists s', free_o p s = Ok tt s' /\ ledger W O s0 s' /\ gl s' = gl s /\ nx s' = nx s /\ dm s' = dm s /\ pm s' = pm s /\
    (forall b, (b < nx s0)%nat -> om s' !! b = om s !! b).
Proof.
  intros Hu L Ho. destruct p as [|b o]; simpl in *.
  - exists s. done.
  - rewrite (Ho b o) by done. simpl.
    destruct (lg_own _ _ _ _ L KO b ltac:(left)) as [Hb [c Hc]]. simpl in Hc. rewrite Hc.
    eexists. split; [done|]. split; [|split_and!; try done; intros b' Hb'; simpl; by rewrite lookup_delete_ne by lia].
    pose proof (lg_nd _ _ _ _ L) as ND. apply NoDup_cons in ND as [Hni ND].
    assert (H0 : om s0 !! b = None) by (apply Hu; lia).
    split; simpl; try (apply L; fail).
    + intros k b' Hk. destruct (lg_own _ _ _ _ L k b' ltac:(by right)) as [? Hh]. split; [done|].
      destruct k; simpl in *; try done. rewrite lookup_delete_ne; [done|]. intros ->. done.
    + done.
    + intros b' Hb' HO. apply L; [done|]. apply not_elem_of_cons. split; [congruence|done].
    + intros b' HO. apply L. apply not_elem_of_cons. split; [congruence|done].
    + intros b' HO. apply L. apply not_elem_of_cons. split; [congruence|done].
    + intros b' HO. destruct (decide (b = b')) as [<-|Hne]; [by rewrite lookup_delete, H0|].
      rewrite lookup_delete_ne by done. apply L. apply not_elem_of_cons. split; [congruence|done].
Qed.
(** malloc of n doubles *)
Lemma malloc_own s (n : nat) : unborn s ->
  exists p s', malloc_d (Z.of_nat n) s = Ok p s' /\ ledger [] (own KD p) s s' /\ gl s' = gl s /\ nx s' = S (nx s) /\ pm s' = pm s /\ om s' = om s /\
    (forall b, (b < nx s)%nat -> dm s' !! b = dm s !! b) /\
    ((p = Ptr (nx s) 0 /\ alloc_ok (en s) (nx s) = true /\ wok s' (Ptr (nx s) 0) n /\ al s' (nx s) = luck (en s) (nx s)) \/
     (p = Null /\ alloc_ok (en s) (nx s) = false)).
Proof.
  intros Hu. unfold malloc_d. rewrite (proj2 (Z.leb_le 0 _)) by lia. simpl.
  destruct (alloc_ok (en s) (nx s)) eqn:E.
  - eexists _, _. split; [reflexivity|]. split; [|split_and!; try done].
    + split; simpl; try done.
      * intros k b Hk. apply elem_of_list_singleton in Hk as [= -> ->]. split; [lia|]. simpl. rewrite lookup_insert. eauto.
      * apply NoDup_singleton.
      * intros b _ Hb. rewrite lookup_insert_ne; [done|]. intros E'. apply Hb. rewrite E'. left.
      * intros b Hb. rewrite lookup_insert_ne; [done|]. intros E'. apply Hb. rewrite E'. left.
      * lia.
      * intros b Hb. destruct (Nat.eqb_spec b (nx s)); [lia|done].
    + intros b Hb. simpl. rewrite lookup_insert_ne by lia. done.
    + left. split_and!; try done.
      * intros i Hi. unfold cell. simpl. rewrite lookup_insert. rewrite (proj2 (Z.leb_le 0 _)) by lia. apply lookup_lt_is_Some_2.
        rewrite replicate_length. lia.
      * simpl. by rewrite Nat.eqb_refl.
  - eexists _, _. split; [reflexivity|]. split; [|split_and!; try done; right; done].
    split; simpl; try done; try lia.
    + intros k b Hk. by apply elem_of_nil in Hk.
    + apply NoDup_nil_2.
Qed.
End own.
