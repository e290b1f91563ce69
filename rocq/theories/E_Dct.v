(** * Demonstration states for the transforms. *)
From Coq Require Import ZArith Lia.
From stdpp Require Import base numbers gmap list.
From Verif Require Import Globals Mem P_Mem S_Mem P_Memory P_FFTW P_Dct1s S_Xform S_DctApi P_Own.
Local Open Scope Z_scope.

Section demo.
Context `{N : Num}.
(** block 0 is an array of ints holding [idx]; blocks 1,2,... hold the contents [bl]; nothing was set up *)
Definition demo (e : env) (idx : list nat) (bl : list (list (option T))) : st :=
  mkSt (dm (state_of ([] :: bl))) {[0%nat := Z.of_nat <$> idx]} ∅ ∅ (fun _ => true) (S (length bl)) e glob0.
Lemma demo_unborn e idx bl : unborn (demo e idx bl).
Proof.
  intros b Hb. cbn [demo dm pm om nx] in *. split; [|done].
  cbn [state_of dm]. apply not_elem_of_list_to_map_1. rewrite fst_zip by (rewrite seq_length; lia).
  rewrite elem_of_seq. simpl. lia.
Qed.
Lemma demo_segi e idx bl : segi (demo e idx bl) (Ptr 0 0) idx.
Proof.
  intros i k Hi. unfold ldi. destruct (Z.leb_spec 0 (0 + Z.of_nat i)); [|lia]. cbn [demo im]. rewrite lookup_singleton.
  replace (Z.to_nat (0 + Z.of_nat i)) with i by lia. by rewrite list_lookup_fmap, Hi.
Qed.
Lemma demo_seg e idx bl b xs : bl !! b = Some (full xs) -> seg (demo e idx bl) (Ptr (S b) 0) xs.
Proof. intros H i v Hi. exact (state_of_seg ([] :: bl) (S b) xs H i v Hi). Qed.
Lemma demo_wok e idx bl b c n : bl !! b = Some c -> (n <= length c)%nat -> wok (demo e idx bl) (Ptr (S b) 0) n.
Proof. intros H Hn i Hi. exact (state_of_wok ([] :: bl) (S b) c n H Hn i Hi). Qed.
(** ... and after something that owns only new blocks *)
Lemma led_seg O s s' b o xs : ledger [] O s s' -> (forall k, (k, b) ∉ O) -> seg s (Ptr b o) xs -> seg s' (Ptr b o) xs.
Proof. intros L Hb Sx i v Hi. unfold cell. rewrite (lg_dm _ _ _ _ L); [by apply Sx|apply not_elem_of_nil|done]. Qed.
Lemma led_wok O s s' b o n : ledger [] O s s' -> (forall k, (k, b) ∉ O) -> wok s (Ptr b o) n -> wok s' (Ptr b o) n.
Proof. intros L Hb Sx i Hi. unfold cell. rewrite (lg_dm _ _ _ _ L); [by apply Sx|apply not_elem_of_nil|done]. Qed.
Lemma led_al O s s' b : ledger [] O s s' -> (b < nx s)%nat -> is_aligned s (Ptr b 0) = true -> is_aligned s' (Ptr b 0) = true.
Proof. intros L Hb Ha. unfold is_aligned in *. by rewrite (lg_al _ _ _ _ L). Qed.
Lemma owned1_notin s b k : (b < nx s)%nat -> (k, b) ∉ owned1 s.
Proof.
  intros Hb Hin. unfold owned1 in Hin. repeat (apply elem_of_cons in Hin as [[= _ ->]|Hin]; [lia|]). by apply elem_of_nil in Hin.
Qed.
(** a correct call on arrays that existed before the set-up *)
Lemma demo_call s s1 mb o bx xs bd ds : ledger [] (owned1 s) s s1 ->
  seg s (Ptr bx 0) xs -> length xs = x_in o -> wok s (Ptr bd 0) (x_out o) -> (x_init o = true -> seg s (Ptr bd 0) ds /\ length ds = x_out o) ->
  is_aligned s (Ptr bx 0) = true -> is_aligned s (Ptr bd 0) = true ->
  (bx < nx s)%nat -> (bd < nx s)%nat -> bx <> bd -> bx <> mb -> bd <> mb ->
  good_call (blocks s mb) o s1 (Ptr bx 0) xs (Ptr bd 0) ds.
Proof.
  intros L Sx Lx Wd Hi Ax Ad Hx Hd Hne Hxm Hdm.
  assert (HO : forall b, (b < nx s)%nat -> b <> mb -> P_Touch.outside (Ptr b 0) (blocks s mb)).
  { intros b Hb Hm. unfold blocks. simpl. repeat (apply not_elem_of_cons; split; [lia|]). apply not_elem_of_nil. }
  split; try done.
  - eapply led_seg; [exact L| |done]. intros k. by apply owned1_notin.
  - eapply led_wok; [exact L| |done]. intros k. by apply owned1_notin.
  - intros Ho. destruct (Hi Ho). split; [|done]. eapply led_seg; [exact L| |done]. intros k. by apply owned1_notin.
  - apply disj_blocks. congruence.
  - eapply led_al; eauto.
  - eapply led_al; eauto.
  - by apply HO.
  - by apply HO.
Qed.
End demo.
