(** * The parts of l1c_nesta: everything before the continuation loop, and the loop. *)
From Coq Require Import ZArith Lia.
From stdpp Require Import base numbers gmap list.
From Verif Require Import Globals P_Loop P_Math P_Step P_Memory P_Own P_Own2 P_Own3 P_CG M_Math M_Memory M_Status M_Nesta P_Newton P_Newt7 P_Nesta P_Nesta2 S_Mem.
Local Open Scope Z_scope.

Section parts.
Context `{N : Num}.
Context (call : fptr -> ptr -> ptr -> M unit).
(** nesta.c:379-393: the first part of l1c_nesta; the result is a status or (NP, mu_j, tol_j, beta_mu, beta_tol, fifo) *)
Definition nesta_begin (b : ptr) (ax_funs : AxFuns) (opts : NestaOpts) : M (Z + (setup_vals * Fifo)) :=
  let* o := NestaProb_new ax_funs in
  match o with
  | None => ret (inl L1C_OUT_OF_MEMORY)
  | Some NP =>
      let* st := nesta_setup call NP b ax_funs opts in
      match st with
      | inl status => ret (inl status)
      | inr v => let* f := new_fifo in
                 let '(NP, _, _, _, _) := v in cblas_dcopy (np_m NP) (np_xo NP) (np_xk NP) ;! ret (inr (v, f))
      end
  end.
(** nesta.c:395-457: the continuation loop *)
Definition nesta_stages (m : Z) (nc : Z) (v : setup_vals) (f : Fifo) : M (T * T * Fifo) :=
  let '(NP, mu_j, tol_j, beta_mu, beta_tol) := v in
  for_acc 1 (nc + 1) (mu_j, tol_j, f) (fun _ => nesta_stage call NP m beta_mu beta_tol).
(** l1c_nesta is these two parts and the final copy and release *)
Lemma nesta_parts m xk n b ax_funs opts s :
  l1c_nesta call m xk n b ax_funs opts s =
  (if negb (n =? ax_n ax_funs) || negb (m =? ax_m ax_funs) then ret L1C_INVALID_ARGUMENT else
   let* o := nesta_begin b ax_funs opts in
   match o with
   | inl status => ret status
   | inr (v, f) =>
       let* r := nesta_stages m (no_n_continue opts) v f in
       i32 (Z.max 1 (no_n_continue opts + 1)) ;!
       cblas_dcopy m (np_xk (fst (fst (fst (fst v))))) xk ;!
       free_nesta_problem (fst (fst (fst (fst v)))) ;! free_d (ff_vals (snd r)) ;! ret 0
   end) s.
Proof.
  unfold l1c_nesta, nesta_begin. destruct (_ || _); [done|].
  assert (E : forall X Y (u : M X) (k : X -> M Y) s, bind u k s = match u s with Ok a s' => k a s' | Ub e => Ub e end) by done.
  rewrite !E. destruct (NestaProb_new ax_funs s) as [[NP|] s1|e]; [|done|done].
  rewrite !E. destruct (nesta_setup _ _ _ _ _ _) as [[st|v] s2|e]; [done| |done]. destruct v as [[[[NP' mu] tol] bm] bt].
  rewrite !E. destruct (new_fifo s2) as [f s3|e]; [|done]. rewrite !E. destruct (cblas_dcopy _ _ _ _) as [[] s4|e]; done.
Qed.

Context (m n p : nat) (A B Wt Wm : list T -> list T) (F : list nat) (J : st -> Prop) (ax : AxFuns).
Context (HA : oper F J (call (ax_Ax ax)) m n A) (HB : oper F J (call (ax_Aty ax)) n m B).
Context (HWt : oper F J (call (ax_Wtx ax)) m p Wt) (HW : oper F J (call (ax_Wz ax)) p m Wm).
Context (Hp : (1 <= p)%nat).
Context (HJs : forall s s', J s -> same_on F s s' -> J s').
Lemma begin_run s bx bb bs opts :
  unborn s -> ax_m ax = Z.of_nat m -> ax_n ax = Z.of_nat n -> ax_p ax = Z.of_nat p ->
  J s -> (forall b, b ∈ F -> (b < nx s)%nat) -> (bx < nx s)%nat -> (bb < nx s)%nat -> bx <> bb -> bx ∉ F -> bb ∉ F ->
  seg s (Ptr bb 0) bs -> length bs = n -> wok s (Ptr bx 0) m -> is_aligned s (Ptr bb 0) = true ->
  (forall j, (j < 11)%nat -> alloc_ok (en s) (nx s + j) = true) -> fields_set ax = true -> luck (en s) (nx s + 10) = true ->
  let k := nx s in let fv := (k + 10)%nat in let f0 := mkFifo (Ptr fv 0) 0 (Ptr fv 0) in
  exists s', nesta_begin (Ptr bb 0) ax opts s =
      Ok (inr ((npk m n p ax k bb opts, ne_mu0 m p Wt (B bs), lit 1 10,
               ne_beta (no_mu opts) (ne_mu0 m p Wt (B bs)) (no_n_continue opts), ne_beta (no_tol opts) (lit 1 10) (no_n_continue opts)), f0)) s' /\
    slay m p J (k + 1) (k + 2) (k + 3) (k + 4) (k + 5) (k + 6) (k + 7) (k + 8) (k + 9) bb bs (B bs) fv (B bs) f0 s'.
Proof.
  intros Hu Em En Ep HJ HFo Hbx Hbb Hne HxF HbF Sb Lb Wx Alb Hg11 Hf Hl k fv f0. unfold nesta_begin.
  destruct (nprob_new_run s m n p ax Hu Em En Ep) as (o & s1 & E & G1 & X1' & D1 & C1). fold k in C1, X1'.
  rewrite (bind_ok _ _ _ _ _ E). clear E.
  destruct C1 as [(-> & _ & X1 & L1 & HB1)|(-> & Hr & L1)].
  2:{ destruct Hr as (j & Hj & Ej). rewrite Hg11 in Ej by lia. done. }
  assert (FB : forall j, (k <= j)%nat -> j ∉ F). { intros j Hj HjF. apply HFo in HjF. unfold k in Hj. lia. }
  assert (J1 : J s1).
  { apply (HJs s); [done|]. split; [|split; [done|apply L1]]. intros b HbF'. apply HFo in HbF'.
    assert (HO : forall q, (q, b) ∉ np_owns (np0 k m n p)). { intros q Hq. apply (lg_own _ _ _ _ L1) in Hq. lia. }
    split_and!; [by apply D1| |by apply L1|by apply L1|by apply L1]. by rewrite (lg_im _ _ _ _ L1). }
  assert (Sb1 : seg s1 (Ptr bb 0) bs) by (apply (ledger_seg _ _ _ _ _ _ _ L1); [done|apply not_elem_of_nil|done]).
  assert (Wx1 : wok s1 (Ptr bx 0) m) by (by apply (ledger_wok _ _ _ _ _ _ _ L1)).
  assert (Alb1 : is_aligned s1 (Ptr bb 0) = true) by (by rewrite (ledger_aligned _ _ _ _ _ _ L1)).
  assert (WJ : forall j, (j < 9)%nat -> wok s1 (Ptr (k + 1 + j) 0) (nsize m p j)).
  { intros j Hj. destruct (HB1 j Hj) as [Sj _]. apply seg_wok in Sj. by rewrite const_of_len in Sj. }
  assert (AJ : forall j, (j < 9)%nat -> is_aligned s1 (Ptr (k + 1 + j) 0) = true) by (intros j Hj; by apply HB1).
  (* setup *)
  destruct (setup_run call m n p B Wt Wm F J ax HB HWt HW Hp s1 k bb bs opts) as (s2 & E & So & Sa & HT2 & J2); try done.
  { repeat (apply NoDup_cons; split; [notin|]). apply NoDup_nil_2. }
  { intros b Hb. repeat (apply elem_of_cons in Hb as [->|Hb]; [first [assumption|apply FB; lia]|]). by apply elem_of_nil in Hb. }
  { pose proof (WJ 0%nat ltac:(lia)) as H. by rewrite Nat.add_0_r in H. }
  { pose proof (WJ 4%nat ltac:(lia)) as H. by replace (k + 1 + 4)%nat with (k + 5)%nat in H by lia. }
  { destruct (HB1 7%nat ltac:(lia)) as [H _]. by replace (k + 1 + 7)%nat with (k + 8)%nat in H by lia. }
  { intros b Hb. repeat (apply elem_of_cons in Hb as [->|Hb]; [|]); [| | |exact Alb1|by apply elem_of_nil in Hb].
    - pose proof (AJ 0%nat ltac:(lia)) as H. by rewrite Nat.add_0_r in H.
    - pose proof (AJ 4%nat ltac:(lia)) as H. by replace (k + 1 + 4)%nat with (k + 5)%nat in H by lia.
    - pose proof (AJ 7%nat ltac:(lia)) as H. by replace (k + 1 + 7)%nat with (k + 8)%nat in H by lia. }
  rewrite (bind_ok _ _ _ _ _ E). clear E.
  set (atb := B bs) in *. set (mu0 := ne_mu0 m p Wt atb) in *. set (bmu := ne_beta (no_mu opts) mu0 _). set (btol := ne_beta (no_tol opts) _ _).
  assert (La : length atb = m) by (by apply (op_len _ _ _ _ _ _ HB)).
  assert (LS2 : ledger (bx :: F) (np_owns (np0 k m n p)) s s2).
  { apply (ledger_touch _ ([(k + 1)%nat; (k + 5)%nat; (k + 8)%nat] ++ F) _ s s1); [|done|].
    - eapply ledger_W; [|exact L1]. intros b Hb. by apply elem_of_nil in Hb.
    - intros b Hb. apply elem_of_app in Hb as [Hb|Hb]; [right|left; by right].
      cbn [np_owns np0 np_xo np_xk np_yk np_zk np_Atb np_gradf np_gradf_sum np_dwork1 np_dwork2 np_self own app].
      repeat (apply elem_of_cons in Hb as [->|Hb]; [isin|]). by apply elem_of_nil in Hb. }
  assert (En2 : en s2 = en s) by apply LS2. assert (X2 : nx s2 = (k + 10)%nat) by (rewrite (t_nx _ _ _ HT2); done).
  assert (Hu2 : unborn s2) by (by eapply ledger_unborn).
  (* the fifo *)
  destruct (new_fifo_run p Hp s2 Hu2) as [(Ha & s3 & E & L3 & G3 & X3 & Wf & Alf & D3)|(Ha & E)]; rewrite En2, X2 in *.
  2:{ rewrite Hg11 in Ha by lia. done. }
  rewrite (bind_ok _ _ _ _ _ E). clear E.
  fold fv in X3, Wf, Alf, L3, Hl. fold f0.
  assert (LS3 : ledger (bx :: F) ([(KD, fv)] ++ np_owns (np0 k m n p)) s s3).
  { eapply (ledger_trans2 _ _ []); [exact LS2|exact L3|auto|intros ? H; by apply elem_of_nil in H]. }
  assert (J3 : J s3).
  { apply (HJs s2); [done|]. split; [|split; [done|apply L3]]. intros b HbF'. apply HFo in HbF'. unfold k in *.
    assert (HO : forall q, (q, b) ∉ [(KD, fv)]). { intros q Hq. apply (lg_own _ _ _ _ L3) in Hq. lia. }
    split_and!; [apply D3; lia| |by apply L3|by apply L3|apply L3; lia]. by rewrite (lg_im _ _ _ _ L3). }
  (* everything at s2, then at s3 *)
  assert (WK : forall j, (j < 9)%nat -> wok s3 (Ptr (k + 1 + j) 0) (nsize m p j)).
  { intros j Hj. apply (ledger_wok _ _ _ _ _ _ _ L3); [lia|]. apply (touch_wok _ _ _ _ _ HT2). by apply WJ. }
  assert (AK : forall j, (j < 9)%nat -> is_aligned s3 (Ptr (k + 1 + j) 0) = true).
  { intros j Hj. rewrite (ledger_aligned _ _ _ _ _ _ L3) by lia. rewrite (touch_aligned _ _ _ _ HT2). by apply AJ. }
  assert (So3 : seg s3 (Ptr (k + 1) 0) atb) by (apply (ledger_seg _ _ _ _ _ _ _ L3); [lia|apply not_elem_of_nil|done]).
  assert (Sa3 : seg s3 (Ptr (k + 5) 0) atb) by (apply (ledger_seg _ _ _ _ _ _ _ L3); [lia|apply not_elem_of_nil|done]).
  assert (Wx3 : wok s3 (Ptr bx 0) m) by (by apply (ledger_wok _ _ _ _ _ _ _ LS3)).
  assert (Sb3 : seg s3 (Ptr bb 0) bs).
  { apply (ledger_seg _ _ _ _ _ _ _ L3); [unfold k in *; lia|apply not_elem_of_nil|]. apply (touch_seg _ _ _ _ _ _ HT2); [|done].
    apply not_elem_of_app. split; [|done]. unfold k in *. repeat (apply not_elem_of_cons; split; [lia|]). apply not_elem_of_nil. }
  assert (Alb3 : is_aligned s3 (Ptr bb 0) = true) by (by rewrite (ledger_aligned _ _ _ _ _ _ LS3)).
  change (np_m (npk m n p ax k bb opts)) with (Z.of_nat m). change (np_xo (npk m n p ax k bb opts)) with (Ptr (k + 1) 0). change (np_xk (npk m n p ax k bb opts)) with (Ptr (k + 2) 0).
  pose proof (WK 1%nat ltac:(lia)) as W2. replace (k + 1 + 1)%nat with (k + 2)%nat in W2 by lia. change (nsize m p 1) with m in W2.
  pose proof (dcopy_run s3 m (Ptr (k + 1) 0) atb (Ptr (k + 2) 0) So3 La W2 ltac:(apply disj_blocks; lia)) as E.
  unfold npk at 1, np at 1. cbv beta iota zeta. cbn [np_m np_xo np_xk].
  rewrite (bind_ok _ _ _ _ _ E). clear E. set (s4 := wr _ _ s3). assert (HT4 : touch [(k + 2)%nat] s3 s4) by (apply touch_wr; left).
  assert (Sk4 : seg s4 (Ptr (k + 2) 0) atb) by (apply seg_wr; by rewrite La). clearbody s4.
  assert (HF11 : forall b, b ∈ [(k + 1)%nat; (k + 2)%nat; (k + 3)%nat; (k + 4)%nat; (k + 5)%nat; (k + 6)%nat; (k + 7)%nat; (k + 8)%nat; (k + 9)%nat; bb; fv] -> b ∉ F).
  { intros b Hb. repeat (apply elem_of_cons in Hb as [->|Hb]; [first [assumption|apply FB; lia]|]). by apply elem_of_nil in Hb. }
  assert (Hd11 : NoDup [(k + 1)%nat; (k + 2)%nat; (k + 3)%nat; (k + 4)%nat; (k + 5)%nat; (k + 6)%nat; (k + 7)%nat; (k + 8)%nat; (k + 9)%nat; bb; fv]).
  { unfold fv, k in *. repeat (apply NoDup_cons; split; [repeat (apply not_elem_of_cons; split; [lia|]); apply not_elem_of_nil|]). apply NoDup_nil_2. }
  assert (J4 : J s4).
  { apply (op_J _ _ _ _ _ _ HA [(k + 2)%nat] s3); [done|done|]. intros b Hb. apply HF11. apply elem_of_list_singleton in Hb as ->. isin. }
  exists s4. split; [done|].
    assert (SL : slay m p J (k + 1) (k + 2) (k + 3) (k + 4) (k + 5) (k + 6) (k + 7) (k + 8) (k + 9) bb bs atb fv atb f0 s4).
    { assert (WK4 : forall j, (j < 9)%nat -> wok s4 (Ptr (k + 1 + j) 0) (nsize m p j)) by (intros j Hj; apply (touch_wok _ _ _ _ _ HT4); by apply WK).
      assert (AK4 : forall j, (j < 9)%nat -> is_aligned s4 (Ptr (k + 1 + j) 0) = true) by (intros j Hj; rewrite (touch_aligned _ _ _ _ HT4); by apply AK).
      split; try done.
      - apply (touch_seg _ _ _ _ _ _ HT4); [|done]. apply not_elem_of_cons. split; [lia|apply not_elem_of_nil].
      - intros b Hb.
        apply elem_of_cons in Hb as [->|Hb]. { pose proof (WK4 2%nat ltac:(lia)) as H. by replace (k + 1 + 2)%nat with (k + 3)%nat in H by lia. }
        apply elem_of_cons in Hb as [->|Hb]. { pose proof (WK4 3%nat ltac:(lia)) as H. by replace (k + 1 + 3)%nat with (k + 4)%nat in H by lia. }
        apply elem_of_cons in Hb as [->|Hb]. { pose proof (WK4 5%nat ltac:(lia)) as H. by replace (k + 1 + 5)%nat with (k + 6)%nat in H by lia. }
        apply elem_of_cons in Hb as [->|Hb]. { pose proof (WK4 6%nat ltac:(lia)) as H. by replace (k + 1 + 6)%nat with (k + 7)%nat in H by lia. }
        by apply elem_of_nil in Hb.
      - intros b Hb.
        apply elem_of_cons in Hb as [->|Hb]. { pose proof (WK4 7%nat ltac:(lia)) as H. by replace (k + 1 + 7)%nat with (k + 8)%nat in H by lia. }
        apply elem_of_cons in Hb as [->|Hb]. { pose proof (WK4 8%nat ltac:(lia)) as H. by replace (k + 1 + 8)%nat with (k + 9)%nat in H by lia. }
        by apply elem_of_nil in Hb.
      - apply (touch_seg _ _ _ _ _ _ HT4); [|done]. apply not_elem_of_cons. split; [lia|apply not_elem_of_nil].
      - apply (touch_seg _ _ _ _ _ _ HT4); [|done]. apply not_elem_of_cons. split; [unfold k in *; lia|apply not_elem_of_nil].
      - by apply (touch_wok _ _ _ _ _ HT4).
      - intros b Hb.
        apply elem_of_cons in Hb as [->|Hb]. { pose proof (AK4 0%nat ltac:(lia)) as H. by rewrite Nat.add_0_r in H. }
        apply elem_of_cons in Hb as [->|Hb]. { pose proof (AK4 1%nat ltac:(lia)) as H. by replace (k + 1 + 1)%nat with (k + 2)%nat in H by lia. }
        apply elem_of_cons in Hb as [->|Hb]. { pose proof (AK4 2%nat ltac:(lia)) as H. by replace (k + 1 + 2)%nat with (k + 3)%nat in H by lia. }
        apply elem_of_cons in Hb as [->|Hb]. { pose proof (AK4 3%nat ltac:(lia)) as H. by replace (k + 1 + 3)%nat with (k + 4)%nat in H by lia. }
        apply elem_of_cons in Hb as [->|Hb]. { pose proof (AK4 5%nat ltac:(lia)) as H. by replace (k + 1 + 5)%nat with (k + 6)%nat in H by lia. }
        apply elem_of_cons in Hb as [->|Hb]. { pose proof (AK4 6%nat ltac:(lia)) as H. by replace (k + 1 + 6)%nat with (k + 7)%nat in H by lia. }
        apply elem_of_cons in Hb as [->|Hb]. { pose proof (AK4 7%nat ltac:(lia)) as H. by replace (k + 1 + 7)%nat with (k + 8)%nat in H by lia. }
        apply elem_of_cons in Hb as [->|Hb]. { pose proof (AK4 8%nat ltac:(lia)) as H. by replace (k + 1 + 8)%nat with (k + 9)%nat in H by lia. }
        apply elem_of_cons in Hb as [->|Hb]. { by rewrite (touch_aligned _ _ _ _ HT4). }
        apply elem_of_cons in Hb as [->|Hb]. { by rewrite (touch_aligned _ _ _ _ HT4), Alf. }
        by apply elem_of_nil in Hb. }
  exact SL.
Qed.
End parts.
