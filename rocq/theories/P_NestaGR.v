(** * In exact arithmetic all the vectors NESTA hands to its operators are finite. *)
From Coq Require Import ZArith Lia Reals Lra Psatz.
From stdpp Require Import base list.
From Verif Require Import Mem M_Math M_Nesta P_Mem P_Loop P_Math P_MathR P_TVR L_Sum S_Vec L_Lin L_ER P_CGR S_Newt P_NewtX P_NewtX2 P_NewtR L_Barrier P_Touch S_Nesta L_Nesta P_Nesta P_Nesta2 P_NestaR P_NestaG.
Local Open Scope R_scope.
Local Notation sqrt := R_sqrt.sqrt.

(** an entry that is a number *)
Definition isnum (e : er) : Prop := exists r, e = Fin r.
Lemma isnum_fin (x : list R) : Forall isnum (fin x).
Proof. apply Forall_forall. intros e He. unfold fin in He. apply elem_of_list_fmap in He as (r & -> & _). by exists r. Qed.
Lemma isnum_zero : isnum (@zero ER). Proof. rewrite zero_ER. by eexists. Qed.
Lemma isnum_abs v : isnum v -> isnum (@fabs ER v). Proof. intros [r ->]. by eexists. Qed.
Lemma isnum_list (xs : list er) : Forall isnum xs -> exists x, xs = fin x.
Proof.
  induction xs as [|e xs IH]; intros H; [by exists []|]. apply Forall_cons in H as [[r ->] H]. destruct (IH H) as [x ->]. by exists (r :: x).
Qed.

Section lift.
Context (m n p : nat) (A B Wt Wm : list er -> list er) (Ar Br Wr Vr : list R -> list R) (bv : list R) (sg L : R).
Context (HA : linmap m n Ar) (HB : adjoint m n Ar Br) (HI : unit_rows n Ar Br) (HW : linmap m p Wr) (HV : adjoint m p Wr Vr).
Context (EA : forall v, length v = m -> A (fin v) = fin (Ar v)) (EB : forall v, length v = n -> B (fin v) = fin (Br v)).
Context (EW : forall v, length v = m -> Wt (fin v) = fin (Wr v)) (EV : forall v, length v = p -> Wm (fin v) = fin (Vr v)).
Context (Lb : length bv = n) (Hsg : 0 < sg) (HL : 0 < L).
Notation bs := (fin bv).
Notation atb := (fin (Br bv)).
Lemma q_num (mu : R) (xx g : list R) : 0 < mu -> length xx = m -> length g = m -> Forall isnum (B (A (@ne_q ER m (Fin L) (Fin mu) (fin xx) (fin g)))).
Proof.
  intros Hmu Lx Lg. assert (HLm : 0 < L / mu) by (by apply Rdiv_lt_0_compat).
  assert (ELm : @div ER (Fin L) (Fin mu) = Fin (L / mu)) by (apply div_fin; lra).
  unfold ne_q. rewrite ELm. rewrite oppone_E. cbn [div ER]. rewrite div_fin by lra. rewrite axpy_fin. rewrite EA by apply axpy_len. rewrite EB; [apply isnum_fin|]. apply HA. apply axpy_len.
Qed.
Notation finI := (finI m Ar bv sg).
Lemma iter_num (mu : R) (xo : list R) k v : 0 < mu -> length xo = m -> finI v ->
  @iter_ok ER isnum m p A B Wt Wm (Fin L) (Fin mu) (fin xo) k v.
Proof.
  intros Hmu Lo (x & g & Ex & Lx & _ & Eg & Lg).
  assert (LV : forall u, length u = p -> length (Vr u) = m) by apply HV. assert (LWx : length (Wr x) = p) by (by apply HW).
  assert (LG : length (Vr (clips mu (Wr x))) = m) by (apply LV; by rewrite clips_length).
  assert (EG : @ne_grad ER p Wt Wm (Fin mu) (@i_x ER v) = fin (Vr (clips mu (Wr x)))) by (rewrite Ex; eapply (grad_fin m); eassumption).
  split; [|split].
  - rewrite Ex, EW by done. apply isnum_fin.
  - rewrite EG, Ex. by apply q_num.
  - unfold ne_gs. rewrite EG, Eg. rewrite ofZ_ER. cbn [lit ER mul er_mul]. rewrite axpy_fin. apply q_num; [done|done|]. apply axpy_len.
Qed.
Lemma loop_num (mu : R) tol (xo : list R) fuel k v : 0 < mu -> length xo = m -> finI v ->
  @loop_ok ER isnum m n p A B Wt Wm bs atb (Fin sg) (Fin L) (Fin mu) tol (fin xo) fuel k v.
Proof.
  intros Hmu Lo. revert k v. induction fuel as [|fu IH]; intros k v HI'; cbn [loop_ok]; [done|]. split; [by apply iter_num|]. intros _. apply IH.
  eapply (step_feasible m n p A B Wt Wm Ar Br Wr Vr bv sg L); eassumption.
Qed.
Lemma stage_num (bm : R) btol v : 0 < bm -> stageI m Ar bv sg v ->
  @stage_ok ER isnum m n p A B Wt Wm bs atb (Fin sg) (Fin L) (Fin bm) btol v.
Proof.
  intros Hb (mu & x & E1 & Hmu & E2 & Lx & Fx). destruct v as [[mu' tol] x']. cbn [fst snd] in E1, E2. subst mu' x'. unfold stage_ok. cbn [mul ER er_mul].
  apply loop_num; [by apply Rmult_lt_0_compat|done|].
  exists x, (repeat 0 m). cbn [i_x i_gs]. split; [done|]. split; [done|]. split; [done|]. split; [|apply repeat_length].
  rewrite zero_E. unfold const_of. rewrite (tab_fin' m _ (fun _ => 0)) by done. f_equal. apply (list_eq_nth m); [apply (@tab_length RN)|apply repeat_length|].
  intros i Hi. rewrite nth_tab by done. symmetry. apply nth_repeat.
Qed.
Context (ax : @AxFuns ER) (EL : @ne_L ER ax = Fin L).
Lemma all_num (opts : @NestaOpts ER) (mu : R) : (1 <= p)%nat -> no_sigma opts = Fin sg -> no_mu opts = Fin mu -> 0 < mu ->
  (no_n_continue opts <= 0)%Z \/ (exists i, (i < p)%nat /\ 0 < (if (i <? m)%nat then Rabs (nth i (Wr (Br bv)) 0) else nth i (Wr (Br bv)) 0)) ->
  @all_ok ER isnum m n p A B Wt Wm ax bs opts.
Proof.
  intros Hp Es Em Hmu HC. assert (LB : length (Br bv) = m) by (by apply HB). unfold all_ok. cbv zeta. rewrite EB by done. rewrite Es, Em, EL.
  split; [apply isnum_fin|]. split; [rewrite EW by done; apply isnum_fin|].
  intros j Hj. destruct HC as [|(i & Hi & Hw)]; [lia|].
  destruct (mu0_fin m n p Wt Ar Br Wr bv HB HW EW Lb Hp) as (M & E & H1 & _). assert (HM : 0 < M) by (specialize (H1 i Hi); lra).
  rewrite E. destruct (beta_fin n bv Lb mu (9 / 10 * M) (no_n_continue opts) Hmu ltac:(lra) ltac:(lia)) as (bm & Eb & Hb & _). rewrite Eb.
  set (bt := @ne_beta ER (no_tol opts) _ _). clearbody bt. apply stage_num; [done|]. clear Hj. induction j as [|j IH].
  - exists (9 / 10 * M), (Br bv). cbn [Nat.iter nat_rect fst snd]. split; [done|]. split; [lra|]. split; [done|]. split; [done|].
    eapply start_feasible; eassumption.
  - change (Nat.iter (S j) ?f ?a) with (f (Nat.iter j f a)). eapply (stage_feasible m n p A B Wt Wm Ar Br Wr Vr bv sg L); eassumption.
Qed.
End lift.
