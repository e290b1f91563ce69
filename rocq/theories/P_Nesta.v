(** * Running the pieces of NESTA: exact results for every arithmetic. *)
From Coq Require Import ZArith Lia.
From stdpp Require Import base numbers gmap list.
From Verif Require Import Globals P_Loop P_Math P_Step P_Own P_CG M_Math M_Nesta.
Local Open Scope Z_scope.

(** *** the quantities NESTA computes, as functions *)
Section pure.
Context `{N : Num}.
Context (m n p : nat) (A B Wt Wm : list T -> list T) (bs atb : list T) (sigma L : T).

(** the point l1c_nesta_project starts from *)
Definition ne_q (mu : T) (xx g : list T) : list T := axpy_of m (div (opp one) (div L mu)) g xx.
Definition ne_lambda (mu : T) (q : list T) : T :=
  dmax zero (mul (div L mu) (sub (div (sqrt_ (sqerr_of n bs (A q))) sigma) one)).
Definition ne_a1 (mu : T) (q : list T) : T := div (ne_lambda mu q) (add (div L mu) (ne_lambda mu q)).
Definition ne_proj (mu : T) (xx g : list T) : list T :=
  let q := ne_q mu xx g in
  axpy_of m (opp (ne_a1 mu q)) (B (A q))
    (axpy_of m (mul (div (ne_lambda mu q) (div L mu)) (sub one (ne_a1 mu q))) atb q).
(** the smoothed objective: the maximiser u, the value, the gradient *)
Definition ne_u (mu : T) (w : list T) : list T := tab p (fun i => div (at_ w i) (dmax mu (fabs (at_ w i)))).
Definition ne_fx (mu : T) (x : list T) : T :=
  sub (dot_of p (ne_u mu (Wt x)) (Wt x))
      (mul (mul (lit 1 2) mu) (mul (nrm2_of p (ne_u mu (Wt x))) (nrm2_of p (ne_u mu (Wt x))))).
Definition ne_grad (mu : T) (x : list T) : list T := Wm (ne_u mu (Wt x)).

(** the fifo: the ten cells, the number of values (at most ten) and the next cell *)
Record fifo : Type := mkF { f_v : list T; f_n : Z; f_i : nat }.
Definition f_reset : fifo := mkF (const_of 10 zero) 0 0.
Definition f_push (f : fifo) (v : T) : fifo :=
  mkF (<[f_i f := v]> (f_v f)) (if f_n f <? 10 then f_n f + 1 else f_n f) (if (9 <? f_i f + 1)%nat then 0%nat else (f_i f + 1)%nat).
Definition f_mean (f : fifo) : T := div (foldi 10 (fun i a => add a (at_ (f_v f) i)) zero) (ofZ (f_n f)).
Definition f_ok (f : fifo) : Prop := length (f_v f) = 10%nat /\ (f_i f < 10)%nat.

(** the inner loop *)
Record inner : Type := mkI { i_x : list T; i_gs : list T; i_f : fifo }.
Definition ne_tau (k : nat) : T := div two (ofZ (Z.of_nat k + 3)).
Definition ne_gs (mu : T) (k : nat) (v : inner) : list T :=
  axpy_of m (mul (lit 1 2) (ofZ (Z.of_nat k + 1))) (ne_grad mu (i_x v)) (i_gs v).
Definition ne_y (mu : T) (v : inner) : list T := ne_proj mu (i_x v) (ne_grad mu (i_x v)).
Definition ne_z (mu : T) (xo : list T) (k : nat) (v : inner) : list T := ne_proj mu xo (ne_gs mu k v).
Definition ne_step (mu : T) (xo : list T) (k : nat) (v : inner) : inner :=
  mkI (axpby_of m (ne_tau k) (ne_z mu xo k v) (sub one (ne_tau k)) (ne_y mu v)) (ne_gs mu k v) (f_push (i_f v) (ne_fx mu (i_x v))).
Definition ne_stop (mu tol : T) (v : inner) : bool :=
  ltb_ (div (fabs (sub (ne_fx mu (i_x v)) (f_mean (i_f v)))) (f_mean (i_f v))) tol.
Fixpoint ne_loop (mu tol : T) (xo : list T) (fuel k : nat) (v : inner) : inner :=
  match fuel with
  | O => v
  | S fu => if ne_stop mu tol v then ne_step mu xo k v else ne_loop mu tol xo fu (S k) (ne_step mu xo k v)
  end.
(** one continuation stage, from mu, tol, x (which is also xo) *)
Definition ne_stage (bmu btol : T) (v : T * T * list T) : T * T * list T :=
  let '(mu, tol, x) := v in
  let mu := mul mu bmu in let tol := mul tol btol in
  (mu, tol, i_x (ne_loop mu tol x (Z.to_nat MAX_INNER_ITER) 0 (mkI x (const_of m zero) f_reset))).
(** initialisation *)
(** the work vector: W^T A^T b in the first p cells, zeros after that; the code takes absolute values
    in the first m cells and the maximum over the first p *)
Definition ne_ref : list T := Wt atb ++ drop p (const_of (Nat.max m p) zero).
Definition ne_mu0 : T := mul (lit 9 10) (max_of p (abs_of m ne_ref ++ drop m ne_ref)).
Definition ne_beta (final start : T) (nc : Z) : T := exp_ (div (log_ (div final start)) (ofZ nc)).
Definition ne_result (mu tol : T) (nc : Z) : list T :=
  snd (Nat.iter (Z.to_nat nc) (ne_stage (ne_beta mu ne_mu0 nc) (ne_beta tol (lit 1 10) nc)) (ne_mu0, lit 1 10, atb)).

Lemma f_push_ok f v : f_ok f -> f_ok (f_push f v).
Proof.
  intros [H1 H2]. split; cbn [f_push f_v f_i]; [by rewrite insert_length|]. destruct (Nat.ltb_spec 9 (f_i f + 1)); lia.
Qed.
Lemma f_reset_ok : f_ok f_reset.
Proof. split; cbn [f_reset f_v f_i]; [apply tab_length|lia]. Qed.
Lemma ne_proj_len mu xx g : length (ne_proj mu xx g) = m. Proof. apply tab_length. Qed.
Lemma ne_step_len mu xo k v : length (i_x (ne_step mu xo k v)) = m /\ length (i_gs (ne_step mu xo k v)) = m.
Proof. split; apply tab_length. Qed.
Lemma ne_u_len mu w : length (ne_u mu w) = p. Proof. apply tab_length. Qed.
End pure.
Global Hint Rewrite @ne_proj_len @ne_u_len : len.

Section runs.
Context `{N : Num}.
Context (call : fptr -> ptr -> ptr -> M unit).
Context (m n p : nat) (A B Wt Wm : list T -> list T) (F : list nat) (J : st -> Prop) (ax : AxFuns).
Context (HA : oper F J (call (ax_Ax ax)) m n A) (HB : oper F J (call (ax_Aty ax)) n m B).
Context (HWt : oper F J (call (ax_Wtx ax)) m p Wt) (HW : oper F J (call (ax_Wz ax)) p m Wm).
Context (self : ptr) (xo xk yk zk at' gr gs d1 d2 bb : nat) (bs atb : list T) (sigma L : T).
Definition np : NProb :=
  mkNP self (Z.of_nat m) (Z.of_nat n) (Z.of_nat p) (Ptr xo 0) (Ptr xk 0) (Ptr yk 0) (Ptr zk 0) (Ptr at' 0) (Ptr gr 0) (Ptr gs 0)
       (Ptr d1 0) (Ptr d2 0) (Ptr bb 0) ax sigma L.
Implicit Types (s : st).

Lemma project_run s mu bx bg bv xs g :
  NoDup [bx; bg; bv; at'; d1; d2; bb] -> (forall b, b ∈ [bx; bg; bv; at'; d1; d2; bb] -> b ∉ F) ->
  J s -> seg s (Ptr bx 0) xs -> seg s (Ptr bg 0) g -> seg s (Ptr at' 0) atb -> seg s (Ptr bb 0) bs ->
  length xs = m -> length g = m -> length atb = m -> length bs = n ->
  wok s (Ptr bv 0) m -> wok s (Ptr d1 0) m -> wok s (Ptr d2 0) n ->
  (forall b, b ∈ [bx; bg; bv; d1; d2; bb] -> is_aligned s (Ptr b 0) = true) ->
  exists s', nesta_project call np mu (Ptr bx 0) (Ptr bg 0) (Ptr bv 0) s = Ok tt s' /\
    seg s' (Ptr bv 0) (ne_proj m n A B bs atb sigma L mu xs g) /\ touch ([bv; d1; d2] ++ F) s s' /\ J s'.
Proof.
  clear HW HWt. intros Hd HF HJ Sx Sg Sa Sb Lx Lg La Lb Wv W1 W2 Hal.
  assert (Al1 := Hal bx ltac:(isin)). assert (Al2 := Hal bg ltac:(isin)). assert (Al3 := Hal bv ltac:(isin)).
  assert (Al4 := Hal d1 ltac:(isin)). assert (Al5 := Hal d2 ltac:(isin)). assert (Al6 := Hal bb ltac:(isin)). clear Hal.
  assert (F1 := HF bx ltac:(isin)). assert (F2 := HF bg ltac:(isin)). assert (F3 := HF bv ltac:(isin)). assert (F4 := HF at' ltac:(isin)).
  assert (F5 := HF d1 ltac:(isin)). assert (F6 := HF d2 ltac:(isin)). assert (F7 := HF bb ltac:(isin)). clear HF.
  distinct Hd. clear Hd. unfold nesta_project. cbn [np np_m np_n np_b np_ax np_sigma np_L np_Atb np_dwork1 np_dwork2].
  assert (HT0 : touch ([bv; d1; d2] ++ F) s s) by apply touch_refl.
  pose proof (daxpy_z_run s m (div (opp one) (div L mu)) (Ptr bg 0) g (Ptr bx 0) xs (Ptr bv 0)
    Al2 Al1 Al3 Sg Sx Lg Lx ltac:(dis) ltac:(dis) ltac:(wokt)) as E.
  wstep E Sv t1. set (q := axpy_of m _ g xs) in Sv.
  assert (Lq : length q = m) by apply tab_length.
  ostep HA (Ptr bv 0) (Ptr d2 0) Lq S2 HJ t2.
  ostep HB (Ptr d2 0) (Ptr d1 0) LA S1 HJ t3. 
  rewrite (bind_ok _ _ _ _ _ (dnrm2_err_run t3 n (Ptr bb 0) bs (Ptr d2 0) (A q) Al6 Al5 Sb S2 ltac:(lia) ltac:(lia))). cbv zeta.
  fold (ne_lambda n A bs sigma L mu q). fold (ne_a1 n A bs sigma L mu q).
  pose proof (daxpy_run t3 m (mul (div (ne_lambda n A bs sigma L mu q) (div L mu)) (sub one (ne_a1 n A bs sigma L mu q))) (Ptr at' 0) atb (Ptr bv 0) q
    (src_disj t3 (Ptr bv 0) q m (Ptr at' 0) atb La Sa ltac:(dis)) Sv Lq) as E.
  wstep E Sv' t4.
  set (q2 := axpy_of m _ atb q) in Sv'.
  pose proof (daxpy_run t4 m (opp (ne_a1 n A bs sigma L mu q)) (Ptr d1 0) (B (A q)) (Ptr bv 0) q2
    (src_disj t4 (Ptr bv 0) q2 m (Ptr d1 0) (B (A q)) LA0 S1 ltac:(dis)) Sv' (tab_length _ _)) as E.
  rewrite E. clear E.
  after_wr Sw t5. exists t5. split; [done|]. split; [exact Sw|]. split; [exact HT0|exact HJ].
Qed.

Lemma feval_run s mu xs :
  NoDup [xk; gr; d1; d2] -> (forall b, b ∈ [xk; gr; d1; d2] -> b ∉ F) ->
  J s -> seg s (Ptr xk 0) xs -> length xs = m -> wok s (Ptr gr 0) m -> wok s (Ptr d1 0) p -> wok s (Ptr d2 0) p ->
  (forall b, b ∈ [xk; gr; d1; d2] -> is_aligned s (Ptr b 0) = true) ->
  exists s', nesta_feval call np mu s = Ok (ne_fx p Wt mu xs) s' /\
    seg s' (Ptr gr 0) (ne_grad p Wt Wm mu xs) /\ touch ([gr; d1; d2] ++ F) s s' /\ J s'.
Proof.
  intros Hd HF HJ Sx Lx Wg W1 W2 Hal.
  assert (Al1 := Hal xk ltac:(isin)). assert (Al2 := Hal gr ltac:(isin)). assert (Al3 := Hal d1 ltac:(isin)).
  assert (Al4 := Hal d2 ltac:(isin)). clear Hal.
  assert (F1 := HF xk ltac:(isin)). assert (F2 := HF gr ltac:(isin)). assert (F3 := HF d1 ltac:(isin)). assert (F4 := HF d2 ltac:(isin)). clear HF.
  distinct Hd. clear Hd. unfold nesta_feval. cbn [np np_p np_xk np_gradf np_ax np_dwork1 np_dwork2].
  assert (HT0 : touch ([gr; d1; d2] ++ F) s s) by apply touch_refl.
  ostep HWt (Ptr xk 0) (Ptr d1 0) Lx S1 HJ t1.
  assert (E : for_ 0 (Z.of_nat p) (fun i => let* w := ld (Ptr d1 0) i in sto (Ptr d2 0) i (div w (dmax mu (fabs w)))) t1
    = Ok tt (wr (Ptr d2 0) (ne_u p mu (Wt xs)) t1)).
  { apply (for_elem p (Ptr d2 0) [] [(Ptr d1 0, Wt xs)]).
    - intros q zs Hq. apply elem_of_cons in Hq as [[= -> ->]|Hq]; [|by apply elem_of_nil in Hq].
      split; [done|]. right. split; [done|]. dis.
    - apply seg_nil.
    - done.
    - intros s1 i Hi Hs. by rewrite (bind_ok _ _ _ _ _ (Hs (Ptr d1 0) (Wt xs) ltac:(isin))). }
  assert (Lu := ne_u_len p mu (Wt xs)). 
  wstep E S2 t2.
  rewrite (bind_ok _ _ _ _ _ (dnrm2_run t2 p (Ptr d2 0) _ S2 ltac:(lia))). cbv zeta.
  rewrite (bind_ok _ _ _ _ _ (ddot_run t2 p (Ptr d2 0) _ (Ptr d1 0) _ S2 S1 ltac:(lia) ltac:(lia))).
  ostep HW (Ptr d2 0) (Ptr gr 0) Lu S3 HJ t3.
  exists t3. split; [done|]. split; [exact S3|]. split; [exact HT0|exact HJ].
Qed.

(** the fifo in memory *)
Definition at_fifo (s : st) (fv : nat) (f : fifo) (c : Fifo) : Prop :=
  seg s (Ptr fv 0) (f_v f) /\ f_ok f /\ c = mkFifo (Ptr fv 0) (f_n f) (Ptr fv (Z.of_nat (f_i f))).
Lemma push_run s fv f c v : at_fifo s fv f c ->
  exists c' s', push_fifo c v s = Ok c' s' /\ s' = wr (Ptr fv 0) (f_v (f_push f v)) s /\ at_fifo s' fv (f_push f v) c'.
Proof.
  intros (Sv & [Lv Hi] & ->). unfold push_fifo. cbn [ff_vals ff_next ff_total].
  assert (E : sto (Ptr fv (Z.of_nat (f_i f))) 0 v s = Ok tt (wr (Ptr fv 0) (f_v (f_push f v)) s)).
  { assert (E1 := sto_wok s (Ptr fv 0) 10 (Z.of_nat (f_i f)) v). 
    transitivity (sto (Ptr fv 0) (Z.of_nat (f_i f)) v s).
    { unfold sto, cell, padd. by rewrite !Z.add_0_r, !Z.add_0_l. }
    rewrite E1; [|rewrite <- Lv; by apply seg_wok|lia]. by rewrite (wr_insert s _ _ _ v Sv) by lia. }
  rewrite (bind_ok _ _ _ _ _ E). clear E.
  eexists _, _. split; [reflexivity|]. split; [done|]. split; [|split; [by apply f_push_ok|]].
  - apply seg_wr. cbn [f_push f_v]. rewrite insert_length. by apply seg_wok.
  - cbn [f_push f_i f_n]. f_equal. cbn [padd ptr_gt NMEAN]. unfold NMEAN.
    destruct (Nat.ltb_spec 9 (f_i f + 1)), (Z.ltb_spec (0 + (10 - 1)) (Z.of_nat (f_i f) + 1)); try lia; [done|]. f_equal. lia.
Qed.
Lemma mean_run s fv f c : at_fifo s fv f c -> mean_fifo c s = Ok (f_mean f) s.
Proof.
  intros (Sv & [Lv Hi] & ->). unfold mean_fifo. cbn [ff_vals ff_total].
  rewrite (bind_ok _ _ _ (foldi 10 (fun i a => add a (at_ (f_v f) i)) zero) s); [done|].
  change NMEAN with (Z.of_nat 10). apply for_acc_fold. intros i a Hi'.
  by rewrite (bind_ok _ _ _ _ _ (seg_ld s _ _ i Sv ltac:(lia))).
Qed.
Lemma fifo_touch s s' W fv f c : at_fifo s fv f c -> touch W s s' -> fv ∉ W -> at_fifo s' fv f c.
Proof. intros (Sv & H1 & H2) HT Hn. split; [|done]. by apply (touch_seg _ _ _ _ _ _ HT). Qed.

(** *** the inner loop *)
Context (fv : nat) (Hd : NoDup [xo; xk; yk; zk; at'; gr; gs; d1; d2; bb; fv]).
Context (HF : forall b, b ∈ [xo; xk; yk; zk; at'; gr; gs; d1; d2; bb; fv] -> b ∉ F).
Context (Hn : (n <= Nat.max m p)%nat) (La : length atb = m) (Lb : length bs = n).
Definition wri : list nat := [xk; yk; zk; gr; gs; d1; d2; fv] ++ F.
Record nlay (x0 : list T) (v : inner) (c : Fifo) (s : st) : Prop := {
  nl_J : J s;
  nl_xo : seg s (Ptr xo 0) x0; nl_xoL : length x0 = m;
  nl_xk : seg s (Ptr xk 0) (i_x v); nl_xkL : length (i_x v) = m;
  nl_gs : seg s (Ptr gs 0) (i_gs v); nl_gsL : length (i_gs v) = m;
  nl_yk : wok s (Ptr yk 0) m; nl_zk : wok s (Ptr zk 0) m; nl_gr : wok s (Ptr gr 0) m;
  nl_d1 : wok s (Ptr d1 0) (Nat.max m p); nl_d2 : wok s (Ptr d2 0) (Nat.max m p);
  nl_at : seg s (Ptr at' 0) atb; nl_bb : seg s (Ptr bb 0) bs;
  nl_f : at_fifo s fv (i_f v) c;
  nl_al : forall b, b ∈ [xo; xk; yk; zk; gr; gs; d1; d2; bb; fv] -> is_aligned s (Ptr b 0) = true
}.
Notation proj := (ne_proj m n A B bs atb sigma L).
Notation step := (ne_step m n p A B Wt Wm bs atb sigma L).
Lemma iter_run s x0 v c mu tol k : nlay x0 v c s ->
  exists s' c', nesta_iter call np (Z.of_nat m) mu tol (Z.of_nat k) c s = Ok (if ne_stop p Wt mu tol v then Stop c' else Go c') s' /\
    nlay x0 (step mu x0 k v) c' s' /\ touch wri s s'.
Proof.
  intros [HJ Sxo Lxo Sxk Lxk Sgs Lgs Wy Wz Wg W1 W2 Sa Sb (Sv & Hok & ->) Hal].
  assert (Wf : wok s (Ptr fv 0) 10) by (destruct Hok as [<- _]; by apply seg_wok).
  destruct v as [xs g f]. cbn [i_x i_gs i_f] in *.
  assert (HT0 : touch wri s s) by apply touch_refl. unfold wri in *.
  assert (W1m : wok s (Ptr d1 0) m) by (eapply wok_le; [exact W1|lia]).
  assert (W1p : wok s (Ptr d1 0) p) by (eapply wok_le; [exact W1|lia]).
  assert (W2p : wok s (Ptr d2 0) p) by (eapply wok_le; [exact W2|lia]).
  assert (W2n : wok s (Ptr d2 0) n) by (eapply wok_le; [exact W2|lia]).
  assert (Al1 := Hal xo ltac:(isin)). assert (Al2 := Hal xk ltac:(isin)). assert (Al3 := Hal yk ltac:(isin)). assert (Al4 := Hal zk ltac:(isin)).
  assert (Al5 := Hal gr ltac:(isin)). assert (Al6 := Hal gs ltac:(isin)). assert (Al7 := Hal d1 ltac:(isin)). assert (Al8 := Hal d2 ltac:(isin)).
  assert (Al9 := Hal bb ltac:(isin)). assert (Al10 := Hal fv ltac:(isin)). clear Hal.
  assert (F1 := HF xo ltac:(isin)). assert (F2 := HF xk ltac:(isin)). assert (F3 := HF yk ltac:(isin)). assert (F4 := HF zk ltac:(isin)).
  assert (F5 := HF at' ltac:(isin)). assert (F6 := HF gr ltac:(isin)). assert (F7 := HF gs ltac:(isin)). assert (F8 := HF d1 ltac:(isin)).
  assert (F9 := HF d2 ltac:(isin)). assert (F10 := HF bb ltac:(isin)). assert (F11 := HF fv ltac:(isin)).
  distinct Hd. clear Hd. unfold nesta_iter. cbn [np np_xo np_xk np_yk np_zk np_gradf np_gradf_sum].
  (* the objective *)
  destruct (feval_run s mu xs) as (t1 & E & Sg & HT & HJ1); try assumption; try wokt.
  { repeat (apply NoDup_cons; split; [notin|]). apply NoDup_nil_2. }
  { intros b Hb. repeat (apply elem_of_cons in Hb as [->|Hb]; [assumption|]). by apply elem_of_nil in Hb. }
  { intros b Hb. repeat (apply elem_of_cons in Hb as [->|Hb]; [assumption|]). by apply elem_of_nil in Hb. }
  rewrite (bind_ok _ _ _ _ _ E). clear E HJ. clear Wg. xfer HT. clear HT. rename HJ1 into HJ.
  set (gg := ne_grad p Wt Wm mu xs) in *.
  assert (Lgg : length gg = m) by (apply (op_len _ _ _ _ _ _ HW), tab_length).
  (* y_k *)
  destruct (project_run t1 mu xk gr yk xs gg) as (t2 & E & Sy & HT & HJ1); try assumption; try wokt.
  { repeat (apply NoDup_cons; split; [notin|]). apply NoDup_nil_2. }
  { intros b Hb. repeat (apply elem_of_cons in Hb as [->|Hb]; [assumption|]). by apply elem_of_nil in Hb. }
  { intros b Hb. repeat (apply elem_of_cons in Hb as [->|Hb]; [assumption|]). by apply elem_of_nil in Hb. }
  rewrite (bind_ok _ _ _ _ _ E). clear E HJ Wy. xfer HT. clear HT. rename HJ1 into HJ. cbv zeta.
  (* sum of gradients *)
  pose proof (daxpy_run t2 m (mul (lit 1 2) (ofZ (Z.of_nat k + 1))) (Ptr gr 0) gg (Ptr gs 0) g
    (src_disj t2 (Ptr gs 0) g m (Ptr gr 0) gg Lgg Sg ltac:(dis)) Sgs Lgs) as E.
  wstep E Sgs' t3. clear Sgs. set (g' := axpy_of m _ gg g) in *. assert (Lg' : length g' = m) by apply tab_length.
  (* z_k *)
  destruct (project_run t3 mu xo gs zk x0 g') as (t4 & E & Sz & HT & HJ1); try assumption; try wokt.
  { repeat (apply NoDup_cons; split; [notin|]). apply NoDup_nil_2. }
  { intros b Hb. repeat (apply elem_of_cons in Hb as [->|Hb]; [assumption|]). by apply elem_of_nil in Hb. }
  { intros b Hb. repeat (apply elem_of_cons in Hb as [->|Hb]; [assumption|]). by apply elem_of_nil in Hb. }
  rewrite (bind_ok _ _ _ _ _ E). clear E HJ Wz. xfer HT. clear HT. rename HJ1 into HJ.
  (* x_k *)
  pose proof (daxpby_z_run t4 m (div two (ofZ (Z.of_nat k + 3))) (Ptr zk 0) (proj mu x0 g') (sub one (div two (ofZ (Z.of_nat k + 3))))
    (Ptr yk 0) (proj mu xs gg) (Ptr xk 0) Al4 Al3 Al2 Sz Sy (ne_proj_len m n A B bs atb sigma L mu _ _) (ne_proj_len m n A B bs atb sigma L mu _ _) ltac:(dis) ltac:(dis) ltac:(wokt)) as E.
  wstep E Sxk' t5.
  (* the fifo *)
  set (c := mkFifo _ _ _).
  assert (Hf : at_fifo t5 fv f c) by done.
  rewrite (bind_ok _ _ _ _ _ (mean_run t5 fv f c Hf)).
  destruct (push_run t5 fv f c (ne_fx p Wt mu xs) Hf) as (c' & t6 & E & Et6 & Hf').
  rewrite (bind_ok _ _ _ _ _ E). clear E. unfold ret.
  assert (HT : touch [fv] t5 t6) by (rewrite Et6; apply touch_wr; left). clear Et6.
  clear Hf Sv. xfer HT. clear HT.
  exists t6, c'. split; [done|]. split; [|exact HT0].
  split; cbn [step ne_step i_x i_gs i_f]; try assumption; try apply tab_length; try wokt.
  intros b Hb. repeat (apply elem_of_cons in Hb as [->|Hb]; [assumption|]). by apply elem_of_nil in Hb.
Qed.
Lemma loop_run fuel k s x0 v c mu tol : nlay x0 v c s ->
  exists s' c' i, brkn fuel (Z.of_nat k) c (nesta_iter call np (Z.of_nat m) mu tol) s = Ok (i, c') s' /\
    nlay x0 (ne_loop m n p A B Wt Wm bs atb sigma L mu tol x0 fuel k v) c' s' /\ touch wri s s'.
Proof.
  revert k s v c. induction fuel as [|fu IH]; intros k s v c Hl; cbn [brkn ne_loop].
  - eexists s, c, _. split; [reflexivity|]. split; [done|apply touch_refl].
  - destruct (iter_run s x0 v c mu tol k Hl) as (t & c' & E & Hl' & HT).
    rewrite (bind_ok _ _ _ _ _ E). destruct (ne_stop p Wt mu tol v).
    + eexists t, c', _. split; [reflexivity|]. done.
    + destruct (IH (S k) t _ c' Hl') as (s' & c2 & i & E2 & Hl2 & HT2).
      replace (Z.of_nat k + 1) with (Z.of_nat (S k)) by lia. exists s', c2, i. split; [exact E2|]. split; [done|].
      by eapply touch_trans.
Qed.
(** between stages: x_k and xo hold the same vector; gradf_sum and the fifo hold anything *)
Record slay (x : list T) (c : Fifo) (s : st) : Prop := {
  sl_J : J s;
  sl_xo : seg s (Ptr xo 0) x; sl_L : length x = m; sl_xk : seg s (Ptr xk 0) x;
  sl_w : forall b, b ∈ [yk; zk; gr; gs] -> wok s (Ptr b 0) m;
  sl_d : forall b, b ∈ [d1; d2] -> wok s (Ptr b 0) (Nat.max m p);
  sl_at : seg s (Ptr at' 0) atb; sl_bb : seg s (Ptr bb 0) bs;
  sl_f : wok s (Ptr fv 0) 10; sl_c : ff_vals c = Ptr fv 0;
  sl_al : forall b, b ∈ [xo; xk; yk; zk; gr; gs; d1; d2; bb; fv] -> is_aligned s (Ptr b 0) = true
}.
Lemma stage_run s mu tol x c bmu btol : slay x c s ->
  let r := ne_stage m n p A B Wt Wm bs atb sigma L bmu btol (mu, tol, x) in
  exists s' c', nesta_stage call np (Z.of_nat m) bmu btol (mu, tol, c) s = Ok (fst (fst r), snd (fst r), c') s' /\
    slay (snd r) c' s' /\ touch (xo :: wri) s s'.
Proof.
  intros [HJ Sxo Lx Sxk Hw Hw2 Sa Sb Wf Ec Hal] r. unfold nesta_stage. cbv zeta. rewrite Ec.
  assert (Wy := Hw yk ltac:(isin)). assert (Wz := Hw zk ltac:(isin)). assert (Wg := Hw gr ltac:(isin)). assert (Wgs := Hw gs ltac:(isin)). clear Hw.
  assert (W1 := Hw2 d1 ltac:(isin)). assert (W2 := Hw2 d2 ltac:(isin)). clear Hw2.
  assert (Al1 := Hal xo ltac:(isin)). assert (Al2 := Hal xk ltac:(isin)). assert (Al3 := Hal yk ltac:(isin)). assert (Al4 := Hal zk ltac:(isin)).
  assert (Al5 := Hal gr ltac:(isin)). assert (Al6 := Hal gs ltac:(isin)). assert (Al7 := Hal d1 ltac:(isin)). assert (Al8 := Hal d2 ltac:(isin)).
  assert (Al9 := Hal bb ltac:(isin)). assert (Al10 := Hal fv ltac:(isin)). clear Hal.
  assert (F1 := HF xo ltac:(isin)). assert (F2 := HF xk ltac:(isin)). assert (F3 := HF yk ltac:(isin)). assert (F4 := HF zk ltac:(isin)).
  assert (F5 := HF at' ltac:(isin)). assert (F6 := HF gr ltac:(isin)). assert (F7 := HF gs ltac:(isin)). assert (F8 := HF d1 ltac:(isin)).
  assert (F9 := HF d2 ltac:(isin)). assert (F10 := HF bb ltac:(isin)). assert (F11 := HF fv ltac:(isin)).
  assert (HT0 : touch (xo :: wri) s s) by apply touch_refl. unfold wri in HT0.
  distinct Hd. 
  pose proof (init_vec_run s 10 (Ptr fv 0) zero Al10 Wf) as E. change (Z.of_nat 10) with NMEAN in E.
  wstep E Sf t1.
  pose proof (init_vec_run t1 m (Ptr gs 0) zero Al6 Wgs) as E.
  wstep E Sgs t2.
  set (mu' := mul mu bmu) in *. set (tol' := mul tol btol) in *.
  set (v0 := mkI x (const_of m zero) f_reset).
  assert (Hl : nlay x v0 (mkFifo (Ptr fv 0) 0 (Ptr fv 0)) t2).
  { split; cbn [v0 i_x i_gs i_f]; try assumption; try apply tab_length; try wokt.
    - split; [exact Sf|]. split; [apply f_reset_ok|done].
    - intros b Hb. repeat (apply elem_of_cons in Hb as [->|Hb]; [assumption|]). by apply elem_of_nil in Hb. }
  destruct (loop_run (Z.to_nat MAX_INNER_ITER) 0 t2 x v0 _ mu' tol' Hl) as (t3 & c' & i & E & Hl' & HT).
  change (Z.of_nat 0) with 0 in E.
  assert (E' : for_brk 0 MAX_INNER_ITER (mkFifo (Ptr fv 0) 0 (Ptr fv 0)) (nesta_iter call np (Z.of_nat m) mu' tol') t2 = Ok (i, c') t3).
  { unfold for_brk. by rewrite Z.sub_0_r. }
  rewrite (bind_ok _ _ _ _ _ E'). clear E E'. cbn [snd].
  set (v1 := ne_loop m n p A B Wt Wm bs atb sigma L mu' tol' x (Z.to_nat MAX_INNER_ITER) 0 v0) in *.
  assert (HT1 : touch (xo :: [xk; yk; zk; gr; gs; d1; d2; fv] ++ F) s t3).
  { eapply touch_trans; [exact HT0|]. eapply touch_weaken; [exact HT|]. intros b Hb. by right. }
  clear HT HT0. destruct Hl' as [HJ' Sxo' Lxo' Sxk' Lxk' Sgs' Lgs' Wy' Wz' Wg' W1' W2' Sa' Sb' (Sv & Hok & Ec') Hal].
  change (np_m np) with (Z.of_nat m). change (np_xk np) with (Ptr xk 0). change (np_xo np) with (Ptr xo 0).
  pose proof (dcopy_run t3 m (Ptr xk 0) (i_x v1) (Ptr xo 0) Sxk' Lxk' ltac:(wokt) ltac:(dis)) as E.
  assert (Al1' := Hal xo ltac:(isin)). assert (Al2' := Hal xk ltac:(isin)). assert (Al3' := Hal yk ltac:(isin)). assert (Al4' := Hal zk ltac:(isin)).
  assert (Al5' := Hal gr ltac:(isin)). assert (Al6' := Hal gs ltac:(isin)). assert (Al7' := Hal d1 ltac:(isin)). assert (Al8' := Hal d2 ltac:(isin)).
  assert (Al9' := Hal bb ltac:(isin)). assert (Al10' := Hal fv ltac:(isin)). clear Hal.
  assert (Wf' : wok t3 (Ptr fv 0) 10) by (destruct Hok as [<- _]; by apply seg_wok). clear Sv.
  assert (Wgs' : wok t3 (Ptr gs 0) m) by (rewrite <- Lgs'; by apply seg_wok). clear Sgs'.
  wstep E Sxo2 t4. unfold ret.
  exists t4, c'. split; [done|]. split; [|exact HT1].
  split; [assumption|exact Sxo2|exact Lxk'|exact Sxk'| | |assumption|assumption|assumption| |].
  - intros b Hb. repeat (apply elem_of_cons in Hb as [->|Hb]; [assumption|]). by apply elem_of_nil in Hb.
  - intros b Hb. repeat (apply elem_of_cons in Hb as [->|Hb]; [assumption|]). by apply elem_of_nil in Hb.
  - rewrite Ec'. done.
  - intros b Hb. repeat (apply elem_of_cons in Hb as [->|Hb]; [assumption|]). by apply elem_of_nil in Hb.
Qed.
Lemma stages_run j k s mu tol x c bmu btol : slay x c s ->
  let r := Nat.iter j (ne_stage m n p A B Wt Wm bs atb sigma L bmu btol) (mu, tol, x) in
  exists s' c', accn j k (mu, tol, c) (fun _ => nesta_stage call np (Z.of_nat m) bmu btol) s = Ok (fst (fst r), snd (fst r), c') s' /\
    slay (snd r) c' s' /\ touch (xo :: wri) s s'.
Proof.
  revert k s mu tol x c. induction j as [|j IH]; intros k s mu tol x c Hl; cbv zeta; cbn [accn].
  - exists s, c. split; [done|]. split; [done|apply touch_refl].
  - destruct (stage_run s mu tol x c bmu btol Hl) as (t & c' & E & Hl' & HT).
    rewrite (bind_ok _ _ _ _ _ E). 
    destruct (IH (k + 1) t (fst (fst (ne_stage m n p A B Wt Wm bs atb sigma L bmu btol (mu, tol, x)))) (snd (fst (ne_stage m n p A B Wt Wm bs atb sigma L bmu btol (mu, tol, x)))) _ c' Hl') as (s' & c2 & E2 & Hl2 & HT2).
    exists s', c2.
    replace (Nat.iter (S j) (ne_stage m n p A B Wt Wm bs atb sigma L bmu btol) (mu, tol, x)) with
      (Nat.iter j (ne_stage m n p A B Wt Wm bs atb sigma L bmu btol)
         (fst (fst (ne_stage m n p A B Wt Wm bs atb sigma L bmu btol (mu, tol, x))),
          snd (fst (ne_stage m n p A B Wt Wm bs atb sigma L bmu btol (mu, tol, x))),
          snd (ne_stage m n p A B Wt Wm bs atb sigma L bmu btol (mu, tol, x)))).
    { split; [exact E2|]. split; [exact Hl2|]. by eapply touch_trans. }
    rewrite Nat.iter_succ_r. f_equal; by destruct (ne_stage _ _ _ _ _ _ _ _ _ _ _ _ _ _) as [[? ?] ?].
Qed.
End runs.
