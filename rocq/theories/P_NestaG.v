(** * Running NESTA with an adjoint that reads the old contents of its result array.

    The field Aty of a DCT-TV transform in analysis mode multiplies the old contents of the result array
    by zero and adds to it (S_TVtApi, dct1.c:196-205).  That gives the same result whatever the array held
    only if 0 times the old contents is zero, which is false of infinities and NaN.  The lemmas of P_Nesta
    are repeated here for such a function; the arrays NESTA passes to it (Atb, dwork1) have to hold
    "good" values (G) along the way, which is stated as a condition on the iterates. *)
From Coq Require Import ZArith Lia.
From stdpp Require Import base numbers gmap list.
From Verif Require Import Globals P_Loop P_Math P_Step P_Memory P_Own P_Own2 P_Own3 P_CG M_Math M_Memory M_Status M_Nesta P_Newton P_Newt7 P_Nesta P_Nesta2.
Local Open Scope Z_scope.

Section operd.
Context `{N : Num}.
(** like [oper], but the result array must hold m values satisfying G *)
Record operd (G : T -> Prop) (F : list nat) (J : st -> Prop) (op : ptr -> ptr -> M unit) (n m : nat) (B : list T -> list T) : Prop := {
  od_run : forall s X xs D ds, J s -> seg s X xs -> length xs = n -> seg s D ds -> length ds = m -> Forall G ds -> disj D m X n ->
    is_aligned s X = true -> is_aligned s D = true -> outside X F -> outside D F ->
    exists s', op X D s = Ok tt s' /\ touch F (wr D (B xs) s) s' /\ J s';
  od_len : forall xs, length xs = n -> length (B xs) = m
}.
Lemma oper_operd F J op n m B : oper F J op n m B -> operd (fun _ => True) F J op n m B.
Proof.
  intros H. split; [|apply H]. intros s X xs D ds HJ Sx Lx Sd Ld _ Hd Ax Ad Ox Od. eapply (op_run _ _ _ _ _ _ H); try done. rewrite <- Ld. by apply seg_wok.
Qed.
(** a block of good values after a good vector was written to its start *)
Lemma clean_step (G : T -> Prop) W s b ds ys s' : touch W (wr (Ptr b 0) ys s) s' -> b ∉ W -> seg s (Ptr b 0) ds -> (length ys <= length ds)%nat ->
  Forall G ds -> Forall G ys -> seg s' (Ptr b 0) (ys ++ drop (length ys) ds) /\ length (ys ++ drop (length ys) ds) = length ds /\ Forall G (ys ++ drop (length ys) ds).
Proof.
  intros HT Hb Sd Hl Gd Gy. split; [|split; [rewrite app_length, drop_length; lia|]].
  - apply (touch_seg _ _ _ _ _ _ HT Hb). apply seg_app. assert (Wy : wok s (Ptr b 0) (length ys)) by (eapply wok_le; [apply (seg_wok _ _ _ Sd)|done]).
    split; [by apply seg_wr|]. apply seg_wr_disj; [done| |].
    + rewrite <- (take_drop (length ys) ds) in Sd. apply seg_app in Sd as [_ Sd]. rewrite take_length in Sd. by replace (length ys `min` length ds)%nat with (length ys) in Sd by lia.
    + cbn [padd]. intros _. left. lia.
  - apply Forall_app. split; [done|]. by apply Forall_drop.
Qed.
Lemma clean_take (G : T -> Prop) s p ds k : seg s p ds -> (k <= length ds)%nat -> Forall G ds -> seg s p (take k ds) /\ length (take k ds) = k /\ Forall G (take k ds).
Proof.
  intros Sd Hk Gd. split; [|split; [rewrite take_length; lia|by apply Forall_take]]. rewrite <- (take_drop k ds) in Sd. by apply seg_app in Sd as [Sd _].
Qed.
End operd.

Section runs.
Context `{N : Num}.
Context (call : fptr -> ptr -> ptr -> M unit) (G : T -> Prop).
Context (m n p : nat) (A B Wt Wm : list T -> list T) (F : list nat) (J : st -> Prop) (ax : AxFuns).
Context (HA : oper F J (call (ax_Ax ax)) m n A) (HB : operd G F J (call (ax_Aty ax)) n m B).
Context (HWt : oper F J (call (ax_Wtx ax)) m p Wt) (HW : oper F J (call (ax_Wz ax)) p m Wm).
Context (self : ptr) (xo xk yk zk at' gr gs d1 d2 bb : nat) (bs atb : list T) (sigma L : T).
Notation np := (np m n p ax self xo xk yk zk at' gr gs d1 d2 bb sigma L).
Implicit Types (s : st) (ds : list T).
Lemma project_g s mu bx bg bv xs g ds :
  NoDup [bx; bg; bv; at'; d1; d2; bb] -> (forall b, b ∈ [bx; bg; bv; at'; d1; d2; bb] -> b ∉ F) ->
  J s -> seg s (Ptr bx 0) xs -> seg s (Ptr bg 0) g -> seg s (Ptr at' 0) atb -> seg s (Ptr bb 0) bs ->
  length xs = m -> length g = m -> length atb = m -> length bs = n ->
  wok s (Ptr bv 0) m -> seg s (Ptr d1 0) ds -> (m <= length ds)%nat -> Forall G ds -> Forall G (B (A (ne_q m L mu xs g))) -> wok s (Ptr d2 0) n ->
  (forall b, b ∈ [bx; bg; bv; d1; d2; bb] -> is_aligned s (Ptr b 0) = true) ->
  exists s', nesta_project call np mu (Ptr bx 0) (Ptr bg 0) (Ptr bv 0) s = Ok tt s' /\
    seg s' (Ptr bv 0) (ne_proj m n A B bs atb sigma L mu xs g) /\ touch ([bv; d1; d2] ++ F) s s' /\ J s' /\
    exists ds', seg s' (Ptr d1 0) ds' /\ length ds' = length ds /\ Forall G ds'.
Proof.
  clear HW HWt. intros Hd HF HJ Sx Sg Sa Sb Lx Lg La Lb Wv Sd Ld Gd Gq W2 Hal.
  assert (Al1 := Hal bx ltac:(isin)). assert (Al2 := Hal bg ltac:(isin)). assert (Al3 := Hal bv ltac:(isin)).
  assert (Al4 := Hal d1 ltac:(isin)). assert (Al5 := Hal d2 ltac:(isin)). assert (Al6 := Hal bb ltac:(isin)). clear Hal.
  assert (F1 := HF bx ltac:(isin)). assert (F2 := HF bg ltac:(isin)). assert (F3 := HF bv ltac:(isin)). assert (F4 := HF at' ltac:(isin)).
  assert (F5 := HF d1 ltac:(isin)). assert (F6 := HF d2 ltac:(isin)). assert (F7 := HF bb ltac:(isin)). clear HF.
  distinct Hd. clear Hd. unfold nesta_project. cbn [P_Nesta.np np_m np_n np_b np_ax np_sigma np_L np_Atb np_dwork1 np_dwork2].
  assert (HT0 : touch ([bv; d1; d2] ++ F) s s) by apply touch_refl.
  pose proof (daxpy_z_run s m (div (opp one) (div L mu)) (Ptr bg 0) g (Ptr bx 0) xs (Ptr bv 0)
    Al2 Al1 Al3 Sg Sx Lg Lx ltac:(dis) ltac:(dis) ltac:(wokt)) as E.
  wstep E Sv t1. set (q := axpy_of m _ g xs) in Sv.
  assert (Lq : length q = m) by apply tab_length.
  ostep HA (Ptr bv 0) (Ptr d2 0) Lq S2 HJ t2.
  destruct (clean_take G t2 (Ptr d1 0) ds m Sd Ld Gd) as (Sdm & Ldm & Gdm).
  pose proof (od_len _ _ _ _ _ _ _ HB (A q) LA) as LA0.
  destruct (od_run _ _ _ _ _ _ _ HB t2 (Ptr d2 0) (A q) (Ptr d1 0) (take m ds) HJ S2 LA Sdm Ldm Gdm ltac:(dis) ltac:(alt) ltac:(alt) ltac:(notin) ltac:(notin)) as (t3 & E & HT & HJ').
  rewrite (bind_ok _ _ _ _ _ E). clear E HJ Sdm.
  assert (S1 : seg t3 (Ptr d1 0) (B (A q))) by (apply (seg_of_wr _ _ _ _ _ _ HT); [assumption|rewrite LA0; eapply wok_le; [apply (seg_wok _ _ _ Sd)|done]]).
  destruct (clean_step G _ _ _ ds _ _ HT F5 Sd ltac:(lia) Gd Gq) as (Sd' & Ld' & Gd'). set (ds' := B (A q) ++ _) in *.
  clear Sd. apply touch_of_wr in HT. xfer HT. clear HT. rename HJ' into HJ.
  rewrite (bind_ok _ _ _ _ _ (dnrm2_err_run t3 n (Ptr bb 0) bs (Ptr d2 0) (A q) Al6 Al5 Sb S2 ltac:(lia) ltac:(lia))). cbv zeta.
  fold (ne_lambda n A bs sigma L mu q). fold (ne_a1 n A bs sigma L mu q).
  pose proof (daxpy_run t3 m (mul (div (ne_lambda n A bs sigma L mu q) (div L mu)) (sub one (ne_a1 n A bs sigma L mu q))) (Ptr at' 0) atb (Ptr bv 0) q
    (src_disj t3 (Ptr bv 0) q m (Ptr at' 0) atb La Sa ltac:(dis)) Sv Lq) as E.
  wstep E Sv' t4.
  set (q2 := axpy_of m _ atb q) in Sv'.
  pose proof (daxpy_run t4 m (opp (ne_a1 n A bs sigma L mu q)) (Ptr d1 0) (B (A q)) (Ptr bv 0) q2
    (src_disj t4 (Ptr bv 0) q2 m (Ptr d1 0) (B (A q)) LA0 S1 ltac:(dis)) Sv' (tab_length _ _)) as E.
  rewrite E. clear E.
  after_wr Sw t5. exists t5. split; [done|]. split; [exact Sw|]. split; [exact HT0|]. split; [exact HJ|]. exists ds'. done.
Qed.

Lemma feval_g s mu xs ds :
  NoDup [xk; gr; d1; d2] -> (forall b, b ∈ [xk; gr; d1; d2] -> b ∉ F) ->
  J s -> seg s (Ptr xk 0) xs -> length xs = m -> wok s (Ptr gr 0) m -> seg s (Ptr d1 0) ds -> (p <= length ds)%nat -> Forall G ds -> Forall G (Wt xs) -> wok s (Ptr d2 0) p ->
  (forall b, b ∈ [xk; gr; d1; d2] -> is_aligned s (Ptr b 0) = true) ->
  exists s', nesta_feval call np mu s = Ok (ne_fx p Wt mu xs) s' /\
    seg s' (Ptr gr 0) (ne_grad p Wt Wm mu xs) /\ touch ([gr; d1; d2] ++ F) s s' /\ J s' /\
    exists ds', seg s' (Ptr d1 0) ds' /\ length ds' = length ds /\ Forall G ds'.
Proof.
  intros Hd HF HJ Sx Lx Wg Sd Ld Gd Gw W2 Hal.
  assert (Al1 := Hal xk ltac:(isin)). assert (Al2 := Hal gr ltac:(isin)). assert (Al3 := Hal d1 ltac:(isin)).
  assert (Al4 := Hal d2 ltac:(isin)). clear Hal.
  assert (F1 := HF xk ltac:(isin)). assert (F2 := HF gr ltac:(isin)). assert (F3 := HF d1 ltac:(isin)). assert (F4 := HF d2 ltac:(isin)). clear HF.
  distinct Hd. clear Hd. unfold nesta_feval. cbn [P_Nesta.np np_p np_xk np_gradf np_ax np_dwork1 np_dwork2].
  assert (HT0 : touch ([gr; d1; d2] ++ F) s s) by apply touch_refl.
  pose proof (op_len _ _ _ _ _ _ HWt xs Lx) as LA.
  assert (W1 : wok s (Ptr d1 0) p) by (eapply wok_le; [apply (seg_wok _ _ _ Sd)|done]).
  destruct (op_run _ _ _ _ _ _ HWt s (Ptr xk 0) xs (Ptr d1 0) HJ Sx Lx W1 ltac:(dis) ltac:(alt) ltac:(alt) ltac:(notin) ltac:(notin)) as (t1 & E & HT & HJ').
  rewrite (bind_ok _ _ _ _ _ E). clear E HJ.
  assert (S1 : seg t1 (Ptr d1 0) (Wt xs)) by (apply (seg_of_wr _ _ _ _ _ _ HT); [assumption|by rewrite LA]).
  destruct (clean_step G _ _ _ ds _ _ HT F3 Sd ltac:(lia) Gd Gw) as (Sd' & Ld' & Gd'). set (ds' := Wt xs ++ _) in *.
  clear Sd. apply touch_of_wr in HT. xfer HT. clear HT. rename HJ' into HJ.
  assert (E : for_ 0 (Z.of_nat p) (fun i => let* w := ld (Ptr d1 0) i in sto (Ptr d2 0) i (div w (dmax mu (fabs w)))) t1
    = Ok tt (wr (Ptr d2 0) (ne_u p mu (Wt xs)) t1)).
  { apply (for_elem p (Ptr d2 0) [] [(Ptr d1 0, Wt xs)]).
    - intros q zs Hq. apply elem_of_cons in Hq as [[= -> ->]|Hq]; [|by apply elem_of_nil in Hq].
      split; [done|]. right. split; [done|]. dis.
    - apply seg_nil.
    - done.
    - intros s1 i Hi Hs. by rewrite (bind_ok _ _ _ _ _ (Hs (Ptr d1 0) (Wt xs) ltac:(isin))). }
  assert (Lu := ne_u_len p mu (Wt xs)). 
  wstep E S2 t2.
  rewrite (bind_ok _ _ _ _ _ (dnrm2_run t2 p (Ptr d2 0) _ S2 ltac:(lia))). cbv zeta.
  rewrite (bind_ok _ _ _ _ _ (ddot_run t2 p (Ptr d2 0) _ (Ptr d1 0) _ S2 S1 ltac:(lia) ltac:(lia))).
  ostep HW (Ptr d2 0) (Ptr gr 0) Lu S3 HJ t3.
  exists t3. split; [done|]. split; [exact S3|]. split; [exact HT0|]. split; [exact HJ|]. exists ds'. done.
Qed.

(** *** the inner loop *)
Context (fv : nat) (Hd : NoDup [xo; xk; yk; zk; at'; gr; gs; d1; d2; bb; fv]).
Context (HF : forall b, b ∈ [xo; xk; yk; zk; at'; gr; gs; d1; d2; bb; fv] -> b ∉ F).
Context (Hn : (n <= Nat.max m p)%nat) (La : length atb = m) (Lb : length bs = n).
Notation wri := (wri F xk yk zk gr gs d1 d2 fv).
Notation at_fifo := at_fifo.
Record glay (x0 : list T) (v : inner) (c : Fifo) (s : st) : Prop := {
  gl_J : J s;
  gl_xo : seg s (Ptr xo 0) x0; gl_xoL : length x0 = m;
  gl_xk : seg s (Ptr xk 0) (i_x v); gl_xkL : length (i_x v) = m;
  gl_gs : seg s (Ptr gs 0) (i_gs v); gl_gsL : length (i_gs v) = m;
  gl_yk : wok s (Ptr yk 0) m; gl_zk : wok s (Ptr zk 0) m; gl_gr : wok s (Ptr gr 0) m;
  gl_d1 : exists ds, seg s (Ptr d1 0) ds /\ length ds = Nat.max m p /\ Forall G ds; gl_d2 : wok s (Ptr d2 0) (Nat.max m p);
  gl_at : seg s (Ptr at' 0) atb; gl_bb : seg s (Ptr bb 0) bs;
  gl_f : at_fifo s fv (i_f v) c;
  gl_al : forall b, b ∈ [xo; xk; yk; zk; gr; gs; d1; d2; bb; fv] -> is_aligned s (Ptr b 0) = true
}.
Notation proj := (ne_proj m n A B bs atb sigma L).
Notation step := (ne_step m n p A B Wt Wm bs atb sigma L).
(** what the operators see in one iteration is good *)
Definition iter_ok (mu : T) (x0 : list T) (k : nat) (v : inner) : Prop :=
  Forall G (Wt (i_x v)) /\ Forall G (B (A (ne_q m L mu (i_x v) (ne_grad p Wt Wm mu (i_x v))))) /\ Forall G (B (A (ne_q m L mu x0 (ne_gs m p Wt Wm mu k v)))).
Fixpoint loop_ok (mu tol : T) (x0 : list T) (fuel k : nat) (v : inner) : Prop :=
  match fuel with
  | O => True
  | S fu => iter_ok mu x0 k v /\ (ne_stop p Wt mu tol v = false -> loop_ok mu tol x0 fu (S k) (step mu x0 k v))
  end.
Definition stage_ok (bmu btol : T) (v : T * T * list T) : Prop :=
  let '(mu, tol, x) := v in loop_ok (mul mu bmu) (mul tol btol) x (Z.to_nat MAX_INNER_ITER) 0 (mkI x (const_of m zero) f_reset).
Lemma iter_g s x0 v c mu tol k : glay x0 v c s -> iter_ok mu x0 k v ->
  exists s' c', nesta_iter call np (Z.of_nat m) mu tol (Z.of_nat k) c s = Ok (if ne_stop p Wt mu tol v then Stop c' else Go c') s' /\
    glay x0 (step mu x0 k v) c' s' /\ touch wri s s'.
Proof.
  intros [HJ Sxo Lxo Sxk Lxk Sgs Lgs Wy Wz Wg (ds & Sd & Ld & Gd) W2 Sa Sb (Sv & Hok & ->) Hal] (G1 & G2 & G3).
  assert (Wf : wok s (Ptr fv 0) 10) by (destruct Hok as [<- _]; by apply seg_wok).
  destruct v as [xs g f]. cbn [i_x i_gs i_f] in *.
  assert (HT0 : touch wri s s) by apply touch_refl. unfold P_Nesta.wri in *.
  assert (W2p : wok s (Ptr d2 0) p) by (eapply wok_le; [exact W2|lia]).
  assert (W2n : wok s (Ptr d2 0) n) by (eapply wok_le; [exact W2|lia]).
  assert (Al1 := Hal xo ltac:(isin)). assert (Al2 := Hal xk ltac:(isin)). assert (Al3 := Hal yk ltac:(isin)). assert (Al4 := Hal zk ltac:(isin)).
  assert (Al5 := Hal gr ltac:(isin)). assert (Al6 := Hal gs ltac:(isin)). assert (Al7 := Hal d1 ltac:(isin)). assert (Al8 := Hal d2 ltac:(isin)).
  assert (Al9 := Hal bb ltac:(isin)). assert (Al10 := Hal fv ltac:(isin)). clear Hal.
  assert (F1 := HF xo ltac:(isin)). assert (F2 := HF xk ltac:(isin)). assert (F3 := HF yk ltac:(isin)). assert (F4 := HF zk ltac:(isin)).
  assert (F5 := HF at' ltac:(isin)). assert (F6 := HF gr ltac:(isin)). assert (F7 := HF gs ltac:(isin)). assert (F8 := HF d1 ltac:(isin)).
  assert (F9 := HF d2 ltac:(isin)). assert (F10 := HF bb ltac:(isin)). assert (F11 := HF fv ltac:(isin)).
  distinct Hd. clear Hd. unfold nesta_iter. cbn [P_Nesta.np np_xo np_xk np_yk np_zk np_gradf np_gradf_sum].
  (* the objective *)
  destruct (feval_g s mu xs ds) as (t1 & E & Sg & HT & HJ1 & dt1 & Sd1 & Ld1 & Gd1); try assumption; try wokt; try lia.
  { repeat (apply NoDup_cons; split; [notin|]). apply NoDup_nil_2. }
  { intros b Hb. repeat (apply elem_of_cons in Hb as [->|Hb]; [assumption|]). by apply elem_of_nil in Hb. }
  { intros b Hb. repeat (apply elem_of_cons in Hb as [->|Hb]; [assumption|]). by apply elem_of_nil in Hb. }
  rewrite (bind_ok _ _ _ _ _ E). clear E HJ Sd. clear Wg. xfer HT. clear HT. rename HJ1 into HJ.
  set (gg := ne_grad p Wt Wm mu xs) in *.
  assert (Lgg : length gg = m) by (apply (op_len _ _ _ _ _ _ HW), tab_length).
  (* y_k *)
  destruct (project_g t1 mu xk gr yk xs gg dt1) as (t2 & E & Sy & HT & HJ1 & dt2 & Sd2 & Ld2 & Gd2); try assumption; try wokt; try lia.
  { repeat (apply NoDup_cons; split; [notin|]). apply NoDup_nil_2. }
  { intros b Hb. repeat (apply elem_of_cons in Hb as [->|Hb]; [assumption|]). by apply elem_of_nil in Hb. }
  { intros b Hb. repeat (apply elem_of_cons in Hb as [->|Hb]; [assumption|]). by apply elem_of_nil in Hb. }
  rewrite (bind_ok _ _ _ _ _ E). clear E HJ Wy Sd1. xfer HT. clear HT. rename HJ1 into HJ. cbv zeta.
  (* sum of gradients *)
  pose proof (daxpy_run t2 m (mul (lit 1 2) (ofZ (Z.of_nat k + 1))) (Ptr gr 0) gg (Ptr gs 0) g
    (src_disj t2 (Ptr gs 0) g m (Ptr gr 0) gg Lgg Sg ltac:(dis)) Sgs Lgs) as E.
  wstep E Sgs' t3. clear Sgs. set (g' := axpy_of m _ gg g) in *. assert (Lg' : length g' = m) by apply tab_length.
  (* z_k *)
  destruct (project_g t3 mu xo gs zk x0 g' dt2) as (t4 & E & Sz & HT & HJ1 & dt3 & Sd3 & Ld3 & Gd3); try assumption; try wokt; try lia.
  { repeat (apply NoDup_cons; split; [notin|]). apply NoDup_nil_2. }
  { intros b Hb. repeat (apply elem_of_cons in Hb as [->|Hb]; [assumption|]). by apply elem_of_nil in Hb. }
  { intros b Hb. repeat (apply elem_of_cons in Hb as [->|Hb]; [assumption|]). by apply elem_of_nil in Hb. }
  rewrite (bind_ok _ _ _ _ _ E). clear E HJ Wz Sd2. xfer HT. clear HT. rename HJ1 into HJ.
  (* x_k *)
  pose proof (daxpby_z_run t4 m (div two (ofZ (Z.of_nat k + 3))) (Ptr zk 0) (proj mu x0 g') (sub one (div two (ofZ (Z.of_nat k + 3))))
    (Ptr yk 0) (proj mu xs gg) (Ptr xk 0) Al4 Al3 Al2 Sz Sy (ne_proj_len m n A B bs atb sigma L mu _ _) (ne_proj_len m n A B bs atb sigma L mu _ _) ltac:(dis) ltac:(dis) ltac:(wokt)) as E.
  wstep E Sxk' t5.
  (* the fifo *)
  set (c := mkFifo _ _ _).
  assert (Hf : at_fifo t5 fv f c) by done.
  rewrite (bind_ok _ _ _ _ _ (mean_run t5 fv f c Hf)).
  destruct (push_run t5 fv f c (ne_fx p Wt mu xs) Hf) as (c' & t6 & E & Et6 & Hf').
  rewrite (bind_ok _ _ _ _ _ E). clear E. unfold ret.
  assert (HT : touch [fv] t5 t6) by (rewrite Et6; apply touch_wr; left). clear Et6.
  clear Hf Sv. xfer HT. clear HT.
  exists t6, c'. split; [done|]. split; [|exact HT0].
  split; cbn [ne_step i_x i_gs i_f]; try assumption; try apply tab_length; try wokt.
  { exists dt3. split_and!; [exact Sd3|lia|done]. }
  intros b Hb. repeat (apply elem_of_cons in Hb as [->|Hb]; [assumption|]). by apply elem_of_nil in Hb.
Qed.
Lemma loop_g fuel k s x0 v c mu tol : glay x0 v c s -> loop_ok mu tol x0 fuel k v ->
  exists s' c' i, brkn fuel (Z.of_nat k) c (nesta_iter call np (Z.of_nat m) mu tol) s = Ok (i, c') s' /\
    glay x0 (ne_loop m n p A B Wt Wm bs atb sigma L mu tol x0 fuel k v) c' s' /\ touch wri s s'.
Proof.
  revert k s v c. induction fuel as [|fu IH]; intros k s v c Hl Hok; cbn [brkn ne_loop].
  - eexists s, c, _. split; [reflexivity|]. split; [done|apply touch_refl].
  - destruct Hok as [Hi Hok]. destruct (iter_g s x0 v c mu tol k Hl Hi) as (t & c' & E & Hl' & HT).
    rewrite (bind_ok _ _ _ _ _ E). destruct (ne_stop p Wt mu tol v) eqn:Es.
    + eexists t, c', _. split; [reflexivity|]. done.
    + destruct (IH (S k) t _ c' Hl' (Hok eq_refl)) as (s' & c2 & i & E2 & Hl2 & HT2).
      replace (Z.of_nat k + 1) with (Z.of_nat (S k)) by lia. exists s', c2, i. split; [exact E2|]. split; [done|].
      by eapply touch_trans.
Qed.
(** between stages: x_k and xo hold the same vector; gradf_sum and the fifo hold anything *)
Record gslay (x : list T) (c : Fifo) (s : st) : Prop := {
  gsl_J : J s;
  gsl_xo : seg s (Ptr xo 0) x; gsl_L : length x = m; gsl_xk : seg s (Ptr xk 0) x;
  gsl_w : forall b, b ∈ [yk; zk; gr; gs] -> wok s (Ptr b 0) m;
  gsl_d : wok s (Ptr d2 0) (Nat.max m p);
  gsl_d1 : exists ds, seg s (Ptr d1 0) ds /\ length ds = Nat.max m p /\ Forall G ds;
  gsl_at : seg s (Ptr at' 0) atb; gsl_bb : seg s (Ptr bb 0) bs;
  gsl_f : wok s (Ptr fv 0) 10; gsl_c : ff_vals c = Ptr fv 0;
  gsl_al : forall b, b ∈ [xo; xk; yk; zk; gr; gs; d1; d2; bb; fv] -> is_aligned s (Ptr b 0) = true
}.
Lemma stage_g s mu tol x c bmu btol : gslay x c s -> stage_ok bmu btol (mu, tol, x) ->
  let r := ne_stage m n p A B Wt Wm bs atb sigma L bmu btol (mu, tol, x) in
  exists s' c', nesta_stage call np (Z.of_nat m) bmu btol (mu, tol, c) s = Ok (fst (fst r), snd (fst r), c') s' /\
    gslay (snd r) c' s' /\ touch (xo :: wri) s s'.
Proof.
  intros [HJ Sxo Lx Sxk Hw W2 (ds & Sd & Ld & Gd) Sa Sb Wf Ec Hal] Hok0 r. unfold stage_ok in Hok0. unfold nesta_stage. cbv zeta. rewrite Ec.
  assert (Wy := Hw yk ltac:(isin)). assert (Wz := Hw zk ltac:(isin)). assert (Wg := Hw gr ltac:(isin)). assert (Wgs := Hw gs ltac:(isin)). clear Hw.
  assert (Al1 := Hal xo ltac:(isin)). assert (Al2 := Hal xk ltac:(isin)). assert (Al3 := Hal yk ltac:(isin)). assert (Al4 := Hal zk ltac:(isin)).
  assert (Al5 := Hal gr ltac:(isin)). assert (Al6 := Hal gs ltac:(isin)). assert (Al7 := Hal d1 ltac:(isin)). assert (Al8 := Hal d2 ltac:(isin)).
  assert (Al9 := Hal bb ltac:(isin)). assert (Al10 := Hal fv ltac:(isin)). clear Hal.
  assert (F1 := HF xo ltac:(isin)). assert (F2 := HF xk ltac:(isin)). assert (F3 := HF yk ltac:(isin)). assert (F4 := HF zk ltac:(isin)).
  assert (F5 := HF at' ltac:(isin)). assert (F6 := HF gr ltac:(isin)). assert (F7 := HF gs ltac:(isin)). assert (F8 := HF d1 ltac:(isin)).
  assert (F9 := HF d2 ltac:(isin)). assert (F10 := HF bb ltac:(isin)). assert (F11 := HF fv ltac:(isin)).
  assert (HT0 : touch (xo :: wri) s s) by apply touch_refl. unfold P_Nesta.wri in HT0.
  distinct Hd. 
  pose proof (init_vec_run s 10 (Ptr fv 0) zero Al10 Wf) as E. change (Z.of_nat 10) with NMEAN in E.
  wstep E Sf t1.
  pose proof (init_vec_run t1 m (Ptr gs 0) zero Al6 Wgs) as E.
  wstep E Sgs t2.
  set (mu' := mul mu bmu) in *. set (tol' := mul tol btol) in *.
  set (v0 := mkI x (const_of m zero) f_reset).
  assert (Hl : glay x v0 (mkFifo (Ptr fv 0) 0 (Ptr fv 0)) t2).
  { split; cbn [v0 i_x i_gs i_f]; try assumption; try apply tab_length; try wokt.
    - exists ds. done.
    - split; [exact Sf|]. split; [apply f_reset_ok|done].
    - intros b Hb. repeat (apply elem_of_cons in Hb as [->|Hb]; [assumption|]). by apply elem_of_nil in Hb. }
  destruct (loop_g (Z.to_nat MAX_INNER_ITER) 0 t2 x v0 _ mu' tol' Hl Hok0) as (t3 & c' & i & E & Hl' & HT).
  change (Z.of_nat 0) with 0 in E.
  assert (E' : for_brk 0 MAX_INNER_ITER (mkFifo (Ptr fv 0) 0 (Ptr fv 0)) (nesta_iter call np (Z.of_nat m) mu' tol') t2 = Ok (i, c') t3).
  { unfold for_brk. by rewrite Z.sub_0_r. }
  rewrite (bind_ok _ _ _ _ _ E'). clear E E'. cbn [snd].
  set (v1 := ne_loop m n p A B Wt Wm bs atb sigma L mu' tol' x (Z.to_nat MAX_INNER_ITER) 0 v0) in *.
  assert (HT1 : touch (xo :: [xk; yk; zk; gr; gs; d1; d2; fv] ++ F) s t3).
  { eapply touch_trans; [exact HT0|]. eapply touch_weaken; [exact HT|]. intros b Hb. by right. }
  clear HT HT0. destruct Hl' as [HJ' Sxo' Lxo' Sxk' Lxk' Sgs' Lgs' Wy' Wz' Wg' (ds1 & Sd1 & Ld1 & Gd1) W2' Sa' Sb' (Sv & Hok & Ec') Hal].
  cbn [P_Nesta.np np_m np_xk np_xo].
  pose proof (dcopy_run t3 m (Ptr xk 0) (i_x v1) (Ptr xo 0) Sxk' Lxk' ltac:(wokt) ltac:(dis)) as E.
  assert (Al1' := Hal xo ltac:(isin)). assert (Al2' := Hal xk ltac:(isin)). assert (Al3' := Hal yk ltac:(isin)). assert (Al4' := Hal zk ltac:(isin)).
  assert (Al5' := Hal gr ltac:(isin)). assert (Al6' := Hal gs ltac:(isin)). assert (Al7' := Hal d1 ltac:(isin)). assert (Al8' := Hal d2 ltac:(isin)).
  assert (Al9' := Hal bb ltac:(isin)). assert (Al10' := Hal fv ltac:(isin)). clear Hal.
  assert (Wf' : wok t3 (Ptr fv 0) 10) by (destruct Hok as [<- _]; by apply seg_wok). clear Sv.
  assert (Wgs' : wok t3 (Ptr gs 0) m) by (rewrite <- Lgs'; by apply seg_wok). clear Sgs'.
  wstep E Sxo2 t4. unfold ret.
  exists t4, c'. split; [done|]. split; [|exact HT1].
  split; [assumption|exact Sxo2|exact Lxk'|exact Sxk'| |assumption|exists ds1; done|assumption|assumption|assumption| |].
  - intros b Hb. repeat (apply elem_of_cons in Hb as [->|Hb]; [assumption|]). by apply elem_of_nil in Hb.
  - rewrite Ec'. done.
  - intros b Hb. repeat (apply elem_of_cons in Hb as [->|Hb]; [assumption|]). by apply elem_of_nil in Hb.
Qed.
Lemma stages_g j k s mu tol x c bmu btol : gslay x c s ->
  (forall i, (i < j)%nat -> stage_ok bmu btol (Nat.iter i (ne_stage m n p A B Wt Wm bs atb sigma L bmu btol) (mu, tol, x))) ->
  let r := Nat.iter j (ne_stage m n p A B Wt Wm bs atb sigma L bmu btol) (mu, tol, x) in
  exists s' c', accn j k (mu, tol, c) (fun _ => nesta_stage call np (Z.of_nat m) bmu btol) s = Ok (fst (fst r), snd (fst r), c') s' /\
    gslay (snd r) c' s' /\ touch (xo :: wri) s s'.
Proof.
  revert k s mu tol x c. induction j as [|j IH]; intros k s mu tol x c Hl Hok; cbv zeta; cbn [accn].
  - exists s, c. split; [done|]. split; [done|apply touch_refl].
  - destruct (stage_g s mu tol x c bmu btol Hl (Hok 0%nat ltac:(lia))) as (t & c' & E & Hl' & HT).
    rewrite (bind_ok _ _ _ _ _ E). 
    destruct (IH (k + 1) t (fst (fst (ne_stage m n p A B Wt Wm bs atb sigma L bmu btol (mu, tol, x)))) (snd (fst (ne_stage m n p A B Wt Wm bs atb sigma L bmu btol (mu, tol, x)))) _ c' Hl' ) as (s' & c2 & E2 & Hl2 & HT2).
    { intros i Hi. specialize (Hok (S i) ltac:(lia)). rewrite Nat.iter_succ_r in Hok. by destruct (ne_stage _ _ _ _ _ _ _ _ _ _ _ _ _ _) as [[? ?] ?]. }
    exists s', c2.
    replace (Nat.iter (S j) (ne_stage m n p A B Wt Wm bs atb sigma L bmu btol) (mu, tol, x)) with
      (Nat.iter j (ne_stage m n p A B Wt Wm bs atb sigma L bmu btol)
         (fst (fst (ne_stage m n p A B Wt Wm bs atb sigma L bmu btol (mu, tol, x))),
          snd (fst (ne_stage m n p A B Wt Wm bs atb sigma L bmu btol (mu, tol, x))),
          snd (ne_stage m n p A B Wt Wm bs atb sigma L bmu btol (mu, tol, x)))).
    { split; [exact E2|]. split; [exact Hl2|]. by eapply touch_trans. }
    rewrite Nat.iter_succ_r. f_equal; by destruct (ne_stage _ _ _ _ _ _ _ _ _ _ _ _ _ _) as [[? ?] ?].
Qed.
End runs.

Section whole.
Context `{N : Num}.
Context (call : fptr -> ptr -> ptr -> M unit) (G : T -> Prop) (G0 : G zero) (Gabs : forall v, G v -> G (fabs v)).
Context (m n p : nat) (A B Wt Wm : list T -> list T) (F : list nat) (J : st -> Prop) (ax : AxFuns).
Context (HA : oper F J (call (ax_Ax ax)) m n A) (HB : operd G F J (call (ax_Aty ax)) n m B).
Context (HWt : oper F J (call (ax_Wtx ax)) m p Wt) (HW : oper F J (call (ax_Wz ax)) p m Wm).
Context (Hp : (1 <= p)%nat).
Implicit Types (s : st).
Notation fields_set := (fields_set ax). Notation ne_L := (ne_L ax). Notation npk := (npk m n p ax).
Lemma G_const k : Forall G (const_of k zero).
Proof. apply Forall_lookup_2. intros i v Hv. unfold const_of, tab in Hv. rewrite list_lookup_fmap in Hv. destruct (seq 0 k !! i); [|done]. by injection Hv as <-. Qed.
Lemma G_abs k xs : Forall G xs -> (k <= length xs)%nat -> Forall G (abs_of k xs).
Proof.
  intros H Hk. apply Forall_lookup_2. intros i v Hv. unfold abs_of, tab in Hv. rewrite list_lookup_fmap in Hv. destruct (seq 0 k !! i) as [j|] eqn:E; [|done]. injection Hv as <-.
  apply lookup_seq in E as [-> Hi]. apply Gabs. unfold at_. rewrite Forall_forall in H. apply H. apply elem_of_list_In, nth_In. simpl. lia.
Qed.
Lemma setup_g s k bb bs opts :
  NoDup [(k + 1)%nat; (k + 5)%nat; (k + 8)%nat; bb] -> (forall b, b ∈ [(k + 1)%nat; (k + 5)%nat; (k + 8)%nat; bb] -> b ∉ F) ->
  J s -> seg s (Ptr bb 0) bs -> length bs = n -> wok s (Ptr (k + 1) 0) m -> seg s (Ptr (k + 5) 0) (const_of m zero) ->
  seg s (Ptr (k + 8) 0) (const_of (Nat.max m p) zero) ->
  (forall b, b ∈ [(k + 1)%nat; (k + 5)%nat; (k + 8)%nat; bb] -> is_aligned s (Ptr b 0) = true) ->
  fields_set = true -> Forall G (B bs) -> Forall G (Wt (B bs)) ->
  exists s', nesta_setup call (np0 k m n p) (Ptr bb 0) ax opts s =
      Ok (inr (npk k bb opts, ne_mu0 m p Wt (B bs), lit 1 10,
               ne_beta (no_mu opts) (ne_mu0 m p Wt (B bs)) (no_n_continue opts), ne_beta (no_tol opts) (lit 1 10) (no_n_continue opts))) s' /\
    seg s' (Ptr (k + 1) 0) (B bs) /\ seg s' (Ptr (k + 5) 0) (B bs) /\ touch ([(k + 1)%nat; (k + 5)%nat; (k + 8)%nat] ++ F) s s' /\ J s' /\
    exists ds, seg s' (Ptr (k + 8) 0) ds /\ length ds = Nat.max m p /\ Forall G ds.
Proof.
  intros Hd HF HJ Sb Lb Wo Sz Sd Hal Hf GB GW.
  assert (Al1 := Hal (k + 1)%nat ltac:(isin)). assert (Al2 := Hal (k + 5)%nat ltac:(isin)). assert (Al3 := Hal (k + 8)%nat ltac:(isin)). assert (Al4 := Hal bb ltac:(isin)).
  assert (F1 := HF (k + 1)%nat ltac:(isin)). assert (F2 := HF (k + 5)%nat ltac:(isin)). assert (F3 := HF (k + 8)%nat ltac:(isin)). assert (F4 := HF bb ltac:(isin)).
  clear Hal HF. distinct Hd. clear Hd.
  unfold nesta_setup. unfold P_Nesta2.fields_set in Hf. apply negb_true_iff in Hf. rewrite Hf. clear Hf. cbv zeta.
  cbn [np0 np_self np_m np_n np_p np_xo np_xk np_yk np_zk np_Atb np_gradf np_gradf_sum np_dwork1 np_dwork2 np_b np_ax np_sigma np_L].
  assert (HT0 : touch ([(k + 1)%nat; (k + 5)%nat; (k + 8)%nat] ++ F) s s) by apply touch_refl.
  set (zs := const_of (Nat.max m p) zero) in *.
  assert (Wd : wok s (Ptr (k + 8) 0) (Nat.max m p)) by (unfold zs in Sd; apply seg_wok in Sd; by rewrite const_of_len in Sd).
  assert (Lz : length zs = Nat.max m p) by apply const_of_len.
  pose proof (od_len _ _ _ _ _ _ _ HB bs Lb) as LA.
  destruct (od_run _ _ _ _ _ _ _ HB s (Ptr bb 0) bs (Ptr (k + 5) 0) (const_of m zero) HJ Sb Lb Sz (const_of_len _ _) (G_const _) ltac:(dis) ltac:(alt) ltac:(alt) ltac:(notin) ltac:(notin)) as (t1 & E & HT & HJ').
  rewrite (bind_ok _ _ _ _ _ E). clear E HJ.
  assert (Sa : seg t1 (Ptr (k + 5) 0) (B bs)) by (apply (seg_of_wr _ _ _ _ _ _ HT); [assumption|rewrite LA; eapply wok_le; [apply (seg_wok _ _ _ Sz)|by rewrite const_of_len]]).
  clear Sz. apply touch_of_wr in HT. xfer HT. clear HT. rename HJ' into HJ.
  pose proof (dcopy_run t1 m (Ptr (k + 5) 0) (B bs) (Ptr (k + 1) 0) Sa LA Wo ltac:(dis)) as E.
  wstep E So t2.
  (* W^T x: the first p cells of dwork1 change *)
  assert (Sd2 : seg t2 (padd (Ptr (k + 8) 0) (Z.of_nat p)) (drop p zs)).
  { rewrite <- (take_drop p zs) in Sd. apply seg_app in Sd as [_ Sd]. rewrite take_length in Sd. by replace (p `min` length zs)%nat with p in Sd by lia. }
  clear Sd. cbn [padd] in Sd2. 
  pose proof (op_run _ _ _ _ _ _ HWt t2 (Ptr (k + 1) 0) (B bs) (Ptr (k + 8) 0) HJ So LA ltac:(eapply wok_le; [exact Wd|lia]) ltac:(dis) Al1 Al3 F1 F3) as (t3 & E & HT & HJ').
  pose proof (op_len _ _ _ _ _ _ HWt (B bs) LA) as Lw.
  rewrite (bind_ok _ _ _ _ _ E). clear E HJ.
  assert (S3 : seg t3 (Ptr (k + 8) 0) (Wt (B bs) ++ drop p zs)).
  { apply seg_app. split.
    - apply (seg_of_wr _ _ _ _ _ _ HT); [assumption|]. rewrite Lw. eapply wok_le; [exact Wd|lia].
    - rewrite Lw. apply (touch_seg _ _ _ _ _ _ HT); [assumption|]. apply seg_wr_disj; [|exact Sd2|].
      + rewrite Lw. eapply wok_le; [exact Wd|lia].
      + rewrite Lw. cbn [padd]. intros _. left. lia. }
  clear Sd2. apply touch_of_wr in HT. rename S3 into S3'. xfer HT. rename S3' into S3. clear HT. rename HJ' into HJ.
  set (cs := Wt (B bs) ++ drop p zs) in *.
  assert (Lc : length cs = Nat.max m p) by (unfold cs; rewrite app_length, drop_length, Lw; lia).
  (* absolute values of the first m cells *)
  rewrite <- (take_drop m cs) in S3. apply seg_app in S3 as [S3 S4].
  assert (Lt : length (take m cs) = m) by (rewrite take_length; lia). rewrite Lt in S4.
  pose proof (abs_vec_run t3 m (Ptr (k + 8) 0) (take m cs) (Ptr (k + 8) 0) (take m cs) (src_self t3 (Ptr (k + 8) 0) (take m cs) m Lt) (dst_seg t3 (Ptr (k + 8) 0) (take m cs) m S3 Lt)) as E.
  rewrite (bind_ok _ _ _ _ _ E). clear E.
  set (t4 := wr _ _ t3).
  assert (S5 : seg t4 (Ptr (k + 8) 0) (abs_of m (take m cs) ++ drop m cs)).
  { apply seg_app. split; [apply seg_wr; rewrite abs_of_len; eapply wok_le; [exact Wd|lia]|]. rewrite abs_of_len. unfold t4.
    apply seg_wr_disj; [rewrite abs_of_len; eapply wok_le; [exact Wd|lia]|exact S4|]. rewrite abs_of_len. cbn [padd]. intros _. left. lia. }
  assert (HT4 : touch [(k + 8)%nat] t3 t4) by (apply touch_wr; left).
  clear S3 S4. clearbody t4. xfer HT4.
  rewrite (bind_ok _ _ _ _ _ (max_vec_run t4 p (Ptr (k + 8) 0) _ S5 ltac:(rewrite app_length, abs_of_len, drop_length; lia))).
  unfold ret. exists t4.
  assert (Emu : ne_mu0 m p Wt (B bs) = mul (lit 9 10) (max_of p (abs_of m (take m cs) ++ drop m cs))).
  { unfold ne_mu0, ne_ref. do 2 f_equal. fold zs. fold cs. f_equal.
    apply tab_ext. intros i Hi. f_equal. unfold at_. rewrite !nth_lookup. by rewrite lookup_take by lia. }
  rewrite Emu. split; [done|]. split; [assumption|]. split; [assumption|]. split; [exact HT0|]. split; [exact HJ|].
  assert (Gc : Forall G cs). { unfold cs. apply Forall_app. split; [done|]. apply Forall_drop. unfold zs. apply G_const. }
  eexists. split; [exact S5|]. split; [rewrite app_length, abs_of_len, drop_length; lia|]. apply Forall_app. split; [|by apply Forall_drop].
  apply G_abs; [by apply Forall_take|lia].
Qed.

Context (HJs : forall s s', J s -> same_on F s s' -> J s').
(** everything the operators see is good, for this b and these options *)
Definition all_ok (bs : list T) (opts : NestaOpts) : Prop :=
  let mu0 := ne_mu0 m p Wt (B bs) in
  let bmu := ne_beta (no_mu opts) mu0 (no_n_continue opts) in let btol := ne_beta (no_tol opts) (lit 1 10) (no_n_continue opts) in
  Forall G (B bs) /\ Forall G (Wt (B bs)) /\
  forall j, (j < Z.to_nat (no_n_continue opts))%nat ->
    stage_ok G m n p A B Wt Wm bs (B bs) (no_sigma opts) ne_L bmu btol
      (Nat.iter j (ne_stage m n p A B Wt Wm bs (B bs) (no_sigma opts) ne_L bmu btol) (mu0, lit 1 10, B bs)).
Lemma nesta_g s bx bb bs opts :
  all_ok bs opts ->
  unborn s -> ax_m ax = Z.of_nat m -> ax_n ax = Z.of_nat n -> ax_p ax = Z.of_nat p ->
  J s -> (forall b, b ∈ F -> (b < nx s)%nat) -> (bx < nx s)%nat -> (bb < nx s)%nat -> bx <> bb -> bx ∉ F -> bb ∉ F ->
  seg s (Ptr bb 0) bs -> length bs = n -> wok s (Ptr bx 0) m -> is_aligned s (Ptr bb 0) = true -> (n <= Nat.max m p)%nat ->
  no_n_continue opts < INT_MAX ->
  let k := nx s in
  ((exists j, (j < 10)%nat /\ alloc_ok (en s) (k + j) = false) /\
     exists s', l1c_nesta call (Z.of_nat m) (Ptr bx 0) (Z.of_nat n) (Ptr bb 0) ax opts s = Ok L1C_OUT_OF_MEMORY s' /\ ledger [] [] s s' /\ gl s' = gl s) \/
  ((forall j, (j < 10)%nat -> alloc_ok (en s) (k + j) = true) /\ fields_set = false /\
     exists s', l1c_nesta call (Z.of_nat m) (Ptr bx 0) (Z.of_nat n) (Ptr bb 0) ax opts s = Ok L1C_INCONSISTENT_ARGUMENTS s' /\
       ledger [] (np_owns (np0 k m n p)) s s' /\ gl s' = gl s) \/
  ((forall j, (j < 10)%nat -> alloc_ok (en s) (k + j) = true) /\ fields_set = true /\ alloc_ok (en s) (k + 10) = false /\
     l1c_nesta call (Z.of_nat m) (Ptr bx 0) (Z.of_nat n) (Ptr bb 0) ax opts s = Ub UbOob) \/
  ((forall j, (j < 11)%nat -> alloc_ok (en s) (k + j) = true) /\ fields_set = true /\ luck (en s) (k + 10) = false /\ 1 <= no_n_continue opts /\
     l1c_nesta call (Z.of_nat m) (Ptr bx 0) (Z.of_nat n) (Ptr bb 0) ax opts s = Ub UbAlign) \/
  ((forall j, (j < 11)%nat -> alloc_ok (en s) (k + j) = true) /\ fields_set = true /\ (luck (en s) (k + 10) = true \/ no_n_continue opts <= 0) /\
     exists s', l1c_nesta call (Z.of_nat m) (Ptr bx 0) (Z.of_nat n) (Ptr bb 0) ax opts s = Ok 0 s' /\ ledger (bx :: F) [] s s' /\ J s' /\ gl s' = gl s /\
       seg s' (Ptr bx 0) (ne_result m n p A B Wt Wm bs (B bs) (no_sigma opts) ne_L (no_mu opts) (no_tol opts) (no_n_continue opts))).
Proof.
  intros Hall Hu Em En Ep HJ HFo Hbx Hbb Hne HxF HbF Sb Lb Wx Alb Hn Hnc k. unfold l1c_nesta.
  rewrite Em, En, !Z.eqb_refl. cbn [negb orb].
  destruct (nprob_new_run s m n p ax Hu Em En Ep) as (o & s1 & E & G1 & X1' & D1 & C1). fold k in C1.
  rewrite (bind_ok _ _ _ _ _ E). clear E.
  destruct C1 as [(-> & Hg & X1 & L1 & HB1)|(-> & Hr & L1)].
  2:{ left. split; [exact Hr|]. exists s1. done. }
  right. destruct fields_set eqn:Hf.
  2:{ left. split; [done|]. split; [done|]. exists s1. unfold nesta_setup. unfold P_Nesta2.fields_set in Hf. apply negb_false_iff in Hf. rewrite Hf. done. }
  right.
  assert (FB : forall j, (k <= j)%nat -> j ∉ F). { intros j Hj HjF. apply HFo in HjF. unfold k in Hj. lia. }
  assert (J1 : J s1).
  { apply (HJs s); [done|]. split; [|split; [done|apply L1]]. intros b HbF'. apply HFo in HbF'.
    assert (HO : forall q, (q, b) ∉ np_owns (np0 k m n p)). { intros q Hq. apply (lg_own _ _ _ _ L1) in Hq. lia. }
    split_and!; [by apply D1| |by apply L1|by apply L1|by apply L1]. by rewrite (lg_im _ _ _ _ L1). }
  assert (Sb1 : seg s1 (Ptr bb 0) bs) by (apply (ledger_seg _ _ _ _ _ _ _ L1); [done|apply not_elem_of_nil|done]).
  assert (Wx1 : wok s1 (Ptr bx 0) m) by (by apply (ledger_wok _ _ _ _ _ _ _ L1)).
  assert (Alb1 : is_aligned s1 (Ptr bb 0) = true) by (by rewrite (ledger_aligned _ _ _ _ _ _ L1)).
  assert (WJ : forall j, (j < 9)%nat -> wok s1 (Ptr (k + 1 + j) 0) (nsize m p j)).
  { intros j Hj. destruct (HB1 j Hj) as [Sj _]. apply seg_wok in Sj. by rewrite const_of_len in Sj. }
  assert (AJ : forall j, (j < 9)%nat -> is_aligned s1 (Ptr (k + 1 + j) 0) = true) by (intros j Hj; by apply HB1).
  (* setup *)
  destruct Hall as (GB & GW & Gst). destruct (setup_g s1 k bb bs opts) as (s2 & E & So & Sa & HT2 & J2 & dd & Sd2 & Ld2 & Gd2); try done.
  { repeat (apply NoDup_cons; split; [notin|]). apply NoDup_nil_2. }
  { intros b Hb. repeat (apply elem_of_cons in Hb as [->|Hb]; [first [assumption|apply FB; lia]|]). by apply elem_of_nil in Hb. }
  { pose proof (WJ 0%nat ltac:(lia)) as H. by rewrite Nat.add_0_r in H. }
  { destruct (HB1 4%nat ltac:(lia)) as [H _]. by replace (k + 1 + 4)%nat with (k + 5)%nat in H by lia. }
  { destruct (HB1 7%nat ltac:(lia)) as [H _]. by replace (k + 1 + 7)%nat with (k + 8)%nat in H by lia. }
  { intros b Hb. repeat (apply elem_of_cons in Hb as [->|Hb]; [|]); [| | |exact Alb1|by apply elem_of_nil in Hb].
    - pose proof (AJ 0%nat ltac:(lia)) as H. by rewrite Nat.add_0_r in H.
    - pose proof (AJ 4%nat ltac:(lia)) as H. by replace (k + 1 + 4)%nat with (k + 5)%nat in H by lia.
    - pose proof (AJ 7%nat ltac:(lia)) as H. by replace (k + 1 + 7)%nat with (k + 8)%nat in H by lia. }
  rewrite (bind_ok _ _ _ _ _ E). clear E.
  set (atb := B bs) in *. set (mu0 := ne_mu0 m p Wt atb) in *. set (bmu := ne_beta (no_mu opts) mu0 _). set (btol := ne_beta (no_tol opts) _ _).
  assert (La : length atb = m) by (by apply (od_len _ _ _ _ _ _ _ HB)).
  assert (LS2 : ledger (bx :: F) (np_owns (np0 k m n p)) s s2).
  { apply (ledger_touch _ ([(k + 1)%nat; (k + 5)%nat; (k + 8)%nat] ++ F) _ s s1); [|done|].
    - eapply ledger_W; [|exact L1]. intros b Hb. by apply elem_of_nil in Hb.
    - intros b Hb. apply elem_of_app in Hb as [Hb|Hb]; [right|left; by right].
      cbn [np_owns np0 np_xo np_xk np_yk np_zk np_Atb np_gradf np_gradf_sum np_dwork1 np_dwork2 np_self own app].
      repeat (apply elem_of_cons in Hb as [->|Hb]; [isin|]). by apply elem_of_nil in Hb. }
  assert (En2 : en s2 = en s) by apply LS2. assert (X2 : nx s2 = (k + 10)%nat) by (rewrite (t_nx _ _ _ HT2); done).
  assert (Hu2 : unborn s2) by (by eapply ledger_unborn).
  (* the fifo *)
  destruct (new_fifo_run p Hp s2 Hu2) as [(Ha & s3 & E & L3 & G3 & X3 & Wf & Alf & D3)|(Ha & E)]; rewrite En2, X2 in *.
  2:{ left. split; [done|]. split; [done|]. split; [done|]. by rewrite (bind_ub _ _ _ _ E). }
  right. rewrite (bind_ok _ _ _ _ _ E). clear E.
  assert (Hg11 : forall j, (j < 11)%nat -> alloc_ok (en s) (k + j) = true).
  { intros j Hj. destruct (decide (j = 10)%nat) as [->|]; [done|]. apply Hg. lia. }
  set (fv := (k + 10)%nat) in *.
  set (f0 := mkFifo (Ptr fv 0) 0 (Ptr fv 0)) in *.
  assert (LS3 : ledger (bx :: F) ([(KD, fv)] ++ np_owns (np0 k m n p)) s s3).
  { eapply (ledger_trans2 _ _ []); [exact LS2|exact L3|auto|intros ? H; by apply elem_of_nil in H]. }
  assert (J3 : J s3).
  { apply (HJs s2); [done|]. split; [|split; [done|apply L3]]. intros b HbF'. apply HFo in HbF'. unfold k in *.
    assert (HO : forall q, (q, b) ∉ [(KD, fv)]). { intros q Hq. apply (lg_own _ _ _ _ L3) in Hq. lia. }
    split_and!; [apply D3; lia| |by apply L3|by apply L3|apply L3; lia]. by rewrite (lg_im _ _ _ _ L3). }
  (* everything at s2, then at s3 *)
  assert (WK : forall j, (j < 9)%nat -> wok s3 (Ptr (k + 1 + j) 0) (nsize m p j)).
  { intros j Hj. apply (ledger_wok _ _ _ _ _ _ _ L3); [lia|]. apply (touch_wok _ _ _ _ _ HT2). by apply WJ. }
  assert (AK : forall j, (j < 9)%nat -> is_aligned s3 (Ptr (k + 1 + j) 0) = true).
  { intros j Hj. rewrite (ledger_aligned _ _ _ _ _ _ L3) by lia. rewrite (touch_aligned _ _ _ _ HT2). by apply AJ. }
  assert (So3 : seg s3 (Ptr (k + 1) 0) atb) by (apply (ledger_seg _ _ _ _ _ _ _ L3); [lia|apply not_elem_of_nil|done]).
  assert (Sa3 : seg s3 (Ptr (k + 5) 0) atb) by (apply (ledger_seg _ _ _ _ _ _ _ L3); [lia|apply not_elem_of_nil|done]).
  assert (Sd3 : seg s3 (Ptr (k + 8) 0) dd) by (apply (ledger_seg _ _ _ _ _ _ _ L3); [lia|apply not_elem_of_nil|done]).
  assert (Wx3 : wok s3 (Ptr bx 0) m) by (by apply (ledger_wok _ _ _ _ _ _ _ LS3)).
  assert (Sb3 : seg s3 (Ptr bb 0) bs).
  { apply (ledger_seg _ _ _ _ _ _ _ L3); [unfold k in *; lia|apply not_elem_of_nil|]. apply (touch_seg _ _ _ _ _ _ HT2); [|done].
    apply not_elem_of_app. split; [|done]. unfold k in *. repeat (apply not_elem_of_cons; split; [lia|]). apply not_elem_of_nil. }
  assert (Alb3 : is_aligned s3 (Ptr bb 0) = true) by (by rewrite (ledger_aligned _ _ _ _ _ _ LS3)).
  change (np_m (npk k bb opts)) with (Z.of_nat m). change (np_xo (npk k bb opts)) with (Ptr (k + 1) 0). change (np_xk (npk k bb opts)) with (Ptr (k + 2) 0).
  pose proof (WK 1%nat ltac:(lia)) as W2. replace (k + 1 + 1)%nat with (k + 2)%nat in W2 by lia. change (nsize m p 1) with m in W2.
  pose proof (dcopy_run s3 m (Ptr (k + 1) 0) atb (Ptr (k + 2) 0) So3 La W2 ltac:(apply disj_blocks; lia)) as E.
  rewrite (bind_ok _ _ _ _ _ E). clear E. set (s4 := wr _ _ s3). assert (HT4 : touch [(k + 2)%nat] s3 s4) by (apply touch_wr; left).
  assert (Sk4 : seg s4 (Ptr (k + 2) 0) atb) by (apply seg_wr; by rewrite La). clearbody s4.
  assert (HF11 : forall b, b ∈ [(k + 1)%nat; (k + 2)%nat; (k + 3)%nat; (k + 4)%nat; (k + 5)%nat; (k + 6)%nat; (k + 7)%nat; (k + 8)%nat; (k + 9)%nat; bb; fv] -> b ∉ F).
  { intros b Hb. repeat (apply elem_of_cons in Hb as [->|Hb]; [first [assumption|apply FB; lia]|]). by apply elem_of_nil in Hb. }
  assert (Hd11 : NoDup [(k + 1)%nat; (k + 2)%nat; (k + 3)%nat; (k + 4)%nat; (k + 5)%nat; (k + 6)%nat; (k + 7)%nat; (k + 8)%nat; (k + 9)%nat; bb; fv]).
  { unfold fv, k in *. repeat (apply NoDup_cons; split; [repeat (apply not_elem_of_cons; split; [lia|]); apply not_elem_of_nil|]). apply NoDup_nil_2. }
  assert (J4 : J s4).
  { apply (op_J _ _ _ _ _ _ HA [(k + 2)%nat] s3); [done|done|]. intros b Hb. apply HF11. apply elem_of_list_singleton in Hb as ->. isin. }
  destruct (decide (1 <= no_n_continue opts /\ luck (en s) fv = false)) as [[Hc1 Hl]|Hc].
  { (* the fifo is not aligned *)
    left. split; [done|]. split; [done|]. split; [done|]. split; [done|].
    apply bind_ub. unfold for_acc. replace (Z.to_nat (no_n_continue opts + 1 - 1)) with (S (Z.to_nat (no_n_continue opts - 1))) by lia. cbn [accn].
    apply bind_ub. unfold nesta_stage. apply bind_ub. unfold l1c_init_vec. apply bind_ub. unfold assume_aligned. cbn [ff_vals f0].
    rewrite (touch_aligned _ _ _ _ HT4), Alf, Hl. done. }
  right. split; [done|]. split; [done|]. split; [destruct (luck (en s) fv); [by left|right; lia]|].
  (* the stages *)
  assert (ES : exists s5 c, for_acc 1 (no_n_continue opts + 1) (mu0, lit 1 10, f0) (fun _ => nesta_stage call (npk k bb opts) (Z.of_nat m) bmu btol) s4 =
      Ok (fst (fst (Nat.iter (Z.to_nat (no_n_continue opts)) (ne_stage m n p A B Wt Wm bs atb (no_sigma opts) ne_L bmu btol) (mu0, lit 1 10, atb))),
          snd (fst (Nat.iter (Z.to_nat (no_n_continue opts)) (ne_stage m n p A B Wt Wm bs atb (no_sigma opts) ne_L bmu btol) (mu0, lit 1 10, atb))), c) s5 /\
      ff_vals c = Ptr fv 0 /\ J s5 /\
      seg s5 (Ptr (k + 2) 0) (snd (Nat.iter (Z.to_nat (no_n_continue opts)) (ne_stage m n p A B Wt Wm bs atb (no_sigma opts) ne_L bmu btol) (mu0, lit 1 10, atb))) /\
      length (snd (Nat.iter (Z.to_nat (no_n_continue opts)) (ne_stage m n p A B Wt Wm bs atb (no_sigma opts) ne_L bmu btol) (mu0, lit 1 10, atb))) = m /\
      touch ((k + 1)%nat :: wri F (k + 2) (k + 3) (k + 4) (k + 6) (k + 7) (k + 8) (k + 9) fv) s4 s5).
  { unfold for_acc. replace (no_n_continue opts + 1 - 1) with (no_n_continue opts) by lia.
    destruct (decide (1 <= no_n_continue opts)) as [Hc1|Hc1].
    2:{ replace (Z.to_nat (no_n_continue opts)) with 0%nat by lia. cbn [accn Nat.iter]. exists s4, f0. split; [done|]. split; [done|]. split; [done|]. split; [done|]. split; [done|]. apply touch_refl. }
    assert (Hl : luck (en s) fv = true) by (destruct (luck (en s) fv); [done|]; exfalso; by apply Hc).
    assert (SL : gslay G m p J (k + 1) (k + 2) (k + 3) (k + 4) (k + 5) (k + 6) (k + 7) (k + 8) (k + 9) bb bs atb fv atb f0 s4).
    { assert (WK4 : forall j, (j < 9)%nat -> wok s4 (Ptr (k + 1 + j) 0) (nsize m p j)) by (intros j Hj; apply (touch_wok _ _ _ _ _ HT4); by apply WK).
      assert (AK4 : forall j, (j < 9)%nat -> is_aligned s4 (Ptr (k + 1 + j) 0) = true) by (intros j Hj; rewrite (touch_aligned _ _ _ _ HT4); by apply AK).
      split; try done.
      - apply (touch_seg _ _ _ _ _ _ HT4); [|done]. apply not_elem_of_cons. split; [lia|apply not_elem_of_nil].
      - intros b Hb.
        apply elem_of_cons in Hb as [->|Hb]. { pose proof (WK4 2%nat ltac:(lia)) as H. by replace (k + 1 + 2)%nat with (k + 3)%nat in H by lia. }
        apply elem_of_cons in Hb as [->|Hb]. { pose proof (WK4 3%nat ltac:(lia)) as H. by replace (k + 1 + 3)%nat with (k + 4)%nat in H by lia. }
        apply elem_of_cons in Hb as [->|Hb]. { pose proof (WK4 5%nat ltac:(lia)) as H. by replace (k + 1 + 5)%nat with (k + 6)%nat in H by lia. }
        apply elem_of_cons in Hb as [->|Hb]. { pose proof (WK4 6%nat ltac:(lia)) as H. by replace (k + 1 + 6)%nat with (k + 7)%nat in H by lia. }
        by apply elem_of_nil in Hb.
      - pose proof (WK4 8%nat ltac:(lia)) as H. by replace (k + 1 + 8)%nat with (k + 9)%nat in H by lia.
      - exists dd. split; [|done]. apply (touch_seg _ _ _ _ _ _ HT4); [|done]. apply not_elem_of_cons. split; [lia|apply not_elem_of_nil].
      - apply (touch_seg _ _ _ _ _ _ HT4); [|done]. apply not_elem_of_cons. split; [lia|apply not_elem_of_nil].
      - apply (touch_seg _ _ _ _ _ _ HT4); [|done]. apply not_elem_of_cons. split; [unfold k in *; lia|apply not_elem_of_nil].
      - by apply (touch_wok _ _ _ _ _ HT4).
      - intros b Hb.
        apply elem_of_cons in Hb as [->|Hb]. { pose proof (AK4 0%nat ltac:(lia)) as H. by rewrite Nat.add_0_r in H. }
        apply elem_of_cons in Hb as [->|Hb]. { pose proof (AK4 1%nat ltac:(lia)) as H. by replace (k + 1 + 1)%nat with (k + 2)%nat in H by lia. }
        apply elem_of_cons in Hb as [->|Hb]. { pose proof (AK4 2%nat ltac:(lia)) as H. by replace (k + 1 + 2)%nat with (k + 3)%nat in H by lia. }
        apply elem_of_cons in Hb as [->|Hb]. { pose proof (AK4 3%nat ltac:(lia)) as H. by replace (k + 1 + 3)%nat with (k + 4)%nat in H by lia. }
        apply elem_of_cons in Hb as [->|Hb]. { pose proof (AK4 5%nat ltac:(lia)) as H. by replace (k + 1 + 5)%nat with (k + 6)%nat in H by lia. }
        apply elem_of_cons in Hb as [->|Hb]. { pose proof (AK4 6%nat ltac:(lia)) as H. by replace (k + 1 + 6)%nat with (k + 7)%nat in H by lia. }
        apply elem_of_cons in Hb as [->|Hb]. { pose proof (AK4 7%nat ltac:(lia)) as H. by replace (k + 1 + 7)%nat with (k + 8)%nat in H by lia. }
        apply elem_of_cons in Hb as [->|Hb]. { pose proof (AK4 8%nat ltac:(lia)) as H. by replace (k + 1 + 8)%nat with (k + 9)%nat in H by lia. }
        apply elem_of_cons in Hb as [->|Hb]. { by rewrite (touch_aligned _ _ _ _ HT4). }
        apply elem_of_cons in Hb as [->|Hb]. { by rewrite (touch_aligned _ _ _ _ HT4), Alf. }
        by apply elem_of_nil in Hb. }
    destruct (stages_g call G m n p A B Wt Wm F J ax HA HB HWt HW (Ptr k 0) (k + 1) (k + 2) (k + 3) (k + 4) (k + 5) (k + 6) (k + 7) (k + 8) (k + 9) bb bs atb (no_sigma opts) ne_L
      fv Hd11 HF11 Hn La Lb (Z.to_nat (no_n_continue opts)) 1 s4 mu0 (lit 1 10) atb f0 bmu btol SL Gst) as (s5 & c & E & SL5 & HT5).
    exists s5, c. split; [exact E|]. destruct SL5. split; [done|]. split; [done|]. split; [done|]. split; [done|]. exact HT5. }
  destruct ES as (s5 & c & E & Ec & J5 & Sk5 & Lk5 & HT5). rewrite (bind_ok _ _ _ _ _ E). clear E.
  set (rx := snd (Nat.iter _ _ _)) in *.
  rewrite (bind_ok _ _ _ (Z.max 1 (no_n_continue opts + 1)) s5) by (apply i32_ok; unfold INT_MIN, INT_MAX in *; lia).
  (* copy to x *)
  assert (Wx5 : wok s5 (Ptr bx 0) m) by (apply (touch_wok _ _ _ _ _ HT5); by apply (touch_wok _ _ _ _ _ HT4)).
  pose proof (dcopy_run s5 m (Ptr (k + 2) 0) rx (Ptr bx 0) Sk5 Lk5 Wx5 ltac:(apply disj_blocks; unfold k in *; lia)) as E.
  rewrite (bind_ok _ _ _ _ _ E). clear E. set (s6 := wr _ _ s5). assert (HT6 : touch [bx] s5 s6) by (apply touch_wr; left).
  assert (Sx6 : seg s6 (Ptr bx 0) rx) by (apply seg_wr; by rewrite Lk5). clearbody s6.
  assert (J6 : J s6).
  { apply (op_J _ _ _ _ _ _ HA [bx] s5); [done|done|]. intros b Hb. apply elem_of_list_singleton in Hb as ->. done. }
  assert (LS6 : ledger (bx :: F) (np_owns (np0 k m n p) ++ [(KD, fv)]) s s6).
  { eapply (ledger_perm _ ([(KD, fv)] ++ np_owns (np0 k m n p))); [apply Permutation_app_comm|].
    apply (ledger_touch _ [bx] _ s s5); [|done|intros b Hb; left; apply elem_of_list_singleton in Hb as ->; left].
    eapply (ledger_touch _ _ _ s s4); [|exact HT5|].
    - apply (ledger_touch _ [(k + 2)%nat] _ s s3); [done|done|]. intros b Hb. right. apply elem_of_list_singleton in Hb as ->.
      cbn [np_owns np0 np_xo np_xk np_yk np_zk np_Atb np_gradf np_gradf_sum np_dwork1 np_dwork2 np_self own app]. isin.
    - intros b Hb. unfold wri in Hb. apply elem_of_cons in Hb as [->|Hb].
      + right. cbn [np_owns np0 np_xo np_xk np_yk np_zk np_Atb np_gradf np_gradf_sum np_dwork1 np_dwork2 np_self own app]. isin.
      + apply elem_of_app in Hb as [Hb|Hb]; [right|left; by right].
        cbn [np_owns np0 np_xo np_xk np_yk np_zk np_Atb np_gradf np_gradf_sum np_dwork1 np_dwork2 np_self own app].
        repeat (apply elem_of_cons in Hb as [->|Hb]; [isin|]). by apply elem_of_nil in Hb. }
  (* release *)
  change (np_owns (np0 k m n p)) with (np_owns (npk k bb opts)) in LS6.
  destruct (free_prob_run _ _ s s6 (npk k bb opts) Hu LS6) as (s7 & E7 & L7 & G7 & X7 & D7).
  { intros q Hq b o ->. cbn [np_ptrs npk np np_xo np_xk np_yk np_zk np_Atb np_gradf np_gradf_sum np_dwork1 np_dwork2 np_self] in Hq.
    repeat (apply elem_of_cons in Hq as [[= _ ->]|Hq]; [done|]). by apply elem_of_nil in Hq. }
  rewrite (bind_ok _ _ _ _ _ E7). cbn [snd]. rewrite Ec.
  destruct (free_own (bx :: F) [] s s7 (Ptr fv 0) Hu L7 ltac:(by intros ? ? [= _ ->])) as (s8 & E8 & L8 & G8 & X8 & D8).
  rewrite (bind_ok _ _ _ _ _ E8). exists s8. split; [done|]. split; [done|].
  assert (GG : gl s8 = gl s).
  { rewrite G8, G7, (t_gl _ _ _ HT6), (t_gl _ _ _ HT5), (t_gl _ _ _ HT4), G3, (t_gl _ _ _ HT2). done. }
  split.
  { apply (HJs s6); [done|]. eapply (same_on_ledgers F _ _ _ _ s); [exact LS6|exact L8|congruence| |done]. intros b Hb. by rewrite D8, D7 by done. }
  split; [done|]. intros i v Hi. specialize (Sx6 i v Hi). unfold cell in *. by rewrite D8, D7 by done.
Qed.
End whole.
