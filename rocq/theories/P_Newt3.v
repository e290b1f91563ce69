(** * Running the Newton loop and the log-barrier loop. *)
From Coq Require Import ZArith Lia.
From stdpp Require Import base numbers gmap list.
From Verif Require Import P_Loop P_Math P_VCL P_Step P_Own P_CG P_LineSearch M_Math M_CG M_LineSearch M_Status M_Newton P_Newton P_Newt2.
Local Open Scope Z_scope.

(** b ∈ L from Hb : b ∈ L', by cases *)
Ltac sub1 Hb := 
  lazymatch type of Hb with
  | _ ∈ [] => apply elem_of_nil in Hb; destruct Hb
  | _ ∈ _ :: _ => apply elem_of_cons in Hb; destruct Hb as [->|Hb]; [isin|sub1 Hb]
  | _ ∈ _ ++ _ => apply elem_of_app in Hb; destruct Hb as [Hb|Hb]; sub1 Hb
  | _ => isin
  end.
(** first index k <= i < k + fuel with p i *)
Fixpoint first (p : nat -> bool) (k fuel : nat) : option nat :=
  match fuel with O => None | S f => if p k then Some k else first p (S k) f end.
Lemma first_some p k fuel i : first p k fuel = Some i -> (k <= i < k + fuel)%nat /\ p i = true /\ forall j, (k <= j < i)%nat -> p j = false.
Proof.
  revert k. induction fuel as [|f IH]; intros k; simpl; [done|]. destruct (p k) eqn:E.
  - intros [= <-]. split; [lia|]. split; [done|]. intros; lia.
  - intros H. destruct (IH _ H) as (H1 & H2 & H3). split; [lia|]. split; [done|]. intros j Hj.
    destruct (decide (j = k)) as [->|]; [done|]. apply H3. lia.
Qed.
Lemma first_none p k fuel : first p k fuel = None -> forall j, (k <= j < k + fuel)%nat -> p j = false.
Proof.
  revert k. induction fuel as [|f IH]; intros k; simpl; [intros; lia|]. destruct (p k) eqn:E; [done|].
  intros H j Hj. destruct (decide (j = k)) as [->|]; [done|]. apply (IH _ H). lia.
Qed.
Lemma first_is p fuel i : (i < fuel)%nat -> p i = true -> (forall j, (j < i)%nat -> p j = false) -> first p 0 fuel = Some i.
Proof.
  intros Hi Hp Hj. destruct (first p 0 fuel) as [k|] eqn:E.
  - destruct (first_some _ _ _ _ E) as (H1 & H2 & H3). f_equal.
    destruct (Nat.lt_trichotomy i k) as [H|[H|H]]; [|done|].
    + rewrite H3 in Hp by lia. done.
    + rewrite Hj in H2 by lia. done.
  - rewrite (first_none _ _ _ E) in Hp by lia. done.
Qed.
Lemma first_isn p fuel : (forall j, (j < fuel)%nat -> p j = false) -> first p 0 fuel = None.
Proof.
  intros H. destruct (first p 0 fuel) as [k|] eqn:E; [|done].
  destruct (first_some _ _ _ _ E) as (H1 & H2 & H3). rewrite H in H2 by lia. done.
Qed.

(** ** The solver as a function *)
(** the vectors and numbers that one Newton iteration hands to the next *)
Record nst `{N : Num} : Type := mkN { nx_ : list T; nu_ : list T; ndx_ : list T; ndu_ : list T; nl1_ : T; nstep_ : T; ncg_ : Z }.
(** and those that one log-barrier iteration hands to the next *)
Record lst `{N : Num} : Type := mkL { lx_ : list T; lu_ : list T; ldu_ : list T; ltau_ : T; lstep_ : T; ltn_ : Z; lcg_ : Z; lcalls_ : nat }.
Global Arguments mkN {N}.
Global Arguments mkL {N}.
Section pure.
Context `{N : Num}.
Context (m n : nat) (A B C : list T -> list T) (bs : list T) (params : L1qcOpts).
Notation eps := (lo_epsilon params).

(** index of the accepted trial step *)
Definition n_ls (tau g : T) (prm : LSParams) (xs us dxs dus : list T) : option nat :=
  first (fun k =>
    let v := n_fval m n A bs eps tau (axpy_of m (ls_stepk prm k) dxs xs) (axpy_of m (ls_stepk prm k) dus us) in
    negb (isnan v) && leb_ v (ls_flink prm (n_fval m n A bs eps tau xs us) g k)) 0 32.
Section iter.
Context (tau : T) (v : nst).
Let xs := nx_ v. Let us := nu_ v.
Definition i_dx0 : list T :=
  if lo_warm_start_cg params =? 0 then scal_of m zero (ndx_ v)
  else if lo_warm_start_cg params =? 2 then scal_of m (nstep_ v) (ndx_ v) else ndx_ v.
Definition i_prm : CgParams := mkCgP (lo_cg_verbose params) (lo_cg_maxiter params) (lo_cg_tol params).
Definition i_cg : CgResults := n_cg m B C i_prm tau (n_fe n A bs eps xs) (n_res n A bs xs) (n_f1 m xs us) (n_f2 m xs us) i_dx0.
Definition i_dx : list T := n_dx m B C i_prm tau (n_fe n A bs eps xs) (n_res n A bs xs) (n_f1 m xs us) (n_f2 m xs us) i_dx0.
Definition i_du : list T := n_dudir m B C i_prm tau (n_fe n A bs eps xs) (n_res n A bs xs) (n_f1 m xs us) (n_f2 m xs us) i_dx0 (ndu_ v).
Definition i_smax : T := n_maxstep m n A eps (n_res n A bs xs) (n_f1 m xs us) (n_f2 m xs us) i_dx i_du.
Definition i_g : T :=
  add (dot_of m (tab m (h_g1 tau (n_fe n A bs eps xs) (n_f1 m xs us) (n_f2 m xs us) (B (n_res n A bs xs)))) i_dx)
      (dot_of m (tab m (h_g2 tau (n_f1 m xs us) (n_f2 m xs us))) i_du).
Definition i_ls : LSParams := mkLSP (lit 1 100) (lit 1 2) i_smax.
(** one iteration: does the loop end here, and the new values *)
Definition n_iter : bool * nst :=
  let tcg := ncg_ v + cgiter i_cg in
  match n_ls tau i_g i_ls xs us i_dx i_du with
  | None => (true, mkN xs us i_dx i_du (nl1_ v) (ls_stepk i_ls 32) tcg)
  | Some k =>
      let x' := axpy_of m (ls_stepk i_ls k) i_dx xs in
      let u' := axpy_of m (ls_stepk i_ls k) i_du us in
      if ltb_ (div (opp i_g) two) (lo_newton_tol params) then (true, mkN x' u' i_dx i_du (nl1_ v) (ls_stepk i_ls k) tcg)
      else let l1 := asum_of m x' in
           (ltb_ (div (fabs (sub (nl1_ v) l1)) l1) (lo_l1_tol params), mkN x' u' i_dx i_du l1 (ls_stepk i_ls k) tcg)
  end.
End iter.
(** at most fuel iterations: did the loop stop by itself, how many iterations, the final values *)
Fixpoint n_loop (tau : T) (fuel : nat) (v : nst) : bool * nat * nst :=
  match fuel with
  | O => (false, O, v)
  | S f => let '(b, v') := n_iter tau v in
           if b then (true, 1%nat, v') else let '(b', k, w) := n_loop tau f v' in (b', S k, w)
  end.
Definition n_fuel : nat := Z.to_nat (lo_newton_max_iter params - 1).
(** one log-barrier iteration *)
Definition n_start (l : lst) : nst := mkN (lx_ l) (lu_ l) (const_of m zero) (ldu_ l) pinf (lstep_ l) (lcg_ l).
Definition n_stage (l : lst) : lst :=
  let '(b, k, w) := n_loop (ltau_ l) n_fuel (n_start l) in
  mkL (nx_ w) (nu_ w) (ndu_ w) (mul (ltau_ l) (lo_mu params)) (nstep_ w)
      (ltn_ l + (if b then Z.of_nat k else Z.of_nat k + 1)) (ncg_ w) (lcalls_ l + k).
Fixpoint n_lb (k : nat) (l : lst) : lst := match k with O => l | S k' => n_stage (n_lb k' l) end.

(** the lengths of the vectors and the size of the counters *)
Definition nlen (v : nst) : Prop := length (nx_ v) = m /\ length (nu_ v) = m /\ length (ndx_ v) = m /\ length (ndu_ v) = m.
Lemma i_dx0_len v : length (ndx_ v) = m -> length (i_dx0 v) = m.
Proof. intros H. unfold i_dx0. repeat case_match; first [done|apply tab_length]. Qed.
Lemma i_dx_len tau v : nlen v -> length (i_dx tau v) = m.
Proof. intros (_ & _ & H & _). unfold i_dx. apply n_dx_len. by apply i_dx0_len. Qed.
Lemma i_du_len tau v : nlen v -> length (i_du tau v) = m.
Proof. intros (_ & _ & _ & H). unfold i_du. by apply n_dudir_len. Qed.
Lemma n_iter_len tau v : nlen v -> nlen (snd (n_iter tau v)).
Proof.
  intros H. pose proof (i_dx_len tau v H) as Q1. pose proof (i_du_len tau v H) as Q2. destruct H as (H1 & H2 & H3 & H4).
  unfold n_iter, nlen. repeat case_match; simpl; repeat split; try done; apply tab_length.
Qed.
Lemma n_loop_len tau fuel v b k w : nlen v -> n_loop tau fuel v = (b, k, w) -> nlen w.
Proof.
  revert v b k w. induction fuel as [|f IH]; intros v b k w H; simpl; [by intros [= <- <- <-]|].
  pose proof (n_iter_len tau v H) as H'. destruct (n_iter tau v) as [b' v']. simpl in H'. destruct b'; [by intros [= <- <- <-]|].
  destruct (n_loop tau f v') as [[b'' k'] w'] eqn:E. intros [= <- <- <-]. by eapply IH.
Qed.
Lemma n_loop_k tau fuel v b k w : n_loop tau fuel v = (b, k, w) -> (k <= fuel)%nat /\ (b = false -> k = fuel) /\ (b = true -> (1 <= k)%nat).
Proof.
  revert v b k w. induction fuel as [|f IH]; intros v b k w; simpl; [intros [= <- <- <-]; split; [lia|done]|].
  destruct (n_iter tau v) as [b' v']. destruct b'; [intros [= <- <- <-]; split; [lia|split; [done|lia]]|].
  destruct (n_loop tau f v') as [[b'' k'] w'] eqn:E. intros [= <- <- <-]. destruct (IH _ _ _ _ E) as (H1 & H2 & H3).
  split; [lia|]. split; [|lia]. intros Hb. rewrite H2 by done. done.
Qed.
Definition cgm : Z := Z.abs (lo_cg_maxiter params).
Lemma cg_stop_le rel tol k mi : (cg_stop rel tol k mi <= k + mi)%nat.
Proof. revert k. induction mi as [|mi IH]; intros k; simpl; [lia|]. case_match; [lia|]. specialize (IH (S k)). lia. Qed.
Lemma cgiter_bound tau v : Z.abs (cgiter (i_cg tau v)) <= cgm.
Proof.
  unfold i_cg, n_cg, cgm. simpl. destruct (Z.leb_spec 0 (lo_cg_maxiter params)); [|lia].
  unfold n_iters. simpl. pose proof (cg_stop_le (n_rel m B C tau (n_fe n A bs eps (nx_ v)) (n_res n A bs (nx_ v))
    (n_f1 m (nx_ v) (nu_ v)) (n_f2 m (nx_ v) (nu_ v)) (i_dx0 v)) (lo_cg_tol params) 0 (Z.to_nat (lo_cg_maxiter params))). lia.
Qed.
Lemma n_iter_cg tau v : ncg_ (snd (n_iter tau v)) = ncg_ v + cgiter (i_cg tau v).
Proof. unfold n_iter. repeat case_match; done. Qed.
Lemma n_loop_cg tau fuel v b k w : n_loop tau fuel v = (b, k, w) -> Z.abs (ncg_ w - ncg_ v) <= Z.of_nat k * cgm.
Proof.
  revert v b k w. induction fuel as [|f IH]; intros v b k w; simpl; [intros [= <- <- <-]; lia|].
  pose proof (n_iter_cg tau v) as Hc. pose proof (cgiter_bound tau v).
  destruct (n_iter tau v) as [b' v']. cbn [snd] in Hc. destruct b'; [intros [= <- <- <-]; lia|].
  destruct (n_loop tau f v') as [[b'' k'] w'] eqn:E. intros [= <- <- <-]. specialize (IH _ _ _ _ E). lia.
Qed.
End pure.

(** ** Running it *)
Section runs.
Context `{N : Num}.
Context (m n : nat) (A B C : list T -> list T) (Ax Aty AtAx : ptr -> ptr -> M unit).
Context (F : list nat) (J : nat -> st -> Prop) (HO : opers F J Ax Aty AtAx m n A B C).
Context (P : Prob) (bs : list T) (params : L1qcOpts).
Notation eps := (lo_epsilon params).
Context (sc bx bu bb br b1 b2 bw bd be s1 s2 bg bf dw d0 d1 d2 d3 d4 d5 d6 : nat).
Context (EP : P = mkProb (Ptr sc 0) (Z.of_nat m) (Z.of_nat n) (Ptr bb 0) eps
   (Ptr br 0) (Ptr b1 0) (Ptr b2 0) (Ptr bw 0) (Ptr bd 0) (Ptr be 0) (Ptr s1 0) (Ptr s2 0) (Ptr bg 0) (Ptr bf 0) (Ptr dw 0)
   Ax Aty AtAx).
Notation rows := (rows d0 d1 d2 d3 d4 d5 d6).
Definition allb : list nat := [sc; bx; bu; bb; br; b1; b2; bw; bd; be; s1; s2; bg; bf; d0; d1; d2; d3; d4; d5; d6].
Context (Hd : NoDup allb) (HF : forall b, b ∈ allb -> b ∉ F).
Context (Hnm : (n <= m)%nat) (Hmax : 2 * Z.of_nat m + 1 <= INT_MAX) (Hcg : lo_cg_maxiter params < INT_MAX) (Lb : length bs = n).

(** the memory of the solver: which vectors are where *)
Record lay (c : nat) (tau : T) (xs us dx du : list T) (s : st) : Prop := {
  y_J : J c s;
  y_x : seg s (Ptr bx 0) xs; y_u : seg s (Ptr bu 0) us; y_dx : seg s (Ptr bd 0) dx; y_du : seg s (Ptr be 0) du;
  y_b : seg s (Ptr bb 0) bs;
  y_lx : length xs = m; y_lu : length us = m; y_ldx : length dx = m; y_ldu : length du = m;
  y_sc : exists v1 v2, seg s (Ptr sc 0) [tau; v1; v2];
  y_r : wok s (Ptr br 0) n; y_f : wok s (Ptr bf 0) (2 * m);
  y_w : forall b, b ∈ [b1; b2; bw; s1; s2; bg; d0; d1; d2; d3; d4; d5; d6] -> wok s (Ptr b 0) m;
  y_al : forall b, b ∈ [bx; bu; br; b1; b2; bw; bd; be; d0; d1; d2; d3; d4; d5; d6] -> is_aligned s (Ptr b 0) = true;
  y_pm : pm s !! dw = Some rows
}.
Definition evald (tau : T) (xs us : list T) (s : st) : Prop :=
  seg s (Ptr sc 0) [tau; n_fe n A bs eps xs; n_fval m n A bs eps tau xs us] /\
  seg s (Ptr br 0) (n_res n A bs xs) /\ seg s (Ptr b1 0) (n_f1 m xs us) /\ seg s (Ptr b2 0) (n_f2 m xs us).
Definition WN : list nat := [sc; bx; bu; br; b1; b2; bw; bd; be; s1; s2; bg; bf; d0; d1; d2; d3; d4; d5; d6] ++ F.

Lemma lay_touch c tau xs us dx du s W s' c' tau' xs' us' dx' du' : lay c tau xs us dx du s -> touch W s s' -> J c' s' ->
  seg s' (Ptr bx 0) xs' -> seg s' (Ptr bu 0) us' -> seg s' (Ptr bd 0) dx' -> seg s' (Ptr be 0) du' -> seg s' (Ptr bb 0) bs ->
  length xs' = m -> length us' = m -> length dx' = m -> length du' = m ->
  (exists v1 v2, seg s' (Ptr sc 0) [tau'; v1; v2]) -> lay c' tau' xs' us' dx' du' s'.
Proof.
  intros [] Ht HJ. intros. split; try assumption.
  - by apply (touch_wok _ _ _ _ _ Ht).
  - by apply (touch_wok _ _ _ _ _ Ht).
  - intros b Hb. apply (touch_wok _ _ _ _ _ Ht). by apply y_w0.
  - intros b Hb. rewrite (touch_aligned _ _ _ _ Ht). by apply y_al0.
  - by rewrite (t_pm _ _ _ Ht).
Qed.
Lemma touch_drop W b s s' : touch (b :: W) s s' -> dm s' !! b = dm s !! b -> touch W s s'.
Proof.
  intros [] E. split; try done. intros c Hc. destruct (decide (c = b)) as [->|]; [done|]. apply t_dm. apply not_elem_of_cons. auto.
Qed.

(** the objective of the line search *)
Definition jobj (c : nat) (tau : T) (sb : st) (k : nat) (x0 u0 : list T) (s : st) : Prop :=
  J c s /\ dm s !! bb = dm sb !! bb /\ length x0 = m /\ length u0 = m /\
  (exists v, seg s (Ptr sc 0) [tau; n_fe n A bs eps x0; v]) /\
  seg s (Ptr br 0) (n_res n A bs x0) /\ seg s (Ptr b1 0) (n_f1 m x0 u0) /\ seg s (Ptr b2 0) (n_f2 m x0 u0) /\
  (forall b, b ∈ [d0; d1; br; b1; b2] -> is_aligned s (Ptr b 0) = true).
Lemma f_eval_objective c tau sb : seg sb (Ptr bb 0) bs ->
  objective2 ([bb; sc; br; b1; b2] ++ F) (jobj c tau sb) (Ptr sc 2) (f_eval P) (Ptr d0 0) (Ptr d1 0) m
    (fun _ => n_fval m n A bs eps tau).
Proof.
  intros Hb. assert (HA := os_ax _ _ _ _ _ _ _ _ _ _ HO c).
  assert (HF' : forall b, b ∈ [d0; d1; bb; sc; br; b1; b2] -> b ∉ F) by (intros b Hb'; apply HF; unfold allb; sub1 Hb').
  unfold allb in *. distinct Hd. split.
  - intros k s x0 u0 xs us (HJ & Eb & Lx0 & Lu0 & (v & Hs) & Hr & H1 & H2 & Hal) Hx Hu Lx Lu.
    assert (Hb' : seg s (Ptr bb 0) bs). { intros i w Hi. unfold cell. rewrite Eb. by apply (Hb i w Hi). }
    assert (Lr : length (n_res n A bs x0) = n) by (unfold n_res; len).
    assert (L1 : length (n_f1 m x0 u0) = m) by (unfold n_f1; len). assert (L2 : length (n_f2 m x0 u0) = m) by (unfold n_f2; len).
    destruct (f_eval_run m n A B C Ax Aty AtAx F J HO P bs eps sc d0 d1 bb br b1 b2 bw bd be s1 s2 bg bf dw EP
      c s xs us tau (n_fe n A bs eps x0) v) as (s' & E & Tt & HJ' & S1 & S2 & S3 & S4); try assumption.
    { repeat (apply NoDup_cons; split; [notin|]). apply NoDup_nil; done. }
    { wokt. } { wokt. } { wokt. }
    exists s'. split; [exact E|]. split; [eapply touch_weaken; [exact Tt|]; intros b0 Hb0; sub1 Hb0|].
    split; [exact HJ'|]. split. { rewrite (t_dm _ _ _ Tt); [exact Eb|]. pose proof (HF' bb ltac:(isin)). notin. }
    split; [exact Lx|]. split; [exact Lu|]. split; [eexists; exact S1|]. split; [exact S2|]. split; [exact S3|]. split; [exact S4|].
    intros b0 Hb0. rewrite (touch_aligned _ _ _ _ Tt). by apply Hal.
  - intros k x0 u0 W s s' (HJ & Eb & Lx0 & Lu0 & (v & Hs) & Hr & H1 & H2 & Hal) Ht HW.
    assert (HN : forall b, b ∈ [bb; sc; br; b1; b2] -> b ∉ W). { intros b Hb1 Hb2. apply (HW b Hb2). apply elem_of_app. auto. }
    split. { apply (op_J _ _ _ _ _ _ HA W s); [done|done|]. intros b Hb1 Hb2. apply (HW b Hb1). apply elem_of_app. auto. }
    split. { rewrite (t_dm _ _ _ Ht); [done|]. apply HN; isin. }
    split; [done|]. split; [done|]. split. { exists v. apply (touch_seg _ _ _ _ _ _ Ht); [apply HN; isin|done]. }
    split. { apply (touch_seg _ _ _ _ _ _ Ht); [apply HN; isin|done]. }
    split. { apply (touch_seg _ _ _ _ _ _ Ht); [apply HN; isin|done]. }
    split. { apply (touch_seg _ _ _ _ _ _ Ht); [apply HN; isin|done]. }
    intros b0 Hb0. rewrite (touch_aligned _ _ _ _ Ht). by apply Hal.
  - intros k x0 u0 s w (HJ & Eb & Lx0 & Lu0 & (v & Hs) & Hr & H1 & H2 & Hal).
    pose proof (wr_insert s (Ptr sc 0) _ 2 w Hs ltac:(simpl; lia)) as E. change (padd (Ptr sc 0) (Z.of_nat 2)) with (Ptr sc 2) in E.
    change (<[2%nat := w]> [tau; n_fe n A bs eps x0; v]) with [tau; n_fe n A bs eps x0; w] in E. rewrite E. clear E.
    assert (Ht : touch [sc] s (wr (Ptr sc 0) [tau; n_fe n A bs eps x0; w] s)) by (apply touch_wr; isin).
    assert (Fs : sc ∉ F) by (apply HF'; isin).
    split. { apply (op_J _ _ _ _ _ _ HA [sc] s); [done|done|]. avoid. }
    split. { rewrite (t_dm _ _ _ Ht); [done|notin]. }
    split; [done|]. split; [done|]. split. { exists w. apply seg_wr. apply (seg_wok s _ _ Hs). }
    split. { apply (touch_seg _ _ _ _ _ _ Ht); [notin|done]. }
    split. { apply (touch_seg _ _ _ _ _ _ Ht); [notin|done]. }
    split. { apply (touch_seg _ _ _ _ _ _ Ht); [notin|done]. }
    intros b0 Hb0. rewrite (touch_aligned _ _ _ _ Ht). by apply Hal.
Qed.
End runs.
