(** * C24-C26: the line searches. *)
From Coq Require Import ZArith Lia Reals Lra.
From Coq Require Floats.
From stdpp Require Import base numbers gmap list.
From Verif Require Import Mem M_Math M_LineSearch P_Mem P_Loop P_Math S_Mem P_Touch P_Memory P_LineSearch P_MathR.
Local Open Scope Z_scope.

(** ** Specification *)
Section spec.
Context `{N : Num}.
(** the point  step*d + x *)
Definition along (step : T) (d x : list T) : list T := zip_with (fun di xi => add (mul step di) xi) d x.
(** step number k = 1, 2, ...:  beta*(...*(beta*s)) with k-1 factors *)
Definition trial_step (prm : LSParams) (k : nat) : T := Nat.iter (k - 1) (mul (lsp_beta prm)) (lsp_s prm).
(** the sufficient-decrease test:  v is a number and v <= f0 + alpha*step*g *)
Definition decreases (prm : LSParams) (f0 g step v : T) : Prop :=
  isnan v = false /\ leb_ v (add f0 (mul (mul (lsp_alpha prm) step) g)) = true.

Lemma along_axpy m a ds xs : length ds = m -> length xs = m -> along a ds xs = axpy_of m a ds xs.
Proof.
  intros Hd Hx. unfold along, axpy_of. apply list_eq. intros i. destruct (decide (i < m)%nat).
  - rewrite tab_lookup by done. rewrite lookup_zip_with, !at_lookup by lia. done.
  - rewrite !lookup_ge_None_2; auto; rewrite ?tab_length, ?zip_with_length; lia.
Qed.
Lemma trial_stepk prm k : trial_step prm (S k) = ls_stepk prm k.
Proof.
  unfold trial_step. replace (S k - 1)%nat with k by lia. induction k; [done|].
  cbn [ls_stepk]. rewrite <- IHk. done.
Qed.

(** A call of l1c_linesearch_xu: separate aligned arrays x, u, dx, du, xp, up (the last two reached
    through DWORK2), the value f0 in fx0, and an objective that is any function of the number of the
    evaluation and the point.  The objective may write any other memory F, including fx0. *)
Record xu_call (m : nat) (bx bu bdx bdu bxp bup bw bf : nat) (fo : Z)
    (feval : ptr -> ptr -> M T) (F : list nat) (J : nat -> st -> Prop) (Fv : nat -> list T -> list T -> T)
    (s : st) (xs us dxs dus : list T) (f0 : T) : Prop := {
  xc_sep : NoDup [bx; bu; bdx; bdu; bxp; bup; bf];
  xc_F : forall b, b ∈ [bx; bu; bdx; bdu; bxp; bup] -> b ∉ F;
  xc_obj : objective2 F (fun k _ _ => J k) (Ptr bf fo) feval (Ptr bxp 0) (Ptr bup 0) m Fv;
  xc_J : J 0%nat s;
  xc_x : seg s (Ptr bx 0) xs; xc_u : seg s (Ptr bu 0) us;
  xc_dx : seg s (Ptr bdx 0) dxs; xc_du : seg s (Ptr bdu 0) dus;
  xc_len : length xs = m /\ length us = m /\ length dxs = m /\ length dus = m;
  xc_wk : wok s (Ptr bxp 0) m /\ wok s (Ptr bup 0) m;
  xc_f0 : seg s (Ptr bf fo) [f0];
  xc_al : forall b, b ∈ [bx; bu; bdx; bdu; bxp; bup] -> is_aligned s (Ptr b 0) = true;
  xc_w : exists wc, pm s !! bw = Some wc /\ wc !! 0%nat = Some (Some (Ptr bxp 0)) /\ wc !! 1%nat = Some (Some (Ptr bup 0))
}.
(** the same for l1c_linesearch; [G k xs] is what fx0 holds after evaluation number k *)
Record ls_call (m : nat) (bx bdx bxp bf : nat) (fo : Z)
    (fobj : ptr -> M T) (F : list nat) (J : nat -> st -> Prop) (Fv G : nat -> list T -> T)
    (s : st) (xs dxs : list T) (f0 : T) : Prop := {
  lc_sep : NoDup [bx; bdx; bxp; bf];
  lc_F : forall b, b ∈ [bx; bdx; bxp] -> b ∉ F;
  lc_obj : objective1 F J (Ptr bf fo) fobj (Ptr bxp 0) m Fv G;
  lc_J : J 0%nat s;
  lc_x : seg s (Ptr bx 0) xs; lc_dx : seg s (Ptr bdx 0) dxs;
  lc_len : length xs = m /\ length dxs = m;
  lc_wk : wok s (Ptr bxp 0) m;
  lc_f0 : seg s (Ptr bf fo) [f0];
  lc_al : forall b, b ∈ [bx; bdx; bxp] -> is_aligned s (Ptr b 0) = true
}.
Lemma seg1_cell s p v : seg s p [v] -> cell s p 0 = Some (Some v).
Proof. intros H. apply (H 0%nat v). done. Qed.
End spec.

(** ** C24, C25 for l1c_linesearch_xu, for every arithmetic *)
Section xu.
Context `{N : Num}.
Context (m : nat) (bx bu bdx bdu bxp bup bw bf : nat) (fo : Z).
Context (feval : ptr -> ptr -> M T) (F : list nat) (J : nat -> st -> Prop) (Fv : nat -> list T -> list T -> T).
Context (s : st) (xs us dxs dus : list T) (f0 g : T) (prm : LSParams).

(** value of the objective at trial k = 1, 2, ... (its evaluation number k-1) *)
Let trial k := Fv (k - 1)%nat (along (trial_step prm k) dxs xs) (along (trial_step prm k) dus us).
Let run := linesearch_xu (Z.of_nat m) (Ptr bx 0) (Ptr bu 0) (Ptr bdx 0) (Ptr bdu 0) (Ptr bf fo) g feval prm (Ptr bw 0) s.

Lemma xu_facts : xu_call m bx bu bdx bdu bxp bup bw bf fo feval F J Fv s xs us dxs dus f0 ->
  exists r s', run = Ok r s' /\
   ((exists k, (1 <= k <= 32)%nat /\ decreases prm f0 g (trial_step prm k) (trial k) /\
       (forall j, (1 <= j < k)%nat -> ~ decreases prm f0 g (trial_step prm j) (trial j)) /\
       ls_iter r = Z.of_nat k /\ ls_step r = trial_step prm k /\ ls_status r = 0 /\
       seg s' (Ptr bx 0) (along (trial_step prm k) dxs xs) /\ seg s' (Ptr bu 0) (along (trial_step prm k) dus us) /\
       seg s' (Ptr bf fo) [trial k] /\ J k s' /\ touch ([bx; bu; bxp; bup; bf] ++ F) s s') \/
    ((forall j, (1 <= j <= 32)%nat -> ~ decreases prm f0 g (trial_step prm j) (trial j)) /\
       ls_iter r = 32 /\ ls_status r = 1 /\ J 32%nat s' /\ touch ([bxp; bup] ++ F) s s')).
Proof.
  intros [Hsep HF Ho HJ Hx Hu Hdx Hdu (Lx & Lu & Ldx & Ldu) (Wx & Wu) Hf Hal (wc & Hw & Hw0 & Hw1)].
  destruct (linesearch_xu_run m bx bu bdx bdu bxp bup bw bf fo g prm feval F (fun k _ _ => J k) Fv s xs us dxs dus f0 wc)
    with (x0 := xs) (u0 := us) as (r & s' & E & HH); auto; try (apply Hal; isin).
  { by apply seg1_cell. }
  assert (EQ : forall k, trial (S k) = Fv k (axpy_of m (ls_stepk prm k) dxs xs) (axpy_of m (ls_stepk prm k) dus us)).
  { intros k. unfold trial. replace (S k - 1)%nat with k by lia.
    rewrite trial_stepk, !(along_axpy m) by done. done. }
  assert (ACC : forall k, ls_acc2 m g prm Fv xs us dxs dus f0 k <-> decreases prm f0 g (trial_step prm (S k)) (trial (S k))).
  { intros k. unfold ls_acc2, decreases, ls_flink. rewrite EQ, trial_stepk. done. }
  exists r, s'. split; [done|]. destruct HH as [(k & Hk & Hacc & Hno & -> & S1 & S2 & S3 & HJ' & Ht)|(Hno & -> & HJ' & Ht)].
  - left. exists (S k). split; [lia|]. split; [by apply ACC|]. split.
    { intros [|j] Hj; [lia|]. rewrite <- ACC. apply Hno. lia. }
    rewrite EQ, trial_stepk, !(along_axpy m) by done. cbn [ls_iter ls_step ls_status]. split; [lia|]. auto 10.
  - right. split; [|auto 10].
    intros [|j] Hj; [lia|]. rewrite <- ACC. apply Hno. lia.
Qed.

Theorem C24_linesearch_xu r s' :
  xu_call m bx bu bdx bdu bxp bup bw bf fo feval F J Fv s xs us dxs dus f0 ->
  run = Ok r s' -> ls_status r = 0 ->
  exists k, (1 <= k <= 32)%nat /\ ls_iter r = Z.of_nat k /\ ls_step r = trial_step prm k /\
    seg s' (Ptr bx 0) (along (ls_step r) dxs xs) /\ seg s' (Ptr bu 0) (along (ls_step r) dus us) /\
    seg s' (Ptr bf fo) [trial k] /\
    decreases prm f0 g (ls_step r) (trial k) /\
    forall j, (1 <= j < k)%nat -> ~ decreases prm f0 g (trial_step prm j) (trial j).
Proof.
  intros HC HR Hs. destruct (xu_facts HC) as (r' & s'' & E & HH). rewrite E in HR. inversion HR; subst r' s''; clear HR.
  destruct HH as [(k & Hk & Hd & Hno & Hi & Hst & _ & S1 & S2 & S3 & _)|(_ & _ & Hbad & _)]; [|congruence].
  exists k. rewrite Hst. auto 10.
Qed.

(** It always returns, with status 0 or 1; status 1 exactly when none of the 32 trial steps
    decreases, and then nothing but the scratch arrays (and what the objective writes) changed. *)
Theorem C25_linesearch_xu :
  xu_call m bx bu bdx bdu bxp bup bw bf fo feval F J Fv s xs us dxs dus f0 ->
  exists r s', run = Ok r s' /\ (ls_status r = 0 \/ ls_status r = 1) /\
    (ls_status r = 1 <-> forall k, (1 <= k <= 32)%nat -> ~ decreases prm f0 g (trial_step prm k) (trial k)) /\
    (ls_status r = 1 -> ls_iter r = 32 /\ J 32%nat s' /\ seg s' (Ptr bx 0) xs /\ seg s' (Ptr bu 0) us /\
       touch ([bxp; bup] ++ F) s s') /\
    (exists e, (1 <= e <= 32)%nat /\ J e s').
Proof.
  intros HC. destruct (xu_facts HC) as (r & s' & E & HH). exists r, s'. split; [done|].
  destruct HH as [(k & Hk & Hd & Hno & Hi & Hst & -> & S1 & S2 & S3 & HJ & Ht)|(Hno & Hi & -> & HJ & Ht)].
  - split; [auto|]. split; [|split; [done|eauto]]. split; [done|]. intros H. by destruct (H k).
  - split; [auto|]. split; [done|]. split; [|exists 32%nat; split; [lia|done]]. intros _. split; [done|]. split; [done|].
    pose proof (xc_sep _ _ _ _ _ _ _ _ _ _ _ _ _ _ _ _ _ _ _ _ HC) as D. distinct D.
    pose proof (xc_F _ _ _ _ _ _ _ _ _ _ _ _ _ _ _ _ _ _ _ _ HC) as HF.
    assert (bx ∉ F) by (apply HF; isin). assert (bu ∉ F) by (apply HF; isin).
    split; [|split; [|done]].
    + apply (touch_seg _ _ _ _ _ _ Ht); [notin|]. apply (xc_x _ _ _ _ _ _ _ _ _ _ _ _ _ _ _ _ _ _ _ _ HC).
    + apply (touch_seg _ _ _ _ _ _ Ht); [notin|]. apply (xc_u _ _ _ _ _ _ _ _ _ _ _ _ _ _ _ _ _ _ _ _ HC).
Qed.
End xu.

(** ** the same for l1c_linesearch, when the objective leaves fx0 alone *)
Section plain.
Context `{N : Num}.
Context (m : nat) (bx bdx bxp bf : nat) (fo : Z).
Context (fobj : ptr -> M T) (F : list nat) (J : nat -> st -> Prop) (Fv G : nat -> list T -> T).
Context (s : st) (xs dxs : list T) (f0 g : T) (prm : LSParams).
Let trial k := Fv (k - 1)%nat (along (trial_step prm k) dxs xs).
Let run := linesearch (Z.of_nat m) (Ptr bx 0) (Ptr bdx 0) (Ptr bf fo) g fobj prm (Ptr bxp 0) s.

(** what fx0 holds after trial k = 1, 2, ... *)
Let f0v k := G (k - 1)%nat (along (trial_step prm k) dxs xs).
Lemma ls_facts : ls_call m bx bdx bxp bf fo fobj F J Fv G s xs dxs f0 ->
  exists r s', run = Ok r s' /\
   ((exists k, (1 <= k <= 32)%nat /\ decreases prm (f0v k) g (trial_step prm k) (trial k) /\
       (forall j, (1 <= j < k)%nat -> ~ decreases prm (f0v j) g (trial_step prm j) (trial j)) /\
       ls_iter r = Z.of_nat k /\ ls_step r = trial_step prm k /\ ls_status r = 0 /\
       seg s' (Ptr bx 0) (along (trial_step prm k) dxs xs) /\
       seg s' (Ptr bf fo) [trial k] /\ (exists t, J k t /\ touch [bx; bf] t s') /\ touch ([bx; bxp; bf] ++ F) s s') \/
    ((forall j, (1 <= j <= 32)%nat -> ~ decreases prm (f0v j) g (trial_step prm j) (trial j)) /\
       ls_iter r = 32 /\ ls_status r = 1 /\ J 32%nat s' /\ touch ([bxp] ++ F) s s')).
Proof.
  intros [Hsep HF Ho HJ Hx Hdx (Lx & Ldx) Wx Hf Hal].
  destruct (linesearch_run m bx bdx bxp bf fo g prm fobj F J Fv G s xs dxs)
    as (r & s' & E & HH); auto; try (apply Hal; isin).
  assert (EQ : forall k, trial (S k) = Fv k (axpy_of m (ls_stepk prm k) dxs xs)).
  { intros k. unfold trial. replace (S k - 1)%nat with k by lia. rewrite trial_stepk, !(along_axpy m) by done. done. }
  assert (EG : forall k, f0v (S k) = G k (axpy_of m (ls_stepk prm k) dxs xs)).
  { intros k. unfold f0v. replace (S k - 1)%nat with k by lia. rewrite trial_stepk, !(along_axpy m) by done. done. }
  assert (ACC : forall k, ls_acc1 m g prm Fv G xs dxs k <-> decreases prm (f0v (S k)) g (trial_step prm (S k)) (trial (S k))).
  { intros k. unfold ls_acc1, decreases, ls_flink. rewrite EQ, EG, trial_stepk. done. }
  exists r, s'. split; [done|]. destruct HH as [(k & Hk & Hacc & Hno & -> & S1 & S3 & HJ' & Ht)|(Hno & -> & HJ' & Ht)].
  - left. exists (S k). split; [lia|]. split; [by apply ACC|]. split.
    { intros [|j] Hj; [lia|]. rewrite <- ACC. apply Hno. lia. }
    rewrite EQ, trial_stepk, !(along_axpy m) by done. cbn [ls_iter ls_step ls_status]. split; [lia|]. auto 10.
  - right. split; [|auto 10].
    intros [|j] Hj; [lia|]. rewrite <- ACC. apply Hno. lia.
Qed.

(** (the second hypothesis: the objective leaves the old value f0 in fx0) *)
Theorem C24_linesearch r s' :
  ls_call m bx bdx bxp bf fo fobj F J Fv G s xs dxs f0 -> (forall k ys, G k ys = f0) ->
  run = Ok r s' -> ls_status r = 0 ->
  exists k, (1 <= k <= 32)%nat /\ ls_iter r = Z.of_nat k /\ ls_step r = trial_step prm k /\
    seg s' (Ptr bx 0) (along (ls_step r) dxs xs) /\ seg s' (Ptr bf fo) [trial k] /\
    decreases prm f0 g (ls_step r) (trial k) /\
    forall j, (1 <= j < k)%nat -> ~ decreases prm f0 g (trial_step prm j) (trial j).
Proof.
  intros HC HG HR Hs. destruct (ls_facts HC) as (r' & s'' & E & HH). unfold f0v in HH. rewrite E in HR. inversion HR; subst r' s''; clear HR.
  destruct HH as [(k & Hk' & Hd & Hno & Hi & Hst & _ & S1 & S3 & _)|(_ & _ & Hbad & _)]; [|congruence].
  rewrite HG in Hd. exists k. rewrite Hst. do 6 (split; [done|]). intros j Hj. rewrite <- (HG (j - 1)%nat (along (trial_step prm j) dxs xs)). by apply Hno.
Qed.

Theorem C25_linesearch :
  ls_call m bx bdx bxp bf fo fobj F J Fv G s xs dxs f0 -> (forall k ys, G k ys = f0) ->
  exists r s', run = Ok r s' /\ (ls_status r = 0 \/ ls_status r = 1) /\
    (ls_status r = 1 <-> forall k, (1 <= k <= 32)%nat -> ~ decreases prm f0 g (trial_step prm k) (trial k)) /\
    (ls_status r = 1 -> ls_iter r = 32 /\ J 32%nat s' /\ seg s' (Ptr bx 0) xs /\ touch ([bxp] ++ F) s s') /\
    (exists e t, (1 <= e <= 32)%nat /\ J e t /\ touch [bx; bf] t s').
Proof.
  intros HC HG. destruct (ls_facts HC) as (r & s' & E & HH). unfold f0v in HH. exists r, s'. split; [done|].
  destruct HH as [(k & Hk & Hd & Hno & Hi & Hst & -> & S1 & S3 & HJ & Ht)|(Hno & Hi & -> & HJ & Ht)].
  - split; [auto|]. split; [|split; [done|destruct HJ as (t0 & HJ & HT); exists k, t0; auto]]. split; [done|]. intros H. rewrite HG in Hd. by destruct (H k).
  - split; [auto|]. split; [split; [|done]; intros _ k Hk; rewrite <- (HG (k - 1)%nat (along (trial_step prm k) dxs xs)); by apply Hno|].
    split; [|exists 32%nat, s'; split; [lia|]; split; [done|apply touch_refl]]. intros _. split; [done|]. split; [done|].
    pose proof (lc_sep _ _ _ _ _ _ _ _ _ _ _ _ _ _ _ HC) as D. distinct D.
    pose proof (lc_F _ _ _ _ _ _ _ _ _ _ _ _ _ _ _ HC) as HF. assert (bx ∉ F) by (apply HF; isin).
    split; [|done]. apply (touch_seg _ _ _ _ _ _ Ht); [notin|]. apply (lc_x _ _ _ _ _ _ _ _ _ _ _ _ _ _ _ HC).
Qed.
End plain.

(** ** C26: an objective that stores its value in fx0 *)
(** In exact arithmetic the plain line search then rejects every step along a descent direction,
    however good, because it compares the objective with itself. *)
Theorem C26_plain_alias_always_fails
  (m : nat) (bx bdx bxp bf : nat) (fo : Z) (fobj : ptr -> @M RN R) (F : list nat) (J : nat -> @st RN -> Prop)
  (Fv : nat -> list R -> R) (s : @st RN) (xs dxs : list R) (f0 g : R) (prm : @LSParams RN) :
  (* after every evaluation fx0 holds the value just returned *)
  @ls_call RN m bx bdx bxp bf fo fobj F J Fv Fv s xs dxs f0 ->
  (0 < @lsp_alpha RN prm)%R -> (0 < @lsp_beta RN prm)%R -> (0 < @lsp_s RN prm)%R -> (g < 0)%R ->
  exists r s', @linesearch RN (Z.of_nat m) (Ptr bx 0) (Ptr bdx 0) (Ptr bf fo) g fobj prm (Ptr bxp 0) s = Ok r s' /\
    @ls_status RN r = 1 /\ @seg RN s' (Ptr bx 0) xs.
Proof.
  intros HC Ha Hb Hs Hg.
  assert (Hpos : forall k, (0 < (@trial_step RN prm k : R))%R).
  { intros k. unfold trial_step. induction (k - 1)%nat as [|j IH]; [exact Hs|]. simpl. apply Rmult_lt_0_compat; auto. }
  destruct (@ls_facts RN m bx bdx bxp bf fo fobj F J Fv Fv s xs dxs f0 g prm HC) as (r & s' & E & HH).
  exists r, s'. split; [exact E|].
  destruct HH as [(k & Hk & [_ Hd] & _)|(Hno & Hi & -> & HJ & Ht)].
  - exfalso. simpl in Hd. apply Rleb_true in Hd. pose proof (Hpos k) as Hp.
    assert (0 < @lsp_alpha RN prm * @trial_step RN prm k * - g)%R.
    { apply Rmult_lt_0_compat; [by apply Rmult_lt_0_compat|lra]. }
    assert (Hneg : (@lsp_alpha RN prm * @trial_step RN prm k * g < 0)%R) by lra.
    apply (Rlt_irrefl (Fv (k - 1)%nat (@along RN (@trial_step RN prm k) dxs xs))).
    eapply Rle_lt_trans; [exact Hd|].
    rewrite <- Rplus_0_r. apply Rplus_lt_compat_l. exact Hneg.
  - split; [done|]. pose proof (lc_sep _ _ _ _ _ _ _ _ _ _ _ _ _ _ _ HC) as D. distinct D.
    pose proof (lc_F _ _ _ _ _ _ _ _ _ _ _ _ _ _ _ HC) as HF. assert (bx ∉ F) by (apply HF; isin).
    apply (touch_seg _ _ _ _ _ _ Ht); [notin|]. apply (lc_x _ _ _ _ _ _ _ _ _ _ _ _ _ _ _ HC).
Qed.

(** l1c_linesearch_xu keeps the old value in a local variable: even then an accepted point satisfies
    the test against the value at entry.  (The hypotheses allow fx0 inside F.) *)
Theorem C26_xu_alias_safe
  (m : nat) (bx bu bdx bdu bxp bup bw bf : nat) (fo : Z) (feval : ptr -> ptr -> @M RN R) (F : list nat)
  (J : nat -> @st RN -> Prop) (Fv : list R -> list R -> R) (s : @st RN) (xs us dxs dus : list R) (f0 g : R) (prm : @LSParams RN)
  (r : @LSStat RN) (s' : @st RN) :
  bf ∈ F -> @xu_call RN m bx bu bdx bdu bxp bup bw bf fo feval F J (fun _ => Fv) s xs us dxs dus f0 ->
  @linesearch_xu RN (Z.of_nat m) (Ptr bx 0) (Ptr bu 0) (Ptr bdx 0) (Ptr bdu 0) (Ptr bf fo) g feval prm (Ptr bw 0) s = Ok r s' ->
  @ls_status RN r = 0 ->
  exists xs' us', @seg RN s' (Ptr bx 0) xs' /\ @seg RN s' (Ptr bu 0) us' /\ length xs' = m /\ length us' = m /\
    (Fv xs' us' <= f0 + @lsp_alpha RN prm * @ls_step RN r * g)%R.
Proof.
  intros HbF HC HR Hs.
  destruct (@C24_linesearch_xu RN _ _ _ _ _ _ _ _ _ _ _ _ _ _ _ _ _ _ _ _ g prm r s' HC HR Hs)
    as (k & Hk & Hi & Hst & S1 & S2 & S3 & [_ Hd] & _).
  exists (@along RN (@ls_step RN r) dxs xs), (@along RN (@ls_step RN r) dus us).
  pose proof (xc_len _ _ _ _ _ _ _ _ _ _ _ _ _ _ _ _ _ _ _ _ HC) as (L1 & L2 & L3 & L4).
  split; [exact S1|]. split; [exact S2|].
  split; [rewrite (along_axpy m) by done; apply axpy_of_len|]. split; [rewrite (along_axpy m) by done; apply axpy_of_len|].
  rewrite Hst in *. apply Rleb_true in Hd. exact Hd.
Qed.

(** In IEEE arithmetic the plain line search can even accept an increase: with alpha = 1/100 and
    g = -1 the objective F(x) = 2^60*x, started at x = 0 with value 0, is accepted at x = 1. *)
Module Alias.
Import PrimFloat.
Definition c60 : float := fofZ (2 ^ 60).
(** F(x) = 2^60 * x, also stored in fx0 (block 3) *)
Definition fobj (xp : ptr) : @M FN float :=
  bind (@ld FN xp 0) (fun v => let w := PrimFloat.mul c60 v in bind (@sto FN (Ptr 3 0) 0 w) (fun _ => ret w)).
Definition s0 : @st FN := state_of [full [PrimFloat.zero : @T FN]; full [PrimFloat.one : @T FN]; fresh 1; full [PrimFloat.zero : @T FN]].
Definition prm : @LSParams FN := mkLSP (@lit FN 1 100) (@lit FN 1 2) (@lit FN 1 1).
Definition run : @M FN LSStat := @linesearch FN 1 (Ptr 0 0) (Ptr 1 0) (Ptr 3 0) (PrimFloat.opp PrimFloat.one) fobj prm (Ptr 2 0).
End Alias.
Theorem C26_plain_alias_refuted :
  (* the call accepts its first step *)
  option_map (fun r => (ls_status r, ls_iter r)) (result Alias.run Alias.s0) = Some (0, 1) /\
  (* x went from 0 to 1 and the objective from 0 up to 2^60 *)
  after Alias.run Alias.s0 0 = Some [Some PrimFloat.one] /\
  after Alias.run Alias.s0 3 = Some [Some Alias.c60] /\
  PrimFloat.ltb PrimFloat.zero Alias.c60 = true.
Proof. split; [|split; [|split]]; vm_compute; reflexivity. Qed.

(** *** a concrete call: minimise x+u from x = 3, u = 5 along dx = du = -1, first step 1, beta = 1/2 *)
Module LsEx.
Definition s0 : @st RN :=
  let s := @state_of RN [full [3%R : @T RN]; full [5%R : @T RN]; full [(-1)%R : @T RN]; full [(-1)%R : @T RN]; fresh 1; fresh 1; full [8%R : @T RN]] in
  set_pm (<[9%nat := [Some (Ptr 4 0); Some (Ptr 5 0)]]>) s.
Definition feval (xp up : ptr) : @M RN R :=
  bind (@ld RN xp 0) (fun v => bind (@ld RN up 0) (fun w => ret (v + w)%R)).
Definition Fv (_ : nat) (xs us : list R) : R := (@at_ RN xs 0 + @at_ RN us 0)%R.
Definition prm : @LSParams RN := @mkLSP RN (1 / 100)%R (1 / 2)%R 1%R.
Lemma call : @xu_call RN 1 0 1 2 3 4 5 9 6 0 feval [] (fun _ _ => True) Fv s0 [3%R] [5%R] [(-1)%R] [(-1)%R] 8%R.
Proof.
  split; try done.
  - repeat constructor; set_solver.
  - intros b Hb. apply not_elem_of_nil.
  - split; try done. intros k s x0 u0 xs us _ Hx Hu Lx Lu. exists s. split; [|split; [apply touch_refl|done]].
    unfold feval. rewrite (bind_ok _ _ _ (@at_ RN xs 0) s).
    2:{ apply (@seg_ld RN s _ xs 0 Hx). rewrite Lx. lia. }
    rewrite (bind_ok _ _ _ (@at_ RN us 0) s).
    2:{ apply (@seg_ld RN s _ us 0 Hu). rewrite Lu. lia. }
    done.
  - apply (@state_of_seg RN); done.
  - apply (@state_of_seg RN); done.
  - apply (@state_of_seg RN); done.
  - apply (@state_of_seg RN); done.
  - split; eapply (@state_of_wok RN); try done; simpl; lia.
  - apply (@state_of_seg RN); done.
  - exists [Some (Ptr 4 0); Some (Ptr 5 0)]. done.
Qed.
(** the same with an objective that stores its value in fx0 (for C26_xu_alias_safe) *)
Definition feval_st (xp up : ptr) : @M RN R :=
  bind (@ld RN xp 0) (fun v => bind (@ld RN up 0) (fun w => bind (@sto RN (Ptr 6 0) 0 (v + w)%R) (fun _ => ret (v + w)%R))).
Lemma call_st : @xu_call RN 1 0 1 2 3 4 5 9 6 0 feval_st [6%nat] (fun _ s => @wok RN s (Ptr 6 0) 1) Fv s0 [3%R] [5%R] [(-1)%R] [(-1)%R] 8%R.
Proof.
  split; try done.
  - repeat constructor; set_solver.
  - intros b Hb. rewrite !elem_of_cons, elem_of_nil in Hb. apply not_elem_of_cons. split; [lia|apply not_elem_of_nil].
  - split.
    + intros k s x0 u0 xs us Hw Hx Hu Lx Lu. exists (@wr RN (Ptr 6 0) [Fv k xs us] s). split; [|split; [apply touch_wr; isin|by apply wok_wr]].
      unfold feval_st. rewrite (bind_ok _ _ _ (@at_ RN xs 0) s).
      2:{ apply (@seg_ld RN s _ xs 0 Hx). rewrite Lx. lia. }
      rewrite (bind_ok _ _ _ (@at_ RN us 0) s).
      2:{ apply (@seg_ld RN s _ us 0 Hu). rewrite Lu. lia. }
      rewrite (bind_ok _ _ _ tt (@wr RN (Ptr 6 0) [Fv k xs us] s)); [done|].
      rewrite (@sto_wok RN _ _ 1) by (done || lia). by rewrite padd_0.
    + intros k x0 u0 W s s' Hw Ht _. by apply (touch_wok _ _ _ _ _ Ht).
    + intros k x0 u0 s v Hw. by apply wok_wr.
  - eapply (@state_of_wok RN); try done; simpl; lia.
  - apply (@state_of_seg RN); done.
  - apply (@state_of_seg RN); done.
  - apply (@state_of_seg RN); done.
  - apply (@state_of_seg RN); done.
  - split; eapply (@state_of_wok RN); try done; simpl; lia.
  - apply (@state_of_seg RN); done.
  - exists [Some (Ptr 4 0); Some (Ptr 5 0)]. done.
Qed.
(** the first trial step is accepted (2+4 <= 8 - 2/100) *)
Lemma accepted : @decreases RN prm 8%R (-2)%R (@trial_step RN prm 1) (Fv 0 (@along RN (@trial_step RN prm 1) [(-1)%R] [3%R]) (@along RN (@trial_step RN prm 1) [(-1)%R] [5%R])).
Proof.
  split; [done|]. unfold trial_step, Fv, at_, along. simpl. apply Rleb_true. lra.
Qed.
(** the plain line search: the objective x, stored in fx0 (block 3) when [st_fx0] *)
Definition s1 : @st RN := @state_of RN [full [3%R : @T RN]; full [(-1)%R : @T RN]; fresh 1; full [3%R : @T RN]].
Definition fobj (st_fx0 : bool) (xp : ptr) : @M RN R :=
  bind (@ld RN xp 0) (fun v => bind (if st_fx0 then @sto RN (Ptr 3 0) 0 v else ret tt) (fun _ => ret v)).
Definition Fv1 (_ : nat) (xs : list R) : R := @at_ RN xs 0.
Lemma call_alias : @ls_call RN 1 0 1 2 3 0 (fobj true) [3%nat] (fun _ s => @wok RN s (Ptr 3 0) 1) Fv1 Fv1 s1 [3%R] [(-1)%R] 3%R.
Proof.
  split; try done.
  - repeat constructor; set_solver.
  - intros b Hb. rewrite !elem_of_cons, elem_of_nil in Hb. apply not_elem_of_cons. split; [lia|apply not_elem_of_nil].
  - split.
    + intros k s xs Hw Hx Lx. exists (@wr RN (Ptr 3 0) [@at_ RN xs 0] s). split; [|split; [|split]].
      * unfold fobj. rewrite (bind_ok _ _ _ (@at_ RN xs 0) s).
        2:{ apply (@seg_ld RN s _ xs 0 Hx). rewrite Lx. lia. }
        rewrite (bind_ok _ _ _ tt (@wr RN (Ptr 3 0) [@at_ RN xs 0] s)); [done|].
        rewrite (@sto_wok RN _ _ 1) by (done || lia). by rewrite padd_0.
      * apply touch_wr. isin.
      * by apply wok_wr.
      * apply seg1_cell. by apply seg_wr.
    + intros k W s s' Hw Ht _. by apply (touch_wok _ _ _ _ _ Ht).
  - eapply (@state_of_wok RN); try done; simpl; lia.
  - apply (@state_of_seg RN); done.
  - apply (@state_of_seg RN); done.
  - eapply (@state_of_wok RN); try done; simpl; lia.
  - apply (@state_of_seg RN); done.
Qed.
Lemma call_plain : @ls_call RN 1 0 1 2 3 0 (fobj false) [3%nat] (fun _ s => cell s (Ptr 3 0) 0 = Some (Some 3%R)) Fv1 (fun _ _ => 3%R) s1 [3%R] [(-1)%R] 3%R.
Proof.
  split; try done.
  - repeat constructor; set_solver.
  - intros b Hb. rewrite !elem_of_cons, elem_of_nil in Hb. apply not_elem_of_cons. split; [lia|apply not_elem_of_nil].
  - split.
    + intros k s xs Hw Hx Lx. exists s. split; [|split; [apply touch_refl|done]].
      unfold fobj. rewrite (bind_ok _ _ _ (@at_ RN xs 0) s); [done|].
      apply (@seg_ld RN s _ xs 0 Hx). rewrite Lx. lia.
    + intros k W s s' Hw Ht HW. rewrite (touch_cell W s s'); [done|done|]. intros H. apply (HW 3%nat H). isin.
  - apply (@state_of_seg RN); done.
  - apply (@state_of_seg RN); done.
  - eapply (@state_of_wok RN); try done; simpl; lia.
  - apply (@state_of_seg RN); done.
Qed.
End LsEx.

Print Assumptions C24_linesearch_xu.
Print Assumptions C25_linesearch_xu.
Print Assumptions C24_linesearch.
Print Assumptions C25_linesearch.
Print Assumptions C26_plain_alias_always_fails.
Print Assumptions C26_xu_alias_safe.
Print Assumptions C26_plain_alias_refuted.
