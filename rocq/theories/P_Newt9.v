(** * The pieces of the log-barrier solver in a given memory layout. *)
From Coq Require Import ZArith Lia Reals Lra Psatz.
From stdpp Require Import base numbers gmap list.
From Verif Require Import Mem M_Math M_CG M_LineSearch M_Status M_Newton P_Mem P_Loop P_Math P_MathR P_TVR S_Mem P_Touch P_Own P_Own2 P_CG P_LineSearch
  P_Newton P_Newt2 P_Newt3 P_Newt4 P_Newt5 P_Newt7 P_Newt8 L_Sum S_Vec L_Lin L_ER P_CGR S_Newt P_NewtX P_NewtX2 P_NewtX3 L_Barrier P_NewtR E_Sub.
Local Open Scope Z_scope.

Section runs.
Context `{N : Num}.
Context (m n : nat) (A B C : list T -> list T) (Ax Aty AtAx : ptr -> ptr -> M unit).
Context (F : list nat) (J : nat -> st -> Prop) (HO : opers F J Ax Aty AtAx m n A B C).
Context (P : Prob) (bs : list T) (params : L1qcOpts).
Context (sc bx bu bb br b1 b2 bw bd be s1 s2 bg bf dw d0 d1 d2 d3 d4 d5 d6 : nat).
Context (EP : P = mkProb (Ptr sc 0) (Z.of_nat m) (Z.of_nat n) (Ptr bb 0) (lo_epsilon params)
   (Ptr br 0) (Ptr b1 0) (Ptr b2 0) (Ptr bw 0) (Ptr bd 0) (Ptr be 0) (Ptr s1 0) (Ptr s2 0) (Ptr bg 0) (Ptr bf 0) (Ptr dw 0) Ax Aty AtAx).
Context (Hd : NoDup (allb sc bx bu bb br b1 b2 bw bd be s1 s2 bg bf d0 d1 d2 d3 d4 d5 d6)).
Context (HF : forall b, b ∈ allb sc bx bu bb br b1 b2 bw bd be s1 s2 bg bf d0 d1 d2 d3 d4 d5 d6 -> b ∉ F).
Context (Hnm : (n <= m)%nat) (Hmax : 2 * Z.of_nat m + 1 <= INT_MAX) (Lb : length bs = n).
Notation lay := (lay m n J bs sc bx bu bb br b1 b2 bw bd be s1 s2 bg bf dw d0 d1 d2 d3 d4 d5 d6).
Notation evald := (evald m n A bs params sc br b1 b2).

Lemma ws_eval c tau xs us dx du s : lay c tau xs us dx du s ->
  exists s', f_eval P (Ptr bx 0) (Ptr bu 0) s = Ok (n_fval m n A bs (lo_epsilon params) tau xs us) s' /\ lay c tau xs us dx du s' /\ evald tau xs us s'.
Proof.
  intros Hl. assert (HFF := HF). assert (Hdd := Hd). unfold allb in HFF, Hdd. distinct Hdd. clear Hdd.
  destruct (y_sc _ _ _ _ _ _ _ _ _ _ _ _ _ _ _ _ _ _ _ _ _ _ _ _ _ _ _ _ _ _ _ _ _ Hl) as (v1 & v2 & Hsc).
  destruct (f_eval_run m n A B C Ax Aty AtAx F J HO P bs (lo_epsilon params) sc bx bu bb br b1 b2 bw bd be s1 s2 bg bf dw EP c s xs us tau v1 v2)
    as (s' & E & Ht & HJ & S1 & S2 & S3 & S4); try (by apply Hl); try done.
  - clear - Hd. unfold allb in Hd. distinct Hd. clear Hd. repeat (apply NoDup_cons; split; [notin|]). apply NoDup_nil_2.
  - intros b Hb. apply HFF. sub1 Hb.
  - eapply y_w; [exact Hl|isin].
  - eapply y_w; [exact Hl|isin].
  - intros b Hb. eapply y_al; [exact Hl|]. sub1 Hb.
  - exists s'. split; [done|]. split; [|done].
    assert (HN : forall b, b ∈ [bx; bu; bb; bd; be] -> b ∉ [sc; br; b1; b2] ++ F).
    { intros b Hb. apply not_elem_of_app. split; [|apply HFF; sub1 Hb].
      repeat (apply elem_of_cons in Hb as [->|Hb]; [notin|]). by apply elem_of_nil in Hb. }
    eapply lay_touch; [exact Hl|exact Ht|exact HJ| | | | | | | | | |].
    all: try (eapply (touch_seg _ _ _ _ _ _ Ht); [apply HN; isin|apply Hl]).
    all: try apply Hl. eauto.
Qed.
Lemma ws_dir prm c tau xs us dx du s : cgp_max_iter prm < INT_MAX -> lay c tau xs us dx du s -> evald tau xs us s ->
  let fe := n_fe n A bs (lo_epsilon params) xs in let rs := n_res n A bs xs in let f1 := n_f1 m xs us in let f2 := n_f2 m xs us in
  exists s', descent_dir P prm s =
      Ok (if n_cgfail m B C prm tau fe rs f1 f2 dx then L1C_CGSOLVE_FAILURE else 0, n_cg m B C prm tau fe rs f1 f2 dx) s' /\
    seg s' (Ptr bd 0) (n_dx m B C prm tau fe rs f1 f2 dx) /\
    seg s' (Ptr be 0) (n_dudir m B C prm tau fe rs f1 f2 dx du) /\
    seg s' (Ptr bf 0) (tab m (h_g1 tau fe f1 f2 (B rs))) /\ seg s' (Ptr bf (Z.of_nat m)) (tab m (h_g2 tau f1 f2)).
Proof.
  intros Hp Hl (S1 & S2 & S3 & S4) fe rs f1 f2. assert (HFF := HF). unfold allb in HFF.
  destruct (descent_dir_run m n A B C Ax Aty AtAx F J HO P (lo_epsilon params) sc bb br b1 b2 bw bd be s1 s2 bg bf dw d0 d1 d2 d3 d4 d5 d6 EP
    c s prm tau fe (n_fval m n A bs (lo_epsilon params) tau xs us) rs f1 f2 dx du) as (s' & E & _ & _ & Q1 & Q2 & Q3 & Q4).
  - clear - Hd. unfold allb in Hd. distinct Hd. clear Hd. repeat (apply NoDup_cons; split; [notin|]). apply NoDup_nil_2.
  - intros b Hb. apply HFF. sub1 Hb.
  - lia.
  - done.
  - apply Hl.
  - done.
  - done.
  - done.
  - done.
  - apply Hl.
  - apply Hl.
  - unfold rs, n_res. len.
  - unfold f1, n_f1. len.
  - unfold f2, n_f2. len.
  - apply Hl.
  - apply Hl.
  - apply Hl.
  - intros b Hb. eapply y_w; [exact Hl|]. sub1 Hb.
  - intros b Hb. eapply y_al; [exact Hl|]. sub1 Hb.
  - apply Hl.
  - exists s'. done.
Qed.
Lemma ws_max c tau xs us dx du s : lay c tau xs us dx du s -> evald tau xs us s ->
  exists s', find_max_step P s = Ok (n_maxstep m n A (lo_epsilon params) (n_res n A bs xs) (n_f1 m xs us) (n_f2 m xs us) dx du) s'.
Proof.
  intros Hl (S1 & S2 & S3 & S4). assert (HFF := HF). unfold allb in HFF.
  destruct (find_max_step_run m n A B C Ax Aty AtAx F J HO P (lo_epsilon params) sc bb br b1 b2 bw bd be s1 s2 bg bf dw d0 d1 d2 d3 d4 d5 d6 EP
    c s (n_res n A bs xs) (n_f1 m xs us) (n_f2 m xs us) dx du) as (s' & E & _).
  - clear - Hd. unfold allb in Hd. distinct Hd. clear Hd. repeat (apply NoDup_cons; split; [notin|]). apply NoDup_nil_2.
  - intros b Hb. apply HFF. sub1 Hb.
  - apply Hl.
  - done.
  - done.
  - done.
  - apply Hl.
  - apply Hl.
  - unfold n_res. len.
  - unfold n_f1. len.
  - unfold n_f2. len.
  - apply Hl.
  - apply Hl.
  - eapply wok_le; [eapply y_w; [exact Hl|isin]|lia].
  - eapply y_al; [exact Hl|isin].
  - eapply y_al; [exact Hl|isin].
  - apply Hl.
  - by exists s'.
Qed.
End runs.

Section warm.
Context `{N : Num}.
(** l1qc_newton.c:504-508: what happens to dx before the CG solve *)
Definition warm_dx (P : Prob) (params : L1qcOpts) (step : T) : M unit :=
  if lo_warm_start_cg params =? 0 then cblas_dscal (pb_m P) zero (pb_dx P) 1
  else if lo_warm_start_cg params =? 2 then cblas_dscal (pb_m P) step (pb_dx P) 1
  else ret tt.
Context (m n : nat) (A B C : list T -> list T) (Ax Aty AtAx : ptr -> ptr -> M unit).
Context (F : list nat) (J : nat -> st -> Prop) (HO : opers F J Ax Aty AtAx m n A B C).
Context (P : Prob) (bs : list T) (params : L1qcOpts).
Context (sc bx bu bb br b1 b2 bw bd be s1 s2 bg bf dw d0 d1 d2 d3 d4 d5 d6 : nat).
Context (EP : P = mkProb (Ptr sc 0) (Z.of_nat m) (Z.of_nat n) (Ptr bb 0) (lo_epsilon params)
   (Ptr br 0) (Ptr b1 0) (Ptr b2 0) (Ptr bw 0) (Ptr bd 0) (Ptr be 0) (Ptr s1 0) (Ptr s2 0) (Ptr bg 0) (Ptr bf 0) (Ptr dw 0) Ax Aty AtAx).
Context (Hd : NoDup (allb sc bx bu bb br b1 b2 bw bd be s1 s2 bg bf d0 d1 d2 d3 d4 d5 d6)).
Context (HF : forall b, b ∈ allb sc bx bu bb br b1 b2 bw bd be s1 s2 bg bf d0 d1 d2 d3 d4 d5 d6 -> b ∉ F).
Notation lay := (lay m n J bs sc bx bu bb br b1 b2 bw bd be s1 s2 bg bf dw d0 d1 d2 d3 d4 d5 d6).
Notation evald := (evald m n A bs params sc br b1 b2).
Lemma ws_warm c tau v s : lay c tau (nx_ v) (nu_ v) (ndx_ v) (ndu_ v) s -> evald tau (nx_ v) (nu_ v) s ->
  exists s', warm_dx P params (nstep_ v) s = Ok tt s' /\ lay c tau (nx_ v) (nu_ v) (i_dx0 m params v) (ndu_ v) s' /\ evald tau (nx_ v) (nu_ v) s'.
Proof.
  intros Hl He. assert (Q0 : exists t0, warm_dx P params (nstep_ v) s = Ok tt t0 /\
     touch [bd] s t0 /\ seg t0 (Ptr bd 0) (i_dx0 m params v)).
  { rewrite EP. unfold warm_dx. cbn [pb_m pb_dx]. unfold i_dx0.
    assert (S : seg s (Ptr bd 0) (ndx_ v)) by (eapply y_dx; exact Hl). assert (L : length (ndx_ v) = m) by (eapply y_ldx; exact Hl).
    destruct (lo_warm_start_cg params =? 0); [|destruct (lo_warm_start_cg params =? 2)].
    - eexists. split; [by apply dscal_run|]. split; [apply touch_wr; isin|]. apply seg_wr. woklen.
    - eexists. split; [by apply dscal_run|]. split; [apply touch_wr; isin|]. apply seg_wr. woklen.
    - exists s. split; [done|]. split; [apply touch_refl|done]. }
  destruct Q0 as (s' & E & Ht & S0). exists s'. split; [done|]. unfold allb in Hd. distinct Hd.
  destruct He as (S1 & S2 & S3 & S4). destruct (y_sc _ _ _ _ _ _ _ _ _ _ _ _ _ _ _ _ _ _ _ _ _ _ _ _ _ _ _ _ _ _ _ _ _ Hl) as (v1 & v2 & Hsc). split.
  - eapply lay_touch; [exact Hl|exact Ht| | | | | | | | | | |].
    + apply (op_J _ _ _ _ _ _ (os_ax _ _ _ _ _ _ _ _ _ _ HO c) [bd] s); [apply Hl|done|]. intros b ->%elem_of_list_singleton. apply HF. unfold allb. isin.
    + apply (touch_seg _ _ _ _ _ _ Ht); [notin|apply Hl].
    + apply (touch_seg _ _ _ _ _ _ Ht); [notin|apply Hl].
    + done.
    + apply (touch_seg _ _ _ _ _ _ Ht); [notin|apply Hl].
    + apply (touch_seg _ _ _ _ _ _ Ht); [notin|apply Hl].
    + apply Hl.
    + apply Hl.
    + apply i_dx0_len. apply Hl.
    + apply Hl.
    + exists v1, v2. apply (touch_seg _ _ _ _ _ _ Ht); [notin|done].
  - split_and!; apply (touch_seg _ _ _ _ _ _ Ht); first [notin|done].
Qed.
End warm.
