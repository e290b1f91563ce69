(** * The Newton loop and the log-barrier loop. *)
From Coq Require Import ZArith Lia.
From stdpp Require Import base numbers gmap list.
From Verif Require Import P_Loop P_Math P_VCL P_Step P_Own P_CG P_LineSearch M_Math M_CG M_LineSearch M_Status M_Newton P_Newton P_Newt2 P_Newt3 P_Newt4.
Local Open Scope Z_scope.

Section runs.
Context `{N : Num}.
Context (m n : nat) (A B C : list T -> list T) (Ax Aty AtAx : ptr -> ptr -> M unit).
Context (F : list nat) (J : nat -> st -> Prop) (HO : opers F J Ax Aty AtAx m n A B C).
Context (P : Prob) (bs : list T) (params : L1qcOpts).
Notation eps := (lo_epsilon params).
Context (sc bx bu bb br b1 b2 bw bd be s1 s2 bg bf dw d0 d1 d2 d3 d4 d5 d6 : nat).
Context (EP : P = mkProb (Ptr sc 0) (Z.of_nat m) (Z.of_nat n) (Ptr bb 0) eps
   (Ptr br 0) (Ptr b1 0) (Ptr b2 0) (Ptr bw 0) (Ptr bd 0) (Ptr be 0) (Ptr s1 0) (Ptr s2 0) (Ptr bg 0) (Ptr bf 0) (Ptr dw 0)
   Ax Aty AtAx).
Notation rows := (rows d0 d1 d2 d3 d4 d5 d6).
Notation allb := (allb sc bx bu bb br b1 b2 bw bd be s1 s2 bg bf d0 d1 d2 d3 d4 d5 d6).
Notation WN := (WN F sc bx bu br b1 b2 bw bd be s1 s2 bg bf d0 d1 d2 d3 d4 d5 d6).
Notation lay := (lay m n J bs sc bx bu bb br b1 b2 bw bd be s1 s2 bg bf dw d0 d1 d2 d3 d4 d5 d6).
Notation evald := (evald m n A bs params sc br b1 b2).
Context (Hd : NoDup allb) (HF : forall b, b ∈ allb -> b ∉ F).
Context (Hnm : (n <= m)%nat) (Hmax : 2 * Z.of_nat m + 1 <= INT_MAX) (Hcg : lo_cg_maxiter params < INT_MAX) (Lb : length bs = n).

Notation n_iter := (n_iter m n A B C bs params).
Notation n_loop := (n_loop m n A B C bs params).
Notation n_stage := (n_stage m n A B C bs params).
Notation n_lb := (n_lb m n A B C bs params).
Notation cgm := (cgm params).
Notation n_fuel := (n_fuel params).

Lemma newton_loop_run fuel i c s tau v :
  lay c tau (nx_ v) (nu_ v) (ndx_ v) (ndu_ v) s -> evald tau (nx_ v) (nu_ v) s ->
  Z.abs (ncg_ v) + Z.of_nat fuel * cgm <= INT_MAX ->
  exists s', let '(b, k, w) := n_loop tau fuel v in
    brkn fuel i (nl1_ v, nstep_ v, ncg_ v) (fun _ => newton_iter P (Ptr bx 0) (Ptr bu 0) params) s =
      Ok (if b then i + Z.of_nat k - 1 else i + Z.of_nat k, (nl1_ w, nstep_ w, ncg_ w)) s' /\
    lay (c + k) tau (nx_ w) (nu_ w) (ndx_ w) (ndu_ w) s' /\ touch WN s s'.
Proof.
  revert i c s v. induction fuel as [|f IH]; intros i c s v Hl He Hb.
  - exists s. cbn [P_Newt3.n_loop brkn]. rewrite Z.add_0_r, Nat.add_0_r. split; [done|]. split; [done|apply touch_refl].
  - pose proof (cgiter_bound m n A B C bs params tau v) as Hc.
    assert (0 <= cgm) by (unfold P_Newt3.cgm; lia). assert (0 <= Z.of_nat f * cgm) by (apply Z.mul_nonneg_nonneg; lia).
    destruct (newton_iter_run m n A B C Ax Aty AtAx F J HO P bs params sc bx bu bb br b1 b2 bw bd be s1 s2 bg bf dw d0 d1 d2 d3 d4 d5 d6 EP Hd HF Hnm Hmax Hcg Lb c s tau v Hl He)
      as (s1' & E & HH). { unfold INT_MIN, INT_MAX in *. lia. }
    cbn [P_Newt3.n_loop brkn]. rewrite (bind_ok _ _ _ _ _ E). clear E.
    pose proof (n_iter_cg m n A B C bs params tau v) as Hcw.
    destruct (n_iter tau v) as [b w]. destruct HH as (Hl1 & He1 & T1). cbn [snd] in Hcw.
    destruct b.
    + exists s1'. split; [f_equal; f_equal; lia|]. split; [|done]. by replace (c + 1)%nat with (S c) by lia.
    + destruct (IH (i + 1) (S c) s1' w Hl1 (He1 eq_refl)) as (s2' & HI). { lia. }
      destruct (n_loop tau f w) as [[b k] w']. destruct HI as (E & Hl2 & T2).
      exists s2'. split; [rewrite E; f_equal; f_equal; destruct b; lia|].
      split; [by replace (c + S k)%nat with (S c + k)%nat by lia|]. eapply touch_trans; eassumption.
Qed.

(** the memory between two log-barrier iterations *)
Definition blay (l : lst) (s : st) : Prop := exists dx, lay (lcalls_ l) (ltau_ l) (lx_ l) (lu_ l) dx (ldu_ l) s.
Lemma lb_iter_run s l :
  blay l s -> Z.abs (lcg_ l) + Z.of_nat n_fuel * cgm <= INT_MAX ->
  0 <= ltn_ l -> ltn_ l + Z.of_nat n_fuel + 1 <= INT_MAX ->
  exists s', lb_iter P (Ptr bx 0) (Ptr bu 0) params (ltau_ l, lstep_ l, ltn_ l, lcg_ l) s =
     Ok (let w := n_stage l in (ltau_ w, lstep_ w, ltn_ w, lcg_ w)) s' /\ blay (n_stage l) s' /\ touch WN s s'.
Proof.
  intros (dx & Hl) Hb H0 Htn. destruct l as [xs us du tau step tn tcg c]. cbn [lx_ lu_ ldu_ ltau_ lstep_ ltn_ lcg_ lcalls_] in *.
  set (l := mkL xs us du tau step tn tcg c) in *.
  assert (HFF := HF). unfold P_Newt3.allb in HFF. assert (Hdd := Hd). unfold P_Newt3.allb in Hdd. distinct Hdd. clear Hdd.
  assert (Fs : sc ∉ F) by (apply HFF; isin). assert (Fx : bx ∉ F) by (apply HFF; isin). assert (Fu : bu ∉ F) by (apply HFF; isin).
  assert (Fb : bb ∉ F) by (apply HFF; isin). assert (Fr : br ∉ F) by (apply HFF; isin). assert (F1 : b1 ∉ F) by (apply HFF; isin).
  assert (F2 : b2 ∉ F) by (apply HFF; isin). assert (Fd : bd ∉ F) by (apply HFF; isin). assert (Fe : be ∉ F) by (apply HFF; isin).
  assert (HJop : forall c' W t t', J c' t -> touch W t t' -> (forall b, b ∈ W -> b ∉ F) -> J c' t').
  { intros c' W t t' H1 H2 H3. by apply (op_J _ _ _ _ _ _ (os_ax _ _ _ _ _ _ _ _ _ _ HO c') W t). }
  unfold lb_iter. rewrite EP. cbn [pb_m pb_dx pb_sc]. rewrite <- EP.
  (* dx := 0 *)
  assert (AL : is_aligned s (Ptr bd 0) = true) by (eapply y_al; [exact Hl|isin]).
  assert (Wd : wok s (Ptr bd 0) m). { assert (S : seg s (Ptr bd 0) dx) by apply Hl. assert (L : length dx = m) by apply Hl. wokt. }
  rewrite (bind_ok _ _ _ _ _ (init_vec_run s m (Ptr bd 0) zero AL Wd)).
  set (t1 := wr (Ptr bd 0) (const_of m zero) s).
  assert (T1 : touch [bd] s t1) by (unfold t1; apply touch_wr; isin).
  assert (l1 : lay c tau xs us (const_of m zero) du t1).
  { eapply lay_touch; [exact Hl|exact T1|..]; try (apply (touch_seg _ _ _ _ _ _ T1); [notin|apply Hl]); try apply Hl.
    - apply (HJop c [bd] s); [apply Hl|done|avoid].
    - unfold t1. apply seg_wr. woklen.
    - len.
    - destruct Hl as [? ? ? ? ? ? ? ? ? ? (v1 & v2 & S)]. exists v1, v2. apply (touch_seg _ _ _ _ _ _ T1); [notin|done]. }
  assert (TT : touch WN s t1) by (eapply touch_weaken; [exact T1|]; unfold P_Newt3.WN; intros b Hb'; sub1 Hb').
  clearbody t1. clear T1 AL Wd Hl.
  (* first evaluation *)
  assert (S : exists v1 v2, seg t1 (Ptr sc 0) [tau; v1; v2]) by apply l1. destruct S as (v1 & v2 & Ssc).
  destruct (f_eval_run m n A B C Ax Aty AtAx F J HO P bs eps sc bx bu bb br b1 b2 bw bd be s1 s2 bg bf dw EP
      c t1 xs us tau v1 v2) as (t2 & E & T2 & HJ2 & S1 & S2 & S3 & S4); try assumption; try apply l1; try isin.
  { repeat (apply NoDup_cons; split; [notin|]). apply NoDup_nil; done. }
  { intros b Hb'. apply HFF. sub1 Hb'. }
  { intros b Hb'. eapply y_al; [exact l1|]. sub1 Hb'. }
  rewrite (bind_ok _ _ _ _ _ E). clear E.
  assert (l2 : lay c tau xs us (const_of m zero) du t2).
  { eapply lay_touch; [exact l1|exact T2|exact HJ2|..]; try (apply (touch_seg _ _ _ _ _ _ T2); [notin|apply l1]); try apply l1.
    eauto. }
  assert (T2' : touch WN t1 t2) by (eapply touch_weaken; [exact T2|]; unfold P_Newt3.WN; intros b Hb'; sub1 Hb').
  pose proof (touch_trans _ _ _ _ TT T2') as TT2. clear TT T2' T2 HJ2 l1 Ssc.
  (* the loop *)
  set (v := n_start m l).
  destruct (newton_loop_run n_fuel 1 c t2 tau v) as (t3 & H3); [exact l2|by repeat split|exact Hb|].
  unfold for_brk. fold n_fuel.
  unfold P_Newt3.n_stage. change (n_start m l) with v. change (ltau_ l) with tau.
  pose proof (n_loop_len m n A B C bs params tau n_fuel v) as NL. pose proof (n_loop_k m n A B C bs params tau n_fuel v) as NK.
  change (pinf, step, tcg) with (nl1_ v, nstep_ v, ncg_ v).
  destruct (n_loop tau n_fuel v) as [[b k] w]. destruct H3 as (E & l3 & T3).
  specialize (NK _ _ _ eq_refl). destruct NK as (K1 & K2 & K3).
  rewrite (bind_ok _ _ _ _ _ E). clear E. cbn [lx_ lu_ ldu_ ltau_ lstep_ ltn_ lcg_ lcalls_ l].
  set (it := if b then Z.of_nat k else Z.of_nat k + 1).
  replace (if b then 1 + Z.of_nat k - 1 else 1 + Z.of_nat k) with it by (unfold it; destruct b; lia).
  rewrite (bind_ok _ _ _ (tn + it) t3) by (apply i32_ok; unfold it, INT_MIN, INT_MAX in *; destruct b; lia).
  pose proof (touch_trans _ _ _ _ TT2 T3) as TT3. clear TT2 T3.
  (* tau *)
  assert (S : exists v1 v2, seg t3 (Ptr sc 0) [tau; v1; v2]) by apply l3. destruct S as (w1 & w2 & Ssc).
  pose proof (sto_seg t3 (Ptr sc 0) _ 0 (mul tau (lo_mu params)) Ssc ltac:(simpl; lia)) as E. change (Z.of_nat 0) with 0 in E.
  change (<[0%nat:=mul tau (lo_mu params)]> [tau; w1; w2]) with [mul tau (lo_mu params); w1; w2] in E.
  rewrite (bind_ok _ _ _ _ _ E). clear E.
  set (t4 := wr (Ptr sc 0) [mul tau (lo_mu params); w1; w2] t3).
  assert (T4 : touch [sc] t3 t4) by (unfold t4; apply touch_wr; isin).
  exists t4. split; [done|]. split.
  - exists (ndx_ w). cbn [lx_ lu_ ldu_ ltau_ lstep_ ltn_ lcg_ lcalls_].
    eapply lay_touch; [exact l3|exact T4|..]; try (apply (touch_seg _ _ _ _ _ _ T4); [notin|apply l3]); try apply l3.
    + apply (HJop (c + k)%nat [sc] t3); [apply l3|done|avoid].
    + exists w1, w2. unfold t4. apply seg_wr. apply (seg_wok _ _ _ Ssc).
  - eapply touch_trans; [exact TT3|]. eapply touch_weaken; [exact T4|]. unfold P_Newt3.WN. intros b' Hb'. sub1 Hb'.
Qed.

(** all the log-barrier iterations *)
Lemma lb_bounds k l : 0 <= ltn_ l ->
  Z.abs (lcg_ (n_lb k l) - lcg_ l) <= Z.of_nat k * (Z.of_nat n_fuel * cgm) /\
  ltn_ l <= ltn_ (n_lb k l) <= ltn_ l + Z.of_nat k * (Z.of_nat n_fuel + 1).
Proof.
  intros H0. induction k as [|k [I1 I2]]; cbn [P_Newt3.n_lb]; [lia|].
  set (q := n_lb k l) in *. unfold P_Newt3.n_stage.
  pose proof (n_loop_cg m n A B C bs params (ltau_ q) n_fuel (n_start m q)) as Q1.
  pose proof (n_loop_k m n A B C bs params (ltau_ q) n_fuel (n_start m q)) as Q2.
  destruct (n_loop (ltau_ q) n_fuel (n_start m q)) as [[b j] w]. cbn [lcg_ ltn_].
  specialize (Q1 _ _ _ eq_refl). specialize (Q2 _ _ _ eq_refl). cbn [n_start ncg_] in Q1. destruct Q2 as (Q2 & _).
  assert (0 <= cgm) by (unfold P_Newt3.cgm; lia).
  assert (Z.of_nat j * cgm <= Z.of_nat n_fuel * cgm) by (apply Z.mul_le_mono_nonneg_r; lia).
  rewrite Nat2Z.inj_succ, !Z.mul_succ_l. destruct b; split; lia.
Qed.
Lemma lb_loop_run k s l :
  blay l s -> lcg_ l = 0 -> ltn_ l = 0 -> Z.of_nat k * (Z.of_nat n_fuel * cgm) <= INT_MAX -> Z.of_nat k * (Z.of_nat n_fuel + 1) <= INT_MAX ->
  exists s', for_acc 1 (Z.of_nat k + 1) (ltau_ l, lstep_ l, ltn_ l, lcg_ l) (fun _ => lb_iter P (Ptr bx 0) (Ptr bu 0) params) s =
     Ok (let w := n_lb k l in (ltau_ w, lstep_ w, ltn_ w, lcg_ w)) s' /\ blay (n_lb k l) s' /\ touch WN s s'.
Proof.
  intros Hl E1 E2 H1 H2. unfold for_acc. replace (Z.to_nat (Z.of_nat k + 1 - 1)) with k by lia.
  destruct (accn_rel (fun i a t => (let w := n_lb i l in a = (ltau_ w, lstep_ w, ltn_ w, lcg_ w)) /\ blay (n_lb i l) t /\ touch WN s t)
    k 1 (ltau_ l, lstep_ l, ltn_ l, lcg_ l) (fun _ => lb_iter P (Ptr bx 0) (Ptr bu 0) params) s) as (a & s' & E & Ha & HI).
  { split; [done|]. split; [done|apply touch_refl]. }
  2:{ exists s'. cbn zeta in Ha. subst a. auto. }
  intros i a t Hi (-> & Hb & Tt).
  destruct (lb_bounds i l ltac:(lia)) as [B1 B2].
  assert (0 <= cgm) by (unfold P_Newt3.cgm; lia).
  assert (0 <= Z.of_nat n_fuel * cgm) by (apply Z.mul_nonneg_nonneg; lia).
  assert (Z.of_nat (S i) * (Z.of_nat n_fuel * cgm) <= Z.of_nat k * (Z.of_nat n_fuel * cgm)) by (apply Z.mul_le_mono_nonneg_r; lia).
  assert (Z.of_nat (S i) * (Z.of_nat n_fuel + 1) <= Z.of_nat k * (Z.of_nat n_fuel + 1)) by (apply Z.mul_le_mono_nonneg_r; lia).
  rewrite Nat2Z.inj_succ, Z.mul_succ_l in *.
  destruct (lb_iter_run t (n_lb i l) Hb) as (t' & E & Hb' & T'); [lia|lia|lia|].
  eexists _, t'. split; [exact E|]. cbn [P_Newt3.n_lb]. split; [done|]. split; [done|]. eapply touch_trans; eassumption.
Qed.
End runs.
