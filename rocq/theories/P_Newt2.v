(** * Running one Newton iteration. *)
From Coq Require Import ZArith Lia.
From stdpp Require Import base numbers gmap list.
From Verif Require Import P_Loop P_Math P_VCL P_Step P_Own P_CG P_LineSearch M_Math M_CG M_LineSearch M_Status M_Newton P_Newton.
Local Open Scope Z_scope.

Section init.
Context `{N : Num}.
Implicit Types (s : st).
(** tau and lbiter after initialisation; None: the conversion to int is undefined *)
Definition n_init (m : nat) (xs : list T) (params : L1qcOpts) : option (T * Z) :=
  if lo_lbiter params =? 0
  then match n_stages m xs (lo_lbtol params) (lo_mu params) with Some k => Some (n_tau0 m xs, k) | None => None end
  else Some (n_tau0 m xs, lo_lbiter params).
Lemma newton_init_run s m bx bu xs params :
  bx <> bu -> 2 * Z.of_nat m + 1 <= INT_MAX ->
  seg s (Ptr bx 0) xs -> length xs = m -> wok s (Ptr bu 0) m ->
  newton_init (Z.of_nat m) (Ptr bx 0) (Ptr bu 0) params s =
  match n_init m xs params with Some r => Ok r (wr (Ptr bu 0) (n_u0 m xs) s) | None => Ub UbCast end.
Proof.
  intros Hne Hmax Hx Lx Wu. unfold newton_init.
  rewrite (bind_ok _ _ _ (n_xmax m xs) s).
  2:{ apply for_acc_fold. intros i a Hi. by rewrite (bind_ok _ _ _ _ _ (seg_ld s _ _ i Hx ltac:(lia))). }
  rewrite (bind_ok _ _ _ tt (wr (Ptr bu 0) (n_u0 m xs) s)).
  2:{ apply (for_elem m (Ptr bu 0) [] [(Ptr bx 0, xs)]).
      - intros q zs Hq. apply elem_of_cons in Hq as [[= -> ->]|Hq]; [|by apply elem_of_nil in Hq].
        split; [done|]. right. split; [done|]. apply disj_blocks. done.
      - apply seg_nil.
      - done.
      - intros s0 i Hi Hs. by rewrite (bind_ok _ _ _ _ _ (Hs (Ptr bx 0) xs ltac:(isin))). }
  set (t := wr _ _ s).
  assert (Hx' : seg t (Ptr bx 0) xs).
  { apply (touch_seg [bu] s); [unfold t; apply touch_wr; isin| |done]. apply not_elem_of_cons. split; [done|apply not_elem_of_nil]. }
  rewrite (bind_ok _ _ _ (asum_of m xs) t).
  2:{ unfold l1c_dnorm1. apply dasum_run; [done|lia]. }
  rewrite (bind_ok _ _ _ (2 * Z.of_nat m + 1) t) by (apply i32_ok; unfold INT_MIN; lia).
  unfold n_init, n_stages. fold (n_tau0 m xs).
  destruct (lo_lbiter params =? 0); [|done].
  unfold cast_int. destruct (toint _); done.
Qed.
End init.

Section runs.
Context `{N : Num}.
Context (m n : nat) (A B C : list T -> list T) (Ax Aty AtAx : ptr -> ptr -> M unit).
Context (F : list nat) (J : nat -> st -> Prop) (HO : opers F J Ax Aty AtAx m n A B C).
Context (P : Prob) (bs : list T) (eps : T).
Context (sc bx bu bb br b1 b2 bw bd be s1 s2 bg bf dw d0 d1 d2 d3 d4 d5 d6 : nat).
Context (EP : P = mkProb (Ptr sc 0) (Z.of_nat m) (Z.of_nat n) (Ptr bb 0) eps
   (Ptr br 0) (Ptr b1 0) (Ptr b2 0) (Ptr bw 0) (Ptr bd 0) (Ptr be 0) (Ptr s1 0) (Ptr s2 0) (Ptr bg 0) (Ptr bf 0) (Ptr dw 0)
   Ax Aty AtAx).
Notation rows := (rows d0 d1 d2 d3 d4 d5 d6).

Lemma find_max_step_run c s rs f1 f2 dx du :
  NoDup [br; b1; b2; bd; be; d0] -> (forall b, b ∈ [br; b1; b2; bd; be; d0] -> b ∉ F) ->
  J c s -> seg s (Ptr br 0) rs -> seg s (Ptr b1 0) f1 -> seg s (Ptr b2 0) f2 -> seg s (Ptr bd 0) dx -> seg s (Ptr be 0) du ->
  length rs = n -> length f1 = m -> length f2 = m -> length dx = m -> length du = m ->
  wok s (Ptr d0 0) n -> is_aligned s (Ptr bd 0) = true -> is_aligned s (Ptr d0 0) = true ->
  pm s !! dw = Some rows ->
  exists s', find_max_step P s = Ok (n_maxstep m n A eps rs f1 f2 dx du) s' /\ touch ([d0] ++ F) s s' /\ J c s'.
Proof.
  intros Hd HF HJ Hr H1 H2 Hx Hu Lr L1 L2 Lx Lu Wd Ad A0 Hpm. distinct Hd.
  assert (Fr : br ∉ F) by (apply HF; isin). assert (F1 : b1 ∉ F) by (apply HF; isin). assert (F2 : b2 ∉ F) by (apply HF; isin).
  assert (Fd : bd ∉ F) by (apply HF; isin). assert (Fe : be ∉ F) by (apply HF; isin). assert (Fd0 : d0 ∉ F) by (apply HF; isin).
  clear HF Hd.
  assert (TT : touch ([d0] ++ F) s s) by apply touch_refl.
  pose proof (os_ax _ _ _ _ _ _ _ _ _ _ HO c) as HA.
  rewrite EP. unfold find_max_step. cbn [pb_sc pb_m pb_n pb_b pb_epsilon pb_r pb_fu1 pb_fu2 pb_Ax pb_dx pb_du pb_DWORK7].
  rewrite (bind_ok _ _ _ (Ptr d0 0) s) by (by apply (ldp_ok s dw rows 0)).
  ostep HA (Ptr bd 0) (Ptr d0 0) Lx Had HJ t.
  rewrite (bind_ok _ _ _ _ _ (ddot_run t n _ _ _ _ Had Had ltac:(lia) ltac:(lia))).
  rewrite (bind_ok _ _ _ _ _ (ddot_run t n _ _ _ _ Hr Had ltac:(lia) ltac:(lia))).
  rewrite (bind_ok _ _ _ _ _ (ddot_run t n _ _ _ _ Hr Hr ltac:(lia) ltac:(lia))).
  rewrite (bind_ok _ _ _ (n_minstep m f1 (fun i => sub (at_ dx i) (at_ du i))) t).
  2:{ apply for_acc_fold. intros i a Hi.
      rewrite (bind_ok _ _ _ _ _ (seg_ld t _ _ i Hx ltac:(lia))), (bind_ok _ _ _ _ _ (seg_ld t _ _ i Hu ltac:(lia))).
      destruct (ltb_ zero (sub (at_ dx i) (at_ du i))); cbn [negb]; [|done].
      by rewrite (bind_ok _ _ _ _ _ (seg_ld t _ _ i H1 ltac:(lia))). }
  rewrite (bind_ok _ _ _ (n_minstep m f2 (fun i => sub (opp (at_ dx i)) (at_ du i))) t).
  2:{ apply for_acc_fold. intros i a Hi.
      rewrite (bind_ok _ _ _ _ _ (seg_ld t _ _ i Hx ltac:(lia))), (bind_ok _ _ _ _ _ (seg_ld t _ _ i Hu ltac:(lia))).
      destruct (ltb_ zero (sub (opp (at_ dx i)) (at_ du i))); cbn [negb]; [|done].
      by rewrite (bind_ok _ _ _ _ _ (seg_ld t _ _ i H2 ltac:(lia))). }
  exists t. split; [done|]. split; [exact TT|exact HJ].
Qed.

Lemma check_feasible_run c s xs :
  NoDup [bx; bb; d0] -> (forall b, b ∈ [bx; bb; d0] -> b ∉ F) ->
  J c s -> seg s (Ptr bx 0) xs -> seg s (Ptr bb 0) bs -> length xs = m -> length bs = n ->
  wok s (Ptr d0 0) n -> is_aligned s (Ptr bx 0) = true -> is_aligned s (Ptr d0 0) = true -> pm s !! dw = Some rows ->
  exists s', check_feasible_start P (Ptr bx 0) s = Ok (if n_infeasible n A bs eps xs then L1C_INFEASIBLE_START else 0) s' /\
    touch ([d0] ++ F) s s' /\ J c s'.
Proof.
  intros Hd HF HJ Hx Hb Lx Lb Wd Ad A0 Hpm. distinct Hd.
  assert (Fx : bx ∉ F) by (apply HF; isin). assert (Fb : bb ∉ F) by (apply HF; isin). assert (Fd0 : d0 ∉ F) by (apply HF; isin).
  clear HF Hd.
  assert (TT : touch ([d0] ++ F) s s) by apply touch_refl.
  pose proof (os_ax _ _ _ _ _ _ _ _ _ _ HO c) as HA.
  rewrite EP. unfold check_feasible_start. cbn [pb_n pb_b pb_epsilon pb_Ax pb_DWORK7].
  rewrite (bind_ok _ _ _ (Ptr d0 0) s) by (by apply (ldp_ok s dw rows 0)).
  ostep HA (Ptr bx 0) (Ptr d0 0) Lx Hr HJ t1.
  pose proof (daxpy_run t1 n (opp one) _ _ _ _ (src_disj t1 (Ptr d0 0) _ _ (Ptr bb 0) _ Lb Hb ltac:(dis)) Hr LA) as E.
  wstep E Hr' t2. clear Hr. rename Hr' into Hr. fold (n_res n A bs xs) in Hr.
  assert (Lr : length (n_res n A bs xs) = n) by (unfold n_res; len).
  rewrite (bind_ok _ _ _ _ _ (dnrm2_run t2 n _ _ Hr ltac:(lia))).
  exists t2. split; [done|]. split; [exact TT|exact HJ].
Qed.
End runs.
