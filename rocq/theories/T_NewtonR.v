(** * C28, C30-C33, C36: the pieces of the log-barrier solver in exact arithmetic (src/l1qc_newton.c). *)
From Coq Require Import ZArith Lia Reals Lra Psatz Floats.
From stdpp Require Import base numbers gmap list.
From Verif Require Import Mem M_Math M_CG M_LineSearch M_Status M_Newton P_Mem P_Loop P_Math P_MathR P_TVR S_Mem P_Touch P_Own P_Own2 P_CG P_LineSearch
  P_Newton P_Newt2 P_Newt3 P_Newt4 P_Newt5 P_Newt7 P_Newt8 P_Newt9 L_Sum S_Vec L_Lin L_ER P_CGR S_Newt P_NewtX P_NewtX2 P_NewtX3 L_Barrier P_NewtR E_Sub T_Bregman T_CG T_Newton.
Local Open Scope Z_scope.

(** The solver's memory: the struct P with its scalars (tau is params.tau), the work vectors and the seven
    scratch rows, all separate; x, u, P->dx, P->du hold xs, us, dx, du and P->b holds bs.  A, B and C are
    what the operators compute and c counts the calls of Aty. *)
Inductive workspace `{N : Num} (m n : nat) (A B C : list T -> list T) (F : list nat) (J : nat -> st -> Prop) (bs : list T) (params : L1qcOpts)
    (P : Prob) (x u : ptr) (c : nat) (tau : T) (xs us dx du : list T) (s : st) : Prop :=
  Workspace Ax Aty AtAx sc bx bu bb br b1 b2 bw bd be s1 s2 bg bf dw d0 d1 d2 d3 d4 d5 d6
    (ws_ops : opers F J Ax Aty AtAx m n A B C)
    (ws_P : P = mkProb (Ptr sc 0) (Z.of_nat m) (Z.of_nat n) (Ptr bb 0) (lo_epsilon params)
       (Ptr br 0) (Ptr b1 0) (Ptr b2 0) (Ptr bw 0) (Ptr bd 0) (Ptr be 0) (Ptr s1 0) (Ptr s2 0) (Ptr bg 0) (Ptr bf 0) (Ptr dw 0) Ax Aty AtAx)
    (ws_x : x = Ptr bx 0) (ws_u : u = Ptr bu 0)
    (ws_nd : NoDup (allb sc bx bu bb br b1 b2 bw bd be s1 s2 bg bf d0 d1 d2 d3 d4 d5 d6))
    (ws_F : forall b, b ∈ allb sc bx bu bb br b1 b2 bw bd be s1 s2 bg bf d0 d1 d2 d3 d4 d5 d6 -> b ∉ F)
    (ws_m : (1 <= m)%nat) (ws_nm : (n <= m)%nat) (ws_fit : 2 * Z.of_nat m + 1 <= INT_MAX) (ws_cg : lo_cg_maxiter params < INT_MAX) (ws_b : length bs = n)
    (ws_lay : lay m n J bs sc bx bu bb br b1 b2 bw bd be s1 s2 bg bf dw d0 d1 d2 d3 d4 d5 d6 c tau xs us dx du s).


(** ** C28 *)
(** a finite value of the barrier objective means that the point is strictly feasible *)
Theorem C28_finite_value m n A B C F J (bv : list R) (e : R) Ar (params : @L1qcOpts ER) P x u c tau (xs us dx du : list er) (s s' : @st ER) (r : R) :
  @workspace ER m n A B C F J (fin bv) params P x u c tau xs us dx du s ->
  linmap m n Ar -> (forall v, length v = m -> A (fin v) = fin (Ar v)) -> lo_epsilon params = Fin e -> (0 <= e)%R ->
  @f_eval ER P x u s = Ok (Fin r) s' ->
  exists xv uv, xs = fin xv /\ us = fin uv /\ length uv = length xv /\ strictly_feasible Ar bv e xv uv.
Proof.
  intros [Ax Aty AtAx sc bx bu bb br b1 b2 bw bd be s1 s2 bg bf dw d0 d1 d2 d3 d4 d5 d6 HO EP -> -> Hd HF Hm Hnm Hf Hcg Lb Hl] HL HA He He0 E.
  destruct (@ws_eval ER m n A B C Ax Aty AtAx F J HO P (fin bv) params sc bx bu bb br b1 b2 bw bd be s1 s2 bg bf dw d0 d1 d2 d3 d4 d5 d6 EP Hd HF Lb c tau xs us dx du s Hl)
    as (t & E1 & _). rewrite E in E1. assert (E2 := f_equal (fun o => match o with Ok v _ => v | Ub _ => NaN end) E1). cbn beta iota in E2.
  rewrite fin_length in Lb. rewrite He in E2. eapply (fval_finite m n A Ar bv e HL HA Lb tau xs us r He0); [apply Hl|apply Hl|done].
Qed.
(** a whole stage, so any number of Newton steps, leads from strictly feasible points to strictly feasible points *)
Theorem C28_stage m n A B C F J (bv : list R) (e t : R) Ar (params : @L1qcOpts ER) P x u c (xv uv : list R) (dx du : list er) step tn tcg (s : @st ER) :
  @workspace ER m n A B C F J (fin bv) params P x u c (Fin t) (fin xv) (fin uv) dx du s ->
  linmap m n Ar -> (forall v, length v = m -> A (fin v) = fin (Ar v)) -> lo_epsilon params = Fin e -> (0 < t)%R ->
  strictly_feasible Ar bv e xv uv ->
  (* the counters do not overflow *)
  Z.abs tcg + Z.max 0 (lo_newton_max_iter params - 1) * Z.abs (lo_cg_maxiter params) <= INT_MAX ->
  0 <= tn -> tn + Z.max 0 (lo_newton_max_iter params - 1) + 1 <= INT_MAX ->
  exists r s' xv' uv', @lb_iter ER P x u params (Fin t, step, tn, tcg) s = Ok r s' /\
    @seg ER s' x (fin xv') /\ @seg ER s' u (fin uv') /\ length xv' = m /\ length uv' = m /\ strictly_feasible Ar bv e xv' uv'.
Proof.
  intros [Ax Aty AtAx sc bx bu bb br b1 b2 bw bd be s1 s2 bg bf dw d0 d1 d2 d3 d4 d5 d6 HO EP -> -> Hd HF Hm Hnm Hf Hcg Lb Hl] HL HA He Ht HS H1 H2 H3.
  set (l := @mkL ER (fin xv) (fin uv) du (Fin t) step tn tcg c).
  destruct (@lb_iter_run ER m n A B C Ax Aty AtAx F J HO P (fin bv) params sc bx bu bb br b1 b2 bw bd be s1 s2 bg bf dw d0 d1 d2 d3 d4 d5 d6 EP Hd HF Hnm Hf Hcg Lb s l)
    as (s' & E & (dx' & Hl') & _).
  - exists dx. exact Hl.
  - cbn [l lcg_]. unfold n_fuel, cgm. replace (Z.of_nat (Z.to_nat (lo_newton_max_iter params - 1))) with (Z.max 0 (lo_newton_max_iter params - 1)) by lia. lia.
  - cbn [l ltn_]. lia.
  - cbn [l ltn_]. unfold n_fuel. lia.
  - rewrite fin_length in Lb. assert (Lx : length xv = m) by (rewrite <- (fin_length xv); apply Hl). assert (Lu : length uv = m) by (rewrite <- (fin_length uv); apply Hl).
    assert (HN : @nlen ER m (@n_start ER m l)).
    { split; [apply Hl|]. split; [apply Hl|]. split; [apply (@tab_length ER)|apply Hl]. }
    assert (I0 : strictI Ar bv e (fin xv) (fin uv)) by (exists xv, uv; rewrite Lx, Lu; done).
    assert (I1 := @inv_loop ER m n A B C (fin bv) params (fun tau => tau = Fin t) (strictI Ar bv e)
      ltac:(intros tau xs us dx0 du0 g alpha k -> HI L1 L2 L3 L4; exact (strict_step m n A Ar bv e params HL HA Lb He t xs us dx0 du0 g alpha k Hm Ht HI L1 L2 L3 L4))
      (Fin t) (n_fuel params) (@n_start ER m l) eq_refl HN I0).
    assert (HW : strictI Ar bv e (@lx_ ER (@n_stage ER m n A B C (fin bv) params l)) (@lu_ ER (@n_stage ER m n A B C (fin bv) params l))).
    { unfold n_stage. change (@ltau_ ER l) with (Fin t). destruct (@n_loop ER m n A B C (fin bv) params (Fin t) (n_fuel params) (@n_start ER m l)) as [[b k] w].
      exact (I1 b k w eq_refl). }
    destruct HW as (xv' & uv' & Ex & Eu & Lxu & HS'). set (w := @n_stage ER m n A B C (fin bv) params l) in *.
    eexists _, s', xv', uv'. split; [exact E|]. rewrite <- Ex, <- Eu. split; [apply Hl'|]. split; [apply Hl'|].
    assert (Lx' : length xv' = m) by (rewrite <- (fin_length xv'), <- Ex; apply Hl'). split; [done|]. split; [by rewrite Lxu|done].
Qed.

(** ** C33, second half: after a zero start the objective is not finite *)
Theorem C33_zero_start_objective m n A B C F J (bv : list R) (e : R) Ar (params : @L1qcOpts ER) P x u c tau (xv uv : list R) (dx du : list er) (s : @st ER) :
  @workspace ER m n A B C F J (fin bv) params P x u c tau (fin xv) (fin uv) dx du s ->
  linmap m n Ar -> (forall v, length v = m -> A (fin v) = fin (Ar v)) -> lo_epsilon params = Fin e -> (0 <= e)%R ->
  (forall i, nth i xv 0%R = 0%R) -> (forall i, (i < m)%nat -> nth i uv 0%R = 0%R) ->
  exists v s', @f_eval ER P x u s = Ok v s' /\ forall r, v <> Fin r.
Proof.
  intros HW HL HA He He0 Hx Hu. assert (HW2 := HW).
  destruct HW as [Ax Aty AtAx sc bx bu bb br b1 b2 bw bd be s1 s2 bg bf dw d0 d1 d2 d3 d4 d5 d6 HO EP -> -> Hd HF Hm Hnm Hf Hcg Lb Hl].
  destruct (@ws_eval ER m n A B C Ax Aty AtAx F J HO P (fin bv) params sc bx bu bb br b1 b2 bw bd be s1 s2 bg bf dw d0 d1 d2 d3 d4 d5 d6 EP Hd HF Lb c tau (fin xv) (fin uv) dx du s Hl)
    as (t & E1 & _). eexists _, t. split; [exact E1|]. intros r Er. rewrite Er in E1.
  destruct (C28_finite_value m n A B C F J bv e Ar params P _ _ c tau _ _ dx du s t r HW2 HL HA He He0 E1) as (x' & u' & Ex & Eu & _ & HS & _).
  apply fin_inj in Ex as <-. apply fin_inj in Eu as <-. assert (Lx : length xv = m) by (rewrite <- (fin_length xv); apply Hl).
  specialize (HS 0%nat ltac:(lia)). rewrite Hx, Hu, Rabs_R0 in HS by lia. lra.
Qed.

(** ** C32 *)
Theorem C32_max_step m n A B C F J (bv : list R) (e : R) Ar (params : @L1qcOpts ER) P x u c tau (xv uv dx du : list R) (s : @st ER) :
  @workspace ER m n A B C F J (fin bv) params P x u c tau (fin xv) (fin uv) (fin dx) (fin du) s ->
  linmap m n Ar -> (forall v, length v = m -> A (fin v) = fin (Ar v)) -> lo_epsilon params = Fin e ->
  strictly_feasible Ar bv e xv uv ->
  (* evaluating the objective and then the largest step along (dx, du) *)
  exists r s', (@f_eval ER P x u ;! @find_max_step ER P) s = Ok (Fin r) s' /\
    (0 < r <= 99 / 100)%R /\ forall t, (0 <= t <= r)%R -> strictly_feasible Ar bv e (along xv dx t) (along uv du t).
Proof.
  intros [Ax Aty AtAx sc bx bu bb br b1 b2 bw bd be s1 s2 bg bf dw d0 d1 d2 d3 d4 d5 d6 HO EP -> -> Hd HF Hm Hnm Hf Hcg Lb Hl] HL HA He HS.
  destruct (@ws_eval ER m n A B C Ax Aty AtAx F J HO P (fin bv) params sc bx bu bb br b1 b2 bw bd be s1 s2 bg bf dw d0 d1 d2 d3 d4 d5 d6 EP Hd HF Lb c tau _ _ _ _ s Hl)
    as (t & E1 & Hl1 & Hev). rewrite (bind_ok _ _ _ _ _ E1).
  destruct (@ws_max ER m n A B C Ax Aty AtAx F J HO P (fin bv) params sc bx bu bb br b1 b2 bw bd be s1 s2 bg bf dw d0 d1 d2 d3 d4 d5 d6 EP Hd HF Hnm Lb c tau _ _ _ _ t Hl1 Hev)
    as (t2 & E2). rewrite E2, He. rewrite fin_length in Lb.
  assert (L4 : length xv = m /\ length uv = m /\ length dx = m /\ length du = m).
  { rewrite <- (fin_length xv), <- (fin_length uv), <- (fin_length dx), <- (fin_length du). split_and!; apply Hl. }
  destruct L4 as (L1 & L2 & L3 & L4).
  destruct (maxstep_strict m n A Ar bv e HL HA Lb xv uv dx du L1 L2 L3 L4 HS) as (r & Er & Hr & HH). exists r, t2. by rewrite Er.
Qed.

(** ** C30 *)
(** f_eval computes the barrier objective *)
Theorem C30_objective m n A B C F J (bv : list R) (e t : R) Ar (params : @L1qcOpts ER) P x u c (xv uv : list R) (dx du : list er) (s : @st ER) :
  @workspace ER m n A B C F J (fin bv) params P x u c (Fin t) (fin xv) (fin uv) dx du s ->
  linmap m n Ar -> (forall v, length v = m -> A (fin v) = fin (Ar v)) -> lo_epsilon params = Fin e -> t <> 0%R ->
  strictly_feasible Ar bv e xv uv ->
  exists s', @f_eval ER P x u s = Ok (Fin (barrier Ar bv e t xv uv)) s'.
Proof.
  intros [Ax Aty AtAx sc bx bu bb br b1 b2 bw bd be s1 s2 bg bf dw d0 d1 d2 d3 d4 d5 d6 HO EP -> -> Hd HF Hm Hnm Hf Hcg Lb Hl] HL HA He Ht HS.
  destruct (@ws_eval ER m n A B C Ax Aty AtAx F J HO P (fin bv) params sc bx bu bb br b1 b2 bw bd be s1 s2 bg bf dw d0 d1 d2 d3 d4 d5 d6 EP Hd HF Lb c (Fin t) _ _ _ _ s Hl)
    as (s' & E1 & _). exists s'. rewrite E1. f_equal. rewrite fin_length in Lb. rewrite He. apply (fval_strict m n A Ar bv e HL HA Lb); [done| | |done].
  - rewrite <- (fin_length xv). apply Hl.
  - rewrite <- (fin_length uv). apply Hl.
Qed.
(** and the vector P->gradf that the line search and the stopping rule use is its gradient *)
Theorem C30_gradient m n (A B : list R -> list R) F J (b : list R) (params : @L1qcOpts RN) P x u c (tau : R) (xv uv dx du : list R) prm (s : @st RN) :
  @workspace RN m n A B (fun v => B (A v)) F J b params P x u c tau xv uv dx du s ->
  linmap m n A -> adjoint m n A B -> tau <> 0%R -> strictly_feasible A b (lo_epsilon params) xv uv -> @cgp_max_iter RN prm < INT_MAX ->
  exists r s' g h, (@f_eval RN P x u ;! @descent_dir RN P prm) s = Ok r s' /\
    @seg RN s' (pb_gradf P) g /\ @seg RN s' (padd (pb_gradf P) (Z.of_nat m)) h /\
    is_gradient (barrier A b (lo_epsilon params) tau) xv uv g h.
Proof.
  intros [Ax Aty AtAx sc bx bu bb br b1 b2 bw bd be s1 s2 bg bf dw d0 d1 d2 d3 d4 d5 d6 HO EP -> -> Hd HF Hm Hnm Hf Hcg Lb Hl] HL HB Ht HS Hp.
  destruct (@ws_eval RN m n A B _ Ax Aty AtAx F J HO P b params sc bx bu bb br b1 b2 bw bd be s1 s2 bg bf dw d0 d1 d2 d3 d4 d5 d6 EP Hd HF Lb c tau _ _ _ _ s Hl)
    as (t & E1 & Hl1 & Hev). rewrite (bind_ok _ _ _ _ _ E1).
  destruct (@ws_dir RN m n A B _ Ax Aty AtAx F J HO P b params sc bx bu bb br b1 b2 bw bd be s1 s2 bg bf dw d0 d1 d2 d3 d4 d5 d6 EP Hd HF Hnm Hf Lb prm c tau _ _ _ _ t Hp Hl1 Hev)
    as (t2 & E2 & _ & _ & S3 & S4). 
  assert (Lx : @length R xv = m) by apply Hl. assert (Lu : @length R uv = m) by apply Hl.
  rewrite (g1_RN m n A B b (lo_epsilon params) tau HL Ht xv uv Lx HS) in S3. rewrite (g2_RN m A b (lo_epsilon params) tau Ht xv uv Lx HS) in S4.
  eexists _, t2, _, _. split; [exact E2|]. rewrite EP. cbn [pb_gradf padd]. split; [exact S3|]. split; [exact S4|]. by apply (gradient m n).
Qed.

(** ** C31 *)
(** The reduced system: with f1 = x - u, f2 = -x - u, fe = (||Ax-b||^2 - eps^2)/2 and the entries
    sig11 = 1/f1^2 + 1/f2^2, sig12 = 1/f2^2 - 1/f1^2 of the Hessian, u is eliminated. *)
Section C31.
Local Open Scope R_scope.
Context (m n : nat) (A B : list R -> list R) (b : list R) (e tau : R) (x u : list R).
Let r : list R := resid A b x.
Let fe : R := (nrm2sq r - e * e) / 2.
Let f1 i : R := nth i x 0 - nth i u 0.
Let f2 i : R := - nth i x 0 - nth i u 0.
Let sig11 i : R := 1 / (f1 i * f1 i) + 1 / (f2 i * f2 i).
Let sig12 i : R := 1 / (f2 i * f2 i) - 1 / (f1 i * f1 i).
Definition reduced_matrix (d : list R) : list R :=
  map (fun i => (sig11 i - sig12 i * sig12 i / sig11 i) * nth i d 0 - nth i (B (A d)) 0 / fe + nth i (B r) 0 * dot (B r) d / (fe * fe)) (seq 0 m).
Definition reduced_rhs : list R :=
  map (fun i => 1 / f1 i - 1 / f2 i + nth i (B r) 0 / fe - sig12 i / sig11 i * (- tau - 1 / f1 i - 1 / f2 i)) (seq 0 m).
End C31.
Theorem C31_newton_system m n (A B : list R -> list R) F J (b : list R) (params : @L1qcOpts RN) P x u c (tau : R) (xv uv dx du : list R) prm (s : @st RN) :
  @workspace RN m n A B (fun v => B (A v)) F J b params P x u c tau xv uv dx du s ->
  linmap m n A -> adjoint m n A B -> tau <> 0%R -> strictly_feasible A b (lo_epsilon params) xv uv -> @cgp_max_iter RN prm < INT_MAX ->
  let H := reduced_matrix m A B b (lo_epsilon params) xv uv in let w := reduced_rhs m A B b (lo_epsilon params) tau xv uv in
  spd m H /\
  exists status cg s' dx' du', (@f_eval RN P x u ;! @descent_dir RN P prm) s = Ok (status, cg) s' /\
    @seg RN s' (pb_dx P) dx' /\ @seg RN s' (pb_du P) du' /\ length dx' = m /\ length du' = m /\
    (* CG works on this system: this is the relative residual that it reports *)
    @cgres RN cg = R_sqrt.sqrt (nrm2sq (vlin 1 w (-1) (H dx')) / nrm2sq w) /\
    (* if it has solved the system then (dx', du') is the Newton direction *)
    (status = 0 -> H dx' = w -> newton_direction m (strictly_feasible A b (lo_epsilon params)) (barrier A b (lo_epsilon params) tau) xv uv dx' du').
Proof.
  intros [Ax Aty AtAx sc bx bu bb br b1 b2 bw bd be s1 s2 bg bf dw d0 d1 d2 d3 d4 d5 d6 HO EP -> -> Hd HF Hm Hnm Hf Hcg Lb Hl] HL HB Ht HS Hp H w.
  assert (Lx : @length R xv = m) by apply Hl. assert (Lu : @length R uv = m) by apply Hl. assert (Ldx : @length R dx = m) by apply Hl.
  set (e := lo_epsilon params : R) in *.
  set (op := @n_op RN m B (fun v => B (A v)) (@n_fe RN n A b e xv) (@n_res RN n A b xv) (@n_f1 RN m xv uv) (@n_f2 RN m xv uv)).
  set (rhs := @n_rhs RN m B tau (@n_fe RN n A b e xv) (@n_res RN n A b xv) (@n_f1 RN m xv uv) (@n_f2 RN m xv uv)).
  assert (EH : forall d : list R, length d = m -> H d = op d).
  { intros d Ld. apply (list_eq_nth m); [unfold H, reduced_matrix; by rewrite map_length, seq_length|apply (@tab_length RN)|]. intros i Hi.
    unfold op. rewrite (op_entry m n A B b e HL HB xv uv Lx HS d i Ld Hi). unfold H, reduced_matrix. rewrite nth_map_seq by done.
    destruct (sf_neg m A b e xv uv i Lx HS Hi). pose proof (sf_fe A b e xv uv HS). pose proof (s11_pos m A b e xv uv Lx HS i Hi). unfold s11, s12 in *. 
    replace (- nth i xv 0 - nth i uv 0)%R with (- (nth i xv 0 + nth i uv 0))%R by lra. rewrite Rmult_opp_opp. lra. }
  assert (EW : w = rhs).
  { apply (list_eq_nth m); [unfold w, reduced_rhs; by rewrite map_length, seq_length|apply (@tab_length RN)|]. intros i Hi.
    unfold w, reduced_rhs, rhs, n_rhs. rewrite nth_map_seq, nth_tab by done. unfold h_w1p.
    rewrite (ntgz_RN m n A B b e tau HL Ht xv uv Lx HS i Hi), (ntgu_RN m A b e tau Ht xv uv Lx HS i Hi), (s11_RN m A b e xv uv Lx HS i Hi), (s12_RN m A b e xv uv Lx HS i Hi).
    destruct (sf_neg m A b e xv uv i Lx HS Hi). pose proof (sf_fe A b e xv uv HS). pose proof (s11_pos m A b e xv uv Lx HS i Hi) as Q. unfold gx, gu. cbn [sub mul div RN]. eqR.
    replace (- nth i xv 0 - nth i uv 0)%R with (- (nth i xv 0 + nth i uv 0))%R by lra. rewrite Rmult_opp_opp. fold (s11 xv uv i).
    replace (1 / ((nth i xv 0 + nth i uv 0) * (nth i xv 0 + nth i uv 0)) - 1 / ((nth i xv 0 - nth i uv 0) * (nth i xv 0 - nth i uv 0)))%R with (s12 xv uv i) by (unfold s12; lra).
    set (q := s11 xv uv i) in *. set (p := s12 xv uv i) in *. field. repeat split; try done; lra. }
  assert (SO : spd m op).
  { split; [by apply (op_linear m n)|]. split; [intros; by apply (op_sym m n A B b e HL HB)|intros; by apply (op_pos m n A B b e HL HB Lb)]. }
  split.
  { destruct SO as ((SL1 & SL2) & SS & SP). split; [split|split].
    - intros d _. unfold H, reduced_matrix. by rewrite map_length, seq_length.
    - intros a d f Ld Lf i Hi. rewrite !EH by (done || by rewrite vlin_length). by apply SL2.
    - intros d f Ld Lf. rewrite !EH by done. by apply SS.
    - intros d Ld Hz. rewrite !EH by done. by apply SP. }
  destruct (@ws_eval RN m n A B _ Ax Aty AtAx F J HO P b params sc bx bu bb br b1 b2 bw bd be s1 s2 bg bf dw d0 d1 d2 d3 d4 d5 d6 EP Hd HF Lb c tau _ _ _ _ s Hl)
    as (t & E1 & Hl1 & Hev). rewrite (bind_ok _ _ _ _ _ E1).
  destruct (@ws_dir RN m n A B _ Ax Aty AtAx F J HO P b params sc bx bu bb br b1 b2 bw bd be s1 s2 bg bf dw d0 d1 d2 d3 d4 d5 d6 EP Hd HF Hnm Hf Lb prm c tau _ _ _ _ t Hp Hl1 Hev)
    as (t2 & E2 & S1 & S2 & _).
  fold e in E2, S1, S2. set (fe := @n_fe RN n A b e xv) in *. set (rs := @n_res RN n A b xv) in *. set (f1 := @n_f1 RN m xv uv) in *. set (f2 := @n_f2 RN m xv uv) in *.
  set (dx' := @n_dx RN m B (fun v => B (A v)) prm tau fe rs f1 f2 dx) in *.
  assert (Ld : @length R dx' = m) by (by apply (@n_dx_len RN)).
  eexists _, _, t2, dx', _. split; [exact E2|]. rewrite EP. cbn [pb_dx pb_du]. split; [exact S1|]. split; [exact S2|].
  split; [done|]. split; [apply (@n_dudir_len RN); apply Hl|]. split.
  - cbn [n_cg cgres]. unfold n_rel. fold op rhs. set (k := besti _ _). unfold cg_rel. cbn [sqrt_ div RN].
    assert (Lr : @length R rhs = m) by apply (@tab_length RN).
    destruct (@cg_len RN m op dx rhs Ldx k) as (L1 & L2 & L3).
    assert (Er := resid_vlin m op rhs _ _ Lr L2 (real_resid m op dx rhs k (proj1 SO) Ldx)). rewrite EW, (EH dx' Ld).
    change (@n_dx RN m B (fun v => B (A v)) prm tau fe rs f1 f2 dx) with (@tx RN (@cg_at RN m op dx rhs k)) in dx'. fold dx' in Er. rewrite <- Er.
    rewrite (dot_sq m rhs Lr). rewrite (d_ip m op dx rhs k), <- dot_of_ip. rewrite (dot_sq m _ L2). done.
  - intros Hst. unfold n_dudir. destruct (n_cgfail _ _ _ _ _ _ _ _ _ _); [done|]. intros E. rewrite EW, (EH dx' Ld) in E. exact (reduced_newton m n A B b e tau HL HB Ht Lb xv uv Lx Lu HS dx' Ld E).
Qed.

(** ** C36: after a failed CG solve the iteration goes on with the old du *)
Theorem C36_stale_du `{N : Num} m n A B C F J bs params P x u c tau xs us dx du l1 step tcg s cg t :
  workspace m n A B C F J bs params P x u c tau xs us dx du s ->
  INT_MIN <= tcg + cgiter cg <= INT_MAX ->
  (* the CG solve of this iteration fails *)
  (f_eval P x u ;! warm_dx P params step ;! descent_dir P (mkCgP (lo_cg_verbose params) (lo_cg_maxiter params) (lo_cg_tol params))) s = Ok (L1C_CGSOLVE_FAILURE, cg) t ->
  exists r s' dx', (f_eval P x u ;! newton_iter P x u params (l1, step, tcg)) s = Ok r s' /\
    seg s' (pb_du P) du /\ seg s' (pb_dx P) dx' /\
    ((seg s' x xs /\ seg s' u us) \/ exists st, seg s' x (axpy_of m st dx' xs) /\ seg s' u (axpy_of m st du us)).
Proof.
  intros [Ax Aty AtAx sc bx bu bb br b1 b2 bw bd be s1 s2 bg bf dw d0 d1 d2 d3 d4 d5 d6 HO EP -> -> Hd HF Hm Hnm Hf Hcg Lb Hl] Htcg E.
  destruct (ws_eval m n A B C Ax Aty AtAx F J HO P bs params sc bx bu bb br b1 b2 bw bd be s1 s2 bg bf dw d0 d1 d2 d3 d4 d5 d6 EP Hd HF Lb c tau _ _ _ _ s Hl)
    as (t1 & E1 & Hl1 & Hev). rewrite (bind_ok _ _ _ _ _ E1) in E. rewrite (bind_ok _ _ _ _ _ E1).
  set (v := mkN xs us dx du l1 step tcg).
  destruct (ws_warm m n A B C Ax Aty AtAx F J HO P bs params sc bx bu bb br b1 b2 bw bd be s1 s2 bg bf dw d0 d1 d2 d3 d4 d5 d6 EP Hd HF c tau v t1 Hl1 Hev)
    as (t2 & E2 & Hl2 & Hev2). cbn [v nstep_] in E2. rewrite (bind_ok _ _ _ _ _ E2) in E.
  destruct (ws_dir m n A B C Ax Aty AtAx F J HO P bs params sc bx bu bb br b1 b2 bw bd be s1 s2 bg bf dw d0 d1 d2 d3 d4 d5 d6 EP Hd HF Hnm Hf Lb
     (mkCgP (lo_cg_verbose params) (lo_cg_maxiter params) (lo_cg_tol params)) c tau _ _ _ _ t2 Hcg Hl2 Hev2) as (t3 & E3 & _). cbv zeta in E3. rewrite E3 in E.
  assert (E4 := f_equal (fun o => match o with Ok q _ => Some q | Ub _ => None end) E). cbn beta iota in E4. injection E4 as Ef Ec.
  assert (Hfail : n_cgfail m B C (mkCgP (lo_cg_verbose params) (lo_cg_maxiter params) (lo_cg_tol params)) tau (n_fe n A bs (lo_epsilon params) xs)
    (n_res n A bs xs) (n_f1 m xs us) (n_f2 m xs us) (i_dx0 m params v) = true). { cbn [v nx_ nu_] in Ef. by destruct (n_cgfail _ _ _ _ _ _ _ _ _ _). }
  assert (Edu : i_du m n A B C bs params tau v = du). { unfold i_du, n_dudir. change (n_cgfail _ _ _ _ _ _ _ _ _ _) with (n_cgfail m B C (mkCgP (lo_cg_verbose params) (lo_cg_maxiter params) (lo_cg_tol params)) tau (n_fe n A bs (lo_epsilon params) xs) (n_res n A bs xs) (n_f1 m xs us) (n_f2 m xs us) (i_dx0 m params v)). by rewrite Hfail. }
  assert (Ecg : i_cg m n A B C bs params tau v = cg) by exact Ec.
  destruct (newton_iter_run m n A B C Ax Aty AtAx F J HO P bs params sc bx bu bb br b1 b2 bw bd be s1 s2 bg bf dw d0 d1 d2 d3 d4 d5 d6 EP Hd HF Hnm Hf Hcg Lb c t1 tau v Hl1 Hev)
    as (s' & E5 & H). { rewrite Ecg. exact Htcg. }
  cbn [v nl1_ nstep_ ncg_] in E5. fold v in E5. exists (match n_iter m n A B C bs params tau v with (b, w) => if b then Stop (nl1_ w, nstep_ w, ncg_ w) else Go (nl1_ w, nstep_ w, ncg_ w) end), s', (i_dx m n A B C bs params tau v).
  split; [rewrite E5; by destruct (n_iter _ _ _ _ _ _ _ _ _) as [[] ?]|]. rewrite EP. cbn [pb_du pb_dx].
  assert (HN : let w := snd (n_iter m n A B C bs params tau v) in ndu_ w = du /\ ndx_ w = i_dx m n A B C bs params tau v /\
    ((nx_ w = xs /\ nu_ w = us) \/ exists st, nx_ w = axpy_of m st (i_dx m n A B C bs params tau v) xs /\ nu_ w = axpy_of m st du us)).
  { clear E5 H. cbv zeta. unfold n_iter. destruct (n_ls _ _ _ _ _ _ _ _ _ _ _ _) as [k|]; [|cbn; auto]. rewrite Edu.
    destruct (ltb_ _ _); cbn [snd ndu_ ndx_ nx_ nu_]; (split; [done|]); (split; [done|]); right; eexists; split; reflexivity. }
  destruct (n_iter m n A B C bs params tau v) as [b w]. cbn [snd] in HN. destruct H as (Hlw & _). cbv zeta in HN. destruct HN as (H1 & H2 & H3).
  split; [rewrite <- H1; apply Hlw|]. split; [rewrite <- H2; apply Hlw|].
  destruct H3 as [[<- <-]|(a & E6 & E7)]; [left|right; exists a; rewrite <- E6, <- E7]; split; apply Hlw.
Qed.

(** ** the workspace exists: two unknowns, one measurement of the first, blocks 1..22 *)
Module NewtREx.
Section ws.
Context `{N : Num}.
Definition P0 (params : L1qcOpts) : Prob :=
  mkProb (Ptr 1 0) 2 1 (Ptr 4 0) (lo_epsilon params)
    (Ptr 5 0) (Ptr 6 0) (Ptr 7 0) (Ptr 8 0) (Ptr 9 0) (Ptr 10 0) (Ptr 11 0) (Ptr 12 0) (Ptr 13 0) (Ptr 14 0) (Ptr 22 0) (s_ax 1) (s_aty 2 1 0) (s_atax 2 1).
Definition w0 (tau : T) (xs us dx du bs : list T) : st :=
  set_pm <[22%nat := [Some (Ptr 15 0); Some (Ptr 16 0); Some (Ptr 17 0); Some (Ptr 18 0); Some (Ptr 19 0); Some (Ptr 20 0); Some (Ptr 21 0)]]>
    (state_of [full [zero]; full [tau; zero; zero]; full xs; full us; full bs; fresh 1; fresh 2; fresh 2; fresh 2; full dx; full du;
       fresh 2; fresh 2; fresh 2; fresh 4; fresh 2; fresh 2; fresh 2; fresh 2; fresh 2; fresh 2; fresh 2]).
Lemma pm_seg f (s : st) p xs : seg s p xs -> seg (set_pm f s) p xs. Proof. done. Qed.
Lemma pm_wok f (s : st) p n : wok s p n -> wok (set_pm f s) p n. Proof. done. Qed.
Lemma ws params tau xs us dx du bs :
  length xs = 2%nat -> length us = 2%nat -> length dx = 2%nat -> length du = 2%nat -> length bs = 1%nat -> lo_cg_maxiter params < INT_MAX ->
  workspace 2 1 (s_A 1) (s_B 2 1) (s_C 2 1) [0%nat] (s_J 0) bs params (P0 params) (Ptr 2 0) (Ptr 3 0) 0 tau xs us dx du (w0 tau xs us dx du bs).
Proof.
  intros Lx Lu Ldx Ldu Lb Hcg.
  eapply (Workspace _ _ _ _ _ _ _ _ _ _ _ _ _ _ _ _ _ _ _ (s_ax 1) (s_aty 2 1 0) (s_atax 2 1) 1 2 3 4 5 6 7 8 9 10 11 12 13 14 22 15 16 17 18 19 20 21).
  - apply sub_opers. lia.
  - done.
  - done.
  - done.
  - unfold allb. apply (bool_decide_unpack _). vm_compute. done.
  - intros b Hb Hb'. apply elem_of_list_singleton in Hb'. subst b. revert Hb. unfold allb. apply (bool_decide_unpack _). vm_compute. done.
  - lia.
  - lia.
  - unfold INT_MAX. lia.
  - done.
  - done.
  - split; try done; try (apply pm_seg, state_of_seg; done).
    + exists zero, zero. apply pm_seg, state_of_seg. done.
    + apply pm_wok. eapply state_of_wok; [done|simpl; lia].
    + apply pm_wok. eapply state_of_wok; [done|simpl; lia].
    + intros b Hb. apply pm_wok. repeat (apply elem_of_cons in Hb as [->|Hb]; [eapply state_of_wok; [done|simpl; lia]|]). by apply elem_of_nil in Hb.
Qed.
End ws.
Local Open Scope R_scope.
Definition Br : list R -> list R := @s_B RN 2 1.
Lemma adj : adjoint 2 1 NewtEx.Ar Br.
Proof.
  split; [intros [|y1 [|]] L; done|]. intros [|x1 [|x2 [|]]] [|y1 [|]]; try done. intros _ _. unfold dot, Br, s_B, NewtEx.Ar. simpl. lra.
Qed.
(** x = (2,3), u = (3,4), b = 2, eps = 1 *)
Definition o0 : @L1qcOpts RN := @NewtEx.opts RN 1 10 (1/100) 2.
Lemma inside : strictly_feasible NewtEx.Ar [2] 1 [2; 3] [3; 4].
Proof.
  split.
  - intros [|[|i]] Hi; simpl in *; [| |lia]; unfold Rabs; destruct (Rcase_abs _); lra.
  - rewrite NewtEx.res. unfold Rabs. destruct (Rcase_abs _); lra.
Qed.
Example c30 : exists r s' g h, (@f_eval RN (P0 o0) (Ptr 2 0) (Ptr 3 0) ;! @descent_dir RN (P0 o0) (@mkCgP RN 0 10 (1/100))) (@w0 RN 1 [2; 3] [3; 4] [0; 0] [0; 0] [2]) = Ok r s' /\
    @seg RN s' (Ptr 14 0) g /\ @seg RN s' (Ptr 14 2) h /\ is_gradient (barrier NewtEx.Ar [2] 1 1) [2; 3] [3; 4] g h.
Proof.
  apply (C30_gradient 2 1 NewtEx.Ar Br [0%nat] (@s_J RN 0) [2] o0 (P0 o0) (Ptr 2 0) (Ptr 3 0) 0 1 [2; 3] [3; 4] [0; 0] [0; 0]);
   [by apply (@ws RN o0 1 [2; 3] [3; 4] [0; 0] [0; 0] [2])|exact NewtEx.lin|exact adj|lra|exact inside|done].
Qed.
Example c31 : spd 2 (reduced_matrix 2 NewtEx.Ar Br [2] 1 [2; 3] [3; 4]).
Proof.
  apply (C31_newton_system 2 1 NewtEx.Ar Br [0%nat] (@s_J RN 0) [2] o0 (P0 o0) (Ptr 2 0) (Ptr 3 0) 0 1 [2; 3] [3; 4] [0; 0] [0; 0] (@mkCgP RN 0 10 (1/100)) (@w0 RN 1 [2; 3] [3; 4] [0; 0] [0; 0] [2]));
   [by apply (@ws RN o0 1 [2; 3] [3; 4] [0; 0] [0; 0] [2])|exact NewtEx.lin|exact adj|lra|exact inside|done].
Qed.
Local Open Scope float_scope.
(** C36 in IEEE arithmetic: with no CG step allowed the relative residual is 1, above the limit 1/2, and the solve fails *)
Definition o1 : @L1qcOpts FN := @mkL1qc FN 1 10 0.0078125 0 2 0.0078125 5 0 0.0078125 0.0078125 0 0 0 1.
Definition run1 : option (Z * PrimFloat.float) :=
  match @result FN _ (@f_eval FN (P0 o1) (Ptr 2 0) (Ptr 3 0) ;! @warm_dx FN (P0 o1) o1 1 ;! @descent_dir FN (P0 o1) (@mkCgP FN 0 0 0.0078125)) (@w0 FN 1 [2; 3] [3; 4] [0; 0] [5; 6] [2]) with
  | Some (status, cg) => Some (status, @cgres FN cg) | None => None end.
Example cg_fails : run1 = Some (L1C_CGSOLVE_FAILURE, 1).
Proof. vm_compute. reflexivity. Qed.
End NewtREx.

Print Assumptions C28_finite_value.
Print Assumptions C28_stage.
Print Assumptions C30_objective.
Print Assumptions C30_gradient.
Print Assumptions C31_newton_system.
Print Assumptions C32_max_step.
Print Assumptions C33_zero_start_objective.
Print Assumptions C36_stale_du.
