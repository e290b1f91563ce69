(** * Concrete cases for T_Nesta.v, and the refuted half of C43.
    Two unknowns, the first one is measured, W = I; the operators are those of E_Op.v.  Blocks 0 and 1: x and b. *)
From Coq Require Import ZArith Lia Reals Lra Psatz.
From stdpp Require Import base numbers gmap list.
From Verif Require Import Globals Mem M_Math M_Memory M_Status M_Nesta P_Mem P_Loop P_Math P_MathR P_TVR P_Memory S_Mem P_Touch P_Own P_Own2 P_Own3 P_CG
  P_Newton P_Newt7 L_Sum S_Vec L_Lin L_ER P_CGR S_Newt P_NewtX P_NewtX2 P_NewtR L_Barrier S_Nesta L_Nesta P_Nesta P_Nesta2 P_Nesta3 P_NestaF P_NestaR E_Op T_Bregman T_Newton T_Nesta.
Local Open Scope R_scope.

Module NestaEx.
Section ex.
Context `{N : Num}.
Definition A0 (x : list T) : list T := [at_ x 0].
Definition B0 (y : list T) : list T := [at_ y 0; zero].
Definition W0 (x : list T) : list T := x.
Definition call (f : fptr) : ptr -> ptr -> M unit :=
  match f with
  | Fn (F_user 0) => op_of 2 1 A0 | Fn (F_user 1) => op_of 1 2 B0 | Fn (F_user 2) => op_of 2 2 W0
  | _ => fun _ _ => undef UbUninit
  end.
Definition u (k : Z) : fptr := Fn (F_user k).
Definition ax (nw : T) : AxFuns := mkAx _ 1 2 2 2 nw (u 0) (u 1) FNull FNull FNull (u 2) (u 2) (u 3) (u 3) FNull.
Definition s0 (b : T) : st := state_of [fresh 2; full [b]].
Lemma ops nw : nesta_ops call 2 1 2 A0 B0 W0 W0 [] (fun _ => True) (ax nw).
Proof. split; try done; try (apply op_of_oper; done). lia. Qed.
Lemma ncall nw b mu tol sg nc : (nc < INT_MAX)%Z -> nesta_call call 2 1 2 A0 B0 W0 W0 [] (fun _ => True) (ax nw) 0 1 [b] (mkNOpt mu tol sg nc 0) (s0 b).
Proof.
  intros Hnc. split; try done; try (apply state_of_seg; done); try (simpl; lia); try apply not_elem_of_nil.
  - apply ops.
  - apply state_unborn.
  - intros c Hc. by apply elem_of_nil in Hc.
  - eapply state_of_wok; [done|simpl; lia].
Qed.
Lemma gr b : granted (s0 b) 11. Proof. intros j Hj. done. Qed.
Lemma comp nw : complete (ax nw).
Proof. intros f Hf. repeat (apply elem_of_cons in Hf as [->|Hf]; [done|]). by apply elem_of_nil in Hf. Qed.
(** memory that refuses request k, and memory where malloc does not align *)
Definition s1 (b : T) (e : env) : st := mkSt (dm (s0 b)) ∅ ∅ ∅ (fun _ => true) 2 e glob0.
Lemma ncall1 nw b mu tol sg nc e : (nc < INT_MAX)%Z -> nesta_call call 2 1 2 A0 B0 W0 W0 [] (fun _ => True) (ax nw) 0 1 [b] (mkNOpt mu tol sg nc 0) (s1 b e).
Proof.
  intros Hnc. destruct (ncall nw b mu tol sg nc Hnc). split; assumption.
Qed.
Definition refuse (k : nat) : env := mkEnv (fun i => negb (i =? k)%nat) (fun _ => true) (fun _ _ _ => zero).
Definition unaligned : env := mkEnv (fun _ => true) (fun _ => false) (fun _ _ _ => zero).
Example c45_oom nw b mu tol sg : exists s', nesta call 2 1 0 1 (ax nw) (mkNOpt mu tol sg 5 0) (s1 b (refuse 4)) = Ok L1C_OUT_OF_MEMORY s' /\ same_blocks (s1 b (refuse 4)) s'.
Proof.
  destruct (C45_out_of_memory call 2 1 2 A0 B0 W0 W0 [] (fun _ => True) (ax nw) 0 1 [b] (mkNOpt mu tol sg 5 0) (s1 b (refuse 4))) as (s' & H1 & H2 & _).
  - apply ncall1. done.
  - exists 2%nat. split; [lia|done].
  - exists s'. split; [exact H1|exact H2].
Qed.
Example c45_queue nw b mu tol sg : nesta call 2 1 0 1 (ax nw) (mkNOpt mu tol sg 5 0) (s1 b (refuse 12)) = Ub UbOob.
Proof.
  apply (C45_queue_refused call 2 1 2 A0 B0 W0 W0 [] (fun _ => True) (ax nw) 0 1 [b]); [by apply ncall1| |apply comp|done].
  intros j Hj. cbn [s1 en nx alloc_ok refuse]. destruct (Nat.eqb_spec (2 + j) 12); [lia|done].
Qed.
Example c65 nw b mu tol sg : nesta call 2 1 0 1 (ax nw) (mkNOpt mu tol sg 5 0) (s1 b unaligned) = Ub UbAlign.
Proof.
  apply (C65_queue_not_aligned call 2 1 2 A0 B0 W0 W0 [] (fun _ => True) (ax nw) 0 1 [b]); [by apply ncall1|done|apply comp|done|done].
Qed.
(** without Rx and Rty *)
Definition ax' (nw : T) : AxFuns := mkAx _ 1 2 2 2 nw (u 0) (u 1) FNull FNull FNull (u 2) (u 2) FNull FNull FNull.
Example c45_leak nw b mu tol sg : exists s', nesta call 2 1 0 1 (ax' nw) (mkNOpt mu tol sg 5 0) (s0 b) = Ok L1C_INCONSISTENT_ARGUMENTS s' /\ is_Some (dm s' !! 11%nat).
Proof.
  assert (HC : nesta_call call 2 1 2 A0 B0 W0 W0 [] (fun _ => True) (ax' nw) 0 1 [b] (mkNOpt mu tol sg 5 0) (s0 b)).
  { destruct (ncall nw b mu tol sg 5 eq_refl) as [[] ? ? ? ? ? ? ? ? ? ? ? ? ? ? ? ? ?]. split; [split; assumption|assumption..]. }
  destruct (C45_incomplete_transform_leaks _ _ _ _ _ _ _ _ _ _ _ _ _ _ _ _ HC) as (s' & H1 & _ & H2).
  - intros j Hj. done.
  - intros H. by apply (H FNull); [isin|].
  - exists s'. split; [exact H1|]. apply (H2 9%nat). lia.
Qed.
End ex.
Local Open Scope R_scope.
Definition Ar : list R -> list R := @A0 RN. Definition Br : list R -> list R := @B0 RN.
Lemma z : @zero RN = 0. Proof. apply zero_RN. Qed.
Lemma rop : real_op 2 1 (@A0 ER) (@B0 ER) Ar Br.
Proof.
  split.
  - split; [done|]. intros a [|x1 [|x2 [|]]] [|y1 [|y2 [|]]]; try done. intros _ _ [|i] Hi; [|lia]. unfold Ar, A0, vlin, at_. simpl. lra.
  - split; [done|]. intros [|x1 [|x2 [|]]] [|y1 [|]]; try done. intros _ _. unfold dot, Br, Ar, A0, B0, at_. cbn [length Rsum nth]. try rewrite z. lra.
  - intros [|x1 [|x2 [|]]]; done.
  - intros [|y1 [|]]; done.
Qed.
Lemma rows : unit_rows 1 Ar Br.
Proof. intros [|y1 [|]]; done. Qed.
Lemma rW : real_op 2 2 (@W0 ER) (@W0 ER) (fun x => x) (fun x => x).
Proof.
  split; [|split; [done|]|done|done].
  - split; [done|]. intros a v w Lv Lw i Hi. rewrite nth_vlin by lia. lra.
  - intros x y Lx Ly. done.
Qed.
Definition o (nc : Z) : @NestaOpts ER := @mkNOpt ER (Fin (1 / 100)) (Fin (1 / 1000)) (Fin (1 / 10)) nc 0.
Lemma start : starts_positive 2 (Br [3]).
Proof. exists 0%nat. split; [simpl; lia|]. left. split; [lia|]. unfold Br, B0, at_. cbn [nth]. lra. Qed.
(** the call returns, and what it returns is feasible *)
Example c40 : exists s' x, @nesta ER (@call ER) 2 1 0 1 (@ax ER (Fin 1)) (o 5) (@s0 ER (Fin 3)) = Ok 0%Z s' /\ @seg ER s' (Ptr 0 0) (fin x) /\ feasible Ar [3] (1 / 10) x.
Proof.
  assert (HC := @ncall ER (Fin 1) (Fin 3) (Fin (1 / 100)) (Fin (1 / 1000)) (Fin (1 / 10)) 5 eq_refl).
  destruct (@C45_success_releases ER _ _ _ _ _ _ _ _ _ _ _ _ _ _ _ _ HC (@gr ER _) (@comp ER _) (or_introl eq_refl)) as (s' & xs & E & _).
  destruct (C40_feasible (@call ER) 2 1 2 (@A0 ER) (@B0 ER) (@W0 ER) (@W0 ER) [] (fun _ => True) (@ax ER (Fin 1)) 0 1 [3] (o 5) (@s0 ER (Fin 3)) s' Ar Br (fun x => x) (fun x => x) (1 / 10) (1 / 100) 1) as (x & Sx & _ & Hf);
    [exact HC|exact rop|exact rows|exact rW|done|lra|done|lra|done|lra|right; exact start|exact E|].
  exists s', x. split; [exact E|]. split; [exact Sx|exact Hf].
Qed.
Example c42 : exists s', @last_mu_tol ER (@call ER) 2 1 (@ax ER (Fin 1)) (o 5) (@s0 ER (Fin 3)) = Ok (Some (Fin (1 / 100), Fin (1 / 1000))) s'.
Proof.
  apply (C42_continuation_ends (@call ER) 2 1 2 (@A0 ER) (@B0 ER) (@W0 ER) (@W0 ER) [] (fun _ => True) (@ax ER (Fin 1)) 0 1 [3] (o 5) (@s0 ER (Fin 3)) Br (fun x => x));
    [by apply (@ncall ER)|apply (@gr ER)|apply (@comp ER)|done|intros v Lv; split; [done|by apply rop]|done|done|lra|done|lra|done|exact start].
Qed.
Example c43 : exists M s', @first_mu ER (@call ER) 1 (@ax ER (Fin 1)) (o 5) (@s0 ER (Fin (-3))) = Ok (Some (Fin (9 / 10 * M))) s' /\
   (forall i, (i < 2)%nat -> Rabs (nth i (Br [-3]) 0) <= M) /\ exists i, (i < 2)%nat /\ M = Rabs (nth i (Br [-3]) 0).
Proof.
  apply (C43_initial_smoothing (@call ER) 2 1 2 (@A0 ER) (@B0 ER) (@W0 ER) (@W0 ER) [] (fun _ => True) (@ax ER (Fin 1)) 0 1 [-3] (o 5) (@s0 ER (Fin (-3))) Br (fun x => x));
    [by apply (@ncall ER)|apply (@gr ER)|apply (@comp ER)|done|intros v Lv; split; [done|by apply rop]|done|lia].
Qed.
(** C66: b = 0 *)
Example c66 : exists s', @nesta ER (@call ER) 2 1 0 1 (@ax ER (Fin 1)) (o 5) (@s0 ER (Fin 0)) = Ok 0%Z s' /\ nothing_finite 2 s' (Ptr 0 0).
Proof.
  assert (HC := @ncall ER (Fin 1) (Fin 0) (Fin (1 / 100)) (Fin (1 / 1000)) (Fin (1 / 10)) 5 eq_refl).
  destruct (@C45_success_releases ER _ _ _ _ _ _ _ _ _ _ _ _ _ _ _ _ HC (@gr ER _) (@comp ER _) (or_introl eq_refl)) as (s' & xs & E & _).
  assert (HN : ~ starts_positive 2 (Br [0])).
  { clear. intros (i & Hi & H). unfold Br, B0, at_ in H. rewrite z in H. destruct i as [|[|i]]; cbn [nth length] in Hi, H; [| |exfalso; simpl in Hi; lia]; (destruct H as [[_ H]|H]; [by apply H|exact (Rlt_irrefl _ H)]). }
  exists s'. split; [exact E|].
  apply (C66_zero_start (@call ER) 2 1 2 (@A0 ER) (@B0 ER) (@W0 ER) (@W0 ER) [] (fun _ => True) (@ax ER (Fin 1)) 0 1 [0] (o 5) (@s0 ER (Fin 0)) s' Br (fun x => x) (1 / 100));
   [exact HC|clear; lia|clear; intros v Lv; split; [done|by apply rop]|clear; done|clear; done|clear; lra|clear; done|exact HN|exact E].
Qed.
Example c67 : exists s', @nesta ER (@call ER) 2 1 0 1 (@ax ER (Fin 0)) (o 5) (@s0 ER (Fin 3)) = Ok 0%Z s' /\ nothing_finite 2 s' (Ptr 0 0).
Proof.
  assert (HC := @ncall ER (Fin 0) (Fin 3) (Fin (1 / 100)) (Fin (1 / 1000)) (Fin (1 / 10)) 5 eq_refl).
  destruct (@C45_success_releases ER _ _ _ _ _ _ _ _ _ _ _ _ _ _ _ _ HC (@gr ER _) (@comp ER _) (or_introl eq_refl)) as (s' & xs & E & _).
  exists s'. split; [exact E|].
  eapply C67_zero_norm; [exact HC|clear; done|clear; done|exact E].
Qed.
(** C39, C41: the arrays in blocks 0.. *)
Definition w0 (x g : list R) (b : R) : @st ER := @state_of ER [@full ER (fin x); @full ER (fin g); @fresh ER 2; @full ER (fin (Br [b])); @fresh ER 2; @fresh ER 2; @full ER [Fin b]].
Definition NP0 : @NProb ER := mkNP Null 2 1 2 Null (Ptr 0 0) (Ptr 2 0) Null (Ptr 3 0) (Ptr 1 0) Null (Ptr 4 0) (Ptr 5 0) (Ptr 6 0) (@ax ER (Fin 1)) (Fin (1 / 10)) (Fin 1).
Lemma pcall x g b : length x = 2%nat -> length g = 2%nat -> @proj_call ER (@call ER) 2 1 (@A0 ER) (@B0 ER) [] (fun _ => True) NP0 0 1 2 3 4 5 6 (fin x) (fin g) (fin (Br [b])) (fin [b]) (w0 x g b).
Proof.
  intros Lx Lg. split; try done; try (apply (@state_of_seg ER); done); try (by rewrite fin_length); try (eapply (@state_of_wok ER); [done|simpl; lia]).
  - apply (ops (N := ER) (Fin 1)).
  - apply (ops (N := ER) (Fin 1)).
  - apply (bool_decide_unpack _). vm_compute. done.
  - intros ? _. apply not_elem_of_nil.
Qed.
Example c39 : exists s' v, @nesta_project ER (@call ER) NP0 (Fin (1 / 2)) (Ptr 0 0) (Ptr 1 0) (Ptr 2 0) (w0 [5; 6] [1; -1] 3) = Ok tt s' /\ @seg ER s' (Ptr 2 0) (fin v) /\
  length v = 2%nat /\ feasible Ar [3] (1 / 10) v /\
  forall x, length x = 2%nat -> feasible Ar [3] (1 / 10) x -> prox (1 / (1 / 2)) [5; 6] [1; -1] v + 1 / (1 / 2) / 2 * nrm2sq (vlin 1 x (-1) v) <= prox (1 / (1 / 2)) [5; 6] [1; -1] x.
Proof.
  apply (C39_projection (@call ER) 2 1 (@A0 ER) (@B0 ER) [] (fun _ => True) NP0 0 1 2 3 4 5 6 [5; 6] [1; -1] [3] _ Ar Br (1 / 10) 1 (1 / 2)); [by apply pcall|exact rop|exact rows|done|lra|done|lra|lra].
Qed.
Example c41 : exists s' f g, @nesta_feval ER (@call ER) NP0 (Fin (1 / 2)) (w0 [5; 6] [1; -1] 3) = Ok (Fin (f [5; 6])) s' /\ @seg ER s' (Ptr 1 0) (fin g) /\
   (forall x, length x = 2%nat -> is_smooth_norm (1 / 2) x (f x) /\ 0 <= nrm1 x - f x <= INR 2 * (1 / 2 / 2)) /\ gradient_at f [5; 6] g.
Proof.
  apply (C41_evaluation (@call ER) 2 2 (@W0 ER) (@W0 ER) [] (fun _ => True) NP0 0 1 4 5 [5; 6] _ (fun x => x) (fun x => x) (1 / 2)); [|exact rW|lra].
  split; try done; try (apply (@state_of_seg ER); done); try (eapply (@state_of_wok ER); [done|simpl; lia]).
  - apply (ops (N := ER) (Fin 1)).
  - apply (ops (N := ER) (Fin 1)).
  - apply (bool_decide_unpack _). vm_compute. done.
  - intros ? _. apply not_elem_of_nil.
Qed.
Example c44 : exists s', (let* f := @new_fifo ER in let* f := @push_all ER f (fin [1; 2; 3; 4; 5; 6; 7; 8; 9; 10; 11; 12]) in @mean_fifo ER f) (@s0 ER (Fin 0)) = Ok (Fin (75 / 10)) s'.
Proof.
  destruct (C44_mean_of_last_ten [1; 2; 3; 4; 5; 6; 7; 8; 9; 10; 11; 12] (@s0 ER (Fin 0))) as (s' & E); [apply state_unborn|done|done|].
  exists s'. rewrite E. do 2 f_equal. unfold mean_last, last_n. simpl. lra.
Qed.
Definition v0 (x gs : list R) : @st ER := @state_of ER [@full ER (fin x); @full ER (fin x); @fresh ER 2; @fresh ER 2; @full ER (fin (Br [3])); @fresh ER 2; @full ER (fin gs); @fresh ER 2; @fresh ER 2; @full ER [Fin 3]; @full ER (f_v (@f_reset ER))].
Definition NP1 : @NProb ER := mkNP Null 2 1 2 (Ptr 0 0) (Ptr 1 0) (Ptr 2 0) (Ptr 3 0) (Ptr 4 0) (Ptr 5 0) (Ptr 6 0) (Ptr 7 0) (Ptr 8 0) (Ptr 9 0) (@ax ER (Fin 1)) (Fin (1 / 10)) (Fin 1).
Lemma work x gs vs c s : length x = 2%nat -> length gs = 2%nat -> 
  @at_fifo ER s 10 (@f_pushes ER (@f_reset ER) vs) c -> (forall b, b <> 10%nat -> dm s !! b = dm (v0 x gs) !! b) -> al s = al (v0 x gs) ->
  @nesta_work ER (@call ER) 2 1 2 (@A0 ER) (@B0 ER) (@W0 ER) (@W0 ER) [] (fun _ => True) NP1 (fin [3]) (fin (Br [3])) (fin x) (fin x) (fin gs) vs c s.
Proof.
  intros Lx Lg Hf Hs Ha.
  assert (SG : forall b xs, b <> 10%nat -> @seg ER (v0 x gs) (Ptr b 0) xs -> @seg ER s (Ptr b 0) xs) by (intros b xs Hb H i v Hi; unfold cell; rewrite Hs by done; by apply H).
  assert (WO : forall b k, b <> 10%nat -> wok (v0 x gs) (Ptr b 0) k -> wok s (Ptr b 0) k) by (intros b k Hb H i Hi; unfold cell; rewrite Hs by done; by apply H).
  apply (NestaWork _ _ _ _ _ _ _ _ _ _ _ _ _ _ _ _ _ _ _ (@ax ER (Fin 1)) Null 0 1 2 3 4 5 6 7 8 9 (Fin (1 / 10)) (Fin 1) 10); try done.
  - apply (ops (N := ER)).
  - apply (bool_decide_unpack _). vm_compute. done.
  - intros ? _. apply not_elem_of_nil.
  - simpl; lia.
  - split; try done; try (apply SG; [done|apply (@state_of_seg ER); done]); try (cbn [i_x i_gs]; by rewrite fin_length); try (apply WO; [done|eapply (@state_of_wok ER); [done|simpl; lia]]).
    intros b Hb. unfold is_aligned. by rewrite Ha.
Qed.
Lemma work0 x gs : length x = 2%nat -> length gs = 2%nat -> @nesta_work ER (@call ER) 2 1 2 (@A0 ER) (@B0 ER) (@W0 ER) (@W0 ER) [] (fun _ => True) NP1 (fin [3]) (fin (Br [3])) (fin x) (fin x) (fin gs) [] (mkFifo (Ptr 10 0) 0 (Ptr 10 0)) (v0 x gs).
Proof. intros Lx Lg. apply work; try done. split; [|split; [apply f_reset_ok|done]]. apply (@state_of_seg ER). done. Qed.
Example c44_first : exists c' s', @nesta_iter ER (@call ER) NP1 2 (Fin 1) (Fin (1 / 10)) 0 (mkFifo (Ptr 10 0) 0 (Ptr 10 0)) (v0 [3; 0] [0; 0]) = Ok (Go c') s'.
Proof. apply (C44_first_iteration (@call ER) 2 1 2 (@A0 ER) (@B0 ER) (@W0 ER) (@W0 ER) [] (fun _ => True) NP1 (fin [3]) (fin (Br [3])) (fin [3; 0]) (fin [3; 0]) (fin [0; 0]) _ _ _ 0%nat). by apply work0. Qed.
(** one queued value 2, the point (3,0): |f - 2|/2 decides *)
Example c44_stop : exists c s c' s' f, is_smooth_norm 1 [3; 0] f /\
    @nesta_iter ER (@call ER) NP1 2 (Fin 1) (Fin (1 / 10)) 1 c s = Ok (if Rlt_dec (Rabs (f - mean_last 10 [2]) / mean_last 10 [2]) (1 / 10) then Stop c' else Go c') s' /\
    @mean_fifo ER c' s' = Ok (Fin (mean_last 10 ([2] ++ [f]))) s'.
Proof.
  destruct (@push_all_run ER (fin [2]) (v0 [3; 0] [0; 0]) 10 f_reset (mkFifo (Ptr 10 0) 0 (Ptr 10 0))) as (c & s & _ & Ht & Hf).
  { split; [|split; [apply f_reset_ok|done]]. apply (@state_of_seg ER). done. }
  exists c, s.
  apply (C44_stopping_test (@call ER) 2 1 2 (@A0 ER) (@B0 ER) (@W0 ER) (@W0 ER) [] (fun _ => True) NP1 (fin [3]) (fin (Br [3])) (fin [3; 0]) [3; 0] (fin [0; 0]) [2] c 1 (1 / 10) 1%nat s (fun x => x) (fun x => x)).
  - apply work; [done|done|exact Hf| |apply Ht]. intros b Hb. apply Ht. apply not_elem_of_cons. split; [done|apply not_elem_of_nil].
  - exact rW.
  - lra.
  - done.
  - done.
  - unfold mean_last, last_n. simpl. lra.
Qed.
(** more rows than unknowns: W^T x = (x, -2x), b = 1 *)
Definition W1 (x : list er) : list er := [@at_ ER x 0; er_mul (Fin (-2)) (@at_ ER x 0)].
Definition V1 (x : list er) : list er := [er_add (@at_ ER x 0) (er_mul (Fin (-2)) (@at_ ER x 1))].
Definition W1r (x : list R) : list R := [nth 0 x 0; -2 * nth 0 x 0].
Definition V1r (x : list R) : list R := [nth 0 x 0 + -2 * nth 1 x 0].
Definition I1 (x : list er) : list er := x.
Definition call1 (f : fptr) : ptr -> ptr -> @M ER unit :=
  match f with
  | Fn (F_user 0) => @op_of ER 1 1 I1 | Fn (F_user 1) => @op_of ER 1 2 W1 | Fn (F_user 2) => @op_of ER 2 1 V1
  | _ => fun _ _ => undef UbUninit
  end.
Definition ax1 : @AxFuns ER := @mkAx ER 1 1 1 2 (Fin 3) (u 0) (u 0) FNull FNull FNull (u 2) (u 1) (u 3) (u 3) FNull.
Definition s2 : @st ER := @state_of ER [@fresh ER 1; @full ER [Fin 1]].
End NestaEx.

(** ** C43, second half: with p > m the parameter can be smaller than nine tenths of the largest coefficient *)
Theorem C43_more_rows_refuted : exists call m n p A B Wt Wm F J ax bx bb bv opts s Ar Br Wr Vr M s',
  @nesta_call ER call m n p A B Wt Wm F J ax bx bb (fin bv) opts s /\ granted s 11 /\ complete ax /\ queue_aligned s /\
  real_op m n A B Ar Br /\ unit_rows n Ar Br /\ real_op m p Wt Wm Wr Vr /\
  @first_mu ER call bb ax opts s = Ok (Some (Fin (9 / 10 * M))) s' /\ exists i, (i < p)%nat /\ M < Rabs (nth i (Wr (Br bv)) 0).
Proof.
  exists NestaEx.call1, 1%nat, 1%nat, 2%nat, NestaEx.I1, NestaEx.I1, NestaEx.W1, NestaEx.V1, [], (fun _ => True), NestaEx.ax1, 0%nat, 1%nat, [1], (NestaEx.o 5), NestaEx.s2,
    (fun x => x), (fun x => x), NestaEx.W1r, NestaEx.V1r, 1.
  assert (HC : @nesta_call ER NestaEx.call1 1 1 2 NestaEx.I1 NestaEx.I1 NestaEx.W1 NestaEx.V1 [] (fun _ => True) NestaEx.ax1 0 1 (fin [1]) (NestaEx.o 5) NestaEx.s2).
  { split; try done; try (apply (@state_of_seg ER); done); try (simpl; lia); try apply not_elem_of_nil.
    - split; try done; try (apply (@op_of_oper ER); done). lia.
    - apply (@state_unborn ER).
    - intros c Hc. by apply elem_of_nil in Hc.
    - eapply (@state_of_wok ER); [done|simpl; lia]. }
  assert (HG : @granted ER NestaEx.s2 11) by (intros j Hj; done).
  assert (HK : @complete ER NestaEx.ax1) by (intros f Hf; repeat (apply elem_of_cons in Hf as [->|Hf]; [done|]); by apply elem_of_nil in Hf).
  assert (HQ : @queue_aligned ER NestaEx.s2) by done.
  assert (R1 : real_op 1 1 NestaEx.I1 NestaEx.I1 (fun x => x) (fun x => x)).
  { split; [|split; [done|]|done|done]; [|intros x y Lx Ly; done]. split; [done|]. intros a v w Lv Lw i Hi. rewrite nth_vlin by lia. lra. }
  assert (R2 : real_op 1 2 NestaEx.W1 NestaEx.V1 NestaEx.W1r NestaEx.V1r).
  { split.
    - split; [done|]. intros a v w Lv Lw i Hi. unfold NestaEx.W1r. destruct i as [|[|i]]; [| |lia]; cbn [nth]; rewrite nth_vlin by lia; lra.
    - split; [done|]. intros [|x1 [|]] [|y1 [|y2 [|]]]; try done. intros _ _. unfold dot, NestaEx.W1r, NestaEx.V1r. cbn [length Rsum nth]. lra.
    - intros [|x1 [|]]; try done.
    - intros [|x1 [|x2 [|]]]; try done. }
  pose proof HC as [[HA HB HWt HW HJs Hp] Em En Ep Hn Hu HJ HF Hbx Hbb Hne HxF HbF Sb Lb Wx Al Hc].
  destruct (@begin_run ER NestaEx.call1 1 1 2 NestaEx.I1 NestaEx.I1 NestaEx.W1 NestaEx.V1 [] (fun _ => True) NestaEx.ax1 HA HB HWt HW Hp HJs NestaEx.s2 0 1 (fin [1]) (NestaEx.o 5)
    Hu Em En Ep HJ HF Hbx Hbb Hne HxF HbF Sb Lb Wx Al HG (proj1 (@complete_fields ER _) HK) HQ) as (s1 & E1 & _).
  exists s1. split; [exact HC|]. split; [exact HG|]. split; [exact HK|]. split; [exact HQ|]. split; [exact R1|]. split; [clear; done|]. split; [exact R2|]. split.
  - unfold first_mu. rewrite (bind_ok _ _ _ _ _ E1). unfold ret. clear - R2. do 3 f_equal.
    destruct (mu0_max 1 2 NestaEx.W1 [1] NestaEx.W1r ltac:(lia) eq_refl) as (M & EM & H1 & i & Hi & H2). { intros v Lv. split; [done|by apply R2]. }
    change (NestaEx.I1 (fin [1])) with (fin [1]). rewrite EM. do 2 f_equal.
    specialize (H1 0%nat ltac:(lia)). cbn [Nat.ltb Nat.leb NestaEx.W1r nth] in H1. rewrite Rabs_right in H1 by lra.
    destruct i as [|[|i]]; [| |lia]; cbn [Nat.ltb Nat.leb NestaEx.W1r nth] in H2; [rewrite Rabs_right in H2 by lra|]; lra.
  - clear. exists 1%nat. split; [lia|]. cbn [NestaEx.W1r nth]. rewrite Rabs_left by lra. lra.
Qed.


Print Assumptions C43_more_rows_refuted.
