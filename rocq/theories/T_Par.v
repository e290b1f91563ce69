(** * C05 and C71: the parallel loops.

    [parallel q lo hi s s'] (S_Par): however the iterations of the loop are distributed over threads
    and however the threads' loads and stores interleave, nothing undefined and no data race happens,
    every execution ends, and the final memory is [s'].  Each theorem says this of one loop for every
    call of the enclosing function whose sequential execution is defined and ends in [s'], together
    with the coarser statement about permuting whole iterations; all for every arithmetic. *)
From Coq Require Import ZArith Lia.
From stdpp Require Import base list relations.
From Verif Require Import P_Loop S_Mem M_Math M_Bregman M_TV M_Newton S_Par M_Par P_Par P_ParLoops.
Local Open Scope Z_scope.

(** ** What the loops of [M_Par] have to do with the sequential functions *)
Section faithful.
Context `{N : Num}.
Theorem C71_accesses_faithful :
  (forall alpha x beta y, implements (daxpby_q alpha x beta y) (daxpby_body alpha x beta y)) /\
  (forall x alpha, implements (init_vec_q x alpha) (init_vec_body x alpha)) /\
  (forall x y z, implements (dxmuly_z_q x y z) (dxmuly_z_body x y z)) /\
  (forall alpha x beta y z, implements (daxpby_z_q alpha x beta y z) (daxpby_z_body alpha x beta y z)) /\
  (forall alpha x y z, implements (daxpy_z_q alpha x y z) (daxpy_z_body alpha x y z)) /\
  (forall x d gamma, implements (shrink1_q x d gamma) (shrink1_body x d gamma)) /\
  (forall x y z, implements (mxpy_z_q x y z) (mxpy_z_body x y z)) /\
  (forall m alpha X D, implements (row_q ddiff_q m alpha X D) (row_body ddiff_z m alpha X D)) /\
  (forall m alpha X D, implements (row_q ddiffT_q m alpha X D) (row_body ddiffT_z m alpha X D)) /\
  (forall m alpha X D, implements (row_q ddiff2_q m alpha X D) (row_body ddiff2_z m alpha X D)) /\
  (forall m alpha X D, implements (Dy_q1 m alpha X D) (Dy_body1 m alpha X D)) /\
  (forall D, implements (Dy_q2 D) (Dy_body2 D)) /\
  (forall n m alpha X D, implements (DyT_q n m alpha X D) (DyT_body n m alpha X D)) /\
  (forall n m alp2 Len X D, implements (DyTDy_q n m alp2 Len X D) (DyTDy_body n m alp2 Len X D)) /\
  (forall P sigx atr tau fe mbt, implements (hess_q P sigx atr tau fe mbt) (hess_body P sigx atr tau fe mbt)) /\
  (forall P, implements (du_q P) (du_body P)).
Proof.
  split; [apply daxpby_imp|].
  split; [apply init_vec_imp|].
  split; [apply dxmuly_z_imp|].
  split; [apply daxpby_z_imp|].
  split; [apply daxpy_z_imp|].
  split; [apply shrink1_imp|].
  split; [apply mxpy_z_imp|].
  split; [intros; apply row_imp, ddiff_imp|].
  split; [intros; apply row_imp, ddiffT_imp|].
  split; [intros; apply row_imp, ddiff2_imp|].
  split; [apply Dy1_imp|].
  split; [apply Dy2_imp|].
  split; [apply DyT_imp|].
  split; [apply DyTDy_imp|].
  split; [apply hess_imp|].
  apply du_imp.
Qed.
End faithful.

(** ** l1c_math.c, bregman.c *)
Section loops.
Context `{N : Num}.
Theorem C71_math_parallel (n : Z) (s s' : st) (x y z : ptr) (alpha beta : T) :
  (l1c_daxpby n alpha x beta y s = Ok tt s' -> parallel (daxpby_q alpha x beta y) 0 n s s') /\
  (l1c_init_vec n x alpha s = Ok tt s' -> parallel (init_vec_q x alpha) 0 n s s') /\
  (l1c_dxmuly_z n x y z s = Ok tt s' -> parallel (dxmuly_z_q x y z) 0 n s s') /\
  (l1c_daxpby_z n alpha x beta y z s = Ok tt s' -> parallel (daxpby_z_q alpha x beta y z) 0 n s s') /\
  (l1c_daxpy_z n alpha x y z s = Ok tt s' -> parallel (daxpy_z_q alpha x y z) 0 n s s') /\
  (breg_shrink1 n x y alpha s = Ok tt s' -> parallel (shrink1_q x y alpha) 0 n s s') /\
  (breg_mxpy_z n x y z s = Ok tt s' -> parallel (mxpy_z_q x y z) 0 n s s').
Proof.
  split_and!; intros H.
  - by apply daxpby_par.
  - by apply init_vec_par.
  - by apply dxmuly_z_par.
  - by apply daxpby_z_par.
  - by apply daxpy_z_par.
  - by apply shrink1_par.
  - by apply mxpy_z_par.
Qed.

(** ** TV.c *)
Theorem C71_tv_parallel (n m : Z) (s s' : st) (X D : ptr) (alpha : T) :
  (1 <= m -> l1c_Dx n m alpha X D s = Ok tt s' -> parallel (row_q ddiff_q m alpha X D) 0 n s s') /\
  (2 <= m -> l1c_DxT n m alpha X D s = Ok tt s' -> parallel (row_q ddiffT_q m alpha X D) 0 n s s') /\
  (2 <= m -> l1c_DxTDx n m alpha X D s = Ok tt s' -> parallel (row_q ddiff2_q m alpha X D) 0 n s s') /\
  (0 <= m -> l1c_Dy n m alpha X D s = Ok tt s' -> exists s1,
     parallel (Dy_q1 m alpha X D) 0 (n - 1) s s1 /\ parallel (Dy_q2 D) ((n - 1) * m) (n * m) s1 s') /\
  (0 <= m -> l1c_DyT n m alpha X D s = Ok tt s' -> parallel (DyT_q n m alpha X D) 0 (n * m) s s') /\
  (0 <= m -> l1c_DyTDy n m alpha X D s = Ok tt s' ->
     parallel (DyTDy_q n m (mul alpha alpha) (n * m) X D) 0 (n * m) s s').
Proof.
  split_and!; intros Hm H.
  - by apply Dx_par.
  - by apply DxT_par.
  - by apply DxTDx_par.
  - destruct (Dy_par n m alpha X D s s' Hm H) as (s1 & [H1 _] & [H2 _]). eauto.
  - by apply DyT_par.
  - by apply DyTDy_par.
Qed.

(** ** l1qc_newton.c *)
(** The arrays written by the loops overlap neither one another nor the arrays read ([separate]); in
    the program they are separate allocations. *)
Theorem C71_newton_parallel (P : Prob) (sigx atr : ptr) (s s' : st) :
  (separate (hess_ws P sigx) (hess_rs P atr) -> hess_grad P sigx atr s = Ok tt s' ->
   exists tau fe v2, ld (pb_sc P) 0 s = Ok tau s /\ ld (pb_sc P) 1 s = Ok fe s /\ v2 = div (opp one) tau /\
     parallel (hess_q P sigx atr tau fe v2) 0 (pb_m P) s s' /\
     forall l, l ≡ₚ range 0 (pb_m P) -> for_list l (hess_body P sigx atr tau fe v2) s = Ok tt s') /\
  (separate [(pb_du P, pb_m P)] (du_rs P) -> for_ 0 (pb_m P) (du_body P) s = Ok tt s' ->
     parallel (du_q P) 0 (pb_m P) s s' /\
     forall l, l ≡ₚ range 0 (pb_m P) -> for_list l (du_body P) s = Ok tt s').
Proof.
  split.
  - intros HS H. unfold hess_grad in H. apply bind_inv in H as (tau & s1 & E1 & H). cbv zeta in H.
    pose proof (ld_keeps _ _ _ _ _ E1) as ->. apply bind_inv in H as (fe & s2 & E2 & H).
    pose proof (ld_keeps _ _ _ _ _ E2) as ->.
    exists tau, fe, (div (opp one) tau). split; [done|]. split; [done|]. split; [done|].
    apply (hess_par P sigx atr tau fe (div (opp one) tau) s s' HS H).
  - intros HS H. apply (du_par P s s' HS H).
Qed.

(** separate allocations are separate *)
Lemma separate_blocks (ws rs : list (ptr * Z)) (bs : list nat) :
  fst <$> (ws ++ rs) = (fun b => Ptr b 0) <$> bs -> NoDup (take (length ws) bs) ->
  (forall b, b ∈ take (length ws) bs -> b ∉ drop (length ws) bs) -> separate ws rs.
Proof.
  intros E Hn Hd.
  assert (E1 : fst <$> ws = (fun b => Ptr b 0) <$> take (length ws) bs).
  { rewrite fmap_take, <- E, fmap_app, take_app_alt; [done|by rewrite fmap_length]. }
  assert (E2 : fst <$> rs = (fun b => Ptr b 0) <$> drop (length ws) bs).
  { rewrite fmap_drop, <- E, fmap_app, drop_app_alt; [done|by rewrite fmap_length]. }
  assert (F1 : forall j p n, ws !! j = Some (p, n) -> exists b, p = Ptr b 0 /\ take (length ws) bs !! j = Some b).
  { intros j p n Hj. assert (H : (fst <$> ws) !! j = Some p) by (by rewrite list_lookup_fmap, Hj).
    rewrite E1, list_lookup_fmap in H. destruct (take (length ws) bs !! j) as [b|]; [|done]. injection H as <-. eauto. }
  split.
  - intros j1 j2 p n q k Hj H1 H2. destruct (F1 _ _ _ H1) as (b1 & -> & L1), (F1 _ _ _ H2) as (b2 & -> & L2).
    simpl. destruct (Nat.eqb_spec b1 b2) as [->|]; [|done]. exfalso. apply Hj. by eapply NoDup_lookup.
  - intros p n q k H1 H2. apply elem_of_list_lookup in H1 as [j1 H1]. destruct (F1 _ _ _ H1) as (b1 & -> & L1).
    assert (Hq : q ∈ fst <$> rs) by (apply elem_of_list_fmap; exists (q, k); auto).
    rewrite E2 in Hq. apply elem_of_list_fmap in Hq as (b2 & -> & Hb2).
    simpl. destruct (Nat.eqb_spec b1 b2) as [->|]; [|done]. exfalso. apply (Hd b2); [|done]. by eapply elem_of_list_lookup_2.
Qed.
End loops.

(** ** Any order of whole iterations, for every loop without a reduction (C05) *)
Section order.
Context `{N : Num}.
Theorem C05_newton_any_order (P : Prob) (sigx atr : ptr) (s s' : st) :
  (separate (hess_ws P sigx) (hess_rs P atr) -> hess_grad P sigx atr s = Ok tt s' ->
   exists tau fe, ld (pb_sc P) 0 s = Ok tau s /\ ld (pb_sc P) 1 s = Ok fe s /\
     forall l, l ≡ₚ range 0 (pb_m P) -> for_list l (hess_body P sigx atr tau fe (div (opp one) tau)) s = Ok tt s') /\
  (separate [(pb_du P, pb_m P)] (du_rs P) -> for_ 0 (pb_m P) (du_body P) s = Ok tt s' ->
   forall l, l ≡ₚ range 0 (pb_m P) -> for_list l (du_body P) s = Ok tt s').
Proof.
  destruct (C71_newton_parallel P sigx atr s s') as [H1 H2]. split.
  - intros HS H. destruct (H1 HS H) as (tau & fe & v & E1 & E2 & -> & _ & HL). eauto.
  - intros HS H. by apply H2.
Qed.
End order.

(** ** Cases *)
Section cases.
Context `{N : Num}.
Variable v : T.
(** two doubles per array; blocks: 0 scalars, 1 fu1, 2 fu2, 3 atr, 4 gradf, 5 sigx, 6 w1p, 7 sig11,
    8 sig12, 9 ntgu, 10 dx, 11 du *)
Definition caseP : Prob := mkProb (Ptr 0 0) 2 2 Null v Null (Ptr 1 0) (Ptr 2 0) (Ptr 6 0) (Ptr 10 0) (Ptr 11 0)
  (Ptr 7 0) (Ptr 8 0) (Ptr 9 0) (Ptr 4 0) Null (fun _ _ => ret tt) (fun _ _ => ret tt) (fun _ _ => ret tt).
Definition caseS : st := state_of [full [v; v; v]; full [v; one]; full [one; v]; full [v; v]; fresh 4;
  fresh 2; fresh 2; fresh 2; fresh 2; fresh 2; full [v; v]; fresh 2].
Example C71_newton_case : exists s' s'' tau fe w,
  parallel (hess_q caseP (Ptr 5 0) (Ptr 3 0) tau fe w) 0 2 caseS s' /\
  for_list [1; 0] (hess_body caseP (Ptr 5 0) (Ptr 3 0) tau fe w) caseS = Ok tt s' /\
  parallel (du_q caseP) 0 2 s' s'' /\ for_list [1; 0] (du_body caseP) s' = Ok tt s''.
Proof.
  assert (E : exists s' s'', hess_grad caseP (Ptr 5 0) (Ptr 3 0) caseS = Ok tt s' /\ for_ 0 2 (du_body caseP) s' = Ok tt s'').
  { assert (E : match hess_grad caseP (Ptr 5 0) (Ptr 3 0) caseS with
      | Ok _ t => match for_ 0 2 (du_body caseP) t with Ok _ _ => true | Ub _ => false end | Ub _ => false end = true)
      by (vm_compute; reflexivity).
    destruct (hess_grad caseP (Ptr 5 0) (Ptr 3 0) caseS) as [[] t|]; [|done].
    destruct (for_ 0 2 (du_body caseP) t) as [[] t'|] eqn:E2; [|done]. exists t, t'. done. }
  destruct E as (s' & s'' & E1 & E2). exists s', s''.
  destruct (C71_newton_parallel caseP (Ptr 5 0) (Ptr 3 0) caseS s') as [H1 _].
  destruct (C71_newton_parallel caseP (Ptr 5 0) (Ptr 3 0) s' s'') as [_ H2].
  destruct H1 as (tau & fe & w & _ & _ & _ & Hp & Ho); [|done|].
  { apply (separate_blocks _ _ [4; 5; 6; 7; 8; 9; 1; 2; 3]%nat); [done|apply (bool_decide_unpack _); vm_compute; done|].
    apply (Forall_forall (fun b => b ∉ [1; 2; 3]%nat) [4; 5; 6; 7; 8; 9]%nat). apply (bool_decide_unpack _). vm_compute. done. }
  destruct H2 as [Hq Hr]; [|done|].
  { apply (separate_blocks _ _ [11; 7; 9; 8; 10]%nat); [done|apply (bool_decide_unpack _); vm_compute; done|].
    apply (Forall_forall (fun b => b ∉ [7; 9; 8; 10]%nat) [11]%nat). apply (bool_decide_unpack _). vm_compute. done. }
  exists tau, fe, w. split; [exact Hp|]. split; [apply Ho, Permutation_swap|]. split; [exact Hq|]. apply Hr, Permutation_swap.
Qed.

(** y = alpha x + beta y with three entries *)
Definition case3 : st := state_of [full [v; one; v]; full [one; v; v]; fresh 3].
Example C71_math_case : exists s', l1c_daxpby 3 v (Ptr 0 0) one (Ptr 1 0) case3 = Ok tt s' /\
  parallel (daxpby_q v (Ptr 0 0) one (Ptr 1 0)) 0 3 case3 s'.
Proof.
  assert (E : exists s', l1c_daxpby 3 v (Ptr 0 0) one (Ptr 1 0) case3 = Ok tt s') by (eexists; vm_compute; reflexivity).
  destruct E as [s' E]. exists s'. split; [done|].
  destruct (C71_math_parallel 3 case3 s' (Ptr 0 0) (Ptr 1 0) Null v one) as [H _]. by apply H.
Qed.
(** the vertical Laplacian of a 3 by 1 image *)
Example C71_tv_case : exists s', l1c_DyTDy 3 1 v (Ptr 0 0) (Ptr 2 0) case3 = Ok tt s' /\
  parallel (DyTDy_q 3 1 (mul v v) 3 (Ptr 0 0) (Ptr 2 0)) 0 3 case3 s'.
Proof.
  assert (E : exists s', l1c_DyTDy 3 1 v (Ptr 0 0) (Ptr 2 0) case3 = Ok tt s') by (eexists; vm_compute; reflexivity).
  destruct E as [s' E]. exists s'. split; [done|].
  destruct (C71_tv_parallel 3 1 case3 s' (Ptr 0 0) (Ptr 2 0) v) as (_ & _ & _ & _ & _ & H). by apply H.
Qed.

(** [parallel] tells a bad loop from a good one: shifting an array in place, y[i] = y[i+1], is fine
    in sequence and has a data race in parallel. *)
Definition shift_q (y : ptr) (i : Z) : prog := PLd y (i + 1) (fun a => PSto y i a PRet).
Example parallel_rejects_shift : exists s',
  for_ 0 2 (fun i => run (shift_q (Ptr 0 0) i)) case3 = Ok tt s' /\ ~ parallel (shift_q (Ptr 0 0)) 0 2 case3 s'.
Proof.
  assert (E : exists s', for_ 0 2 (fun i => run (shift_q (Ptr 0 0) i)) case3 = Ok tt s') by (eexists; vm_compute; reflexivity).
  destruct E as [s' E]. exists s'. split; [done|]. intros H.
  destruct (H [[0]; [1]]) as [_ H1]; [done|].
  destruct (H1 (<[1%nat := PSto (Ptr 0 0) 1 v PRet]> (thread (shift_q (Ptr 0 0)) <$> [[0]; [1]]), case3)) as (_ & Hr & _).
  { apply rtc_once. apply (pstep_ld _ _ 1%nat (Ptr 0 0) 2 (fun a => PSto (Ptr 0 0) 1 a PRet)); [done|]. vm_compute. done. }
  apply Hr. exists 0%nat, 1%nat, (PLd (Ptr 0 0) 1 (fun a => PSto (Ptr 0 0) 0 a PRet)), (PSto (Ptr 0 0) 1 v PRet), false, true, (0%nat, 1).
  repeat split; auto.
Qed.
End cases.

Print Assumptions C71_accesses_faithful.
Print Assumptions C71_math_parallel.
Print Assumptions C71_tv_parallel.
Print Assumptions C71_newton_parallel.
Print Assumptions C05_newton_any_order.
