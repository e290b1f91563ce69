(** * C11-C18: anisotropic TV denoising by split Bregman (src/bregman.c). *)
From Coq Require Import ZArith Lia Reals Lra Psatz.
From stdpp Require Import base numbers gmap list.
From Verif Require Import Mem M_Math M_TV M_Status M_Bregman P_Mem P_Loop P_Math P_MathR P_TV P_TVR S_Mem P_Touch P_Own P_CG P_CGR
  P_Bregman P_Breg2 P_Breg3 L_Sum S_Vec S_Img L_Lin L_ER P_BregR P_BregX T_TV.

(** ** C11 *)
Section C11.
Local Open Scope R_scope.
(** d is the one and only minimiser of g *)
Definition unique_min (g : R -> R) (d : R) : Prop := forall e, e <> d -> g d < g e.
Lemma shrink_min (g x : R) : 0 <= g -> unique_min (fun d => g * Rabs d + (d - x) ^ 2 / 2) (@shrink RN g x).
Proof.
  intros Hg e He. destruct (shrink_sub g x Hg) as [H1 H2]. set (d := @shrink RN g x : R) in *.
  pose proof (sub_ineq g (x - d) d e H1 H2) as H3.
  assert (0 < (e - d) ^ 2) by nra. cbn [T RN] in *. nra.
Qed.
Theorem C11_shrink_is_prox (s : @st RN) (x d : ptr) (xs : list R) (n : nat) (g : R) :
  is_aligned s x = true -> is_aligned s d = true -> @seg RN s x xs -> length xs = n -> wok s d n -> disj d n x n -> 0 <= g ->
  exists ds : list R, @breg_shrink1 RN (Z.of_nat n) x d g s = Ok tt (@wr RN d ds s) /\ length ds = n /\
    forall i, (i < n)%nat -> unique_min (fun t => g * Rabs t + (t - nth i xs 0) ^ 2 / 2) (nth i ds 0).
Proof.
  intros Ax Ad Hx Lx Wd Hd Hg. exists (@shrink_of RN n g xs).
  split; [by apply (@shrink1_run RN)|]. split; [apply (@tab_length RN)|].
  intros i Hi. unfold shrink_of. rewrite nth_tab by done. rewrite at_RN. by apply shrink_min.
Qed.
Example C11_case :
  let s := @state_of RN [@full RN [3; -1; 1/2; -5]; @fresh RN 4] in
  exists s', @breg_shrink1 RN 4 (Ptr 0 0) (Ptr 1 0) 2 s = Ok tt s' /\ @seg RN s' (Ptr 1 0) [1; 0; 0; -3].
Proof.
  intros s. assert (E : @breg_shrink1 RN 4 (Ptr 0 0) (Ptr 1 0) 2 s = Ok tt (@wr RN (Ptr 1 0) (@shrink_of RN 4 2 [3; -1; 1/2; -5]) s)).
  { apply (@shrink1_run RN s 4); try done; [by apply (@state_of_seg RN)|by eapply (@state_of_wok RN)]. }
  eexists. split; [exact E|].
  assert (EL : [1; 0; 0; -3] = @shrink_of RN 4 2 [3; -1; 1/2; -5]).
  { apply (list_eq_nth 4); [done|apply (@tab_length RN)|]. intros i Hi. unfold shrink_of. rewrite nth_tab by done. rewrite at_RN, shrink_RN.
    destruct i as [|[|[|[|]]]]; [..|lia]; cbn [nth]; destruct (Rle_dec _ _); try lra; unfold Rmax; destruct (Rle_dec _ _); lra. }
  rewrite EL. apply (@seg_wr RN). by eapply (@state_of_wok RN).
Qed.
End C11.

(** ** C12 *)
Section C12.
Local Open Scope R_scope.
(** the image that is 1 at pixel (i,j) and 0 elsewhere *)
Definition spike (n m i j : nat) : list R := map (fun k => if (k =? i * m + j)%nat then 1 else 0) (seq 0 (n * m)).
(** [tvop_at] is the operator mu I + la (DxT Dx + DyT Dy) built from the C functions of TV.c, and
    breg_hess_eval evaluates it *)
Theorem C12_operator (n m : nat) (mu la : R) (u : list R) :
  (2 <= n)%nat -> (2 <= m)%nat -> fits n m -> length u = (n * m)%nat ->
  (exists Dxu DxTDxu Dyu DyTDyu : list R,
     @computes RN (@l1c_Dx RN (Z.of_nat n) (Z.of_nat m) 1) (n * m) u Dxu /\
     @computes RN (@l1c_DxT RN (Z.of_nat n) (Z.of_nat m) 1) (n * m) Dxu DxTDxu /\
     @computes RN (@l1c_Dy RN (Z.of_nat n) (Z.of_nat m) 1) (n * m) u Dyu /\
     @computes RN (@l1c_DyT RN (Z.of_nat n) (Z.of_nat m) 1) (n * m) Dyu DyTDyu /\
     forall i j, (i < n)%nat -> (j < m)%nat ->
       tvop_at n m mu la u i j = mu * px m u i j + la * (px m DxTDxu i j + px m DyTDyu i j)) /\
  (forall (s : @st RN) bx by_ b1 b2, NoDup [bx; by_; b1; b2] -> @seg RN s (Ptr bx 0) u ->
     wok s (Ptr by_ 0) (n * m) -> wok s (Ptr b1 0) (n * m) -> wok s (Ptr b2 0) (n * m) ->
     exists s' (y : list R), @breg_hess_eval RN (Z.of_nat n) (Z.of_nat m) (Ptr bx 0) (Ptr by_ 0) mu la (Ptr b1 0) (Ptr b2 0) s = Ok tt s' /\
       @seg RN s' (Ptr by_ 0) y /\ touch [by_; b1; b2] s s' /\
       forall i j, (i < n)%nat -> (j < m)%nat -> px m y i j = tvop_at n m mu la u i j).
Proof.
  intros Hn Hm Hf Lu. split.
  - exists (@Dx_of RN n m 1 u), (@DxT_of RN n m 1 (@Dx_of RN n m 1 u)), (@Dy_of RN n m 1 u), (@DyT_of RN n m 1 (@Dy_of RN n m 1 u)).
    split_and!.
    + apply (@tv_computes RN (@l1c_Dx RN) (@Dx_of RN)); auto; [|apply (@tab_length RN)]. intros s X D HP. apply (@Dx_run RN); [done|lia].
    + apply (@tv_computes RN (@l1c_DxT RN) (@DxT_of RN)); auto; [|apply (@tab_length RN)..]. intros s X D HP. apply (@DxT_run RN); [done|lia].
    + apply (@tv_computes RN (@l1c_Dy RN) (@Dy_of RN)); auto; [|apply (@tab_length RN)]. intros s X D HP. apply (@Dy_run RN); [done|lia].
    + apply (@tv_computes RN (@l1c_DyT RN) (@DyT_of RN)); auto; [|apply (@tab_length RN)..]. intros s X D HP. by apply (@DyT_run RN).
    + intros i j Hi Hj. rewrite <- hess_at by done.
      pose proof (Hop_D n m mu la Hn Hm u Lu (i * m + j) ltac:(nia)) as E. unfold Hop in E. unfold px at 1. rewrite E. unfold px. cbn [T RN]. lra.
  - intros s bx by_ b1 b2 Hd Hx Wy W1 W2.
    destruct (@hess_eval_run RN s n m bx by_ b1 b2 u mu la Hn Hm Hf Hd Hx Lu Wy W1 W2) as (s' & E & Sy & Ht).
    exists s', (@hess_of RN n m mu la u). split; [done|]. split; [done|]. split; [done|]. intros i j Hi Hj. by apply hess_at.
Qed.
Theorem C12_inverse_diagonal (s : @st RN) (D : ptr) (n m : nat) (mu la : R) :
  (2 <= n)%nat -> (2 <= m)%nat -> fits n m -> 0 < mu -> 0 < la -> wok s D (n * m) ->
  exists ds : list R, @hess_inv_diag RN (Z.of_nat n) (Z.of_nat m) mu la D s = Ok tt (@wr RN D ds s) /\ length ds = (n * m)%nat /\
    forall i j, (i < n)%nat -> (j < m)%nat ->
      0 < tvop_at n m mu la (spike n m i j) i j /\ px m ds i j = 1 / tvop_at n m mu la (spike n m i j) i j.
Proof.
  intros Hn Hm Hf Hmu Hla Wd. exists (@hdiag_of RN n m mu la). split; [by apply (@hess_inv_diag_run RN)|]. split; [apply (@tab_length RN)|].
  intros i j Hi Hj.
  assert (P : forall a b, (a < n)%nat -> (b < m)%nat -> px m (spike n m i j) a b = if ((a =? i) && (b =? j))%nat then 1 else 0).
  { intros a b Ha Hb. unfold px, spike. rewrite (P_CGR.nth_map_seq (fun k => if (k =? i * m + j)%nat then 1 else 0)) by nia.
    destruct (Nat.eqb_spec (a * m + b) (i * m + j)), (Nat.eqb_spec a i), (Nat.eqb_spec b j); cbn [andb]; try done; subst; exfalso; nia. }
  assert (E : tvop_at n m mu la (spike n m i j) i j = mu + dg n m (i * m + j) * la).
  { rewrite dg_ij by done. unfold tvop_at, when. rewrite (P i j) by done. rewrite !Nat.eqb_refl. cbn [andb].
    destruct (Nat.ltb_spec (j + 1) m), (Nat.ltb_spec 0 j), (Nat.ltb_spec (i + 1) n), (Nat.ltb_spec 0 i);
      rewrite ?(P i (j + 1)%nat), ?(P i (j - 1)%nat), ?(P (i + 1)%nat j), ?(P (i - 1)%nat j) by lia;
      rewrite ?(proj2 (Nat.eqb_neq (j + 1) j)), ?(proj2 (Nat.eqb_neq (j - 1) j)), ?(proj2 (Nat.eqb_neq (i + 1) i)), ?(proj2 (Nat.eqb_neq (i - 1) i)) by lia;
      rewrite ?andb_false_r; cbn [andb]; lra. }
  rewrite E. pose proof (den_pos n m mu la Hmu Hla (i * m + j)).
  split; [done|]. unfold px. rewrite (hdiag_RN n m mu la) by nia. unfold Rdiv. by rewrite Rmult_1_l.
Qed.
Example C12_case : forall s : @st RN, wok s (Ptr 0 0) 9 ->
  exists ds, @hess_inv_diag RN 3 3 1 2 (Ptr 0 0) s = Ok tt (@wr RN (Ptr 0 0) ds s) /\
    px 3 ds 0 0 = 1/5 /\ px 3 ds 0 1 = 1/7 /\ px 3 ds 1 1 = 1/9.
Proof.
  intros s Hw. destruct (C12_inverse_diagonal s (Ptr 0 0) 3 3 1 2) as (ds & E & _ & H); try lia; try lra; [unfold fits, INT_MAX; simpl; lia|done|].
  exists ds. split; [exact E|]. rewrite (proj2 (H 0 0 ltac:(lia) ltac:(lia))%nat), (proj2 (H 0 1 ltac:(lia) ltac:(lia))%nat), (proj2 (H 1 1 ltac:(lia) ltac:(lia))%nat).
  unfold tvop_at, when, px, spike. simpl. lra.
Qed.
End C12.

(** ** C13, C14: the relaxation sweeps.
    u and rhs are separate arrays; dwork is the scratch row and D holds the diagonal written by hess_inv_diag. *)
Section C1314.
Local Open Scope R_scope.
Context (n m : nat) (mu la : R) (b u : list R).
Context (Hn : (2 <= n)%nat) (Hm : (2 <= m)%nat) (Hf : fits n m) (Hmu : 0 < mu) (Hla : 0 < la).
Context (Lu : length u = (n * m)%nat) (Lb : length b = (n * m)%nat).
Let q := 4 * la / (mu + 4 * la).
(** what one call of breg_anis_guass_seidel leaves in u *)
Definition gs_gives (u' : list R) : Prop :=
  length u' = (n * m)%nat /\
  forall (s : @st RN) U B, @seg RN s U u -> @seg RN s B b -> disj U (n * m) B (n * m) ->
    @breg_anis_guass_seidel RN (Z.of_nat n) (Z.of_nat m) U B mu la s = Ok tt (@wr RN U u' s).
(** what hess_inv_diag followed by breg_anis_jacobi leaves in u *)
Definition jacobi_gives (u' : list R) : Prop :=
  length u' = (n * m)%nat /\
  forall (s : @st RN) bu bw br bd, NoDup [bu; bw; br; bd] ->
    (forall c, c ∈ [bu; bw; bd] -> is_aligned s (Ptr c 0) = true) ->
    @seg RN s (Ptr bu 0) u -> @seg RN s (Ptr br 0) b -> wok s (Ptr bw 0) (n * m) -> wok s (Ptr bd 0) (n * m) ->
    exists s', (@hess_inv_diag RN (Z.of_nat n) (Z.of_nat m) mu la (Ptr bd 0) ;!
                @breg_anis_jacobi RN (Z.of_nat n) (Z.of_nat m) (Ptr bu 0) (Ptr bw 0) (Ptr br 0) (Ptr bd 0) la) s = Ok tt s' /\
      @seg RN s' (Ptr bu 0) u' /\ touch [bu; bw; bd] s s'.
Lemma gs_gives_of : gs_gives (@gs_of RN n m mu la u b).
Proof. split; [by rewrite (@gs_of_len RN)|]. intros s U B HU HB HD. by apply (@gs_run RN). Qed.
Lemma jacobi_gives_of : jacobi_gives (@jac_of RN n m la u b (@hdiag_of RN n m mu la)).
Proof.
  split; [apply (@jac_of_len RN)|]. intros s bu bw br bd HD HA Hu Hb Ww Wd.
  pose proof (@hess_inv_diag_run RN s n m (Ptr bd 0) mu la Hn Hm Hf Wd) as E.
  pose proof HD as HD'. distinct HD'. clear HD'.
  assert (Ld : length (@hdiag_of RN n m mu la) = (n * m)%nat) by apply (@tab_length RN).
  assert (Sd : @seg RN (@wr RN (Ptr bd 0) (@hdiag_of RN n m mu la) s) (Ptr bd 0) (@hdiag_of RN n m mu la)) by (apply (@seg_wr RN); by rewrite Ld).
  assert (Td : touch [bd] s (@wr RN (Ptr bd 0) (@hdiag_of RN n m mu la) s)) by (apply touch_wr; left).
  set (s1 := @wr RN (Ptr bd 0) (@hdiag_of RN n m mu la) s) in *. clearbody s1.
  rewrite (bind_ok _ _ _ _ _ E).
  destruct (@jacobi_run RN s1 n m bu bw br bd u b (@hdiag_of RN n m mu la) la) as (s' & E2 & S2 & T2); auto; try lia.
  - rewrite (touch_aligned _ _ _ _ Td). apply HA. left.
  - rewrite (touch_aligned _ _ _ _ Td). apply HA. right; left.
  - rewrite (touch_aligned _ _ _ _ Td). apply HA. right; right; left.
  - eapply touch_seg; [exact Td|notin|exact Hu].
  - eapply touch_wok; [exact Td|exact Ww].
  - eapply touch_seg; [exact Td|notin|exact Hb].
  - exists s'. split; [exact E2|]. split; [exact S2|].
    eapply touch_trans; [eapply touch_weaken; [exact Td|]|eapply touch_weaken; [exact T2|]].
    + intros c Hc. apply elem_of_list_singleton in Hc as ->. isin.
    + intros c Hc. apply elem_of_cons in Hc as [->|Hc]; [isin|]. apply elem_of_list_singleton in Hc as ->. isin.
Qed.

Theorem C13_fixed_points :
  exists ug uj, gs_gives ug /\ jacobi_gives uj /\
    (ug = u <-> solves n m mu la b u) /\ (uj = u <-> solves n m mu la b u) /\
    exists v, length v = (n * m)%nat /\ solves n m mu la b v /\ forall v', length v' = (n * m)%nat -> solves n m mu la b v' -> v' = v.
Proof.
  eexists _, _. split; [exact gs_gives_of|]. split; [exact jacobi_gives_of|].
  split; [by apply gs_fix|]. split; [by apply jac_fix|].
  destruct (solves_exists n m mu la Hn Hm Hmu Hla b Lb) as (v & Lv & Hv). exists v. split; [done|]. split; [done|].
  intros v' Lv' Hv'. by apply (solves_unique n m mu la Hn Hm Hmu Hla b).
Qed.
Theorem C14_contraction (v : list R) (E : R) :
  solves n m mu la b v -> 0 <= E -> within E u v (n * m) ->
  0 < q < 1 /\
  (exists ug, gs_gives ug /\ within (q * E) ug v (n * m)) /\
  (exists uj, jacobi_gives uj /\ within (q * E) uj v (n * m)) /\
  (* the loop of the solver: k Gauss-Seidel sweeps *)
  (forall k, exists uk, length uk = (n * m)%nat /\ within (q ^ k * E) uk v (n * m) /\
     forall (s : @st RN) U B, @seg RN s U u -> @seg RN s B b -> disj U (n * m) B (n * m) ->
       @for_ RN 1 (Z.of_nat k + 1) (fun _ => @breg_anis_guass_seidel RN (Z.of_nat n) (Z.of_nat m) U B mu la) s = Ok tt (@wr RN U uk s)).
Proof.
  intros Hv HE HW. split; [by apply qq_bounds|]. split_and!.
  - eexists. split; [exact gs_gives_of|]. by apply (gs_contract n m mu la).
  - eexists. split; [exact jacobi_gives_of|]. by apply (jac_contract n m mu la).
  - intros k. exists (@sweeps RN k n m mu la b u). split; [by rewrite (@sweeps_len RN)|]. split; [by apply (sweeps_contract n m mu la)|].
    intros s U B HU HB HD.
    assert (WU : wok s U (n * m)) by (rewrite <- Lu; by apply (@seg_wok RN) in HU).
    pose (I := fun k => @wr RN U (@sweeps RN k n m mu la b u) s).
    assert (EI : I 0%nat = s) by (by apply (@wr_self RN)). rewrite <- EI at 1.
    replace k with (Z.to_nat (Z.of_nat k + 1 - 1)) at 2 by lia.
    apply (@for_inv RN I). intros i Hi. unfold I at 1.
    assert (Ls : forall k, length (@sweeps RN k n m mu la b u) = (n * m)%nat) by (intros j; by rewrite (@sweeps_len RN)).
    rewrite (@gs_run RN _ n m U (@sweeps RN i n m mu la b u) B b mu la Hn Hm Hf).
    + rewrite (@wr_overwrite' RN); [done|by rewrite Ls|]. rewrite (@gs_of_len RN). done.
    + apply (@seg_wr RN). by rewrite Ls.
    + done.
    + apply (@seg_wr_disj RN); [by rewrite Ls|done|rewrite Ls; pose proof Lb as Lb'; cbn [T RN] in Lb' |- *; by rewrite Lb'].
    + done.
    + done.
Qed.
End C1314.

(** a 2 x 2 image with two columns of different grey: f = (4 0; 4 0), mu = 1, lambda = 2.
    The right side of the first u-step is 7 -3 7 -3 when d = (-2 0; -2 0) and b = (-1/2 0; -1/2 0). *)
Module Ex.
Local Open Scope R_scope.
Definition f : list R := [4; 0; 4; 0].
Definition u : list R := [3; 1; 3; 1].
Definition dx : list R := [-2; 0; -2; 0].
Definition bx : list R := [-1/2; 0; -1/2; 0].
Definition z : list R := [0; 0; 0; 0].
Definition rs : list R := [7; -3; 7; -3].
Lemma rs_solved : solves 2 2 1 2 rs u.
Proof.
  intros i j Hi Hj. destruct i as [|[|]]; [| |lia]; (destruct j as [|[|]]; [| |lia]); unfold tvop_at, when, px; simpl; lra.
Qed.
Lemma sweeps_u J : @sweeps RN J 2 2 1 2 rs u = u.
Proof. induction J as [|J IH]; [done|]. cbn [sweeps]. rewrite IH. apply gs_fix; try lia; try lra; [done|]. apply rs_solved. Qed.
Ltac four := apply (list_eq_nth 4); [apply (@tab_length RN)|done|]; intros i Hi.
Lemma Dx_u : @Dx_of RN 2 2 1 u = dx.
Proof.
  four. destruct i as [|[|[|[|]]]]; [..|lia]; unfold Dx_of, row_of, tab, ddiff_at, at_, zero, ofZ; simpl; lra.
Qed.
Lemma Dy_u : @Dy_of RN 2 2 1 u = z.
Proof. four. rewrite Dy_RN by done. destruct i as [|[|[|[|]]]]; [..|lia]; simpl; lra. Qed.
Lemma mx_x : @mxpy_of RN 4 bx dx = [-3/2; 0; -3/2; 0].
Proof. four. unfold mxpy_of. rewrite nth_tab by done. rewrite !at_RN. destruct i as [|[|[|[|]]]]; [..|lia]; simpl; lra. Qed.
Lemma mx_y : @mxpy_of RN 4 z z = z.
Proof. four. unfold mxpy_of. rewrite nth_tab by done. rewrite !at_RN. destruct i as [|[|[|[|]]]]; [..|lia]; simpl; lra. Qed.
Lemma rhs_is : @rhs_of RN 2 2 f dx bx z z 1 2 = rs.
Proof.
  unfold rhs_of. change (2 * 2)%nat with 4%nat. rewrite mx_x, mx_y. four.
  rewrite !nth_axpy by done. rewrite one_RN, DyT_RN by done.
  destruct i as [|[|[|[|]]]]; [..|lia]; unfold DxT_of, row_of, tab, ddiffT_at, at_, zero, ofZ; simpl; lra.
Qed.
Lemma zx_is : @axpy_of RN 4 1 bx dx = [-5/2; 0; -5/2; 0].
Proof. four. rewrite nth_axpy by done. destruct i as [|[|[|[|]]]]; [..|lia]; simpl; lra. Qed.
Lemma zy_is : @axpy_of RN 4 1 z z = z.
Proof. four. rewrite nth_axpy by done. destruct i as [|[|[|[|]]]]; [..|lia]; simpl; lra. Qed.
Lemma sh_x : @shrink_of RN 4 (1 / 2) [-5/2; 0; -5/2; 0] = dx.
Proof.
  four. unfold shrink_of. rewrite nth_tab by done. rewrite at_RN, shrink_RN. destruct i as [|[|[|[|]]]]; [..|lia]; cbn [nth dx];
  destruct (Rle_dec _ _); try lra; unfold Rmax; destruct (Rle_dec _ _); lra.
Qed.
Lemma sh_y : @shrink_of RN 4 (1 / 2) z = z.
Proof.
  four. unfold shrink_of. rewrite nth_tab by done. rewrite at_RN, shrink_RN. destruct i as [|[|[|[|]]]]; [..|lia]; cbn [nth z];
  destruct (Rle_dec _ _); try lra; unfold Rmax; destruct (Rle_dec _ _); lra.
Qed.
Lemma mz_x : @mxpy_of RN 4 dx [-5/2; 0; -5/2; 0] = bx.
Proof. four. unfold mxpy_of. rewrite nth_tab by done. rewrite !at_RN. destruct i as [|[|[|[|]]]]; [..|lia]; simpl; lra. Qed.
Definition c : @bst RN := @mkBst RN u u dx z bx z.
Lemma fixed J : @breg_S RN 2 2 J 1 2 f c = c.
Proof.
  unfold breg_S, c. cbn [b_u b_u1 b_dx b_dy b_bx b_by]. rewrite rhs_is, sweeps_u, one_RN, Dx_u, Dy_u.
  change (2 * 2)%nat with 4%nat. change (@div RN 1 2) with (1 / 2). rewrite zx_is, zy_is, sh_x, sh_y, mz_x, mx_y. done.
Qed.
End Ex.

Example C13_case : exists u', gs_gives 2 2 1 2 Ex.rs Ex.u u' /\ u' = Ex.u.
Proof.
  destruct (C13_fixed_points 2 2 1 2 Ex.rs Ex.u) as (ug & uj & Hg & _ & HF & _); try lia; try lra; try done.
  exists ug. split; [done|]. apply HF. apply Ex.rs_solved.
Qed.
(** from the wrong image 10 0 0 0 one sweep leaves an error of at most 8/9 * 7 *)
Example C14_case : exists u', gs_gives 2 2 1 2 Ex.rs [10; 0; 0; 0]%R u' /\ within (8/9 * 7) u' Ex.u 4.
Proof.
  destruct (C14_contraction 2 2 1 2 Ex.rs [10; 0; 0; 0]%R ltac:(lia) ltac:(lia) ltac:(done) ltac:(lra) ltac:(lra) ltac:(done) ltac:(done) Ex.u 7)
    as (_ & (ug & Hg & HW) & _).
  - apply Ex.rs_solved.
  - lra.
  - intros k Hk. destruct k as [|[|[|[|]]]]; [..|lia]; simpl; unfold Rabs; destruct (Rcase_abs _); lra.
  - exists ug. split; [done|]. replace (8 / 9 * 7)%R with (4 * 2 / (1 + 4 * 2) * 7)%R by lra. done.
Qed.

(** ** C15: allocation failures, every arithmetic *)
(** the same blocks are allocated in s and s', with the same sizes *)
Definition same_blocks `{N : Num} (s s' : st) : Prop :=
  (forall b, length <$> dm s' !! b = length <$> dm s !! b) /\ (forall b, pm s' !! b = pm s !! b) /\
  (forall b, om s' !! b = om s !! b) /\ im s' = im s.
(** A call: f and uk are separate arrays of n*m doubles, uk aligned; [unborn s] says that block numbers
    not handed out yet are not in use. *)
Record breg_call `{N : Num} (n m : nat) (bu bf : nat) (fs : list T) (mi mj : Z) (s : st) : Prop := {
  bc_n : (2 <= n)%nat; bc_m : (2 <= m)%nat; bc_fits : fits n m; bc_mi : (mi < INT_MAX)%Z; bc_mj : (mj < INT_MAX)%Z;
  bc_unborn : unborn s; bc_ne : bu <> bf;
  bc_f : seg s (Ptr bf 0) fs; bc_len : length fs = (n * m)%nat; bc_u : wok s (Ptr bu 0) (n * m); bc_al : is_aligned s (Ptr bu 0) = true
}.
Section C15.
Context `{N : Num}.
Theorem C15_allocation_failures (n m bu bf : nat) (fs : list T) (mu tol : T) (mi mj : Z) (s : st) :
  breg_call n m bu bf fs mi mj s ->
  exists rc s', l1c_breg_anistropic_TV (Z.of_nat n) (Z.of_nat m) (Ptr bu 0) (Ptr bf 0) mu tol mi mj s = Ok rc s' /\
    same_blocks s s' /\ seg s' (Ptr bf 0) fs /\ (forall b, b <> bu -> dm s' !! b = dm s !! b) /\
    (* one of the eight allocation requests is refused *)
    ((exists j, (j < 8)%nat /\ alloc_ok (en s) (nx s + j) = false) <-> rc = L1C_OUT_OF_MEMORY) /\
    (rc = L1C_OUT_OF_MEMORY -> forall b, dm s' !! b = dm s !! b) /\
    (rc <> L1C_OUT_OF_MEMORY -> rc = L1C_SUCCESS /\ exists ys, seg s' (Ptr bu 0) ys /\ length ys = (n * m)%nat).
Proof.
  intros [Hn Hm Hf Hmi Hmj Hub Hne Sf Lf Wu Au].
  destruct (breg_run s n m bu bf fs mu tol mi mj Hf Hub) as [H1 H2].
  assert (HD : some_refused s 8 \/ all_granted s 8).
  { unfold some_refused, all_granted. generalize 8%nat. intros k. induction k as [|k [(j & Hj & E)|IH]].
    - right. intros j Hj. lia.
    - left. exists j. split; [lia|done].
    - destruct (alloc_ok (en s) (nx s + k)) eqn:E.
      + right. intros j Hj. destruct (decide (j = k)) as [->|]; [done|apply IH; lia].
      + left. exists k. split; [lia|done]. }
  assert (SB : forall W s', ledger W [] s s' -> same_blocks s s').
  { intros W s' HL. split_and!; intros; apply HL; apply not_elem_of_nil. }
  destruct HD as [HR|HG].
  - destruct (H1 HR) as (s' & E & HL & _ & _). exists L1C_OUT_OF_MEMORY, s'. split; [done|]. split; [by eapply SB|].
    assert (HE : forall b, dm s' !! b = dm s !! b) by (intros b; apply HL; apply not_elem_of_nil).
    split. { intros i v Hi. specialize (Sf i v Hi). unfold cell in *. by rewrite HE. }
    split; [intros; apply HE|]. split; [split; [done|intros _; exact HR]|]. split; [done|]. done.
  - destruct (H2 Hn Hm Hmi Hmj Hne Sf Lf Wu Au HG) as (K & s' & HS & E & Su & HL & _ & _).
    exists L1C_SUCCESS, s'. split; [done|]. split; [by eapply SB|].
    assert (HE : forall b, b <> bu -> dm s' !! b = dm s !! b) by (intros b Hb; apply HL; [by apply not_elem_of_cons; split; [|apply not_elem_of_nil]|apply not_elem_of_nil]).
    split. { intros i v Hi. specialize (Sf i v Hi). unfold cell in *. by rewrite HE by done. }
    split; [done|]. split.
    { split; [|done]. intros (j & Hj & Ej). rewrite (HG j Hj) in Ej. done. }
    split; [done|]. intros _. split; [done|]. eexists. split; [exact Su|]. by apply breg_at_len.
Qed.
End C15.
Lemma state_unborn `{N : Num} (bl : list (list (option T))) : unborn (state_of bl).
Proof.
  intros b Hb. simpl in *. split_and!; [|done..]. apply not_elem_of_list_to_map_1. rewrite fst_zip by (rewrite seq_length; lia).
  rewrite elem_of_seq. lia.
Qed.
(** the third of the eight requests fails *)
Example C15_case : exists s, @breg_call RN 2 2 1 0 Ex.f 5 2 s /\ alloc_ok (en s) (nx s + 2) = false.
Proof.
  set (s0 := @state_of RN [@full RN Ex.f; @fresh RN 4]).
  exists (@mkSt RN (dm s0) (im s0) (pm s0) (om s0) (al s0) (nx s0) (@mkEnv RN (fun k => negb (k =? 4)%nat) (fun _ => true) (fun _ _ _ => 0%R)) (gl s0)).
  split; [|done]. split; try done; try lia.
  - intros b Hb. apply (state_unborn [@full RN Ex.f; @fresh RN 4] b Hb).
  - apply (@state_of_seg RN [@full RN Ex.f; @fresh RN 4] 0 Ex.f). done.
  - by apply (@state_of_wok RN [@full RN Ex.f; @fresh RN 4] 1 (@fresh RN 4) 4).
Qed.

(** ** C16-C18: one iteration of the solver.
    Extended reals: exact arithmetic in which division by zero gives an infinity or NaN. *)
Record iter_mem `{N : Num} (n m : nat) (bu bf b0 bdx bdy bbx bby b1 b2 br : nat) (f u u1 dx dy bx by_ : list T) (mj : Z) (s : st) : Prop := {
  im_n : (2 <= n)%nat; im_m : (2 <= m)%nat; im_fits : fits n m; im_mj : (mj < INT_MAX)%Z;
  im_sep : NoDup [bu; bf; b0; bdx; bdy; bbx; bby; b1; b2; br];
  im_al : forall q, q ∈ [bu; b0; bdx; bdy; bbx; bby; b1; b2; br] -> is_aligned s (Ptr q 0) = true;
  im_len : Forall (fun l => length l = (n * m)%nat) [f; u; u1; dx; dy; bx; by_];
  im_f : seg s (Ptr bf 0) f; im_u : seg s (Ptr bu 0) u; im_u1 : seg s (Ptr b0 0) u1;
  im_dx : seg s (Ptr bdx 0) dx; im_dy : seg s (Ptr bdy 0) dy; im_bx : seg s (Ptr bbx 0) bx; im_by : seg s (Ptr bby 0) by_;
  im_wk : wok s (Ptr b1 0) (n * m) /\ wok s (Ptr b2 0) (n * m) /\ wok s (Ptr br 0) (n * m)
}.
Section iter.
Local Open Scope R_scope.
Context (n m : nat) (bu bf b0 bdx bdy bbx bby b1 b2 br : nat) (f u u1 dx dy bx by_ : list R) (mj : Z) (mu : R) (tol : er) (s : @st ER).
Context (Hmu : 0 < mu).
Let run := @breg_iter ER (Z.of_nat n) (Z.of_nat m) (Z.of_nat (n * m)) (Ptr bu 0) (Ptr bf 0) (Fin mu) tol (@mul ER (@two ER) (Fin mu)) mj
      (Ptr b0 0) (Ptr bdx 0) (Ptr bdy 0) (Ptr bbx 0) (Ptr bby 0) (Ptr b1 0) (Ptr b2 0) (Ptr br 0) s.
Let mem := @iter_mem ER n m bu bf b0 bdx bdy bbx bby b1 b2 br (fin f) (fin u) (fin u1) (fin dx) (fin dy) (fin bx) (fin by_) mj s.
Lemma iter_facts : mem -> let c' := @breg_S RN n m (Z.to_nat mj) mu (2 * mu) f (@mkBst RN u u1 dx dy bx by_) in
  exists stop s', run = Ok stop s' /\ @bholds ER s' bu b0 bdx bdy bbx bby (bfin c') /\ touch (bblocks bu b0 bdx bdy bbx bby b1 b2 br) s s'.
Proof.
  intros [Hn Hm Hf Hmj HD HA HL Sf Su Su1 Sdx Sdy Sbx Sby (W1 & W2 & Wr)] c'.
  repeat match goal with H : Forall _ (_ :: _) |- _ => apply Forall_cons in H as [? HL] end.
  unfold run. rewrite lambda_fin.
  destruct (@iter_run ER s n m bu bf b0 bdx bdy bbx bby b1 b2 br (fin f) (bfin (@mkBst RN u u1 dx dy bx by_)) (Fin mu) tol (Fin (2 * mu)) mj) as (s' & E & HB & HT); auto.
  { unfold blen, bfin. cbn [b_u b_u1 b_dx b_dy b_bx b_by]. split_and!; done. }
  { unfold bholds, bfin. cbn [b_u b_u1 b_dx b_dy b_bx b_by]. split_and!; done. }
  rewrite breg_S_fin in E, HB by lra. eexists _, s'. split; [exact E|]. done.
Qed.

Theorem C18_multipliers_bounded : mem ->
  exists stop s' (u' dx' dy' bx' by' : list R), run = Ok stop s' /\
    @seg ER s' (Ptr bu 0) (fin u') /\ @seg ER s' (Ptr bdx 0) (fin dx') /\ @seg ER s' (Ptr bdy 0) (fin dy') /\
    @seg ER s' (Ptr bbx 0) (fin bx') /\ @seg ER s' (Ptr bby 0) (fin by') /\
    Forall (fun l => length l = (n * m)%nat) [u'; dx'; dy'; bx'; by'] /\
    forall i, (i < n * m)%nat ->
      (Rabs (nth i bx' 0) <= 1 / (2 * mu) /\ 2 * mu * (nth i bx' 0 * nth i dx' 0) = Rabs (nth i dx' 0)) /\
      (Rabs (nth i by' 0) <= 1 / (2 * mu) /\ 2 * mu * (nth i by' 0 * nth i dy' 0) = Rabs (nth i dy' 0)).
Proof.
  intros HM. destruct (iter_facts HM) as (stop & s' & E & (S1 & S2 & S3 & S4 & S5 & S6) & _).
  eexists stop, s', _, _, _, _, _. split; [exact E|]. split; [exact S1|]. split; [exact S3|]. split; [exact S4|]. split; [exact S5|]. split; [exact S6|].
  split.
  - assert (Lu : length u = (n * m)%nat).
    { pose proof (im_len _ _ _ _ _ _ _ _ _ _ _ _ _ _ _ _ _ _ _ _ _ HM) as HL. apply Forall_cons in HL as [_ HL].
      apply Forall_cons in HL as [HL _]. cbn [T ER] in HL. by rewrite fin_length in HL. }
    destruct (@breg_S_len RN n m (Z.to_nat mj) mu (2 * mu) f (@mkBst RN u u1 dx dy bx by_) Lu) as (L1 & _ & L3 & L4 & L5 & L6).
    repeat (apply Forall_cons; split; [done|]). by apply Forall_nil.
  - intros i Hi. apply iter_mult; [lra|done].
Qed.

Theorem C16_fixed_state_optimal : (1 <= mj)%Z -> mem ->
  forall stop s', run = Ok stop s' ->
  @seg ER s' (Ptr bu 0) (fin u) -> @seg ER s' (Ptr bdx 0) (fin dx) -> @seg ER s' (Ptr bdy 0) (fin dy) ->
  @seg ER s' (Ptr bbx 0) (fin bx) -> @seg ER s' (Ptr bby 0) (fin by_) ->
  forall v, length v = (n * m)%nat ->
    tvobj n m mu f v >= tvobj n m mu f u + mu / 2 * Rsum (n * m) (fun k => (nth k v 0 - nth k u 0) ^ 2).
Proof.
  intros Hmj HM stop s' E U DX DY BX BY v Lv.
  destruct (iter_facts HM) as (stop2 & s2 & E2 & (S1 & S2 & S3 & S4 & S5 & S6) & _).
  rewrite E in E2. injection E2 as <- <-.
  pose proof (im_len _ _ _ _ _ _ _ _ _ _ _ _ _ _ _ _ _ _ _ _ _ HM) as HL.
  assert (LL : Forall (fun l : list R => length l = (n * m)%nat) [f; u; u1; dx; dy; bx; by_]).
  { repeat (apply Forall_cons in HL as [? HL]). cbn [T ER] in *. rewrite fin_length in *.
    repeat (apply Forall_cons; split; [done|]). by apply Forall_nil. }
  assert (Lu : length u = (n * m)%nat) by (apply Forall_cons in LL as [_ LL]; by apply Forall_cons in LL as [LL _]).
  destruct (@breg_S_len RN n m (Z.to_nat mj) mu (2 * mu) f (@mkBst RN u u1 dx dy bx by_) Lu) as (L1 & L2 & L3 & L4 & L5 & L6).
  set (c' := @breg_S RN n m (Z.to_nat mj) mu (2 * mu) f (@mkBst RN u u1 dx dy bx by_)) in *.
  repeat (apply Forall_cons in LL as [? LL]).
  assert (INJ : forall (p : ptr) (a b : list R), @seg ER s' p (fin a) -> @seg ER s' p (fin b) -> length a = length b -> a = b).
  { intros p a b Ha Hb Hab. apply fin_inj. apply (@seg_inj ER s' p); [done|done|]. cbn [T ER]. by rewrite !fin_length. }
  assert (E1 : b_u c' = u) by (eapply INJ; [exact S1|exact U|etransitivity; [exact L1|by symmetry]]).
  assert (E3 : b_dx c' = dx) by (eapply INJ; [exact S3|exact DX|etransitivity; [exact L3|by symmetry]]).
  assert (E4 : b_dy c' = dy) by (eapply INJ; [exact S4|exact DY|etransitivity; [exact L4|by symmetry]]).
  assert (E5 : b_bx c' = bx) by (eapply INJ; [exact S5|exact BX|etransitivity; [exact L5|by symmetry]]).
  assert (E6 : b_by c' = by_) by (eapply INJ; [exact S6|exact BY|etransitivity; [exact L6|by symmetry]]).
  set (c := @mkBst RN u u dx dy bx by_).
  assert (HF : @breg_S RN n m (Z.to_nat mj) mu (2 * mu) f c = c).
  { change (@breg_S RN n m (Z.to_nat mj) mu (2 * mu) f c) with c'. transitivity (@mkBst RN (b_u c') (b_u c') (b_dx c') (b_dy c') (b_bx c') (b_by c')); [done|].
    unfold c. by rewrite E1, E3, E4, E5, E6. }
  apply (fx_min n m mu (2 * mu)) with (J := Z.to_nat mj) (c := c); try done; try lia; try lra.
  - apply HM.
  - apply HM.
Qed.
End iter.
(** a state with the ten arrays in blocks 0..9 *)
Definition it_st (f u u1 dx dy bx by_ : list R) : @st ER :=
  @state_of ER ([@full ER (fin u); @full ER (fin f); @full ER (fin u1); @full ER (fin dx); @full ER (fin dy); @full ER (fin bx); @full ER (fin by_)] ++
    replicate 3 (@fresh ER (length f))).
Lemma it_st_mem n m f u u1 dx dy bx by_ mj : (2 <= n)%nat -> (2 <= m)%nat -> fits n m -> (mj < INT_MAX)%Z ->
  Forall (fun l => length l = (n * m)%nat) [f; u; u1; dx; dy; bx; by_] ->
  @iter_mem ER n m 0 1 2 3 4 5 6 7 8 9 (fin f) (fin u) (fin u1) (fin dx) (fin dy) (fin bx) (fin by_) mj (it_st f u u1 dx dy bx by_).
Proof.
  intros Hn Hm Hf Hmj HL. split; try done.
  - apply NoDup_ListNoDup. apply (seq_NoDup 10 0).
  - repeat (apply Forall_cons in HL as [? HL]). repeat (apply Forall_cons; split; [cbn [T ER]; by rewrite fin_length|]). by apply Forall_nil.
  - by apply (@state_of_seg ER).
  - by apply (@state_of_seg ER).
  - by apply (@state_of_seg ER).
  - by apply (@state_of_seg ER).
  - by apply (@state_of_seg ER).
  - by apply (@state_of_seg ER).
  - by apply (@state_of_seg ER).
  - apply Forall_cons in HL as [L _].
    split_and!; (eapply (@state_of_wok ER); [reflexivity|unfold fresh; rewrite replicate_length; lia]).
Qed.
Section ex16.
Local Open Scope R_scope.
(** the state of module Ex is reproduced by an iteration, so (3 1; 3 1) is the best image for (4 0; 4 0) *)
Example C16_case (mj : Z) : (1 <= mj < INT_MAX)%Z ->
  let s := it_st Ex.f Ex.u Ex.u Ex.dx Ex.z Ex.bx Ex.z in
  exists stop s', @breg_iter ER 2 2 4 (Ptr 0 0) (Ptr 1 0) (Fin 1) (Fin 0) (@mul ER (@two ER) (Fin 1)) mj
      (Ptr 2 0) (Ptr 3 0) (Ptr 4 0) (Ptr 5 0) (Ptr 6 0) (Ptr 7 0) (Ptr 8 0) (Ptr 9 0) s = Ok stop s' /\
    @seg ER s' (Ptr 0 0) (fin Ex.u) /\ @seg ER s' (Ptr 3 0) (fin Ex.dx) /\ @seg ER s' (Ptr 4 0) (fin Ex.z) /\
    @seg ER s' (Ptr 5 0) (fin Ex.bx) /\ @seg ER s' (Ptr 6 0) (fin Ex.z).
Proof.
  intros Hmj s.
  destruct (iter_facts 2 2 0 1 2 3 4 5 6 7 8 9 Ex.f Ex.u Ex.u Ex.dx Ex.z Ex.bx Ex.z mj 1 (Fin 0) s ltac:(lra)) as (stop & s' & E & HB & _).
  { apply it_st_mem; try done; try lia. repeat (apply Forall_cons; split; [done|]). by apply Forall_nil. }
  exists stop, s'. split; [exact E|].
  assert (EF : @breg_S RN 2 2 (Z.to_nat mj) 1 (2 * 1) Ex.f Ex.c = Ex.c) by (rewrite Rmult_1_r; apply Ex.fixed).
  change (@mkBst RN Ex.u Ex.u Ex.dx Ex.z Ex.bx Ex.z) with Ex.c in HB. rewrite EF in HB.
  destruct HB as (H1 & H2 & H3 & H4 & H5 & H6). exact (conj H1 (conj H3 (conj H4 (conj H5 H6)))).
Qed.
(** Without any sweep (max_jac_iter <= 0) C16 fails: u = f = (4 0; 4 0) is reproduced for ever, although
    (3 1; 3 1) has the smaller objective 6 < 8. *)
Theorem C16_without_sweeps_refuted :
  let d := [-4; 0; -4; 0] in
  let s := it_st Ex.f Ex.f Ex.f d Ex.z Ex.bx Ex.z in
  (exists stop s', @breg_iter ER 2 2 4 (Ptr 0 0) (Ptr 1 0) (Fin 1) (Fin 0) (@mul ER (@two ER) (Fin 1)) 0
      (Ptr 2 0) (Ptr 3 0) (Ptr 4 0) (Ptr 5 0) (Ptr 6 0) (Ptr 7 0) (Ptr 8 0) (Ptr 9 0) s = Ok stop s' /\
    @seg ER s' (Ptr 0 0) (fin Ex.f) /\ @seg ER s' (Ptr 3 0) (fin d) /\ @seg ER s' (Ptr 4 0) (fin Ex.z) /\
    @seg ER s' (Ptr 5 0) (fin Ex.bx) /\ @seg ER s' (Ptr 6 0) (fin Ex.z)) /\
  tvobj 2 2 1 Ex.f Ex.u < tvobj 2 2 1 Ex.f Ex.f.
Proof.
  intros d s. split.
  - destruct (iter_facts 2 2 0 1 2 3 4 5 6 7 8 9 Ex.f Ex.f Ex.f d Ex.z Ex.bx Ex.z 0 1 (Fin 0) s ltac:(lra)) as (stop & s' & E & HB & _).
    { apply it_st_mem; try done; try lia. repeat (apply Forall_cons; split; [done|]). by apply Forall_nil. }
    exists stop, s'. split; [exact E|].
    set (c := @mkBst RN Ex.f Ex.f d Ex.z Ex.bx Ex.z) in *.
    assert (EF : @breg_S RN 2 2 0 1 2 Ex.f c = c).
    { unfold breg_S, c. cbn [b_u b_u1 b_dx b_dy b_bx b_by sweeps]. rewrite one_RN.
      change (2 * 2)%nat with 4%nat. change (@div RN 1 2) with (1 / 2).
      assert (E1 : @Dx_of RN 2 2 1 Ex.f = d).
      { Ex.four. destruct i as [|[|[|[|]]]]; [..|lia]; unfold Dx_of, row_of, tab, ddiff_at, at_, zero, ofZ; simpl; lra. }
      assert (E2 : @Dy_of RN 2 2 1 Ex.f = Ex.z).
      { Ex.four. rewrite Dy_RN by done. destruct i as [|[|[|[|]]]]; [..|lia]; simpl; lra. }
      assert (E3 : @axpy_of RN 4 1 Ex.bx d = [-9/2; 0; -9/2; 0]).
      { Ex.four. rewrite nth_axpy by done. destruct i as [|[|[|[|]]]]; [..|lia]; simpl; lra. }
      assert (E4 : @shrink_of RN 4 (1 / 2) [-9/2; 0; -9/2; 0] = d).
      { Ex.four. unfold shrink_of. rewrite nth_tab by done. rewrite at_RN, shrink_RN. destruct i as [|[|[|[|]]]]; [..|lia]; cbn [nth d];
        destruct (Rle_dec _ _); try lra; unfold Rmax; destruct (Rle_dec _ _); lra. }
      assert (E5 : @mxpy_of RN 4 d [-9/2; 0; -9/2; 0] = Ex.bx).
      { Ex.four. unfold mxpy_of. rewrite nth_tab by done. rewrite !at_RN. destruct i as [|[|[|[|]]]]; [..|lia]; simpl; lra. }
      rewrite E1, E2, E3, Ex.zy_is, E4, Ex.sh_y, E5, Ex.mx_y. done. }
    rewrite Rmult_1_r in HB. change (Z.to_nat 0) with 0%nat in HB. rewrite EF in HB.
    destruct HB as (H1 & H2 & H3 & H4 & H5 & H6). exact (conj H1 (conj H3 (conj H4 (conj H5 H6)))).
  - unfold tvobj, when, px, Ex.f, Ex.u. simpl. rewrite ?Rabs_R0.
    replace (1 - 3) with (-2) by lra. replace (0 - 4) with (-4) by lra. replace (3 - 3) with 0 by lra. replace (1 - 1) with 0 by lra.
    replace (4 - 4) with 0 by lra. replace (0 - 0) with 0 by lra. rewrite !Rabs_R0. rewrite !Rabs_left by lra. lra.
Qed.
Example C18_case : @iter_mem ER 2 2 0 1 2 3 4 5 6 7 8 9 (fin Ex.f) (fin Ex.f) (fin Ex.z) (fin Ex.z) (fin Ex.z) (fin Ex.z) (fin Ex.z) 3
    (it_st Ex.f Ex.f Ex.z Ex.z Ex.z Ex.z Ex.z).
Proof. apply it_st_mem; try done; try lia. repeat (apply Forall_cons; split; [done|]). by apply Forall_nil. Qed.
End ex16.

(** ** C17 *)
(** no refused allocation request *)
Definition memory_granted `{N : Num} (s : st) : Prop := forall j, (j < 8)%nat -> alloc_ok (en s) (nx s + j) = true.
Theorem C17_no_iterations `{N : Num} (n m bu bf : nat) (fs : list T) (mu tol : T) (mi mj : Z) (s : st) :
  breg_call n m bu bf fs mi mj s -> memory_granted s -> (mi <= 0)%Z ->
  exists s', l1c_breg_anistropic_TV (Z.of_nat n) (Z.of_nat m) (Ptr bu 0) (Ptr bf 0) mu tol mi mj s = Ok L1C_SUCCESS s' /\ seg s' (Ptr bu 0) fs.
Proof.
  intros [Hn Hm Hf Hmi Hmj Hub Hne Sf Lf Wu Au] HG H0.
  destruct (proj2 (breg_run s n m bu bf fs mu tol mi mj Hf Hub) Hn Hm Hmi Hmj Hne Sf Lf Wu Au HG) as (K & s' & [HK _] & E & Su & _).
  exists s'. split; [done|]. replace K with 0%nat in Su by lia. exact Su.
Qed.
Theorem C17_constant_image (n m bu bf : nat) (v mu : R) (tol : er) (mi mj : Z) (s : @st ER) :
  (0 < mu)%R -> @breg_call ER n m bu bf (repeat (Fin v) (n * m)) mi mj s -> memory_granted s ->
  exists s', @l1c_breg_anistropic_TV ER (Z.of_nat n) (Z.of_nat m) (Ptr bu 0) (Ptr bf 0) (Fin mu) tol mi mj s = Ok L1C_SUCCESS s' /\
    @seg ER s' (Ptr bu 0) (repeat (Fin v) (n * m)).
Proof.
  intros Hmu [Hn Hm Hf Hmi Hmj Hub Hne Sf Lf Wu Au] HG.
  destruct (proj2 (@breg_run ER s n m bu bf _ (Fin mu) tol mi mj Hf Hub) Hn Hm Hmi Hmj Hne Sf Lf Wu Au HG) as (K & s' & _ & E & Su & _).
  exists s'. split; [done|].
  assert (EC : repeat (Fin v) (n * m) = fin (@const_of RN (n * m) v)).
  { clear. unfold fin, const_of, tab. generalize 0%nat. induction (n * m)%nat as [|k IH]; intros o; [done|]. cbn. f_equal. apply IH. }
  rewrite EC in Su |- *. rewrite lambda_fin in Su. rewrite breg_at_fin in Su by lra.
  destruct (breg_const n m mu (2 * mu) Hn Hm Hmu ltac:(lra) v (Z.to_nat mj) K) as [EU _]. cbn [bfin b_u] in Su. by rewrite EU in Su.
Qed.
Example C17_case : let fs := repeat (Fin 7) 6 in let s := @state_of ER [@full ER fs; @fresh ER 6] in
  @breg_call ER 2 3 1 0 fs 20 3 s /\ memory_granted s.
Proof.
  split; [|done]. split; try done; try lia; [apply state_unborn|by apply (@state_of_seg ER)|by eapply (@state_of_wok ER)].
Qed.

(** ** C05, the parallel loops of bregman.c *)
Theorem C05_bregman_any_order `{N : Num} (s : st) (x y z : ptr) (xs ys : list T) (n : nat) (gamma : T) (l : list Z) :
  seg s x xs -> seg s y ys -> wok s z n -> length xs = n -> length ys = n -> disj z n x n -> disj z n y n -> l ≡ₚ range 0 (Z.of_nat n) ->
  for_list l (shrink1_body x z gamma) s = for_ 0 (Z.of_nat n) (shrink1_body x z gamma) s /\
  for_list l (mxpy_z_body x y z) s = for_ 0 (Z.of_nat n) (mxpy_z_body x y z) s.
Proof.
  intros Hx Hy Hz Lx Ly D1 D2 Hl. split.
  - by apply (shrink1_loop s n x xs z gamma).
  - by apply (mxpy_z_loop s n x xs y ys z).
Qed.

Print Assumptions C11_shrink_is_prox.
Print Assumptions C12_operator.
Print Assumptions C12_inverse_diagonal.
Print Assumptions C13_fixed_points.
Print Assumptions C14_contraction.
Print Assumptions C15_allocation_failures.
Print Assumptions C16_fixed_state_optimal.
Print Assumptions C16_without_sweeps_refuted.
Print Assumptions C17_no_iterations.
Print Assumptions C17_constant_image.
Print Assumptions C18_multipliers_bounded.
Print Assumptions C05_bregman_any_order.
