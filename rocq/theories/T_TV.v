(** * Theorems about src/TV.c (properties C01-C06).

    [n] and [m] are the numbers of rows and columns; [fits n m] says that n*m is an int. *)
From Coq Require Import Reals Lra Lia Psatz ZArith.
From stdpp Require Import base numbers list.
From Verif Require Import P_Loop M_TV P_TV S_Vec P_TVR S_Mem P_TVX.

Definition fits (n m : nat) : Prop := (Z.of_nat (n * m) <= INT_MAX)%Z.
Notation Zn := Z.of_nat (only parsing).

Lemma tv_computes `{N : Num} (op : Z -> Z -> T -> ptr -> ptr -> M unit) (r : nat -> nat -> T -> list T -> list T) n m alpha u :
  (forall s X D, tv_pre s X u D n m -> op (Zn n) (Zn m) alpha X D s = Ok tt (wr D (r n m alpha u) s)) ->
  length (r n m alpha u) = (n * m)%nat -> fits n m -> length u = (n * m)%nat ->
  computes (op (Zn n) (Zn m) alpha) (n * m) u (r n m alpha u).
Proof. intros H Hr Hf Hu. split; [done|]. intros s X D Hs Hw Hd. apply H. repeat split; auto. Qed.

(** ** C01 *)
Section C01.
Local Open Scope R_scope.
Theorem C01_Dx_adjoint (n m : nat) (alpha : R) (u v : list R) :
  (2 <= m)%nat -> fits n m -> length u = (n * m)%nat -> length v = (n * m)%nat ->
  exists Du Dtv : list R,
    @computes RN (@l1c_Dx RN (Zn n) (Zn m) alpha) (n * m) u Du /\
    @computes RN (@l1c_DxT RN (Zn n) (Zn m) alpha) (n * m) v Dtv /\
    dot Du v = dot u Dtv.
Proof.
  intros Hm Hf Hu Hv. exists (@Dx_of RN n m alpha u), (@DxT_of RN n m alpha v).
  split_and!.
  - apply (@tv_computes RN (@l1c_Dx RN) (@Dx_of RN)); auto; [|apply (@tab_length RN)].
    intros s X D HP. apply (@Dx_run RN); [done|lia].
  - apply (@tv_computes RN (@l1c_DxT RN) (@DxT_of RN)); auto; [|apply (@tab_length RN)].
    intros s X D HP. apply (@DxT_run RN); [done|lia].
  - by apply Dx_adjoint.
Qed.

Theorem C01_Dx_formula (n m : nat) (alpha : R) (u : list R) :
  (1 <= m)%nat -> fits n m -> length u = (n * m)%nat ->
  exists Du : list R,
    @computes RN (@l1c_Dx RN (Zn n) (Zn m) alpha) (n * m) u Du /\
    forall i j, (i < n)%nat -> (j < m)%nat ->
      px m Du i j = if (j =? m - 1)%nat then 0 else alpha * (px m u i (j + 1) - px m u i j).
Proof.
  intros Hm Hf Hu. exists (@Dx_of RN n m alpha u). split.
  - apply (@tv_computes RN (@l1c_Dx RN) (@Dx_of RN)); auto; [|apply (@tab_length RN)].
    intros s X D HP. apply (@Dx_run RN); [done|lia].
  - intros i j Hi Hj. unfold px, Dx_of. rewrite row_of_at by done. rewrite ddiff_RN.
    destruct (Nat.ltb_spec (j + 1) m), (Nat.eqb_spec j (m - 1)); try lia; [|done].
    by rewrite Nat.add_assoc.
Qed.

(** a concrete run: a 2 x 3 image, alpha = 2 *)
Definition ex_u : list R := [1; 2; 4; 0; 5; 7].
Definition ex_st : @st RN := @state_of RN [@full RN ex_u; @fresh RN 6].
Lemma ex_hyps : @seg RN ex_st (Ptr 0 0) ex_u /\ @wok RN ex_st (Ptr 1 0) 6 /\ disj (Ptr 1 0) 6 (Ptr 0 0) 6.
Proof.
  split_and!.
  - by apply (@state_of_seg RN).
  - by eapply (@state_of_wok RN).
  - by apply disj_blocks.
Qed.
Example C01_case : exists s',
  @l1c_Dx RN 2 3 2 (Ptr 0 0) (Ptr 1 0) ex_st = Ok tt s' /\ @seg RN s' (Ptr 1 0) [2; 4; 0; 10; 4; 0].
Proof.
  destruct (C01_Dx_formula 2 3 2 ex_u) as (Du & [HL HC] & HF); [lia|unfold fits, INT_MAX; simpl; lia|done|].
  destruct ex_hyps as (H1 & H2 & H3).
  exists (@wr RN (Ptr 1 0) Du ex_st). split; [by apply HC|].
  assert (Du = [2; 4; 0; 10; 4; 0]) as <-.
  { destruct Du as [|a0 [|a1 [|a2 [|a3 [|a4 [|a5 [|]]]]]]]; try discriminate HL.
    pose proof (HF 0 0 ltac:(lia) ltac:(lia))%nat as E0. pose proof (HF 0 1 ltac:(lia) ltac:(lia))%nat as E1.
    pose proof (HF 0 2 ltac:(lia) ltac:(lia))%nat as E2. pose proof (HF 1 0 ltac:(lia) ltac:(lia))%nat as E3.
    pose proof (HF 1 1 ltac:(lia) ltac:(lia))%nat as E4. pose proof (HF 1 2 ltac:(lia) ltac:(lia))%nat as E5.
    unfold px in *. simpl in *. repeat f_equal; lra. }
  apply (@seg_wr RN). by rewrite HL.
Qed.
End C01.

(** ** C02 *)
Section C02.
Local Open Scope R_scope.
Theorem C02_Dy_adjoint (n m : nat) (alpha : R) (u v : list R) :
  (1 <= n)%nat -> fits n m -> length u = (n * m)%nat -> length v = (n * m)%nat ->
  exists Du Dtv : list R,
    @computes RN (@l1c_Dy RN (Zn n) (Zn m) alpha) (n * m) u Du /\
    @computes RN (@l1c_DyT RN (Zn n) (Zn m) alpha) (n * m) v Dtv /\
    dot Du v = dot u Dtv.
Proof.
  intros Hn Hf Hu Hv. exists (@Dy_of RN n m alpha u), (@DyT_of RN n m alpha v).
  split_and!.
  - apply (@tv_computes RN (@l1c_Dy RN) (@Dy_of RN)); auto; [|apply (@tab_length RN)].
    intros s X D HP. apply (@Dy_run RN); [done|lia].
  - apply (@tv_computes RN (@l1c_DyT RN) (@DyT_of RN)); auto; [|apply (@tab_length RN)].
    intros s X D HP. by apply (@DyT_run RN).
  - by apply Dy_adjoint.
Qed.

Theorem C02_Dy_formula (n m : nat) (alpha : R) (u : list R) :
  (1 <= n)%nat -> fits n m -> length u = (n * m)%nat ->
  exists Du : list R,
    @computes RN (@l1c_Dy RN (Zn n) (Zn m) alpha) (n * m) u Du /\
    forall i j, (i < n)%nat -> (j < m)%nat ->
      px m Du i j = if (i =? n - 1)%nat then 0 else alpha * (px m u (i + 1) j - px m u i j).
Proof.
  intros Hn Hf Hu. exists (@Dy_of RN n m alpha u). split.
  - apply (@tv_computes RN (@l1c_Dy RN) (@Dy_of RN)); auto; [|apply (@tab_length RN)].
    intros s X D HP. apply (@Dy_run RN); [done|lia].
  - intros i j Hi Hj. unfold px. rewrite Dy_RN by nia.
    destruct (Nat.ltb_spec (i * m + j) ((n - 1) * m)), (Nat.eqb_spec i (n - 1)); try nia; [|done].
    do 3 f_equal; lia.
Qed.

Example C02_case : exists s',
  @l1c_Dy RN 2 3 2 (Ptr 0 0) (Ptr 1 0) ex_st = Ok tt s' /\ @seg RN s' (Ptr 1 0) [-2; 6; 6; 0; 0; 0].
Proof.
  destruct (C02_Dy_formula 2 3 2 ex_u) as (Du & [HL HC] & HF); [lia|unfold fits, INT_MAX; simpl; lia|done|].
  destruct ex_hyps as (H1 & H2 & H3).
  exists (@wr RN (Ptr 1 0) Du ex_st). split; [by apply HC|].
  assert (Du = [-2; 6; 6; 0; 0; 0]) as <-.
  { destruct Du as [|a0 [|a1 [|a2 [|a3 [|a4 [|a5 [|]]]]]]]; try discriminate HL.
    pose proof (HF 0 0 ltac:(lia) ltac:(lia))%nat as E0. pose proof (HF 0 1 ltac:(lia) ltac:(lia))%nat as E1.
    pose proof (HF 0 2 ltac:(lia) ltac:(lia))%nat as E2. pose proof (HF 1 0 ltac:(lia) ltac:(lia))%nat as E3.
    pose proof (HF 1 1 ltac:(lia) ltac:(lia))%nat as E4. pose proof (HF 1 2 ltac:(lia) ltac:(lia))%nat as E5.
    unfold px in *. simpl in *. repeat f_equal; lra. }
  apply (@seg_wr RN). by rewrite HL.
Qed.
End C02.

(** ** C03 *)
Section C03.
Local Open Scope R_scope.
Theorem C03_DxTDx_composition (n m : nat) (alpha : R) (u : list R) :
  (2 <= m)%nat -> fits n m -> length u = (n * m)%nat ->
  exists w r : list R,
    @computes RN (@l1c_Dx RN (Zn n) (Zn m) alpha) (n * m) u w /\
    @computes RN (@l1c_DxT RN (Zn n) (Zn m) alpha) (n * m) w r /\
    @computes RN (@l1c_DxTDx RN (Zn n) (Zn m) alpha) (n * m) u r.
Proof.
  intros Hm Hf Hu.
  assert (Hw : @length R (@Dx_of RN n m alpha u) = (n * m)%nat) by apply (@tab_length RN).
  exists (@Dx_of RN n m alpha u), (@DxT_of RN n m alpha (@Dx_of RN n m alpha u)).
  split_and!.
  - apply (@tv_computes RN (@l1c_Dx RN) (@Dx_of RN)); auto.
    intros s X D HP. apply (@Dx_run RN); [done|lia].
  - apply (@tv_computes RN (@l1c_DxT RN) (@DxT_of RN)); auto; [|apply (@tab_length RN)].
    intros s X D HP. apply (@DxT_run RN); [done|lia].
  - rewrite <- DxTDx_comp by done.
    apply (@tv_computes RN (@l1c_DxTDx RN) (@DxTDx_of RN)); auto; [|apply (@tab_length RN)].
    intros s X D HP. apply (@DxTDx_run RN); [done|lia].
Qed.
Theorem C03_DyTDy_composition (n m : nat) (alpha : R) (u : list R) :
  (2 <= n)%nat -> fits n m -> length u = (n * m)%nat ->
  exists w r : list R,
    @computes RN (@l1c_Dy RN (Zn n) (Zn m) alpha) (n * m) u w /\
    @computes RN (@l1c_DyT RN (Zn n) (Zn m) alpha) (n * m) w r /\
    @computes RN (@l1c_DyTDy RN (Zn n) (Zn m) alpha) (n * m) u r.
Proof.
  intros Hn Hf Hu.
  assert (Hw : @length R (@Dy_of RN n m alpha u) = (n * m)%nat) by apply (@tab_length RN).
  exists (@Dy_of RN n m alpha u), (@DyT_of RN n m alpha (@Dy_of RN n m alpha u)).
  split_and!.
  - apply (@tv_computes RN (@l1c_Dy RN) (@Dy_of RN)); auto.
    intros s X D HP. apply (@Dy_run RN); [done|lia].
  - apply (@tv_computes RN (@l1c_DyT RN) (@DyT_of RN)); auto; [|apply (@tab_length RN)].
    intros s X D HP. by apply (@DyT_run RN).
  - rewrite <- DyTDy_comp by done.
    apply (@tv_computes RN (@l1c_DyTDy RN) (@DyTDy_of RN)); auto; [|apply (@tab_length RN)].
    intros s X D HP. by apply (@DyTDy_run RN).
Qed.
(** for a single row the vertical claim is false, whatever the image (unless alpha^2 u = 0) *)
Theorem C03_DyTDy_single_row_refuted (m : nat) (alpha : R) (u : list R) :
  fits 1 m -> length u = m -> 
  exists w r q : list R,
    @computes RN (@l1c_Dy RN 1 (Zn m) alpha) (1 * m) u w /\
    @computes RN (@l1c_DyT RN 1 (Zn m) alpha) (1 * m) w r /\
    @computes RN (@l1c_DyTDy RN 1 (Zn m) alpha) (1 * m) u q /\
    forall j, (j < m)%nat -> nth j r 0 = 0 /\ nth j q 0 = alpha ^ 2 * nth j u 0.
Proof.
  intros Hf Hu.
  assert (Hu1 : length u = (1 * m)%nat) by lia.
  assert (Hw : @length R (@Dy_of RN 1 m alpha u) = (1 * m)%nat) by apply (@tab_length RN).
  exists (@Dy_of RN 1 m alpha u), (@DyT_of RN 1 m alpha (@Dy_of RN 1 m alpha u)), (@DyTDy_of RN 1 m alpha u).
  split_and!.
  - apply (@tv_computes RN (@l1c_Dy RN) (@Dy_of RN) 1); auto.
    intros s X D HP. apply (@Dy_run RN); [done|lia].
  - apply (@tv_computes RN (@l1c_DyT RN) (@DyT_of RN) 1); auto; [|apply (@tab_length RN)].
    intros s X D HP. by apply (@DyT_run RN).
  - apply (@tv_computes RN (@l1c_DyTDy RN) (@DyTDy_of RN) 1); auto; [|apply (@tab_length RN)].
    intros s X D HP. by apply (@DyTDy_run RN).
  - intros j Hj. rewrite DyT_RN, DyTDy_RN by lia. replace ((1 - 1) * m)%nat with 0%nat by lia.
    rewrite (proj2 (Nat.ltb_lt j m)) by done. rewrite (proj2 (Nat.ltb_ge j 0)) by lia. simpl. split; lra.
Qed.
(** the witness: the 1 x 1 image (1), alpha = 1: 1 instead of 0 *)
Example C03_refuted_case : fits 1 1 /\ length [1] = 1%nat /\ (1 : R) ^ 2 * nth 0 [1] 0 <> 0.
Proof. split; [unfold fits, INT_MAX; simpl; lia|]. split; [done|]. simpl. lra. Qed.
Example C03_case : exists w r : list R,
  @computes RN (@l1c_DxTDx RN 2 3 2) 6 ex_u r /\ @computes RN (@l1c_DyTDy RN 2 3 2) 6 ex_u w /\
  r = [-4; -4; 8; -20; 12; 8] /\ w = [4; -12; -12; -4; 12; 12].
Proof.
  destruct (C03_DxTDx_composition 2 3 2 ex_u) as (_ & _ & _); [lia|unfold fits, INT_MAX; simpl; lia|done|].
  exists (@DyTDy_of RN 2 3 2 ex_u), (@DxTDx_of RN 2 3 2 ex_u). split_and!.
  - apply (@tv_computes RN (@l1c_DxTDx RN) (@DxTDx_of RN) 2 3); auto; [|unfold fits, INT_MAX; simpl; lia].
    intros s X D HP. apply (@DxTDx_run RN 
      s X ex_u D 2 3); [done|lia].
  - apply (@tv_computes RN (@l1c_DyTDy RN) (@DyTDy_of RN) 2 3); auto; [|unfold fits, INT_MAX; simpl; lia].
    intros s X D HP. apply (@DyTDy_run RN s X ex_u D 2 3). done.
  - unfold DxTDx_of, row_of, tab, ddiff2_at, at_. simpl. unfold two, ofZ. simpl. repeat f_equal; lra.
  - unfold DyTDy_of, tab, at_. simpl. unfold two, zero, ofZ. simpl. repeat f_equal; lra.
Qed.
End C03.

(** ** C04: for every arithmetic *)
Section C04.
Context `{N : Num}.
Theorem C04_tv_total (s : st) (X D : ptr) (xs : list T) (n m : nat) (alpha : T) :
  length xs = (n * m)%nat -> fits n m -> disj D (n * m) X (n * m) -> seg s X xs -> wok s D (n * m) ->
  ((1 <= m)%nat -> exists ys, length ys = (n * m)%nat /\ l1c_Dx (Zn n) (Zn m) alpha X D s = Ok tt (wr D ys s)) /\
  ((2 <= m)%nat -> exists ys, length ys = (n * m)%nat /\ l1c_DxT (Zn n) (Zn m) alpha X D s = Ok tt (wr D ys s)) /\
  ((2 <= m)%nat -> exists ys, length ys = (n * m)%nat /\ l1c_DxTDx (Zn n) (Zn m) alpha X D s = Ok tt (wr D ys s)) /\
  ((1 <= n)%nat -> exists ys, length ys = (n * m)%nat /\ l1c_Dy (Zn n) (Zn m) alpha X D s = Ok tt (wr D ys s)) /\
  (exists ys, length ys = (n * m)%nat /\ l1c_DyT (Zn n) (Zn m) alpha X D s = Ok tt (wr D ys s)) /\
  (exists ys, length ys = (n * m)%nat /\ l1c_DyTDy (Zn n) (Zn m) alpha X D s = Ok tt (wr D ys s)).
Proof.
  intros Hl Hf Hd Hs Hw. assert (HP : tv_pre s X xs D n m) by (repeat split; auto).
  split_and!.
  - intros Hm. eexists; split; [|eapply Dx_run; eauto]. apply tab_length.
  - intros Hm. eexists; split; [|eapply DxT_run; eauto]. apply tab_length.
  - intros Hm. eexists; split; [|eapply DxTDx_run; eauto]. apply tab_length.
  - intros Hm. eexists; split; [|eapply Dy_run; eauto]. apply tab_length.
  - eexists; split; [|eapply DyT_run; eauto]. apply tab_length.
  - eexists; split; [|eapply DyTDy_run; eauto]. apply tab_length.
Qed.

(** exactly which shapes are safe when both arrays have exactly n*m entries *)
Theorem C04_tv_safe_iff (s : st) (X D : ptr) (xs : list T) (n m : nat) (alpha : T) :
  length xs = (n * m)%nat -> fits n m -> (Zn m <= INT_MAX)%Z -> seg s X xs ->
  whole s X (n * m) -> whole s D (n * m) -> disj D (n * m) X (n * m) ->
  (safe (l1c_Dx (Zn n) (Zn m) alpha X D) s <-> n = 0%nat \/ (1 <= m)%nat) /\
  (safe (l1c_DxT (Zn n) (Zn m) alpha X D) s <-> n = 0%nat \/ (2 <= m)%nat) /\
  (safe (l1c_DxTDx (Zn n) (Zn m) alpha X D) s <-> n = 0%nat \/ (2 <= m)%nat) /\
  (safe (l1c_Dy (Zn n) (Zn m) alpha X D) s <-> m = 0%nat \/ (1 <= n)%nat) /\
  safe (l1c_DyT (Zn n) (Zn m) alpha X D) s /\
  safe (l1c_DyTDy (Zn n) (Zn m) alpha X D) s.
Proof.
  intros Hl Hf Hm Hs HX HD Hd.
  assert (HB : tv_blocks s X xs D n m) by (repeat split; auto).
  pose proof (tv_blocks_pre _ _ _ _ _ _ HB) as HP.
  split_and!.
  - by eapply Dx_safe_iff. 
  - by eapply DxT_safe_iff.
  - by eapply DxTDx_safe_iff.
  - by eapply Dy_safe_iff.
  - eexists _, _. by eapply DyT_run.
  - eexists _, _. by eapply DyTDy_run.
Qed.

(** n*m beyond INT_MAX is a signed overflow *)
Theorem C04_tv_overflow (s : st) (X D : ptr) (n m : nat) (alpha : T) :
  (Zn n <= INT_MAX)%Z -> (Zn m <= INT_MAX)%Z -> ~ fits n m -> disj D (n * m) X (n * m) ->
  l1c_DyT (Zn n) (Zn m) alpha X D s = Ub UbOverflow /\
  l1c_DyTDy (Zn n) (Zn m) alpha X D s = Ub UbOverflow.
Proof. intros Hn Hm Hf Hd. apply DyT_safe_iff; auto. unfold fits in Hf. lia. Qed.
End C04.
(** X a single column (m = 1): DxT is undefined, Dx is fine *)
Example C04_case :
  let s := @state_of RN [@full RN [1; 2]%R; @fresh RN 2] in
  safe (@l1c_Dx RN 2 1 1%R (Ptr 0 0) (Ptr 1 0)) s /\ ~ safe (@l1c_DxT RN 2 1 1%R (Ptr 0 0) (Ptr 1 0)) s.
Proof.
  intros s.
  assert (HX : @whole RN s (Ptr 0 0) 2) by (exists 0%nat, (@full RN [1; 2]%R); repeat split).
  assert (HD : @whole RN s (Ptr 1 0) 2) by (exists 1%nat, (@fresh RN 2); repeat split).
  pose proof (@C04_tv_safe_iff RN s (Ptr 0 0) (Ptr 1 0) [1; 2]%R 2 1 1%R eq_refl) as H.
  destruct H as (H1 & H2 & _); try done.
  - by apply (@state_of_seg RN).
  - split; [apply H1; right; lia|]. intros H. apply H2 in H. lia.
Qed.

(** ** C05, the parallel loops of TV.c: any order of the iterations gives the sequential result *)
Section C05.
Context `{N : Num}.
Theorem C05_tv_any_order (s : st) (X D : ptr) (xs : list T) (n m : nat) (alpha : T) :
  length xs = (n * m)%nat -> fits n m -> disj D (n * m) X (n * m) -> seg s X xs -> wok s D (n * m) ->
  (forall l, (1 <= m)%nat -> l ≡ₚ range 0 (Zn n) ->
     for_list l (row_body ddiff_z (Zn m) alpha X D) s = for_ 0 (Zn n) (row_body ddiff_z (Zn m) alpha X D) s) /\
  (forall l, (2 <= m)%nat -> l ≡ₚ range 0 (Zn n) ->
     for_list l (row_body ddiffT_z (Zn m) alpha X D) s = for_ 0 (Zn n) (row_body ddiffT_z (Zn m) alpha X D) s) /\
  (forall l, (2 <= m)%nat -> l ≡ₚ range 0 (Zn n) ->
     for_list l (row_body ddiff2_z (Zn m) alpha X D) s = for_ 0 (Zn n) (row_body ddiff2_z (Zn m) alpha X D) s) /\
  (forall l1 l2, (1 <= n)%nat -> l1 ≡ₚ range 0 (Zn n - 1) -> l2 ≡ₚ range ((Zn n - 1) * Zn m) (Zn n * Zn m) ->
     (for_list l1 (Dy_body1 (Zn m) alpha X D) ;! for_list l2 (Dy_body2 D)) s = l1c_Dy (Zn n) (Zn m) alpha X D s) /\
  (forall l, l ≡ₚ range 0 (Zn (n * m)) ->
     for_list l (DyT_body (Zn n) (Zn m) alpha X D) s = l1c_DyT (Zn n) (Zn m) alpha X D s) /\
  (forall l, l ≡ₚ range 0 (Zn (n * m)) ->
     for_list l (DyTDy_body (Zn n) (Zn m) (mul alpha alpha) (Zn (n * m)) X D) s = l1c_DyTDy (Zn n) (Zn m) alpha X D s).
Proof.
  intros Hl Hf Hd Hs Hw. assert (HP : tv_pre s X xs D n m) by (repeat split; auto).
  split_and!.
  - intros l Hm. refine (proj2 (row_run ddiff_z ddiff_at 1 s X xs D n m alpha _ Hm Hm Hl Hf Hd Hs Hw) l).
    intros; eapply ddiff_row; eauto.
  - intros l Hm. refine (proj2 (row_run ddiffT_z ddiffT_at 2 s X xs D n m alpha _ Hm ltac:(lia) Hl Hf Hd Hs Hw) l).
    intros; eapply ddiffT_row; eauto.
  - intros l Hm. refine (proj2 (row_run ddiff2_z ddiff2_at 2 s X xs D n m alpha _ Hm ltac:(lia) Hl Hf Hd Hs Hw) l).
    intros; eapply ddiff2_row; eauto.
  - intros l1 l2 Hn P1 P2. pose proof (Dy_loops s X xs D n m alpha HP Hn) as [[_ H1] [_ H2]].
    rewrite (bind_ok _ _ _ _ _ (H1 l1 P1)). rewrite (H2 l2 P2). symmetry. by apply Dy_run.
  - intros l Pl. pose proof (DyT_loop s X xs D n m alpha HP) as [H1 H2].
    rewrite (H2 l Pl), H1. symmetry. by apply DyT_run.
  - intros l Pl. pose proof (DyTDy_loop s X xs D n m alpha HP) as [H1 H2].
    rewrite (H2 l Pl), H1. symmetry. by apply DyTDy_run.
Qed.
End C05.
(** two rows, executed in the order 1, 0 *)
Example C05_case :
  @for_list RN [1; 0]%Z (@row_body RN (@ddiff_z RN) 3 2%R (Ptr 0 0) (Ptr 1 0)) ex_st
  = @l1c_Dx RN 2 3 2%R (Ptr 0 0) (Ptr 1 0) ex_st.
Proof.
  destruct ex_hyps as (H1 & H2 & H3).
  destruct (@C05_tv_any_order RN ex_st (Ptr 0 0) (Ptr 1 0) ex_u 2 3 2%R) as (H & _); auto; [unfold fits, INT_MAX; simpl; lia|].
  exact (H [1; 0]%Z ltac:(lia) (Permutation_swap _ _ _)).
Qed.

(** ** C06 *)
Section C06.
Local Open Scope R_scope.
Theorem C06_difference_norms (n m : nat) (alpha : R) (u : list R) :
  fits n m -> length u = (n * m)%nat ->
  ((1 <= m)%nat -> exists r, @computes RN (@l1c_Dx RN (Zn n) (Zn m) alpha) (n * m) u r /\ nrm2sq r <= 4 * alpha ^ 2 * nrm2sq u) /\
  ((2 <= m)%nat -> exists r, @computes RN (@l1c_DxT RN (Zn n) (Zn m) alpha) (n * m) u r /\ nrm2sq r <= 4 * alpha ^ 2 * nrm2sq u) /\
  ((1 <= n)%nat -> exists r, @computes RN (@l1c_Dy RN (Zn n) (Zn m) alpha) (n * m) u r /\ nrm2sq r <= 4 * alpha ^ 2 * nrm2sq u) /\
  (exists r, @computes RN (@l1c_DyT RN (Zn n) (Zn m) alpha) (n * m) u r /\ nrm2sq r <= 4 * alpha ^ 2 * nrm2sq u).
Proof.
  intros Hf Hu. split_and!.
  - intros Hm. exists (@Dx_of RN n m alpha u). split; [|by apply Dx_bound].
    apply (@tv_computes RN (@l1c_Dx RN) (@Dx_of RN)); auto; [|apply (@tab_length RN)].
    intros s X D HP. apply (@Dx_run RN); [done|lia].
  - intros Hm. exists (@DxT_of RN n m alpha u). split; [|by apply DxT_bound].
    apply (@tv_computes RN (@l1c_DxT RN) (@DxT_of RN)); auto; [|apply (@tab_length RN)].
    intros s X D HP. apply (@DxT_run RN); [done|lia].
  - intros Hn. exists (@Dy_of RN n m alpha u). split; [|by apply Dy_bound].
    apply (@tv_computes RN (@l1c_Dy RN) (@Dy_of RN)); auto; [|apply (@tab_length RN)].
    intros s X D HP. apply (@Dy_run RN); [done|lia].
  - exists (@DyT_of RN n m alpha u). split; [|by apply DyT_bound].
    apply (@tv_computes RN (@l1c_DyT RN) (@DyT_of RN)); auto; [|apply (@tab_length RN)].
    intros s X D HP. by apply (@DyT_run RN).
Qed.
(** the 1 x 2 image (1, -1): |Dx u|^2 = 4 <= 4 * 2 *)
Example C06_case : exists r, @computes RN (@l1c_Dx RN 1 2 1) 2 [1; -1] r /\ nrm2sq r <= 4 * 1 ^ 2 * nrm2sq [1; -1].
Proof.
  destruct (C06_difference_norms 1 2 1 [1; -1]) as [H _]; [unfold fits, INT_MAX; simpl; lia|done|].
  apply H. lia.
Qed.
End C06.

Print Assumptions C01_Dx_adjoint.
Print Assumptions C01_Dx_formula.
Print Assumptions C02_Dy_adjoint.
Print Assumptions C02_Dy_formula.
Print Assumptions C03_DxTDx_composition.
Print Assumptions C03_DyTDy_composition.
Print Assumptions C03_DyTDy_single_row_refuted.
Print Assumptions C04_tv_total.
Print Assumptions C04_tv_safe_iff.
Print Assumptions C04_tv_overflow.
Print Assumptions C05_tv_any_order.
Print Assumptions C06_difference_norms.
