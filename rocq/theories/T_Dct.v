(** * Theorems about the DCT transforms: C46, C47, C48, C49, C50, C57. *)
From Coq Require Import ZArith Lia Reals Lra Psatz.
From stdpp Require Import base numbers gmap list.
From Verif Require Import Globals Mem M_Math M_FFTW M_Dct1 M_Dct2 M_Dct M_TVt P_Mem P_Loop P_Math P_MathR P_TVR P_Step P_Memory P_Own P_Newton L_Sum S_Vec L_Lin S_Newt S_Nesta S_Dct L_Cos P_FFTW P_Dct1 P_Dct1s P_DctR P_Dct2 P_Dct2s P_Dct2R S_Mem S_Xform P_Xform S_DctApi P_Dct P_DctA E_Dct.
Local Open Scope Z_scope.

(** ** Any arithmetic, any FFT of the right length *)
Section generic.
Context `{N : Num}.
Context (fft1 : fkind -> list T -> list T) (fft2 : fkind -> nat -> nat -> list T -> list T).
Hypothesis fft1_len : forall k xs, length (fft1 k xs) = length xs.
Hypothesis fft2_len : forall k nr nc xs, length xs = (nr * nc)%nat -> length (fft2 k nr nc xs) = (nr * nc)%nat.
Notation ops := (dct_ops fft1 fft2).

(** C49: AtAx returns what Aty returns for what Ax returns, in any arithmetic (so also in floating
    point), for every index list and whatever was called before *)
Theorem dct_AtAx_is_Aty_after_Ax s mrow mcol mode mb mo ms ax s1 : started s mrow mcol mode mb mo ms ax s1 ->
  let n := length ms in let m := Z.to_nat (mrow * mcol) in
  exists A At : list T -> list T,
    always (blocks s mb) (ops ax n m) s1 (o_Ax fft1 fft2 ax n m) A /\
    always (blocks s mb) (ops ax n m) s1 (o_Aty fft1 fft2 ax n m) At /\
    always (blocks s mb) (ops ax n m) s1 (o_AtAx fft1 fft2 ax m) (fun x => At (A x)).
Proof.
  intros H n m. destruct (started_nat _ _ _ _ _ _ _ _ _ H) as (nr & nc & -> & -> & _ & _ & Em & _). unfold m, n. rewrite Em.
  pose proof (started_all fft1 fft2 fft1_len fft2_len _ _ _ _ _ _ _ _ _ H) as G. do 2 eexists. split; [apply G|]. split; apply G.
Qed.

(** C50: every function has one fixed value for each argument, whatever was called before, and its
    argument array is unchanged after the call (S_Xform.always).  For the one-dimensional Mx the
    argument's entry 0 comes back multiplied and divided by sqrt 2 (see C57); for R^T the value also
    depends on the old contents of the result array, through 0 * x (nothing in exact arithmetic, see
    [dct_calls_history_independent_R]). *)
Theorem dct_calls_history_independent s mrow mcol mode mb mo ms ax s1 : started s mrow mcol mode mb mo ms ax s1 ->
  let n := length ms in let m := Z.to_nat (mrow * mcol) in
  (forall o, o ∈ [o_Ax fft1 fft2 ax n m; o_Aty fft1 fft2 ax n m; o_AtAx fft1 fft2 ax m; o_Mty fft1 fft2 ax m;
                  o_Wz fft1 fft2 ax m; o_Wtx fft1 fft2 ax m; o_Rx fft1 fft2 ax n m] ->
     exists f, always (blocks s mb) (ops ax n m) s1 o f) /\
  (exists f, always_d (blocks s mb) (ops ax n m) s1 (o_Rty fft1 fft2 ax n m) f) /\
  (exists f, forall s2 X xs D ds, hist (blocks s mb) (ops ax n m) s1 s2 -> good_call (blocks s mb) (o_Mx fft1 fft2 ax m) s2 X xs D ds ->
     exists s3 xs', call fft1 fft2 (ax_Mx ax) X D s2 = Ok tt s3 /\ seg s3 D (f xs) /\ length (f xs) = m /\ seg s3 X xs' /\
       (xs' = xs \/ xs' = <[0%nat := div (mul (at_ xs 0) (sqrt_ two)) (sqrt_ two)]> xs)).
Proof.
  intros H n m. destruct (started_nat _ _ _ _ _ _ _ _ _ H) as (nr & nc & -> & -> & _ & _ & Em & _). unfold m, n. rewrite Em.
  pose proof (started_all fft1 fft2 fft1_len fft2_len _ _ _ _ _ _ _ _ _ H) as G. split; [|split].
  - intros o Ho. repeat (apply elem_of_cons in Ho as [->|Ho]); [..|by apply elem_of_nil in Ho]; eexists; apply G.
  - eexists. apply G.
  - destruct (one_d (Z.of_nat nr) (Z.of_nat nc) mode) eqn:Eo.
    + eexists. intros s2 X xs D ds Hh HG.
      destruct (started_Mx1 fft1 fft2 fft1_len _ _ _ _ _ _ _ _ _ H Eo s2 X xs D ds Hh HG) as (s3 & E & Sd & Ld & Sx & _).
      exists s3, (mx_arg xs). split; [done|]. split; [exact Sd|]. split; [done|]. split; [done|]. by right.
    + eexists. intros s2 X xs D ds Hh HG. destruct (ao_Mx _ _ _ _ _ _ _ _ _ _ _ G (or_introl eq_refl) s2 X xs D ds Hh HG) as (s3 & E & Sd & Ld & HF).
      exists s3, xs. split; [exact E|]. split; [exact Sd|]. split; [done|]. split; [|by left].
      apply HF; [apply HG| |apply HG]. pose proof (gc_lx _ _ _ _ _ _ _ HG) as Lx. rewrite Lx. apply HG.
Qed.

(** C57: the one-dimensional Mx writes (x0 * sqrt 2) / sqrt 2 into entry 0 of its argument, and changes
    no other entry of it *)
Theorem dct_Mx_argument s mrow mcol mode mb mo ms ax s1 : started s mrow mcol mode mb mo ms ax s1 -> one_d mrow mcol mode = true ->
  let n := length ms in let m := Z.to_nat (mrow * mcol) in
  forall s2 X xs D ds, hist (blocks s mb) (ops ax n m) s1 s2 -> good_call (blocks s mb) (o_Mx fft1 fft2 ax m) s2 X xs D ds ->
    exists s3, call fft1 fft2 (ax_Mx ax) X D s2 = Ok tt s3 /\ seg s3 X (<[0%nat := div (mul (at_ xs 0) (sqrt_ two)) (sqrt_ two)]> xs).
Proof.
  intros H Eo n m. destruct (started_nat _ _ _ _ _ _ _ _ _ H) as (nr & nc & -> & -> & _ & _ & Em & _). unfold m, n. rewrite Em.
  intros s2 X xs D ds Hh HG.
  destruct (started_Mx1 fft1 fft2 fft1_len _ _ _ _ _ _ _ _ _ H Eo s2 X xs D ds Hh HG) as (s3 & E & _ & _ & Sx & _).
  exists s3. done.
Qed.
End generic.

(** ** Exact arithmetic, FFTW's documented transforms *)
Notation stR := (@st RN).
Notation opsR := (@dct_ops RN dft1 dft2).
Definition xf_inv (mrow mcol mode : Z) : list R -> list R :=
  if one_d mrow mcol mode then dct_inv (Z.to_nat (mrow * mcol)) else dct2_inv (Z.to_nat mrow) (Z.to_nat mcol).
Definition xf_fwd (mrow mcol mode : Z) : list R -> list R :=
  if one_d mrow mcol mode then dct_fwd (Z.to_nat (mrow * mcol)) else dct2_fwd (Z.to_nat mrow) (Z.to_nat mcol).
(** the planner left zeros outside the sampled places of the scatter array *)
Definition clean (s : stR) (m : nat) (ms : list nat) : Prop :=
  forall j, (j < m)%nat -> j ∉ ms -> scrib (en s) (nx s + 3) 0 (Z.of_nat j) = 0%R.

Lemma sqrt2_cancel (v : R) : @div RN (@mul RN v (@sqrt_ RN two)) (@sqrt_ RN two) = v.
Proof. rewrite two_RN. cbn [div mul sqrt_ RN]. eqR. field. apply sqrt2_neq. Qed.
Lemma dft1_len' k (xs : list R) : length (dft1 k xs) = length xs. Proof. apply dft1_len. Qed.
Lemma dft2_len' k nr nc (xs : list R) : length xs = (nr * nc)%nat -> length (dft2 k nr nc xs) = (nr * nc)%nat. Proof. intros _. apply dft2_len. Qed.
Lemma xf_inv_m nr nc mode : exists D, (forall x, xf_inv (Z.of_nat nr) (Z.of_nat nc) mode x = minv (nr * nc) D x) /\
  (forall y, xf_fwd (Z.of_nat nr) (Z.of_nat nc) mode y = mfwd (nr * nc) D y) /\
  ((1 <= nr)%nat -> (1 <= nc)%nat -> (forall k l, (k < nr * nc)%nat -> (l < nr * nc)%nat -> Rsum (nr * nc) (fun j => D k j * D l j)%R = if Nat.eqb k l then 1%R else 0%R) /\
   (forall i j, (i < nr * nc)%nat -> (j < nr * nc)%nat -> Rsum (nr * nc) (fun k => D k i * D k j)%R = if Nat.eqb i j then 1%R else 0%R)).
Proof.
  unfold xf_inv, xf_fwd. replace (Z.to_nat (Z.of_nat nr * Z.of_nat nc)) with (nr * nc)%nat by lia. rewrite !Nat2Z.id.
  destruct (one_d _ _ mode).
  - exists (dctm (nr * nc)). split; [done|]. split; [done|]. intros Hr Hc. split; intros; [by apply dctm_rows|by apply dctm_cols].
  - exists (dctm2 nr nc). split; [apply dct2_inv_m|]. split; [apply dct2_fwd_m|]. intros Hr Hc. split; intros; [by apply dctm2_rows|by apply dctm2_cols].
Qed.

Lemma always_ext F ops (s1 : stR) o (f g : list R -> list R) : (forall xs, length xs = x_in o -> f xs = g xs) -> always F ops s1 o f -> always F ops s1 o g.
Proof.
  intros Hfg H s2 X xs D ds Hh HG. destruct (H s2 X xs D ds Hh HG) as (s3 & E & Sd & Ld & HF). pose proof (gc_lx _ _ _ _ _ _ _ HG) as Lx.
  assert (Ef : f xs = g xs) by (by apply Hfg). exists s3. rewrite <- Ef. done.
Qed.

(** C50 in exact arithmetic, and the values: Mx is the inverse DCT, Mty the DCT, Ax samples the
    inverse DCT, R samples, R^T puts the samples back into zeros *)
Theorem dct_calls_history_independent_R (s : stR) mrow mcol mode mb mo ms ax s1 : started s mrow mcol mode mb mo ms ax s1 ->
  let n := length ms in let m := Z.to_nat (mrow * mcol) in let F := blocks s mb in
  always F (opsR ax n m) s1 (@o_Mx RN dft1 dft2 ax m) (xf_inv mrow mcol mode) /\
  always F (opsR ax n m) s1 (@o_Mty RN dft1 dft2 ax m) (xf_fwd mrow mcol mode) /\
  always F (opsR ax n m) s1 (@o_Ax RN dft1 dft2 ax n m) (fun x => sample ms (xf_inv mrow mcol mode x)) /\
  always F (opsR ax n m) s1 (@o_Rx RN dft1 dft2 ax n m) (sample ms) /\
  always F (opsR ax n m) s1 (@o_Wz RN dft1 dft2 ax m) (fun x => x) /\
  always F (opsR ax n m) s1 (@o_Wtx RN dft1 dft2 ax m) (fun x => x) /\
  (NoDup ms -> always F (opsR ax n m) s1 (@o_Rty RN dft1 dft2 ax n m) (spread m ms)) /\
  (exists At AtA, always F (opsR ax n m) s1 (@o_Aty RN dft1 dft2 ax n m) At /\ always F (opsR ax n m) s1 (@o_AtAx RN dft1 dft2 ax m) AtA /\
     (NoDup ms -> clean s m ms -> forall y, length y = n -> At y = xf_fwd mrow mcol mode (spread m ms y))).
Proof.
  intros H n m F. destruct (started_nat _ _ _ _ _ _ _ _ _ H) as (nr & nc & -> & -> & Hr & Hc & Em & Hi & Hms). unfold m, n. rewrite Em.
  pose proof (@started_all RN dft1 dft2 dft1_len' dft2_len' _ _ _ _ _ _ _ _ _ H) as G. unfold xf_inv, xf_fwd. rewrite !Nat2Z.id.
  replace (Z.to_nat (Z.of_nat nr * Z.of_nat nc)) with (nr * nc)%nat by lia.
  assert (Hm : (1 <= nr * nc)%nat) by nia.
  split_and!.
  - eapply always_ext; [|exact (ao_Mx _ _ _ _ _ _ _ _ _ _ _ G (or_intror sqrt2_cancel))]. intros xs Lx. cbn [o_Mx x_in] in Lx. unfold fM. destruct (one_d _ _ mode).
    + by apply mx_R.
    + by apply mx2_R.
  - eapply always_ext; [|exact (ao_Mty _ _ _ _ _ _ _ _ _ _ _ G)]. intros xs Lx. cbn [o_Mty x_in] in Lx. unfold fMt. destruct (one_d _ _ mode).
    + by apply mty_R.
    + by apply mty2_R.
  - eapply always_ext; [|exact (ao_Ax _ _ _ _ _ _ _ _ _ _ _ G)]. intros xs Lx. cbn [o_Ax x_in] in Lx. unfold fA. destruct (one_d _ _ mode).
    + by apply emx_R.
    + by apply emx2_R.
  - eapply always_ext; [|exact (ao_Rx _ _ _ _ _ _ _ _ _ _ _ G)]. intros xs Lx. unfold sample. rewrite tab_vec. apply vec_ext. intros i _. apply at_RN.
  - exact (ao_Wz _ _ _ _ _ _ _ _ _ _ _ G).
  - exact (ao_Wtx _ _ _ _ _ _ _ _ _ _ _ G).
  - intros ND s2 X xs D ds Hh HG. destruct (ao_Rty _ _ _ _ _ _ _ _ _ _ _ G s2 X xs D ds Hh HG) as (s3 & E & Sd & Ld & HF).
    assert (Es : scatter ms (at_ xs) (scal_of (nr * nc) zero ds) = spread (nr * nc) ms xs).
    { apply scatter_spread; try done; [exact (@tab_length RN _ _)|]. intros j _. unfold scal_of. rewrite tab_vec. destruct (Nat.lt_ge_cases j (nr * nc)) as [Hj|Hj].
      - rewrite (vec_nth _ (fun j => _)) by done. rewrite zero_RN. cbn [mul RN]. apply Rmult_0_l.
      - apply nth_overflow. by rewrite vec_len. }
    rewrite Es in Sd, Ld. exists s3. done.
  - eexists. eexists. split; [exact (ao_Aty _ _ _ _ _ _ _ _ _ _ _ G)|]. split; [exact (ao_AtAx _ _ _ _ _ _ _ _ _ _ _ G)|].
    intros ND Hcl y Hy. unfold fAt.
    assert (He : forall j, j ∉ ms -> nth j (scr (en s) (nx s + 3) 0 (nr * nc)) 0%R = 0%R).
    { intros j Hj. unfold scr. rewrite tab_vec. destruct (Nat.lt_ge_cases j (nr * nc)) as [Hj'|Hj'].
      - rewrite (vec_nth _ (fun j => _)) by done. by apply Hcl.
      - apply nth_overflow. by rewrite vec_len. }
    destruct (one_d _ _ mode); [apply mtety_R; try done|apply mtety2_R; try done]; exact (@scr_len RN _ _ _ _).
Qed.

(** C46 and C47: Mx and Mty are mutual inverses and adjoints, in one and in two dimensions *)
Lemma orthonormal (s : stR) mrow mcol mode mb mo ms ax s1 : started s mrow mcol mode mb mo ms ax s1 ->
  let n := length ms in let m := Z.to_nat (mrow * mcol) in let F := blocks s mb in
  let Mx := xf_inv mrow mcol mode in let Mty := xf_fwd mrow mcol mode in
    always F (opsR ax n m) s1 (@o_Mx RN dft1 dft2 ax m) Mx /\ always F (opsR ax n m) s1 (@o_Mty RN dft1 dft2 ax m) Mty /\
    (forall x, length x = m -> Mty (Mx x) = x) /\ (forall y, length y = m -> Mx (Mty y) = y) /\ adjoint m m Mx Mty /\ linmap m m Mx.
Proof.
  intros H n m F. destruct (dct_calls_history_independent_R _ _ _ _ _ _ _ _ _ H) as (H1 & H2 & _).
  destruct (started_nat _ _ _ _ _ _ _ _ _ H) as (nr & nc & -> & -> & Hr & Hc & Em & Hi & Hms).
  destruct (xf_inv_m nr nc mode) as (D & E1 & E2 & HD). destruct (HD Hr Hc) as [HD1 HD2]. unfold m. cbv zeta.
  split; [exact H1|]. split; [exact H2|]. rewrite Em.
  split; [intros x Hx; rewrite E1, E2; by apply mfwd_minv|]. split; [intros x Hx; rewrite E1, E2; by apply minv_mfwd|]. split.
  - split; [intros y _; rewrite E2; apply vec_len|]. intros x y Hx Hy. rewrite E1, E2. by apply minv_adjoint.
  - split; [intros y _; rewrite E1; apply vec_len|]. intros a u v Hu Hv i Hi'. rewrite !E1. by apply minv_linmap.
Qed.
Theorem dct1_orthonormal (s : stR) mrow mcol mode mb mo ms ax s1 : started s mrow mcol mode mb mo ms ax s1 -> one_d mrow mcol mode = true ->
  let n := length ms in let m := Z.to_nat (mrow * mcol) in let F := blocks s mb in
  let Mx := dct_inv m in let Mty := dct_fwd m in
    always F (opsR ax n m) s1 (@o_Mx RN dft1 dft2 ax m) Mx /\ always F (opsR ax n m) s1 (@o_Mty RN dft1 dft2 ax m) Mty /\
    (forall x, length x = m -> Mty (Mx x) = x) /\ (forall y, length y = m -> Mx (Mty y) = y) /\ adjoint m m Mx Mty.
Proof.
  intros H Eo n m F Mx Mty. pose proof (orthonormal _ _ _ _ _ _ _ _ _ H) as G. unfold xf_inv, xf_fwd in G. rewrite Eo in G. tauto.
Qed.
Theorem dct2_orthonormal (s : stR) mrow mcol mode mb mo ms ax s1 : started s mrow mcol mode mb mo ms ax s1 -> one_d mrow mcol mode = false ->
  let n := length ms in let m := Z.to_nat (mrow * mcol) in let F := blocks s mb in
  let Mx := dct2_inv (Z.to_nat mrow) (Z.to_nat mcol) in let Mty := dct2_fwd (Z.to_nat mrow) (Z.to_nat mcol) in
    always F (opsR ax n m) s1 (@o_Mx RN dft1 dft2 ax m) Mx /\ always F (opsR ax n m) s1 (@o_Mty RN dft1 dft2 ax m) Mty /\
    (forall x, length x = m -> Mty (Mx x) = x) /\ (forall y, length y = m -> Mx (Mty y) = y) /\ adjoint m m Mx Mty.
Proof.
  intros H Eo n m F Mx Mty. pose proof (orthonormal _ _ _ _ _ _ _ _ _ H) as G. unfold xf_inv, xf_fwd in G. rewrite Eo in G. tauto.
Qed.

(** C48: with distinct indices, Ax (Aty y) = y; if moreover the planner left zeros, Ax and Aty are adjoint *)
Theorem dct_measurement_operators (s : stR) mrow mcol mode mb mo ms ax s1 : started s mrow mcol mode mb mo ms ax s1 -> NoDup ms ->
  let n := length ms in let m := Z.to_nat (mrow * mcol) in let F := blocks s mb in
  exists A At, always F (opsR ax n m) s1 (@o_Ax RN dft1 dft2 ax n m) A /\ always F (opsR ax n m) s1 (@o_Aty RN dft1 dft2 ax n m) At /\
    linmap m n A /\ unit_rows n A At /\ (clean s m ms -> adjoint m n A At).
Proof.
  intros H ND n m F. destruct (dct_calls_history_independent_R _ _ _ _ _ _ _ _ _ H) as (_ & _ & H1 & _).
  destruct (dct_calls_history_independent_R _ _ _ _ _ _ _ _ _ H) as (_ & _ & _ & _ & _ & _ & _ & At & AtA & H2 & _ & H3).
  destruct (started_nat _ _ _ _ _ _ _ _ _ H) as (nr & nc & -> & -> & Hr & Hc & Em & Hi & Hms).
  pose proof (@started_all RN dft1 dft2 dft1_len' dft2_len' _ _ _ _ _ _ _ _ _ H) as G.
  destruct (xf_inv_m nr nc mode) as (D & E1 & E2 & HD). destruct (HD Hr Hc) as [HD1 HD2].
  set (A := fun x => sample ms (xf_inv (Z.of_nat nr) (Z.of_nat nc) mode x)).
  set (At' := @fAt RN dft1 dft2 s nr nc (one_d (Z.of_nat nr) (Z.of_nat nc) mode) ms).
  pose proof (ao_Aty _ _ _ _ _ _ _ _ _ _ _ G) as H2'. fold At' in H2'.
  exists A, At'. unfold F, m, n. split; [exact H1|]. rewrite Em. split; [exact H2'|].
  assert (Ea : forall x, A x = meas (nr * nc) D ms x) by (intros x; unfold A, meas; by rewrite E1).
  assert (EAt : forall y, At' y = mfwd (nr * nc) D (@scatter RN ms (@at_ RN y) (scr (en s) (nx s + 3) 0 (nr * nc)))).
  { intros y. rewrite <- E2. unfold At', fAt, xf_fwd. replace (Z.to_nat (Z.of_nat nr * Z.of_nat nc)) with (nr * nc)%nat by lia. rewrite !Nat2Z.id.
    assert (Ls : length (@scatter RN ms (@at_ RN y) (scr (en s) (nx s + 3) 0 (nr * nc))) = (nr * nc)%nat) by (rewrite (@scatter_len RN); exact (@scr_len RN _ _ _ _)).
    destruct (one_d _ _ mode).
    - unfold mtety_of. apply mty_R; [nia|exact Ls].
    - unfold mtety2_of, back2_of. apply fwd2_R; [done|done|]. intros i Hi'. rewrite tab_vec, (vec_nth _ (fun j => _)) by done. rewrite at_RN. cbn [mul RN]. apply Rmult_comm. }
  split; [|split].
  - split; [intros u _; apply vec_len|]. intros a u v Hu Hv i Hi'. rewrite !Ea. by apply meas_linmap.
  - intros y Hy. rewrite Ea, EAt. unfold meas.
    assert (Ls : length (@scatter RN ms (@at_ RN y) (scr (en s) (nx s + 3) 0 (nr * nc))) = (nr * nc)%nat) by (rewrite (@scatter_len RN); exact (@scr_len RN _ _ _ _)).
    rewrite minv_mfwd by done. apply (list_eq_nth (length ms)); [apply vec_len|done|]. intros i Hi'. rewrite sample_nth by done.
    assert (Hk : (nth i ms 0 < nr * nc)%nat) by (apply Hms, elem_of_list_In, nth_In; done).
    rewrite <- at_RN. rewrite (@scatter_in RN) by (done || (change (nth i ms 0 < @length R (scr (en s) (nx s + 3) 0 (nr * nc)))%nat; unfold scr; rewrite tab_vec, vec_len; done)).
    apply at_RN.
  - intros Hcl. split; [intros y _; rewrite EAt; apply vec_len|]. intros x y Hx Hy. rewrite Ea, EAt.
    rewrite (scatter_spread (nr * nc)); try done; [by apply meas_adjoint|nia|exact (@scr_len RN _ _ _ _)|].
    intros j Hj. unfold scr. rewrite tab_vec. destruct (Nat.lt_ge_cases j (nr * nc)) as [Hj'|Hj'].
    + rewrite (vec_nth _ (fun j => _)) by done. apply Hcl; lia || done.
    + apply nth_overflow. by rewrite vec_len.
Qed.

(** C57 in exact arithmetic *)
Theorem dct_Mx_argument_unchanged_R (s : stR) mrow mcol mode mb mo ms ax s1 : started s mrow mcol mode mb mo ms ax s1 ->
  let n := length ms in let m := Z.to_nat (mrow * mcol) in
  forall s2 X xs D ds, hist (blocks s mb) (opsR ax n m) s1 s2 -> good_call (blocks s mb) (@o_Mx RN dft1 dft2 ax m) s2 X xs D ds ->
    exists s3, @call RN dft1 dft2 (ax_Mx ax) X D s2 = Ok tt s3 /\ seg s3 X xs.
Proof.
  intros H n m s2 X xs D ds Hh HG. destruct (dct_calls_history_independent_R _ _ _ _ _ _ _ _ _ H) as (H1 & _).
  destruct (H1 s2 X xs D ds Hh HG) as (s3 & E & Sd & Ld & HF). exists s3. split; [exact E|].
  apply HF; [apply HG| |apply HG]. pose proof (gc_lx _ _ _ _ _ _ _ HG) as Lx. rewrite Lx. apply HG.
Qed.

(** ** What fails *)
Lemma demo_started `{N : Num} e bl nr nc mode ms ax0 : (1 <= nr)%nat -> (1 <= nc)%nat -> (1 <= length ms)%nat -> Z.of_nat (nr * nc) <= INT_MAX ->
  (forall k, k ∈ ms -> (k < nr * nc)%nat) -> (forall i, alloc_ok e i = true) ->
  exists ax s1, l1c_setup_dct_transforms (Z.of_nat (length ms)) (Z.of_nat nr) (Z.of_nat nc) mode (Ptr 0 0) ax0 (demo e ms bl) = Ok (0, ax) s1 /\
    started (demo e ms bl) (Z.of_nat nr) (Z.of_nat nc) mode 0 0 ms ax s1.
Proof.
  intros Hr Hc Hl Hi Hms He. apply started_exists; try done; [apply demo_unborn|apply demo_segi|]. intros i _. apply He.
Qed.
Lemma dct1_1 f v : dct_fwd 1 [v] = [v] /\ (f 0%nat = v -> dct_inv 1 [f 0%nat] = [v]).
Proof.
  unfold dct_fwd, dct_inv, vec, dctm. simpl. replace (1 / 1)%R with 1%R by field. rewrite sqrt_1. split; [|intros ->]; (f_equal; ring).
Qed.

(** C48 without distinct indices: set-up accepts the index list 0,0 for one pixel, and then
    Ax (Aty y) <> y and the operators are not adjoint, even if the planner left zeros *)
Theorem dct_repeated_index_refuted : exists (s : stR) ax s1 A At, started s 1 1 dct1 0 0 [0; 0]%nat ax s1 /\ clean s 1 [0; 0]%nat /\
  always (blocks s 0) (opsR ax 2 1) s1 (@o_Ax RN dft1 dft2 ax 2 1) A /\ always (blocks s 0) (opsR ax 2 1) s1 (@o_Aty RN dft1 dft2 ax 2 1) At /\
  ~ unit_rows 2 A At /\ ~ adjoint 1 2 A At.
Proof.
  destruct (@demo_started RN env0 [] 1 1 dct1 [0; 0]%nat ax0) as (ax & s1 & _ & H); try done; [simpl; lia|..].
  { intros k Hk. repeat (apply elem_of_cons in Hk as [->|Hk]; [lia|]). by apply elem_of_nil in Hk. }
  set (s := @demo RN env0 [0; 0]%nat []) in *.
  pose proof (@started_all RN dft1 dft2 dft1_len' dft2_len' _ _ _ _ _ _ _ _ _ H) as G.
  destruct (dct_calls_history_independent_R _ _ _ _ _ _ _ _ _ H) as (_ & _ & H1 & _).
  change (started s 1 1 dct1 0 0 [0; 0]%nat ax s1) in H.
  exists s, ax, s1. eexists. eexists. split; [exact H|]. split; [intros j _ _; exact zero_RN|]. split; [exact H1|]. split; [exact (ao_Aty _ _ _ _ _ _ _ _ _ _ _ G)|].
  set (At := @fAt RN dft1 dft2 s 1 1 true [0; 0]%nat).
  assert (EAt : At [1; 2]%R = [2]%R).
  { change (@mty_of RN dft1 (root1 (Z.of_nat 1)) 1 [2]%R = [2]%R). rewrite mty_R by done. apply (dct1_1 (fun _ => 0%R)). }
  assert (EA : forall v, sample [0; 0]%nat (xf_inv 1 1 dct1 [v]) = [v; v]).
  { intros v. change (xf_inv 1 1 dct1 [v]) with (dct_inv 1 [v]). rewrite (proj2 (dct1_1 (fun _ => v) v) eq_refl). done. }
  split.
  - intros HU. specialize (HU [1; 2]%R eq_refl). change (sample [0; 0]%nat (xf_inv 1 1 dct1 (At [1; 2]%R)) = [1; 2]%R) in HU.
    rewrite EAt, EA in HU. injection HU as HU. lra.
  - intros [_ HA]. specialize (HA [1]%R [1; 2]%R eq_refl eq_refl). change (dot (sample [0; 0]%nat (xf_inv 1 1 dct1 [1]%R)) [1; 2]%R = dot [1]%R (At [1; 2]%R)) in HA.
    rewrite EAt, EA in HA. unfold dot in HA. simpl in HA. lra.
Qed.

(** C48 if the planner leaves something in the scatter array: with distinct indices, Ax and Aty are
    not adjoint *)
Definition dirty : @env RN := @mkEnv RN (fun _ => true) (fun _ => true) (fun _ _ _ => 1%R).
Theorem dct_adjoint_dirty_planner_refuted : exists (s : stR) ax s1 A At, started s 1 2 dct1 0 0 [0]%nat ax s1 /\ NoDup [0]%nat /\
  always (blocks s 0) (opsR ax 1 2) s1 (@o_Ax RN dft1 dft2 ax 1 2) A /\ always (blocks s 0) (opsR ax 1 2) s1 (@o_Aty RN dft1 dft2 ax 1 2) At /\
  ~ adjoint 2 1 A At.
Proof.
  destruct (@demo_started RN dirty [] 1 2 dct1 [0]%nat ax0) as (ax & s1 & _ & H); try done; [lia..| |].
  { intros k Hk. repeat (apply elem_of_cons in Hk as [->|Hk]; [lia|]). by apply elem_of_nil in Hk. }
  set (s := @demo RN dirty [0]%nat []) in *.
  pose proof (@started_all RN dft1 dft2 dft1_len' dft2_len' _ _ _ _ _ _ _ _ _ H) as G.
  destruct (dct_calls_history_independent_R _ _ _ _ _ _ _ _ _ H) as (_ & _ & H1 & _).
  change (started s 1 2 dct1 0 0 [0]%nat ax s1) in H.
  exists s, ax, s1. eexists. eexists. split; [exact H|]. split; [apply (bool_decide_unpack _); vm_compute; done|]. split; [exact H1|]. split; [exact (ao_Aty _ _ _ _ _ _ _ _ _ _ _ G)|].
  set (At := @fAt RN dft1 dft2 s 1 2 true [0]%nat).
  assert (EAt : At [0]%R = dct_fwd 2 [0; 1]%R).
  { change (@mty_of RN dft1 (root1 (Z.of_nat 2)) 2 [0; 1]%R = dct_fwd 2 [0; 1]%R). apply mty_R; [lia|done]. }
  intros [_ HA]. specialize (HA (dct_fwd 2 [0; 1]%R) [0]%R (vec_len _ _) eq_refl).
  change (dot (sample [0]%nat (xf_inv 1 2 dct1 (dct_fwd 2 [0; 1]%R))) [0]%R = dot (dct_fwd 2 [0; 1]%R) (At [0]%R)) in HA.
  rewrite EAt in HA. destruct (orthonormal _ _ _ _ _ _ _ _ _ H) as (_ & _ & _ & HI & [_ Hadj] & _).
  assert (E0 : dot (sample [0]%nat (xf_inv 1 2 dct1 (dct_fwd 2 [0; 1]%R))) [0]%R = 0%R) by (unfold dot, sample, vec; simpl; ring).
  assert (E1 : dot (dct_fwd 2 [0; 1]%R) (dct_fwd 2 [0; 1]%R) = 1%R).
  { specialize (Hadj (dct_fwd 2 [0; 1]%R) [0; 1]%R (vec_len _ _) eq_refl).
    transitivity (dot (dct_fwd 2 [0; 1]%R) (xf_fwd 1 2 dct1 [0; 1]%R)); [done|]. etransitivity; [symmetry; exact Hadj|].
    etransitivity; [apply (f_equal (fun l => dot l [0; 1]%R)); exact (HI [0; 1]%R eq_refl)|]. unfold dot. simpl. ring. }
  rewrite E0, E1 in HA. lra.
Qed.

(** C57 in double arithmetic: Mx with argument 7 leaves another number in its argument *)
Definition seven : @T FN := lit 7 1.
Theorem dct_Mx_changes_argument_refuted (fft1 : fkind -> list (@T FN) -> list (@T FN)) fft2 : (forall k xs, length (fft1 k xs) = length xs) ->
  exists (s : @st FN) ax s1 X D s3 x', started s 1 1 dct1 0 0 [0]%nat ax s1 /\
    good_call (blocks s 0) (o_Mx fft1 fft2 ax 1) s1 X [seven] D [] /\
    call fft1 fft2 (ax_Mx ax) X D s1 = Ok tt s3 /\ seg s3 X [x'] /\ PrimFloat.eqb x' seven = false.
Proof.
  intros Hl. destruct (@demo_started FN env0 [full [seven]; fresh 1] 1 1 dct1 [0]%nat ax0) as (ax & s1 & _ & H); try done.
  { intros k Hk. repeat (apply elem_of_cons in Hk as [->|Hk]; [lia|]). by apply elem_of_nil in Hk. }
  set (s := @demo FN env0 [0]%nat [full [seven]; fresh 1]) in *. change (started s 1 1 dct1 0 0 [0]%nat ax s1) in H.
  assert (HG : good_call (blocks s 0) (o_Mx fft1 fft2 ax 1) s1 (Ptr 1 0) [seven] (Ptr 2 0) []).
  { apply demo_call; try done.
    - exact (sf_led _ _ _ _ _ _ _ _ _ (started_inv _ _ _ _ _ _ _ _ _ H)).
    - by apply (demo_seg env0 [0]%nat _ 0).
    - by apply (demo_wok env0 [0]%nat [full [seven]; fresh 1] 1 (fresh 1)).
    - simpl. lia.
    - simpl. lia. }
  destruct (dct_Mx_argument fft1 fft2 Hl s 1 1 dct1 0 0 [0]%nat ax s1 H eq_refl s1 (Ptr 1 0) [seven] (Ptr 2 0) [] (h_nil _ _ _) HG) as (s3 & E & Sx).
  exists s, ax, s1, (Ptr 1 0), (Ptr 2 0), s3. eexists. split; [done|]. split; [exact HG|]. split; [exact E|]. split; [exact Sx|].
  vm_compute. done.
Qed.

(** C50 in double arithmetic: R^T of the same argument differs with the old contents of its result
    array, here 0 or NaN *)
Theorem dct_Rty_old_contents_refuted (fft1 : fkind -> list (@T FN) -> list (@T FN)) fft2 : (forall k xs, length (fft1 k xs) = length xs) ->
  (forall k nr nc xs, length xs = (nr * nc)%nat -> length (fft2 k nr nc xs) = (nr * nc)%nat) ->
  exists (s : @st FN) ax s1 Y D1 D2 s2 s3 v1 v2 w1 w2, started s 1 2 dct1 0 0 [0]%nat ax s1 /\
    good_call (blocks s 0) (o_Rty fft1 fft2 ax 1 2) s1 Y [seven] D1 [zero; zero] /\ call fft1 fft2 (ax_Rty ax) Y D1 s1 = Ok tt s2 /\ seg s2 D1 [v1; v2] /\
    good_call (blocks s 0) (o_Rty fft1 fft2 ax 1 2) s1 Y [seven] D2 [zero; nan_] /\ call fft1 fft2 (ax_Rty ax) Y D2 s1 = Ok tt s3 /\ seg s3 D2 [w1; w2] /\
    isnan v2 = false /\ isnan w2 = true.
Proof.
  intros Hl Hl2. set (bl := [full [seven]; full [zero; zero]; full [zero; nan_]] : list (list (option (@T FN)))).
  destruct (@demo_started FN env0 bl 1 2 dct1 [0]%nat ax0) as (ax & s1 & _ & H); try done; [lia..| |].
  { intros k Hk. repeat (apply elem_of_cons in Hk as [->|Hk]; [lia|]). by apply elem_of_nil in Hk. }
  set (s := @demo FN env0 [0]%nat bl) in *. change (started s 1 2 dct1 0 0 [0]%nat ax s1) in H.
  pose proof (sf_led _ _ _ _ _ _ _ _ _ (started_inv _ _ _ _ _ _ _ _ _ H)) as L.
  assert (HG1 : good_call (blocks s 0) (o_Rty fft1 fft2 ax 1 2) s1 (Ptr 1 0) [seven] (Ptr 2 0) [zero; zero]).
  { apply demo_call; try done; try (simpl; lia).
    - by apply (demo_seg env0 [0]%nat bl 0).
    - by apply (demo_wok env0 [0]%nat bl 1 (full [zero; zero])).
    - intros _. split; [|done]. by apply (demo_seg env0 [0]%nat bl 1). }
  assert (HG2 : good_call (blocks s 0) (o_Rty fft1 fft2 ax 1 2) s1 (Ptr 1 0) [seven] (Ptr 3 0) [zero; nan_]).
  { apply demo_call; try done; try (simpl; lia).
    - by apply (demo_seg env0 [0]%nat bl 0).
    - by apply (demo_wok env0 [0]%nat bl 2 (full [zero; nan_])).
    - intros _. split; [|done]. by apply (demo_seg env0 [0]%nat bl 2). }
  pose proof (ao_Rty _ _ _ _ _ _ _ _ _ _ _ (@started_all FN fft1 fft2 Hl Hl2 _ 1 2 _ _ _ _ _ _ H)) as G.
  destruct (G s1 _ _ _ _ (h_nil _ _ _) HG1) as (s2 & E2 & Sd2 & _). destruct (G s1 _ _ _ _ (h_nil _ _ _) HG2) as (s3 & E3 & Sd3 & _).
  exists s, ax, s1, (Ptr 1 0), (Ptr 2 0), (Ptr 3 0), s2, s3. do 4 eexists.
  split; [exact H|]. split; [exact HG1|]. split; [exact E2|]. split; [exact Sd2|]. split; [exact HG2|]. split; [exact E3|]. split; [exact Sd3|].
  split; vm_compute; done.
Qed.

(** ** Concrete cases *)
(** two pixels, the second sampled: set-up succeeds and Ax, called on the array 3,4, returns entry 1 of
    its inverse DCT *)
Example dct1_case : exists ax s1 s3, started (@demo RN env0 [1]%nat [@full RN [3; 4]%R; @fresh RN 1]) 1 2 dct1 0 0 [1]%nat ax s1 /\
  clean (@demo RN env0 [1]%nat [@full RN [3; 4]%R; @fresh RN 1]) 2 [1]%nat /\ NoDup [1]%nat /\ one_d 1 2 dct1 = true /\
  @call RN dft1 dft2 (ax_Ax ax) (Ptr 1 0) (Ptr 2 0) s1 = Ok tt s3 /\ seg s3 (Ptr 2 0) (sample [1]%nat (dct_inv 2 [3; 4]%R)).
Proof.
  destruct (@demo_started RN env0 [@full RN [3; 4]%R; @fresh RN 1] 1 2 dct1 [1]%nat ax0) as (ax & s1 & _ & H); try done; [lia..| |].
  { intros k Hk. repeat (apply elem_of_cons in Hk as [->|Hk]; [lia|]). by apply elem_of_nil in Hk. }
  set (s := demo _ _ _) in *. change (started s 1 2 dct1 0 0 [1]%nat ax s1) in H.
  assert (HG : good_call (blocks s 0) (@o_Ax RN dft1 dft2 ax 1 2) s1 (Ptr 1 0) [3; 4]%R (Ptr 2 0) []).
  { apply demo_call; try done; try (simpl; lia).
    - exact (sf_led _ _ _ _ _ _ _ _ _ (started_inv _ _ _ _ _ _ _ _ _ H)).
    - by apply (@demo_seg RN env0 [1]%nat _ 0).
    - by apply (@demo_wok RN env0 [1]%nat [@full RN [3; 4]%R; @fresh RN 1] 1 (@fresh RN 1)). }
  destruct (dct_calls_history_independent_R _ _ _ _ _ _ _ _ _ H) as (_ & _ & H1 & _).
  destruct (H1 s1 _ _ _ _ (h_nil _ _ _) HG) as (s3 & E & Sd & _).
  exists ax, s1, s3. split; [done|]. split; [intros j _ _; exact zero_RN|]. split; [apply (bool_decide_unpack _); vm_compute; done|]. done.
Qed.
(** a 2 by 3 image, pixels 4 and 0 sampled, two-dimensional transform: first Mx, then Aty *)
Example dct2_case : exists ax s1 s2 s3, started (@demo RN env0 [4; 0]%nat [@full RN [1; 2; 3; 4; 5; 6]%R; @fresh RN 6; @full RN [7; 8]%R; @fresh RN 6]) 2 3 dct2 0 0 [4; 0]%nat ax s1 /\
  one_d 2 3 dct2 = false /\
  @call RN dft1 dft2 (ax_Mx ax) (Ptr 1 0) (Ptr 2 0) s1 = Ok tt s2 /\ seg s2 (Ptr 2 0) (dct2_inv 2 3 [1; 2; 3; 4; 5; 6]%R) /\
  @call RN dft1 dft2 (ax_Aty ax) (Ptr 3 0) (Ptr 4 0) s2 = Ok tt s3 /\ seg s3 (Ptr 4 0) (dct2_fwd 2 3 (spread 6 [4; 0]%nat [7; 8]%R)).
Proof.
  set (bl := [@full RN [1; 2; 3; 4; 5; 6]%R; @fresh RN 6; @full RN [7; 8]%R; @fresh RN 6]).
  destruct (@demo_started RN env0 bl 2 3 dct2 [4; 0]%nat ax0) as (ax & s1 & _ & H); try done; [simpl; lia..| |].
  { intros k Hk. repeat (apply elem_of_cons in Hk as [->|Hk]; [lia|]). by apply elem_of_nil in Hk. }
  set (s := demo _ _ _) in *. change (started s 2 3 dct2 0 0 [4; 0]%nat ax s1) in H.
  pose proof (sf_led _ _ _ _ _ _ _ _ _ (started_inv _ _ _ _ _ _ _ _ _ H)) as L.
  assert (HG : good_call (blocks s 0) (@o_Mx RN dft1 dft2 ax 6) s1 (Ptr 1 0) [1; 2; 3; 4; 5; 6]%R (Ptr 2 0) []).
  { apply demo_call; try done; try (simpl; lia).
    - by apply (@demo_seg RN env0 [4; 0]%nat bl 0).
    - by apply (@demo_wok RN env0 [4; 0]%nat bl 1 (@fresh RN 6)). }
  assert (HG3 : good_call (blocks s 0) (@o_Aty RN dft1 dft2 ax 2 6) s1 (Ptr 3 0) [7; 8]%R (Ptr 4 0) []).
  { apply demo_call; try done; try (simpl; lia).
    - by apply (@demo_seg RN env0 [4; 0]%nat bl 2).
    - by apply (@demo_wok RN env0 [4; 0]%nat bl 3 (@fresh RN 6)). }
  assert (ND : NoDup [4; 0]%nat) by (apply (bool_decide_unpack _); vm_compute; done).
  destruct (dct_calls_history_independent_R _ _ _ _ _ _ _ _ _ H) as (H1 & _ & _ & _ & _ & _ & _ & At & AtA & H2 & _ & H3).
  destruct (H1 s1 _ _ _ _ (h_nil _ _ _) HG) as (s2 & E & Sd & _ & HF).
  (* the touched blocks are only those of the call *)
  assert (HG4 : good_call (blocks s 0) (@o_Aty RN dft1 dft2 ax 2 6) s2 (Ptr 3 0) [7; 8]%R (Ptr 4 0) []).
  { destruct HG3 as [Sx Lx Wd Hi Hd Ax Ad Ox Od].
    pose proof (started_inv _ _ _ _ _ _ _ _ _ H) as [_ _ _ _ _ Hm _ _].
    assert (T : exists F, touch F (wr (Ptr 2 0) (@mx2_of RN dft2 2 3 (root2 2 3) [1; 2; 3; 4; 5; 6]%R) s1) s2).
    { inversion Hm as [m s1' Eo|nr nc s1' Eo Er Ec HC HJ]; [done|]. assert (nr = 2%nat) as -> by lia. assert (nc = 3%nat) as -> by lia. subst.
      destruct (op_run _ _ _ _ _ _ (@Mx2_oper RN dft1 dft2 dft2_len' _ HC) s1 (Ptr 1 0) [1; 2; 3; 4; 5; 6]%R (Ptr 2 0) HJ) as (s2' & E2 & Ht & _).
      - apply HG.
      - done.
      - apply HG.
      - apply HG.
      - apply HG.
      - apply HG.
      - apply HG.
      - apply HG.
      - exists (F2 (cfg2_of s 0 0 2 3 [4; 0]%nat)). pose proof (eq_trans (eq_sym E) E2) as Q. injection Q as ->. exact Ht. }
    destruct T as [F T]. split; try done.
    - apply HF; [done| |done]. apply disj_blocks. lia.
    - eapply touch_wok; [exact T|]. apply wok_wr; [|done]. apply HG.
    - unfold is_aligned in *. by rewrite (t_al _ _ _ T), al_wr.
    - unfold is_aligned in *. by rewrite (t_al _ _ _ T), al_wr. }
  assert (Hh : hist (blocks s 0) (opsR ax 2 6) s1 s2) by (eapply h_call; [apply h_nil| |exact HG|exact E]; unfold dct_ops; isin).
  destruct (H2 s2 _ _ _ _ Hh HG4) as (s3 & E3 & Sd3 & _).
  exists ax, s1, s2, s3. split; [exact H|]. split; [done|]. split; [exact E|]. split; [exact Sd|]. split; [exact E3|].
  rewrite H3 in Sd3; [exact Sd3|exact ND|intros j _ _; exact zero_RN|done].
Qed.

Print Assumptions dct_AtAx_is_Aty_after_Ax.
Print Assumptions dct_calls_history_independent.
Print Assumptions dct_Mx_argument.
Print Assumptions dct_calls_history_independent_R.
Print Assumptions dct1_orthonormal.
Print Assumptions dct2_orthonormal.
Print Assumptions dct_measurement_operators.
Print Assumptions dct_Mx_argument_unchanged_R.
Print Assumptions dct_repeated_index_refuted.
Print Assumptions dct_adjoint_dirty_planner_refuted.
Print Assumptions dct_Mx_changes_argument_refuted.
Print Assumptions dct_Rty_old_contents_refuted.
