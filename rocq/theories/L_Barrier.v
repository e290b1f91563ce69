(** * Calculus of the log-barrier objective over the reals. *)
From Coq Require Import Lia Reals Lra Psatz.
From stdpp Require Import base numbers list.
From Verif Require Import Mem P_Loop L_Sum L_ER L_Lin P_CGR S_Newt P_NewtX P_NewtX2.
Local Open Scope R_scope.

(** ** derivatives of numbers *)
Lemma drv_ext f g x l : (forall t, f t = g t) -> derivable_pt_lim f x l -> derivable_pt_lim g x l.
Proof. intros H D eps He. destruct (D eps He) as [dl Hd]. exists dl. intros h H1 H2. rewrite <- !H. by apply Hd. Qed.
Lemma drv_ext_loc f g x l r : 0 < r -> (forall t, Rabs (t - x) < r -> f t = g t) -> derivable_pt_lim f x l -> derivable_pt_lim g x l.
Proof.
  intros Hr H D eps He. destruct (D eps He) as [dl Hd].
  assert (Hm : 0 < Rmin dl r) by (apply Rmin_pos; [apply cond_pos|done]). exists (mkposreal _ Hm). cbn [pos]. intros h H1 H2.
  pose proof (Rmin_l dl r). pose proof (Rmin_r dl r).
  rewrite <- !H; [apply Hd; [done|lra]| |]; [replace (x - x) with 0 by lra; rewrite Rabs_R0; lra|].
  replace (x + h - x) with h by lra. lra.
Qed.
Lemma drv_eq f x l l' : l = l' -> derivable_pt_lim f x l -> derivable_pt_lim f x l'. Proof. by intros ->. Qed.
Lemma drv_affine a d : derivable_pt_lim (fun t => a + t * d) 0 d.
Proof.
  intros eps He. exists (mkposreal 1 Rlt_0_1). intros h Hh _.
  replace ((a + (0 + h) * d - (a + 0 * d)) / h - d) with 0 by (field; done). by rewrite Rabs_R0.
Qed.
Lemma drv_quad a b c : derivable_pt_lim (fun t => a + t * b + t * t * c) 0 b.
Proof.
  eapply drv_eq; [|apply (derivable_pt_lim_plus (fun t => a + t * b) (fun t => t * t * c) 0 b (0 * c))]; [lra|apply drv_affine|].
  intros eps He. destruct (Req_dec c 0) as [->|Hc].
  - exists (mkposreal 1 Rlt_0_1). intros h Hh _. replace (_ / h - _) with 0 by (field; done). by rewrite Rabs_R0.
  - assert (Hp : 0 < eps / Rabs c) by (apply Rdiv_lt_0_compat; [done|by apply Rabs_pos_lt]). exists (mkposreal _ Hp). cbn [pos]. intros h Hh Hl.
    replace (_ / h - _) with (h * c) by (field; done). rewrite Rabs_mult. apply (Rmult_lt_compat_r (Rabs c)) in Hl; [|by apply Rabs_pos_lt].
    replace (eps / Rabs c * Rabs c) with eps in Hl; [done|]. field. by apply Rabs_no_R0.
Qed.
Lemma drv_ln f l : 0 < f 0 -> derivable_pt_lim f 0 l -> derivable_pt_lim (fun t => ln (f t)) 0 (l / f 0).
Proof.
  intros Hp D. eapply drv_eq; [|apply (derivable_pt_lim_comp f ln 0 l (/ f 0) D)]; [unfold Rdiv; ring|by apply derivable_pt_lim_ln].
Qed.
Lemma drv_inv f l : f 0 <> 0 -> derivable_pt_lim f 0 l -> derivable_pt_lim (fun t => 1 / f t) 0 (- l / (f 0 * f 0)).
Proof.
  intros Hp D. eapply drv_eq; [|apply (derivable_pt_lim_div (fun _ => 1) f 0 0 l (derivable_pt_lim_const 1 0) D Hp)]. unfold Rsqr. field. done.
Qed.
Lemma drv_scal c f l : derivable_pt_lim f 0 l -> derivable_pt_lim (fun t => c * f t) 0 (c * l).
Proof. apply derivable_pt_lim_scal. Qed.
Lemma drv_plus f g l k : derivable_pt_lim f 0 l -> derivable_pt_lim g 0 k -> derivable_pt_lim (fun t => f t + g t) 0 (l + k).
Proof. apply derivable_pt_lim_plus. Qed.
Lemma drv_minus f g l k : derivable_pt_lim f 0 l -> derivable_pt_lim g 0 k -> derivable_pt_lim (fun t => f t - g t) 0 (l - k).
Proof. apply derivable_pt_lim_minus. Qed.
Lemma drv_mult f g l k : derivable_pt_lim f 0 l -> derivable_pt_lim g 0 k -> derivable_pt_lim (fun t => f t * g t) 0 (l * g 0 + f 0 * k).
Proof. apply derivable_pt_lim_mult. Qed.
Lemma drv_Rsum n (f : nat -> R -> R) (l : nat -> R) : (forall i, (i < n)%nat -> derivable_pt_lim (f i) 0 (l i)) ->
  derivable_pt_lim (fun t => Rsum n (fun i => f i t)) 0 (Rsum n l).
Proof.
  induction n as [|n IH]; intros H; cbn [Rsum]; [apply derivable_pt_lim_const|]. apply drv_plus; [apply IH; intros; apply H; lia|apply H; lia].
Qed.

(** ** vectors *)
Definition ebas (m i : nat) : list R := map (fun j => if (j =? i)%nat then 1 else 0) (seq 0 m).
Lemma ebas_length m i : length (ebas m i) = m. Proof. unfold ebas. by rewrite map_length, seq_length. Qed.
Lemma nth_ebas m i j : (j < m)%nat -> nth j (ebas m i) 0 = if (j =? i)%nat then 1 else 0.
Proof. intros H. unfold ebas. by rewrite nth_map_seq. Qed.
Lemma dot_ebas m i v : (i < m)%nat -> length v = m -> dot v (ebas m i) = nth i v 0.
Proof.
  intros Hi Lv. unfold dot. rewrite Lv. rewrite (Rsum_single _ _ i Hi).
  - rewrite nth_ebas, Nat.eqb_refl by done. lra.
  - intros j Hj Hn. rewrite nth_ebas by done. apply Nat.eqb_neq in Hn. rewrite Hn. lra.
Qed.
Lemma dot_sym u v : length u = length v -> dot u v = dot v u.
Proof. intros H. unfold dot. rewrite H. apply Rsum_ext. intros. ring. Qed.
Lemma along_nth x d t i : (i < length d)%nat -> nth i (along x d t) 0 = nth i x 0 + t * nth i d 0.
Proof. intros H. unfold along. rewrite nth_vlin by done. lra. Qed.
Lemma along_0 x d : length d = length x -> along x d 0 = x.
Proof.
  intros H. apply (list_eq_nth (length x)); [by rewrite along_length|done|]. intros i Hi. rewrite along_nth by lia. lra.
Qed.

Section bar.
Context (m n : nat) (A B : list R -> list R) (b : list R) (e tau : R).
Context (HL : linmap m n A) (HB : adjoint m n A B) (Ht : tau <> 0).
Notation r x := (resid A b x).
Notation fe x := ((nrm2sq (r x) - e * e) / 2).
Notation F := (barrier A b e tau).
Notation sf := (strictly_feasible A b e).

Lemma r_length x : length x = m -> length (r x) = n.
Proof. intros H. unfold resid. rewrite vlin_length. by apply HL. Qed.
Lemma sf_neg x u i : length x = m -> sf x u -> (i < m)%nat -> nth i x 0 - nth i u 0 < 0 /\ 0 < nth i x 0 + nth i u 0.
Proof. intros Lx [H _] Hi. specialize (H i ltac:(lia)). apply Rabs_def2 in H. lra. Qed.
Lemma sf_fe x u : sf x u -> fe x < 0.
Proof. intros [_ H]. apply nrm2_lt_inv in H as [_ H]. lra. Qed.
(** the adjoint, entry by entry *)
Lemma B_entry y i : length y = n -> (i < m)%nat -> nth i (B y) 0 = dot (A (ebas m i)) y.
Proof.
  intros Ly Hi. rewrite (proj2 HB) by (first [apply ebas_length|done]). rewrite dot_sym by (rewrite ebas_length; symmetry; by apply HB).
  symmetry. apply dot_ebas; [done|]. by apply HB.
Qed.
Lemma B_along x d t i : length x = m -> length d = m -> (i < m)%nat ->
  nth i (B (r (along x d t))) 0 = nth i (B (r x)) 0 + t * nth i (B (A d)) 0.
Proof.
  intros Lx Ld Hi. rewrite (B_entry (r (along x d t)) i), (B_entry (r x) i), (B_entry (A d) i) by (first [done|by apply HL|by apply r_length|apply r_length; by rewrite along_length]).
  unfold dot. rewrite <- Rsum_scal, <- Rsum_plus. apply Rsum_ext. intros k Hk.
  rewrite (proj1 HL) in Hk by apply ebas_length. rewrite (resid_along m n) by done. ring.
Qed.
(** the gradient *)
Definition gx (x u : list R) (i : nat) : R := - (1 / tau) * (1 / (nth i x 0 - nth i u 0) + 1 / (nth i x 0 + nth i u 0) + nth i (B (r x)) 0 / fe x).
Definition gu (x u : list R) (i : nat) : R := 1 + 1 / tau * (1 / (nth i x 0 - nth i u 0) - 1 / (nth i x 0 + nth i u 0)).
Definition gxl x u : list R := map (gx x u) (seq 0 m).
Definition gul x u : list R := map (gu x u) (seq 0 m).
Lemma gxl_length x u : length (gxl x u) = m. Proof. unfold gxl. by rewrite map_length, seq_length. Qed.
Lemma gul_length x u : length (gul x u) = m. Proof. unfold gul. by rewrite map_length, seq_length. Qed.
Lemma nth_gxl x u i : (i < m)%nat -> nth i (gxl x u) 0 = gx x u i. Proof. intros H. unfold gxl. by rewrite nth_map_seq. Qed.
Lemma nth_gul x u i : (i < m)%nat -> nth i (gul x u) 0 = gu x u i. Proof. intros H. unfold gul. by rewrite nth_map_seq. Qed.

Lemma gradient x u : length x = m -> length u = m -> sf x u -> is_gradient F x u (gxl x u) (gul x u).
Proof.
  intros Lx Lu HF. split; [by rewrite gxl_length|]. split; [by rewrite gul_length|]. intros d f Ld Lf. rewrite Lx in *.
  set (q := ip n (r x) (A d)). pose proof (sf_fe _ _ HF) as Hfe.
  assert (D : derivable_pt_lim (fun t => Rsum m (fun i => nth i u 0 + t * nth i f 0) -
     1 / tau * (Rsum m (fun i => ln ((nth i u 0 - nth i x 0) + t * (nth i f 0 - nth i d 0))) +
                Rsum m (fun i => ln ((nth i u 0 + nth i x 0) + t * (nth i f 0 + nth i d 0))) +
                ln ((- fe x) + t * (- q) + t * t * (- nrm2sq (A d) / 2)))) 0
    (Rsum m (fun i => nth i f 0) -
     1 / tau * (Rsum m (fun i => (nth i f 0 - nth i d 0) / (nth i u 0 - nth i x 0)) +
                Rsum m (fun i => (nth i f 0 + nth i d 0) / (nth i u 0 + nth i x 0)) + - q / (- fe x)))).
  { apply drv_minus; [|apply drv_scal, drv_plus; [apply drv_plus|]].
    - apply (drv_Rsum m (fun i t => nth i u 0 + t * nth i f 0)). intros i Hi. apply drv_affine.
    - apply (drv_Rsum m (fun i t => ln (nth i u 0 - nth i x 0 + t * (nth i f 0 - nth i d 0)))). intros i Hi.
      destruct (sf_neg x u i Lx HF Hi). eapply drv_eq; [|apply (drv_ln (fun t => nth i u 0 - nth i x 0 + t * (nth i f 0 - nth i d 0))); [|apply drv_affine]].
      + f_equal. lra.
      + lra.
    - apply (drv_Rsum m (fun i t => ln (nth i u 0 + nth i x 0 + t * (nth i f 0 + nth i d 0)))). intros i Hi.
      destruct (sf_neg x u i Lx HF Hi). eapply drv_eq; [|apply (drv_ln (fun t => nth i u 0 + nth i x 0 + t * (nth i f 0 + nth i d 0))); [|apply drv_affine]].
      + f_equal. lra.
      + lra.
    - eapply drv_eq; [|apply (drv_ln (fun t => - fe x + t * - q + t * t * (- nrm2sq (A d) / 2))); [|apply drv_quad]].
      + f_equal. lra.
      + lra. }
  eapply drv_eq; [|eapply drv_ext; [|exact D]].
  - unfold dot. rewrite gxl_length, gul_length.
    replace q with (Rsum m (fun i => nth i (B (r x)) 0 * nth i d 0)).
    2:{ unfold q. rewrite ip_dot by (by apply r_length). rewrite dot_sym by (rewrite r_length by done; symmetry; by apply HL).
        rewrite (proj2 HB) by (first [done|by apply r_length]). unfold dot. rewrite Ld. apply Rsum_ext. intros. ring. }
    set (S := Rsum m (fun i => nth i (B (r x)) 0 * nth i d 0)).
    replace (- S / - fe x) with (Rsum m (fun i => (nth i (B (r x)) 0 * nth i d 0) * (1 / fe x))) by (rewrite Rsum_scal_r; fold S; field; lra).
    clear D. rewrite <- !Rsum_plus, <- Rsum_scal, <- Rsum_minus. apply Rsum_ext. intros i Hi. rewrite nth_gxl, nth_gul by done.
    destruct (sf_neg x u i Lx HF Hi). unfold gx, gu. field. repeat split; lra.
  - intros t. unfold barrier. rewrite along_length, Ld. f_equal; [apply Rsum_ext; intros i Hi; rewrite along_nth by lia; lra|].
    f_equal. f_equal; [f_equal|].
    + apply Rsum_ext. intros i Hi. rewrite !along_nth by lia. f_equal. lra.
    + apply Rsum_ext. intros i Hi. rewrite !along_nth by lia. f_equal. lra.
    + rewrite (resid_along_sq m n) by done. fold q. f_equal. lra.
Qed.
Lemma gradient_unique f x u g h g' h' : is_gradient f x u g h -> is_gradient f x u g' h' -> g = g' /\ h = h'.
Proof.
  intros (L1 & L2 & H) (L3 & L4 & H'). set (k := length x) in *.
  assert (Hz : forall v, dot v (map (fun _ => 0) (seq 0 k)) = 0).
  { intros v. apply Rsum_0. intros i _. destruct (Nat.lt_ge_cases i k).
    - rewrite nth_map_seq by done. lra.
    - rewrite (nth_overflow (map _ _)) by (rewrite map_length, seq_length; done). lra. }
  assert (Lz : length (map (fun _ : nat => 0) (seq 0 k)) = k) by (by rewrite map_length, seq_length).
  split; apply (list_eq_nth k); try done; intros i Hi.
  - pose proof (uniqueness_limite _ _ _ _ (H _ _ (ebas_length k i) Lz) (H' _ _ (ebas_length k i) Lz)) as E.
    rewrite !Hz, !dot_ebas in E by done. lra.
  - pose proof (uniqueness_limite _ _ _ _ (H _ _ Lz (ebas_length k i)) (H' _ _ Lz (ebas_length k i))) as E.
    rewrite !Hz, !dot_ebas in E by done. lra.
Qed.

(** strict feasibility is open along a line *)
Definition unfin (es : list er) : list R := map (fun v => match v with Fin z => z | _ => 0 end) es.
Lemma unfin_fin v : unfin (fin v) = v.
Proof. unfold unfin, fin. induction v as [|a v IH]; [done|]. cbn. f_equal. exact IH. Qed.
Lemma sf_open x u d f : length x = m -> length u = m -> length d = m -> length f = m -> length b = n -> sf x u ->
  exists s, 0 < s /\ forall t, Rabs t < s -> sf (along x d t) (along u f t).
Proof.
  intros Lx Lu Ld Lf Lb HF.
  set (AE := fun es => fin (A (unfin es))).
  assert (HA : forall v, length v = m -> AE (fin v) = fin (A v)) by (intros v _; unfold AE; by rewrite unfin_fin).
  destruct (maxstep_strict m n AE A b e HL HA Lb x u d f) as (s & _ & [Hs _] & H1); try done.
  destruct (maxstep_strict m n AE A b e HL HA Lb x u (vlin (-1) d 0 d) (vlin (-1) f 0 f)) as (s' & _ & [Hs' _] & H2); try done; try (by rewrite vlin_length).
  exists (Rmin s s'). split; [by apply Rmin_pos|]. intros t Hr. pose proof (Rmin_l s s'). pose proof (Rmin_r s s'). apply Rabs_def2 in Hr.
  destruct (Rle_dec 0 t) as [Hp|Hp]; [apply H1; lra|].
  replace (along x d t) with (along x (vlin (-1) d 0 d) (- t)).
  2:{ apply (list_eq_nth m); [by rewrite along_length, vlin_length|by rewrite along_length|]. intros i Hi.
      rewrite !along_nth, nth_vlin by (rewrite ?vlin_length; lia). lra. }
  replace (along u f t) with (along u (vlin (-1) f 0 f) (- t)).
  2:{ apply (list_eq_nth m); [by rewrite along_length, vlin_length|by rewrite along_length|]. intros i Hi.
      rewrite !along_nth, nth_vlin by (rewrite ?vlin_length; lia). lra. }
  apply H2. lra.
Qed.

(** ** the Newton direction *)
Section dir.
Context (x u d f : list R) (Lx : length x = m) (Lu : length u = m) (Ld : length d = m) (Lf : length f = m) (HF : sf x u).
Definition s11 i : R := 1 / ((nth i x 0 - nth i u 0) * (nth i x 0 - nth i u 0)) + 1 / ((nth i x 0 + nth i u 0) * (nth i x 0 + nth i u 0)).
Definition s12 i : R := - (1 / ((nth i x 0 - nth i u 0) * (nth i x 0 - nth i u 0))) + 1 / ((nth i x 0 + nth i u 0) * (nth i x 0 + nth i u 0)).
Lemma drv_gx i : (i < m)%nat -> derivable_pt_lim (fun t => gx (along x d t) (along u f t) i) 0
  (1 / tau * (s11 i * nth i d 0 + s12 i * nth i f 0 - nth i (B (A d)) 0 / fe x + nth i (B (r x)) 0 * dot (B (r x)) d / (fe x * fe x))).
Proof.
  intros Hi. set (q := ip n (r x) (A d)). pose proof (sf_fe _ _ HF) as Hfe. destruct (sf_neg x u i Lx HF Hi) as [H1 H2].
  assert (Eq : q = dot (B (r x)) d).
  { unfold q. rewrite ip_dot by (by apply r_length). rewrite dot_sym by (rewrite r_length by done; symmetry; by apply HL).
    rewrite (proj2 HB) by (first [done|by apply r_length]). apply dot_sym. rewrite Ld. symmetry. apply HB. by apply r_length. }
  rewrite <- Eq.
  assert (D : derivable_pt_lim (fun t => - (1 / tau) * (1 / ((nth i x 0 - nth i u 0) + t * (nth i d 0 - nth i f 0)) + 1 / ((nth i x 0 + nth i u 0) + t * (nth i d 0 + nth i f 0))
      + (nth i (B (r x)) 0 + t * nth i (B (A d)) 0) * (1 / (fe x + t * q + t * t * (nrm2sq (A d) / 2))))) 0
    (- (1 / tau) * (- (nth i d 0 - nth i f 0) / ((nth i x 0 - nth i u 0 + 0 * (nth i d 0 - nth i f 0)) * (nth i x 0 - nth i u 0 + 0 * (nth i d 0 - nth i f 0)))
       + - (nth i d 0 + nth i f 0) / ((nth i x 0 + nth i u 0 + 0 * (nth i d 0 + nth i f 0)) * (nth i x 0 + nth i u 0 + 0 * (nth i d 0 + nth i f 0)))
       + (nth i (B (A d)) 0 * (1 / (fe x + 0 * q + 0 * 0 * (nrm2sq (A d) / 2))) + (nth i (B (r x)) 0 + 0 * nth i (B (A d)) 0) *
            (- q / ((fe x + 0 * q + 0 * 0 * (nrm2sq (A d) / 2)) * (fe x + 0 * q + 0 * 0 * (nrm2sq (A d) / 2)))))))).
  { apply drv_scal, drv_plus; [apply drv_plus|].
    - apply (drv_inv (fun t => nth i x 0 - nth i u 0 + t * (nth i d 0 - nth i f 0))); [lra|apply drv_affine].
    - apply (drv_inv (fun t => nth i x 0 + nth i u 0 + t * (nth i d 0 + nth i f 0))); [lra|apply drv_affine].
    - apply (drv_mult (fun t => nth i (B (r x)) 0 + t * nth i (B (A d)) 0) (fun t => 1 / (fe x + t * q + t * t * (nrm2sq (A d) / 2)))); [apply drv_affine|].
      apply (drv_inv (fun t => fe x + t * q + t * t * (nrm2sq (A d) / 2))); [lra|]. apply drv_quad. }
  eapply drv_eq; [|eapply drv_ext; [|exact D]].
  - clear D. unfold s11, s12. set (FE := fe x) in *. replace (nth i x 0 - nth i u 0 + 0 * (nth i d 0 - nth i f 0)) with (nth i x 0 - nth i u 0) by lra.
    replace (nth i x 0 + nth i u 0 + 0 * (nth i d 0 + nth i f 0)) with (nth i x 0 + nth i u 0) by lra.
    replace (FE + 0 * q + 0 * 0 * (nrm2sq (A d) / 2)) with FE by lra. field. repeat split; try done; lra.
  - intros t. unfold gx. rewrite !along_nth, B_along by (rewrite ?along_length; lia). rewrite (resid_along_sq m n) by done. fold q.
    f_equal. unfold Rdiv. f_equal; [f_equal; f_equal; f_equal; lra|]. f_equal. rewrite Rmult_1_l. f_equal. lra.
Qed.
Lemma drv_gu i : (i < m)%nat -> derivable_pt_lim (fun t => gu (along x d t) (along u f t) i) 0 (1 / tau * (s12 i * nth i d 0 + s11 i * nth i f 0)).
Proof.
  intros Hi. destruct (sf_neg x u i Lx HF Hi) as [H1 H2].
  assert (D : derivable_pt_lim (fun t => 1 + (1 / tau) * (1 / ((nth i x 0 - nth i u 0) + t * (nth i d 0 - nth i f 0)) - 1 / ((nth i x 0 + nth i u 0) + t * (nth i d 0 + nth i f 0)))) 0
    (0 + (1 / tau) * (- (nth i d 0 - nth i f 0) / ((nth i x 0 - nth i u 0 + 0 * (nth i d 0 - nth i f 0)) * (nth i x 0 - nth i u 0 + 0 * (nth i d 0 - nth i f 0)))
       - - (nth i d 0 + nth i f 0) / ((nth i x 0 + nth i u 0 + 0 * (nth i d 0 + nth i f 0)) * (nth i x 0 + nth i u 0 + 0 * (nth i d 0 + nth i f 0)))))).
  { apply drv_plus; [apply derivable_pt_lim_const|]. apply drv_scal, drv_minus.
    - apply (drv_inv (fun t => nth i x 0 - nth i u 0 + t * (nth i d 0 - nth i f 0))); [lra|apply drv_affine].
    - apply (drv_inv (fun t => nth i x 0 + nth i u 0 + t * (nth i d 0 + nth i f 0))); [lra|apply drv_affine]. }
  eapply drv_eq; [|eapply drv_ext; [|exact D]].
  - clear D. unfold s11, s12. replace (nth i x 0 - nth i u 0 + 0 * (nth i d 0 - nth i f 0)) with (nth i x 0 - nth i u 0) by lra.
    replace (nth i x 0 + nth i u 0 + 0 * (nth i d 0 + nth i f 0)) with (nth i x 0 + nth i u 0) by lra. field. repeat split; try done; lra.
  - intros t. unfold gu. rewrite !along_nth by lia. f_equal. f_equal. f_equal; f_equal; lra.
Qed.
Lemma newton_dir : length b = n ->
  (forall i, (i < m)%nat -> 1 / tau * (s11 i * nth i d 0 + s12 i * nth i f 0 - nth i (B (A d)) 0 / fe x + nth i (B (r x)) 0 * dot (B (r x)) d / (fe x * fe x)) = - gx x u i) ->
  (forall i, (i < m)%nat -> 1 / tau * (s12 i * nth i d 0 + s11 i * nth i f 0) = - gu x u i) ->
  newton_direction m sf F x u d f.
Proof.
  intros Lb H1 H2 G H HG i Hi. destruct (sf_open x u d f Lx Lu Ld Lf Lb HF) as (s & Hs & Ho).
  assert (E : forall t, Rabs (t - 0) < s -> gxl (along x d t) (along u f t) = G (along x d t) (along u f t) /\ gul (along x d t) (along u f t) = H (along x d t) (along u f t)).
  { intros t Hr. rewrite Rminus_0_r in Hr. assert (L1 : length (along x d t) = m) by (by rewrite along_length). assert (L2 : length (along u f t) = m) by (by rewrite along_length).
    eapply gradient_unique; [apply gradient; auto|apply HG; auto]. }
  assert (E0 : gxl x u = G x u /\ gul x u = H x u). { eapply gradient_unique; [apply gradient; auto|apply HG; auto]. }
  destruct E0 as [E1 E2]. split.
  - rewrite <- E1, nth_gxl, <- H1 by done. eapply drv_ext_loc; [exact Hs| |apply drv_gx; done]. intros t Hr. cbv beta. rewrite <- (proj1 (E t Hr)). by rewrite nth_gxl.
  - rewrite <- E2, nth_gul, <- H2 by done. eapply drv_ext_loc; [exact Hs| |apply drv_gu; done]. intros t Hr. cbv beta. rewrite <- (proj2 (E t Hr)). by rewrite nth_gul.
Qed.
End dir.

(** ** the duality gap at a point where the gradient vanishes *)
Lemma barrier_gap x u g h xs : 0 < tau -> length x = m -> length u = m -> sf x u -> is_gradient F x u g h ->
  (forall i, (i < m)%nat -> nth i g 0 = 0 /\ nth i h 0 = 0) -> length xs = m -> nrm2 (r xs) <= e -> nrm1 x <= nrm1 xs + (2 * INR m + 1) / tau.
Proof.
  intros Htau Lx Lu HF HG Hz Ls Hs. pose proof (sf_fe _ _ HF) as Hfe.
  destruct (gradient_unique _ _ _ _ _ _ _ HG (gradient x u Lx Lu HF)) as [-> ->].
  set (d := vlin 1 xs (-1) x). assert (Ld : length d = m) by (unfold d; by rewrite vlin_length).
  assert (Nd : forall i, (i < m)%nat -> nth i d 0 = nth i xs 0 - nth i x 0). { intros i Hi. unfold d. rewrite nth_vlin by lia. lra. }
  set (q := ip n (r x) (A d)).
  assert (Eq : q = Rsum m (fun i => nth i (B (r x)) 0 * nth i d 0)).
  { unfold q. rewrite ip_dot by (by apply r_length). rewrite dot_sym by (rewrite r_length by done; symmetry; by apply HL).
    rewrite (proj2 HB) by (first [done|by apply r_length]). unfold dot. rewrite Ld. apply Rsum_ext. intros. ring. }
  (* the residual constraint is convex *)
  assert (Hq : q <= - fe x).
  { assert (Exs : along x d 1 = xs). { apply (list_eq_nth m); [by rewrite along_length|done|]. intros i Hi. rewrite along_nth, Nd by lia. lra. }
    pose proof (resid_along_sq m n A b x d 1 HL Lx Ld) as E. rewrite Exs in E. fold q in E.
    assert (nrm2sq (r xs) <= e * e).
    { unfold nrm2 in Hs. assert (P0 : 0 <= nrm2sq (r xs)) by (apply Rsum_nonneg; intros; nra). rewrite <- (sqrt_sqrt _ P0). pose proof (sqrt_pos (nrm2sq (r xs))). nra. }
    assert (0 <= nrm2sq (A d)) by (apply Rsum_nonneg; intros; nra). lra. }
  (* the gradient against the direction towards (xs, |xs|) *)
  assert (Z : 0 = Rsum m (fun i => gx x u i * nth i d 0 + gu x u i * (Rabs (nth i xs 0) - nth i u 0))).
  { symmetry. apply Rsum_0. intros i Hi. destruct (Hz i Hi) as [Z1 Z2]. rewrite nth_gxl in Z1 by done. rewrite nth_gul in Z2 by done. rewrite Z1, Z2. lra. }
  assert (Hb : nrm1 x <= Rsum m (fun i => nth i u 0)). { unfold nrm1. rewrite Lx. apply Rsum_le. intros i Hi. left. apply HF. lia. }
  assert (K : Rsum m (fun i => nth i u 0) - nrm1 xs <= (2 * INR m + 1) / tau); [|lra].
  unfold nrm1. rewrite Ls, <- Rsum_minus. set (LHS := Rsum m _).
  assert (T1 : LHS <=
    Rsum m (fun i => 2 / tau + (- (1 / (tau * fe x))) * (nth i (B (r x)) 0 * nth i d 0) - (gx x u i * nth i d 0 + gu x u i * (Rabs (nth i xs 0) - nth i u 0)))).
  { apply Rsum_le. intros i Hi. rewrite Nd by done. destruct (sf_neg x u i Lx HF Hi) as [H1 H2].
    set (a := nth i xs 0). set (X := nth i x 0) in *. set (U := nth i u 0) in *. set (bb := nth i (B (r x)) 0).
    assert (Hf1 : 0 <= (a - Rabs a) / (X - U)). { pose proof (Rle_abs a). replace ((a - Rabs a) / (X - U)) with ((Rabs a - a) * / (U - X)) by (field; lra). apply Rmult_le_pos; [lra|]. apply Rlt_le, Rinv_0_lt_compat. lra. }
    assert (Hf2 : 0 <= (a + Rabs a) / (X + U)). { pose proof (Rle_abs (- a)) as Q. rewrite Rabs_Ropp in Q. apply Rmult_le_pos; [lra|]. apply Rlt_le, Rinv_0_lt_compat. lra. }
    apply (Rmult_le_compat_l (1 / tau)) in Hf1; [|apply Rlt_le, Rdiv_lt_0_compat; lra].
    apply (Rmult_le_compat_l (1 / tau)) in Hf2; [|apply Rlt_le, Rdiv_lt_0_compat; lra].
    unfold gx, gu. fold X U bb.
    assert (E : 2 / tau + - (1 / (tau * fe x)) * (bb * (a - X)) - (- (1 / tau) * (1 / (X - U) + 1 / (X + U) + bb / fe x) * (a - X) +
       (1 + 1 / tau * (1 / (X - U) - 1 / (X + U))) * (Rabs a - U)) = U - Rabs a + 1 / tau * ((a - Rabs a) / (X - U)) + 1 / tau * ((a + Rabs a) / (X + U))).
    { set (FE := fe x) in *. field. repeat split; lra. }
    rewrite E. lra. }
  rewrite Rsum_minus, <- Z, Rsum_plus, Rsum_scal, Rsum_const, <- Eq in T1. rewrite Rminus_0_r in T1.
  eapply Rle_trans; [exact T1|]. set (FE := fe x) in *.
  assert (H3 : - (1 / (tau * FE)) * q <= 1 / tau).
  { replace (- (1 / (tau * FE)) * q) with (1 / tau * (q * / (- FE))) by (field; lra). rewrite <- (Rmult_1_r (1 / tau)) at 2.
    apply Rmult_le_compat_l; [apply Rlt_le, Rdiv_lt_0_compat; lra|].
    apply (Rmult_le_reg_r (- FE)); [lra|]. rewrite Rmult_assoc, Rinv_l by lra. lra. }
  replace ((2 * INR m + 1) / tau) with (INR m * (2 / tau) + 1 / tau) by (field; lra). lra.
Qed.
End bar.
