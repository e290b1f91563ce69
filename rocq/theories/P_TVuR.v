(** * The dictionary of the DCT-TV transform over the reals. *)
From Coq Require Import ZArith Lia Reals Lra Psatz.
From stdpp Require Import base numbers list.
From Verif Require Import Mem M_Math P_Loop P_Math P_TV P_TVR P_MathR S_Vec L_Lin S_Img S_Newt S_Dct L_Cos P_DctR P_Dct2R S_TVtApi P_TVt.
Local Open Scope R_scope.

(** ** The difference operators of TV.c are those of the specification *)
Section diffs.
Context (nr nc : nat) (a : R) (u : list R).
Lemma k_rc k : (k < nr * nc)%nat -> exists i j, k = (i * nc + j)%nat /\ (i < nr)%nat /\ (j < nc)%nat /\ (k / nc)%nat = i /\ (k mod nc)%nat = j.
Proof.
  intros Hk. destruct (rc_bound nr nc k Hk) as (H0 & Hi & Hj). exists (k / nc)%nat, (k mod nc)%nat. split_and!; try done.
  pose proof (Nat.div_mod k nc ltac:(lia)). lia.
Qed.
Lemma ext_nth n (x : list R) f : length x = n -> (forall k, (k < n)%nat -> nth k x 0 = f k) -> x = vec n f.
Proof. intros Lx H. rewrite <- (vec_self n x Lx). by apply vec_ext. Qed.
Lemma Dx_hdiff : @Dx_of RN nr nc a u = hdiff nr nc a u.
Proof.
  apply ext_nth; [apply (@tab_length RN)|]. intros k Hk. destruct (k_rc k Hk) as (i & j & Ek & Hi & Hj & -> & ->). cbv zeta.
  rewrite Ek. unfold Dx_of. rewrite row_of_at by done. rewrite ddiff_RN. unfold when, px. by rewrite Nat.add_assoc.
Qed.
Lemma DxT_hdiffT : (2 <= nc)%nat -> @DxT_of RN nr nc a u = hdiffT nr nc a u.
Proof.
  intros Hc. apply ext_nth; [apply (@tab_length RN)|]. intros k Hk. destruct (k_rc k Hk) as (i & j & Ek & Hi & Hj & -> & ->). cbv zeta.
  rewrite Ek. unfold DxT_of. rewrite row_of_at by done. rewrite ddiffT_RN by done. unfold when, px. f_equal. f_equal.
  - destruct (Nat.ltb_spec j 1), (Nat.ltb_spec 0 j); try lia; done.
  - destruct (Nat.ltb_spec j (nc - 1)), (Nat.ltb_spec (j + 1) nc); try lia; done.
Qed.
Lemma Dy_vdiff : @Dy_of RN nr nc a u = vdiff nr nc a u.
Proof.
  apply ext_nth; [apply (@tab_length RN)|]. intros k Hk. destruct (k_rc k Hk) as (i & j & Ek & Hi & Hj & -> & ->). cbv zeta.
  rewrite Dy_RN by done. unfold when, px. replace ((i + 1) * nc + j)%nat with (k + nc)%nat by lia. rewrite <- Ek.
  destruct (Nat.ltb_spec k ((nr - 1) * nc)), (Nat.ltb_spec (i + 1) nr); try done; exfalso; nia.
Qed.
Lemma DyT_vdiffT : @DyT_of RN nr nc a u = vdiffT nr nc a u.
Proof.
  apply ext_nth; [apply (@tab_length RN)|]. intros k Hk. destruct (k_rc k Hk) as (i & j & Ek & Hi & Hj & -> & ->). cbv zeta.
  rewrite DyT_RN by done. unfold when, px. rewrite <- Ek. f_equal. f_equal.
  - destruct (Nat.ltb_spec k nc), (Nat.ltb_spec 0 i); try done; try (exfalso; nia). f_equal. nia.
  - destruct (Nat.ltb_spec k ((nr - 1) * nc)), (Nat.ltb_spec (i + 1) nr); try done; exfalso; nia.
Qed.
End diffs.

(** ** Adjointness and norm *)
Section dict.
Context (inv fwd : list R -> list R) (nr nc : nat) (av ah : R).
Notation m := (nr * nc)%nat.
Context (Hadj : adjoint m m inv fwd) (Hil : forall v, length v = m -> length (inv v) = m).
Context (Hbig : 0 < av \/ 0 < ah -> (3 <= nr)%nat /\ (3 <= nc)%nat).
Lemma part_len b v : length (part m b v) = m. Proof. apply vec_len. Qed.
Lemma dot_app3 v x y : length v = (length x + length y)%nat ->
  dot v (x ++ y) = dot (vec (length x) (fun i => nth i v 0)) x + dot (vec (length y) (fun i => nth (length x + i) v 0)) y.
Proof.
  intros Lv. unfold dot. rewrite Lv, !vec_len, Rsum_split. f_equal; apply Rsum_ext; intros i Hi; rewrite (vec_nth _ (fun i => _)) by done.
  - by rewrite app_nth1.
  - rewrite app_nth2 by lia. do 2 f_equal. lia.
Qed.
Lemma vec_dot f g h x : length x = m -> dot (vec m (fun k => f k + g k + h k)) x = Rsum m (fun k => f k * nth k x 0) + Rsum m (fun k => g k * nth k x 0) + Rsum m (fun k => h k * nth k x 0).
Proof.
  intros Lx. unfold dot. rewrite vec_len, <- !Rsum_plus. apply Rsum_ext. intros k Hk. rewrite (vec_nth _ (fun k => _)) by done. ring.
Qed.
Lemma dot_part v b x : Rsum m (fun i => nth i (part m b v) 0 * nth i x 0) = dot (part m b v) x.
Proof. unfold dot. by rewrite part_len. Qed.
Lemma dot_Rsum (u x : list R) : length u = m -> Rsum m (fun i => nth i u 0 * nth i x 0) = dot u x.
Proof. intros L. unfold dot. by rewrite L. Qed.
Lemma vadj u x : length u = m -> length x = m -> (3 <= nr)%nat -> dot (vdiff nr nc av u) x = dot u (vdiffT nr nc av x).
Proof. intros Lu Lx Hr. rewrite <- Dy_vdiff, <- DyT_vdiffT. apply Dy_adjoint; [lia|done|done]. Qed.
Lemma hadj u x : length u = m -> length x = m -> (3 <= nc)%nat -> dot (hdiff nr nc ah u) x = dot u (hdiffT nr nc ah x).
Proof. intros Lu Lx Hr. rewrite <- Dx_hdiff, <- DxT_hdiffT by lia. apply Dx_adjoint; [lia|done|done]. Qed.
Lemma dot_nil_r v : length v = 0%nat -> dot v [] = 0. Proof. intros L. unfold dot. by rewrite L. Qed.
Lemma dictT_len x : length x = m -> length (dictT fwd nr nc av ah x) = (nblocks av ah * m)%nat.
Proof.
  intros Lx. unfold dictT, nblocks. rewrite !app_length, (proj1 Hadj x Lx).
  destruct (Rlt_dec 0 av), (Rlt_dec 0 ah); unfold vdiffT, hdiffT; rewrite ?vec_len; simpl; lia.
Qed.
Lemma dict_adjoint : adjoint (nblocks av ah * m) m (dict inv nr nc av ah) (dictT fwd nr nc av ah).
Proof.
  split; [apply dictT_len|]. intros v x Lv Lx. unfold dict. cbv zeta. rewrite vec_dot by done.
  rewrite dot_Rsum by (apply Hil, part_len). rewrite (proj2 Hadj _ x (part_len 0 v) Lx).
  pose proof (proj1 Hadj x Lx) as Lf. unfold nblocks in Lv. unfold dictT.
  assert (E0 : vec m (fun i => nth i v 0) = part m 0 v) by (apply vec_ext; intros; f_equal; lia).
  assert (E1 : vec m (fun i => nth (m + i) v 0) = part m 1 v) by (apply vec_ext; intros; f_equal; lia).
  assert (E2 : vec m (fun i => nth (m + (m + i)) v 0) = part m 2 v) by (apply vec_ext; intros; f_equal; lia).
  assert (LvT : length (vdiffT nr nc av x) = m) by apply vec_len. assert (LhT : length (hdiffT nr nc ah x) = m) by apply vec_len.
  destruct (Rlt_dec 0 av) as [Hv|Hv], (Rlt_dec 0 ah) as [Hh|Hh].
  - destruct Hbig as [? ?]; [tauto|]. rewrite dot_app3 by (rewrite app_length; lia). rewrite Lf, E0, app_length, LvT, LhT.
    rewrite dot_app3 by (rewrite vec_len; lia). rewrite LvT, LhT.
    rewrite (vec_ext m (fun i => nth i (vec (m + m) (fun j => nth (m + j) v 0)) 0) (fun i => nth (m + i) v 0)) by (intros i Hi; rewrite (vec_nth _ (fun j => _)) by lia; done).
    rewrite (vec_ext m (fun i => nth (m + i) (vec (m + m) (fun j => nth (m + j) v 0)) 0) (fun i => nth (m + (m + i)) v 0)) by (intros i Hi; rewrite (vec_nth _ (fun j => _)) by lia; done).
    rewrite E1, E2. rewrite !dot_Rsum by apply vec_len. rewrite vadj, hadj by (done || apply part_len). ring.
  - destruct Hbig as [? ?]; [tauto|]. rewrite app_nil_r. rewrite dot_app3 by lia. rewrite Lf, LvT, E0, E1.
    rewrite dot_Rsum by apply vec_len. rewrite vadj by (done || apply part_len). rewrite (Rsum_0 m (fun k => 0 * _)) by (intros; ring). ring.
  - destruct Hbig as [? ?]; [tauto|]. cbn [app]. rewrite dot_app3 by lia. rewrite Lf, LhT, E0, E1.
    rewrite (dot_Rsum (hdiff _ _ _ _)) by apply vec_len. rewrite hadj by (done || apply part_len). rewrite (Rsum_0 m (fun k => 0 * _)) by (intros; ring). ring.
  - cbn [app]. rewrite app_nil_r. rewrite (Rsum_0 m (fun k => 0 * _)) by (intros; ring).
    replace (part m 0 v) with v; [ring|]. rewrite <- (vec_self m v) at 1 by lia. apply vec_ext. intros; f_equal; lia.
Qed.
Lemma nrm2sq_app x y : nrm2sq (x ++ y) = nrm2sq x + nrm2sq y.
Proof.
  unfold nrm2sq. rewrite app_length, Rsum_split. f_equal; apply Rsum_ext; intros i Hi; [by rewrite app_nth1|]. rewrite app_nth2 by lia. do 2 f_equal. lia.
Qed.
Lemma nrm2sq_nil : nrm2sq [] = 0. Proof. done. Qed.
Lemma dictT_bound x : length x = m -> nrm2sq (fwd x) = nrm2sq x -> 
  nrm2sq (dictT fwd nr nc av ah x) <= (1 + 4 * av ^ 2 + 4 * ah ^ 2) * nrm2sq x.
Proof.
  intros Lx Hf. unfold dictT. rewrite !nrm2sq_app, Hf.
  assert (Hn : 0 <= nrm2sq x) by (apply Rsum_nonneg; intros; nra).
  assert (Hv : 0 < av -> nrm2sq (vdiffT nr nc av x) <= 4 * av ^ 2 * nrm2sq x) by (intros; rewrite <- DyT_vdiffT; by apply DyT_bound).
  assert (Hh : 0 < ah -> nrm2sq (hdiffT nr nc ah x) <= 4 * ah ^ 2 * nrm2sq x).
  { intros H. destruct Hbig as [? ?]; [tauto|]. rewrite <- DxT_hdiffT by lia. apply DxT_bound; [lia|done]. }
  assert (0 <= av ^ 2 * nrm2sq x) by (apply Rmult_le_pos; [apply pow2_ge_0|done]).
  assert (0 <= ah ^ 2 * nrm2sq x) by (apply Rmult_le_pos; [apply pow2_ge_0|done]).
  destruct (Rlt_dec 0 av), (Rlt_dec 0 ah); rewrite ?nrm2sq_nil; try specialize (Hv ltac:(done)); try specialize (Hh ltac:(done)); nra.
Qed.
End dict.

(** ** The model's maps *)
Section model.
Context (nr nc : nat) (av ah : R).
Notation m := (nr * nc)%nat.
Lemma ltb_dec (a b : R) : @ltb_ RN a b = if Rlt_dec a b then true else false. Proof. done. Qed.
Lemma psize_R : @psize RN nr nc av ah = (nblocks av ah * m)%nat.
Proof. unfold psize, nblocks. rewrite !zero_RN, !ltb_dec. destruct (Rlt_dec 0 av), (Rlt_dec 0 ah); lia. Qed.
Lemma slice_part b (v : list R) : @slice RN m (b * m) v = part m b v.
Proof. unfold slice, part. rewrite tab_vec. apply vec_ext. intros k Hk. by rewrite at_RN. Qed.
Lemma axpy_R (x y : list R) : length x = m -> length y = m -> @axpy_of RN m (@one RN) x y = vec m (fun k => nth k y 0 + nth k x 0).
Proof.
  intros. unfold axpy_of. rewrite tab_vec. apply vec_ext. intros k Hk. rewrite !at_RN, one_RN. cbn [add mul RN]. ring.
Qed.
Lemma W_R M inv (v : list R) : (forall w : list R, length w = m -> M w = inv w) -> (forall w, length w = m -> length (inv w) = m) -> @W_of RN M nr nc av ah v = dict inv nr nc av ah v.
Proof.
  intros HM Hil. unfold W_of, W1_of, W0_of, incv, inch, incv, dict. rewrite !zero_RN, !ltb_dec. 
  pose proof (slice_part 0 v) as S0. pose proof (slice_part 1 v) as S1. pose proof (slice_part 2 v) as S2. 
  replace (0 * m)%nat with 0%nat in S0 by lia. replace (1 * m)%nat with m in S1 by lia. replace (2 * m)%nat with (m + m)%nat in S2 by lia.
  rewrite S0, HM by apply part_len. cbv zeta. pose proof (Hil _ (part_len nr nc 0 v)) as Li.
  assert (Lv : forall b, length (vdiff nr nc av (part m b v)) = m) by (intros; apply vec_len).
  assert (Lh : forall b, length (hdiff nr nc ah (part m b v)) = m) by (intros; apply vec_len).
  destruct (Rlt_dec 0 av) as [Hv|Hv], (Rlt_dec 0 ah) as [Hh|Hh]; rewrite ?S1, ?S2, ?Dx_hdiff, ?Dy_vdiff.
  - rewrite (axpy_R (vdiff nr nc av (part m 1 v)) (inv (part m 0 v))) by done.
    rewrite axpy_R by (done || apply vec_len). apply vec_ext. intros k Hk. by rewrite (vec_nth _ (fun k => _)).
  - rewrite axpy_R by done. apply vec_ext. intros k Hk. ring.
  - change (0 + m)%nat with m. rewrite S1, axpy_R by done. apply vec_ext. intros k Hk. ring.
  - rewrite <- (vec_self m (inv (part m 0 v))) at 1 by done. apply vec_ext. intros k Hk. ring.
Qed.
Lemma Wt_R Mt fwd (x : list R) : (0 < ah -> (3 <= nc)%nat) -> length x = m -> (forall w : list R, length w = m -> Mt w = fwd w) -> @Wt_of RN Mt nr nc av ah x = dictT fwd nr nc av ah x.
Proof.
  intros Hb Lx HM. unfold Wt_of, dictT. rewrite !zero_RN, !ltb_dec, HM by done. rewrite <- app_assoc.
  destruct (Rlt_dec 0 av), (Rlt_dec 0 ah); rewrite ?DyT_vdiffT; try (rewrite DxT_hdiffT by (specialize (Hb ltac:(done)); lia)); done.
Qed.
End model.
