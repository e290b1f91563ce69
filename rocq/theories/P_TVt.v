(** * What the functions of src/dct_tv_transforms.c compute, on top of any base transform. *)
From Coq Require Import ZArith Lia.
From stdpp Require Import base numbers gmap list.
From Verif Require Import Globals Mem M_Math M_Memory M_Status M_FFTW M_TV M_TVt P_Mem P_Loop P_Math P_Touch P_Step P_TV P_CG P_Newton S_Xform P_Xform.
Local Open Scope Z_scope.

Section tvt.
Context `{N : Num}.
Context (fft1 : fkind -> list T -> list T) (fft2 : fkind -> nat -> nat -> list T -> list T).
Implicit Types (s t : st) (xs ys vs : list T).

(** entries k, ..., k+m-1 *)
Definition slice (m k : nat) vs : list T := tab m (fun j => at_ vs (k + j)).
Lemma slice_len m k vs : length (slice m k vs) = m. Proof. apply tab_length. Qed.
(** W v and W^T x; M and M^T are those of the base transform *)
Section maps.
Context (M Mt : list T -> list T) (nr nc : nat) (av ah : T).
Notation m := (nr * nc)%nat.
Definition incv : nat := if ltb_ zero av then m else 0.
Definition inch : nat := if ltb_ zero ah then incv + m else 0.
Definition psize : nat := (m + (if ltb_ zero av then m else 0) + (if ltb_ zero ah then m else 0))%nat.
Definition W0_of vs : list T := M (slice m 0 vs).
Definition W1_of vs : list T := if ltb_ zero av then axpy_of m one (Dy_of nr nc av (slice m incv vs)) (W0_of vs) else W0_of vs.
Definition W_of vs : list T := if ltb_ zero ah then axpy_of m one (Dx_of nr nc ah (slice m inch vs)) (W1_of vs) else W1_of vs.
Definition Wt_of xs : list T :=
  (Mt xs ++ (if ltb_ zero av then DyT_of nr nc av xs else [])) ++ (if ltb_ zero ah then DxT_of nr nc ah xs else []).
End maps.

(** a live transform *)
Context (F0 : list nat) (J0 : st -> Prop) (axb : AxFuns) (n nr nc : nat) (av ah : T) (ub : nat).
Context (bM bMt bR : list T -> list T) (bRt : list T -> list T -> list T).
Notation m := (nr * nc)%nat. Notation p := (psize nr nc av ah).
Notation U := (Ptr ub 0).
Context (HM : oper F0 J0 (call_base fft1 fft2 (ax_Mx axb)) m m bM).
Context (HMt : oper F0 J0 (call_base fft1 fft2 (ax_Mty axb)) m m bMt).
Context (HR : oper F0 J0 (call_base fft1 fft2 (ax_Rx axb)) m n bR).
Context (HRt : computes F0 J0 (mkXop (call_base fft1 fft2 (ax_Rty axb)) n m true) bRt).
Context (HS : forall s s', J0 s -> same_on F0 s s' -> J0 s').
Context (Hu : ub ∉ F0).
Definition big_enough : Prop := (ltb_ zero av = true \/ ltb_ zero ah = true -> 3 <= nr /\ 3 <= nc)%nat.
Context (Hrc : big_enough).
Context (Hint : Z.of_nat p <= INT_MAX).
Definition stt : tv_statics :=
  mkTV _ (Z.of_nat m) (Z.of_nat nr) (Z.of_nat nc) (Z.of_nat p) ah av axb U (Z.of_nat (inch nr nc av ah)) (Z.of_nat (incv nr nc av)) (ltb_ zero av) (ltb_ zero ah).
Definition Ft : list nat := ub :: F0.
Record Jt s : Prop := mkJt { jt_0 : J0 s; jt_gl : g_tv (gl s) = stt; jt_u : wok s U p; jt_al : is_aligned s U = true }.
(** the work array has been written *)
Definition Jti s : Prop := Jt s /\ exists us, seg s U us /\ length us = m.

Lemma gett_run s : Jt s -> gett s = Ok stt s.
Proof. intros HJ. unfold gett, getg, bind, ret. by rewrite (jt_gl _ HJ). Qed.
Lemma J0_touch A s t : J0 s -> touch A s t -> (forall b, b ∈ A -> b ∉ F0) -> J0 t.
Proof. intros HJ Ht HA. eapply HS; [exact HJ|]. by eapply same_touch. Qed.
Lemma Jt_frame s t : Jt s -> touch Ft s t -> J0 t -> Jt t.
Proof.
  intros [] Ht H0. split; [done|by rewrite (t_gl _ _ _ Ht)|by eapply touch_wok|by rewrite (touch_aligned _ _ _ _ Ht)].
Qed.
Lemma Jt_wr s D zs : Jt s -> outside D F0 -> Jt (wr D zs s).
Proof.
  intros HJ Od. destruct D as [|b o]; [done|]. pose proof (touch_wr [b] s b o zs ltac:(left)) as Ht. destruct HJ. split.
  - eapply J0_touch; [exact jt_1|exact Ht|]. intros b' Hb. apply elem_of_list_singleton in Hb as ->. done.
  - done.
  - by eapply touch_wok.
  - by rewrite (touch_aligned _ _ _ _ Ht).
Qed.
Lemma Jt_same s s' : Jt s -> same_on Ft s s' -> Jt s'.
Proof.
  intros [] (H & Hg & He). split.
  - eapply HS; [done|]. split; [|done]. intros b Hb. apply H. by right.
  - by rewrite Hg.
  - intros i Hi. unfold cell. destruct (H ub ltac:(left)) as (-> & _). by apply jt_u0.
  - unfold is_aligned in *. destruct (H ub ltac:(left)) as (_ & _ & _ & _ & ->). done.
Qed.
Lemma Jti_same s s' : Jti s -> same_on Ft s s' -> Jti s'.
Proof.
  intros [HJ (us & Su & Lu)] Hs. split; [by eapply Jt_same|]. exists us. split; [|done]. destruct Hs as (H & _).
  intros i v Hi. unfold cell. destruct (H ub ltac:(left)) as (-> & _). by apply Su.
Qed.
Lemma Jti_Jt s : Jti s -> Jt s. Proof. by intros []. Qed.
Lemma Jti_wr s D zs : Jti s -> outside D Ft -> Jti (wr D zs s).
Proof.
  intros [HJ (us & Su & Lu)] Od. destruct D as [|b o]; [by split; [|exists us]|]. split.
  - apply Jt_wr; [done|]. simpl in *. intros H. apply Od. by right.
  - exists us. split; [|done]. eapply touch_seg; [exact (touch_wr [b] s b o zs ltac:(left))| |done]. intros H. apply elem_of_list_singleton in H. apply Od. unfold Ft. rewrite H. left.
Qed.
Lemma Jti_wu s k zs : Jti s -> (m <= k)%nat -> (k + length zs <= p)%nat -> Jti (wr (Ptr ub (Z.of_nat k)) zs s).
Proof.
  intros [HJ (us & Su & Lu)] Hk Hp. split; [by apply Jt_wr|]. exists us. split; [|done]. apply seg_wr_disj; [|done|].
  - exact (wok_padd s U p k (length zs) (jt_u _ HJ) ltac:(lia)).
  - rewrite Lu. intros _. right. left. lia.
Qed.
Lemma Jti_w0 s zs : Jt s -> length zs = m -> Jti (wr U zs s).
Proof.
  intros HJ Lz. split; [by apply Jt_wr|]. exists zs. split; [|done]. apply seg_wr. rewrite Lz. eapply wok_le; [apply (jt_u _ HJ)|]. unfold psize. lia.
Qed.
Lemma outF0 D : outside D Ft -> outside D F0.
Proof. destruct D as [|b o]; [done|]. simpl. intros H Hb. apply H. by right. Qed.
Lemma out_u D : outside D Ft -> forall l k o, disj D l (Ptr ub o) k.
Proof. intros H l k o. apply disj_sym. destruct D as [|b o']; [done|]. simpl in *. intros <-. exfalso. apply H. left. Qed.

Lemma ple : (m <= p)%nat. Proof. unfold psize. lia. Qed.
Section W.
Context s (X : ptr) vs (D : ptr) (HJ : Jt s) (Sx : seg s X vs) (Lx : length vs = p) (Ox : outside X Ft) (Ax : is_aligned s X = true).
(** the result array D is the caller's, or the work array itself *)
Context (o : bool).
Context (HD : if o then wok s D m /\ disj D m X p /\ outside D Ft else D = U).
Definition acc zs t : Prop := length zs = m /\ Jti t /\ if o then touch Ft (wr D zs s) t else touch Ft s t /\ seg t U zs.
Lemma wokD : wok s D m.
Proof. destruct o; [apply HD|]. rewrite HD. eapply wok_le; [apply (jt_u _ HJ)|apply ple]. Qed.
Lemma acc_seg zs t : acc zs t -> seg t D zs.
Proof.
  intros (Lz & HJt & H). pose proof wokD as Wd. destruct o; [|rewrite HD; apply H]. destruct HD as (_ & Hd & Od).
  destruct D as [|b o']; [|eapply touch_seg; [exact H|exact Od|]; apply seg_wr; by rewrite Lz].
  destruct zs as [|v zs]; [apply seg_nil|]. simpl in Lz. destruct (Wd 0%nat) as [v' Hv]; [lia|]. done.
Qed.
Lemma acc_X zs t : acc zs t -> seg t X vs.
Proof.
  intros (Lz & HJt & H). pose proof wokD as Wd. destruct X as [|b o'].
  - destruct vs as [|v ws]; [apply seg_nil|]. specialize (Sx 0%nat v eq_refl). done.
  - destruct o.
    + destruct HD as (_ & Hd & Od). eapply touch_seg; [exact H|exact Ox|]. apply seg_wr_disj; [by rewrite Lz|done|]. by rewrite Lz, Lx.
    + eapply touch_seg; [apply H|exact Ox|done].
Qed.
Lemma acc_Xs zs t k : acc zs t -> (k + m <= p)%nat -> seg t (padd X (Z.of_nat k)) (slice m k vs).
Proof. intros H Hk. apply seg_padd; [by eapply acc_X|]. lia. Qed.
(** writing another part of the work array *)
Lemma acc_u zs t k ys : acc zs t -> (m <= k)%nat -> (k + length ys <= p)%nat -> acc zs (wr (Ptr ub (Z.of_nat k)) ys t).
Proof.
  intros (Lz & HJt & H) Hk Hl. split; [done|]. split; [by apply Jti_wu|]. apply Jti_Jt in HJt.
  assert (T1 : touch Ft t (wr (Ptr ub (Z.of_nat k)) ys t)) by (apply touch_wr; left).
  destruct o; [by eapply touch_trans|]. destruct H as [Ht Su]. split; [by eapply touch_trans|].
  apply seg_wr_disj; [|done|].
  - pose proof (wok_padd t U p k (length ys) (jt_u _ HJt) ltac:(lia)) as Wp. exact Wp.
  - rewrite Lz. intros _. right. left. lia.
Qed.
(** writing the result array *)
Lemma acc_d zs t zs' : acc zs t -> length zs' = m -> acc zs' (wr D zs' t).
Proof.
  intros (Lz & HJt & H) Lz'. pose proof wokD as Wd. unfold acc.
  destruct o.
  - destruct HD as (_ & Hd & Od). split; [done|]. split; [by apply Jti_wr|].
    rewrite <- (wr_overwrite' s D zs zs') by (rewrite ?Lz, ?Lz'; done). by apply touch_wr_both.
  - rewrite HD in Wd |- *. split; [done|]. split; [apply Jti_w0; [apply HJt|done]|]. destruct H as [Ht Su]. split; [eapply touch_trans; [exact Ht|apply touch_wr; left]|].
    apply seg_wr. rewrite Lz'. by eapply touch_wok.
Qed.
Lemma acc_axpy zs t k ys : acc zs t -> (m <= k)%nat -> (k + m <= p)%nat -> seg t (Ptr ub (Z.of_nat k)) ys -> length ys = m ->
  exists t', cblas_daxpy (Z.of_nat m) one (Ptr ub (Z.of_nat k)) D t = Ok tt t' /\ acc (axpy_of m one ys zs) t'.
Proof.
  intros H Hk Hp Sy Ly. pose proof H as (Lz & HJt & H'). eexists. split.
  - apply (daxpy_run t m one _ ys D zs); [|by eapply acc_seg|done]. apply src_disj; [done|done|].
    destruct o; [apply out_u, HD|]. rewrite HD. intros _. left. lia.
  - eapply acc_d; [done|]. apply axpy_of_len.
Qed.
(** one of the two difference parts *)
Lemma acc_part (op : Z -> Z -> T -> ptr -> ptr -> Mem.M unit) (f : nat -> nat -> T -> list T -> list T) a zs t k :
  (forall t Y ys E, tv_pre t Y ys E nr nc -> op (Z.of_nat nr) (Z.of_nat nc) a Y E t = Ok tt (wr E (f nr nc a ys) t)) ->
  (forall ys, length (f nr nc a ys) = m) -> acc zs t -> (m <= k)%nat -> (k + m <= p)%nat ->
  exists t', (op (Z.of_nat nr) (Z.of_nat nc) a (padd X (Z.of_nat k)) (padd U (Z.of_nat k)) ;! cblas_daxpy (Z.of_nat m) one (padd U (Z.of_nat k)) D) t = Ok tt t' /\
    acc (axpy_of m one (f nr nc a (slice m k vs)) zs) t'.
Proof.
  intros Hop Hf Ha Hk Hp. pose proof Ha as (Lz & HJt & _). apply Jti_Jt in HJt.
  assert (Wu : wok t (padd U (Z.of_nat k)) m) by (eapply wok_padd; [apply (jt_u _ HJt)|lia]).
  rewrite (bind_ok _ _ _ _ _ (Hop t (padd X (Z.of_nat k)) (slice m k vs) (padd U (Z.of_nat k)) ltac:(
    split; [apply slice_len|split; [pose proof ple; lia|split; [|split; [by eapply acc_Xs|done]]]];
    apply disj_sym; destruct X as [|b o']; [done|]; apply out_u; exact Ox))).
  change (padd U (Z.of_nat k)) with (Ptr ub (Z.of_nat k)) in *.
  apply acc_axpy; [|done|done| |apply Hf].
  - apply acc_u; [done|done|rewrite Hf; lia].
  - apply seg_wr. by rewrite Hf.
Qed.
Lemma bM_len ys : length ys = m -> length (bM ys) = m. Proof. apply (op_len _ _ _ _ _ _ HM). Qed.
Notation W0 := (W0_of bM nr nc vs). Notation W1 := (W1_of bM nr nc av vs). Notation Wf := (W_of bM nr nc av ah vs).
Lemma Wv_acc : exists t, tv_Wv fft1 fft2 X D s = Ok tt t /\ acc Wf t.
Proof.
  unfold tv_Wv. rewrite (bind_ok _ _ _ _ _ (gett_run s HJ)). cbn [stt tv_m tv_mrow tv_mcol tv_p tv_alp_h tv_alp_v tv_ax tv_u tv_inc_TVH tv_inc_TVV tv_job_V tv_job_H]. cbv zeta.
  pose proof ple as Hple. pose proof (jt_u _ HJ) as Wu.
  assert (S0 : seg s X (slice m 0 vs)). { pose proof (seg_padd s X vs 0 m Sx ltac:(lia)) as H. by destruct X as [|b o']; simpl in H; rewrite ?Z.add_0_r in H. }
  assert (Wu0 : wok s U m) by (eapply wok_le; [exact Wu|done]).
  destruct (op_run _ _ _ _ _ _ HM s X (slice m 0 vs) U (jt_0 _ HJ) S0 (slice_len _ _ _) Wu0) as (t1 & E1 & T1 & J1).
  { apply disj_sym. by apply out_u. } { done. } { apply (jt_al _ HJ). } { by apply outF0. } { done. }
  rewrite (bind_ok _ _ _ _ _ E1). clear E1.
  assert (L0 : length W0 = m) by (apply bM_len, slice_len).
  assert (T1' : touch Ft s t1). { eapply touch_trans; [apply (touch_wr _ s ub 0 (bM (slice m 0 vs))); left|]. eapply touch_weaken; [exact T1|]. intros b Hb. by right. }
  assert (HJ1 : Jt t1) by (eapply Jt_frame; eauto).
  assert (Su1 : seg t1 U W0). { eapply touch_seg; [exact T1|done|]. apply seg_wr. by rewrite L0. }
  assert (HJi : Jti t1) by (split; [done|by exists W0]).
  assert (E2 : cblas_dcopy (Z.of_nat m) U D t1 = Ok tt (wr D W0 t1)).
  { destruct o.
    - apply dcopy_run; [done|done|eapply touch_wok; [exact T1'|apply HD]|]. apply out_u, HD.
    - rewrite HD. apply (dcopy_loop t1 m U W0 U W0); [by apply src_self|]. split; [by eapply touch_wok|done]. }
  rewrite (bind_ok _ _ _ _ _ E2). clear E2.
  assert (A0 : acc W0 (wr D W0 t1)).
  { split; [done|]. destruct o.
    - split; [apply Jti_wr; [done|apply HD]|]. by apply touch_wr_both.
    - rewrite HD. split; [by apply Jti_w0|]. split; [eapply touch_trans; [exact T1'|apply touch_wr; left]|]. apply seg_wr. rewrite L0. by eapply touch_wok. }
  generalize dependent (wr D W0 t1). intros t2 A0. clear T1 J1 T1' HJ1 HJi Su1 t1.
  assert (A1 : exists t3, (if ltb_ zero av then l1c_Dy (Z.of_nat nr) (Z.of_nat nc) av (padd X (Z.of_nat (incv nr nc av))) (padd U (Z.of_nat (incv nr nc av))) ;!
     cblas_daxpy (Z.of_nat m) one (padd U (Z.of_nat (incv nr nc av))) D else ret tt) t2 = Ok tt t3 /\ acc W1 t3).
  { unfold W1_of. destruct (ltb_ zero av) eqn:Ev; [|exists t2; done].
    unfold incv. rewrite Ev. apply (acc_part l1c_Dy Dy_of); [|intros; apply tab_length|done|lia|unfold psize; rewrite Ev; lia].
    intros t Y ys E HP. apply Dy_run; [done|]. pose proof (Hrc (or_introl Ev)). lia. }
  destruct A1 as (t3 & E3 & A1). rewrite (bind_ok _ _ _ _ _ E3). clear E3.
  unfold W_of. destruct (ltb_ zero ah) eqn:Eh; [|exists t3; done].
  assert (Hk : (m <= inch nr nc av ah)%nat /\ (inch nr nc av ah + m <= p)%nat) by (unfold psize, inch, incv; rewrite Eh; destruct (ltb_ zero av); lia).
  apply (acc_part l1c_Dx Dx_of); [|intros; apply tab_length|done|apply Hk|apply Hk].
  intros t Y ys E HP. apply Dx_run; [done|]. pose proof (Hrc (or_intror Eh)). lia.
Qed.
End W.

Lemma axpy_len' k a xs ys : length (axpy_of k a xs ys) = k. Proof. apply tab_length. Qed.
Lemma W_len vs : length (W_of bM nr nc av ah vs) = m.
Proof.
  assert (H0 : length (W0_of bM nr nc vs) = m) by apply (bM_len), slice_len.
  unfold W_of, W1_of. destruct (ltb_ zero ah), (ltb_ zero av); rewrite ?axpy_len'; done.
Qed.
Lemma Wv_run s X vs D : Jt s -> seg s X vs -> length vs = p -> wok s D m -> disj D m X p -> is_aligned s X = true ->
  outside X Ft -> outside D Ft -> exists t, tv_Wv fft1 fft2 X D s = Ok tt t /\ touch Ft (wr D (W_of bM nr nc av ah vs) s) t /\ Jti t.
Proof.
  intros HJ Sx Lx Wd Hd Ax Ox Od. destruct (Wv_acc s X vs D HJ Sx Lx Ox Ax true (conj Wd (conj Hd Od))) as (t & E & _ & HJt & Ht). eauto.
Qed.
Lemma Wv_u_run s X vs : Jt s -> seg s X vs -> length vs = p -> is_aligned s X = true -> outside X Ft ->
  exists t, tv_Wv fft1 fft2 X U s = Ok tt t /\ touch Ft s t /\ Jti t /\ seg t U (W_of bM nr nc av ah vs).
Proof.
  intros HJ Sx Lx Ax Ox. destruct (Wv_acc s X vs U HJ Sx Lx Ox Ax false eq_refl) as (t & E & _ & HJt & Ht & Su). eauto 6.
Qed.
Lemma Wt_len xs : length xs = m -> length (Wt_of bMt nr nc av ah xs) = p.
Proof.
  intros Lx. unfold Wt_of, psize. rewrite !app_length, (op_len _ _ _ _ _ _ HMt xs Lx).
  destruct (ltb_ zero av), (ltb_ zero ah); unfold DyT_of, DxT_of, row_of; rewrite ?tab_length; done.
Qed.
(** W^T x; the argument may be the work array *)
Lemma Wtx_gen s X xs D : Jt s -> seg s X xs -> length xs = m -> wok s D p -> disj D p X m -> is_aligned s X = true -> is_aligned s D = true ->
  outside X F0 -> outside D Ft ->
  exists t, tv_Wtx fft1 fft2 X D s = Ok tt t /\ touch F0 (wr D (Wt_of bMt nr nc av ah xs) s) t /\ J0 t.
Proof.
  intros HJ Sx Lx Wd Hd Ax Ad Ox Od. unfold tv_Wtx. rewrite (bind_ok _ _ _ _ _ (gett_run s HJ)). cbn [stt tv_m tv_mrow tv_mcol tv_p tv_alp_h tv_alp_v tv_ax tv_u tv_inc_TVH tv_inc_TVV tv_job_V tv_job_H]. cbv zeta.
  pose proof ple as Hple. 
  assert (Hd0 : disj D m X m). { destruct D, X; try done. simpl in *. intros Hb. specialize (Hd Hb). lia. }
  destruct (op_run _ _ _ _ _ _ HMt s X xs D (jt_0 _ HJ) Sx Lx (wok_le _ _ _ _ Wd Hple) Hd0 Ax Ad Ox (outF0 _ Od)) as (t1 & E1 & T1 & J1).
  rewrite (bind_ok _ _ _ _ _ E1). clear E1. pose proof (op_len _ _ _ _ _ _ HMt xs Lx) as Lm.
  assert (HX : forall z t, (length z <= p)%nat -> touch F0 (wr D z s) t -> seg t X xs).
  { intros z t Lz Ht. destruct X as [|b o']; [destruct xs; [apply seg_nil|specialize (Sx 0%nat _ eq_refl); done]|].
    eapply touch_seg; [exact Ht|exact Ox|]. apply seg_wr_disj; [by eapply wok_le|done|]. rewrite Lx.
    destruct D; [done|]. simpl in *. intros Hb. specialize (Hd Hb). lia. }
  assert (part : forall (op : Z -> Z -> T -> ptr -> ptr -> Mem.M unit) (f : nat -> nat -> T -> list T -> list T) a z t,
    (forall t Y ys E, tv_pre t Y ys E nr nc -> op (Z.of_nat nr) (Z.of_nat nc) a Y E t = Ok tt (wr E (f nr nc a ys) t)) ->
    length (f nr nc a xs) = m -> touch F0 (wr D z s) t -> J0 t -> (length z + m <= p)%nat ->
    exists t', op (Z.of_nat nr) (Z.of_nat nc) a X (padd D (Z.of_nat (length z))) t = Ok tt t' /\ touch F0 (wr D (z ++ f nr nc a xs) s) t' /\ J0 t').
  { intros op f a z t Hop Lf Ht HJt Lz.
    assert (Wt : wok t (padd D (Z.of_nat (length z))) m).
    { eapply touch_wok; [exact Ht|]. apply wok_wr; [eapply wok_le; [exact Wd|lia]|]. eapply wok_padd; [exact Wd|lia]. }
    eexists. split; [apply (Hop t X xs); split; [done|]; split; [lia|]; split; [eapply disj_padd; [exact Hd|lia]|]; split; [eapply (HX z); [lia|exact Ht]|done]|].
    split.
    - rewrite <- wr_app' by (rewrite app_length, Lf; eapply wok_le; [exact Wd|lia]). by apply touch_wr_both.
    - destruct D as [|b o']; [done|]. eapply J0_touch; [exact HJt|apply (touch_wr [b]); left|]. intros b' Hb. apply elem_of_list_singleton in Hb as ->. apply outF0 in Od. exact Od. }
  assert (A1 : exists t2, (if ltb_ zero av then l1c_DyT (Z.of_nat nr) (Z.of_nat nc) av X (padd D (Z.of_nat (incv nr nc av))) else ret tt) t1 = Ok tt t2 /\
     touch F0 (wr D (bMt xs ++ (if ltb_ zero av then DyT_of nr nc av xs else [])) s) t2 /\ J0 t2).
  { destruct (ltb_ zero av) eqn:Ev; [|exists t1; rewrite app_nil_r; done]. assert (Ei : incv nr nc av = length (bMt xs)) by (unfold incv; rewrite Ev; lia). rewrite Ei.
    apply (part l1c_DyT DyT_of); [intros; by apply DyT_run|apply tab_length|done|done|]. unfold psize. rewrite Ev. lia. }
  destruct A1 as (t2 & E2 & T2 & J2). rewrite (bind_ok _ _ _ _ _ E2). clear E2. unfold Wt_of.
  destruct (ltb_ zero ah) eqn:Eh; [|exists t2; rewrite app_nil_r; done].
  assert (Li : inch nr nc av ah = length (bMt xs ++ (if ltb_ zero av then DyT_of nr nc av xs else []))).
  { unfold inch, incv. rewrite Eh, app_length, Lm. destruct (ltb_ zero av); [unfold DyT_of; rewrite tab_length|]; simpl; lia. }
  rewrite Li. apply (part l1c_DxT DxT_of); [|apply tab_length|done|done|].
  - intros. apply DxT_run; [done|]. pose proof (Hrc (or_intror Eh)). lia.
  - rewrite <- Li. unfold inch, incv, psize. rewrite Eh. destruct (ltb_ zero av); lia.
Qed.
Lemma Jt_fin s D z t : Jt s -> outside D Ft -> touch F0 (wr D z s) t -> J0 t -> Jt t.
Proof.
  intros HJ Od Ht H0. apply (Jt_frame (wr D z s)); [apply Jt_wr; [done|by apply outF0]| |done]. eapply touch_weaken; [exact Ht|]. intros b Hb. by right.
Qed.
Lemma Jti_fin s D z t : Jti s -> outside D Ft -> touch F0 (wr D z s) t -> J0 t -> Jti t.
Proof.
  intros HJ Od Ht H0. pose proof (Jti_wr _ _ z HJ Od) as [_ (us & Su & Lu)]. split; [eapply Jt_fin; [apply HJ|..]; done|].
  exists us. split; [|done]. by eapply touch_seg.
Qed.
Lemma Ft_weaken s t : touch F0 s t -> touch Ft s t.
Proof. intros H. eapply touch_weaken; [exact H|]. intros b Hb. by right. Qed.
(** the two invariants; [i]: the work array must have been written *)
Inductive phase := Known | Fresh | Ready.
Definition Jtu s : Prop := Jt s /\ cell s U 0 = Some None.
(** not yet written (Fresh), written (Ready), or one of the two *)
Definition Jx (i : phase) s : Prop := match i with Known => Jtu s \/ Jti s | Fresh => Jtu s | Ready => Jti s end.
Lemma Jx_Jt i s : Jx i s -> Jt s. Proof. destruct i; [by intros [[]|[]]|by intros []|by intros []]. Qed.
Lemma Jtu_same s s' : Jtu s -> same_on Ft s s' -> Jtu s'.
Proof.
  intros [HJ Hc] Hs. split; [by eapply Jt_same|]. destruct Hs as (H & _). unfold cell in *. destruct (H ub ltac:(left)) as (-> & _). done.
Qed.
Lemma Jx_same i s s' : Jx i s -> same_on Ft s s' -> Jx i s'.
Proof. destruct i; [|apply Jtu_same|apply Jti_same]. intros [H|H] Hs; [left; by eapply Jtu_same|right; by eapply Jti_same]. Qed.
Lemma Jtu_fin s D z t : Jtu s -> outside D Ft -> touch F0 (wr D z s) t -> J0 t -> Jtu t.
Proof.
  intros [HJ Hc] Od Ht H0. split; [by eapply Jt_fin|]. rewrite (touch_cell _ _ _ _ _ _ Ht Hu). destruct D as [|b o]; [done|].
  rewrite (touch_cell [b] s (wr (Ptr b o) z s)); [done|apply touch_wr; left|]. intros Hin. apply elem_of_list_singleton in Hin. apply Od. rewrite <- Hin. left.
Qed.
Lemma Jx_fin i s D z t : Jx i s -> outside D Ft -> touch F0 (wr D z s) t -> J0 t -> Jx i t.
Proof. destruct i; [|apply Jtu_fin|apply Jti_fin]. intros [H|H] ? ? ?; [left; by eapply Jtu_fin|right; by eapply Jti_fin]. Qed.
Lemma Jti_Jx i s : i <> Fresh -> Jti s -> Jx i s. Proof. destruct i; [by right|done|done]. Qed.
Lemma Jx_oper i op k l A : (forall s X xs D, Jx i s -> seg s X xs -> length xs = k -> wok s D l -> disj D l X k ->
    is_aligned s X = true -> is_aligned s D = true -> outside X Ft -> outside D Ft ->
    exists s', op X D s = Ok tt s' /\ touch Ft (wr D (A xs) s) s' /\ Jx i s') ->
  (forall xs, length xs = k -> length (A xs) = l) -> oper Ft (Jx i) op k l A.
Proof. intros H1 H2. split; [exact H1| |exact H2]. intros A' s s' HJ Ht HA. eapply Jx_same; [exact HJ|]. by eapply same_touch. Qed.
Lemma Wv_oper i : i <> Fresh -> oper Ft (Jx i) (tv_Wv fft1 fft2) p m (W_of bM nr nc av ah).
Proof.
  intros Hi. apply Jx_oper; [|intros; apply W_len]. intros s X xs D HJ Sx Lx Wd Hd Ax Ad Ox Od.
  destruct (Wv_run s X xs D (Jx_Jt _ _ HJ) Sx Lx Wd Hd Ax Ox Od) as (t & E & Ht & Hj). exists t. split; [done|]. split; [done|by apply Jti_Jx].
Qed.
Lemma Wtx_oper i : oper Ft (Jx i) (tv_Wtx fft1 fft2) m p (Wt_of bMt nr nc av ah).
Proof.
  apply Jx_oper; [|intros; by apply Wt_len]. intros s X xs D HJ Sx Lx Wd Hd Ax Ad Ox Od.
  destruct (Wtx_gen s X xs D (Jx_Jt _ _ HJ) Sx Lx Wd Hd Ax Ad (outF0 _ Ox) Od) as (t & E & Ht & Hj). exists t. split; [done|].
  split; [by apply Ft_weaken|by eapply Jx_fin].
Qed.
Lemma Rx_oper i : oper Ft (Jx i) (tv_Rx fft1 fft2) m n bR.
Proof.
  apply Jx_oper; [|intros; by apply (op_len _ _ _ _ _ _ HR)]. intros s X xs D HJ Sx Lx Wd Hd Ax Ad Ox Od.
  unfold tv_Rx. rewrite (bind_ok _ _ _ _ _ (gett_run s (Jx_Jt _ _ HJ))).
  destruct (op_run _ _ _ _ _ _ HR s X xs D (jt_0 _ (Jx_Jt _ _ HJ)) Sx Lx Wd Hd Ax Ad (outF0 _ Ox) (outF0 _ Od)) as (t & E & Ht & Hj).
  exists t. split; [done|]. split; [by apply Ft_weaken|by eapply Jx_fin].
Qed.
Lemma Rty_computes i : computes Ft (Jx i) (mkXop (tv_Rty fft1 fft2) n m true) bRt.
Proof.
  intros s X xs D ds HJ [Sx Lx Wd Hi Hd Ax Ad Ox Od]. cbn [x_op x_in x_out x_init] in *.
  destruct (HRt s X xs D ds (jt_0 _ (Jx_Jt _ _ HJ))) as (Lf & t & E & Ht & Hj).
  { split; try done; by apply outF0. }
  split; [done|]. exists t. cbn [x_op] in *. unfold tv_Rty. rewrite (bind_ok _ _ _ _ _ (gett_run s (Jx_Jt _ _ HJ))). split; [exact E|].
  split; [by apply Ft_weaken|by eapply Jx_fin].
Qed.
(** the identity on mrow*mcol entries *)
Lemma tvId_oper i : oper Ft (Jx i) tv_Identity m m (fun xs => xs).
Proof.
  apply Jx_oper; [|done]. intros s X xs D HJ Sx Lx Wd Hd Ax Ad Ox Od. unfold tv_Identity. rewrite (bind_ok _ _ _ _ _ (gett_run s (Jx_Jt _ _ HJ))).
  cbn [stt tv_m]. rewrite (dcopy_run s m X xs D Sx Lx Wd Hd). eexists. split; [reflexivity|]. split; [apply touch_refl|].
  eapply Jx_fin; [exact HJ|done|apply touch_refl|]. apply Jt_wr; [by eapply Jx_Jt|by apply outF0].
Qed.
(** synthesis: A = R W *)
Lemma Av_oper i : i <> Fresh -> oper Ft (Jx i) (tv_Av fft1 fft2) p n (fun vs => bR (W_of bM nr nc av ah vs)).
Proof.
  intros Hi. apply Jx_oper; [|intros; apply (op_len _ _ _ _ _ _ HR), W_len]. intros s X xs D HJ Sx Lx Wd Hd Ax Ad Ox Od.
  unfold tv_Av. rewrite (bind_ok _ _ _ _ _ (gett_run s (Jx_Jt _ _ HJ))). cbn [stt tv_u tv_ax].
  destruct (Wv_u_run s X xs (Jx_Jt _ _ HJ) Sx Lx Ax Ox) as (t1 & E1 & T1 & J1 & Su). rewrite (bind_ok _ _ _ _ _ E1).
  pose proof (Jti_Jt _ J1) as J1'.
  destruct (op_run _ _ _ _ _ _ HR t1 U _ D (jt_0 _ J1') Su (W_len _) (touch_wok _ _ _ _ _ T1 Wd)) as (t2 & E2 & T2 & J2); try done.
  { by apply out_u. } { apply (jt_al _ J1'). } { by rewrite (touch_aligned _ _ _ _ T1). } { by apply outF0. }
  exists t2. split; [done|]. split.
  - eapply touch_trans; [|by apply Ft_weaken]. by apply touch_wr_both.
  - apply Jti_Jx; [done|]. by eapply Jti_fin.
Qed.
(** synthesis: A^T = W^T R^T.  R^T multiplies the old contents of the work array by zero. *)
Lemma Aty_run s X ys D us : Jt s -> seg s U us -> length us = m -> seg s X ys -> length ys = n -> wok s D p -> is_aligned s X = true -> is_aligned s D = true ->
  outside X Ft -> outside D Ft ->
  exists t, tv_Aty fft1 fft2 X D s = Ok tt t /\ touch Ft (wr D (Wt_of bMt nr nc av ah (bRt us ys)) s) t /\ Jti t /\ length (bRt us ys) = m.
Proof.
  intros HJ Su Lu Sx Lx Wd Ax Ad Ox Od.
  unfold tv_Aty. rewrite (bind_ok _ _ _ _ _ (gett_run s HJ)). cbn [stt tv_u tv_ax].
  destruct (HRt s X ys U us (jt_0 _ HJ)) as (Lf & t1 & E1 & T1 & J1).
  { split; try done.
    - eapply wok_le; [apply (jt_u _ HJ)|apply ple].
    - apply disj_sym. by apply out_u.
    - apply (jt_al _ HJ).
    - by apply outF0. }
  cbn [x_op x_out] in *. rewrite (bind_ok _ _ _ _ _ E1).
  assert (T1' : touch Ft s t1) by (eapply touch_trans; [apply (touch_wr _ s ub 0); left|by apply Ft_weaken]).
  assert (J1' : Jt t1) by (eapply Jt_frame; eauto).
  assert (Su1 : seg t1 U (bRt us ys)). { eapply touch_seg; [exact T1|done|]. apply seg_wr. rewrite Lf. eapply wok_le; [apply (jt_u _ HJ)|apply ple]. }
  destruct (Wtx_gen t1 U (bRt us ys) D J1' Su1 Lf (touch_wok _ _ _ _ _ T1' Wd)) as (t2 & E2 & T2 & J2); try done.
  { by apply out_u. } { apply (jt_al _ J1'). } { by rewrite (touch_aligned _ _ _ _ T1'). }
  exists t2. split; [done|]. split; [|split; [|done]].
  - eapply touch_trans; [|by apply Ft_weaken]. by apply touch_wr_both.
  - eapply Jti_fin; [|exact Od|exact T2|done]. split; [done|]. by exists (bRt us ys).
Qed.
(** the work array's old contents do not matter if 0 times a number is 0 *)
Lemma Aty_oper (bRt0 : list T -> list T) : (forall us ys, length us = m -> bRt us ys = bRt0 ys) ->
  (forall ys, length ys = n -> length (bRt0 ys) = m) ->
  oper Ft (Jx Ready) (tv_Aty fft1 fft2) n p (fun ys => Wt_of bMt nr nc av ah (bRt0 ys)).
Proof.
  intros HR0 HR0l. apply Jx_oper; [|intros; by apply Wt_len, HR0l]. intros s X xs D HJ Sx Lx Wd Hd Ax Ad Ox Od. destruct HJ as [HJ (us & Su & Lu)].
  destruct (Aty_run s X xs D us HJ Su Lu Sx Lx Wd Ax Ad Ox Od) as (t & E & Ht & Hj & _). rewrite HR0 in Ht by done. eauto.
Qed.
(** ... and reads it: the call is undefined while it has not been written *)
Context (HRtu : forall s X D, J0 s -> cell s D 0 = Some None -> call_base fft1 fft2 (ax_Rty axb) X D s = Ub UbUninit).
Lemma Aty_uninit s X D : Jt s -> cell s U 0 = Some None -> tv_Aty fft1 fft2 X D s = Ub UbUninit.
Proof.
  intros HJ Hc. unfold tv_Aty. rewrite (bind_ok _ _ _ _ _ (gett_run s HJ)). cbn [stt tv_u tv_ax].
  unfold bind. by rewrite (HRtu s X U (jt_0 _ HJ) Hc).
Qed.
Lemma Aty_keeps i : i <> Fresh -> keeps Ft (Jx i) (mkXop (tv_Aty fft1 fft2) n p false).
Proof.
  intros Hi s X xs D ds s' HJ [Sx Lx Wd _ Hd Ax Ad Ox Od] E. cbn [x_op x_in x_out] in *. apply Jti_Jx; [done|].
  assert (HJ' : Jti s). { destruct i; [|done|done]. destruct HJ as [[HJ Hc]|HJ]; [|done]. rewrite (Aty_uninit s X D HJ Hc) in E. done. }
  destruct HJ' as [HJ' (us & Su & Lu)]. destruct (Aty_run s X xs D us HJ' Su Lu Sx Lx Wd Ax Ad Ox Od) as (t & E' & _ & Hj & _). congruence.
Qed.
End tvt.
