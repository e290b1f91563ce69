(** * Every function of a live DCT-TV transform, whatever was called before. *)
From Coq Require Import ZArith Lia.
From stdpp Require Import base numbers gmap list.
From Verif Require Import S_TVtApi Globals Mem M_Math M_Memory M_Status M_FFTW M_TV M_Dct M_TVt P_Mem P_Loop P_Math P_Touch P_Step P_TV P_Memory P_Own P_Newton P_FFTW P_Dct1 P_Dct1s P_Dct2 P_Dct2s S_Xform P_Xform S_DctApi P_Dct P_DctA P_TVt P_TVs.
Local Open Scope Z_scope.

Section all.
Context `{N : Num}.
Context (fft1 : fkind -> list T -> list T) (fft2 : fkind -> nat -> nat -> list T -> list T).
Implicit Types (s : st) (ax : AxFuns).
Context s nr nc (av ah : T) mode bp mb ms ax s1 sb axb J (L : live fft1 fft2 s nr nc av ah mode bp mb ms ax s1 sb axb J).
Context (HC : one1 nr nc mode = false \/ cancels).
Notation m := (nr * nc)%nat. Notation n := (length ms). Notation p := (psize nr nc av ah).
Notation F := (blocks_t s mb). Notation Q := (Jx J axb nr nc av ah (nx s)).
Notation top := (tvop fft1 fft2 ax).
Definition tM := fM fft1 fft2 sb nr nc (one1 nr nc mode).
Definition tMt := fMt fft1 fft2 nr nc (one1 nr nc mode).
Definition tR (xs : list T) : list T := tab (length ms) (fun i => at_ xs (nth i ms 0%nat)).
Definition tRt (ds ys : list T) : list T := scatter ms (at_ ys) (scal_of m zero ds).
Let B := lv_base _ _ _ _ _ _ _ _ _ _ _ _ _ _ _ _ L.
Let hM := b_M _ _ _ _ _ _ _ _ _ _ _ B HC.
Let hMt := b_Mt _ _ _ _ _ _ _ _ _ _ _ B.
Let hR := b_R _ _ _ _ _ _ _ _ _ _ _ B.
Let hRt := b_Rt _ _ _ _ _ _ _ _ _ _ _ B.
Let hS := b_same _ _ _ _ _ _ _ _ _ _ _ B.
Let hU := b_un _ _ _ _ _ _ _ _ _ _ _ B.
Let uu := lv_u _ _ _ _ _ _ _ _ _ _ _ _ _ _ _ _ L.
Let hb := lv_big _ _ _ _ _ _ _ _ _ _ _ _ _ _ _ _ L.
Let hi := lv_int _ _ _ _ _ _ _ _ _ _ _ _ _ _ _ _ L.
Let hF := lv_F _ _ _ _ _ _ _ _ _ _ _ _ _ _ _ _ L.
Lemma Q_same i t t' : Q i t -> same_on F t t' -> Q i t'.
Proof. rewrite hF. apply Jx_same. exact hS. Qed.
(** the six bodies *)
Lemma c_Wv i k l : i <> Fresh -> k = p -> l = m -> computes F (Q i) (mkXop (tv_Wv fft1 fft2) k l false) (fun _ => W_of tM nr nc av ah).
Proof. intros Hi -> ->. rewrite hF. apply oper_computes. exact (Wv_oper fft1 fft2 _ _ _ _ _ _ _ _ _ hM hS uu hb hi i Hi). Qed.
Lemma c_Av i : i <> Fresh -> computes F (Q i) (mkXop (tv_Av fft1 fft2) p n false) (fun _ vs => tR (W_of tM nr nc av ah vs)).
Proof. intros Hi. rewrite hF. apply oper_computes. exact (Av_oper fft1 fft2 _ _ _ _ _ _ _ _ _ _ _ hM hR hS uu hb hi i Hi). Qed.
Lemma c_Wtx i : computes F (Q i) (mkXop (tv_Wtx fft1 fft2) m p false) (fun _ => Wt_of tMt nr nc av ah).
Proof. rewrite hF. apply oper_computes. exact (Wtx_oper fft1 fft2 _ _ _ _ _ _ _ _ _ hMt hS uu hb hi i). Qed.
Lemma c_Rx i : computes F (Q i) (mkXop (tv_Rx fft1 fft2) m n false) (fun _ => tR).
Proof. rewrite hF. apply oper_computes. exact (Rx_oper fft1 fft2 _ _ _ _ _ _ _ _ _ _ hR hS uu i). Qed.
Lemma c_Id i : computes F (Q i) (mkXop tv_Identity m m false) (fun _ x => x).
Proof. rewrite hF. apply oper_computes. exact (tvId_oper _ _ _ _ _ _ _ _ hS uu i). Qed.
Lemma c_Rty i : computes F (Q i) (mkXop (tv_Rty fft1 fft2) n m true) tRt.
Proof. rewrite hF. exact (Rty_computes fft1 fft2 _ _ _ _ _ _ _ _ _ _ hRt hS uu i). Qed.
Lemma k_Aty i : i <> Fresh -> keeps F (Q i) (mkXop (tv_Aty fft1 fft2) n p false).
Proof. intros Hi. rewrite hF. exact (Aty_keeps fft1 fft2 _ _ _ _ _ _ _ _ _ _ _ hMt hRt hS uu hb hi hU i Hi). Qed.
Lemma u_Aty t X D : Q Fresh t -> tv_Aty fft1 fft2 X D t = Ub UbUninit.
Proof. intros [HJ Hc]. exact (Aty_uninit fft1 fft2 _ _ _ _ _ _ _ hU t X D HJ Hc). Qed.
Lemma c_Aty (f : list T -> list T) : (forall us ys, length us = m -> tRt us ys = f ys) -> (forall ys, length ys = n -> length (f ys) = m) ->
  computes F (Q Ready) (mkXop (tv_Aty fft1 fft2) n p false) (fun _ ys => Wt_of tMt nr nc av ah (f ys)).
Proof.
  intros Hf Hl. rewrite hF. apply oper_computes.
  exact (Aty_oper fft1 fft2 _ _ _ _ _ _ _ _ _ _ _ hMt hRt hS uu hb hi f Hf Hl).
Qed.
Lemma ready_Wv i t X xs D t' k l : k = p -> l = m -> Q i t -> good_call F (mkXop (tv_Wv fft1 fft2) k l false) t X xs D [] -> tv_Wv fft1 fft2 X D t = Ok tt t' -> Q Ready t'.
Proof.
  intros -> -> HQ HG E. rewrite hF in HG. destruct HG as [Sx Lx Wd _ Hd Ax Ad Ox Od]. cbn [x_op x_in x_out] in *.
  destruct (Wv_run fft1 fft2 _ _ _ _ _ _ _ _ _ hM hS uu hb hi t X xs D (Jx_Jt _ _ _ _ _ _ _ _ _ HQ) Sx Lx Wd Hd Ax Ox Od) as (t2 & E2 & _ & Hj). 
  pose proof (eq_trans (eq_sym E) E2) as Q'. injection Q' as ->. exact Hj.
Qed.

(** analysis mode: the struct's functions *)
Section analysis.
Context (Hbp : (bp =? synthesis) = false).
Notation ops := (analysis_ops fft1 fft2 ax n m p).
Lemma an_ax : exists nw ag, ax = mkAx _ (Z.of_nat n) (Z.of_nat m) (Z.of_nat m) (Z.of_nat p) nw (Fn F_tv_Rx) (Fn F_tv_Rty) ag (Fn F_tv_Identity) (Fn F_tv_Identity) (Fn F_tv_Wv) (Fn F_tv_Wtx) (Fn F_tv_Rx) (Fn F_tv_Rty) (Fn F_tv_destroy).
Proof. destruct (lv_ax _ _ _ _ _ _ _ _ _ _ _ _ _ _ _ _ L) as (a0 & Ea). rewrite Ea. unfold ax_fin. rewrite Hbp. eauto. Qed.
Lemma an_keep o : o ∈ ops -> keeps F (Q Known) o.
Proof.
  destruct an_ax as (nw & ag & Eax). rewrite Eax. unfold analysis_ops, tvop. intros Ho.
  repeat (apply elem_of_cons in Ho as [->|Ho]; [cbn [ax_Ax ax_Aty ax_Mx ax_Mty ax_Wz ax_Wtx ax_Rx ax_Rty call];
    first [exact (computes_keeps _ _ _ _ (c_Rx Known)) | exact (computes_keeps _ _ _ _ (c_Rty Known)) | exact (computes_keeps _ _ _ _ (c_Id Known))
      | exact (computes_keeps _ _ _ _ (c_Wtx Known)) | exact (computes_keeps _ _ _ _ (c_Wv Known p m ltac:(done) eq_refl eq_refl))]|]).
  by apply elem_of_nil in Ho.
Qed.
Lemma an_hist t : hist F ops s1 t -> Q Known t.
Proof. apply (hist_J F (Q Known) (Q_same Known) ops an_keep). left. exact (lv_J _ _ _ _ _ _ _ _ _ _ _ _ _ _ _ _ L). Qed.
Record an_all : Prop := {
  an_Ax : always F ops s1 (top ax_Ax m n false) tR; an_Aty : always_d F ops s1 (top ax_Aty n m true) tRt;
  an_Mx : always F ops s1 (top ax_Mx m m false) (fun x => x); an_Mty : always F ops s1 (top ax_Mty m m false) (fun x => x);
  an_Wz : always F ops s1 (top ax_Wz p m false) (W_of tM nr nc av ah); an_Wtx : always F ops s1 (top ax_Wtx m p false) (Wt_of tMt nr nc av ah);
  an_Rx : always F ops s1 (top ax_Rx m n false) tR; an_Rty : always_d F ops s1 (top ax_Rty n m true) tRt }.
Lemma an : an_all.
Proof.
  assert (G : forall o f, computes F (Q Known) o f -> always_d F ops s1 o f).
  { intros o f Hc. apply (always_of F (Q Known) (Q_same Known) ops an_keep); [|done]. left. exact (lv_J _ _ _ _ _ _ _ _ _ _ _ _ _ _ _ _ L). }
  destruct an_ax as (nw & ag & Eax). unfold tvop.
  split; apply G; rewrite Eax; cbn [ax_Ax ax_Aty ax_Mx ax_Mty ax_Wz ax_Wtx ax_Rx ax_Rty call];
    first [exact (c_Rx Known) | exact (c_Rty Known) | exact (c_Id Known) | exact (c_Wtx Known) | exact (c_Wv Known p m ltac:(done) eq_refl eq_refl)].
Qed.
End analysis.

(** synthesis mode *)
Section synthesis.
Context (Hbp : (bp =? synthesis) = true).
Notation ops := (synthesis_ops fft1 fft2 ax n m p).
Lemma sy_ax : exists nw ag, ax = mkAx _ (Z.of_nat n) (Z.of_nat m) (Z.of_nat p) (Z.of_nat m) nw (Fn F_tv_Av) (Fn F_tv_Aty) ag (Fn F_tv_Wv) (Fn F_tv_Wtx) (Fn F_tv_Identity) (Fn F_tv_Identity) (Fn F_tv_Rx) (Fn F_tv_Rty) (Fn F_tv_destroy).
Proof. destruct (lv_ax _ _ _ _ _ _ _ _ _ _ _ _ _ _ _ _ L) as (a0 & Ea). rewrite Ea. unfold ax_fin. rewrite Hbp. eauto. Qed.
Lemma sy_keep i o : i <> Fresh -> o ∈ ops -> keeps F (Q i) o.
Proof.
  intros Hi. destruct sy_ax as (nw & ag & Eax). rewrite Eax. unfold synthesis_ops, tvop. intros Ho.
  repeat (apply elem_of_cons in Ho as [->|Ho]; [cbn [ax_Ax ax_Aty ax_Mx ax_Mty ax_Wz ax_Wtx ax_Rx ax_Rty call];
    first [exact (computes_keeps _ _ _ _ (c_Rx i)) | exact (computes_keeps _ _ _ _ (c_Rty i)) | exact (computes_keeps _ _ _ _ (c_Id i))
      | exact (computes_keeps _ _ _ _ (c_Wtx i)) | exact (computes_keeps _ _ _ _ (c_Wv i p m Hi eq_refl eq_refl))
      | exact (computes_keeps _ _ _ _ (c_Av i Hi)) | exact (k_Aty i Hi)]|]).
  by apply elem_of_nil in Ho.
Qed.
Lemma sy_hist t : hist F ops s1 t -> Q Known t.
Proof. apply (hist_J F (Q Known) (Q_same Known) ops (fun o => sy_keep Known o ltac:(done))). left. exact (lv_J _ _ _ _ _ _ _ _ _ _ _ _ _ _ _ _ L). Qed.
Record sy_all : Prop := {
  sy_Ax : always F ops s1 (top ax_Ax p n false) (fun v => tR (W_of tM nr nc av ah v));
  sy_Mx : always F ops s1 (top ax_Mx p m false) (W_of tM nr nc av ah); sy_Mty : always F ops s1 (top ax_Mty m p false) (Wt_of tMt nr nc av ah);
  sy_Wz : always F ops s1 (top ax_Wz m m false) (fun x => x); sy_Wtx : always F ops s1 (top ax_Wtx m m false) (fun x => x);
  sy_Rx : always F ops s1 (top ax_Rx m n false) tR; sy_Rty : always_d F ops s1 (top ax_Rty n m true) tRt }.
Lemma sy : sy_all.
Proof.
  assert (G : forall o f, computes F (Q Known) o f -> always_d F ops s1 o f).
  { intros o f Hc. apply (always_of F (Q Known) (Q_same Known) ops (fun o => sy_keep Known o ltac:(done))); [|done]. left. exact (lv_J _ _ _ _ _ _ _ _ _ _ _ _ _ _ _ _ L). }
  destruct sy_ax as (nw & ag & Eax). unfold tvop.
  split; apply G; rewrite Eax; cbn [ax_Ax ax_Aty ax_Mx ax_Mty ax_Wz ax_Wtx ax_Rx ax_Rty call];
    first [exact (c_Rx Known) | exact (c_Rty Known) | exact (c_Id Known) | exact (c_Wtx Known) | exact (c_Wv Known p m ltac:(done) eq_refl eq_refl) | exact (c_Av Known ltac:(done))].
Qed.
(** once Mx has been called, the work array is written and stays so *)
Lemma sy_Aty (f : list T -> list T) t X xs D t' : (forall us ys, length us = m -> tRt us ys = f ys) -> (forall ys, length ys = n -> length (f ys) = m) ->
  hist F ops s1 t -> good_call F (top ax_Mx p m false) t X xs D [] -> x_op (top ax_Mx p m false) X D t = Ok tt t' ->
  always F ops t' (top ax_Aty n p false) (fun ys => Wt_of tMt nr nc av ah (f ys)).
Proof.
  intros Hf Hl Hh HG E. pose proof (sy_hist t Hh) as HQ.
  assert (HR : Q Ready t').
  { destruct sy_ax as (nw & ag & Eax). rewrite Eax in HG, E. eapply (ready_Wv Known); [reflexivity|reflexivity|exact HQ|exact HG|exact E]. }
  apply (always_of F (Q Ready) (Q_same Ready) ops (fun o => sy_keep Ready o ltac:(done))); [exact HR|].
  destruct sy_ax as (nw & ag & Eax). rewrite Eax. exact (c_Aty f Hf Hl).
Qed.
(** without Ax and Mx it is never written *)
Definition quiet_ops : list xop := [top ax_Mty m p false; top ax_Wz m m false; top ax_Wtx m m false; top ax_Rx m n false; top ax_Rty n m true].
Lemma sy_fresh t : hist F quiet_ops s1 t -> Q Fresh t.
Proof.
  apply (hist_J F (Q Fresh) (Q_same Fresh)); [|exact (lv_J _ _ _ _ _ _ _ _ _ _ _ _ _ _ _ _ L)].
  unfold quiet_ops. destruct sy_ax as (nw & ag & Eax). rewrite Eax. unfold tvop. intros o Ho.
  repeat (apply elem_of_cons in Ho as [->|Ho]; [cbn [ax_Ax ax_Aty ax_Mx ax_Mty ax_Wz ax_Wtx ax_Rx ax_Rty call];
    first [exact (computes_keeps _ _ _ _ (c_Rx Fresh)) | exact (computes_keeps _ _ _ _ (c_Rty Fresh)) | exact (computes_keeps _ _ _ _ (c_Id Fresh))
      | exact (computes_keeps _ _ _ _ (c_Wtx Fresh))]|]).
  by apply elem_of_nil in Ho.
Qed.
Lemma sy_uninit t X D : hist F quiet_ops s1 t -> call fft1 fft2 (ax_Aty ax) X D t = Ub UbUninit.
Proof. intros Hh. destruct sy_ax as (nw & ag & Eax). rewrite Eax. cbn [ax_Aty call]. apply u_Aty. by apply sy_fresh. Qed.
End synthesis.
End all.
