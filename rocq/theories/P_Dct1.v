(** * The functions of src/dct1.c, run from a state set up by l1c_dct1_setup. *)
From Coq Require Import ZArith Lia.
From stdpp Require Import base numbers gmap list.
From Verif Require Import Globals Mem M_Math M_Memory M_FFTW M_Dct1 P_Loop P_Math P_Step P_Own P_Newton P_FFTW.
Local Open Scope Z_scope.

(** ** What the functions compute, for any arithmetic and any transform [fft1] *)
Section pure.
Context `{N : Num} (fft1 : fkind -> list T -> list T).
Implicit Types (xs ys e : list T) (root : T) (mask : list nat).
(** the inverse transform of x with its first entry times sqrt 2 *)
Definition idct_of xs := fft1 REDFT01 (<[0%nat := mul (at_ xs 0) (sqrt_ two)]> xs).
Definition mx_of root (m : nat) xs := tab m (fun i => mul (at_ (idct_of xs) i) root).
Definition emx_of root mask xs := tab (length mask) (fun i => mul (at_ (idct_of xs) (nth i mask 0%nat)) root).
(** the forward transform, first entry divided by sqrt 2, scaled *)
Definition mty_of root (m : nat) ys :=
  let w := fft1 REDFT10 ys in tab m (fun i => mul (if (i =? 0)%nat then div (at_ w 0) (sqrt_ two) else at_ w i) root).
(** e0: what the planner left in dct_Ety_sparse *)
Definition mtety_of root (m : nat) mask e0 ys := mty_of root m (scatter mask (at_ ys) e0).
Definition atax_of root (m : nat) mask e0 xs := mtety_of root m mask e0 (emx_of root mask xs).
Definition ex_of mask xs := tab (length mask) (fun i => at_ xs (nth i mask 0%nat)).
(** x0: what x held before *)
Definition ety_of (m : nat) mask x0 ys := scatter mask (at_ ys) (scal_of m zero x0).
End pure.

Section dct1.
Context `{N : Num}.
Context (fft1 : fkind -> list T -> list T) (fft2 : fkind -> nat -> nat -> list T -> list T).
Hypothesis fft1_len : forall k xs, length (fft1 k xs) = length xs.
Implicit Types (s : st) (xs : list T).

(** A live transform: the blocks of the two plans, of the three work arrays and of the index array,
    the number of unknowns, the indices, the scale, what planning left in dct_Ety_sparse *)
Record cfg1 := mkC1 { c_pm : nat; c_pe : nat; c_e : nat; c_x : nat; c_y : nat; c_mb : nat; c_mo : Z;
                      c_m : nat; c_mask : list nat; c_root : T; c_e0 : list T }.
Definition c_n c := length (c_mask c).
Definition st1 c : dct1_statics :=
  mkD1 _ (Ptr (c_pm c) 0) (Ptr (c_pe c) 0) (Ptr (c_e c) 0) (Ptr (c_x c) 0) (Ptr (c_y c) 0)
    (Ptr (c_mb c) (c_mo c)) (Z.of_nat (c_n c)) (Z.of_nat (c_m c)) (c_root c).
(** the blocks that belong to it *)
Definition F1 c : list nat := [c_e c; c_x c; c_y c; c_pm c; c_pe c; c_mb c].
Record ok1 c : Prop := {
  ok_m : (1 <= c_m c)%nat; ok_mask : forall k, k ∈ c_mask c -> (k < c_m c)%nat;
  ok_nd : NoDup [c_e c; c_x c; c_y c]; ok_e0 : length (c_e0 c) = c_m c }.
(** its state: the work arrays may hold anything, but dct_Ety_sparse keeps its contents off the index set *)
Record J1 c s : Prop := mkJ1 {
  j_gl : g_d1 (gl s) = st1 c;
  j_pm : om s !! c_pm c = Some (OPlan1 (Z.of_nat (c_m c)) REDFT10 (Ptr (c_e c) 0) (Ptr (c_x c) 0));
  j_pe : om s !! c_pe c = Some (OPlan1 (Z.of_nat (c_m c)) REDFT01 (Ptr (c_x c) 0) (Ptr (c_y c) 0));
  j_mask : segi s (Ptr (c_mb c) (c_mo c)) (c_mask c);
  j_e : exists e, seg s (Ptr (c_e c) 0) e /\ length e = c_m c /\ forall j, j ∉ c_mask c -> at_ e j = at_ (c_e0 c) j;
  j_x : wok s (Ptr (c_x c) 0) (c_m c); j_y : wok s (Ptr (c_y c) 0) (c_m c);
  j_ae : is_aligned s (Ptr (c_e c) 0) = true; j_ax : is_aligned s (Ptr (c_x c) 0) = true; j_ay : is_aligned s (Ptr (c_y c) 0) = true
}.
Lemma J1_same c s s' : J1 c s -> same_on (F1 c) s s' -> J1 c s'.
Proof.
  intros [] (H & Hg & He). unfold F1 in H.
  assert (HC : forall b o i, b ∈ F1 c -> cell s' (Ptr b o) i = cell s (Ptr b o) i).
  { intros b o i Hb. unfold cell. by rewrite (proj1 (H b Hb)). }
  assert (HA : forall b o, b ∈ F1 c -> is_aligned s' (Ptr b o) = is_aligned s (Ptr b o)).
  { intros b o Hb. unfold is_aligned. destruct (H b Hb) as (_ & _ & _ & _ & E). by rewrite E. }
  split.
  - by rewrite Hg.
  - destruct (H (c_pm c) ltac:(unfold F1; isin)) as (_ & _ & _ & E & _). by rewrite E.
  - destruct (H (c_pe c) ltac:(unfold F1; isin)) as (_ & _ & _ & E & _). by rewrite E.
  - destruct (H (c_mb c) ltac:(unfold F1; isin)) as (_ & E & _). by eapply segi_im.
  - destruct j_e0 as (e & H1 & H2). exists e. split; [|done]. intros i v Hi. rewrite HC by (unfold F1; isin). by apply H1.
  - intros i Hi. rewrite HC by (unfold F1; isin). by apply j_x0.
  - intros i Hi. rewrite HC by (unfold F1; isin). by apply j_y0.
  - by rewrite HA by (unfold F1; isin).
  - by rewrite HA by (unfold F1; isin).
  - by rewrite HA by (unfold F1; isin).
Qed.
Lemma J1_touch c W s s' : J1 c s -> touch W s s' -> (forall b, b ∈ W -> b ∉ F1 c) -> J1 c s'.
Proof. intros HJ Ht HW. eapply J1_same; [exact HJ|]. by eapply same_touch. Qed.
(** after writes to the work arrays *)
Lemma J1_work c s s' : J1 c s -> touch [c_e c; c_x c; c_y c] s s' ->
  (exists e, seg s' (Ptr (c_e c) 0) e /\ length e = c_m c /\ forall j, j ∉ c_mask c -> at_ e j = at_ (c_e0 c) j) -> J1 c s'.
Proof.
  intros [] Ht He. split.
  - by rewrite (t_gl _ _ _ Ht).
  - by rewrite (t_om _ _ _ Ht).
  - by rewrite (t_om _ _ _ Ht).
  - eapply segi_im; [|exact j_mask0]. by rewrite (t_im _ _ _ Ht).
  - done.
  - by apply (touch_wok _ _ _ _ _ Ht).
  - by apply (touch_wok _ _ _ _ _ Ht).
  - by rewrite (touch_aligned _ _ _ _ Ht).
  - by rewrite (touch_aligned _ _ _ _ Ht).
  - by rewrite (touch_aligned _ _ _ _ Ht).
Qed.
Lemma get1_run s c : J1 c s -> get1 s = Ok (st1 c) s.
Proof. intros HJ. unfold get1, getg, bind, ret. by rewrite (j_gl _ _ HJ). Qed.

Context (c : cfg1) (HC : ok1 c).
Notation m := (c_m c).
Notation mask := (c_mask c).
Notation e := (Ptr (c_e c) 0).
Notation x := (Ptr (c_x c) 0).
Notation y := (Ptr (c_y c) 0).
Notation idct := (idct_of fft1).
Lemma dne : c_e c <> c_x c /\ c_e c <> c_y c /\ c_x c <> c_y c.
Proof. pose proof (ok_nd _ HC) as H. distinct H. unfold dn in *. auto. Qed.
Lemma nth_mask i : (i < length mask)%nat -> (nth i mask 0 < m)%nat.
Proof. intros Hi. apply (ok_mask _ HC), elem_of_list_In, nth_In, Hi. Qed.
(** an argument buffer does not overlap a work array *)
Lemma disj_out X k b l : outside X (F1 c) -> b ∈ F1 c -> disj (Ptr b 0) l X k.
Proof. intros Ho Hb. destruct X as [|bx ox]; [done|]. simpl in *. intros <-. done. Qed.
Lemma disj_out' X k b l : outside X (F1 c) -> b ∈ F1 c -> disj X k (Ptr b 0) l.
Proof. intros. apply disj_sym. by apply disj_out. Qed.
Lemma insert_len (xs : list T) v : length (<[0%nat := v]> xs) = length xs. Proof. apply insert_length. Qed.

(** x[0] *= sqrt 2; transform; x[0] back *)
Lemma scaled_run s X xs k (K : M unit) : J1 c s -> seg s X xs -> length xs = m -> is_aligned s X = true -> outside X (F1 c) ->
  k = K (wr y (idct xs) s) ->
  (let* x0_tmp := ld X 0 in let* v := ld X 0 in sto X 0 (mul v (sqrt_ two)) ;!
   fftw_execute_r2r fft1 fft2 (d1_plan_EMx (st1 c)) X (d1_y (st1 c)) ;! sto X 0 x0_tmp ;! K) s = k.
Proof.
  intros HJ Sx Lx Ax Ox ->. pose proof (ok_m _ HC) as Hm.
  pose proof (seg_ld s X xs 0 Sx ltac:(lia)) as E0. change (Z.of_nat 0) with 0 in E0.
  rewrite (bind_ok _ _ _ _ _ E0), (bind_ok _ _ _ _ _ E0). set (v := mul _ _). set (xs' := <[0%nat := v]> xs).
  pose proof (sto_seg s X xs 0 v Sx ltac:(lia)) as E1. change (Z.of_nat 0) with 0 in E1. fold xs' in E1.
  rewrite (bind_ok _ _ _ _ _ E1).
  assert (L' : length xs' = m) by (unfold xs'; by rewrite insert_length).
  pose proof (seg_wok _ _ _ Sx) as Wx. rewrite Lx in Wx.
  assert (S1 : seg (wr X xs' s) X xs') by (apply seg_wr; by rewrite L').
  assert (Dxy : disj y m X m) by (apply disj_out; [done|unfold F1; isin]).
  pose proof (j_y _ _ HJ) as Wy.
  cbn [st1 d1_plan_EMx d1_y].
  rewrite (bind_ok _ _ _ tt (wr y (idct xs) (wr X xs' s))).
  2:{ unfold idct_of. fold v xs'. eapply exec1_run; try done.
      - rewrite om_wr. apply (j_pe _ _ HJ).
      - apply wok_wr; [by rewrite L'|done].
      - by rewrite is_aligned_wr.
      - rewrite is_aligned_wr. apply (j_ay _ _ HJ).
      - rewrite fft1_len. done. }
  assert (Li : length (idct xs) = m) by (unfold idct_of; rewrite fft1_len, insert_len; done).
  assert (E2 : wr y (idct xs) (wr X xs' s) = wr X xs' (wr y (idct xs) s)).
  { apply wr_comm'; rewrite ?L', ?Li; auto. }
  rewrite E2.
  assert (W2 : wok (wr y (idct xs) s) X m) by (apply wok_wr; [by rewrite Li|done]).
  assert (S2 : seg (wr X xs' (wr y (idct xs) s)) X xs') by (apply seg_wr; by rewrite L').
  pose proof (sto_seg _ X xs' 0 (at_ xs 0) S2 ltac:(lia)) as E3. change (Z.of_nat 0) with 0 in E3.
  rewrite (bind_ok _ _ _ _ _ E3). f_equal.
  replace (<[0%nat := at_ xs 0]> xs') with xs.
  2:{ unfold xs'. rewrite list_insert_insert. rewrite list_insert_id; [done|]. apply at_lookup. lia. }
  rewrite wr_overwrite' by (rewrite ?L', ?Lx; done).
  apply wr_self. apply seg_wr_disj; [by rewrite Li|done|]. by rewrite Li, Lx.
Qed.

(** dct_EMx *)
Lemma EMx_run s X xs D : J1 c s -> seg s X xs -> length xs = m -> wok s D (c_n c) -> disj D (c_n c) X m ->
  is_aligned s X = true -> is_aligned s D = true -> outside X (F1 c) -> outside D (F1 c) ->
  dct_EMx fft1 fft2 X D s = Ok tt (wr D (emx_of fft1 (c_root c) mask xs) (wr y (idct xs) s)).
Proof.
  intros HJ Sx Lx Wd Hd Ax Ad Ox Od. unfold dct_EMx.
  rewrite (bind_ok _ _ _ _ _ (get1_run s c HJ)).
  rewrite (bind_ok _ _ _ _ _ (assume_ok _ _ Ad)), (bind_ok _ _ _ _ _ (assume_ok _ _ (j_ay _ _ HJ))).
  cbn [d1_n d1_m st1]. rewrite (bind_ok _ _ _ _ _ (restrict_ok _ _ _ _ _ Hd)).
  change (mkD1 _ _ _ _ _ _ _ _ _ _) with (st1 c).
  rewrite (scaled_run s X xs _ _ HJ Sx Lx Ax Ox eq_refl).
  assert (Li : length (idct xs) = m) by (unfold idct_of; rewrite fft1_len, insert_len; done).
  pose proof (j_y _ _ HJ) as Wy.
  apply (gather_run (fun v => mul v (c_root c)) (c_n c) y (idct xs) D (Ptr (c_mb c) (c_mo c)) mask).
  - apply seg_wr. by rewrite Li.
  - eapply segi_im; [by rewrite im_wr|]. apply (j_mask _ _ HJ).
  - done.
  - done.
  - rewrite Li. apply (ok_mask _ HC).
  - apply wok_wr; [by rewrite Li|done].
  - rewrite Li. apply disj_out'; [done|unfold F1; isin].
  - done.
Qed.

(** the common end of dct_MtEty and dct_MtEt_EMx *)
Definition wback es := let w := fft1 REDFT10 es in <[0%nat := div (at_ w 0) (sqrt_ two)]> w.
Lemma back_run s D es : J1 c s -> seg s e es -> length es = m -> wok s D m -> outside D (F1 c) ->
  dct_back fft1 fft2 (st1 c) D s = Ok tt (wr D (mty_of fft1 (c_root c) m es) (wr x (wback es) s)).
Proof.
  intros HJ Se Le Wd Od. pose proof (ok_m _ HC) as Hm. destruct dne as (Nex & Ney & Nxy).
  unfold dct_back. cbn [d1_plan_MtEty d1_x d1_m d1_root st1].
  pose proof (j_x _ _ HJ) as Wx. set (w := fft1 REDFT10 es).
  assert (Lw : length w = m) by (unfold w; by rewrite fft1_len).
  assert (E1 : fftw_execute fft1 fft2 (Ptr (c_pm c) 0) s = Ok tt (wr x w s)).
  { eapply execp1_run; try done.
    - apply (j_pm _ _ HJ).
    - apply disj_blocks. auto.
    - apply (j_ae _ _ HJ).
    - apply (j_ax _ _ HJ). }
  rewrite (bind_ok _ _ _ _ _ E1).
  assert (Sw : seg (wr x w s) x w) by (apply seg_wr; by rewrite Lw).
  pose proof (seg_ld _ x w 0 Sw ltac:(lia)) as E2. change (Z.of_nat 0) with 0 in E2.
  pose proof (sto_seg _ x w 0 (div (at_ w 0) (sqrt_ two)) Sw ltac:(lia)) as E3. change (Z.of_nat 0) with 0 in E3.
  rewrite wr_overwrite' in E3 by (rewrite ?insert_length, Lw; done).
  rewrite (bind_ok _ _ _ tt (wr x (wback es) s)) by (rewrite (bind_ok _ _ _ _ _ E2); exact E3).
  assert (Lb : length (wback es) = m) by (unfold wback; fold w; by rewrite insert_length).
  unfold mty_of. fold w.
  destruct (for_elem m D [] [(x, wback es)] (fun i => mul (if (i =? 0)%nat then div (at_ w 0) (sqrt_ two) else at_ w i) (c_root c))
     (fun i => let* v := ld x i in sto D i (mul v (c_root c))) (wr x (wback es) s)) as [E4 _].
  - intros q zs Hq. apply elem_of_list_singleton in Hq as [= -> ->]. split; [done|]. right. split.
    + apply seg_wr. by rewrite Lb.
    + apply disj_out'; [done|unfold F1; isin].
  - apply seg_nil.
  - apply wok_wr; [by rewrite Lb|done].
  - intros s0 i Hi Hs. rewrite (bind_ok _ _ _ _ _ (Hs x (wback es) ltac:(left))). f_equal.
    unfold wback. fold w. rewrite at_insert by lia. done.
  - exact E4.
Qed.

(** dct_MtEty *)
Lemma MtEty_run s Y ys D : J1 c s -> seg s Y ys -> length ys = c_n c -> wok s D m -> disj D m Y (c_n c) ->
  is_aligned s Y = true -> is_aligned s D = true -> outside Y (F1 c) -> outside D (F1 c) ->
  exists s', dct_MtEty fft1 fft2 Y D s = Ok tt s' /\
    touch (F1 c) (wr D (mtety_of fft1 (c_root c) m mask (c_e0 c) ys) s) s' /\ J1 c s'.
Proof.
  intros HJ Sy Ly Wd Hd Ay Ad Oy Od. unfold dct_MtEty. destruct dne as (Nex & Ney & Nxy).
  rewrite (bind_ok _ _ _ _ _ (get1_run s c HJ)).
  rewrite (bind_ok _ _ _ _ _ (assume_ok _ _ Ay)), (bind_ok _ _ _ _ _ (assume_ok _ _ Ad)).
  rewrite (bind_ok _ _ _ _ _ (assume_ok _ _ (j_ax _ _ HJ))), (bind_ok _ _ _ _ _ (assume_ok _ _ (j_ae _ _ HJ))).
  cbn [d1_n d1_m d1_Ety_sparse d1_mask st1]. rewrite (bind_ok _ _ _ _ _ (restrict_ok _ _ _ _ _ Hd)).
  change (mkD1 _ _ _ _ _ _ _ _ _ _) with (st1 c).
  destruct (j_e _ _ HJ) as (es & Se & Le & He).
  set (es' := scatter mask (at_ ys) es).
  assert (Les : length es' = m) by (unfold es'; by rewrite scatter_len).
  rewrite (bind_ok _ _ _ tt (wr e es' s)).
  2:{ apply (scatter_run (at_ ys) (c_n c) e es (Ptr (c_mb c) (c_mo c))); try done.
      - apply (j_mask _ _ HJ).
      - rewrite Le. apply (ok_mask _ HC).
      - intros i a Hi La.
        assert (Hm' : segi (wr e a s) (Ptr (c_mb c) (c_mo c)) mask).
        { eapply segi_im; [|apply (j_mask _ _ HJ)]. by rewrite im_wr. }
        rewrite !(bind_ok _ _ _ _ _ (segi_ld _ _ mask i Hm' Hi)).
        assert (Sy' : seg (wr e a s) Y ys).
        { apply seg_wr_disj; [rewrite La, Le, <- Le; by apply seg_wok|done|]. apply disj_out; [done|unfold F1; isin]. }
        rewrite (bind_ok _ _ _ _ _ (seg_ld _ Y ys i Sy' ltac:(by rewrite Ly))). done. }
  assert (We : wok s e m) by (rewrite <- Le; by apply seg_wok).
  assert (Ht : touch [c_e c; c_x c; c_y c] s (wr e es' s)) by (apply touch_wr; isin).
  assert (Se' : seg (wr e es' s) e es') by (apply seg_wr; by rewrite Les).
  assert (He' : forall j, j ∉ mask -> at_ es' j = at_ (c_e0 c) j).
  { intros j Hj. unfold es'. rewrite scatter_out by done. auto. }
  assert (HJ1 : J1 c (wr e es' s)) by (eapply J1_work; [exact HJ|exact Ht|eauto]).
  rewrite (back_run _ D es' HJ1 Se' Les); [|apply wok_wr; [by rewrite Les|done]|done].
  assert (Lb : length (wback es') = m) by (unfold wback; rewrite insert_length, fft1_len; done).
  eexists. split; [reflexivity|]. split.
  - replace (mtety_of fft1 (c_root c) m mask (c_e0 c) ys) with (mty_of fft1 (c_root c) m es').
    + apply touch_wr_both. eapply touch_trans; apply touch_wr; unfold F1; isin.
    + unfold mtety_of. f_equal. apply scatter_ext; [by rewrite (ok_e0 _ HC)| |done|done].
      rewrite Le. apply (ok_mask _ HC).
  - assert (HJ2 : J1 c (wr x (wback es') (wr e es' s))).
    { eapply J1_work; [exact HJ1|apply touch_wr; isin|]. exists es'. split; [|done].
      apply seg_wr_disj; [rewrite Lb; apply wok_wr; [by rewrite Les|apply (j_x _ _ HJ)]|done|]. apply disj_blocks. auto. }
    destruct D as [|bd od]; [done|]. eapply J1_touch; [exact HJ2|apply touch_wr; left|].
    intros b Hb. apply elem_of_list_singleton in Hb as ->. exact Od.
Qed.

(** dct_MtEt_EMx *)
Lemma MtEt_EMx_run s X xs D : J1 c s -> seg s X xs -> length xs = m -> wok s D m -> disj D m X m ->
  is_aligned s X = true -> is_aligned s D = true -> outside X (F1 c) -> outside D (F1 c) ->
  exists s', dct_MtEt_EMx fft1 fft2 X D s = Ok tt s' /\
    touch (F1 c) (wr D (atax_of fft1 (c_root c) m mask (c_e0 c) xs) s) s' /\ J1 c s'.
Proof.
  intros HJ Sx Lx Wd Hd Ax Ad Ox Od. unfold dct_MtEt_EMx. destruct dne as (Nex & Ney & Nxy).
  rewrite (bind_ok _ _ _ _ _ (get1_run s c HJ)).
  rewrite (bind_ok _ _ _ _ _ (assume_ok _ _ (j_ay _ _ HJ))), (bind_ok _ _ _ _ _ (assume_ok _ _ (j_ae _ _ HJ))).
  rewrite (bind_ok _ _ _ _ _ (assume_ok _ _ (j_ax _ _ HJ))), (bind_ok _ _ _ _ _ (assume_ok _ _ Ad)).
  cbn [d1_n d1_m d1_Ety_sparse d1_mask st1]. rewrite (bind_ok _ _ _ _ _ (restrict_ok _ _ _ _ _ Hd)).
  change (mkD1 _ _ _ _ _ _ _ _ _ _) with (st1 c).
  erewrite (scaled_run s X xs); [|done|done|done|done|done|reflexivity].
  assert (Li : length (idct xs) = m) by (unfold idct_of; rewrite fft1_len, insert_len; done).
  pose proof (j_y _ _ HJ) as Wy. set (s1 := wr y (idct xs) s).
  assert (T1 : touch [c_e c; c_x c; c_y c] s s1) by (apply touch_wr; isin).
  destruct (j_e _ _ HJ) as (es & Se & Le & He).
  assert (Se1 : seg s1 e es).
  { apply seg_wr_disj; [by rewrite Li|done|]. apply disj_blocks. auto. }
  assert (HJ1 : J1 c s1) by (eapply J1_work; [exact HJ|exact T1|eauto]).
  set (es' := scatter mask (fun i => mul (at_ (idct xs) (nth i mask 0%nat)) (c_root c)) es).
  assert (Les : length es' = m) by (unfold es'; by rewrite scatter_len).
  assert (Sy1 : seg s1 y (idct xs)) by (apply seg_wr; by rewrite Li).
  cbn [d1_y d1_root st1].
  rewrite (bind_ok _ _ _ tt (wr e es' s1)).
  2:{ apply (scatter_run _ (c_n c) e es (Ptr (c_mb c) (c_mo c))); try done.
      - apply (j_mask _ _ HJ1).
      - rewrite Le. apply (ok_mask _ HC).
      - intros i a Hi La.
        assert (Hm' : segi (wr e a s1) (Ptr (c_mb c) (c_mo c)) mask).
        { eapply segi_im; [|apply (j_mask _ _ HJ1)]. by rewrite im_wr. }
        rewrite !(bind_ok _ _ _ _ _ (segi_ld _ _ mask i Hm' Hi)).
        assert (Sy' : seg (wr e a s1) y (idct xs)).
        { apply seg_wr_disj; [rewrite La, Le, <- Le; by apply seg_wok|done|]. apply disj_blocks. auto. }
        pose proof (nth_mask i Hi).
        assert (Hn : (nth i mask 0 < length (idct xs))%nat) by (by rewrite Li).
        rewrite (bind_ok _ _ _ _ _ (seg_ld _ y (idct xs) _ Sy' Hn)). done. }
  change (mkD1 _ _ _ _ _ _ _ _ _ _) with (st1 c).
  assert (We : wok s1 e m) by (rewrite <- Le; by apply seg_wok).
  assert (Ht : touch [c_e c; c_x c; c_y c] s1 (wr e es' s1)) by (apply touch_wr; isin).
  assert (Se' : seg (wr e es' s1) e es') by (apply seg_wr; by rewrite Les).
  assert (He' : forall j, j ∉ mask -> at_ es' j = at_ (c_e0 c) j).
  { intros j Hj. unfold es'. rewrite scatter_out by done. auto. }
  assert (HJ2 : J1 c (wr e es' s1)) by (eapply J1_work; [exact HJ1|exact Ht|eauto]).
  assert (Wd1 : wok s1 D m) by (apply wok_wr; [by rewrite Li|done]).
  rewrite (back_run _ D es' HJ2 Se' Les); [|apply wok_wr; [by rewrite Les|done]|done].
  assert (Lb : length (wback es') = m) by (unfold wback; rewrite insert_length, fft1_len; done).
  eexists. split; [reflexivity|]. split.
  - replace (atax_of fft1 (c_root c) m mask (c_e0 c) xs) with (mty_of fft1 (c_root c) m es').
    + apply touch_wr_both. eapply touch_trans; [|eapply touch_trans; apply touch_wr; unfold F1; isin].
      eapply touch_weaken; [exact T1|]. intros b Hb. unfold F1. sub Hb.
    + unfold atax_of, mtety_of. f_equal. apply scatter_ext; [by rewrite (ok_e0 _ HC)| |done|].
      * rewrite Le. apply (ok_mask _ HC).
      * intros i Hi. unfold emx_of. by rewrite at_tab.
  - assert (HJ3 : J1 c (wr x (wback es') (wr e es' s1))).
    { eapply J1_work; [exact HJ2|apply touch_wr; isin|]. exists es'. split; [|done].
      apply seg_wr_disj; [rewrite Lb; apply (j_x _ _ HJ2)|done|]. apply disj_blocks. auto. }
    destruct D as [|bd od]; [done|]. eapply J1_touch; [exact HJ3|apply touch_wr; left|].
    intros b Hb. apply elem_of_list_singleton in Hb as ->. exact Od.
Qed.

(** dct_Mty *)
Lemma Mty_run s Y ys D : J1 c s -> seg s Y ys -> length ys = m -> wok s D m -> disj D m Y m ->
  is_aligned s Y = true -> is_aligned s D = true ->
  dct_Mty fft1 fft2 Y D s = Ok tt (wr D (mty_of fft1 (c_root c) m ys) s).
Proof.
  intros HJ Sy Ly Wd Hd Ay Ad. unfold dct_Mty. pose proof (ok_m _ HC) as Hm.
  rewrite (bind_ok _ _ _ _ _ (get1_run s c HJ)).
  rewrite (bind_ok _ _ _ _ _ (assume_ok _ _ Ad)). cbn [d1_plan_MtEty d1_m d1_root st1].
  set (w := fft1 REDFT10 ys). assert (Lw : length w = m) by (unfold w; by rewrite fft1_len).
  rewrite (bind_ok _ _ _ tt (wr D w s)) by (eapply exec1_run; try done; apply (j_pm _ _ HJ)).
  assert (Sw : seg (wr D w s) D w) by (apply seg_wr; by rewrite Lw).
  pose proof (seg_ld _ D w 0 Sw ltac:(lia)) as E2. change (Z.of_nat 0) with 0 in E2.
  pose proof (sto_seg _ D w 0 (div (at_ w 0) (sqrt_ two)) Sw ltac:(lia)) as E3. change (Z.of_nat 0) with 0 in E3.
  set (w' := <[0%nat := div (at_ w 0) (sqrt_ two)]> w) in *.
  assert (Lw' : length w' = m) by (unfold w'; by rewrite insert_length).
  rewrite wr_overwrite' in E3 by (rewrite ?Lw', Lw; done).
  rewrite (bind_ok _ _ _ _ _ E2), (bind_ok _ _ _ _ _ E3).
  assert (Sw' : seg (wr D w' s) D w') by (apply seg_wr; by rewrite Lw').
  destruct (for_elem m D w' [(D, w')] (fun i => mul (at_ w' i) (c_root c))
     (fun i => let* v := ld D i in sto D i (mul v (c_root c))) (wr D w' s)) as [E4 _].
  - intros q zs Hq. apply elem_of_list_singleton in Hq as [= -> ->]. split; [done|]. by left.
  - done.
  - rewrite <- Lw'. by apply seg_wok.
  - intros s0 i Hi Hs. by rewrite (bind_ok _ _ _ _ _ (Hs D w' ltac:(left))).
  - rewrite E4. rewrite wr_overwrite' by (rewrite ?tab_length, Lw'; done). do 2 f_equal.
    apply tab_ext. intros i Hi. unfold w'. rewrite at_insert by lia. done.
Qed.

(** dct_Mx; x[0] comes back as (x[0] * sqrt 2) / sqrt 2 *)
Lemma Mx_run s X xs D : J1 c s -> seg s X xs -> length xs = m -> wok s D m -> disj D m X m ->
  is_aligned s X = true -> is_aligned s D = true ->
  dct_Mx fft1 fft2 X D s =
    Ok tt (wr X (<[0%nat := div (mul (at_ xs 0) (sqrt_ two)) (sqrt_ two)]> xs) (wr D (mx_of fft1 (c_root c) m xs) s)).
Proof.
  intros HJ Sx Lx Wd Hd Ax Ad. unfold dct_Mx. pose proof (ok_m _ HC) as Hm.
  rewrite (bind_ok _ _ _ _ _ (get1_run s c HJ)). cbn [d1_plan_EMx d1_m d1_root st1].
  pose proof (seg_ld s X xs 0 Sx ltac:(lia)) as E0. change (Z.of_nat 0) with 0 in E0.
  rewrite (bind_ok _ _ _ _ _ E0). set (v := mul _ _). set (xs' := <[0%nat := v]> xs).
  pose proof (sto_seg s X xs 0 v Sx ltac:(lia)) as E1. change (Z.of_nat 0) with 0 in E1. fold xs' in E1.
  rewrite (bind_ok _ _ _ _ _ E1).
  assert (L' : length xs' = m) by (unfold xs'; by rewrite insert_length).
  pose proof (seg_wok _ _ _ Sx) as Wx. rewrite Lx in Wx.
  assert (S1 : seg (wr X xs' s) X xs') by (apply seg_wr; by rewrite L').
  set (w := idct xs).
  assert (Lw : length w = m) by (unfold w, idct_of; rewrite fft1_len, insert_len; done).
  rewrite (bind_ok _ _ _ tt (wr D w (wr X xs' s))).
  2:{ unfold w, idct_of. fold v xs'. eapply exec1_run; try done.
      - rewrite om_wr. apply (j_pe _ _ HJ).
      - apply wok_wr; [by rewrite L'|done].
      - by rewrite is_aligned_wr.
      - by rewrite is_aligned_wr. }
  assert (Wd1 : wok (wr X xs' s) D m) by (apply wok_wr; [by rewrite L'|done]).
  assert (Sw : seg (wr D w (wr X xs' s)) D w) by (apply seg_wr; by rewrite Lw).
  destruct (for_elem m D w [(D, w)] (fun i => mul (at_ w i) (c_root c))
     (fun i => let* v := ld D i in sto D i (mul v (c_root c))) (wr D w (wr X xs' s))) as [E4 _].
  - intros q zs Hq. apply elem_of_list_singleton in Hq as [= -> ->]. split; [done|]. by left.
  - done.
  - rewrite <- Lw. by apply seg_wok.
  - intros s0 i Hi Hs. by rewrite (bind_ok _ _ _ _ _ (Hs D w ltac:(left))).
  - rewrite (bind_ok _ _ _ _ _ E4). clear E4. rewrite wr_overwrite' by (rewrite ?tab_length, Lw; done).
    change (tab m (fun i => mul (at_ w i) (c_root c))) with (mx_of fft1 (c_root c) m xs). set (r := mx_of _ _ _ _).
    assert (Lr : length r = m) by apply tab_length.
    assert (E5 : wr D r (wr X xs' s) = wr X xs' (wr D r s)) by (apply wr_comm'; rewrite ?Lr, ?L'; done).
    rewrite E5.
    assert (W2 : wok (wr D r s) X m) by (apply wok_wr; [by rewrite Lr|done]).
    assert (S2 : seg (wr X xs' (wr D r s)) X xs') by (apply seg_wr; by rewrite L').
    pose proof (seg_ld _ X xs' 0 S2 ltac:(lia)) as E6. change (Z.of_nat 0) with 0 in E6.
    rewrite (bind_ok _ _ _ _ _ E6).
    pose proof (sto_seg _ X xs' 0 (div (at_ xs' 0) (sqrt_ two)) S2 ltac:(lia)) as E7. change (Z.of_nat 0) with 0 in E7.
    rewrite E7, wr_overwrite' by (rewrite ?insert_length, L'; done).
    do 2 f_equal. unfold xs'. rewrite at_insert by lia. simpl. by rewrite list_insert_insert.
Qed.

(** Identity *)
Lemma Identity_run s X xs D : J1 c s -> seg s X xs -> length xs = m -> wok s D m -> disj D m X m ->
  dct_Identity X D s = Ok tt (wr D xs s).
Proof.
  intros HJ Sx Lx Wd Hd. unfold dct_Identity. rewrite (bind_ok _ _ _ _ _ (get1_run s c HJ)).
  apply dcopy_loop with (ys := []); [by apply src_disj|by apply dst_fresh].
Qed.
(** dct_Ex *)
Lemma Ex_run s X xs D : J1 c s -> seg s X xs -> length xs = m -> wok s D (c_n c) -> disj D (c_n c) X m ->
  dct_Ex X D s = Ok tt (wr D (ex_of mask xs) s).
Proof.
  intros HJ Sx Lx Wd Hd. unfold dct_Ex. rewrite (bind_ok _ _ _ _ _ (get1_run s c HJ)).
  apply (gather_run (fun v => v) (c_n c) X xs D (Ptr (c_mb c) (c_mo c)) mask); try done.
  - apply (j_mask _ _ HJ).
  - rewrite Lx. apply (ok_mask _ HC).
  - by rewrite Lx.
Qed.
(** dct_Ety: the old contents of x matter *)
Lemma Ety_run s Y ys D ds : J1 c s -> seg s Y ys -> length ys = c_n c -> seg s D ds -> length ds = m -> disj D m Y (c_n c) ->
  dct_Ety Y D s = Ok tt (wr D (ety_of m mask ds ys) s).
Proof.
  intros HJ Sy Ly Sd Ld Hd. unfold dct_Ety. rewrite (bind_ok _ _ _ _ _ (get1_run s c HJ)).
  cbn [d1_m d1_n d1_mask st1]. rewrite (bind_ok _ _ _ _ _ (dscal_run s m zero D ds Sd Ld)).
  set (z := scal_of m zero ds). assert (Lz : length z = m) by apply tab_length.
  pose proof (seg_wok _ _ _ Sd) as Wd. rewrite Ld in Wd.
  assert (Sz : seg (wr D z s) D z) by (apply seg_wr; by rewrite Lz).
  rewrite (scatter_run (at_ ys) (c_n c) D z (Ptr (c_mb c) (c_mo c)) mask); try done.
  - rewrite wr_overwrite' by (rewrite ?scatter_len, Lz; done). done.
  - eapply segi_im; [|apply (j_mask _ _ HJ)]. by rewrite im_wr.
  - rewrite Lz. apply (ok_mask _ HC).
  - intros i a Hi La. rewrite Lz in La.
    rewrite wr_overwrite' by (rewrite ?La, Lz; done).
    assert (Hm' : segi (wr D a s) (Ptr (c_mb c) (c_mo c)) mask).
    { eapply segi_im; [|apply (j_mask _ _ HJ)]. by rewrite im_wr. }
    rewrite !(bind_ok _ _ _ _ _ (segi_ld _ _ mask i Hm' Hi)).
    assert (Sy' : seg (wr D a s) Y ys).
    { apply seg_wr_disj; [by rewrite La|done|]. by rewrite La, Ly. }
    rewrite (bind_ok _ _ _ _ _ (seg_ld _ Y ys i Sy' ltac:(by rewrite Ly))). done.
Qed.

(** ** as operators *)
Lemma J1_oper op k l A : (forall s X xs D, J1 c s -> seg s X xs -> length xs = k -> wok s D l -> disj D l X k ->
    is_aligned s X = true -> is_aligned s D = true -> outside X (F1 c) -> outside D (F1 c) ->
    exists s', op X D s = Ok tt s' /\ touch (F1 c) (wr D (A xs) s) s' /\ J1 c s') ->
  (forall xs, length xs = k -> length (A xs) = l) -> oper (F1 c) (J1 c) op k l A.
Proof. intros H1 H2. split; [done| |done]. intros W s s'. apply J1_touch. Qed.
Lemma J1_wr s D zs : J1 c s -> outside D (F1 c) -> J1 c (wr D zs s).
Proof.
  intros HJ Od. destruct D as [|bd od]; [done|]. eapply J1_touch; [exact HJ|apply touch_wr; left|].
  intros b Hb. apply elem_of_list_singleton in Hb as ->. exact Od.
Qed.
Lemma EMx_oper : oper (F1 c) (J1 c) (dct_EMx fft1 fft2) m (c_n c) (emx_of fft1 (c_root c) mask).
Proof.
  apply J1_oper.
  - intros s X xs D HJ Sx Lx Wd Hd Ax Ad Ox Od. eexists. split; [by apply EMx_run|].
    assert (Li : length (idct xs) = m) by (unfold idct_of; rewrite fft1_len, insert_len; done).
    destruct dne as (Nex & Ney & Nxy). split.
    + apply touch_wr_both, touch_wr. unfold F1; isin.
    + apply J1_wr; [|done]. eapply J1_work; [exact HJ|apply touch_wr; isin|].
      destruct (j_e _ _ HJ) as (es & Se & He). exists es. split; [|done].
      apply seg_wr_disj; [rewrite Li; apply (j_y _ _ HJ)|done|]. apply disj_blocks. auto.
  - intros xs _. apply tab_length.
Qed.
Lemma MtEty_oper : oper (F1 c) (J1 c) (dct_MtEty fft1 fft2) (c_n c) m (mtety_of fft1 (c_root c) m mask (c_e0 c)).
Proof. apply J1_oper; [exact MtEty_run|]. intros xs _. apply tab_length. Qed.
Lemma MtEt_EMx_oper : oper (F1 c) (J1 c) (dct_MtEt_EMx fft1 fft2) m m (atax_of fft1 (c_root c) m mask (c_e0 c)).
Proof. apply J1_oper; [exact MtEt_EMx_run|]. intros xs _. apply tab_length. Qed.
Lemma Mty_oper : oper (F1 c) (J1 c) (dct_Mty fft1 fft2) m m (mty_of fft1 (c_root c) m).
Proof.
  apply J1_oper; [|intros xs _; apply tab_length]. intros s X xs D HJ Sx Lx Wd Hd Ax Ad Ox Od.
  eexists. split; [by apply Mty_run|]. split; [apply touch_refl|by apply J1_wr].
Qed.
Lemma Identity_oper : oper (F1 c) (J1 c) dct_Identity m m (fun xs => xs).
Proof.
  apply J1_oper; [|done]. intros s X xs D HJ Sx Lx Wd Hd Ax Ad Ox Od.
  eexists. split; [by apply Identity_run|]. split; [apply touch_refl|by apply J1_wr].
Qed.
Lemma Ex_oper : oper (F1 c) (J1 c) dct_Ex m (c_n c) (ex_of mask).
Proof.
  apply J1_oper; [|intros xs _; apply tab_length]. intros s X xs D HJ Sx Lx Wd Hd Ax Ad Ox Od.
  eexists. split; [by apply Ex_run|]. split; [apply touch_refl|by apply J1_wr].
Qed.
(** when multiplying and dividing by sqrt 2 cancel *)
Lemma Mx_oper : (forall v, div (mul v (sqrt_ two)) (sqrt_ two) = v) ->
  oper (F1 c) (J1 c) (dct_Mx fft1 fft2) m m (mx_of fft1 (c_root c) m).
Proof.
  intros Hv. apply J1_oper; [|intros xs _; apply tab_length]. intros s X xs D HJ Sx Lx Wd Hd Ax Ad Ox Od.
  pose proof (ok_m _ HC) as Hm.
  eexists. split; [by apply Mx_run|]. rewrite Hv, list_insert_id by (apply at_lookup; lia).
  assert (Lr : length (mx_of fft1 (c_root c) m xs) = m) by apply tab_length.
  rewrite (wr_self _ X xs) by (apply seg_wr_disj; rewrite ?Lr, ?Lx; done). split; [apply touch_refl|by apply J1_wr].
Qed.
End dct1.
