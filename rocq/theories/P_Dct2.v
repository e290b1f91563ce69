(** * The functions of src/dct2.c, run from a state set up by l1c_dct2_setup. *)
From Coq Require Import ZArith Lia.
From stdpp Require Import base numbers gmap list.
From Verif Require Import Globals Mem M_Math M_Memory M_FFTW M_Dct2 P_Loop P_Math P_Step P_Own P_Newton P_FFTW.
Local Open Scope Z_scope.

(** ** What the functions compute, for any arithmetic and any transform [fft2] *)
Section pure.
Context `{N : Num} (fft2 : fkind -> nat -> nat -> list T -> list T) (nr nc : nat).
Implicit Types (xs ys e : list T) (root : T) (mask : list nat).
(** entry 0 becomes v0, the rest of the first row and column is scaled by c *)
Definition scale2_of (c v0 : T) xs := tab (nr * nc) (fun k =>
  if (k =? 0)%nat then v0 else if (k <? nc)%nat || (k mod nc =? 0)%nat then mul c (at_ xs k) else at_ xs k).
Definition before2_of xs := scale2_of (sqrt_ two) (mul (at_ xs 0) two) xs.
Definition after2_of xs := scale2_of (div one (sqrt_ two)) (mul (at_ xs 0) (lit 1 2)) xs.
Definition idct2_of xs := fft2 REDFT01 nr nc (before2_of xs).
Definition mx2_of root xs := tab (nr * nc) (fun i => mul root (at_ (idct2_of xs) i)).
Definition emx2_of root mask xs := tab (length mask) (fun i => mul (at_ (idct2_of xs) (nth i mask 0%nat)) root).
Definition mty2_of root ys := after2_of (scal_of (nr * nc) root (fft2 REDFT10 nr nc ys)).
Definition back2_of root es := after2_of (tab (nr * nc) (fun i => mul (at_ (fft2 REDFT10 nr nc es) i) root)).
(** e0: what the planner left in dct2_Ety_sparse *)
Definition mtety2_of root mask e0 ys := back2_of root (scatter mask (at_ ys) e0).
Definition atax2_of root mask e0 xs := mtety2_of root mask e0 (emx2_of root mask xs).
Definition ex2_of mask xs := tab (length mask) (fun i => at_ xs (nth i mask 0%nat)).
Definition ety2_of mask x0 ys := scatter mask (at_ ys) (scal_of (nr * nc) zero x0).
End pure.

Section scale.
Context `{N : Num}.
Lemma scale2_len nr nc c v0 xs : length (scale2_of nr nc c v0 xs) = (nr * nc)%nat. Proof. apply tab_length. Qed.
Implicit Types (s : st) (xs : list T).
Lemma ld_padd P k i s : ld (padd P k) i s = ld P (k + i) s.
Proof. destruct P as [|b o]; [done|]. unfold ld. simpl. by rewrite !Z.add_assoc. Qed.
Lemma sto_padd P k i v s : sto (padd P k) i v s = sto P (k + i) v s.
Proof. destruct P as [|b o]; [done|]. unfold sto. simpl. by rewrite !Z.add_assoc. Qed.
Lemma dscal_str s n c P xs off inc : seg s P xs -> (forall i, (i < n)%nat -> (off + i * inc < length xs)%nat) ->
  cblas_dscal (Z.of_nat n) c (padd P (Z.of_nat off)) (Z.of_nat inc) s =
  Ok tt (wr P (upd_of n (fun i => off + i * inc)%nat (fun i a => mul c (at_ a (off + i * inc)%nat)) xs) s).
Proof.
  intros Sx Hb. unfold cblas_dscal. apply for_upd; [done|done|]. intros i a Hi La Sa.
  specialize (Hb i Hi). pose proof (seg_ld _ P a (off + i * inc) Sa ltac:(lia)) as E.
  rewrite (bind_ok _ _ _ (at_ a (off + i * inc)) (wr P a s)).
  - rewrite sto_padd. f_equal. lia.
  - rewrite ld_padd. rewrite <- E. f_equal. lia.
Qed.
(** one pass over distinct places *)
Lemma upd_inj_at n idx (g : nat -> T -> T) xs i : (i < n)%nat -> (idx i < length xs)%nat ->
  (forall k l, (k < n)%nat -> (l < n)%nat -> idx k = idx l -> k = l) ->
  at_ (upd_of n idx (fun i a => g i (at_ a (idx i))) xs) (idx i) = g i (at_ xs (idx i)).
Proof.
  intros Hi Hl Hinj. rewrite (upd_at_last n idx (fun i a => g i (at_ a (idx i))) xs i Hi Hl).
  - f_equal. apply upd_at_out. intros k Hk E. apply Hinj in E; lia.
  - intros k Hk E. apply Hinj in E; lia.
Qed.
Lemma scale2_run nr nc c (g : T -> T) s P xs : (1 <= nr)%nat -> (1 <= nc)%nat -> seg s P xs -> length xs = (nr * nc)%nat ->
  ((let* v := ld P 0 in sto P 0 (g v)) ;! cblas_dscal (Z.of_nat nc - 1) c (padd P 1) 1 ;!
   cblas_dscal (Z.of_nat nr - 1) c (padd P (Z.of_nat nc)) (Z.of_nat nc)) s = Ok tt (wr P (scale2_of nr nc c (g (at_ xs 0)) xs) s).
Proof.
  intros Hr Hc Sx Lx. assert (Hpos : (nc <= nr * nc)%nat) by nia.
  pose proof (seg_ld _ P xs 0 Sx ltac:(lia)) as E0. change (Z.of_nat 0) with 0 in E0.
  pose proof (sto_seg _ P xs 0 (g (at_ xs 0)) Sx ltac:(lia)) as E1. change (Z.of_nat 0) with 0 in E1.
  set (x1 := <[0%nat := g (at_ xs 0)]> xs) in *. assert (L1 : length x1 = (nr * nc)%nat) by (unfold x1; by rewrite insert_length).
  pose proof (seg_wok _ _ _ Sx) as Wx. rewrite Lx in Wx.
  assert (S1 : seg (wr P x1 s) P x1) by (apply seg_wr; by rewrite L1).
  rewrite (bind_ok _ _ _ tt (wr P x1 s)) by (by rewrite (bind_ok _ _ _ _ _ E0)).
  replace (Z.of_nat nc - 1) with (Z.of_nat (nc - 1)) by lia. replace (Z.of_nat nr - 1) with (Z.of_nat (nr - 1)) by lia.
  set (i1 := fun i => (1 + i * 1)%nat). set (i2 := fun i => (nc + i * nc)%nat).
  set (x2 := upd_of (nc - 1) i1 (fun i a => mul c (at_ a (i1 i))) x1).
  assert (E2 : cblas_dscal (Z.of_nat (nc - 1)) c (padd P 1) 1 (wr P x1 s) = Ok tt (wr P x2 (wr P x1 s))).
  { apply (dscal_str (wr P x1 s) (nc - 1) c P x1 1 1 S1). intros i Hi. rewrite L1. lia. }
  rewrite (bind_ok _ _ _ _ _ E2). assert (L2 : length x2 = (nr * nc)%nat) by (unfold x2; by rewrite upd_of_len).
  rewrite wr_overwrite' by (rewrite ?L1, ?L2; done).
  assert (S2 : seg (wr P x2 s) P x2) by (apply seg_wr; by rewrite L2).
  rewrite (dscal_str (wr P x2 s) (nr - 1) c P x2 nc nc S2).
  2:{ intros i Hi. rewrite L2. assert (nc + i * nc = (i + 1) * nc)%nat by lia. assert ((i + 1) * nc < nr * nc)%nat by nia. lia. }
  fold i2. set (x3 := upd_of _ _ _ x2). assert (L3 : length x3 = (nr * nc)%nat) by (unfold x3; by rewrite upd_of_len).
  rewrite wr_overwrite' by (rewrite ?L2, ?L3; done). do 2 f_equal.
  rewrite <- (tab_at x3), L3. apply tab_ext. intros k Hk.
  assert (At1 : at_ x1 k = if (k =? 0)%nat then g (at_ xs 0) else at_ xs k) by (unfold x1; by rewrite at_insert by lia).
  assert (At2 : at_ x2 k = if (k =? 0)%nat then at_ x1 k else if (k <? nc)%nat then mul c (at_ x1 k) else at_ x1 k).
  { destruct (Nat.eqb_spec k 0) as [->|]; [apply upd_at_out; intros i Hi; unfold i1; lia|].
    destruct (Nat.ltb_spec k nc).
    - pose proof (upd_inj_at (nc - 1) i1 (fun _ v => mul c v) x1 (k - 1) ltac:(lia)) as E. 
      assert (Ei : i1 (k - 1)%nat = k) by (unfold i1; lia). rewrite Ei in E. apply E; [lia|unfold i1; lia].
    - apply upd_at_out. intros i Hi. unfold i1. lia. }
  assert (At3 : at_ x3 k = if (k <? nc)%nat then at_ x2 k else if (k mod nc =? 0)%nat then mul c (at_ x2 k) else at_ x2 k).
  { destruct (Nat.ltb_spec k nc); [apply upd_at_out; intros i Hi; unfold i2; lia|].
    pose proof (Nat.div_mod k nc ltac:(lia)) as Ed. destruct (Nat.eqb_spec (k mod nc) 0) as [E0'|E0'].
    - assert (Hq : (1 <= k / nc)%nat) by (apply Nat.div_le_lower_bound; lia).
      assert (Hq2 : (k / nc < nr)%nat) by (apply Nat.div_lt_upper_bound; lia).
      pose proof (upd_inj_at (nr - 1) i2 (fun _ v => mul c v) x2 (k / nc - 1) ltac:(lia)) as E.
      assert (Ei : i2 (k / nc - 1)%nat = k). { unfold i2. rewrite E0' in Ed. nia. }
      rewrite Ei in E. apply E; [lia|]. unfold i2. intros a b Ha Hb Eab. nia.
    - apply upd_at_out. intros i Hi E. unfold i2 in E. apply E0'. rewrite <- E. replace (nc + i * nc)%nat with ((i + 1) * nc)%nat by lia. apply Nat.mod_mul. lia. }
  rewrite At3, At2, At1. unfold scale2_of. rewrite ?at_tab by done.
  destruct (Nat.eqb_spec k 0) as [->|]; [by destruct (Nat.ltb_spec 0 nc); [|lia]|].
  destruct (Nat.ltb_spec k nc); cbn [orb]; [done|]. by destruct (Nat.eqb_spec (k mod nc) 0).
Qed.
End scale.

Section dct2.
Context `{N : Num}.
Context (fft1 : fkind -> list T -> list T) (fft2 : fkind -> nat -> nat -> list T -> list T).
Hypothesis fft2_len : forall k nr nc xs, length xs = (nr * nc)%nat -> length (fft2 k nr nc xs) = (nr * nc)%nat.
Implicit Types (s : st) (xs : list T).

(** A live transform: the blocks of the two plans, of the three work arrays and of the index array,
    the image size, the indices, the scale, what planning left in dct2_Ety_sparse *)
Record cfg2 := mkC2 { c2_pm : nat; c2_pe : nat; c2_e : nat; c2_x : nat; c2_y : nat; c2_mb : nat; c2_mo : Z;
                      c2_nr : nat; c2_nc : nat; c2_mask : list nat; c2_root : T; c2_e0 : list T }.
Definition c2_n c := length (c2_mask c).
Definition c2_m c := (c2_nr c * c2_nc c)%nat.
Definition st2 c : dct2_statics :=
  mkD2 _ (Ptr (c2_pm c) 0) (Ptr (c2_pe c) 0) (Ptr (c2_e c) 0) (Ptr (c2_x c) 0) (Ptr (c2_y c) 0)
    (Ptr (c2_mb c) (c2_mo c)) (Z.of_nat (c2_n c)) (Z.of_nat (c2_nr c)) (Z.of_nat (c2_nc c)) (c2_root c).
(** the blocks that belong to it *)
Definition F2 c : list nat := [c2_e c; c2_x c; c2_y c; c2_pm c; c2_pe c; c2_mb c].
Record ok2 c : Prop := {
  ok2_r : (1 <= c2_nr c)%nat; ok2_c : (1 <= c2_nc c)%nat; ok2_int : Z.of_nat (c2_m c) <= INT_MAX;
  ok2_mask : forall k, k ∈ c2_mask c -> (k < c2_m c)%nat;
  ok2_nd : NoDup [c2_e c; c2_x c; c2_y c]; ok2_e0 : length (c2_e0 c) = c2_m c }.
Record J2 c s : Prop := mkJ2 {
  k_gl : g_d2 (gl s) = st2 c;
  k_pm : om s !! c2_pm c = Some (OPlan2 (Z.of_nat (c2_nr c)) (Z.of_nat (c2_nc c)) REDFT10 (Ptr (c2_e c) 0) (Ptr (c2_x c) 0));
  k_pe : om s !! c2_pe c = Some (OPlan2 (Z.of_nat (c2_nr c)) (Z.of_nat (c2_nc c)) REDFT01 (Ptr (c2_x c) 0) (Ptr (c2_y c) 0));
  k_mask : segi s (Ptr (c2_mb c) (c2_mo c)) (c2_mask c);
  k_e : exists e, seg s (Ptr (c2_e c) 0) e /\ length e = c2_m c /\ forall j, j ∉ c2_mask c -> at_ e j = at_ (c2_e0 c) j;
  k_x : wok s (Ptr (c2_x c) 0) (c2_m c); k_y : wok s (Ptr (c2_y c) 0) (c2_m c);
  k_ae : is_aligned s (Ptr (c2_e c) 0) = true; k_ax : is_aligned s (Ptr (c2_x c) 0) = true; k_ay : is_aligned s (Ptr (c2_y c) 0) = true
}.
Lemma J2_same c s s' : J2 c s -> same_on (F2 c) s s' -> J2 c s'.
Proof.
  intros [] (H & Hg & He). unfold F2 in H.
  assert (HC : forall b o i, b ∈ F2 c -> cell s' (Ptr b o) i = cell s (Ptr b o) i).
  { intros b o i Hb. unfold cell. by rewrite (proj1 (H b Hb)). }
  assert (HA : forall b o, b ∈ F2 c -> is_aligned s' (Ptr b o) = is_aligned s (Ptr b o)).
  { intros b o Hb. unfold is_aligned. destruct (H b Hb) as (_ & _ & _ & _ & E). by rewrite E. }
  split.
  - by rewrite Hg.
  - destruct (H (c2_pm c) ltac:(isin)) as (_ & _ & _ & E & _). by rewrite E.
  - destruct (H (c2_pe c) ltac:(isin)) as (_ & _ & _ & E & _). by rewrite E.
  - destruct (H (c2_mb c) ltac:(isin)) as (_ & E & _). by eapply segi_im.
  - destruct k_e0 as (e & H1 & H2). exists e. split; [|done]. intros i v Hi. rewrite HC by (unfold F2; isin). by apply H1.
  - intros i Hi. rewrite HC by (unfold F2; isin). by apply k_x0.
  - intros i Hi. rewrite HC by (unfold F2; isin). by apply k_y0.
  - by rewrite HA by (unfold F2; isin).
  - by rewrite HA by (unfold F2; isin).
  - by rewrite HA by (unfold F2; isin).
Qed.
Lemma J2_touch c W s s' : J2 c s -> touch W s s' -> (forall b, b ∈ W -> b ∉ F2 c) -> J2 c s'.
Proof. intros HJ Ht HW. eapply J2_same; [exact HJ|]. by eapply same_touch. Qed.
(** after writes to the work arrays *)
Lemma J2_work c s s' : J2 c s -> touch [c2_e c; c2_x c; c2_y c] s s' ->
  (exists e, seg s' (Ptr (c2_e c) 0) e /\ length e = c2_m c /\ forall j, j ∉ c2_mask c -> at_ e j = at_ (c2_e0 c) j) -> J2 c s'.
Proof.
  intros [] Ht He. split.
  - by rewrite (t_gl _ _ _ Ht).
  - by rewrite (t_om _ _ _ Ht).
  - by rewrite (t_om _ _ _ Ht).
  - eapply segi_im; [|exact k_mask0]. by rewrite (t_im _ _ _ Ht).
  - done.
  - by eapply touch_wok.
  - by eapply touch_wok.
  - unfold is_aligned. by rewrite (t_al _ _ _ Ht).
  - unfold is_aligned. by rewrite (t_al _ _ _ Ht).
  - unfold is_aligned. by rewrite (t_al _ _ _ Ht).
Qed.
Lemma get2_run s c : J2 c s -> get2 s = Ok (st2 c) s.
Proof. intros HJ. unfold get2, bind, getg, ret. by rewrite (k_gl _ _ HJ). Qed.

Section runs.
Context (c : cfg2) (HC : ok2 c).
Notation m := (c2_m c).
Notation nr := (c2_nr c).
Notation nc := (c2_nc c).
Notation mask := (c2_mask c).
Notation e := (Ptr (c2_e c) 0).
Notation x := (Ptr (c2_x c) 0).
Notation y := (Ptr (c2_y c) 0).
Notation root := (c2_root c).
Notation bef := (before2_of nr nc).
Notation idct := (idct2_of fft2 nr nc).
Lemma dne2 : c2_e c <> c2_x c /\ c2_e c <> c2_y c /\ c2_x c <> c2_y c.
Proof. pose proof (ok2_nd _ HC) as H. distinct H. unfold dn in *. auto. Qed.
Lemma nth_mask2 i : (i < length mask)%nat -> (nth i mask 0 < m)%nat.
Proof. intros Hi. apply (ok2_mask _ HC), elem_of_list_In, nth_In, Hi. Qed.
Lemma out2 X k b l : outside X (F2 c) -> b ∈ F2 c -> disj (Ptr b 0) l X k.
Proof. intros Ho Hb. destruct X as [|bx ox]; [done|]. simpl in *. intros <-. done. Qed.
Lemma out2' X k b l : outside X (F2 c) -> b ∈ F2 c -> disj X k (Ptr b 0) l.
Proof. intros. apply disj_sym. by apply out2. Qed.
Lemma mm_rc s : i32 (Z.of_nat nr * Z.of_nat nc) s = Ok (Z.of_nat m) s.
Proof.
  unfold i32, in_int. rewrite <- Nat2Z.inj_mul. fold m. pose proof (ok2_int _ HC).
  destruct (_ && _) eqn:E; [done|]. apply andb_false_iff in E as [E|E]; apply Z.leb_gt in E; unfold INT_MIN in *; lia.
Qed.
Lemma mm_cr s : i32 (Z.of_nat nc * Z.of_nat nr) s = Ok (Z.of_nat m) s.
Proof. rewrite Z.mul_comm. apply mm_rc. Qed.
Lemma m_pos : (1 <= m)%nat. Proof. pose proof (ok2_r _ HC). pose proof (ok2_c _ HC). unfold c2_m. nia. Qed.
Lemma bef_len xs : length (bef xs) = m. Proof. apply tab_length. Qed.
Lemma idct_len xs : length (idct xs) = m. Proof. apply fft2_len. apply bef_len. Qed.

(** dct2_before *)
Lemma before_run s X xs : J2 c s -> seg s X xs -> length xs = m -> outside X (F2 c) ->
  dct2_before (st2 c) (Z.of_nat m) X s = Ok tt (wr x (bef xs) s).
Proof.
  intros HJ Sx Lx Ox. unfold dct2_before. cbn [st2 d2_x d2_mcol d2_mrow]. pose proof (k_x _ _ HJ) as Wx.
  rewrite (bind_ok _ _ _ tt (wr x xs s)).
  2:{ apply dcopy_loop with (ys := []); [|by apply dst_fresh]. apply src_disj; [done|done|]. apply out2; [done|unfold F2; isin]. }
  assert (S1 : seg (wr x xs s) x xs) by (apply seg_wr; by rewrite Lx).
  rewrite (scale2_run nr nc (sqrt_ two) (fun v => mul v two) (wr x xs s) x xs (ok2_r _ HC) (ok2_c _ HC) S1 Lx).
  rewrite wr_overwrite' by (rewrite ?scale2_len, ?Lx; done). done.
Qed.
Lemma J2_wrx s v : J2 c s -> length v = m -> J2 c (wr x v s).
Proof.
  intros HJ Lv. destruct dne2 as (Nex & Ney & Nxy). eapply J2_work; [exact HJ|apply touch_wr; isin|].
  destruct (k_e _ _ HJ) as (es & Se & He). exists es. split; [|done].
  apply seg_wr_disj; [rewrite Lv; apply (k_x _ _ HJ)|done|]. apply disj_blocks. auto.
Qed.
Lemma J2_wry s v : J2 c s -> length v = m -> J2 c (wr y v s).
Proof.
  intros HJ Lv. destruct dne2 as (Nex & Ney & Nxy). eapply J2_work; [exact HJ|apply touch_wr; isin|].
  destruct (k_e _ _ HJ) as (es & Se & He). exists es. split; [|done].
  apply seg_wr_disj; [rewrite Lv; apply (k_y _ _ HJ)|done|]. apply disj_blocks. auto.
Qed.
Lemma J2_wr s D zs : J2 c s -> outside D (F2 c) -> J2 c (wr D zs s).
Proof.
  intros HJ Od. destruct D as [|bd od]; [done|]. eapply J2_touch; [exact HJ|apply touch_wr; left|].
  intros b Hb. apply elem_of_list_singleton in Hb as ->. exact Od.
Qed.
(** copy, scale and inverse transform into dct2_y *)
Definition sxy s xs := wr y (idct xs) (wr x (bef xs) s).
Lemma inverse_run s X xs (K : M unit) : J2 c s -> seg s X xs -> length xs = m -> outside X (F2 c) ->
  (dct2_before (st2 c) (Z.of_nat m) X ;! fftw_execute_r2r fft1 fft2 (d2_plan_EMx (st2 c)) (d2_x (st2 c)) (d2_y (st2 c)) ;! K) s = K (sxy s xs).
Proof.
  intros HJ Sx Lx Ox. rewrite (bind_ok _ _ _ _ _ (before_run s X xs HJ Sx Lx Ox)).
  destruct dne2 as (Nex & Ney & Nxy). pose proof (bef_len xs) as Lb. pose proof (idct_len xs) as Li. pose proof (J2_wrx s _ HJ Lb) as HJ1.
  cbn [st2 d2_plan_EMx d2_x d2_y]. rewrite (bind_ok _ _ _ tt (sxy s xs)); [done|].
  unfold sxy, idct2_of. eapply exec2_run.
  - apply (k_pe _ _ HJ1).
  - apply seg_wr. rewrite Lb. apply (k_x _ _ HJ).
  - done.
  - apply (k_y _ _ HJ1).
  - apply disj_blocks. auto.
  - apply (k_ax _ _ HJ1).
  - apply (k_ay _ _ HJ1).
  - exact Li.
Qed.
Lemma sxy_J s xs : J2 c s -> J2 c (sxy s xs).
Proof. intros HJ. apply J2_wry; [|apply idct_len]. apply J2_wrx; [done|apply bef_len]. Qed.
Lemma sxy_touch s xs : touch [c2_e c; c2_x c; c2_y c] s (sxy s xs).
Proof. unfold sxy. eapply touch_trans; apply touch_wr; isin. Qed.
Lemma sxy_y s xs : J2 c s -> seg (sxy s xs) y (idct xs).
Proof. intros HJ. apply seg_wr. rewrite idct_len. apply (k_y _ _ (J2_wrx s _ HJ (bef_len xs))). Qed.
Lemma sub_F2 b : b ∈ [c2_e c; c2_x c; c2_y c] -> b ∈ F2 c.
Proof. unfold F2. intros Hb. sub Hb. Qed.
Lemma wr_sxy s xs D zs : touch (F2 c) (wr D zs s) (wr D zs (sxy s xs)).
Proof. apply touch_wr_both. eapply touch_weaken; [apply sxy_touch|]. apply sub_F2. Qed.

(** dct2_EMx *)
Lemma EMx2_run s X xs D : J2 c s -> seg s X xs -> length xs = m -> wok s D (c2_n c) ->
  outside X (F2 c) -> outside D (F2 c) ->
  dct2_EMx fft1 fft2 X D s = Ok tt (wr D (emx2_of fft2 nr nc root mask xs) (sxy s xs)).
Proof.
  intros HJ Sx Lx Wd Ox Od. unfold dct2_EMx. rewrite (bind_ok _ _ _ _ _ (get2_run s c HJ)).
  rewrite (bind_ok _ _ _ _ _ (mm_rc s)). rewrite (inverse_run s X xs _ HJ Sx Lx Ox).
  apply (gather_run (fun v => mul v root) (c2_n c) y (idct xs) D (Ptr (c2_mb c) (c2_mo c)) mask).
  - by apply sxy_y.
  - apply (k_mask _ _ (sxy_J s xs HJ)).
  - done.
  - done.
  - rewrite idct_len. apply (ok2_mask _ HC).
  - eapply touch_wok; [apply sxy_touch|done].
  - apply out2'; [done|unfold F2; isin].
  - done.
Qed.

(** the common end of dct2_MtEty and dct2_MtEt_EMx *)
Lemma back2_run s D es : J2 c s -> seg s e es -> length es = m -> wok s D m -> outside D (F2 c) ->
  dct2_back fft1 fft2 (st2 c) (Z.of_nat m) D s = Ok tt (wr D (back2_of fft2 nr nc root es) (wr x (fft2 REDFT10 nr nc es) s)).
Proof.
  intros HJ Se Le Wd Od. destruct dne2 as (Nex & Ney & Nxy). pose proof m_pos as Hm.
  unfold dct2_back. cbn [d2_plan_MtEty d2_x d2_root st2].
  pose proof (k_x _ _ HJ) as Wx. set (w := fft2 REDFT10 nr nc es).
  assert (Lw : length w = m) by (unfold w; by apply fft2_len).
  assert (E1 : fftw_execute fft1 fft2 (Ptr (c2_pm c) 0) s = Ok tt (wr x w s)).
  { eapply execp2_run; try done.
    - apply (k_pm _ _ HJ).
    - apply disj_blocks. auto.
    - apply (k_ae _ _ HJ).
    - apply (k_ax _ _ HJ). }
  rewrite (bind_ok _ _ _ _ _ E1).
  assert (Sw : seg (wr x w s) x w) by (apply seg_wr; by rewrite Lw).
  destruct (for_elem m D [] [(x, w)] (fun i => mul (at_ w i) root)
     (fun i => let* v := ld x i in sto D i (mul v root)) (wr x w s)) as [E4 _].
  - intros q zs Hq. apply elem_of_list_singleton in Hq as [= -> ->]. split; [done|]. right. split; [done|].
    apply out2'; [done|unfold F2; isin].
  - apply seg_nil.
  - apply wok_wr; [by rewrite Lw|done].
  - intros s0 i Hi Hs. by rewrite (bind_ok _ _ _ _ _ (Hs x w ltac:(left))).
  - rewrite (bind_ok _ _ _ _ _ E4). clear E4. set (v := tab m _). assert (Lv : length v = m) by apply tab_length.
    unfold dct2_after. cbn [st2 d2_mcol d2_mrow].
    assert (Wd' : wok (wr x w s) D m) by (apply wok_wr; [by rewrite Lw|done]).
    assert (Sv : seg (wr D v (wr x w s)) D v) by (apply seg_wr; by rewrite Lv).
    rewrite (scale2_run nr nc (div one (sqrt_ two)) (fun v => mul v (lit 1 2)) _ D v (ok2_r _ HC) (ok2_c _ HC) Sv Lv).
    rewrite wr_overwrite' by (rewrite ?scale2_len, ?Lv; done). done.
Qed.
Lemma back2_len es : length (back2_of fft2 nr nc root es) = m. Proof. apply tab_length. Qed.

(** dct2_MtEty *)
Lemma MtEty2_run s Y ys D : J2 c s -> seg s Y ys -> length ys = c2_n c -> wok s D m ->
  outside Y (F2 c) -> outside D (F2 c) ->
  exists s', dct2_MtEty fft1 fft2 Y D s = Ok tt s' /\
    touch (F2 c) (wr D (mtety2_of fft2 nr nc root mask (c2_e0 c) ys) s) s' /\ J2 c s'.
Proof.
  intros HJ Sy Ly Wd Oy Od. unfold dct2_MtEty. destruct dne2 as (Nex & Ney & Nxy).
  rewrite (bind_ok _ _ _ _ _ (get2_run s c HJ)). cbn [d2_n d2_Ety_sparse d2_mask d2_mrow d2_mcol st2].
  change (mkD2 _ _ _ _ _ _ _ _ _ _ _) with (st2 c).
  destruct (k_e _ _ HJ) as (es & Se & Le & He).
  set (es' := scatter mask (at_ ys) es).
  assert (Les : length es' = m) by (unfold es'; by rewrite scatter_len).
  rewrite (bind_ok _ _ _ tt (wr e es' s)).
  2:{ apply (scatter_run (at_ ys) (c2_n c) e es (Ptr (c2_mb c) (c2_mo c))); try done.
      - apply (k_mask _ _ HJ).
      - rewrite Le. apply (ok2_mask _ HC).
      - intros i a Hi La.
        assert (Hm' : segi (wr e a s) (Ptr (c2_mb c) (c2_mo c)) mask).
        { eapply segi_im; [|apply (k_mask _ _ HJ)]. by rewrite im_wr. }
        rewrite !(bind_ok _ _ _ _ _ (segi_ld _ _ mask i Hm' Hi)).
        assert (Sy' : seg (wr e a s) Y ys).
        { apply seg_wr_disj; [rewrite La, Le, <- Le; by apply seg_wok|done|]. apply out2; [done|unfold F2; isin]. }
        rewrite (bind_ok _ _ _ _ _ (seg_ld _ Y ys i Sy' ltac:(by rewrite Ly))). done. }
  assert (We : wok s e m) by (rewrite <- Le; by apply seg_wok).
  assert (Ht : touch [c2_e c; c2_x c; c2_y c] s (wr e es' s)) by (apply touch_wr; isin).
  assert (Se' : seg (wr e es' s) e es') by (apply seg_wr; by rewrite Les).
  assert (He' : forall j, j ∉ mask -> at_ es' j = at_ (c2_e0 c) j).
  { intros j Hj. unfold es'. rewrite scatter_out by done. auto. }
  assert (HJ1 : J2 c (wr e es' s)) by (eapply J2_work; [exact HJ|exact Ht|eauto]).
  rewrite (bind_ok _ _ _ _ _ (mm_rc _)).
  rewrite (back2_run _ D es' HJ1 Se' Les); [|apply wok_wr; [by rewrite Les|done]|done].
  eexists. split; [reflexivity|]. split.
  - replace (mtety2_of fft2 nr nc root mask (c2_e0 c) ys) with (back2_of fft2 nr nc root es').
    + apply touch_wr_both. eapply touch_trans; apply touch_wr; unfold F2; isin.
    + unfold mtety2_of. f_equal. apply scatter_ext; [by rewrite (ok2_e0 _ HC)| |done|done].
      rewrite Le. apply (ok2_mask _ HC).
  - apply J2_wr; [|done]. apply J2_wrx; [done|by apply fft2_len].
Qed.

(** dct2_MtEt_EMx *)
Lemma MtEt_EMx2_run s X xs D : J2 c s -> seg s X xs -> length xs = m -> wok s D m -> disj D m X m ->
  outside X (F2 c) -> outside D (F2 c) ->
  exists s', dct2_MtEt_EMx fft1 fft2 X D s = Ok tt s' /\
    touch (F2 c) (wr D (atax2_of fft2 nr nc root mask (c2_e0 c) xs) s) s' /\ J2 c s'.
Proof.
  intros HJ Sx Lx Wd Hd Ox Od. unfold dct2_MtEt_EMx. destruct dne2 as (Nex & Ney & Nxy).
  rewrite (bind_ok _ _ _ _ _ (get2_run s c HJ)). rewrite (bind_ok _ _ _ _ _ (mm_rc s)).
  rewrite (bind_ok _ _ _ _ _ (restrict_ok _ _ _ _ _ Hd)).
  rewrite (inverse_run s X xs _ HJ Sx Lx Ox). 
  pose proof (idct_len xs) as Li. pose proof (sxy_J s xs HJ) as HJ1. pose proof (sxy_y s xs HJ) as Sy1.
  set (s1 := sxy s xs) in *.
  destruct (k_e _ _ HJ1) as (es & Se1 & Le & He).
  set (es' := scatter mask (fun i => mul (at_ (idct xs) (nth i mask 0%nat)) root) es).
  assert (Les : length es' = m) by (unfold es'; by rewrite scatter_len).
  cbn [d2_y d2_root d2_n d2_mask d2_Ety_sparse st2].
  rewrite (bind_ok _ _ _ tt (wr e es' s1)).
  2:{ apply (scatter_run _ (c2_n c) e es (Ptr (c2_mb c) (c2_mo c))); try done.
      - apply (k_mask _ _ HJ1).
      - rewrite Le. apply (ok2_mask _ HC).
      - intros i a Hi La.
        assert (Hm' : segi (wr e a s1) (Ptr (c2_mb c) (c2_mo c)) mask).
        { eapply segi_im; [|apply (k_mask _ _ HJ1)]. by rewrite im_wr. }
        rewrite !(bind_ok _ _ _ _ _ (segi_ld _ _ mask i Hm' Hi)).
        assert (Sy' : seg (wr e a s1) y (idct xs)).
        { apply seg_wr_disj; [rewrite La, Le, <- Le; by apply seg_wok|done|]. apply disj_blocks. auto. }
        pose proof (nth_mask2 i Hi).
        assert (Hn : (nth i mask 0 < length (idct xs))%nat) by (by rewrite Li).
        rewrite (bind_ok _ _ _ _ _ (seg_ld _ y (idct xs) _ Sy' Hn)). done. }
  change (mkD2 _ _ _ _ _ _ _ _ _ _ _) with (st2 c).
  assert (We : wok s1 e m) by (rewrite <- Le; by apply seg_wok).
  assert (Ht : touch [c2_e c; c2_x c; c2_y c] s1 (wr e es' s1)) by (apply touch_wr; isin).
  assert (Se' : seg (wr e es' s1) e es') by (apply seg_wr; by rewrite Les).
  assert (He' : forall j, j ∉ mask -> at_ es' j = at_ (c2_e0 c) j).
  { intros j Hj. unfold es'. rewrite scatter_out by done. auto. }
  assert (HJ2 : J2 c (wr e es' s1)) by (eapply J2_work; [exact HJ1|exact Ht|eauto]).
  assert (Wd1 : wok s1 D m) by (eapply touch_wok; [apply sxy_touch|done]).
  rewrite (back2_run _ D es' HJ2 Se' Les); [|apply wok_wr; [by rewrite Les|done]|done].
  eexists. split; [reflexivity|]. split.
  - replace (atax2_of fft2 nr nc root mask (c2_e0 c) xs) with (back2_of fft2 nr nc root es').
    + apply touch_wr_both. eapply touch_trans; [|eapply touch_trans; apply touch_wr; unfold F2; isin].
      eapply touch_weaken; [apply sxy_touch|]. apply sub_F2.
    + unfold atax2_of, mtety2_of. f_equal. apply scatter_ext; [by rewrite (ok2_e0 _ HC)| |done|].
      * rewrite Le. apply (ok2_mask _ HC).
      * intros i Hi. unfold emx2_of. by rewrite at_tab.
  - apply J2_wr; [|done]. apply J2_wrx; [done|by apply fft2_len].
Qed.

(** dct2_Mty *)
Lemma Mty2_run s Y ys D : J2 c s -> seg s Y ys -> length ys = m -> wok s D m -> disj D m Y m ->
  is_aligned s Y = true -> is_aligned s D = true ->
  dct2_Mty fft1 fft2 Y D s = Ok tt (wr D (mty2_of fft2 nr nc root ys) s).
Proof.
  intros HJ Sy Ly Wd Hd Ay Ad. unfold dct2_Mty. 
  rewrite (bind_ok _ _ _ _ _ (get2_run s c HJ)). cbn [d2_plan_MtEty d2_mrow d2_mcol d2_root st2].
  set (w := fft2 REDFT10 nr nc ys). assert (Lw : length w = m) by (unfold w; by apply fft2_len).
  rewrite (bind_ok _ _ _ tt (wr D w s)) by (eapply exec2_run; try done; apply (k_pm _ _ HJ)).
  rewrite (bind_ok _ _ _ _ _ (mm_rc _)).
  assert (Sw : seg (wr D w s) D w) by (apply seg_wr; by rewrite Lw).
  rewrite (bind_ok _ _ _ _ _ (dscal_run _ m root D w Sw Lw)).
  set (v := scal_of m root w). assert (Lv : length v = m) by apply tab_length.
  rewrite wr_overwrite' by (rewrite ?Lv, ?Lw; done).
  assert (Sv : seg (wr D v s) D v) by (apply seg_wr; by rewrite Lv).
  unfold dct2_after. cbn [st2 d2_mcol d2_mrow].
  rewrite (scale2_run nr nc (div one (sqrt_ two)) (fun v => mul v (lit 1 2)) _ D v (ok2_r _ HC) (ok2_c _ HC) Sv Lv).
  rewrite wr_overwrite' by (rewrite ?scale2_len, ?Lv; done). done.
Qed.
(** dct2_Mx *)
Lemma Mx2_run s X xs D : J2 c s -> seg s X xs -> length xs = m -> wok s D m -> 
  is_aligned s D = true -> outside X (F2 c) -> outside D (F2 c) ->
  dct2_Mx fft1 fft2 X D s = Ok tt (wr D (mx2_of fft2 nr nc root xs) (wr x (bef xs) s)).
Proof.
  intros HJ Sx Lx Wd Ad Ox Od. unfold dct2_Mx.
  rewrite (bind_ok _ _ _ _ _ (get2_run s c HJ)). rewrite (bind_ok _ _ _ _ _ (mm_rc s)).
  rewrite (bind_ok _ _ _ _ _ (before_run s X xs HJ Sx Lx Ox)).
  pose proof (bef_len xs) as Lb. pose proof (idct_len xs) as Li. pose proof (J2_wrx s _ HJ Lb) as HJ1.
  cbn [st2 d2_plan_EMx d2_x d2_root].
  assert (Wd1 : wok (wr x (bef xs) s) D m) by (apply wok_wr; [rewrite Lb; apply (k_x _ _ HJ)|done]).
  rewrite (bind_ok _ _ _ tt (wr D (idct xs) (wr x (bef xs) s))).
  2:{ unfold idct2_of. eapply exec2_run.
      - apply (k_pe _ _ HJ1).
      - apply seg_wr. rewrite Lb. apply (k_x _ _ HJ).
      - done.
      - done.
      - apply out2'; [done|unfold F2; isin].
      - apply (k_ax _ _ HJ1).
      - by rewrite is_aligned_wr.
      - exact Li. }
  assert (Sw : seg (wr D (idct xs) (wr x (bef xs) s)) D (idct xs)) by (apply seg_wr; by rewrite Li).
  rewrite (dscal_run _ m root D _ Sw Li). rewrite wr_overwrite' by (rewrite ?scal_of_len, ?Li; done). done.
Qed.
(** Identity *)
Lemma Identity2_run s X xs D : J2 c s -> seg s X xs -> length xs = m -> wok s D m -> disj D m X m ->
  dct2_Identity X D s = Ok tt (wr D xs s).
Proof.
  intros HJ Sx Lx Wd Hd. unfold dct2_Identity. rewrite (bind_ok _ _ _ _ _ (get2_run s c HJ)).
  cbn [d2_mrow d2_mcol st2]. rewrite (bind_ok _ _ _ _ _ (mm_cr s)).
  apply dcopy_loop with (ys := []); [by apply src_disj|by apply dst_fresh].
Qed.
Lemma Ex2_run s X xs D : J2 c s -> seg s X xs -> length xs = m -> wok s D (c2_n c) -> disj D (c2_n c) X m ->
  dct2_Ex X D s = Ok tt (wr D (ex2_of mask xs) s).
Proof.
  intros HJ Sx Lx Wd Hd. unfold dct2_Ex. rewrite (bind_ok _ _ _ _ _ (get2_run s c HJ)).
  apply (gather_run (fun v => v) (c2_n c) X xs D (Ptr (c2_mb c) (c2_mo c)) mask); try done.
  - apply (k_mask _ _ HJ).
  - rewrite Lx. apply (ok2_mask _ HC).
  - by rewrite Lx.
Qed.
Lemma Ety2_run s Y ys D ds : J2 c s -> seg s Y ys -> length ys = c2_n c -> seg s D ds -> length ds = m -> disj D m Y (c2_n c) ->
  dct2_Ety Y D s = Ok tt (wr D (ety2_of nr nc mask ds ys) s).
Proof.
  intros HJ Sy Ly Sd Ld Hd. unfold dct2_Ety. rewrite (bind_ok _ _ _ _ _ (get2_run s c HJ)).
  cbn [d2_mrow d2_mcol d2_n d2_mask st2]. rewrite (bind_ok _ _ _ _ _ (mm_cr s)).
  rewrite (bind_ok _ _ _ _ _ (dscal_run s m zero D ds Sd Ld)).
  set (z := scal_of m zero ds). assert (Lz : length z = m) by apply tab_length.
  pose proof (seg_wok _ _ _ Sd) as Wd. rewrite Ld in Wd.
  assert (Sz : seg (wr D z s) D z) by (apply seg_wr; by rewrite Lz).
  rewrite (scatter_run (at_ ys) (c2_n c) D z (Ptr (c2_mb c) (c2_mo c)) mask); try done.
  - rewrite wr_overwrite' by (rewrite ?scatter_len, Lz; done). done.
  - eapply segi_im; [|apply (k_mask _ _ HJ)]. by rewrite im_wr.
  - rewrite Lz. apply (ok2_mask _ HC).
  - intros i a Hi La. rewrite Lz in La.
    rewrite wr_overwrite' by (rewrite ?La, Lz; done).
    assert (Hm' : segi (wr D a s) (Ptr (c2_mb c) (c2_mo c)) mask).
    { eapply segi_im; [|apply (k_mask _ _ HJ)]. by rewrite im_wr. }
    rewrite !(bind_ok _ _ _ _ _ (segi_ld _ _ mask i Hm' Hi)).
    assert (Sy' : seg (wr D a s) Y ys).
    { apply seg_wr_disj; [by rewrite La|done|]. by rewrite La, Ly. }
    rewrite (bind_ok _ _ _ _ _ (seg_ld _ Y ys i Sy' ltac:(by rewrite Ly))). done.
Qed.

(** ** as operators *)
Lemma J2_oper op k l A : (forall s X xs D, J2 c s -> seg s X xs -> length xs = k -> wok s D l -> disj D l X k ->
    is_aligned s X = true -> is_aligned s D = true -> outside X (F2 c) -> outside D (F2 c) ->
    exists s', op X D s = Ok tt s' /\ touch (F2 c) (wr D (A xs) s) s' /\ J2 c s') ->
  (forall xs, length xs = k -> length (A xs) = l) -> oper (F2 c) (J2 c) op k l A.
Proof. intros H1 H2. split; [done| |done]. intros W s s'. apply J2_touch. Qed.
Lemma EMx2_oper : oper (F2 c) (J2 c) (dct2_EMx fft1 fft2) m (c2_n c) (emx2_of fft2 nr nc root mask).
Proof.
  apply J2_oper; [|intros xs _; apply tab_length]. intros s X xs D HJ Sx Lx Wd Hd Ax Ad Ox Od.
  eexists. split; [by apply EMx2_run|]. split; [apply wr_sxy|]. apply J2_wr; [by apply sxy_J|done].
Qed.
Lemma MtEty2_oper : oper (F2 c) (J2 c) (dct2_MtEty fft1 fft2) (c2_n c) m (mtety2_of fft2 nr nc root mask (c2_e0 c)).
Proof. apply J2_oper; [|intros xs _; apply tab_length]. intros. by apply MtEty2_run. Qed.
Lemma MtEt_EMx2_oper : oper (F2 c) (J2 c) (dct2_MtEt_EMx fft1 fft2) m m (atax2_of fft2 nr nc root mask (c2_e0 c)).
Proof. apply J2_oper; [|intros xs _; apply tab_length]. intros. by apply MtEt_EMx2_run. Qed.
Lemma Mty2_oper : oper (F2 c) (J2 c) (dct2_Mty fft1 fft2) m m (mty2_of fft2 nr nc root).
Proof.
  apply J2_oper; [|intros xs _; apply tab_length]. intros s X xs D HJ Sx Lx Wd Hd Ax Ad Ox Od.
  eexists. split; [by apply Mty2_run|]. split; [apply touch_refl|by apply J2_wr].
Qed.
Lemma Mx2_oper : oper (F2 c) (J2 c) (dct2_Mx fft1 fft2) m m (mx2_of fft2 nr nc root).
Proof.
  apply J2_oper; [|intros xs _; apply tab_length]. intros s X xs D HJ Sx Lx Wd Hd Ax Ad Ox Od.
  eexists. split; [by apply Mx2_run|]. split.
  - apply touch_wr_both, touch_wr. unfold F2; isin.
  - apply J2_wr; [|done]. apply J2_wrx; [done|apply bef_len].
Qed.
Lemma Identity2_oper : oper (F2 c) (J2 c) dct2_Identity m m (fun xs => xs).
Proof.
  apply J2_oper; [|done]. intros s X xs D HJ Sx Lx Wd Hd Ax Ad Ox Od.
  eexists. split; [by apply Identity2_run|]. split; [apply touch_refl|by apply J2_wr].
Qed.
Lemma Ex2_oper : oper (F2 c) (J2 c) dct2_Ex m (c2_n c) (ex2_of mask).
Proof.
  apply J2_oper; [|intros xs _; apply tab_length]. intros s X xs D HJ Sx Lx Wd Hd Ax Ad Ox Od.
  eexists. split; [by apply Ex2_run|]. split; [apply touch_refl|by apply J2_wr].
Qed.
End runs.
End dct2.
