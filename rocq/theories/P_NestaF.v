(** * The queue of the last ten function values (nesta.c:45-92). *)
From Coq Require Import ZArith Lia Reals Lra Psatz.
From stdpp Require Import base list.
From Verif Require Import Globals Mem M_Math M_Nesta P_Mem P_Loop P_Math P_MathR P_TVR L_Sum S_Vec L_Lin L_ER P_CGR S_Newt P_NewtX P_NewtX2 P_NewtR L_Barrier P_Touch S_Nesta L_Nesta P_Nesta P_Memory P_Own P_Own2 P_Own3.
Local Open Scope R_scope.

Section pushes.
Context `{N : Num}.
(** push the values of a list, first one first *)
Fixpoint push_all (f : Fifo) (vs : list T) : M Fifo :=
  match vs with [] => ret f | v :: vs => let* f := push_fifo f v in push_all f vs end.
Definition f_pushes (f : fifo) (vs : list T) : fifo := fold_left f_push vs f.
Lemma push_all_run vs : forall s fv f c, at_fifo s fv f c ->
  exists c' s', push_all c vs s = Ok c' s' /\ touch [fv] s s' /\ at_fifo s' fv (f_pushes f vs) c'.
Proof.
  induction vs as [|v vs IH]; intros s fv f c H.
  - exists c, s. split; [done|]. split; [apply touch_refl|done].
  - destruct (push_run s fv f c v H) as (c1 & s1 & E & Es & H1). cbn [push_all]. rewrite (bind_ok _ _ _ _ _ E).
    destruct (IH s1 fv _ _ H1) as (c2 & s2 & E2 & T2 & H2). exists c2, s2. split; [done|]. split; [|done].
    apply (touch_trans _ s s1); [rewrite Es; apply touch_wr; left|done].
Qed.
Lemma new_fifo_at s : unborn s -> alloc_ok (en s) (nx s) = true -> exists s' c, new_fifo s = Ok c s' /\ at_fifo s' (nx s) f_reset c.
Proof.
  intros Hu Ha. unfold new_fifo. destruct (malloc_own s 10 Hu) as (q & s1 & E & _ & _ & _ & _ & _ & _ & C).
  change (Z.of_nat 10) with NMEAN in E. rewrite (bind_ok _ _ _ _ _ E). destruct C as [(-> & _ & Hw & _)|(-> & Ha')]; [|congruence].
  change NMEAN with (Z.of_nat 10). rewrite (bind_ok _ _ _ _ _ (proj1 (init_vec_loop s1 10 (Ptr (nx s) 0) zero Hw))).
  eexists _, _. split; [done|]. split; [|split; [apply f_reset_ok|done]]. apply seg_wr. exact Hw.
Qed.
Lemma pushes_inv vs : let f := f_pushes f_reset vs in let n := length vs in
  f_i f = (n mod 10)%nat /\ f_n f = Z.of_nat (Nat.min 10 n) /\ length (f_v f) = 10%nat /\
  (forall i, (i < n)%nat -> (n <= i + 10)%nat -> at_ (f_v f) (i mod 10) = at_ vs i) /\
  (forall j, (n <= j)%nat -> (j < 10)%nat -> at_ (f_v f) j = zero).
Proof.
  induction vs as [|v vs IH] using rev_ind; cbn zeta.
  - split; [done|]. split; [done|]. split; [done|]. split; [simpl; lia|]. intros j _ Hj. cbn [f_pushes fold_left f_reset f_v]. exact (at_tab 10 (fun _ => zero) j Hj).
  - unfold f_pushes in *. rewrite fold_left_app. cbn [fold_left]. set (f := fold_left f_push vs f_reset) in *. cbn zeta in IH.
    destruct IH as (Ei & En & El & Ha & Hb). rewrite app_length. cbn [length]. set (n := length vs) in *.
    cbn [f_push f_i f_n f_v].
    assert (Hm : (n mod 10 < 10)%nat) by (apply Nat.mod_upper_bound; lia).
    pose proof (Nat.div_mod_eq n 10) as Dn. pose proof (Nat.div_mod_eq (n + 1) 10) as Dn1. pose proof (Nat.mod_upper_bound (n + 1) 10 ltac:(lia)) as Hm1.
    split. { rewrite Ei. destruct (Nat.ltb_spec 9 (n mod 10 + 1)); lia. }
    split. { rewrite En. destruct (Z.ltb_spec (Z.of_nat (Nat.min 10 n)) 10); lia. }
    split; [by rewrite insert_length|]. split.
    + intros i Hi1 Hi2. rewrite Ei. pose proof (Nat.div_mod_eq i 10) as Di. pose proof (Nat.mod_upper_bound i 10 ltac:(lia)) as Hmi.
      unfold at_. rewrite !nth_lookup. destruct (decide (i = n)) as [->|Hne].
      * rewrite list_lookup_insert by lia. rewrite lookup_app_r by (unfold n; lia). unfold n. by rewrite Nat.sub_diag.
      * rewrite list_lookup_insert_ne by lia. rewrite lookup_app_l by (unfold n in *; lia).
        rewrite <- !nth_lookup. apply Ha; lia.
    + intros j Hj1 Hj2. rewrite Ei. unfold at_. rewrite nth_lookup, list_lookup_insert_ne; [rewrite <- nth_lookup; apply Hb; lia|].
      rewrite Nat.mod_small; lia.
Qed.
End pushes.

Lemma at_RN' (v : list R) i : @at_ RN v i = nth i v 0. Proof. apply at_RN. Qed.
Lemma mean_pushes (vs : list R) : vs <> [] -> @f_mean ER (@f_pushes ER (@f_reset ER) (fin vs)) = Fin (mean_last 10 vs).
Proof.
  intros Hne. destruct (@pushes_inv ER (fin vs)) as (Ei & En & El & Ha & Hb). rewrite fin_length in *. set (f := @f_pushes ER (@f_reset ER) (fin vs)) in *.
  set (n := length vs) in *. assert (Hn : (1 <= n)%nat) by (destruct vs; [done|simpl in n; lia]).
  (* the values, as numbers *)
  set (k := Nat.min 10 n). set (w := last_n 10 vs).
  assert (Lw : length w = k) by (unfold w, last_n; rewrite skipn_length; fold n; unfold k; lia).
  assert (Hw : forall t, (t < k)%nat -> nth t w 0 = nth (n - k + t) vs 0).
  { intros t Ht. unfold w, last_n. rewrite !nth_lookup. change skipn with (@drop R). rewrite lookup_drop. fold n. unfold k in *. do 2 f_equal. lia. }
  assert (Hc : forall t, (t < k)%nat -> @at_ ER (f_v f) ((n - k + t) mod 10) = Fin (nth t w 0)).
  { intros t Ht. rewrite Ha by (unfold k in *; lia). rewrite at_fin, at_RN'. by rewrite Hw. }
  assert (HS : foldi 10 (fun i a => er_add a (@at_ ER (f_v f) i)) (Fin 0) = Fin (Rsum k (fun t => nth t w 0))).
  { destruct (Nat.le_gt_cases n 10) as [Hs|Hs].
    - assert (Ek : k = n) by (unfold k; lia). rewrite Ek in *.
      rewrite (foldi_add_fin 10 _ (fun j => if (j <? n)%nat then nth j w 0 else 0)).
      + f_equal. rewrite Rplus_0_l. replace 10%nat with (n + (10 - n))%nat at 1 by lia. rewrite Rsum_split.
        rewrite (Rsum_ext n _ (fun t => nth t w 0)) by (intros j Hj; destruct (Nat.ltb_spec j n); [done|lia]).
        rewrite (Rsum_0 (10 - n)) by (intros j Hj; destruct (Nat.ltb_spec (n + j) n); [lia|done]). lra.
      + intros j Hj. destruct (Nat.ltb_spec j n).
        * rewrite <- (Hc j) by lia. f_equal. rewrite Nat.sub_diag, Nat.add_0_l, Nat.mod_small; lia.
        * rewrite Hb by lia. apply zero_E.
    - assert (Ek : k = 10%nat) by (unfold k; lia). rewrite Ek in *.
      pose proof (Nat.mod_upper_bound (n - 10) 10 ltac:(lia)) as Hr. set (r := ((n - 10) mod 10)%nat) in *.
      assert (Hc' : forall t, (t < 10)%nat -> @at_ ER (f_v f) ((r + t) mod 10) = Fin (nth t w 0)).
      { intros t Ht. rewrite <- Hc by lia. f_equal. unfold r. by rewrite Nat.add_mod_idemp_l by lia. }
      clearbody r. clear Hc Ha Hb.
      assert (Hc2 : forall j, (j < 10)%nat -> @at_ ER (f_v f) j = Fin (nth ((j + (10 - r)) mod 10) w 0)).
      { intros j Hj. rewrite <- Hc' by (apply Nat.mod_upper_bound; lia). f_equal. rewrite Nat.add_mod_idemp_r by lia.
        replace (r + (j + (10 - r)))%nat with (j + 1 * 10)%nat by lia. rewrite Nat.mod_add by lia. by rewrite Nat.mod_small. }
      rewrite (foldi_add_fin 10 _ _ 0 Hc2). f_equal. clear - Hr. 
      do 10 (destruct r as [|r]; [cbn [Rsum Nat.add Nat.sub Nat.modulo Nat.divmod snd]; lra|]). lia. }
  change (er_div (foldi 10 (fun i a => er_add a (@at_ ER (f_v f) i)) (@zero ER)) (@ofZ ER (f_n f)) = Fin (mean_last 10 vs)).
  rewrite zero_E, HS, En, ofZ_ER. fold k.
  assert (Hk : IZR (Z.of_nat k) <> 0) by (apply not_0_IZR; unfold k; lia).
  rewrite (div_fin _ _ Hk). f_equal. unfold mean_last. fold w. by rewrite Lw, INR_IZR_INZ.
Qed.
Lemma mean_empty : @f_mean ER (@f_reset ER) = NaN.
Proof.
  change (er_div (foldi 10 (fun i a => er_add a (@at_ ER (@const_of ER 10 (@zero ER)) i)) (@zero ER)) (@ofZ ER 0) = NaN).
  rewrite zero_E.
  rewrite (foldi_add_fin 10 _ (fun _ => 0)).
  - rewrite Rsum_0 by done. rewrite ofZ_ER. cbn [er_div]. replace (0 + 0) with 0 by lra.
    destruct (Req_EM_T 0 0); [|lra]. destruct (Rlt_dec 0 0); [lra|done].
  - intros i Hi. unfold const_of. rewrite (@at_tab ER) by done. done.
Qed.
