(** * Running the split Bregman code: Hessian, diagonal, Jacobi sweep, right side, one iteration. *)
From Coq Require Import ZArith Lia.
From stdpp Require Import base numbers gmap list.
From Verif Require Import P_Loop P_TV P_Math P_Step P_Own P_CG M_Bregman P_Bregman.
Local Open Scope Z_scope.

Lemma mxpy_of_len `{Num} n xs ys : length (mxpy_of n xs ys) = n. Proof. apply tab_length. Qed.
Lemma shrink_of_len `{Num} n g xs : length (shrink_of n g xs) = n. Proof. apply tab_length. Qed.
Lemma Dx_of_len `{Num} n m a xs : length (Dx_of n m a xs) = (n * m)%nat. Proof. apply tab_length. Qed.
Lemma Dy_of_len `{Num} n m a xs : length (Dy_of n m a xs) = (n * m)%nat. Proof. apply tab_length. Qed.
Lemma DxT_of_len `{Num} n m a xs : length (DxT_of n m a xs) = (n * m)%nat. Proof. apply tab_length. Qed.
Lemma DyT_of_len `{Num} n m a xs : length (DyT_of n m a xs) = (n * m)%nat. Proof. apply tab_length. Qed.
Lemma DxTDx_of_len `{Num} n m a xs : length (DxTDx_of n m a xs) = (n * m)%nat. Proof. apply tab_length. Qed.
Lemma DyTDy_of_len `{Num} n m a xs : length (DyTDy_of n m a xs) = (n * m)%nat. Proof. apply tab_length. Qed.
Global Hint Rewrite @mxpy_of_len @shrink_of_len @Dx_of_len @Dy_of_len @DxT_of_len @DyT_of_len @DxTDx_of_len @DyTDy_of_len : len.

Section breg.
Context `{N : Num}.
Implicit Types (s : st) (xs us rs : list T).

(** *** the Hessian *)
Definition hess_of (n m : nat) (mu lambda : T) xs : list T :=
  tab (n * m) (fun i => add (add (mul mu (at_ xs i)) (mul lambda (at_ (DyTDy_of n m one xs) i)))
                            (mul lambda (at_ (DxTDx_of n m one xs) i))).
Lemma hess_of_len n m mu lambda xs : length (hess_of n m mu lambda xs) = (n * m)%nat. Proof. apply tab_length. Qed.
Lemma hess_eval_run s (n m : nat) (bx by_ b1 b2 : nat) xs mu lambda :
  (2 <= n)%nat -> (2 <= m)%nat -> Z.of_nat (n * m) <= INT_MAX -> NoDup [bx; by_; b1; b2] ->
  seg s (Ptr bx 0) xs -> length xs = (n * m)%nat ->
  wok s (Ptr by_ 0) (n * m) -> wok s (Ptr b1 0) (n * m) -> wok s (Ptr b2 0) (n * m) ->
  exists s', breg_hess_eval (Z.of_nat n) (Z.of_nat m) (Ptr bx 0) (Ptr by_ 0) mu lambda (Ptr b1 0) (Ptr b2 0) s = Ok tt s' /\
    seg s' (Ptr by_ 0) (hess_of n m mu lambda xs) /\ touch [by_; b1; b2] s s'.
Proof.
  intros Hn Hm Hmax Hd Hx Lx Wy W1 W2. distinct Hd. clear Hd.
  assert (TT : touch [by_; b1; b2] s s) by apply touch_refl. unfold breg_hess_eval.
  pose proof (DyTDy_run s (Ptr bx 0) xs (Ptr b1 0) n m one ltac:(split; [exact Lx|]; split; [exact Hmax|]; split; [dis|]; split; assumption)) as E.
  wstep E H1 t1.
  pose proof (DxTDx_run t1 (Ptr bx 0) xs (Ptr b2 0) n m one ltac:(split; [exact Lx|]; split; [exact Hmax|]; split; [dis|]; split; assumption) Hm) as E.
  wstep E H2 t2.
  rewrite (bind_ok _ _ _ _ _ (i32_ok (Z.of_nat n * Z.of_nat m) t2 ltac:(unfold INT_MIN; lia))). rewrite <- Nat2Z.inj_mul.
  destruct (for_elem (n * m) (Ptr by_ 0) [] [(Ptr bx 0, xs); (Ptr b1 0, DyTDy_of n m one xs); (Ptr b2 0, DxTDx_of n m one xs)]
    (fun i => add (add (mul mu (at_ xs i)) (mul lambda (at_ (DyTDy_of n m one xs) i))) (mul lambda (at_ (DxTDx_of n m one xs) i)))
    (fun i => let* v := ld (Ptr bx 0) i in let* a := ld (Ptr b1 0) i in let* b := ld (Ptr b2 0) i in
      sto (Ptr by_ 0) i (add (add (mul mu v) (mul lambda a)) (mul lambda b))) t2) as [E _].
  - intros q ys Hq. apply elem_of_cons in Hq as [[= -> ->]|Hq]; [split; [done|right; split; [done|dis]]|].
    apply elem_of_cons in Hq as [[= -> ->]|Hq]; [split; [len|right; split; [done|dis]]|].
    apply elem_of_cons in Hq as [[= -> ->]|Hq]; [split; [len|right; split; [done|dis]]|]. by apply elem_of_nil in Hq.
  - apply seg_nil.
  - done.
  - intros s0 i Hi Hs. rewrite (bind_ok _ _ _ _ _ (Hs _ _ ltac:(left))).
    rewrite (bind_ok _ _ _ _ _ (Hs _ _ ltac:(right; left))). by rewrite (bind_ok _ _ _ _ _ (Hs _ _ ltac:(right; right; left))).
  - eexists. split; [exact E|]. split; [apply seg_wr; rewrite hess_of_len; assumption|].
    eapply touch_trans; [exact TT|]. apply touch_wr. isin.
Qed.

(** *** the stored inverse diagonal *)
Definition deg (n m k : nat) : nat := length (nbrs n m k).
Lemma deg_ij (n m i j : nat) : (i < n)%nat -> (j < m)%nat ->
  deg n m (i * m + j) = ((if (j + 1 <? m)%nat then 1 else 0) + (if (0 <? j)%nat then 1 else 0) +
                         (if (i + 1 <? n)%nat then 1 else 0) + (if (0 <? i)%nat then 1 else 0))%nat.
Proof. intros Hi Hj. unfold deg. rewrite nbrs_ij by done. repeat destruct (_ <? _)%nat; done. Qed.
Definition hdiag_of (n m : nat) (mu lambda : T) : list T := tab (n * m) (fun k => recip mu lambda (Z.of_nat (deg n m k))).
Ltac dg := rewrite deg_ij by lia;
    repeat match goal with
    | |- context [(?a <? ?b)%nat] => first [rewrite (proj2 (Nat.ltb_lt a b)) by lia | rewrite (proj2 (Nat.ltb_ge a b)) by lia]
    end; done.
Lemma hess_inv_diag_run s (n m : nat) D mu lambda :
  (2 <= n)%nat -> (2 <= m)%nat -> Z.of_nat (n * m) <= INT_MAX -> wok s D (n * m) ->
  hess_inv_diag (Z.of_nat n) (Z.of_nat m) mu lambda D s = Ok tt (wr D (hdiag_of n m mu lambda) s).
Proof.
  intros Hn Hm Hmax Hw.
  set (f := fun k => recip mu lambda (Z.of_nat (deg n m k))).
  set (I := fun k => wr D (tab k f) s).
  assert (Hstep : forall k z v, (k < n * m)%nat -> z = Z.of_nat k -> v = f k -> sto D z v (I k) = Ok tt (I (S k))).
  { intros k z v Hk -> ->. unfold I. rewrite (wok_sto _ _ (n * m)); [|apply wok_wr; [rewrite tab_length; eapply wok_le; [exact Hw|lia]|done]|done].
    f_equal. rewrite tab_S, <- wr_app'; rewrite ?tab_length; [done|]. rewrite app_length, tab_length. simpl.
    eapply wok_le; [exact Hw|lia]. }
  assert (Hf : forall i j c, (i < n)%nat -> (j < m)%nat -> deg n m (i * m + j) = c -> recip mu lambda (Z.of_nat c) = f (i * m + j)%nat)
    by (intros i j c Hi Hj <-; done).
  assert (Hij : forall i j, (i < n)%nat -> (j < m)%nat -> (i * m + j < n * m)%nat) by (intros; nia).
  assert (Hi32 : forall i j t, (i < n)%nat -> (j < m)%nat -> i32 (Z.of_nat i * Z.of_nat m + Z.of_nat j) t = Ok (Z.of_nat (i * m + j)) t).
  { intros i j t Hi Hj. pose proof (Hij i j Hi Hj). rewrite i32_ok; [f_equal; lia|unfold INT_MIN; lia]. }
  assert (E0 : I 0%nat = s) by apply wr_nil.
  rewrite <- E0 at 1. unfold hess_inv_diag. cbv zeta.
  rewrite (bind_ok _ _ _ tt (I (0 * m + 1)%nat)).
  2:{ apply Hstep; [nia|done|]. apply (Hf 0%nat 0%nat 2%nat); [lia|lia|dg]. }
  rewrite (bind_ok _ _ _ tt (I (0 * m + (m - 1))%nat)).
  2:{ pose (I' := fun j : nat => I (0 * m + 1 + j)%nat).
      assert (E : for_ 1 (Z.of_nat m - 1) (fun j => let* o := i32 (0 * Z.of_nat m + j) in sto D o (recip mu lambda 3)) (I' 0%nat)
         = Ok tt (I' (Z.to_nat (Z.of_nat m - 1 - 1)))).
      { apply for_inv. intros j Hj. replace (1 + Z.of_nat j) with (Z.of_nat (1 + j)) by lia.
        change (0 * Z.of_nat m) with (Z.of_nat 0 * Z.of_nat m). rewrite (bind_ok _ _ _ _ _ (Hi32 0%nat (1 + j)%nat _ ltac:(lia) ltac:(lia))).
        unfold I'. replace (0 * m + 1 + j)%nat with (0 * m + (1 + j))%nat by lia.
        replace (0 * m + 1 + S j)%nat with (S (0 * m + (1 + j))) by lia.
        apply Hstep; [apply Hij; lia|done|]. apply (Hf 0%nat (1 + j)%nat 3%nat); [lia|lia|dg]. }
      unfold I' in E. rewrite Nat.add_0_r in E. rewrite E. do 2 f_equal. lia. }
  rewrite (bind_ok _ _ _ tt (I (1 * m + 0)%nat)).
  2:{ etransitivity; [apply (Hstep (0 * m + (m - 1))%nat); [apply Hij; lia|lia|apply (Hf 0%nat (m - 1)%nat 2%nat); [lia|lia|dg]]|].
      do 2 f_equal. lia. }
  pose (I2 := fun i : nat => I ((1 + i) * m + 0)%nat).
  match goal with |- context [for_ 1 (Z.of_nat n - 1) ?b] => set (body := b) end.
  assert (EM : for_ 1 (Z.of_nat n - 1) body (I2 0%nat) = Ok tt (I2 (Z.to_nat (Z.of_nat n - 1 - 1)))).
  { apply for_inv. intros i0 Hi0. unfold I2. replace (1 + Z.of_nat i0) with (Z.of_nat (1 + i0)) by lia.
    set (i := (1 + i0)%nat). assert (1 <= i < n - 1)%nat by lia. unfold body.
    pose proof (Hi32 i 0%nat (I (i * m + 0)%nat) ltac:(lia) ltac:(lia)) as E32. rewrite Z.add_0_r in E32.
    rewrite (bind_ok _ _ _ _ _ E32).
    rewrite (bind_ok _ _ _ tt (I (i * m + 1)%nat)).
    2:{ etransitivity; [apply Hstep; [apply Hij; lia|done|apply (Hf i 0%nat 3%nat); [lia|lia|dg]]|]. do 2 f_equal. lia. }
    rewrite (bind_ok _ _ _ tt (I (i * m + (m - 1))%nat)).
    2:{ pose (I' := fun j : nat => I (i * m + 1 + j)%nat).
      assert (E : for_ 1 (Z.of_nat m - 1) (fun j => let* p := i32 (Z.of_nat i * Z.of_nat m + j) in sto D p (recip mu lambda 4)) (I' 0%nat)
         = Ok tt (I' (Z.to_nat (Z.of_nat m - 1 - 1)))).
      { apply for_inv. intros j Hj. replace (1 + Z.of_nat j) with (Z.of_nat (1 + j)) by lia.
        rewrite (bind_ok _ _ _ _ _ (Hi32 i (1 + j)%nat _ ltac:(lia) ltac:(lia))).
        unfold I'. replace (i * m + 1 + j)%nat with (i * m + (1 + j))%nat by lia.
        replace (i * m + 1 + S j)%nat with (S (i * m + (1 + j))) by lia.
        apply Hstep; [apply Hij; lia|done|]. apply (Hf i (1 + j)%nat 4%nat); [lia|lia|dg]. }
      unfold I' in E. rewrite Nat.add_0_r in E. rewrite E. do 2 f_equal. lia. }
    replace (Z.max 1 (Z.of_nat m - 1)) with (Z.of_nat (m - 1)) by lia.
    rewrite (bind_ok _ _ _ _ _ (Hi32 i (m - 1)%nat _ ltac:(lia) ltac:(lia))).
    etransitivity; [apply Hstep; [apply Hij; lia|done|apply (Hf i (m - 1)%nat 3%nat); [lia|lia|dg]]|]. do 2 f_equal. lia. }
  rewrite (bind_ok _ _ _ _ _ EM). unfold I2. clear EM I2 body.
  replace ((1 + Z.to_nat (Z.of_nat n - 1 - 1)) * m + 0)%nat with ((n - 1) * m + 0)%nat by (f_equal; f_equal; lia).
  replace (Z.of_nat n - 1) with (Z.of_nat (n - 1)) by lia.
  pose proof (Hi32 (n - 1)%nat 0%nat (I ((n - 1) * m + 0)%nat) ltac:(lia) ltac:(lia)) as E32. rewrite Z.add_0_r in E32.
  rewrite (bind_ok _ _ _ _ _ E32).
  rewrite (bind_ok _ _ _ tt (I ((n - 1) * m + 1)%nat)).
  2:{ etransitivity; [apply Hstep; [apply Hij; lia|done|apply (Hf (n - 1)%nat 0%nat 2%nat); [lia|lia|dg]]|]. do 2 f_equal. lia. }
  rewrite (bind_ok _ _ _ (Z.of_nat (n * m)) (I ((n - 1) * m + 1)%nat)).
  2:{ rewrite i32_ok; [f_equal; lia|unfold INT_MIN; lia]. }
  rewrite (bind_ok _ _ _ tt (I ((n - 1) * m + (m - 1))%nat)).
  2:{ pose (I' := fun j : nat => I ((n - 1) * m + 1 + j)%nat).
      match goal with |- for_ ?lo ?hi ?b _ = _ => assert (E : for_ lo hi b (I' 0%nat) = Ok tt (I' (Z.to_nat (hi - lo)))) end.
      { apply for_inv. intros j Hj.
        unfold I'. replace ((n - 1) * m + 1 + j)%nat with ((n - 1) * m + (1 + j))%nat by lia.
        replace ((n - 1) * m + 1 + S j)%nat with (S ((n - 1) * m + (1 + j))) by lia.
        assert (1 + j < m - 1)%nat by nia.
        apply Hstep; [apply Hij; lia|lia|]. apply (Hf (n - 1)%nat (1 + j)%nat 3%nat); [lia|lia|dg]. }
      etransitivity; [etransitivity; [|exact E]; unfold I'; f_equal; f_equal; lia|]. unfold I'. do 2 f_equal. nia. }
  etransitivity; [apply (Hstep ((n - 1) * m + (m - 1))%nat); [apply Hij; lia|nia|apply (Hf (n - 1)%nat (m - 1)%nat 2%nat); [lia|lia|dg]]|].
  f_equal. unfold I, hdiag_of. f_equal. f_equal. nia.
Qed.

(** *** the Jacobi sweep *)
Definition jac1 (n m : nat) (lambda : T) rs us (k : nat) : T :=
  sub (at_ rs k) (mul lambda (sub (opp (if (k <? m)%nat then zero else at_ us (k - m)))
                                  (if (k + m <? n * m)%nat then at_ us (k + m) else zero))).
Definition jac_at (n m : nat) (lambda : T) rs us (k : nat) : T :=
  let d := jac1 n m lambda rs us k in
  if (k mod m =? 0)%nat then add d (mul lambda (at_ us (k + 1)))
  else if (k mod m =? m - 1)%nat then add d (mul (opp lambda) (opp (at_ us (k - 1))))
  else add d (mul (opp lambda) (sub (opp (at_ us (k - 1))) (at_ us (k + 1)))).
Definition jac_of (n m : nat) (lambda : T) us rs ds : list T :=
  xmuly_of (n * m) ds (tab (n * m) (jac_at n m lambda rs us)).
Lemma jac_of_len n m lambda us rs ds : length (jac_of n m lambda us rs ds) = (n * m)%nat. Proof. apply tab_length. Qed.

Lemma tab_insert n f k v : (k < n)%nat -> <[k := v]> (tab n f) = tab n (fun q => if (q =? k)%nat then v else f q).
Proof.
  intros Hk. apply list_eq. intros j. destruct (decide (j < n)%nat) as [Hj|Hj].
  - rewrite (tab_lookup n (fun q => if (q =? k)%nat then v else f q)) by done.
    destruct (Nat.eqb_spec j k) as [->|Hne].
    + apply list_lookup_insert. by rewrite tab_length.
    + rewrite list_lookup_insert_ne by done. by apply tab_lookup.
  - rewrite !lookup_ge_None_2; [done|rewrite tab_length; lia|rewrite insert_length, tab_length; lia].
Qed.
Lemma mod_ij (m i j : nat) : (j < m)%nat -> ((i * m + j) mod m)%nat = j.
Proof. intros Hj. rewrite Nat.add_comm, Nat.mod_add by lia. by apply Nat.mod_small. Qed.

Lemma jacobi_run s (n m : nat) (bu bw br bd : nat) us rs ds lambda :
  (1 <= n)%nat -> (2 <= m)%nat -> Z.of_nat (n * m) <= INT_MAX -> NoDup [bu; bw; br; bd] ->
  is_aligned s (Ptr bu 0) = true -> is_aligned s (Ptr bw 0) = true -> is_aligned s (Ptr bd 0) = true ->
  seg s (Ptr bu 0) us -> length us = (n * m)%nat -> wok s (Ptr bw 0) (n * m) ->
  seg s (Ptr br 0) rs -> length rs = (n * m)%nat -> seg s (Ptr bd 0) ds -> length ds = (n * m)%nat ->
  exists s', breg_anis_jacobi (Z.of_nat n) (Z.of_nat m) (Ptr bu 0) (Ptr bw 0) (Ptr br 0) (Ptr bd 0) lambda s = Ok tt s' /\
    seg s' (Ptr bu 0) (jac_of n m lambda us rs ds) /\ touch [bu; bw] s s'.
Proof.
  intros Hn Hm Hmax Hd Au Aw Ad Hu Lu Hw Hr Lr Hds Lds. distinct Hd. clear Hd.
  unfold breg_anis_jacobi.
  rewrite (bind_ok _ _ _ _ _ (i32_ok (Z.of_nat n * Z.of_nat m) s ltac:(unfold INT_MIN; lia))). rewrite <- Nat2Z.inj_mul.
  set (NN := (n * m)%nat) in *.
  set (Iv := fun k => wr (Ptr bw 0) (tab NN (fun q => if (q <? k)%nat then jac_at n m lambda rs us q else jac1 n m lambda rs us q)) s).
  assert (E1 : for_ 0 (Z.of_nat NN) (jac_body1 (Z.of_nat m) (Z.of_nat NN) (Ptr bu 0) (Ptr bw 0) (Ptr br 0) lambda) s = Ok tt (Iv 0%nat)).
  { rewrite (for_cells0 (fun t => seg t (Ptr bu 0) us /\ seg t (Ptr br 0) rs /\ wok t (Ptr bw 0) NN) (Ptr bw 0) (jac1 n m lambda rs us) NN).
    - done.
    - intros t i v (H1 & H2 & H3) Hi.
      assert (wok t (padd (Ptr bw 0) (Z.of_nat i)) 1) by (eapply wok_padd'; [exact H3|lia|lia]).
      split; [|split].
      + apply seg_wr_disj; [done|done|]. eapply (disj_padd _ NN); [dis|simpl; lia].
      + apply seg_wr_disj; [done|done|]. eapply (disj_padd _ NN); [dis|simpl; lia].
      + by apply wok_wr.
    - intros t (_ & _ & H3). exact H3.
    - intros t i (H1 & H2 & H3) Hi. unfold jac_body1, jac1.
      rewrite (bind_ok _ _ _ (if (i <? m)%nat then zero else at_ us (i - m)) t).
      2:{ destruct (Z.ltb_spec (Z.of_nat i) (Z.of_nat m)), (Nat.ltb_spec i m); try lia; [done|].
          rewrite (ld_seg _ _ us) by (done || lia). do 2 f_equal. lia. }
      rewrite (bind_ok _ _ _ (if (i + m <? n * m)%nat then at_ us (i + m) else zero) t).
      2:{ destruct (Z.ltb_spec (Z.of_nat i) (Z.of_nat NN - Z.of_nat m)), (Nat.ltb_spec (i + m) (n * m)); try (unfold NN in *; lia); [|done].
          rewrite (ld_seg _ _ us) by (done || unfold NN in *; lia). do 2 f_equal. lia. }
      rewrite (bind_ok _ _ _ _ _ (ld_seg t (Ptr br 0) rs (Z.of_nat i) H2 ltac:(lia))). by rewrite Nat2Z.id.
    - done. }
  rewrite (bind_ok _ _ _ _ _ E1). clear E1.
  assert (SW : forall k, seg (Iv k) (Ptr bw 0) (tab NN (fun q => if (q <? k)%nat then jac_at n m lambda rs us q else jac1 n m lambda rs us q))).
  { intros k. apply seg_wr. by rewrite tab_length. }
  assert (SU : forall k, seg (Iv k) (Ptr bu 0) us).
  { intros k. apply seg_wr_disj; [by rewrite tab_length|done|dis]. }
  assert (Hst : forall k z v, (k < NN)%nat -> z = Z.of_nat k -> v = jac_at n m lambda rs us k -> sto (Ptr bw 0) z v (Iv k) = Ok tt (Iv (S k))).
  { intros k z v Hk -> ->. pose proof (SW k) as HS.
    rewrite (sto_wok _ _ NN) by (lia || (pose proof (seg_wok _ _ _ HS) as W; by rewrite tab_length in W)).
    rewrite (wr_insert _ _ _ _ _ HS) by (by rewrite tab_length).
    unfold Iv. rewrite wr_overwrite' by (rewrite tab_length, ?insert_length, ?tab_length; done).
    rewrite tab_insert by done. f_equal. f_equal. apply tab_ext. intros q Hq.
    destruct (Nat.eqb_spec q k) as [->|]; [by rewrite (proj2 (Nat.ltb_lt k (S k))) by lia|].
    destruct (Nat.ltb_spec q k), (Nat.ltb_spec q (S k)); done || lia. }
  assert (Hld : forall k z, (k < NN)%nat -> z = Z.of_nat k -> ld (Ptr bw 0) z (Iv k) = Ok (jac1 n m lambda rs us k) (Iv k)).
  { intros k z Hk ->. rewrite (ld_seg _ _ _ _ (SW k)) by (rewrite tab_length; lia).
    rewrite Nat2Z.id, at_tab by done. by rewrite Nat.ltb_irrefl. }
  assert (Hlu : forall k z t, (k < NN)%nat -> z = Z.of_nat k -> ld (Ptr bu 0) z (Iv t) = Ok (at_ us k) (Iv t)).
  { intros k z t Hk ->. rewrite (ld_seg _ _ _ _ (SU t)) by lia. by rewrite Nat2Z.id. }
  assert (Hij : forall i j, (i < n)%nat -> (j < m)%nat -> (i * m + j < NN)%nat) by (intros; unfold NN; nia).
  assert (E2 : for_ 0 (Z.of_nat n) (jac_body2 (Z.of_nat m) (Ptr bu 0) (Ptr bw 0) lambda) (Iv (0 * m)%nat) = Ok tt (Iv NN)).
  { replace NN with (Z.to_nat (Z.of_nat n - 0) * m)%nat by (unfold NN; f_equal; lia).
    apply (for_inv (fun i => Iv (i * m)%nat)). intros i Hi. assert (Hi' : (i < n)%nat) by lia. clear Hi. rewrite Z.add_0_l.
    pose proof (Hij i (m - 1)%nat Hi' ltac:(lia)) as Hlast.
    unfold jac_body2.
    rewrite (bind_ok _ _ _ (Z.of_nat (i * m)) (Iv (i * m)%nat)) by (rewrite i32_ok; [f_equal; lia|unfold INT_MIN; lia]).
    rewrite (bind_ok _ _ _ tt (Iv (i * m + 1)%nat)).
    2:{ rewrite (bind_ok _ _ _ _ _ (Hld (i * m)%nat (Z.of_nat (i * m)) ltac:(lia) eq_refl)).
        rewrite (bind_ok _ _ _ _ _ (Hlu (i * m + 1)%nat (Z.of_nat (i * m) + 1) _ ltac:(lia) ltac:(lia))).
        etransitivity; [apply Hst; [lia|done|]|do 2 f_equal; lia].
        unfold jac_at. replace ((i * m) mod m)%nat with 0%nat by (rewrite Nat.mod_mul; lia). done. }
    rewrite (bind_ok _ _ _ (Z.of_nat (i * m + m)) (Iv (i * m + 1)%nat)).
    2:{ rewrite i32_ok; [f_equal; lia|]. unfold INT_MIN. assert (i * m + m <= NN)%nat by lia. lia. }
    rewrite (bind_ok _ _ _ tt (Iv (i * m + (m - 1))%nat)).
    2:{ pose (I' := fun j : nat => Iv (i * m + 1 + j)%nat).
      match goal with |- for_ ?lo ?hi ?b _ = _ => assert (E : for_ lo hi b (I' 0%nat) = Ok tt (I' (Z.to_nat (hi - lo)))) end.
      { apply for_inv. intros j Hj. assert (1 + j < m - 1)%nat by lia.
        pose proof (Hij i (1 + j)%nat Hi' ltac:(lia)).
        unfold I'. replace (i * m + 1 + j)%nat with (i * m + (1 + j))%nat by lia.
        replace (i * m + 1 + S j)%nat with (S (i * m + (1 + j))) by lia.
        set (k := (i * m + (1 + j))%nat) in *.
        rewrite (bind_ok _ _ _ _ _ (Hld k (Z.of_nat (i * m) + 1 + Z.of_nat j) ltac:(lia) ltac:(lia))).
        rewrite (bind_ok _ _ _ _ _ (Hlu (k - 1)%nat (Z.of_nat (i * m) + 1 + Z.of_nat j - 1) _ ltac:(lia) ltac:(lia))).
        rewrite (bind_ok _ _ _ _ _ (Hlu (k + 1)%nat (Z.of_nat (i * m) + 1 + Z.of_nat j + 1) _ ltac:(lia) ltac:(lia))).
        apply Hst; [lia|lia|].
        unfold jac_at. replace (k mod m)%nat with (1 + j)%nat by (unfold k; rewrite mod_ij by lia; done).
        rewrite (proj2 (Nat.eqb_neq (1 + j) 0)), (proj2 (Nat.eqb_neq (1 + j) (m - 1))) by lia. done. }
      etransitivity; [etransitivity; [|exact E]; unfold I'; f_equal; f_equal; lia|]. unfold I'. do 2 f_equal. lia. }
    replace (Z.max (Z.of_nat (i * m) + 1) (Z.of_nat (i * m + m) - 1)) with (Z.of_nat (i * m + (m - 1))) by lia.
    set (k := (i * m + (m - 1))%nat) in *.
    rewrite (bind_ok _ _ _ _ _ (Hld k (Z.of_nat k) ltac:(lia) eq_refl)).
    rewrite (bind_ok _ _ _ _ _ (Hlu (k - 1)%nat (Z.of_nat k - 1) _ ltac:(lia) ltac:(lia))).
    etransitivity; [apply Hst; [lia|done|]|do 2 f_equal; lia].
    unfold jac_at. replace (k mod m)%nat with (m - 1)%nat by (unfold k; rewrite mod_ij by lia; done).
    rewrite (proj2 (Nat.eqb_neq (m - 1) 0)) by lia. by rewrite Nat.eqb_refl. }
  replace (0 * m)%nat with 0%nat in E2 by lia. rewrite (bind_ok _ _ _ _ _ E2). clear E2.
  assert (SF : seg (Iv NN) (Ptr bw 0) (tab NN (jac_at n m lambda rs us))).
  { pose proof (SW NN) as H. erewrite tab_ext in H; [exact H|]. intros q Hq. simpl. by rewrite (proj2 (Nat.ltb_lt q NN)). }
  assert (TF : touch [bu; bw] s (Iv NN)) by (unfold Iv; apply touch_wr; isin).
  specialize (SU NN).
  assert (SD : seg (Iv NN) (Ptr bd 0) ds) by (unfold Iv; apply seg_wr_disj; [by rewrite tab_length|done|dis]).
  assert (AL : forall p, is_aligned s p = true -> is_aligned (Iv NN) p = true) by (intros p Hp; unfold Iv; by rewrite is_aligned_wr).
  clearbody Iv. clear SW Hst Hld Hlu.
  eexists. split.
  - apply (dxmuly_z_run (Iv NN) NN (Ptr bd 0) ds (Ptr bw 0) (tab NN (jac_at n m lambda rs us)) (Ptr bu 0));
      [by apply AL|by apply AL|by apply AL|exact SD|exact SF|exact Lds|apply tab_length|dis|dis|eapply wok_le; [exact (seg_wok _ _ _ SU)|lia]].
  - split; [apply seg_wr; rewrite jac_of_len; eapply wok_le; [exact (seg_wok _ _ _ SU)|lia]|].
    eapply touch_trans; [exact TF|]. apply touch_wr. isin.
Qed.

(** *** the right-hand side *)
Definition rhs_of (n m : nat) (fs dxs bxs dys bys : list T) (mu lambda : T) : list T :=
  axpy_of (n * m) one (axpy_of (n * m) mu fs (DyT_of n m lambda (mxpy_of (n * m) bys dys)))
                      (DxT_of n m lambda (mxpy_of (n * m) bxs dxs)).
Lemma rhs_of_len n m fs dxs bxs dys bys mu lambda : length (rhs_of n m fs dxs bxs dys bys mu lambda) = (n * m)%nat.
Proof. apply tab_length. Qed.
Lemma rhs_run s (n m : nat) (bf bdx bbx bdy bby br b1 b2 : nat) fs dxs bxs dys bys mu lambda :
  (1 <= n)%nat -> (2 <= m)%nat -> Z.of_nat (n * m) <= INT_MAX -> NoDup [bf; bdx; bbx; bdy; bby; br; b1; b2] ->
  (forall c, c ∈ [bdx; bbx; bdy; bby; b1] -> is_aligned s (Ptr c 0) = true) ->
  seg s (Ptr bf 0) fs -> length fs = (n * m)%nat -> seg s (Ptr bdx 0) dxs -> length dxs = (n * m)%nat ->
  seg s (Ptr bbx 0) bxs -> length bxs = (n * m)%nat -> seg s (Ptr bdy 0) dys -> length dys = (n * m)%nat ->
  seg s (Ptr bby 0) bys -> length bys = (n * m)%nat ->
  wok s (Ptr br 0) (n * m) -> wok s (Ptr b1 0) (n * m) -> wok s (Ptr b2 0) (n * m) ->
  exists s', breg_anis_rhs (Z.of_nat n) (Z.of_nat m) (Ptr bf 0) (Ptr bdx 0) (Ptr bbx 0) (Ptr bdy 0) (Ptr bby 0) (Ptr br 0)
               mu lambda (Ptr b1 0) (Ptr b2 0) s = Ok tt s' /\
    seg s' (Ptr br 0) (rhs_of n m fs dxs bxs dys bys mu lambda) /\ touch [br; b1; b2] s s'.
Proof.
  intros Hn Hm Hmax Hd HA Hf Lf Hdx Ldx Hbx Lbx Hdy Ldy Hby Lby Wr W1 W2. distinct Hd. clear Hd.
  assert (A1 : is_aligned s (Ptr bdx 0) = true) by (apply HA; isin). assert (A2 : is_aligned s (Ptr bbx 0) = true) by (apply HA; isin).
  assert (A3 : is_aligned s (Ptr bdy 0) = true) by (apply HA; isin). assert (A4 : is_aligned s (Ptr bby 0) = true) by (apply HA; isin).
  assert (A5 : is_aligned s (Ptr b1 0) = true) by (apply HA; isin). clear HA.
  assert (TT : touch [br; b1; b2] s s) by apply touch_refl.
  unfold breg_anis_rhs.
  rewrite (bind_ok _ _ _ _ _ (i32_ok (Z.of_nat n * Z.of_nat m) s ltac:(unfold INT_MIN; lia))). rewrite <- Nat2Z.inj_mul.
  pose proof (mxpy_z_run s (n * m) (Ptr bby 0) bys (Ptr bdy 0) dys (Ptr b1 0) A4 A3 A5 Hby Lby Hdy Ldy W1 ltac:(dis) ltac:(dis)) as E.
  wstep E H1 t1.
  pose proof (DyT_run t1 (Ptr b1 0) (mxpy_of (n * m) bys dys) (Ptr b2 0) n m lambda
     ltac:(split; [len|]; split; [exact Hmax|]; split; [dis|]; split; wokt || assumption)) as E.
  wstep E H2 t2.
  pose proof (mxpy_z_run t2 (n * m) (Ptr bbx 0) bxs (Ptr bdx 0) dxs (Ptr b1 0) A2 A1 A5 Hbx Lbx Hdx Ldx ltac:(wokt) ltac:(dis) ltac:(dis)) as E.
  clear H1. wstep E H1 t3.
  pose proof (DxT_run t3 (Ptr b1 0) (mxpy_of (n * m) bxs dxs) (Ptr br 0) n m lambda
     ltac:(split; [len|]; split; [exact Hmax|]; split; [dis|]; split; wokt || assumption) Hm) as E.
  wstep E H3 t4.
  pose proof (daxpy_run t4 (n * m) mu _ _ _ _ (src_disj t4 (Ptr b2 0) _ _ (Ptr bf 0) _ Lf Hf ltac:(dis)) H2 ltac:(len)) as E.
  wstep E H4 t5.
  assert (L4 : length (axpy_of (n * m) mu fs (DyT_of n m lambda (mxpy_of (n * m) bys dys))) = (n * m)%nat) by len.
  pose proof (daxpy_run t5 (n * m) one _ _ _ _ (src_disj t5 (Ptr br 0) _ (n * m) (Ptr b2 0) _ L4 H4 ltac:(dis)) H3 ltac:(len)) as E.
  eexists. split; [exact E|]. split; [apply seg_wr; rewrite rhs_of_len; assumption|].
  eapply touch_trans; [exact TT|]. apply touch_wr. isin.
Qed.

(** *** one iteration *)
Record bst := mkBst { b_u : list T; b_u1 : list T; b_dx : list T; b_dy : list T; b_bx : list T; b_by : list T }.
Fixpoint sweeps (J : nat) (n m : nat) (mu lambda : T) (rs us : list T) : list T :=
  match J with O => us | S j => gs_of n m mu lambda (sweeps j n m mu lambda rs us) rs end.
Definition breg_S (n m J : nat) (mu lambda : T) (fs : list T) (c : bst) : bst :=
  let rs := rhs_of n m fs (b_dx c) (b_bx c) (b_dy c) (b_by c) mu lambda in
  let u := sweeps J n m mu lambda rs (b_u c) in
  let zx := axpy_of (n * m) one (b_bx c) (Dx_of n m one u) in
  let zy := axpy_of (n * m) one (b_by c) (Dy_of n m one u) in
  let dx := shrink_of (n * m) (div one lambda) zx in
  let dy := shrink_of (n * m) (div one lambda) zy in
  mkBst u u dx dy (mxpy_of (n * m) dx zx) (mxpy_of (n * m) dy zy).
Definition breg_0 (n m : nat) (fs : list T) : bst :=
  let z := const_of (n * m) zero in mkBst fs z z z z z.
Fixpoint breg_at (n m J : nat) (mu lambda : T) (fs : list T) (k : nat) : bst :=
  match k with O => breg_0 n m fs | S j => breg_S n m J mu lambda fs (breg_at n m J mu lambda fs j) end.
(** relative change tested after iteration k *)
Definition breg_err (n m J : nat) (mu lambda : T) (fs : list T) (k : nat) : T :=
  let us := b_u (breg_at n m J mu lambda fs k) in
  let u1 := b_u1 (breg_at n m J mu lambda fs (k - 1)) in
  sqrt_ (div (sqerr_of (n * m) us u1) (dot_of (n * m) u1 u1)).
Lemma sweeps_len J n m mu lambda rs us : length (sweeps J n m mu lambda rs us) = length us.
Proof. induction J as [|J IH]; [done|]. simpl. by rewrite gs_of_len. Qed.
Definition blen (L : nat) (c : bst) : Prop :=
  length (b_u c) = L /\ length (b_u1 c) = L /\ length (b_dx c) = L /\ length (b_dy c) = L /\ length (b_bx c) = L /\ length (b_by c) = L.
Lemma breg_S_len n m J mu lambda fs c : length (b_u c) = (n * m)%nat -> blen (n * m) (breg_S n m J mu lambda fs c).
Proof. intros H. unfold blen, breg_S; cbn [b_u b_u1 b_dx b_dy b_bx b_by]. repeat split; try len. all: by rewrite sweeps_len. Qed.
Lemma breg_at_len n m J mu lambda fs k : length fs = (n * m)%nat -> blen (n * m) (breg_at n m J mu lambda fs k).
Proof.
  intros Hf. induction k as [|k IH]; simpl.
  - unfold blen; simpl. repeat split; len.
  - apply breg_S_len, IH.
Qed.

Definition bblocks (bu b0 bdx bdy bbx bby b1 b2 br : nat) : list nat := [bu; b0; bdx; bdy; bbx; bby; b1; b2; br].
Definition bholds s (bu b0 bdx bdy bbx bby : nat) (c : bst) : Prop :=
  seg s (Ptr bu 0) (b_u c) /\ seg s (Ptr b0 0) (b_u1 c) /\ seg s (Ptr bdx 0) (b_dx c) /\ seg s (Ptr bdy 0) (b_dy c) /\
  seg s (Ptr bbx 0) (b_bx c) /\ seg s (Ptr bby 0) (b_by c).
Lemma iter_run s (n m : nat) (bu bf b0 bdx bdy bbx bby b1 b2 br : nat) fs c mu tol lambda mj :
  (2 <= n)%nat -> (2 <= m)%nat -> Z.of_nat (n * m) <= INT_MAX -> mj < INT_MAX ->
  NoDup [bu; bf; b0; bdx; bdy; bbx; bby; b1; b2; br] ->
  (forall q, q ∈ [bu; b0; bdx; bdy; bbx; bby; b1; b2; br] -> is_aligned s (Ptr q 0) = true) ->
  seg s (Ptr bf 0) fs -> length fs = (n * m)%nat -> blen (n * m) c -> bholds s bu b0 bdx bdy bbx bby c ->
  wok s (Ptr b1 0) (n * m) -> wok s (Ptr b2 0) (n * m) -> wok s (Ptr br 0) (n * m) ->
  let c' := breg_S n m (Z.to_nat mj) mu lambda fs c in
  exists s', breg_iter (Z.of_nat n) (Z.of_nat m) (Z.of_nat (n * m)) (Ptr bu 0) (Ptr bf 0) mu tol lambda mj
      (Ptr b0 0) (Ptr bdx 0) (Ptr bdy 0) (Ptr bbx 0) (Ptr bby 0) (Ptr b1 0) (Ptr b2 0) (Ptr br 0) s
      = Ok (ltb_ (sqrt_ (div (sqerr_of (n * m) (b_u c') (b_u1 c)) (dot_of (n * m) (b_u1 c) (b_u1 c)))) tol) s' /\
    bholds s' bu b0 bdx bdy bbx bby c' /\ touch (bblocks bu b0 bdx bdy bbx bby b1 b2 br) s s'.
Proof.
  intros Hn Hm Hmax Hmj Hd HA Hf Lf (Lu & L0 & Ldx & Ldy & Lbx & Lby) (Hu & H0 & Hdx & Hdy & Hbx & Hby) W1 W2 Wr c'.
  distinct Hd.
  unfold bblocks.
  assert (TT : touch [bu; b0; bdx; bdy; bbx; bby; b1; b2; br] s s) by apply touch_refl.
  assert (Au : is_aligned s (Ptr bu 0) = true) by (apply HA; isin). assert (A0 : is_aligned s (Ptr b0 0) = true) by (apply HA; isin).
  assert (Adx : is_aligned s (Ptr bdx 0) = true) by (apply HA; isin). assert (Ady : is_aligned s (Ptr bdy 0) = true) by (apply HA; isin).
  assert (Abx : is_aligned s (Ptr bbx 0) = true) by (apply HA; isin). assert (Aby : is_aligned s (Ptr bby 0) = true) by (apply HA; isin).
  assert (A1 : is_aligned s (Ptr b1 0) = true) by (apply HA; isin). assert (A2 : is_aligned s (Ptr b2 0) = true) by (apply HA; isin).
  unfold breg_iter. cbv zeta.
  destruct (rhs_run s n m bf bdx bbx bdy bby br b1 b2 fs (b_dx c) (b_bx c) (b_dy c) (b_by c) mu lambda ltac:(lia) Hm Hmax) as (t1 & E & Hr & T1); auto.
  { clear - Ne Ne0 Ne1 Ne2 Ne3 Ne4 Ne5 Ne6 Ne7 Ne8 Ne9 Ne10 Ne11 Ne12 Ne13 Ne14 Ne15 Ne16 Ne17 Ne18 Ne19 Ne20 Ne21 Ne22 Ne23 Ne24 Ne25 Ne26 Ne27 Ne28 Ne29
     Ne30 Ne31 Ne32 Ne33 Ne34 Ne35 Ne36 Ne37 Ne38 Ne39 Ne40 Ne41 Ne42 Ne43.
    repeat (apply NoDup_cons; split; [notin|]). apply NoDup_nil; done. }
  { intros q Hq. apply HA. clear - Hq. repeat (apply elem_of_cons in Hq as [->|Hq]; [isin|]). by apply elem_of_nil in Hq. }
  clear Hd HA.
  rewrite (bind_ok _ _ _ _ _ E). clear E. cbv zeta in *. xfer T1. clear T1.
  set (rs := rhs_of n m fs (b_dx c) (b_bx c) (b_dy c) (b_by c) mu lambda) in *.
  assert (Lrs : length rs = (n * m)%nat) by apply rhs_of_len.
  set (J := Z.to_nat mj) in *.
  assert (E : for_ 1 (mj + 1) (fun _ => breg_anis_guass_seidel (Z.of_nat n) (Z.of_nat m) (Ptr bu 0) (Ptr br 0) mu lambda) t1 =
      Ok tt (wr (Ptr bu 0) (sweeps J n m mu lambda rs (b_u c)) t1)).
  { assert (Wu : wok t1 (Ptr bu 0) (n * m)) by wokt.
    pose (I := fun k => wr (Ptr bu 0) (sweeps k n m mu lambda rs (b_u c)) t1).
    assert (EI : I 0%nat = t1) by (by apply wr_self). rewrite <- EI at 1.
    replace J with (Z.to_nat (mj + 1 - 1)) by (unfold J; f_equal; lia).
    apply (for_inv I). intros i Hi. unfold I at 1.
    assert (Ls : forall k, length (sweeps k n m mu lambda rs (b_u c)) = (n * m)%nat) by (intros k; by rewrite sweeps_len).
    rewrite (gs_run _ n m (Ptr bu 0) (sweeps i n m mu lambda rs (b_u c)) (Ptr br 0) rs mu lambda Hn Hm Hmax).
    - rewrite wr_overwrite'; [done|by rewrite Ls|]. rewrite gs_of_len. done.
    - apply seg_wr. by rewrite Ls.
    - done.
    - apply seg_wr_disj; [by rewrite Ls|done|dis].
    - done.
    - dis. }
  assert (Lus : length (sweeps J n m mu lambda rs (b_u c)) = (n * m)%nat) by (by rewrite sweeps_len).
  change (sweeps J n m mu lambda rs (b_u c)) with (b_u c') in E, Lus.
  wstep E Hu' t2. clear Hu. rename Hu' into Hu. clear Wr.
  rewrite (bind_ok _ _ _ _ _ (i32_ok (Z.max 1 (mj + 1)) t2 ltac:(unfold INT_MIN, INT_MAX in *; lia))).
  rewrite (bind_ok _ _ _ _ _ (dnrm2_rel_err_run t2 (n * m) (Ptr bu 0) (b_u c') (Ptr b0 0) (b_u1 c) Au A0 Hu H0 ltac:(lia) ltac:(lia))).
  pose proof (Dx_run t2 (Ptr bu 0) (b_u c') (Ptr b1 0) n m one
     ltac:(split; [assumption|]; split; [exact Hmax|]; split; [dis|]; split; assumption || wokt) ltac:(lia)) as E.
  wstep E H1 t3. clear W1.
  pose proof (daxpy_run t3 (n * m) one _ _ _ _ (src_disj t3 (Ptr b1 0) _ _ (Ptr bbx 0) _ Lbx Hbx ltac:(dis)) H1 ltac:(len)) as E.
  wstep E H1' t4. clear H1. rename H1' into H1.
  pose proof (Dy_run t4 (Ptr bu 0) (b_u c') (Ptr b2 0) n m one
     ltac:(split; [assumption|]; split; [exact Hmax|]; split; [dis|]; split; assumption || wokt) ltac:(lia)) as E.
  wstep E H2 t5. clear W2.
  pose proof (daxpy_run t5 (n * m) one _ _ _ _ (src_disj t5 (Ptr b2 0) _ _ (Ptr bby 0) _ Lby Hby ltac:(dis)) H2 ltac:(len)) as E.
  wstep E H2' t6. clear H2. rename H2' into H2.
  set (zx := axpy_of (n * m) one (b_bx c) (Dx_of n m one (b_u c'))) in *.
  set (zy := axpy_of (n * m) one (b_by c) (Dy_of n m one (b_u c'))) in *.
  assert (Lzx : length zx = (n * m)%nat) by apply tab_length. assert (Lzy : length zy = (n * m)%nat) by apply tab_length.
  pose proof (shrink1_run t6 (n * m) (Ptr b1 0) zx (Ptr bdx 0) (div one lambda) A1 Adx H1 Lzx ltac:(wokt) ltac:(dis)) as E.
  wstep E Hdx' t7. clear Hdx. rename Hdx' into Hdx.
  pose proof (shrink1_run t7 (n * m) (Ptr b2 0) zy (Ptr bdy 0) (div one lambda) A2 Ady H2 Lzy ltac:(wokt) ltac:(dis)) as E.
  wstep E Hdy' t8. clear Hdy. rename Hdy' into Hdy.
  pose proof (mxpy_z_run t8 (n * m) (Ptr bdx 0) _ (Ptr b1 0) zx (Ptr bbx 0) Adx A1 Abx Hdx ltac:(len) H1 Lzx ltac:(wokt) ltac:(dis) ltac:(dis)) as E.
  wstep E Hbx' t9. clear Hbx. rename Hbx' into Hbx.
  pose proof (mxpy_z_run t9 (n * m) (Ptr bdy 0) _ (Ptr b2 0) zy (Ptr bby 0) Ady A2 Aby Hdy ltac:(len) H2 Lzy ltac:(wokt) ltac:(dis) ltac:(dis)) as E.
  wstep E Hby' t10. clear Hby. rename Hby' into Hby.
  pose proof (dcopy_run t10 (n * m) (Ptr bu 0) (b_u c') (Ptr b0 0) Hu Lus ltac:(wokt) ltac:(dis)) as E.
  wstep E H0' t11.
  exists t11. split; [done|]. split; [|exact TT].
  split; [done|]. split; [done|]. auto.
Qed.
End breg.
