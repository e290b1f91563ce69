(** * The parallel loops of the library, one by one. *)
From Coq Require Import ZArith Lia.
From stdpp Require Import base list relations.
From Verif Require Import P_Loop M_Math M_Bregman M_TV M_Newton S_Par M_Par P_Par.
Local Open Scope Z_scope.

Section loops.
Context `{N : Num}.
Notation place := (nat * Z)%type.

(** ** The accesses are those of the sequential bodies *)
Ltac bnd := unfold bind; repeat match goal with |- context [ld ?p ?i ?s] => destruct (ld p i s) as [? ?|]; [|done] end.
Lemma ld_keeps p i s v s' : ld p i s = Ok v s' -> s' = s.
Proof. unfold ld. destruct (cell s p i) as [[w|]|]; by intros [= _ <-]. Qed.
Lemma ld_again p i s v s' : ld p i s = Ok v s' -> ld p i s' = Ok v s'.
Proof. intros H. pose proof (ld_keeps _ _ _ _ _ H) as ->. done. Qed.
Lemma seq_ret (m : M unit) s : (m ;! ret tt) s = m s.
Proof. unfold bind. by destruct (m s) as [[] ?|]. Qed.
Lemma run_ld p i k s : run (PLd p i k) s = (let* v := ld p i in run (k v)) s.
Proof. done. Qed.
Lemma run_sto p i v k s : run (PSto p i v k) s = (sto p i v ;! run k) s.
Proof. done. Qed.
Lemma bind_ext {A B} (m : M A) (k k' : A -> M B) s : (forall a t, k a t = k' a t) -> (let* a := m in k a) s = (let* a := m in k' a) s.
Proof. intros H. unfold bind. destruct (m s); [apply H|done]. Qed.

Lemma bind_cong {A B} (m m' : M A) (k k' : A -> M B) s :
  m s = m' s -> (forall a t, k a t = k' a t) -> (let* a := m in k a) s = (let* a := m' in k' a) s.
Proof. intros E H. unfold bind. rewrite E. destruct (m' s); [apply H|done]. Qed.
Lemma bind_assoc {A B C} (m : M A) (f : A -> M B) (k : B -> M C) s :
  (let* b := (let* a := m in f a) in k b) s = (let* a := m in let* b := f a in k b) s.
Proof. unfold bind. by destruct (m s). Qed.
Lemma ld_twice {A} p i (k : T -> T -> M A) s : (let* v := ld p i in let* w := ld p i in k v w) s = (let* v := ld p i in k v v) s.
Proof. unfold bind. destruct (ld p i s) as [v s1|] eqn:E; [|done]. by rewrite (ld_again _ _ _ _ _ E). Qed.
Lemma bind_ret {A B} (a : A) (k : A -> M B) s : (let* x := ret a in k x) s = k a s.
Proof. done. Qed.
Lemma daxpby_imp alpha x beta y : implements (daxpby_q alpha x beta y) (daxpby_body alpha x beta y).
Proof. intros i s. cbn -[ld sto]. unfold daxpby_body. do 2 (apply bind_ext; intros). apply seq_ret. Qed.
Lemma init_vec_imp x alpha : implements (init_vec_q x alpha) (init_vec_body x alpha).
Proof. intros i s. apply seq_ret. Qed.
Lemma dxmuly_z_imp x y z : implements (dxmuly_z_q x y z) (dxmuly_z_body x y z).
Proof. intros i s. cbn -[ld sto]. unfold dxmuly_z_body. do 2 (apply bind_ext; intros). apply seq_ret. Qed.
Lemma daxpby_z_imp alpha x beta y z : implements (daxpby_z_q alpha x beta y z) (daxpby_z_body alpha x beta y z).
Proof. intros i s. cbn -[ld sto]. unfold daxpby_z_body. do 2 (apply bind_ext; intros). apply seq_ret. Qed.
Lemma daxpy_z_imp alpha x y z : implements (daxpy_z_q alpha x y z) (daxpy_z_body alpha x y z).
Proof. intros i s. cbn -[ld sto]. unfold daxpy_z_body. do 2 (apply bind_ext; intros). apply seq_ret. Qed.
Lemma mxpy_z_imp x y z : implements (mxpy_z_q x y z) (mxpy_z_body x y z).
Proof. intros i s. cbn -[ld sto]. unfold mxpy_z_body. do 2 (apply bind_ext; intros). apply seq_ret. Qed.
Lemma shrink1_imp x d gamma : implements (shrink1_q x d gamma) (shrink1_body x d gamma).
Proof.
  intros i s. unfold shrink1_q. rewrite run_ld.
  etransitivity; [apply (ld_twice x i (fun v w => run (PSto d i (mul (dsign v) (dmax (sub (fabs w) gamma) zero)) PRet)))|].
  apply bind_ext. intros. apply seq_ret.
Qed.
Lemma ddiff_imp n alpha x dx s : run (ddiff_q n alpha x dx) s = ddiff_z n alpha x dx s.
Proof.
  unfold ddiff_q, ddiff_z. rewrite run_pseq. apply bind_cong.
  - apply run_pfor. intros i t _. do 2 (rewrite run_ld; apply bind_ext; intros). apply seq_ret.
  - intros _ t. apply seq_ret.
Qed.
Lemma ddiffT_imp n alpha x dx s : run (ddiffT_q n alpha x dx) s = ddiffT_z n alpha x dx s.
Proof.
  unfold ddiffT_q, ddiffT_z. rewrite run_ld, bind_assoc. apply bind_ext. intros a s1.
  rewrite run_sto. apply bind_ext. intros _ s2. rewrite run_pseq. apply bind_cong.
  - apply run_pfor. intros i t _. do 2 (rewrite run_ld; apply bind_ext; intros). apply seq_ret.
  - intros _ t. rewrite run_ld. apply bind_ext. intros. apply seq_ret.
Qed.
Lemma ddiff2_imp n alpha x dx s : run (ddiff2_q n alpha x dx) s = ddiff2_z n alpha x dx s.
Proof.
  unfold ddiff2_q, ddiff2_z. cbv zeta. rewrite run_ld, bind_assoc. apply bind_ext. intros a s1.
  rewrite run_ld, bind_assoc. apply bind_ext. intros b s2.
  rewrite run_sto. apply bind_ext. intros _ s3. rewrite run_pseq. apply bind_cong.
  - apply run_pfor. intros i t _. do 3 (rewrite run_ld; apply bind_ext; intros). apply seq_ret.
  - intros _ t. do 2 (rewrite run_ld; apply bind_ext; intros). apply seq_ret.
Qed.
Lemma row_imp q f m alpha X D : (forall n a x dx s, run (q n a x dx) s = f n a x dx s) ->
  implements (row_q q m alpha X D) (row_body f m alpha X D).
Proof. intros H i s. unfold row_q, row_body. rewrite run_p32. apply bind_ext. intros. apply H. Qed.
Lemma Dy1_imp m alpha X D : implements (Dy_q1 m alpha X D) (Dy_body1 m alpha X D).
Proof.
  intros i s. unfold Dy_q1, Dy_body1. rewrite run_p32. apply bind_ext. intros lo s1. rewrite run_p32.
  apply bind_ext. intros hi s2. apply run_pfor. intros col t _. rewrite run_p32. apply bind_ext. intros j t1.
  cbn -[ld sto]. do 2 (apply bind_ext; intros). apply seq_ret.
Qed.
Lemma Dy2_imp D : implements (Dy_q2 D) (Dy_body2 D).
Proof. intros i s. apply seq_ret. Qed.
Lemma DyT_imp n m alpha A D : implements (DyT_q n m alpha A D) (DyT_body n m alpha A D).
Proof.
  intros i s. unfold DyT_q, DyT_body. rewrite run_p32. apply bind_ext. intros lim s1. cbv zeta.
  destruct (i <? lim).
  - rewrite run_ld. apply bind_ext. intros a s2. destruct (i <? m).
    + cbn -[ld sto]. rewrite seq_ret. done.
    + rewrite run_ld. apply bind_ext. intros b s3. apply seq_ret.
  - rewrite bind_ret. destruct (i <? m).
    + cbn -[ld sto]. rewrite seq_ret. done.
    + rewrite run_ld. apply bind_ext. intros b s3. apply seq_ret.
Qed.
Lemma DyTDy_imp n m alp2 Len A D : implements (DyTDy_q n m alp2 Len A D) (DyTDy_body n m alp2 Len A D).
Proof.
  intros i s. unfold DyTDy_q, DyTDy_body. cbv zeta.
  assert (H : forall Aim s,
    run (p32 (m * (n - 1)) (fun lim : Z =>
      if (i <? m) || (lim - 1 <? i)
      then PLd A i (fun Di => if i <? Len - m
            then PLd A (i + m) (fun Aip => PSto D i (mul alp2 (sub (add (opp Aim) Di) Aip)) PRet)
            else PSto D i (mul alp2 (sub (add (opp Aim) Di) zero)) PRet)
      else PLd A i (fun a => if i <? Len - m
            then PLd A (i + m) (fun Aip => PSto D i (mul alp2 (sub (add (opp Aim) (mul two a)) Aip)) PRet)
            else PSto D i (mul alp2 (sub (add (opp Aim) (mul two a)) zero)) PRet))) s =
    (let* lim := i32 (m * (n - 1)) in
     let* Di := if (i <? m) || (lim - 1 <? i) then ld A i else let* a := ld A i in ret (mul two a) in
     let* Aip := if i <? Len - m then ld A (i + m) else ret zero in
     sto D i (mul alp2 (sub (add (opp Aim) Di) Aip))) s).
  { intros Aim t. rewrite run_p32. apply bind_ext. intros lim t1.
    destruct ((i <? m) || (lim - 1 <? i)); rewrite run_ld.
    - apply bind_ext. intros Di t2. destruct (i <? Len - m).
      + rewrite run_ld. apply bind_ext. intros. apply seq_ret.
      + rewrite run_sto. rewrite seq_ret. done.
    - rewrite bind_assoc. apply bind_ext. intros a t2. rewrite bind_ret. destruct (i <? Len - m).
      + rewrite run_ld. apply bind_ext. intros. apply seq_ret.
      + rewrite run_sto. rewrite seq_ret. done. }
  destruct (i <? m) eqn:E.
  - rewrite H. done.
  - rewrite run_ld. apply bind_ext. intros a s1. rewrite H. done.
Qed.
Lemma hess_imp P sigx atr tau fe mbt : implements (hess_q P sigx atr tau fe mbt) (hess_body P sigx atr tau fe mbt).
Proof.
  intros i s. unfold hess_q, hess_body. cbv zeta. rewrite run_ld. apply bind_ext. intros f1 s1.
  rewrite run_ld. apply bind_ext. intros f2 s2. rewrite run_ld. apply bind_ext. intros a s3.
  rewrite run_sto. apply bind_ext. intros _ s4. rewrite run_p32. apply bind_ext. intros im s5.
  do 5 (rewrite run_sto; apply bind_ext; intros). rewrite run_sto. apply seq_ret.
Qed.
Lemma du_imp P : implements (du_q P) (du_body P).
Proof.
  intros i s. unfold du_q, du_body. rewrite run_ld. unfold bind.
  destruct (ld (pb_sig11 P) i s) as [s11 s1|] eqn:E; [|done].
  rewrite run_ld. unfold bind. destruct (ld (pb_ntgu P) i s1) as [g s2|] eqn:E2; [|done].
  rewrite run_ld. unfold bind. destruct (ld (pb_sig12 P) i s2) as [s12 s3|] eqn:E3; [|done].
  pose proof (ld_again _ _ _ _ _ E) as A. pose proof (ld_keeps _ _ _ _ _ E2) as ->. pose proof (ld_keeps _ _ _ _ _ E3) as ->.
  rewrite run_ld, (bind_ok _ _ _ _ _ A). rewrite run_ld. unfold bind. destruct (ld (pb_dx P) i s1); [|done]. apply seq_ret.
Qed.

(** ** Footprints *)
(** [k] cells from [p[i]] on *)
Definition cells (p : ptr) (i k : Z) (a : place) : Prop := exists j, i <= j < i + k /\ addr p j = Some a.
Lemma cells_in p i k j : i <= j < i + k -> forall a, addr p j = Some a -> cells p i k a.
Proof. intros H a Ha. by exists j. Qed.
Lemma cells_apart p n q k i1 k1 i2 k2 a :
  overlap p n q k = false -> 0 <= i1 -> i1 + k1 <= n -> 0 <= i2 -> i2 + k2 <= k ->
  cells p i1 k1 a -> cells q i2 k2 a -> False.
Proof. intros H H1 H2 H3 H4 (j & Hj & Ej) (j' & Hj' & Ej'). eapply (overlap_addr p n q k j j'); eauto; lia. Qed.
Lemma cells_self p i1 k1 i2 k2 a :
  cells p i1 k1 a -> cells p i2 k2 a -> i1 < i2 + k2 /\ i2 < i1 + k1.
Proof. intros (j & Hj & Ej) (j' & Hj' & Ej'). pose proof (addr_inj _ _ _ _ Ej Ej'). lia. Qed.

(** ** The loops *)
Definition par_any (q : Z -> prog) (b : Z -> M unit) (lo hi : Z) (s s' : st) : Prop :=
  parallel q lo hi s s' /\ forall l, l ≡ₚ range lo hi -> for_list l b s = Ok tt s'.

Lemma aligned_inv {A} p (k : M A) s a s' : (assume_aligned p ;! k) s = Ok a s' -> k s = Ok a s'.
Proof. unfold bind, assume_aligned. by destruct (is_aligned s p). Qed.
Lemma restrict_inv {A} p n q k (m : M A) s a s' :
  (restrict p n q k ;! m) s = Ok a s' -> overlap p n q k = false /\ m s = Ok a s'.
Proof. unfold bind, restrict. by destruct (overlap p n q k). Qed.
Lemma i32_inv {A} z (k : Z -> M A) s a s' : (let* y := i32 z in k y) s = Ok a s' -> in_int z = true /\ k z s = Ok a s'.
Proof. unfold bind, i32. by destruct (in_int z). Qed.

(** a loop that stores into z[i] and loads x[i] and z[i] *)
Lemma par1 q b n x z s s' :
  implements q b -> overlap z n x n = false ->
  (forall i, fp (cells x i 1) (cells z i 1) (q i)) ->
  for_ 0 n b s = Ok tt s' -> par_any q b 0 n s s'.
Proof.
  intros Hi Ho Hf Hs. apply (parallel_rule q (fun i => cells x i 1) (fun i => cells z i 1)); [auto|auto| |done].
  intros i j Ii Ij Hne a Ha. split; intros Hb.
  - apply (cells_apart z n x n i 1 j 1 a); auto; lia.
  - pose proof (cells_self _ _ _ _ _ _ Ha Hb). lia.
Qed.
(** ... or also y[i] *)
Lemma par2 q b n x y z s s' :
  implements q b -> overlap z n x n = false -> overlap z n y n = false ->
  (forall i, fp (fun a => cells x i 1 a \/ cells y i 1 a) (cells z i 1) (q i)) ->
  for_ 0 n b s = Ok tt s' -> par_any q b 0 n s s'.
Proof.
  intros Hi Ho Ho' Hf Hs.
  apply (parallel_rule q (fun i a => cells x i 1 a \/ cells y i 1 a) (fun i => cells z i 1)); [auto|auto| |done].
  intros i j Ii Ij Hne a Ha. split; intros Hb.
  - destruct Hb as [Hb|Hb]; [apply (cells_apart z n x n i 1 j 1 a)|apply (cells_apart z n y n i 1 j 1 a)]; auto; lia.
  - pose proof (cells_self _ _ _ _ _ _ Ha Hb). lia.
Qed.
Ltac cel := intros ? ?; first [eapply cells_in; [|eassumption]; lia | left; cel1 | right; cel1]
with cel1 := first [eapply cells_in; [|eassumption]; lia | left; eapply cells_in; [|eassumption]; lia | right; eapply cells_in; [|eassumption]; lia].

Ltac fps := cbn; repeat match goal with
  | |- True => exact I | |- _ /\ _ => split | |- forall a, addr _ _ = Some a -> _ => cel | |- forall v, _ => intro end.

Lemma daxpby_par n alpha x beta y s s' :
  l1c_daxpby n alpha x beta y s = Ok tt s' -> par_any (daxpby_q alpha x beta y) (daxpby_body alpha x beta y) 0 n s s'.
Proof.
  intros H. do 2 apply aligned_inv in H. apply restrict_inv in H as [Ho H].
  apply (par1 _ _ n x y); [apply daxpby_imp|done| |done]. intros i. fps.
Qed.
Lemma init_vec_par n x alpha s s' :
  l1c_init_vec n x alpha s = Ok tt s' -> par_any (init_vec_q x alpha) (init_vec_body x alpha) 0 n s s'.
Proof.
  intros H. apply aligned_inv in H.
  apply (par1 _ _ n Null x); [apply init_vec_imp|by destruct x| |done]. intros i. fps.
Qed.
Lemma dxmuly_z_par n x y z s s' :
  l1c_dxmuly_z n x y z s = Ok tt s' -> par_any (dxmuly_z_q x y z) (dxmuly_z_body x y z) 0 n s s'.
Proof.
  intros H. do 3 apply aligned_inv in H. apply restrict_inv in H as [Ho H]. apply restrict_inv in H as [Ho' H].
  apply (par2 _ _ n x y z); [apply dxmuly_z_imp|done|done| |done].
  intros i. fps.
Qed.
Lemma daxpby_z_par n alpha x beta y z s s' :
  l1c_daxpby_z n alpha x beta y z s = Ok tt s' -> par_any (daxpby_z_q alpha x beta y z) (daxpby_z_body alpha x beta y z) 0 n s s'.
Proof.
  intros H. do 3 apply aligned_inv in H. apply restrict_inv in H as [Ho H]. apply restrict_inv in H as [Ho' H].
  apply (par2 _ _ n x y z); [apply daxpby_z_imp|done|done| |done].
  intros i. fps.
Qed.
Lemma daxpy_z_par n alpha x y z s s' :
  l1c_daxpy_z n alpha x y z s = Ok tt s' -> par_any (daxpy_z_q alpha x y z) (daxpy_z_body alpha x y z) 0 n s s'.
Proof.
  intros H. do 3 apply aligned_inv in H. apply restrict_inv in H as [Ho H]. apply restrict_inv in H as [Ho' H].
  apply (par2 _ _ n x y z); [apply daxpy_z_imp|done|done| |done].
  intros i. fps.
Qed.
Lemma mxpy_z_par n x y z s s' :
  breg_mxpy_z n x y z s = Ok tt s' -> par_any (mxpy_z_q x y z) (mxpy_z_body x y z) 0 n s s'.
Proof.
  intros H. do 3 apply aligned_inv in H. apply restrict_inv in H as [Ho H]. apply restrict_inv in H as [Ho' H].
  apply (par2 _ _ n x y z); [apply mxpy_z_imp|done|done| |done].
  intros i. fps.
Qed.
Lemma shrink1_par n x d gamma s s' :
  breg_shrink1 n x d gamma s = Ok tt s' -> par_any (shrink1_q x d gamma) (shrink1_body x d gamma) 0 n s s'.
Proof.
  intros H. do 2 apply aligned_inv in H. apply restrict_inv in H as [Ho H].
  apply (par1 _ _ n x d); [apply shrink1_imp|done| |done]. intros i. fps.
Qed.

(** *** rows *)
Lemma row_par q f n m alpha X D s s' :
  (forall n a x dx s, run (q n a x dx) s = f n a x dx s) -> 0 <= m ->
  (forall x dx, fp (cells x 0 m) (cells dx 0 m) (q m alpha x dx)) ->
  (restrict D (n * m) X (n * m) ;! for_ 0 n (row_body f m alpha X D)) s = Ok tt s' ->
  par_any (row_q q m alpha X D) (row_body f m alpha X D) 0 n s s'.
Proof.
  intros Hq Hm Hf H. apply restrict_inv in H as [Ho H].
  apply (parallel_rule _ (fun i => cells X (i * m) m) (fun i => cells D (i * m) m)); [by intros; apply row_imp| | |done].
  - intros i Hi. apply fp_p32. intros _.
    assert (S : forall p a, cells (padd p (i * m)) 0 m a -> cells p (i * m) m a).
    { intros p a (j & Hj & Ej). rewrite addr_padd in Ej. exists (i * m + j). split; [lia|done]. }
    eapply fp_mono; [| |apply Hf]; auto.
  - intros i j Ii Ij Hne a Ha. split; intros Hb.
    + apply (cells_apart D (n * m) X (n * m) (i * m) m (j * m) m a); auto; nia.
    + pose proof (cells_self _ _ _ _ _ _ Ha Hb). nia.
Qed.
Lemma ddiff_fp m alpha x dx : 1 <= m -> fp (cells x 0 m) (cells dx 0 m) (ddiff_q m alpha x dx).
Proof.
  intros Hm. apply fp_pseq.
  - apply fp_pfor. intros i Hi. fps.
  - fps.
Qed.
Lemma ddiffT_fp m alpha x dx : 2 <= m -> fp (cells x 0 m) (cells dx 0 m) (ddiffT_q m alpha x dx).
Proof.
  intros Hm. split; [cel|]. intros a. split; [cel|]. apply fp_pseq.
  - apply fp_pfor. intros i Hi. fps.
  - fps.
Qed.
Lemma ddiff2_fp m alpha x dx : 2 <= m -> fp (cells x 0 m) (cells dx 0 m) (ddiff2_q m alpha x dx).
Proof.
  intros Hm. split; [cel|]. intros a. split; [cel|]. intros b. split; [cel|]. apply fp_pseq.
  - apply fp_pfor. intros i Hi. fps.
  - fps.
Qed.
Lemma Dx_par n m alpha X D s s' : 1 <= m ->
  l1c_Dx n m alpha X D s = Ok tt s' -> par_any (row_q ddiff_q m alpha X D) (row_body ddiff_z m alpha X D) 0 n s s'.
Proof. intros Hm. apply row_par; [apply ddiff_imp|lia|]. intros. by apply ddiff_fp. Qed.
Lemma DxT_par n m alpha X D s s' : 2 <= m ->
  l1c_DxT n m alpha X D s = Ok tt s' -> par_any (row_q ddiffT_q m alpha X D) (row_body ddiffT_z m alpha X D) 0 n s s'.
Proof. intros Hm. apply row_par; [apply ddiffT_imp|lia|]. intros. by apply ddiffT_fp. Qed.
Lemma DxTDx_par n m alpha X D s s' : 2 <= m ->
  l1c_DxTDx n m alpha X D s = Ok tt s' -> par_any (row_q ddiff2_q m alpha X D) (row_body ddiff2_z m alpha X D) 0 n s s'.
Proof. intros Hm. apply row_par; [apply ddiff2_imp|lia|]. intros. by apply ddiff2_fp. Qed.

Lemma Dy_par n m alpha X D s s' : 0 <= m ->
  l1c_Dy n m alpha X D s = Ok tt s' -> exists s1,
    par_any (Dy_q1 m alpha X D) (Dy_body1 m alpha X D) 0 (n - 1) s s1 /\
    par_any (Dy_q2 D) (Dy_body2 D) ((n - 1) * m) (n * m) s1 s'.
Proof.
  intros Hm H. apply restrict_inv in H as [Ho H]. apply bind_inv in H as ([] & s1 & E1 & H).
  apply i32_inv in H as [_ H]. apply i32_inv in H as [_ E2]. exists s1. split.
  - apply (parallel_rule _ (fun _ => cells X 0 (n * m)) (fun i => cells D (i * m) m)); [intros; apply Dy1_imp| | |done].
    + intros i Hi. apply fp_p32. intros _. apply fp_p32. intros _. apply fp_pfor. intros col Hc. apply fp_p32. intros _.
      assert (0 <= col /\ col + m < n * m) by nia. fps.
    + intros i j Ii Ij Hne a Ha. split; intros Hb.
      * apply (cells_apart D (n * m) X (n * m) (i * m) m 0 (n * m) a); auto; nia.
      * pose proof (cells_self _ _ _ _ _ _ Ha Hb). nia.
  - apply (parallel_rule _ (fun _ _ => False) (fun i => cells D i 1)); [intros; apply Dy2_imp| | |done].
    + intros i Hi. fps.
    + intros i j Ii Ij Hne a Ha. split; [tauto|]. intros Hb. pose proof (cells_self _ _ _ _ _ _ Ha Hb). lia.
Qed.
Lemma DyT_par n m alpha A D s s' : 0 <= m ->
  l1c_DyT n m alpha A D s = Ok tt s' ->
  par_any (DyT_q n m alpha A D) (DyT_body n m alpha A D) 0 (n * m) s s'.
Proof.
  intros Hm H. apply restrict_inv in H as [Ho H]. apply i32_inv in H as [_ H].
  apply (parallel_rule _ (fun _ => cells A 0 (n * m)) (fun i => cells D i 1)); [intros; apply DyT_imp| | |done].
  - intros i Hi. apply fp_p32. intros _. cbv zeta.
    assert (F : forall Ai, fp (cells A 0 (n * m)) (cells D i 1)
      (if i <? m then PSto D i (mul alpha (sub zero Ai)) PRet
       else PLd A (i - m) (fun Aim => PSto D i (mul alpha (sub Aim Ai)) PRet))).
    { intros Ai. destruct (i <? m) eqn:E; fps. }
    destruct (i <? (n - 1) * m); [|apply F]. split; [cel|]. intros v. apply F.
  - intros i j Ii Ij Hne a Ha. split; intros Hb.
    + apply (cells_apart D (n * m) A (n * m) i 1 0 (n * m) a); auto; lia.
    + pose proof (cells_self _ _ _ _ _ _ Ha Hb). lia.
Qed.
Lemma DyTDy_par n m alpha A D s s' : 0 <= m ->
  l1c_DyTDy n m alpha A D s = Ok tt s' ->
  par_any (DyTDy_q n m (mul alpha alpha) (n * m) A D) (DyTDy_body n m (mul alpha alpha) (n * m) A D) 0 (n * m) s s'.
Proof.
  intros Hm H. apply restrict_inv in H as [Ho H]. cbv zeta in H. apply i32_inv in H as [_ H].
  apply (parallel_rule _ (fun _ => cells A 0 (n * m)) (fun i => cells D i 1)); [intros; apply DyTDy_imp| | |done].
  - intros i Hi. unfold DyTDy_q. cbv zeta. destruct (i <? m) eqn:E; [|split; [cel|intros v]]; apply fp_p32; intros _.
    + cbn [orb]. split; [cel|]. intros w. destruct (i <? n * m - m) eqn:E2; fps.
    + cbn [orb]. destruct (m * (n - 1) - 1 <? i); (split; [cel|]; intros w; destruct (i <? n * m - m) eqn:E2; fps).
  - intros i j Ii Ij Hne a Ha. split; intros Hb.
    + apply (cells_apart D (n * m) A (n * m) i 1 0 (n * m) a); auto; lia.
    + pose proof (cells_self _ _ _ _ _ _ Ha Hb). lia.
Qed.

(** *** Newton *)
(** iteration [i] owns cells of each written array *)
Lemma par_sep q b m (ws rs : list (ptr * Z)) (own : nat -> Z -> Z -> Prop) s s' :
  separate ws rs -> implements q b ->
  (forall j i i' k, own j i k -> own j i' k -> i = i') ->
  (forall j p n i k, ws !! j = Some (p, n) -> 0 <= i < m -> own j i k -> 0 <= k < n) ->
  (forall i, 0 <= i < m -> fp (fun a => exists p n k, (p, n) ∈ rs /\ 0 <= k < n /\ addr p k = Some a)
     (fun a => exists j p n k, ws !! j = Some (p, n) /\ own j i k /\ addr p k = Some a) (q i)) ->
  for_ 0 m b s = Ok tt s' -> par_any q b 0 m s s'.
Proof.
  intros [S1 S2] Hi Hown Hin Hf Hs.
  refine (parallel_rule q _ _ 0 m b s s' _ Hf _ Hs); [auto|].
  intros i i' Ii Ii' Hne a (j & p & n & k & Ej & Oj & Ea). split.
  - intros (r & nr & kr & Er & Hk & Ear).
    eapply (overlap_addr p n r nr k kr a); [|exact (Hin j p n i k Ej Ii Oj)|done|done|done].
    apply S2; [by eapply elem_of_list_lookup_2|done].
  - intros (j' & p' & n' & k' & Ej' & Oj' & Ea'). destruct (decide (j = j')) as [<-|Hjj].
    + rewrite Ej in Ej'. injection Ej' as <- <-. pose proof (addr_inj _ _ _ _ Ea Ea') as <-.
      apply Hne. by eapply Hown.
    + eapply (overlap_addr p n p' n' k k' a); [|exact (Hin j p n i k Ej Ii Oj)|exact (Hin j' p' n' i' k' Ej' Ii' Oj')|done|done].
      by eapply S1.
Qed.

Lemma hess_par P sigx atr tau fe mbt s s' :
  separate (hess_ws P sigx) (hess_rs P atr) ->
  for_ 0 (pb_m P) (hess_body P sigx atr tau fe mbt) s = Ok tt s' ->
  par_any (hess_q P sigx atr tau fe mbt) (hess_body P sigx atr tau fe mbt) 0 (pb_m P) s s'.
Proof.
  intros HS. apply (par_sep _ _ _ (hess_ws P sigx) (hess_rs P atr)
    (fun j i k => match j with O => (k = i \/ k = i + pb_m P) /\ 0 <= i < pb_m P | _ => k = i end)); [done|apply hess_imp| | |].
  - intros [|j] i i' k; lia.
  - intros j p n i k Ej Hi. unfold hess_ws in Ej. repeat (destruct j as [|j]; [injection Ej as <- <-; lia|]); done.
  - intros i Hi. cbn.
    assert (Rd : forall p, (p, pb_m P) ∈ hess_rs P atr -> forall a, addr p i = Some a ->
       (exists p n k, (p, n) ∈ hess_rs P atr /\ 0 <= k < n /\ addr p k = Some a)).
    { intros p Hp a Ha. exists p, (pb_m P), i. auto. }
    assert (Wr : forall j p, hess_ws P sigx !! j = Some (p, pb_m P) -> j <> 0%nat -> forall a, addr p i = Some a ->
       exists j p n k, hess_ws P sigx !! j = Some (p, n) /\
         (match j with O => (k = i \/ k = i + pb_m P) /\ 0 <= i < pb_m P | _ => k = i end) /\ addr p k = Some a).
    { intros j p Hj Hz a Ha. exists j, p, (pb_m P), i. split; [done|]. split; [|done]. by destruct j. }
    split; [intros a Ha; left; apply (Rd (pb_fu1 P)); [unfold hess_rs; rewrite !elem_of_cons; auto|done]|]. intros f1.
    split; [intros a Ha; left; apply (Rd (pb_fu2 P)); [unfold hess_rs; rewrite !elem_of_cons; auto|done]|]. intros f2.
    split; [intros a Ha; left; apply (Rd atr); [unfold hess_rs; rewrite !elem_of_cons; auto|done]|]. intros v.
    split; [intros a Ha; exists 0%nat, (pb_gradf P), (2 * pb_m P), i; auto|].
    apply fp_p32. intros _. cbn.
    split; [intros a Ha; exists 0%nat, (pb_gradf P), (2 * pb_m P), (i + pb_m P); auto|].
    split; [by apply (Wr 1%nat)|]. split; [by apply (Wr 2%nat)|]. split; [by apply (Wr 3%nat)|].
    split; [by apply (Wr 4%nat)|]. split; [by apply (Wr 5%nat)|done].
Qed.
Lemma du_par P s s' :
  separate [(pb_du P, pb_m P)] (du_rs P) ->
  for_ 0 (pb_m P) (du_body P) s = Ok tt s' -> par_any (du_q P) (du_body P) 0 (pb_m P) s s'.
Proof.
  intros HS. apply (par_sep _ _ _ [(pb_du P, pb_m P)] (du_rs P) (fun _ i k => k = i)); [done|apply du_imp| | |].
  - intros; lia.
  - intros [|j] p n i k Ej Hi; [|done]. injection Ej as <- <-. lia.
  - intros i Hi. cbn.
    assert (Rd : forall p, (p, pb_m P) ∈ du_rs P -> forall a, addr p i = Some a ->
       (exists p n k, (p, n) ∈ du_rs P /\ 0 <= k < n /\ addr p k = Some a)).
    { intros p Hp a Ha. exists p, (pb_m P), i. auto. }
    split; [intros a Ha; left; apply (Rd (pb_sig11 P)); [unfold du_rs; rewrite !elem_of_cons; auto|done]|]. intros f1.
    split; [intros a Ha; left; apply (Rd (pb_ntgu P)); [unfold du_rs; rewrite !elem_of_cons; auto|done]|]. intros f2.
    split; [intros a Ha; left; apply (Rd (pb_sig12 P)); [unfold du_rs; rewrite !elem_of_cons; auto|done]|]. intros f3.
    split; [intros a Ha; left; apply (Rd (pb_sig11 P)); [unfold du_rs; rewrite !elem_of_cons; auto|done]|]. intros f4.
    split; [intros a Ha; left; apply (Rd (pb_dx P)); [unfold du_rs; rewrite !elem_of_cons; auto|done]|]. intros f5.
    split; [|done]. intros a Ha. exists 0%nat, (pb_du P), (pb_m P), i. auto.
Qed.
End loops.
