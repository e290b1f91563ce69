(** * Running the split Bregman code: exact results for every arithmetic. *)
From Coq Require Import ZArith Lia.
From stdpp Require Import base numbers gmap list.
From Verif Require Import P_Loop P_TV P_Math P_Step P_Own M_Bregman.
Local Open Scope Z_scope.

Section gs.
Context `{N : Num}.
Implicit Types (s : st) (xs us rs : list T).

Definition shrink (gamma v : T) : T := mul (dsign v) (dmax (sub (fabs v) gamma) zero).
Definition shrink_of n (gamma : T) xs : list T := tab n (fun i => shrink gamma (at_ xs i)).
Definition mxpy_of n xs ys : list T := tab n (fun i => add (opp (at_ xs i)) (at_ ys i)).

(** the neighbours of pixel k in an n by m image: right, left, below, above *)
Definition nbrs (n m k : nat) : list nat :=
  (if (k mod m + 1 <? m)%nat then [(k + 1)%nat] else []) ++
  (if (0 <? k mod m)%nat then [(k - 1)%nat] else []) ++
  (if (k + m <? n * m)%nat then [(k + m)%nat] else []) ++
  (if (m <=? k)%nat then [(k - m)%nat] else []).
Definition lsum (l : list T) : T := match l with [] => zero | v :: l' => foldl add v l' end.
(** new value of pixel k *)
Definition gs_at (n m : nat) (mu lambda : T) rs us (k : nat) : T :=
  let l := nbrs n m k in
  mul (add (at_ rs k) (mul (lsum (at_ us <$> l)) lambda)) (recip mu lambda (Z.of_nat (length l))).
(** the first k updates of a sweep, and the sweep *)
Definition gs_upto (n m : nat) (mu lambda : T) rs us (k : nat) : list T :=
  foldi k (fun i v => <[i := gs_at n m mu lambda rs v i]> v) us.
Definition gs_of (n m : nat) (mu lambda : T) us rs : list T := gs_upto n m mu lambda rs us (n * m).

Lemma gs_upto_len n m mu lambda rs us k : length (gs_upto n m mu lambda rs us k) = length us.
Proof. induction k as [|k IH]; [done|]. cbn [gs_upto foldi]. rewrite insert_length. exact IH. Qed.
Lemma gs_of_len n m mu lambda rs us : length (gs_of n m mu lambda us rs) = length us.
Proof. apply gs_upto_len. Qed.

(** *** elementwise kernels *)
Lemma shrink1_loop s n x xs d gamma :
  seg s x xs -> length xs = n -> wok s d n -> disj d n x n ->
  for_ 0 (Z.of_nat n) (shrink1_body x d gamma) s = Ok tt (wr d (shrink_of n gamma xs) s) /\
  forall l, l ≡ₚ range 0 (Z.of_nat n) -> for_list l (shrink1_body x d gamma) s = for_ 0 (Z.of_nat n) (shrink1_body x d gamma) s.
Proof.
  intros Hx Lx Hd Hdis. apply (for_elem n d [] [(x, xs)]).
  - intros q ys Hq. apply elem_of_cons in Hq as [[= -> ->]|Hq]; [|by apply elem_of_nil in Hq]. auto.
  - apply seg_nil.
  - done.
  - intros s0 i Hi Hs. unfold shrink1_body. by rewrite (bind_ok _ _ _ _ _ (Hs x xs ltac:(left))).
Qed.
Lemma shrink1_run s n x xs d gamma : is_aligned s x = true -> is_aligned s d = true ->
  seg s x xs -> length xs = n -> wok s d n -> disj d n x n ->
  breg_shrink1 (Z.of_nat n) x d gamma s = Ok tt (wr d (shrink_of n gamma xs) s).
Proof.
  intros Ax Ad Hx Lx Hd Hdis. unfold breg_shrink1.
  rewrite (bind_ok _ _ _ _ _ (assume_ok _ _ Ax)), (bind_ok _ _ _ _ _ (assume_ok _ _ Ad)).
  rewrite (bind_ok _ _ _ _ _ (restrict_ok _ _ _ _ s Hdis)). by apply shrink1_loop.
Qed.
Lemma mxpy_z_loop s n x xs y ys z :
  seg s x xs -> length xs = n -> seg s y ys -> length ys = n -> wok s z n -> disj z n x n -> disj z n y n ->
  for_ 0 (Z.of_nat n) (mxpy_z_body x y z) s = Ok tt (wr z (mxpy_of n xs ys) s) /\
  forall l, l ≡ₚ range 0 (Z.of_nat n) -> for_list l (mxpy_z_body x y z) s = for_ 0 (Z.of_nat n) (mxpy_z_body x y z) s.
Proof.
  intros Hx Lx Hy Ly Hz Hd1 Hd2. apply (for_elem n z [] [(x, xs); (y, ys)]).
  - intros q zs Hq. apply elem_of_cons in Hq as [[= -> ->]|Hq]; [auto|].
    apply elem_of_cons in Hq as [[= -> ->]|Hq]; [auto|by apply elem_of_nil in Hq].
  - apply seg_nil.
  - done.
  - intros s0 i Hi Hs. unfold mxpy_z_body. rewrite (bind_ok _ _ _ _ _ (Hs x xs ltac:(left))).
    by rewrite (bind_ok _ _ _ _ _ (Hs y ys ltac:(right; left))).
Qed.
Lemma mxpy_z_run s n x xs y ys z : is_aligned s x = true -> is_aligned s y = true -> is_aligned s z = true ->
  seg s x xs -> length xs = n -> seg s y ys -> length ys = n -> wok s z n -> disj z n x n -> disj z n y n ->
  breg_mxpy_z (Z.of_nat n) x y z s = Ok tt (wr z (mxpy_of n xs ys) s).
Proof.
  intros Ax Ay Az Hx Lx Hy Ly Hz Hd1 Hd2. unfold breg_mxpy_z.
  rewrite (bind_ok _ _ _ _ _ (assume_ok _ _ Ax)), (bind_ok _ _ _ _ _ (assume_ok _ _ Ay)), (bind_ok _ _ _ _ _ (assume_ok _ _ Az)).
  rewrite (bind_ok _ _ _ _ _ (restrict_ok _ _ _ _ s Hd1)), (bind_ok _ _ _ _ _ (restrict_ok _ _ _ _ s Hd2)).
  by apply mxpy_z_loop.
Qed.

(** *** Gauss-Seidel *)
Lemma pos_lt (n m : nat) (i j : Z) : 0 <= i < Z.of_nat n -> 0 <= j < Z.of_nat m ->
  0 <= i * Z.of_nat m /\ 0 <= i * Z.of_nat m + j < Z.of_nat (n * m).
Proof. intros Hi Hj. assert (i * Z.of_nat m + Z.of_nat m <= Z.of_nat n * Z.of_nat m) by nia. nia. Qed.
Lemma idx_ok (n m : nat) (i j : Z) s : Z.of_nat (n * m) <= INT_MAX -> 0 <= i < Z.of_nat n -> 0 <= j < Z.of_nat m ->
  idx (Z.of_nat m) i j s = Ok (i * Z.of_nat m + j) s.
Proof.
  intros Hmax Hi Hj. pose proof (pos_lt n m i j Hi Hj). unfold idx.
  rewrite (bind_ok _ _ _ _ _ (i32_ok (i * Z.of_nat m) s ltac:(unfold INT_MIN; lia))). apply i32_ok. unfold INT_MIN. lia.
Qed.
Definition okpos (n m : nat) (p : Z * Z) : Prop := 0 <= fst p < Z.of_nat n /\ 0 <= snd p < Z.of_nat m.
Definition posn (m : nat) (p : Z * Z) : nat := Z.to_nat (fst p * Z.of_nat m + snd p).
Lemma usum_run (n m : nat) u us s l a : Z.of_nat (n * m) <= INT_MAX -> seg s u us -> length us = (n * m)%nat ->
  Forall (okpos n m) l ->
  usum (Z.of_nat m) u a l s = Ok (foldl add a (at_ us <$> (posn m <$> l))) s.
Proof.
  intros Hmax Hu Lu. revert a. induction l as [|[i j] l IH]; intros a Hl; [done|].
  apply Forall_cons in Hl as [[Hi Hj] Hl]. simpl in Hi, Hj. simpl usum. pose proof (pos_lt n m i j Hi Hj).
  rewrite (bind_ok _ _ _ _ _ (idx_ok n m i j s Hmax Hi Hj)).
  rewrite (bind_ok _ _ _ _ _ (ld_seg s u us (i * Z.of_nat m + j) Hu ltac:(lia))). rewrite IH by done. done.
Qed.
Lemma gs_upd_run (n m : nat) u rhs us rs s mu lambda (i j : Z) p0 l c :
  Z.of_nat (n * m) <= INT_MAX -> seg s u us -> length us = (n * m)%nat -> seg s rhs rs -> length rs = (n * m)%nat ->
  0 <= i < Z.of_nat n -> 0 <= j < Z.of_nat m -> Forall (okpos n m) (p0 :: l) ->
  nbrs n m (posn m (i, j)) = posn m <$> (p0 :: l) -> c = recip mu lambda (Z.of_nat (length (p0 :: l))) ->
  gs_upd (Z.of_nat m) u rhs lambda c i j p0 l s
  = Ok tt (wr u (<[posn m (i, j) := gs_at n m mu lambda rs us (posn m (i, j))]> us) s).
Proof.
  intros Hmax Hu Lu Hr Lr Hi Hj Hl Hnb ->. unfold gs_upd. destruct p0 as [i0 j0].
  apply Forall_cons in Hl as [[Hi0 Hj0] Hl]. simpl in Hi0, Hj0. cbn [fst snd].
  pose proof (pos_lt n m i j Hi Hj). pose proof (pos_lt n m i0 j0 Hi0 Hj0).
  rewrite (bind_ok _ _ _ _ _ (idx_ok n m i j s Hmax Hi Hj)).
  rewrite (bind_ok _ _ _ _ _ (ld_seg s rhs rs (i * Z.of_nat m + j) Hr ltac:(lia))).
  rewrite (bind_ok _ _ _ _ _ (idx_ok n m i0 j0 s Hmax Hi0 Hj0)).
  rewrite (bind_ok _ _ _ _ _ (ld_seg s u us (i0 * Z.of_nat m + j0) Hu ltac:(lia))).
  rewrite (bind_ok _ _ _ _ _ (usum_run n m u us s l _ Hmax Hu Lu Hl)).
  rewrite (sto_wok _ _ (n * m)); [|by rewrite <- Lu; apply seg_wok|lia].
  assert (HV : mul (add (at_ rs (Z.to_nat (i * Z.of_nat m + j))) (mul (foldl add (at_ us (Z.to_nat (i0 * Z.of_nat m + j0))) (at_ us <$> (posn m <$> l))) lambda))
                   (recip mu lambda (Z.of_nat (length ((i0, j0) :: l)))) = gs_at n m mu lambda rs us (posn m (i, j))).
  { unfold gs_at. rewrite Hnb. cbn [fmap list_fmap lsum length]. by rewrite !fmap_length. }
  rewrite HV. f_equal.
  change (i * Z.of_nat m + j) with (fst (i, j) * Z.of_nat m + snd (i, j)).
  replace (fst (i, j) * Z.of_nat m + snd (i, j)) with (Z.of_nat (posn m (i, j))) by (unfold posn; simpl; lia).
  apply wr_insert; [done|]. unfold posn; simpl. lia.
Qed.

Lemma nbrs_ij (n m i j : nat) : (i < n)%nat -> (j < m)%nat ->
  nbrs n m (i * m + j) =
  (if (j + 1 <? m)%nat then [(i * m + j + 1)%nat] else []) ++ (if (0 <? j)%nat then [(i * m + j - 1)%nat] else []) ++
  (if (i + 1 <? n)%nat then [(i * m + j + m)%nat] else []) ++ (if (0 <? i)%nat then [(i * m + j - m)%nat] else []).
Proof.
  intros Hi Hj. unfold nbrs.
  assert (E : ((i * m + j) mod m)%nat = j) by (rewrite Nat.add_comm, Nat.mod_add by lia; by apply Nat.mod_small).
  rewrite E. do 3 f_equal.
  - replace (i * m + j + m <? n * m)%nat with (i + 1 <? n)%nat; [done|].
    destruct (Nat.ltb_spec (i + 1) n), (Nat.ltb_spec (i * m + j + m) (n * m)); auto; nia.
  - replace (m <=? i * m + j)%nat with (0 <? i)%nat; [done|].
    destruct (Nat.ltb_spec 0 i), (Nat.leb_spec m (i * m + j)); auto; nia.
Qed.

Ltac nlt := repeat match goal with
  | |- context [(?a <? ?b)%nat] => destruct (Nat.ltb_spec a b); [|exfalso; lia] || (destruct (Nat.ltb_spec a b); [exfalso; lia|])
  end.

Lemma gs_run s (n m : nat) u us rhs rs mu lambda :
  (2 <= n)%nat -> (2 <= m)%nat -> Z.of_nat (n * m) <= INT_MAX ->
  seg s u us -> length us = (n * m)%nat -> seg s rhs rs -> length rs = (n * m)%nat -> disj u (n * m) rhs (n * m) ->
  breg_anis_guass_seidel (Z.of_nat n) (Z.of_nat m) u rhs mu lambda s = Ok tt (wr u (gs_of n m mu lambda us rs) s).
Proof.
  intros Hn Hm Hmax Hu Lu Hr Lr Hd.
  set (I := fun k => wr u (gs_upto n m mu lambda rs us k) s).
  assert (LG : forall k, length (gs_upto n m mu lambda rs us k) = (n * m)%nat) by (intros k; by rewrite gs_upto_len).
  assert (Wu : wok s u (n * m)) by (rewrite <- Lu; by apply seg_wok).
  assert (SU : forall k, seg (I k) u (gs_upto n m mu lambda rs us k)) by (intros k; apply seg_wr; by rewrite LG).
  assert (SR : forall k, seg (I k) rhs rs).
  { intros k. apply seg_wr_disj; [by rewrite LG|done|]. by rewrite LG, Lr. }
  assert (Hstep : forall (i j : nat) (p0 : Z * Z) l c, (i < n)%nat -> (j < m)%nat -> Forall (okpos n m) (p0 :: l) ->
     nbrs n m (i * m + j) = posn m <$> (p0 :: l) -> c = recip mu lambda (Z.of_nat (length (p0 :: l))) ->
     gs_upd (Z.of_nat m) u rhs lambda c (Z.of_nat i) (Z.of_nat j) p0 l (I (i * m + j)%nat) = Ok tt (I (S (i * m + j)))).
  { intros i j p0 l c Hi Hj Hl Hnb Hc.
    assert (EP : posn m (Z.of_nat i, Z.of_nat j) = (i * m + j)%nat) by (unfold posn; simpl; lia).
    rewrite (gs_upd_run n m u rhs (gs_upto n m mu lambda rs us (i * m + j)) rs (I (i * m + j)%nat) mu lambda _ _ p0 l c); auto; try lia.
    - rewrite EP. unfold I at 1. rewrite wr_overwrite'; [done|by rewrite LG|]. by rewrite insert_length.
    - by rewrite EP. }
  assert (Hrow : forall (i : nat) (f : Z -> (Z * Z) * list (Z * Z)) c, (i < n)%nat ->
     (forall j : nat, (1 <= j < m - 1)%nat -> Forall (okpos n m) ((f (Z.of_nat j)).1 :: (f (Z.of_nat j)).2) /\
         nbrs n m (i * m + j) = posn m <$> ((f (Z.of_nat j)).1 :: (f (Z.of_nat j)).2) /\
         c = recip mu lambda (Z.of_nat (length ((f (Z.of_nat j)).1 :: (f (Z.of_nat j)).2)))) ->
     for_ 1 (Z.of_nat m - 1) (fun j => gs_upd (Z.of_nat m) u rhs lambda c (Z.of_nat i) j (f j).1 (f j).2) (I (i * m + 1)%nat)
     = Ok tt (I (i * m + (m - 1))%nat)).
  { intros i f c Hi H. pose (I' := fun j : nat => I (i * m + 1 + j)%nat).
    assert (E : for_ 1 (Z.of_nat m - 1) (fun j => gs_upd (Z.of_nat m) u rhs lambda c (Z.of_nat i) j (f j).1 (f j).2) (I' 0%nat)
       = Ok tt (I' (Z.to_nat (Z.of_nat m - 1 - 1)))).
    { apply for_inv. intros j Hj. replace (1 + Z.of_nat j) with (Z.of_nat (1 + j)) by lia.
      destruct (H (1 + j)%nat ltac:(lia)) as (H1 & H2 & H3).
      unfold I'. replace (i * m + 1 + j)%nat with (i * m + (1 + j))%nat by lia.
      replace (i * m + 1 + S j)%nat with (S (i * m + (1 + j))) by lia.
      apply Hstep; auto; lia. }
    unfold I' in E. rewrite Nat.add_0_r in E. rewrite E. do 2 f_equal. lia. }
  assert (E0 : I 0%nat = s) by (unfold I; simpl; by apply wr_self).
  rewrite <- E0 at 1. unfold breg_anis_guass_seidel.
  Ltac pos1 := repeat (apply Forall_cons; split; [split; cbn [fst snd]; lia|]); apply Forall_nil; done.
  Ltac nb n m := rewrite nbrs_ij by lia;
    repeat match goal with
    | |- context [(?a <? ?b)%nat] => first [rewrite (proj2 (Nat.ltb_lt a b)) by lia | rewrite (proj2 (Nat.ltb_ge a b)) by lia]
    end; cbn [app fmap list_fmap]; unfold posn; cbn [fst snd]; repeat (apply f_equal2; [nia|]); done.
  (* top left *)
  rewrite (bind_ok _ _ _ tt (I (0 * m + 1)%nat)).
  2:{ apply (Hstep 0%nat 0%nat); [lia|lia|pos1|nb n m|done]. }
  (* top row *)
  rewrite (bind_ok _ _ _ tt (I (0 * m + (m - 1))%nat)).
  2:{ apply (Hrow 0%nat (fun j => ((0, j + 1), [(0, j - 1); (0 + 1, j)]))); [lia|].
      intros j Hj. split; [pos1|]. split; [|done]. cbn [fst snd]. nb n m. }
  rewrite (bind_ok _ _ _ tt (I (1 * m + 0)%nat)).
  2:{ pose proof (Hstep 0%nat (m - 1)%nat (0, Z.of_nat m - 1 - 1) [(0 + 1, Z.of_nat m - 1)] (recip mu lambda 2)) as H.
      replace (Z.of_nat (m - 1)) with (Z.of_nat m - 1) in H by lia.
      etransitivity; [apply H; [lia|lia|pos1|nb n m|done]|do 2 f_equal; lia]. }
  (* middle rows *)
  pose (I2 := fun i : nat => I ((1 + i) * m + 0)%nat).
  assert (EM : for_ 1 (Z.of_nat n - 1) (fun i =>
    gs_upd (Z.of_nat m) u rhs lambda (recip mu lambda 3) i 0 (i, 0 + 1) [(i + 1, 0); (i - 1, 0)] ;!
    for_ 1 (Z.of_nat m - 1) (fun j =>
      gs_upd (Z.of_nat m) u rhs lambda (recip mu lambda 4) i j (i, j + 1) [(i, j - 1); (i + 1, j); (i - 1, j)]) ;!
    gs_upd (Z.of_nat m) u rhs lambda (recip mu lambda 3) i (Z.of_nat m - 1) (i, Z.of_nat m - 1 - 1) [(i + 1, Z.of_nat m - 1); (i - 1, Z.of_nat m - 1)]) (I2 0%nat)
    = Ok tt (I2 (Z.to_nat (Z.of_nat n - 1 - 1)))).
  { apply for_inv. intros i0 Hi0. unfold I2. replace (1 + Z.of_nat i0) with (Z.of_nat (1 + i0)) by lia.
    set (i := (1 + i0)%nat). assert (1 <= i < n - 1)%nat by lia.
    rewrite (bind_ok _ _ _ tt (I (i * m + 1)%nat)).
    2:{ etransitivity; [apply (Hstep i 0%nat); [lia|lia|pos1|nb n m|done]|do 2 f_equal; lia]. }
    rewrite (bind_ok _ _ _ tt (I (i * m + (m - 1))%nat)).
    2:{ apply (Hrow i (fun j => ((Z.of_nat i, j + 1), [(Z.of_nat i, j - 1); (Z.of_nat i + 1, j); (Z.of_nat i - 1, j)]))); [lia|].
        intros j Hj. split; [pos1|]. split; [|done]. cbn [fst snd]. nb n m. }
    pose proof (Hstep i (m - 1)%nat (Z.of_nat i, Z.of_nat m - 1 - 1) [(Z.of_nat i + 1, Z.of_nat m - 1); (Z.of_nat i - 1, Z.of_nat m - 1)] (recip mu lambda 3)) as H3.
    replace (Z.of_nat (m - 1)) with (Z.of_nat m - 1) in H3 by lia.
    etransitivity; [apply H3; [lia|lia|pos1|nb n m|done]|do 2 f_equal; lia]. }
  rewrite (bind_ok _ _ _ _ _ EM). unfold I2. clear EM I2.
  replace ((1 + Z.to_nat (Z.of_nat n - 1 - 1)) * m + 0)%nat with ((n - 1) * m + 0)%nat by (f_equal; f_equal; lia).
  replace (Z.of_nat n - 1) with (Z.of_nat (n - 1)) by lia.
  rewrite (bind_ok _ _ _ tt (I ((n - 1) * m + 1)%nat)).
  2:{ etransitivity; [apply (Hstep (n - 1)%nat 0%nat); [lia|lia|pos1|nb n m|done]|do 2 f_equal; lia]. }
  rewrite (bind_ok _ _ _ tt (I ((n - 1) * m + (m - 1))%nat)).
  2:{ apply (Hrow (n - 1)%nat (fun j => ((Z.of_nat (n - 1), j + 1), [(Z.of_nat (n - 1), j - 1); (Z.of_nat (n - 1) - 1, j)]))); [lia|].
      intros j Hj. split; [pos1|]. split; [|done]. cbn [fst snd]. nb n m. }
  pose proof (Hstep (n - 1)%nat (m - 1)%nat (Z.of_nat (n - 1), Z.of_nat m - 1 - 1) [(Z.of_nat (n - 1) - 1, Z.of_nat m - 1)] (recip mu lambda 2)) as H4.
  replace (Z.of_nat (m - 1)) with (Z.of_nat m - 1) in H4 by lia.
  etransitivity; [apply H4; [lia|lia|pos1|nb n m|done]|]. f_equal. unfold I. f_equal. unfold gs_of. f_equal. nia.
Qed.
End gs.
