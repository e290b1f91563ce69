(** * Runs of the vectorised kernels of src/vcl/vcl_math.cpp, for every arithmetic. *)
From Coq Require Import ZArith Lia.
From stdpp Require Import base numbers gmap list.
From Verif Require Import P_Loop P_Math M_Math.
Local Open Scope Z_scope.

Lemma regularpart_eq n : regularpart n = 4 * (n / 4).
Proof.
  unfold regularpart. change 3 with (Z.ones 2). rewrite <- Z.ldiff_land.
  rewrite Z.ldiff_ones_r by lia. rewrite Z.shiftl_mul_pow2, Z.shiftr_div_pow2 by lia.
  change (2 ^ 2) with 4. lia.
Qed.

Section vcl.
Context `{N : Num}.
Implicit Types (s : st) (p q x y z : ptr) (xs ys zs : list T).

Definition four xs (k : nat) : vec4 := (at_ xs (4 * k), at_ xs (4 * k + 1), at_ xs (4 * k + 2), at_ xs (4 * k + 3)).
Definition vsum_of (g : T -> T) n xs : T :=
  let q := (n / 4)%nat in
  add (foldi (n - 4 * q) (fun i a => add a (g (at_ xs (4 * q + i)))) zero)
      (horizontal_add (foldi q (fun k sv => zip4 add sv (map4 g (four xs k))) (zero, zero, zero, zero))).

Lemma div4 n : Z.of_nat n / 4 = Z.of_nat (n / 4).
Proof. change 4 with (Z.of_nat 4). by rewrite Nat2Z.inj_div. Qed.
Lemma div4_le n : (4 * (n / 4) <= n)%nat.
Proof. apply Nat.mul_div_le. lia. Qed.

Lemma load_a_run s x xs k : is_aligned s x = true -> seg s x xs -> (4 * k + 4 <= length xs)%nat ->
  load_a x (4 * Z.of_nat k) s = Ok (four xs k) s.
Proof.
  intros HA Hx Hk. destruct x as [|b o].
  { exfalso. assert (0 < length xs)%nat as H by lia. pose proof (seg_cell _ _ _ 0 Hx H). done. }
  unfold load_a. simpl in HA. apply andb_true_iff in HA as [-> Ho]. apply Z.eqb_eq in Ho.
  rewrite (proj2 (Z.eqb_eq _ _)).
  2:{ apply Z.mod_divide; [lia|]. apply Z.mod_divide in Ho; [|lia]. destruct Ho as [c ->].
      exists (2 * c + Z.of_nat k). lia. }
  simpl andb. cbv iota.
  rewrite (bind_ok _ _ _ _ _ (ld_seg s (Ptr b o) xs (4 * Z.of_nat k) Hx ltac:(lia))).
  rewrite (bind_ok _ _ _ _ _ (ld_seg s (Ptr b o) xs (4 * Z.of_nat k + 1) Hx ltac:(lia))).
  rewrite (bind_ok _ _ _ _ _ (ld_seg s (Ptr b o) xs (4 * Z.of_nat k + 2) Hx ltac:(lia))).
  rewrite (bind_ok _ _ _ _ _ (ld_seg s (Ptr b o) xs (4 * Z.of_nat k + 3) Hx ltac:(lia))).
  unfold ret, four. do 2 f_equal; [f_equal; [f_equal|]|]; f_equal; lia.
Qed.

Lemma for4_run {A} (q : nat) (a : A) (body : Z -> A -> M A) (g : nat -> A -> A) s :
  (forall k a, (k < q)%nat -> body (4 * Z.of_nat k) a s = Ok (g k a) s) ->
  for4 0 (4 * Z.of_nat q) a body s = Ok (foldi q g a) s.
Proof.
  intros H. unfold for4. rewrite Z.sub_0_r.
  replace ((4 * Z.of_nat q + 3) / 4) with (Z.of_nat q).
  2:{ rewrite Z.add_comm, Z.mul_comm, Z.div_add by lia. done. }
  apply for_acc_fold. intros i a0 Hi. rewrite Z.add_0_l. by apply H.
Qed.

Lemma vcl_tail (n : nat) (g : T -> T) s x xs (body : Z -> T -> M T) :
  seg s x xs -> (n <= length xs)%nat ->
  (forall i a, (i < n)%nat -> body (Z.of_nat i) a s = Ok (add a (g (at_ xs i))) s) ->
  for_acc (Z.max 0 (4 * Z.of_nat (n / 4))) (Z.of_nat n) zero body s
  = Ok (foldi (n - 4 * (n / 4)) (fun i a => add a (g (at_ xs (4 * (n / 4) + i)))) zero) s.
Proof.
  intros Hx Hl H. pose proof (div4_le n). rewrite Z.max_r by lia. unfold for_acc.
  replace (Z.to_nat (Z.of_nat n - 4 * Z.of_nat (n / 4))) with (n - 4 * (n / 4))%nat by lia.
  apply (accn_inv (fun i => foldi i (fun i a => add a (g (at_ xs (4 * (n / 4) + i)))) zero)).
  intros i Hi. replace (4 * Z.of_nat (n / 4) + Z.of_nat i) with (Z.of_nat (4 * (n / 4) + i)) by lia.
  rewrite H by lia. done.
Qed.

Lemma vcl_sum_run s n x xs : is_aligned s x = true -> seg s x xs -> (n <= length xs)%nat ->
  vcl_sum (Z.of_nat n) x s = Ok (vsum_of (fun v => v) n xs) s.
Proof.
  intros HA Hx Hl. unfold vcl_sum. pose proof (div4_le n). cbv zeta. rewrite regularpart_eq, div4.
  rewrite (bind_ok _ _ _ (foldi (n / 4) (fun k sv => zip4 add sv (map4 (fun v => v) (four xs k))) (zero, zero, zero, zero)) s).
  2:{ apply for4_run. intros k a Hk. by rewrite (bind_ok _ _ _ _ _ (load_a_run s x xs k HA Hx ltac:(lia))). }
  rewrite (bind_ok _ _ _ _ _ (vcl_tail n (fun v => v) s x xs _ Hx Hl
    (fun i a Hi => bind_ok _ _ _ _ _ (seg_ld s x xs i Hx ltac:(lia))))). done.
Qed.
Lemma vcl_logsum_run s n alpha x xs : is_aligned s x = true -> seg s x xs -> (n <= length xs)%nat ->
  vcl_logsum (Z.of_nat n) alpha x s = Ok (vsum_of (fun v => log_ (mul v alpha)) n xs) s.
Proof.
  intros HA Hx Hl. unfold vcl_logsum. pose proof (div4_le n). cbv zeta. rewrite regularpart_eq, div4.
  rewrite (bind_ok _ _ _ (foldi (n / 4) (fun k sv => zip4 add sv (map4 (fun v => log_ (mul v alpha)) (four xs k))) (zero, zero, zero, zero)) s).
  2:{ apply for4_run. intros k a Hk. by rewrite (bind_ok _ _ _ _ _ (load_a_run s x xs k HA Hx ltac:(lia))). }
  rewrite (bind_ok _ _ _ _ _ (vcl_tail n (fun v => log_ (mul v alpha)) s x xs _ Hx Hl
    (fun i a Hi => bind_ok _ _ _ _ _ (seg_ld s x xs i Hx ltac:(lia))))). done.
Qed.

(** z := x*y + z *)
Definition xmypz_of n xs ys zs := tab n (fun i => add (mul (at_ xs i) (at_ ys i)) (at_ zs i)).

Lemma at_lt_tab n (f : nat -> T) i : (i < n)%nat -> at_ (tab n f) i = f i.
Proof. apply at_tab. Qed.

(** reading z while its first k entries have been overwritten *)
Lemma ld_partial s z zs f k i : seg s z zs -> (k <= i)%nat -> (i < length zs)%nat ->
  ld z (Z.of_nat i) (wr z (tab k f) s) = Ok (at_ zs i) (wr z (tab k f) s).
Proof.
  intros Hz Hk Hi. apply ld_ok. rewrite cell_wr_other.
  - by apply seg_cell.
  - rewrite tab_length. eapply wok_le; [by apply seg_wok|lia].
  - rewrite tab_length. destruct z as [|b o]; [done|]. simpl. rewrite Nat.eqb_refl. simpl.
    destruct (o <=? o + Z.of_nat i) eqn:E; [|done]. apply Z.ltb_ge. lia.
Qed.
Lemma sto_next s z zs f k : seg s z zs -> (k < length zs)%nat ->
  sto z (Z.of_nat k) (f k) (wr z (tab k f) s) = Ok tt (wr z (tab (S k) f) s).
Proof.
  intros Hz Hk. assert (Hw : wok s z (length zs)) by (by apply seg_wok).
  assert (Hwk : wok s z (length (tab k f))) by (rewrite tab_length; eapply wok_le; [exact Hw|lia]).
  rewrite (wok_sto _ _ (length zs)); [|by apply wok_wr|done].
  rewrite tab_S. rewrite <- (wr_app' s z (tab k f) [f k]).
  - by rewrite tab_length.
  - rewrite app_length, tab_length. simpl. eapply wok_le; [exact Hw|lia].
Qed.
Lemma ld_partial_other s z zs f k x xs i : seg s x xs -> wok s z k -> disj z k x (length xs) -> (i < length xs)%nat ->
  ld x (Z.of_nat i) (wr z (tab k f) s) = Ok (at_ xs i) (wr z (tab k f) s).
Proof. intros Hx Hw Hd Hi. apply seg_ld; [|done]. apply seg_wr_disj; rewrite ?tab_length; auto. Qed.

Lemma load_a_run' s x k v0 v1 v2 v3 : is_aligned s x = true ->
  ld x (4 * Z.of_nat k) s = Ok v0 s -> ld x (4 * Z.of_nat k + 1) s = Ok v1 s ->
  ld x (4 * Z.of_nat k + 2) s = Ok v2 s -> ld x (4 * Z.of_nat k + 3) s = Ok v3 s ->
  load_a x (4 * Z.of_nat k) s = Ok (v0, v1, v2, v3) s.
Proof.
  intros HA H0 H1 H2 H3. destruct x as [|b o]; [done|].
  unfold load_a. simpl in HA. apply andb_true_iff in HA as [-> Ho]. apply Z.eqb_eq in Ho.
  rewrite (proj2 (Z.eqb_eq _ _)).
  2:{ apply Z.mod_divide; [lia|]. apply Z.mod_divide in Ho; [|lia]. destruct Ho as [c ->].
      exists (2 * c + Z.of_nat k). lia. }
  simpl andb. cbv iota.
  by rewrite (bind_ok _ _ _ _ _ H0), (bind_ok _ _ _ _ _ H1), (bind_ok _ _ _ _ _ H2), (bind_ok _ _ _ _ _ H3).
Qed.

Lemma vcl_dxMy_pz_run s n x xs y ys z zs :
  is_aligned s x = true -> is_aligned s y = true -> is_aligned s z = true ->
  seg s x xs -> seg s y ys -> seg s z zs ->
  length xs = n -> length ys = n -> length zs = n -> disj z n x n -> disj z n y n ->
  vcl_dxMy_pz (Z.of_nat n) x y z s = Ok tt (wr z (xmypz_of n xs ys zs) s).
Proof.
  intros Ax Ay Az Hx Hy Hz Lx Ly Lz Dx Dy. unfold vcl_dxMy_pz. pose proof (div4_le n). cbv zeta. rewrite regularpart_eq, div4.
  set (f := fun i => add (mul (at_ xs i) (at_ ys i)) (at_ zs i)).
  assert (Hwz : forall k, (k <= n)%nat -> wok s z k).
  { intros k Hk. eapply wok_le; [by apply seg_wok|lia]. }
  assert (LX : forall k i, (k <= n)%nat -> (i < n)%nat -> ld x (Z.of_nat i) (wr z (tab k f) s) = Ok (at_ xs i) (wr z (tab k f) s)).
  { intros k i Hk Hi. apply (ld_partial_other _ _ zs); [done|by apply Hwz| |lia]. eapply disj_le; [exact Dx|lia|lia]. }
  assert (LY : forall k i, (k <= n)%nat -> (i < n)%nat -> ld y (Z.of_nat i) (wr z (tab k f) s) = Ok (at_ ys i) (wr z (tab k f) s)).
  { intros k i Hk Hi. apply (ld_partial_other _ _ zs); [done|by apply Hwz| |lia]. eapply disj_le; [exact Dy|lia|lia]. }
  assert (LZ : forall k i, (k <= i)%nat -> (i < n)%nat -> ld z (Z.of_nat i) (wr z (tab k f) s) = Ok (at_ zs i) (wr z (tab k f) s)).
  { intros k i Hk Hi. apply ld_partial; [done|lia|lia]. }
  assert (SZ : forall k, (k < n)%nat -> sto z (Z.of_nat k) (f k) (wr z (tab k f) s) = Ok tt (wr z (tab (S k) f) s)).
  { intros k Hk. apply (sto_next _ _ zs); [done|lia]. }
  rewrite (bind_ok _ _ _ tt (wr z (tab (4 * (n / 4)) f) s)).
  2:{ unfold for4. rewrite Z.sub_0_r.
      replace ((4 * Z.of_nat (n / 4) + 3) / 4) with (Z.of_nat (n / 4)).
      2:{ rewrite Z.add_comm, Z.mul_comm, Z.div_add by lia. done. }
      unfold for_acc. rewrite Z.sub_0_r, Nat2Z.id.
      assert (HA : exists a s', accn (n / 4) 0 tt (fun k _ => let i := 0 + 4 * k in
         let* xv := load_a x i in let* yv := load_a y i in let* zv := load_a z i in
         store4 z i (zip4 add (zip4 mul xv yv) zv)) s = Ok a s' /\ s' = wr z (tab (4 * (n / 4)) f) s).
      { apply (accn_rel (fun k _ s' => s' = wr z (tab (4 * k) f) s)).
        - change (tab (4 * 0) f) with (@nil T). by rewrite wr_nil.
        - intros i a s0 Hi ->. cbv zeta. rewrite !Z.add_0_l.
          set (s0 := wr z (tab (4 * i) f) s).
          assert (E : load_a x (4 * Z.of_nat i) s0 = Ok (four xs i) s0).
          { apply load_a_run'; [unfold s0; by rewrite is_aligned_wr|..].
            - replace (4 * Z.of_nat i) with (Z.of_nat (4 * i)) by lia. apply LX; lia.
            - replace (4 * Z.of_nat i + 1) with (Z.of_nat (4 * i + 1)) by lia. apply LX; lia.
            - replace (4 * Z.of_nat i + 2) with (Z.of_nat (4 * i + 2)) by lia. apply LX; lia.
            - replace (4 * Z.of_nat i + 3) with (Z.of_nat (4 * i + 3)) by lia. apply LX; lia. }
          rewrite (bind_ok _ _ _ _ _ E). clear E.
          assert (E : load_a y (4 * Z.of_nat i) s0 = Ok (four ys i) s0).
          { apply load_a_run'; [unfold s0; by rewrite is_aligned_wr|..].
            - replace (4 * Z.of_nat i) with (Z.of_nat (4 * i)) by lia. apply LY; lia.
            - replace (4 * Z.of_nat i + 1) with (Z.of_nat (4 * i + 1)) by lia. apply LY; lia.
            - replace (4 * Z.of_nat i + 2) with (Z.of_nat (4 * i + 2)) by lia. apply LY; lia.
            - replace (4 * Z.of_nat i + 3) with (Z.of_nat (4 * i + 3)) by lia. apply LY; lia. }
          rewrite (bind_ok _ _ _ _ _ E). clear E.
          assert (E : load_a z (4 * Z.of_nat i) s0 = Ok (four zs i) s0).
          { apply load_a_run'; [unfold s0; by rewrite is_aligned_wr|..].
            - replace (4 * Z.of_nat i) with (Z.of_nat (4 * i)) by lia. apply LZ; lia.
            - replace (4 * Z.of_nat i + 1) with (Z.of_nat (4 * i + 1)) by lia. apply LZ; lia.
            - replace (4 * Z.of_nat i + 2) with (Z.of_nat (4 * i + 2)) by lia. apply LZ; lia.
            - replace (4 * Z.of_nat i + 3) with (Z.of_nat (4 * i + 3)) by lia. apply LZ; lia. }
          rewrite (bind_ok _ _ _ _ _ E). clear E.
          exists tt, (wr z (tab (4 * S i) f) s). split; [|done].
          unfold store4, four, zip4.
          replace (4 * Z.of_nat i) with (Z.of_nat (4 * i)) by lia.
          replace (Z.of_nat (4 * i) + 1) with (Z.of_nat (S (4 * i))) by lia.
          replace (Z.of_nat (4 * i) + 2) with (Z.of_nat (S (S (4 * i)))) by lia.
          replace (Z.of_nat (4 * i) + 3) with (Z.of_nat (S (S (S (4 * i))))) by lia.
          replace (4 * i + 1)%nat with (S (4 * i)) by lia.
          replace (4 * i + 2)%nat with (S (S (4 * i))) by lia.
          replace (4 * i + 3)%nat with (S (S (S (4 * i)))) by lia.
          rewrite (bind_ok _ _ _ _ _ (SZ (4 * i)%nat ltac:(lia))).
          rewrite (bind_ok _ _ _ _ _ (SZ (S (4 * i)) ltac:(lia))).
          rewrite (bind_ok _ _ _ _ _ (SZ (S (S (4 * i))) ltac:(lia))).
          replace (4 * S i)%nat with (S (S (S (S (4 * i))))) by lia.
          exact (SZ (S (S (S (4 * i)))) ltac:(lia)). }
      destruct HA as ([] & s' & E & ->). exact E. }
  rewrite Z.max_r by lia. unfold for_.
  replace (Z.to_nat (Z.of_nat n - 4 * Z.of_nat (n / 4))) with (n - 4 * (n / 4))%nat by lia.
  set (o := (4 * (n / 4))%nat).
  unfold xmypz_of. fold f.
  assert (Ho : (o <= n)%nat) by lia.
  assert (E0 : wr z (tab o f) s = wr z (tab (o + 0) f) s) by (by rewrite Nat.add_0_r).
  assert (E1 : wr z (tab n f) s = wr z (tab (o + (n - o)) f) s) by (do 2 f_equal; lia).
  rewrite E0, E1. apply (forn_inv (fun k => wr z (tab (o + k) f) s)).
  intros i Hi. replace (4 * Z.of_nat (n / 4) + Z.of_nat i) with (Z.of_nat (o + i)) by lia.
  rewrite (bind_ok _ _ _ _ _ (LX (o + i)%nat (o + i)%nat ltac:(lia) ltac:(lia))).
  rewrite (bind_ok _ _ _ _ _ (LY (o + i)%nat (o + i)%nat ltac:(lia) ltac:(lia))).
  rewrite (bind_ok _ _ _ _ _ (LZ (o + i)%nat (o + i)%nat ltac:(lia) ltac:(lia))).
  replace (o + S i)%nat with (S (o + i)) by lia. apply SZ. lia.
Qed.
End vcl.
