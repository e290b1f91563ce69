(** * Running the difference operators: exact results for every arithmetic. *)
From Coq Require Import ZArith Lia.
From stdpp Require Import base numbers gmap list.
From Verif Require Import P_Loop M_TV.
Local Open Scope Z_scope.

Section tv.
Context `{N : Num}.
Implicit Types (s : st) (X D : ptr) (xs : list T).

(** results of the row operators at position j of a row starting at index o *)
Definition ddiff_at (m : nat) (alpha : T) xs (o j : nat) : T :=
  if (j + 1 <? m)%nat then mul alpha (sub (at_ xs (o + j + 1)) (at_ xs (o + j))) else zero.
Definition ddiffT_at (m : nat) (alpha : T) xs (o j : nat) : T :=
  if (j =? 0)%nat then mul (opp alpha) (at_ xs o)
  else if (j + 1 <? m)%nat then mul alpha (sub (at_ xs (o + j - 1)) (at_ xs (o + j)))
  else mul alpha (at_ xs (o + j - 1)).
Definition ddiff2_at (m : nat) (alpha : T) xs (o j : nat) : T :=
  let alp2 := mul alpha alpha in
  if (j =? 0)%nat then mul alp2 (sub (at_ xs o) (at_ xs (o + 1)))
  else if (j + 1 <? m)%nat then
    mul alp2 (sub (add (opp (at_ xs (o + j - 1))) (mul two (at_ xs (o + j)))) (at_ xs (o + j + 1)))
  else mul alp2 (sub (at_ xs (o + j)) (at_ xs (o + j - 1))).

(** whole-image results, as functions of the linear index k = row*m + column *)
Definition row_of (g : nat -> T -> list T -> nat -> nat -> T) (n m : nat) (alpha : T) xs : list T :=
  tab (n * m) (fun k => g m alpha xs (k - k mod m)%nat (k mod m)%nat).
Definition Dx_of := row_of ddiff_at.
Definition DxT_of := row_of ddiffT_at.
Definition DxTDx_of := row_of ddiff2_at.
Definition Dy_of (n m : nat) (alpha : T) xs : list T :=
  tab (n * m) (fun k => if (k <? (n - 1) * m)%nat
                        then mul alpha (sub (at_ xs (k + m)) (at_ xs k)) else zero).
Definition DyT_of (n m : nat) (alpha : T) xs : list T :=
  tab (n * m) (fun k => mul alpha (sub (if (k <? m)%nat then zero else at_ xs (k - m))
                                       (if (k <? (n - 1) * m)%nat then at_ xs k else zero))).
Definition DyTDy_of (n m : nat) (alpha : T) xs : list T :=
  tab (n * m) (fun k =>
    mul (mul alpha alpha)
        (sub (add (opp (if (k <? m)%nat then zero else at_ xs (k - m)))
                  (if ((k <? m) || ((n - 1) * m <=? k))%nat then at_ xs k else mul two (at_ xs k)))
             (if (k <? (n - 1) * m)%nat then at_ xs (k + m) else zero))).

(** ** Rows *)
Lemma ld_ready s X xs D L i : ready s X xs D L -> 0 <= i < Z.of_nat (length xs) ->
  ld X i s = Ok (at_ xs (Z.to_nat i)) s.
Proof. intros [H _]. by apply ld_seg. Qed.

Lemma ld_row s X xs D L (o : nat) i : ready s X xs D L -> 0 <= Z.of_nat o + i < Z.of_nat (length xs) ->
  ld (padd X (Z.of_nat o)) i s = Ok (at_ xs (Z.to_nat (Z.of_nat o + i))) s.
Proof.
  intros H Hi. unfold ld. rewrite cell_padd.
  pose proof (ld_ready _ _ _ _ _ _ H Hi) as E. unfold ld in E.
  destruct (cell s X (Z.of_nat o + i)) as [[v|]|]; congruence.
Qed.

Ltac ldr H :=
  match goal with
  | |- context [bind (ld (padd ?X (Z.of_nat ?o)) ?i) ?k ?s] =>
      rewrite (bind_ok (ld (padd X (Z.of_nat o)) i) k s _ s (ld_row s X _ _ _ o i H ltac:(lia)))
  end.

Lemma sto_row s X xs D L (o : nat) i v : ready s X xs D L -> 0 <= i -> Z.of_nat o + i < Z.of_nat L ->
  sto (padd D (Z.of_nat o)) i v s = Ok tt (wr (padd D (Z.of_nat o + i)) [v] s).
Proof.
  intros [_ H] H0 Hi. rewrite (sto_wok _ _ (Z.to_nat i + 1)); [by rewrite padd_padd| |lia].
  eapply wok_padd; [exact H|lia].
Qed.

Lemma wok_row s X xs D L (o m : nat) : ready s X xs D L -> (o + m <= L)%nat ->
  wok s (padd D (Z.of_nat o)) m.
Proof. intros [_ H] Hi. eapply wok_padd; eauto. Qed.

Lemma ddiff_row s X xs D L (o m : nat) alpha :
  (1 <= m)%nat -> (o + m <= length xs)%nat -> (o + m <= L)%nat ->
  disj D L X (length xs) -> ready s X xs D L ->
  ddiff_z (Z.of_nat m) alpha (padd X (Z.of_nat o)) (padd D (Z.of_nat o)) s
  = Ok tt (wr (padd D (Z.of_nat o)) (tab m (ddiff_at m alpha xs o)) s).
Proof.
  intros Hm Hx HL Hd HR. unfold ddiff_z.
  destruct m as [|m]; [lia|].
  set (f := fun j => mul alpha (sub (at_ xs (o + j + 1)) (at_ xs (o + j)))).
  assert (E : for_ 1 (Z.of_nat (S m)) (fun i : Z => let* a := ld (padd X (Z.of_nat o)) i in
      let* b := ld (padd X (Z.of_nat o)) (i - 1) in
      sto (padd D (Z.of_nat o)) (i - 1) (mul alpha (sub a b))) s
      = Ok tt (wr (padd D (Z.of_nat o)) (tab m f) s)).
  { unfold for_. replace (Z.to_nat (Z.of_nat (S m) - 1)) with m by lia.
    apply (for_cells_I (fun s => ready s X xs D L)); auto.
    - intros s0 i v H0 Hi. rewrite padd_padd. apply ready_wr; auto; simpl; lia.
    - intros s0 H0. eapply wok_row; [exact H0|lia].
    - intros s0 i H0 Hi. do 2 ldr H0.
      replace (1 + Z.of_nat i - 1) with (Z.of_nat i) by lia. unfold f.
      do 4 f_equal; lia. }
  rewrite (bind_ok _ _ _ _ _ E).
  assert (HR1 : wok s (padd D (Z.of_nat o)) (S m)) by (eapply wok_row; eauto).
  rewrite (sto_wok _ _ (S m)); [| |lia].
  2:{ apply wok_wr; rewrite ?tab_length; auto. eapply wok_le; eauto. }
  replace (Z.of_nat (S m) - 1) with (Z.of_nat (length (tab m f))) by (rewrite tab_length; lia).
  rewrite wr_app' by (rewrite app_length, tab_length; simpl; eapply wok_le; eauto; lia).
  rewrite tab_snoc. do 2 f_equal. apply tab_ext. intros i Hi. unfold ddiff_at, f.
  destruct (Nat.ltb_spec i m), (Nat.ltb_spec (i + 1) (S m)); auto; lia.
Qed.

Lemma ddiffT_row s X xs D L (o m : nat) alpha :
  (2 <= m)%nat -> (o + m <= length xs)%nat -> (o + m <= L)%nat ->
  disj D L X (length xs) -> ready s X xs D L ->
  ddiffT_z (Z.of_nat m) alpha (padd X (Z.of_nat o)) (padd D (Z.of_nat o)) s
  = Ok tt (wr (padd D (Z.of_nat o)) (tab m (ddiffT_at m alpha xs o)) s).
Proof.
  intros Hm Hx HL Hd HR. unfold ddiffT_z.
  destruct m as [|[|m]]; [lia..|].
  set (f := fun j => if (j =? 0)%nat then mul (opp alpha) (at_ xs o)
                     else mul alpha (sub (at_ xs (o + j - 1)) (at_ xs (o + j)))).
  assert (HR0 : wok s (padd D (Z.of_nat o)) (S (S m))) by (eapply wok_row; eauto).
  assert (E0 : (let* a := ld (padd X (Z.of_nat o)) 0 in sto (padd D (Z.of_nat o)) 0 (mul (opp alpha) a)) s
     = Ok tt (wr (padd D (Z.of_nat o)) [f 0%nat] s)).
  { ldr HR. erewrite sto_row by (eauto; lia). rewrite Z.add_0_r, Nat2Z.id. done. }
  rewrite (bind_ok _ _ _ _ _ E0).
  set (s1 := wr (padd D (Z.of_nat o)) [f 0%nat] s).
  assert (HR1 : ready s1 X xs D L) by (apply ready_wr; auto; simpl; lia).
  assert (E : for_ 1 (Z.of_nat (S (S m))) (fun i : Z => let* a := ld (padd X (Z.of_nat o)) (i - 1) in
      let* b := ld (padd X (Z.of_nat o)) i in
      sto (padd D (Z.of_nat o)) i (mul alpha (sub a b))) s1
      = Ok tt (wr (padd D (Z.of_nat (o + 1))) (tab (S m) (fun j => f (1 + j)%nat)) s1)).
  { unfold for_. replace (Z.to_nat (Z.of_nat (S (S m)) - 1)) with (S m) by lia.
    apply (for_cells_I (fun s => ready s X xs D L)); auto.
    - intros s0 i v H0 Hi. rewrite padd_padd. apply ready_wr; auto; simpl; lia.
    - intros s0 H0. eapply wok_row; [exact H0|lia].
    - intros s0 i H0 Hi. do 2 ldr H0.
      erewrite !sto_row by (eauto; lia). f_equal.
      replace (Z.of_nat (o + 1) + Z.of_nat i) with (Z.of_nat o + (1 + Z.of_nat i)) by lia.
      unfold f. simpl. do 6 f_equal; lia. }
  rewrite (bind_ok _ _ _ _ _ E).
  assert (E2 : wr (padd D (Z.of_nat (o + 1))) (tab (S m) (fun j => f (1 + j)%nat)) s1
     = wr (padd D (Z.of_nat o)) (tab (S (S m)) f) s).
  { change (S (S m)) with (1 + S m)%nat. rewrite (tab_app 1 (S m) f).
    rewrite <- wr_app' by (rewrite app_length, !tab_length; eapply wok_le; eauto; lia).
    rewrite tab_length, padd_padd. unfold s1. do 2 f_equal. lia. }
  rewrite E2.
  assert (HR2 : ready (wr (padd D (Z.of_nat o)) (tab (S (S m)) f) s) X xs D L)
    by (apply ready_wr; auto; rewrite ?tab_length; lia).
  ldr HR2.
  erewrite sto_row by (eauto; lia).
  replace (Z.of_nat o + (Z.of_nat (S (S m)) - 1)) with (Z.of_nat o + Z.of_nat (S m)) by lia.
  rewrite <- padd_padd. rewrite wr_last by done.
  rewrite tab_snoc. do 2 f_equal. apply tab_ext. intros i Hi. unfold ddiffT_at, f.
  destruct (Nat.eqb_spec i 0) as [->|].
  { done. }
  destruct (Nat.ltb_spec i (S m)), (Nat.ltb_spec (i + 1) (S (S m))); auto; try lia.
  do 2 f_equal. lia.
Qed.

Lemma ddiff2_row s X xs D L (o m : nat) alpha :
  (2 <= m)%nat -> (o + m <= length xs)%nat -> (o + m <= L)%nat ->
  disj D L X (length xs) -> ready s X xs D L ->
  ddiff2_z (Z.of_nat m) alpha (padd X (Z.of_nat o)) (padd D (Z.of_nat o)) s
  = Ok tt (wr (padd D (Z.of_nat o)) (tab m (ddiff2_at m alpha xs o)) s).
Proof.
  intros Hm Hx HL Hd HR. unfold ddiff2_z.
  destruct m as [|[|m]]; [lia..|].
  set (f := ddiff2_at (S (S m)) alpha xs o).
  assert (HR0 : wok s (padd D (Z.of_nat o)) (S (S m))) by (eapply wok_row; eauto).
  assert (E0 : (let* a := ld (padd X (Z.of_nat o)) 0 in let* b := ld (padd X (Z.of_nat o)) 1 in
       sto (padd D (Z.of_nat o)) 0 (mul (mul alpha alpha) (sub a b))) s
     = Ok tt (wr (padd D (Z.of_nat o)) [f 0%nat] s)).
  { do 2 ldr HR. erewrite sto_row by (eauto; lia). rewrite Z.add_0_r, Nat2Z.id. unfold f, ddiff2_at. simpl.
    do 6 f_equal. lia. }
  rewrite (bind_ok _ _ _ _ _ E0).
  set (s1 := wr (padd D (Z.of_nat o)) [f 0%nat] s).
  assert (HR1 : ready s1 X xs D L) by (apply ready_wr; auto; simpl; lia).
  assert (E : for_ 1 (Z.of_nat (S (S m)) - 1) (fun i : Z => let* a := ld (padd X (Z.of_nat o)) (i - 1) in
      let* b := ld (padd X (Z.of_nat o)) i in let* c := ld (padd X (Z.of_nat o)) (i + 1) in
      sto (padd D (Z.of_nat o)) i (mul (mul alpha alpha) (sub (add (opp a) (mul two b)) c))) s1
      = Ok tt (wr (padd D (Z.of_nat (o + 1))) (tab m (fun j => f (1 + j)%nat)) s1)).
  { unfold for_. replace (Z.to_nat (Z.of_nat (S (S m)) - 1 - 1)) with m by lia.
    apply (for_cells_I (fun s => ready s X xs D L)); auto.
    - intros s0 i v H0 Hi. rewrite padd_padd. apply ready_wr; auto; simpl; lia.
    - intros s0 H0. eapply wok_row; [exact H0|lia].
    - intros s0 i H0 Hi. do 3 ldr H0.
      erewrite !sto_row by (eauto; lia). f_equal.
      replace (Z.of_nat (o + 1) + Z.of_nat i) with (Z.of_nat o + (1 + Z.of_nat i)) by lia.
      unfold f, ddiff2_at. simpl.
      rewrite (proj2 (Nat.ltb_lt _ _)) by lia. do 7 f_equal; lia. }
  rewrite (bind_ok _ _ _ _ _ E).
  assert (E2 : wr (padd D (Z.of_nat (o + 1))) (tab m (fun j => f (1 + j)%nat)) s1
     = wr (padd D (Z.of_nat o)) (tab (S m) f) s).
  { change (S m) with (1 + m)%nat. rewrite (tab_app 1 m f).
    rewrite <- wr_app' by (rewrite app_length, !tab_length; eapply wok_le; eauto; lia).
    rewrite tab_length, padd_padd. unfold s1. do 2 f_equal. lia. }
  rewrite E2.
  assert (HR2 : ready (wr (padd D (Z.of_nat o)) (tab (S m) f) s) X xs D L)
    by (apply ready_wr; auto; rewrite ?tab_length; lia).
  do 2 ldr HR2.
  erewrite sto_row by (eauto; lia).
  replace (Z.of_nat o + (Z.of_nat (S (S m)) - 1)) with (Z.of_nat o + Z.of_nat (length (tab (S m) f)))
    by (rewrite tab_length; lia).
  rewrite <- padd_padd. rewrite wr_app' by (rewrite app_length, tab_length; simpl; eapply wok_le; eauto; lia).
  f_equal. rewrite (tab_S (S m)). do 3 f_equal. rewrite ?tab_length.
  unfold f, ddiff2_at. simpl. rewrite (proj2 (Nat.ltb_ge _ _)) by lia. repeat (f_equal; try lia).
Qed.

(** ** Whole image, row operators *)
Lemma row_run (op : Z -> T -> ptr -> ptr -> M unit) (g : nat -> T -> list T -> nat -> nat -> T)
    (m0 : nat) s X xs D (n m : nat) alpha :
  (forall s (o : nat), (m0 <= m)%nat -> (o + m <= length xs)%nat -> (o + m <= n * m)%nat ->
     disj D (n * m) X (length xs) -> ready s X xs D (n * m) ->
     op (Z.of_nat m) alpha (padd X (Z.of_nat o)) (padd D (Z.of_nat o)) s
     = Ok tt (wr (padd D (Z.of_nat o)) (tab m (g m alpha xs o)) s)) ->
  (m0 <= m)%nat -> (1 <= m)%nat -> length xs = (n * m)%nat -> Z.of_nat (n * m) <= INT_MAX ->
  disj D (n * m) X (n * m) -> seg s X xs -> wok s D (n * m) ->
  for_ 0 (Z.of_nat n) (row_body op (Z.of_nat m) alpha X D) s = Ok tt (wr D (row_of g n m alpha xs) s) /\
  forall l, l ≡ₚ range 0 (Z.of_nat n) ->
    for_list l (row_body op (Z.of_nat m) alpha X D) s = for_ 0 (Z.of_nat n) (row_body op (Z.of_nat m) alpha X D) s.
Proof.
  intros Hop Hm0 Hm Hl Hmax Hd Hs Hw.
  assert (HF : forall i, (i < n)%nat ->
     tab m (fun j => g m alpha xs (i * m + j - (i * m + j) mod m)%nat ((i * m + j) mod m)%nat)
     = tab m (g m alpha xs (i * m)%nat)).
  { intros i Hi. apply tab_ext. intros j Hj.
    assert (E : ((i * m + j) mod m)%nat = j).
    { rewrite Nat.add_comm, Nat.mod_add by lia. by apply Nat.mod_small. }
    rewrite E. f_equal. lia. }
  assert (HS : forall s0 i, ready s0 X xs D (n * m) -> (i < n)%nat ->
     row_body op (Z.of_nat m) alpha X D (Z.of_nat i) s0
     = Ok tt (wr (padd D (Z.of_nat (i * m))) (tab m (g m alpha xs (i * m)%nat)) s0)).
  { intros s0 i H0 Hi. unfold row_body. rewrite <- Nat2Z.inj_mul.
    rewrite (bind_ok _ _ _ _ _ (i32_ok (Z.of_nat (i * m)) s0 ltac:(unfold INT_MIN; nia))).
    apply Hop; auto; rewrite ?Hl; auto; nia. }
  apply (for_rows (fun s => ready s X xs D (n * m)) n m D
     (fun k => g m alpha xs (k - k mod m)%nat (k mod m)%nat)).
  - intros s0 i H0 Hi. rewrite HF by done. apply ready_wr; rewrite ?Hl, ?tab_length; auto; nia.
  - intros s0 [_ H0]. done.
  - intros s0 i H0 Hi. rewrite HF by done. by apply HS.
  - by split.
Qed.

(** The common precondition of the six operators: an n by m image [xs] at X, room for n*m doubles
    at D, no overlap, and n*m fits in an int. *)
Definition tv_pre s X xs D (n m : nat) : Prop :=
  length xs = (n * m)%nat /\ Z.of_nat (n * m) <= INT_MAX /\
  disj D (n * m) X (n * m) /\ seg s X xs /\ wok s D (n * m).

Lemma restrict_nm D X n m s : disj D (n * m) X (n * m) ->
  restrict D (Z.of_nat n * Z.of_nat m) X (Z.of_nat n * Z.of_nat m) s = Ok tt s.
Proof. intros H. rewrite <- Nat2Z.inj_mul. by apply restrict_ok. Qed.

Lemma Dx_run s X xs D n m alpha : tv_pre s X xs D n m -> (1 <= m)%nat ->
  l1c_Dx (Z.of_nat n) (Z.of_nat m) alpha X D s = Ok tt (wr D (Dx_of n m alpha xs) s).
Proof.
  intros (Hl & Hmax & Hd & Hs & Hw) Hm. unfold l1c_Dx.
  rewrite (bind_ok _ _ _ _ _ (restrict_nm D X n m s Hd)).
  refine (proj1 (row_run ddiff_z ddiff_at 1 s X xs D n m alpha _ Hm Hm Hl Hmax Hd Hs Hw)).
  intros; eapply ddiff_row; eauto.
Qed.
Lemma DxT_run s X xs D n m alpha : tv_pre s X xs D n m -> (2 <= m)%nat ->
  l1c_DxT (Z.of_nat n) (Z.of_nat m) alpha X D s = Ok tt (wr D (DxT_of n m alpha xs) s).
Proof.
  intros (Hl & Hmax & Hd & Hs & Hw) Hm. unfold l1c_DxT.
  rewrite (bind_ok _ _ _ _ _ (restrict_nm D X n m s Hd)).
  refine (proj1 (row_run ddiffT_z ddiffT_at 2 s X xs D n m alpha _ Hm ltac:(lia) Hl Hmax Hd Hs Hw)).
  intros; eapply ddiffT_row; eauto.
Qed.
Lemma DxTDx_run s X xs D n m alpha : tv_pre s X xs D n m -> (2 <= m)%nat ->
  l1c_DxTDx (Z.of_nat n) (Z.of_nat m) alpha X D s = Ok tt (wr D (DxTDx_of n m alpha xs) s).
Proof.
  intros (Hl & Hmax & Hd & Hs & Hw) Hm. unfold l1c_DxTDx.
  rewrite (bind_ok _ _ _ _ _ (restrict_nm D X n m s Hd)).
  refine (proj1 (row_run ddiff2_z ddiff2_at 2 s X xs D n m alpha _ Hm ltac:(lia) Hl Hmax Hd Hs Hw)).
  intros; eapply ddiff2_row; eauto.
Qed.
End tv.

(** ** Vertical operators *)
Section tvy.
Context `{N : Num}.
Implicit Types (s : st) (X D : ptr) (xs : list T).

Lemma cell_sto s p i v : sto p i v s = sto p i v s. Proof. done. Qed.

Lemma bind_if {A B} (b : bool) (m1 m2 : M A) (k : A -> M B) s :
  bind (if b then m1 else m2) k s = if b then bind m1 k s else bind m2 k s.
Proof. by destruct b. Qed.

Definition Dy_at (n m : nat) (alpha : T) xs (k : nat) : T :=
  if (k <? (n - 1) * m)%nat then mul alpha (sub (at_ xs (k + m)) (at_ xs k)) else zero.
Definition DyT_at (n m : nat) (alpha : T) xs (k : nat) : T :=
  mul alpha (sub (if (k <? m)%nat then zero else at_ xs (k - m))
                 (if (k <? (n - 1) * m)%nat then at_ xs k else zero)).
Definition DyTDy_at (n m : nat) (alpha : T) xs (k : nat) : T :=
  mul (mul alpha alpha)
        (sub (add (opp (if (k <? m)%nat then zero else at_ xs (k - m)))
                  (if ((k <? m) || ((n - 1) * m <=? k))%nat then at_ xs k else mul two (at_ xs k)))
             (if (k <? (n - 1) * m)%nat then at_ xs (k + m) else zero)).

Ltac ldy H :=
  match goal with
  | |- context [bind (ld ?X ?i) ?k ?s] =>
      rewrite (bind_ok (ld X i) k s _ s (ld_ready s X _ _ _ i H ltac:(lia)))
  end.
Ltac i32s :=
  match goal with
  | |- context [bind (i32 ?z) ?k ?s] =>
      rewrite (bind_ok (i32 z) k s _ _ (i32_ok z s ltac:(unfold INT_MIN; first [lia | nia])))
  end.

Lemma Dy_body1_run s X xs D (n m : nat) alpha (row : nat) :
  length xs = (n * m)%nat -> Z.of_nat (n * m) <= INT_MAX -> disj D (n * m) X (n * m) ->
  ready s X xs D (n * m) -> (row < n - 1)%nat ->
  Dy_body1 (Z.of_nat m) alpha X D (Z.of_nat row) s
  = Ok tt (wr (padd D (Z.of_nat (row * m))) (tab m (fun j => Dy_at n m alpha xs (row * m + j)%nat)) s).
Proof.
  intros Hl Hmax Hd HR Hr. unfold Dy_body1. do 2 i32s.
  assert (Hrow : (row * m + m + m <= n * m)%nat) by nia.
  unfold for_. replace (Z.to_nat _) with m by lia.
  apply (for_cells_I (fun s => ready s X xs D (n * m))); auto.
  - intros s0 i v H0 Hi. rewrite padd_padd. apply ready_wr; rewrite ?Hl; auto; simpl; nia.
  - intros s0 H0. eapply wok_row; [exact H0|nia].
  - intros s0 i H0 Hi. 
    i32s. do 2 ldy H0.
    rewrite (sto_wok _ D (n * m)) by (try apply H0; lia).
    rewrite (sto_wok _ (padd D _) m) by (try (eapply wok_row; [exact H0|nia]); lia).
    rewrite padd_padd. rewrite Nat2Z.inj_mul. f_equal. f_equal. f_equal.
    unfold Dy_at. rewrite (proj2 (Nat.ltb_lt _ _)) by nia.
    do 4 f_equal; nia.
Qed.

Lemma Dy_loops s X xs D (n m : nat) alpha :
  tv_pre s X xs D n m -> (1 <= n)%nat ->
  let s1 := wr D (tab ((n - 1) * m) (Dy_at n m alpha xs)) s in
  (for_ 0 (Z.of_nat n - 1) (Dy_body1 (Z.of_nat m) alpha X D) s = Ok tt s1 /\
   forall l, l ≡ₚ range 0 (Z.of_nat n - 1) ->
     for_list l (Dy_body1 (Z.of_nat m) alpha X D) s = Ok tt s1) /\
  (for_ ((Z.of_nat n - 1) * Z.of_nat m) (Z.of_nat n * Z.of_nat m) (Dy_body2 D) s1
     = Ok tt (wr D (Dy_of n m alpha xs) s) /\
   forall l, l ≡ₚ range ((Z.of_nat n - 1) * Z.of_nat m) (Z.of_nat n * Z.of_nat m) ->
     for_list l (Dy_body2 D) s1 = Ok tt (wr D (Dy_of n m alpha xs) s)).
Proof.
  intros (Hl & Hmax & Hd & Hs & Hw) Hn s1.
  assert (HR : ready s X xs D (n * m)) by (by split).
  assert (H1 := for_rows (fun s => ready s X xs D (n * m)) (n - 1) m D (Dy_at n m alpha xs)
                  (Dy_body1 (Z.of_nat m) alpha X D) s).
  destruct H1 as [H1 H1'].
  { intros s0 i H0 Hi. apply ready_wr; rewrite ?Hl, ?tab_length; auto; nia. }
  { intros s0 [_ H0]. eapply wok_le; [exact H0|nia]. }
  { intros s0 i H0 Hi. by apply Dy_body1_run. }
  { done. }
  replace (Z.of_nat (n - 1)) with (Z.of_nat n - 1) in H1, H1' by lia.
  split.
  { split; [exact H1|]. intros l Hp. rewrite H1' by done. exact H1. }
  assert (Hw1 : wok s1 D (n * m)).
  { apply wok_wr; [|done]. rewrite tab_length. eapply wok_le; [exact Hw|nia]. }
  replace ((Z.of_nat n - 1) * Z.of_nat m) with (Z.of_nat ((n - 1) * m)) by nia.
  replace (Z.of_nat n * Z.of_nat m) with (Z.of_nat (n * m)) by nia.
  assert (E : wr D (Dy_of n m alpha xs) s
     = wrs (fun i => padd D i) (fun i => [(fun _ : nat => zero) (Z.to_nat i)]) (range (Z.of_nat ((n - 1) * m)) (Z.of_nat (n * m))) s1).
  { unfold range. rewrite (wrs_cells_gen (fun _ => zero)).
    - unfold s1. replace (Z.of_nat ((n - 1) * m)) with (Z.of_nat (length (tab ((n - 1) * m) (Dy_at n m alpha xs))))
        by (rewrite tab_length; done).
      rewrite wr_app'.
      + f_equal. unfold Dy_of. replace (n * m)%nat with ((n - 1) * m + m)%nat at 1 by nia.
        rewrite tab_app. f_equal.
        replace (Z.to_nat _) with m by (rewrite tab_length; nia).
        apply tab_ext. intros i Hi. rewrite (proj2 (Nat.ltb_ge _ _)) by lia. done.
      + rewrite app_length, !tab_length. eapply wok_le; [exact Hw|nia].
    - eapply wok_le; [exact Hw1|]. nia. }
  rewrite E.
  assert (HB : forall i l s0, ((forall j, j ∈ i :: l -> 0 <= j < Z.of_nat (n * m)) /\ wok s0 D (n * m)) ->
     Dy_body2 D i s0 = Ok tt (wr (padd D i) [(fun _ : nat => zero) (Z.to_nat i)] s0) /\
     ((forall j, j ∈ l -> 0 <= j < Z.of_nat (n * m)) /\ wok (wr (padd D i) [(fun _ : nat => zero) (Z.to_nat i)] s0) D (n * m))).
  { intros i l s0 [Ha Hb]. specialize (Ha i) as Hi. rewrite elem_of_cons in Hi. specialize (Hi (or_introl eq_refl)).
    split; [|split].
    - unfold Dy_body2. apply (sto_wok _ _ (n * m)); [done|lia].
    - intros j Hj. apply Ha. rewrite elem_of_cons. auto.
    - apply wok_wr; [|done]. eapply wok_padd'; [exact Hb|lia|simpl; lia]. }
  set (I := fun (l : list Z) s0 => (forall j, j ∈ l -> 0 <= j < Z.of_nat (n * m)) /\ wok s0 D (n * m)).
  assert (HI : forall l, l ≡ₚ range (Z.of_nat ((n - 1) * m)) (Z.of_nat (n * m)) -> I l s1).
  { intros l Hp. split; [|done]. intros j Hj. rewrite Hp in Hj. apply elem_of_range in Hj. lia. }
  split.
  - rewrite for_is_list. apply (for_list_run I); [exact HB|]. by apply HI.
  - intros l Hp. rewrite (for_list_run I _ _ _ _ _ HB (HI l Hp)). f_equal.
    apply wrs_perm; [done|rewrite Hp; apply NoDup_range|..].
    + intros i Hi. rewrite Hp in Hi. apply elem_of_range in Hi.
      assert (0 <= i) by (pose proof (Nat2Z.is_nonneg ((n - 1) * m)); clear - H Hi; set (k := Z.of_nat ((n - 1) * m)) in *; lia).
      eapply wok_padd'; [exact Hw1|lia|simpl; lia].
    + intros i j Hi Hj Hne. apply disj_padd_padd. simpl. lia.
Qed.

Lemma Dy_run s X xs D n m alpha : tv_pre s X xs D n m -> (1 <= n)%nat ->
  l1c_Dy (Z.of_nat n) (Z.of_nat m) alpha X D s = Ok tt (wr D (Dy_of n m alpha xs) s).
Proof.
  intros HP Hn. pose proof (Dy_loops s X xs D n m alpha HP Hn) as [[H1 _] [H2 _]].
  destruct HP as (Hl & Hmax & Hd & Hs & Hw). unfold l1c_Dy.
  rewrite (bind_ok _ _ _ _ _ (restrict_nm D X n m s Hd)).
  rewrite (bind_ok _ _ _ _ _ H1). do 2 i32s. exact H2.
Qed.

Lemma DyT_loop s X xs D n m alpha : tv_pre s X xs D n m ->
  for_ 0 (Z.of_nat (n * m)) (DyT_body (Z.of_nat n) (Z.of_nat m) alpha X D) s
    = Ok tt (wr D (DyT_of n m alpha xs) s) /\
  forall l, l ≡ₚ range 0 (Z.of_nat (n * m)) ->
    for_list l (DyT_body (Z.of_nat n) (Z.of_nat m) alpha X D) s
    = for_ 0 (Z.of_nat (n * m)) (DyT_body (Z.of_nat n) (Z.of_nat m) alpha X D) s.
Proof.
  intros (Hl & Hmax & Hd & Hs & Hw).
  apply (for_cells_par (fun s => ready s X xs D (n * m)) (n * m) D [] (DyT_at n m alpha xs)).
  - intros s0 i v H0 Hi. apply ready_wr; rewrite ?Hl; auto; simpl; lia.
  - intros s0 [_ H0]. done.
  - intros s0 i H0 Hi _. unfold DyT_body.
    assert (Hn : (1 <= n)%nat) by nia.
    i32s.
    assert (E1 : (if Z.of_nat i <? (Z.of_nat n - 1) * Z.of_nat m then ld X (Z.of_nat i) else ret zero) s0
      = Ok (if (i <? (n - 1) * m)%nat then at_ xs i else zero) s0).
    { destruct (Z.ltb_spec (Z.of_nat i) ((Z.of_nat n - 1) * Z.of_nat m)), (Nat.ltb_spec i ((n - 1) * m)); try nia.
      - rewrite (ld_ready _ _ _ _ _ _ H0) by lia. by rewrite Nat2Z.id.
      - done. }
    rewrite (bind_ok _ _ _ _ _ E1).
    assert (E2 : (if Z.of_nat i <? Z.of_nat m then ret zero else ld X (Z.of_nat i - Z.of_nat m)) s0
      = Ok (if (i <? m)%nat then zero else at_ xs (i - m)) s0).
    { destruct (Z.ltb_spec (Z.of_nat i) (Z.of_nat m)), (Nat.ltb_spec i m); try lia.
      - done.
      - rewrite (ld_ready _ _ _ _ _ _ H0) by lia. do 2 f_equal. lia. }
    rewrite (bind_ok _ _ _ _ _ E2). done.
  - by split.
  - apply seg_nil.
Qed.
Lemma DyT_run s X xs D n m alpha : tv_pre s X xs D n m ->
  l1c_DyT (Z.of_nat n) (Z.of_nat m) alpha X D s = Ok tt (wr D (DyT_of n m alpha xs) s).
Proof.
  intros HP. pose proof (DyT_loop s X xs D n m alpha HP) as [H1 _].
  destruct HP as (Hl & Hmax & Hd & Hs & Hw). unfold l1c_DyT.
  rewrite (bind_ok _ _ _ _ _ (restrict_nm D X n m s Hd)).
  i32s. rewrite <- Nat2Z.inj_mul. exact H1.
Qed.

Lemma DyTDy_loop s X xs D n m alpha : tv_pre s X xs D n m ->
  let body := DyTDy_body (Z.of_nat n) (Z.of_nat m) (mul alpha alpha) (Z.of_nat (n * m)) X D in
  for_ 0 (Z.of_nat (n * m)) body s = Ok tt (wr D (DyTDy_of n m alpha xs) s) /\
  forall l, l ≡ₚ range 0 (Z.of_nat (n * m)) -> for_list l body s = for_ 0 (Z.of_nat (n * m)) body s.
Proof.
  intros (Hl & Hmax & Hd & Hs & Hw) body.
  apply (for_cells_par (fun s => ready s X xs D (n * m)) (n * m) D [] (DyTDy_at n m alpha xs)).
  - intros s0 i v H0 Hi. apply ready_wr; rewrite ?Hl; auto; simpl; lia.
  - intros s0 [_ H0]. done.
  - intros s0 i H0 Hi _. unfold body, DyTDy_body.
    assert (Hn : (1 <= n)%nat) by nia.
    assert (E2 : (if Z.of_nat i <? Z.of_nat m then ret zero else ld X (Z.of_nat i - Z.of_nat m)) s0
      = Ok (if (i <? m)%nat then zero else at_ xs (i - m)) s0).
    { destruct (Z.ltb_spec (Z.of_nat i) (Z.of_nat m)), (Nat.ltb_spec i m); try lia.
      - done.
      - rewrite (ld_ready _ _ _ _ _ _ H0) by lia. do 2 f_equal. lia. }
    rewrite (bind_ok _ _ _ _ _ E2). i32s.
    assert (E1 : (if (Z.of_nat i <? Z.of_nat m) || (Z.of_nat m * (Z.of_nat n - 1) - 1 <? Z.of_nat i) then ld X (Z.of_nat i) else
         let* a := ld X (Z.of_nat i) in ret (mul two a)) s0
      = Ok (if ((i <? m) || ((n - 1) * m <=? i))%nat then at_ xs i else mul two (at_ xs i)) s0).
    { assert (EB : (Z.of_nat i <? Z.of_nat m) || (Z.of_nat m * (Z.of_nat n - 1) - 1 <? Z.of_nat i)
         = ((i <? m) || ((n - 1) * m <=? i))%nat).
      { f_equal.
        - destruct (Z.ltb_spec (Z.of_nat i) (Z.of_nat m)), (Nat.ltb_spec i m); auto; lia.
        - destruct (Z.ltb_spec (Z.of_nat m * (Z.of_nat n - 1) - 1) (Z.of_nat i)), (Nat.leb_spec ((n - 1) * m) i); auto; nia. }
      rewrite EB. destruct ((i <? m) || ((n - 1) * m <=? i))%nat.
      - rewrite (ld_ready _ _ _ _ _ _ H0) by lia. by rewrite Nat2Z.id.
      - ldy H0. by rewrite Nat2Z.id. }
    rewrite (bind_ok _ _ _ _ _ E1).
    assert (E3 : (if Z.of_nat i <? Z.of_nat (n * m) - Z.of_nat m then ld X (Z.of_nat i + Z.of_nat m) else ret zero) s0
      = Ok (if (i <? (n - 1) * m)%nat then at_ xs (i + m) else zero) s0).
    { destruct (Z.ltb_spec (Z.of_nat i) (Z.of_nat (n * m) - Z.of_nat m)), (Nat.ltb_spec i ((n - 1) * m)); try nia.
      - rewrite (ld_ready _ _ _ _ _ _ H0) by nia. do 2 f_equal. lia.
      - done. }
    rewrite (bind_ok _ _ _ _ _ E3). done.
  - by split.
  - apply seg_nil.
Qed.
Lemma DyTDy_run s X xs D n m alpha : tv_pre s X xs D n m ->
  l1c_DyTDy (Z.of_nat n) (Z.of_nat m) alpha X D s = Ok tt (wr D (DyTDy_of n m alpha xs) s).
Proof.
  intros HP. pose proof (DyTDy_loop s X xs D n m alpha HP) as [H1 _].
  destruct HP as (Hl & Hmax & Hd & Hs & Hw). unfold l1c_DyTDy.
  rewrite (bind_ok _ _ _ _ _ (restrict_nm D X n m s Hd)).
  i32s. rewrite <- Nat2Z.inj_mul. exact H1.
Qed.
End tvy.
