(** * C91: the whole u-step of a Bregman iteration (right-hand side and sweeps) in IEEE binary64. *)
From Coq Require Import ZArith Reals Lra Lia Psatz.
From Flocq Require Import Core BinarySingleNaN.
From stdpp Require Import base numbers list.
From Verif Require Import Num NumB S_Round L_Round L_RoundTV L_RoundGS S_Vec S_Img S_Mem Mem P_Mem P_Loop P_Math P_TV P_TVR P_Own P_Touch M_Bregman P_Bregman P_BregR P_Breg2 T_TV T_Bregman T_Round T_RoundTV T_RoundGS.
Local Open Scope R_scope.

(** ** specification: entry (i,j) of mu f + la DxT (dx - bx) + la DyT (dy - by) for an n x m image, with DxT and DyT the
    transposes of the forward differences along a row and down a column *)
Definition rhs_at (n m : nat) (mu la : R) (f dx bx dy by_ : list R) (i j : nat) : R :=
  let wx i j := px m dx i j - px m bx i j in let wy i j := px m dy i j - px m by_ i j in
  mu * px m f i j + la * (when (0 <? j)%nat (wx i (j - 1)%nat) - when (j + 1 <? m)%nat (wx i j) +
                          when (0 <? i)%nat (wy (i - 1)%nat j) - when (i + 1 <? n)%nat (wy i j)).

(** ** real inequalities *)
Lemma field_err u e L y y0 Y : 0 <= u <= / 1000000 -> 0 <= e -> 0 <= L -> Rabs Y <= L -> Rabs (y0 - Y) <= u * L -> Rabs (y - y0) <= (2 * u + u * u) * Rabs y0 + e -> Rabs (y - Y) <= 4 * u * L + e.
Proof.
  intros Hu He HL HY H1 H2. assert (UL : 0 <= u * L <= / 1000000 * L) by (split; [apply Rmult_le_pos|apply Rmult_le_compat_r]; lra).
  assert (UUL : 0 <= u * (u * L) <= / 1000000 * (u * L)) by (split; [apply Rmult_le_pos|apply Rmult_le_compat_r]; lra).
  assert (UUUL : u * (u * (u * L)) <= / 1000000 * (u * (u * L))) by (apply Rmult_le_compat_r; lra).
  assert (H0 : Rabs y0 <= (1 + u) * L) by (replace y0 with ((y0 - Y) + Y) by ring; eapply Rle_trans; [apply Rabs_triang|]; lra).
  assert (U2 : 0 <= 2 * u + u * u) by (assert (0 <= u * u) by (apply Rmult_le_pos; lra); lra).
  assert (H3 : (2 * u + u * u) * Rabs y0 <= (2 * u + u * u) * ((1 + u) * L)) by (apply Rmult_le_compat_l; lra).
  replace (y - Y) with ((y - y0) + (y0 - Y)) by ring. eapply Rle_trans; [apply Rabs_triang|]. lra.
Qed.
Lemma sums_err u e L G f F y Y z Z t r : 0 <= u <= / 1000000 -> 0 <= e -> 0 <= L -> Rabs F <= G -> Rabs Y <= L -> Rabs Z <= L ->
  Rabs (f - F) <= u * G + e -> Rabs (y - Y) <= 4 * u * L + e -> Rabs (z - Z) <= 4 * u * L + e -> Rabs (t - (f + y)) <= u * Rabs (f + y) -> Rabs (r - (t + z)) <= u * Rabs (t + z) ->
  Rabs (r - (F + Y + Z)) <= 12 * u * (G + 2 * L) + 4 * e.
Proof.
  intros Hu He HL HF HY HZ Hf Hy Hz Ht Hr. assert (G0 : 0 <= G) by (pose proof (Rabs_pos F); lra).
  assert (UL : 0 <= u * L <= / 1000000 * L) by (split; [apply Rmult_le_pos|apply Rmult_le_compat_r]; lra). assert (UG : 0 <= u * G <= / 1000000 * G) by (split; [apply Rmult_le_pos|apply Rmult_le_compat_r]; lra).
  assert (UUL : 0 <= u * (u * L) <= / 1000000 * (u * L)) by (split; [apply Rmult_le_pos|apply Rmult_le_compat_r]; lra). assert (UUG : 0 <= u * (u * G) <= / 1000000 * (u * G)) by (split; [apply Rmult_le_pos|apply Rmult_le_compat_r]; lra).
  assert (UE : 0 <= u * e <= / 1000000 * e) by (split; [apply Rmult_le_pos|apply Rmult_le_compat_r]; lra).
  assert (UUUL : u * (u * (u * L)) <= / 1000000 * (u * (u * L))) by (apply Rmult_le_compat_r; lra). assert (UUUG : u * (u * (u * G)) <= / 1000000 * (u * (u * G))) by (apply Rmult_le_compat_r; lra). assert (UUE : u * (u * e) <= / 1000000 * (u * e)) by (apply Rmult_le_compat_r; lra).
  assert (H1 : Rabs (f + y - (F + Y)) <= u * G + 4 * u * L + 2 * e) by (replace (f + y - (F + Y)) with ((f - F) + (y - Y)) by ring; eapply Rle_trans; [apply Rabs_triang|]; lra).
  assert (HFY : Rabs (F + Y) <= G + L) by (eapply Rle_trans; [apply Rabs_triang|]; lra).
  assert (H2 : Rabs (f + y) <= G + L + (u * G + 4 * u * L + 2 * e)) by (replace (f + y) with ((f + y - (F + Y)) + (F + Y)) by ring; eapply Rle_trans; [apply Rabs_triang|]; lra).
  assert (H3 : u * Rabs (f + y) <= u * (G + L + (u * G + 4 * u * L + 2 * e))) by (apply Rmult_le_compat_l; lra).
  assert (H4 : Rabs (t - (F + Y)) <= 3 * u * G + 6 * u * L + 2 * e + 2 * (u * e)) by (replace (t - (F + Y)) with ((t - (f + y)) + (f + y - (F + Y))) by ring; eapply Rle_trans; [apply Rabs_triang|]; lra).
  assert (H5 : Rabs (t + z - (F + Y + Z)) <= 3 * u * G + 10 * u * L + 3 * e + 2 * (u * e)) by (replace (t + z - (F + Y + Z)) with ((t - (F + Y)) + (z - Z)) by ring; eapply Rle_trans; [apply Rabs_triang|]; lra).
  assert (HFYZ : Rabs (F + Y + Z) <= G + 2 * L) by (eapply Rle_trans; [apply Rabs_triang|]; lra).
  assert (H6 : Rabs (t + z) <= G + 2 * L + (3 * u * G + 10 * u * L + 3 * e + 2 * (u * e))) by (replace (t + z) with ((t + z - (F + Y + Z)) + (F + Y + Z)) by ring; eapply Rle_trans; [apply Rabs_triang|]; lra).
  assert (H7 : u * Rabs (t + z) <= u * (G + 2 * L + (3 * u * G + 10 * u * L + 3 * e + 2 * (u * e)))) by (apply Rmult_le_compat_l; lra).
  replace (r - (F + Y + Z)) with ((r - (t + z)) + (t + z - (F + Y + Z))) by ring. eapply Rle_trans; [apply Rabs_triang|]. lra.
Qed.
(** the transposed differences are Lipschitz with constant 2 lambda *)
Lemma two_terms (l p q p' q' e : R) : 0 <= l -> 0 <= e -> Rabs (p - p') <= e -> Rabs (q - q') <= e -> Rabs (l * (p - q) - l * (p' - q')) <= 2 * l * e.
Proof.
  intros Hl He H1 H2. replace (l * (p - q) - l * (p' - q')) with (l * ((p - p') - (q - q'))) by ring. rewrite Rabs_mult, (Rabs_pos_eq l) by lra.
  replace (2 * l * e) with (l * (e + e)) by ring. apply Rmult_le_compat_l; [lra|]. unfold Rminus at 1. eapply Rle_trans; [apply Rabs_triang|]. rewrite Rabs_Ropp. lra.
Qed.
Lemma DxT_lip n m l (x x' : list R) e k : 0 <= l -> 0 <= e -> (k < n * m)%nat -> (forall i, Rabs (nth i x 0 - nth i x' 0) <= e) ->
  Rabs (nth k (@DxT_of RN n m l x) 0 - nth k (@DxT_of RN n m l x') 0) <= 2 * l * e.
Proof.
  intros Hl He Hk H. unfold DxT_of, row_of. rewrite !nth_tab by done. unfold ddiffT_at. assert (Z0 : Rabs (0 - 0) <= e) by (rewrite Rminus_0_r, Rabs_R0; done).
  destruct (_ =? _)%nat; [|destruct (_ <? _)%nat]; rewrite !at_RN; cbn [mul sub opp RN].
  - pose proof (two_terms l 0 _ 0 _ e Hl He Z0 (H (k - k mod m)%nat)) as Q. eapply Rle_trans; [|exact Q]. right. f_equal. ring.
  - apply two_terms; auto.
  - pose proof (two_terms l _ 0 _ 0 e Hl He (H (k - k mod m + k mod m - 1)%nat) Z0) as Q. eapply Rle_trans; [|exact Q]. right. f_equal. ring.
Qed.
Lemma DyT_lip n m l (x x' : list R) e k : 0 <= l -> 0 <= e -> (k < n * m)%nat -> (forall i, Rabs (nth i x 0 - nth i x' 0) <= e) ->
  Rabs (nth k (@DyT_of RN n m l x) 0 - nth k (@DyT_of RN n m l x') 0) <= 2 * l * e.
Proof.
  intros Hl He Hk H. rewrite !DyT_RN by done. assert (Z0 : Rabs (0 - 0) <= e) by (rewrite Rminus_0_r, Rabs_R0; done).
  apply two_terms; [done|done|by destruct (k <? m)%nat|by destruct (k <? (n - 1) * m)%nat].
Qed.
Lemma nth_nil0 i : nth i (@nil R) 0 = 0. Proof. by destruct i. Qed.
Lemma DxT_nil n m l k : (k < n * m)%nat -> nth k (@DxT_of RN n m l []) 0 = 0.
Proof. intros Hk. unfold DxT_of, row_of. rewrite !nth_tab by done. unfold ddiffT_at. destruct (_ =? _)%nat; [|destruct (_ <? _)%nat]; rewrite !at_RN, !nth_nil0; cbn [mul sub opp RN]; unfold T, RN; lra. Qed.
Lemma DyT_nil n m l k : (k < n * m)%nat -> nth k (@DyT_of RN n m l []) 0 = 0.
Proof. intros Hk. rewrite !DyT_RN by done. rewrite !nth_nil0. destruct (k <? m)%nat, (k <? (n - 1) * m)%nat; unfold T, RN; lra. Qed.

Lemma rhs_at_of n m a l (f dx bx dy by_ : list R) i j : (2 <= n)%nat -> (2 <= m)%nat -> (i < n)%nat -> (j < m)%nat ->
  px m (@rhs_of RN n m f dx bx dy by_ a l) i j = rhs_at n m a l f dx bx dy by_ i j.
Proof.
  intros Hn Hm Hi Hj. assert (Hk : (i * m + j < n * m)%nat) by nia. unfold px at 1, rhs_of, axpy_of. rewrite nth_tab by done. rewrite !at_RN, nth_tab by done. rewrite !at_RN, one_RN. cbn [add mul RN].
  rewrite DyT_RN by done. unfold DxT_of. rewrite row_of_at by done. rewrite ddiffT_RN by done.
  assert (W : forall (b d : list R) k, (k < n * m)%nat -> nth k (@mxpy_of RN (n * m) b d) 0 = nth k d 0 - nth k b 0) by (intros b d k H; unfold mxpy_of; rewrite nth_tab by done; rewrite !at_RN; cbn [add opp RN]; unfold T, RN; lra).
  rewrite !(W _ _ (i * m + j)%nat Hk). unfold rhs_at, px, when.
  assert (E1 : (i * m + j <? m)%nat = negb (0 <? i)%nat). { destruct (Nat.ltb_spec 0 i); cbn [negb]; [apply Nat.ltb_ge|apply Nat.ltb_lt]; nia. }
  assert (E2 : (i * m + j <? (n - 1) * m)%nat = (i + 1 <? n)%nat). { destruct (Nat.ltb_spec (i + 1) n); [apply Nat.ltb_lt|apply Nat.ltb_ge]; nia. }
  assert (E3 : (j <? 1)%nat = negb (0 <? j)%nat). { destruct (Nat.ltb_spec 0 j); cbn [negb]; [apply Nat.ltb_ge|apply Nat.ltb_lt]; lia. }
  assert (E4 : (j <? m - 1)%nat = (j + 1 <? m)%nat). { destruct (Nat.ltb_spec (j + 1) m); [apply Nat.ltb_lt|apply Nat.ltb_ge]; lia. }
  assert (K1 : (i * m + (j - 1) < n * m)%nat) by lia. assert (K2 : (i * m + j - m < n * m)%nat) by lia. pose proof (W bx dx _ K1) as W1. pose proof (W by_ dy _ K2) as W2.
  assert (K3 : (0 < i)%nat -> (i * m + j - m = (i - 1) * m + j)%nat) by (intros; nia).
  rewrite E1, E2, E3, E4. destruct (Nat.ltb_spec 0 i) as [I0|I0]; destruct (Nat.ltb_spec 0 j) as [J0|J0]; cbn [negb]; try rewrite (K3 I0) in *;
    destruct (i + 1 <? n)%nat, (j + 1 <? m)%nat; change (@T RN) with R in *; rewrite ?W1, ?W2; ring.
Qed.
(** two systems with nearby right-hand sides *)
Lemma rsum_minus (v w d : list R) ks : (forall q, q ∈ ks -> nth q d 0 = nth q v 0 - nth q w 0) ->
  rsum (map (fun q => nth q d 0) ks) = rsum (map (fun q => nth q v 0) ks) - rsum (map (fun q => nth q w 0) ks).
Proof.
  induction ks as [|q ks IH]; intros H; [cbn; ring|]. cbn [map rsum fold_right]. fold (rsum (map (fun q => nth q d 0) ks)) (rsum (map (fun q => nth q v 0) ks)) (rsum (map (fun q => nth q w 0) ks)).
  rewrite IH by (intros p Hp; apply H; by right). rewrite (H q) by left. ring.
Qed.

Section ustep.
Context (flog fexp fceil : b64 -> b64).
Notation BN := (BN_with flog fexp fceil).
Notation A xs i := (@at_ BN xs i).
Implicit Types (u b : list b64).
Context (n m : nat) (mu la : b64) (Hn : (2 <= n)%nat) (Hm : (2 <= m)%nat) (Hf : fits n m).
Notation a := (val mu).
Notation l := (val la).
Context (Fm : finite mu) (Fl : finite la) (Sm : / 2 ^ 500 <= a) (Sl : / 2 ^ 500 <= l) (Sb : a + 4 * l <= 2 ^ 500).

(** d - b *)
Lemma mxpy_close (bs ds : list b64) M : clean bs -> clean ds -> (forall i, Rabs (nth i (V bs) 0) <= M) -> (forall i, Rabs (nth i (V ds) 0) <= M) -> M <= 2 ^ 500 ->
  let w := @mxpy_of BN (n * m) bs ds in let W := @mxpy_of RN (n * m) (V bs) (V ds) in
  clean w /\ (forall i, Rabs (nth i (V w) 0 - nth i W 0) <= 2 * uro * M) /\ (forall i, Rabs (nth i W 0) <= 2 * M) /\ (forall i, Rabs (nth i (V w) 0) <= 3 * M).
Proof.
  intros Cb Cd Hb Hd HM w W. assert (M0 : 0 <= M) by (eapply Rle_trans; [apply Rabs_pos|apply (Hb 0%nat)]). pose proof uro_pos as UP. pose proof uro_small as US.
  assert (HZ : 8 * 2 ^ 500 < huge). { replace (8 * 2 ^ 500) with (2 ^ 503) by (change 503%nat with (3 + 500)%nat; rewrite pow_add; f_equal; simpl; lra). apply huge_pow. lia. }
  assert (U1 : 0 <= uro * M <= / 1000000 * M) by (split; [apply Rmult_le_pos|apply Rmult_le_compat_r]; lra). set (Z5 := 2 ^ 500) in *. clearbody Z5.
  assert (Lw : length w = (n * m)%nat) by apply (@tab_length BN). assert (LW : @length R W = (n * m)%nat) by apply (@tab_length RN).
  assert (HE : forall i, (i < n * m)%nat -> finite (A w i) /\ nth i W 0 = - val (A bs i) + val (A ds i) /\ Rabs (val (A w i) - nth i W 0) <= uro * (2 * M)).
  { intros i Hi. unfold w, mxpy_of. rewrite (@at_tab BN) by done. unfold W, mxpy_of. rewrite nth_tab by done. rewrite !(atRN flog fexp fceil). cbn [add opp RN].
    pose proof (Hb i) as B1. pose proof (Hd i) as D1. rewrite (nthV flog fexp fceil) in B1, D1.
    assert (TT : Rabs (- val (A bs i) + val (A ds i)) <= 2 * M) by (eapply Rle_trans; [apply Rabs_triang|]; rewrite Rabs_Ropp; lra).
    assert (RP : Rabs (rnd (- val (A bs i) + val (A ds i)) - (- val (A bs i) + val (A ds i))) <= uro * (2 * M)).
    { eapply Rle_trans; [apply rnd_plus; [rewrite <- (opp_val flog fexp fceil); apply format_val|apply format_val]|]. apply Rmult_le_compat_l; lra. }
    assert (F : finite (@add BN (@opp BN (A bs i)) (A ds i))).
    { apply add_fin; [apply (opp_fin flog fexp fceil), (at_fin flog fexp fceil); done|by apply (at_fin flog fexp fceil)|]. rewrite (opp_val flog fexp fceil).
      replace (rnd (- val (A bs i) + val (A ds i))) with ((rnd (- val (A bs i) + val (A ds i)) - (- val (A bs i) + val (A ds i))) + (- val (A bs i) + val (A ds i))) by ring.
      eapply Rle_lt_trans; [apply Rabs_triang|]. lra. }
    split; [exact F|]. split; [done|]. rewrite (add_val flog fexp fceil _ _ F), (opp_val flog fexp fceil). exact RP. }
  assert (HO : forall i, (n * m <= i)%nat -> nth i (V w) 0 = 0 /\ nth i W 0 = 0) by (intros i Hi; split; apply nth_overflow; [rewrite V_length; eapply eq_ind_r with (P := fun z => (z <= i)%nat); [exact Hi|exact Lw]|eapply eq_ind_r with (P := fun z => (z <= i)%nat); [exact Hi|exact LW]]).
  assert (HA : forall i, Rabs (nth i (V w) 0 - nth i W 0) <= 2 * uro * M /\ Rabs (nth i W 0) <= 2 * M).
  { intros i. destruct (Nat.lt_ge_cases i (n * m)) as [Hi|Hi].
    - destruct (HE i Hi) as (_ & E & Q). split; [rewrite (nthV flog fexp fceil); lra|]. rewrite E. pose proof (Hb i) as B1. pose proof (Hd i) as D1. rewrite (nthV flog fexp fceil) in B1, D1.
      eapply Rle_trans; [apply Rabs_triang|]; rewrite Rabs_Ropp; lra.
    - destruct (HO i Hi) as [-> ->]. rewrite Rminus_0_r, Rabs_R0. lra. }
  split; [|split; [apply HA|split; [apply HA|]]].
  - apply (clean_at flog fexp fceil). intros i Hi. apply HE. eapply eq_ind with (P := fun z => (i < z)%nat); [exact Hi|exact Lw].
  - intros i. destruct (HA i) as [Q1 Q2]. replace (nth i (V w) 0) with ((nth i (V w) 0 - nth i W 0) + nth i W 0) by ring. eapply Rle_trans; [apply Rabs_triang|]. lra.
Qed.
Lemma one_mul (x : b64) : finite x -> val (@mul BN (@one BN) x) = val x /\ finite (@mul BN (@one BN) x).
Proof.
  intros Fx. destruct (one_val flog fexp fceil) as [V1 F1]. assert (E : rnd (val (@one BN) * val x) = val x) by (rewrite V1, Rmult_1_l; apply rnd_format, format_val).
  assert (F : finite (@mul BN (@one BN) x)) by (apply mul_fin; [done|done|rewrite E; apply val_huge]). split; [|done]. by rewrite (mul_val flog fexp fceil _ _ F).
Qed.
(** the right-hand side against the exact one *)
Lemma rhs_close (fs dxs bxs dys bys : list b64) X M : clean fs -> clean dxs -> clean bxs -> clean dys -> clean bys -> length fs = (n * m)%nat ->
  (forall i, Rabs (nth i (V dxs) 0) <= M) -> (forall i, Rabs (nth i (V bxs) 0) <= M) -> (forall i, Rabs (nth i (V dys) 0) <= M) -> (forall i, Rabs (nth i (V bys) 0) <= M) -> M <= 2 ^ 500 ->
  (forall i, Rabs (nth i (V fs) 0) <= X) -> X <= 2 ^ 500 ->
  clean (@rhs_of BN n m fs dxs bxs dys bys mu la) /\ forall k, (k < n * m)%nat ->
    Rabs (nth k (V (@rhs_of BN n m fs dxs bxs dys bys mu la)) 0 - nth k (@rhs_of RN n m (V fs) (V dxs) (V bxs) (V dys) (V bys) a l) 0) <= 12 * uro * (a * X + 8 * l * M) + 4 * eta /\
    Rabs (nth k (@rhs_of RN n m (V fs) (V dxs) (V bxs) (V dys) (V bys) a l) 0) <= a * X + 8 * l * M.
Proof.
  intros Cf Cdx Cbx Cdy Cby Lf Hdx Hbx Hdy Hby HM HX HX5. pose proof (a_pos mu Sm) as A0. pose proof (l_pos la Sl) as L0.
  assert (M0 : 0 <= M) by (eapply Rle_trans; [apply Rabs_pos|apply (Hdx 0%nat)]). assert (X0 : 0 <= X) by (eapply Rle_trans; [apply Rabs_pos|apply (HX 0%nat)]).
  destruct (mxpy_close bxs dxs M Cbx Cdx Hbx Hdx HM) as (Cx & Ex & Bx & Gx). destruct (mxpy_close bys dys M Cby Cdy Hby Hdy HM) as (Cy & Ey & By & Gy).
  set (wx := @mxpy_of BN (n * m) bxs dxs) in *. set (wy := @mxpy_of BN (n * m) bys dys) in *. set (Wx := @mxpy_of RN (n * m) (V bxs) (V dxs)) in *. set (Wy := @mxpy_of RN (n * m) (V bys) (V dys)) in *.
  pose proof uro_pos as UP. pose proof uro_small as US. pose proof eta_pos as EP. assert (HU : 0 <= uro <= / 1000000) by lra. assert (E1 : eta <= 1) by (replace 1 with (/ 2 ^ 0) by (simpl; lra); apply eta_small; lia).
  assert (P5 : 1 <= 2 ^ 500) by (apply pow_R1_Rle; lra).
  assert (HZ : 2000 * (2 ^ 500 * 2 ^ 500) < huge). { apply Rlt_trans with (2 ^ 1011); [|apply huge_pow; lia]. change 1011%nat with (11 + (500 + 500))%nat. rewrite !pow_add. apply Rmult_lt_compat_r; [apply Rmult_lt_0_compat; lra|simpl; lra]. }
  set (Z5 := 2 ^ 500) in *. set (i5 := / Z5) in *. clearbody Z5 i5. assert (ZZ : Z5 <= Z5 * Z5) by (rewrite <- (Rmult_1_l Z5) at 1; apply Rmult_le_compat_r; lra).
  assert (LM : l * M <= Z5 * Z5) by (apply Rmult_le_compat; lra). assert (AX : a * X <= Z5 * Z5) by (apply Rmult_le_compat; lra). assert (LM0 : 0 <= l * M) by (apply Rmult_le_pos; lra). assert (AX0 : 0 <= a * X) by (apply Rmult_le_pos; lra).
  assert (HH : 4 * (Rabs l + 1) * (3 * M + 1) < huge).
  { rewrite (Rabs_pos_eq l) by lra. apply Rle_lt_trans with (4 * (2 * Z5) * (4 * Z5)); [apply Rmult_le_compat; try lra|]. replace (4 * (2 * Z5) * (4 * Z5)) with (32 * (Z5 * Z5)) by ring. lra. }
  assert (KEY : forall k, (k < n * m)%nat -> finite (A (@rhs_of BN n m fs dxs bxs dys bys mu la) k) /\
    Rabs (val (A (@rhs_of BN n m fs dxs bxs dys bys mu la) k) - nth k (@rhs_of RN n m (V fs) (V dxs) (V bxs) (V dys) (V bys) a l) 0) <= 12 * uro * (a * X + 8 * l * M) + 4 * eta /\
    Rabs (nth k (@rhs_of RN n m (V fs) (V dxs) (V bxs) (V dys) (V bys) a l) 0) <= a * X + 8 * l * M).
  { intros k Hk. unfold rhs_of, axpy_of. rewrite !(@at_tab BN), nth_tab by done. rewrite !at_RN, nth_tab by done. rewrite !at_RN, one_RN. cbn [add mul RN].
    fold wx wy Wx Wy. set (y := A (@DyT_of BN n m la wy) k). set (z := A (@DxT_of BN n m la wx) k). set (Y := nth k (@DyT_of RN n m l Wy) 0). set (Z := nth k (@DxT_of RN n m l Wx) 0).
    assert (L40 : 0 <= 4 * l * M) by lra.
    assert (HY : Rabs Y <= 4 * l * M).
    { pose proof (DyT_lip n m l Wy [] (2 * M) k ltac:(lra) ltac:(lra) Hk ltac:(intros i; rewrite nth_nil0, Rminus_0_r; apply By)) as Q. rewrite DyT_nil, Rminus_0_r in Q by done. fold Y in Q. lra. }
    assert (HZ' : Rabs Z <= 4 * l * M).
    { pose proof (DxT_lip n m l Wx [] (2 * M) k ltac:(lra) ltac:(lra) Hk ltac:(intros i; rewrite nth_nil0, Rminus_0_r; apply Bx)) as Q. rewrite DxT_nil, Rminus_0_r in Q by done. fold Z in Q. lra. }
    assert (UM : 0 <= 2 * uro * M) by (apply Rmult_le_pos; lra).
    pose proof (DyT_lip n m l (V wy) Wy (2 * uro * M) k ltac:(lra) UM Hk Ey) as LY. fold Y in LY. pose proof (DxT_lip n m l (V wx) Wx (2 * uro * M) k ltac:(lra) UM Hk Ex) as LZ. fold Z in LZ.
    pose proof (DyT_shape flog fexp fceil n m la wy k Hk) as SY. pose proof (DxT_shape flog fexp fceil n m la wx k Hm Hk) as SZ. fold y in SY. fold z in SZ.
    assert (Fy : finite y) by (by eapply (shape_fin flog fexp fceil); [exact SY| | |exact Gy|exact HH]). assert (Fz : finite z) by (by eapply (shape_fin flog fexp fceil); [exact SZ| | |exact Gx|exact HH]).
    pose proof (shape_close flog fexp fceil _ _ _ _ SY Fy) as QY. pose proof (shape_close flog fexp fceil _ _ _ _ SZ Fz) as QZ. rewrite gam2 in QY, QZ.
    assert (EQL : 2 * l * (2 * uro * M) <= uro * (4 * l * M)) by (right; ring).
    pose proof (field_err uro eta (4 * l * M) (val y) _ Y HU ltac:(lra) L40 HY (Rle_trans _ _ _ LY EQL) QY) as RY.
    pose proof (field_err uro eta (4 * l * M) (val z) _ Z HU ltac:(lra) L40 HZ' (Rle_trans _ _ _ LZ EQL) QZ) as RZ. clear QY QZ LY LZ SY SZ. clearbody y z.
    set (f := A fs k). assert (Ff : finite f) by (by apply (at_fin flog fexp fceil)). pose proof (HX k) as Xk. rewrite (nthV flog fexp fceil) in Xk |- *. fold f in Xk |- *.
    assert (HG : Rabs (a * val f) <= a * X) by (rewrite Rabs_mult, (Rabs_pos_eq a) by lra; apply Rmult_le_compat_l; lra).
    assert (RF : Rabs (rnd (a * val f) - a * val f) <= uro * (a * X) + eta) by (eapply Rle_trans; [apply rnd_err|]; apply Rplus_le_compat_r, Rmult_le_compat_l; lra).
    assert (ULM : uro * (l * M) <= / 1000000 * (l * M)) by (apply Rmult_le_compat_r; lra). assert (UAX : uro * (a * X) <= / 1000000 * (a * X)) by (apply Rmult_le_compat_r; lra).
    assert (ab : forall p q d : R, Rabs (p - q) <= d -> Rabs p <= Rabs q + d) by (intros p q d H; replace p with ((p - q) + q) by ring; eapply Rle_trans; [apply Rabs_triang|]; lra).
    assert (F1 : finite (@mul BN mu f)) by (apply mul_fin; [done|done|]; apply ab in RF; lra).
    pose proof (mul_val flog fexp fceil _ _ F1) as V1. set (p := @mul BN mu f) in *. clearbody p. rewrite <- V1 in RF.
    assert (RT := rnd_plus (val p) (val y) (format_val p) (format_val y)).
    assert (BP : Rabs (val p + val y) <= 2 * (a * X) + 8 * (l * M) + 2) by (eapply Rle_trans; [apply Rabs_triang|]; apply ab in RF; apply ab in RY; lra).
    assert (UP1 : uro * Rabs (val p + val y) <= / 1000000 * Rabs (val p + val y)) by (apply Rmult_le_compat_r; [apply Rabs_pos|lra]).
    assert (F2 : finite (@add BN p y)) by (apply add_fin; [done|done|]; apply ab in RT; lra).
    pose proof (add_val flog fexp fceil _ _ F2) as V2. set (t := @add BN p y) in *. clearbody t. rewrite <- V2 in RT.
    destruct (one_mul t F2) as [V3 F3]. set (t' := @mul BN (@one BN) t) in *. clearbody t'. rewrite <- V3 in RT.
    assert (RR := rnd_plus (val t') (val z) (format_val t') (format_val z)).
    assert (BT : Rabs (val t' + val z) <= 4 * (a * X) + 32 * (l * M) + 8) by (eapply Rle_trans; [apply Rabs_triang|]; apply ab in RT; apply ab in RZ; lra).
    assert (UP2 : uro * Rabs (val t' + val z) <= / 1000000 * Rabs (val t' + val z)) by (apply Rmult_le_compat_r; [apply Rabs_pos|lra]).
    assert (F4 : finite (@add BN t' z)) by (apply add_fin; [done|done|]; apply ab in RR; lra).
    pose proof (add_val flog fexp fceil _ _ F4) as V4. split; [exact F4|]. rewrite V4. rewrite Rmult_1_l.
    pose proof (sums_err uro eta (4 * l * M) (a * X) (val p) (a * val f) (val y) Y (val z) Z (val t') _ HU ltac:(lra) L40 HG HY HZ' RF RY RZ RT RR) as Q.
    split; [eapply Rle_trans; [exact Q|]; lra|]. change (Rabs (a * val f + Y + Z) <= a * X + 8 * l * M). eapply Rle_trans; [apply Rabs_triang|]. pose proof (Rabs_triang (a * val f) Y). lra. }
  split.
  - apply (clean_at flog fexp fceil). intros k Hk. apply KEY. eapply eq_ind with (P := fun z => (k < z)%nat); [exact Hk|]. apply (@rhs_of_len BN).
  - intros k Hk. destruct (KEY k Hk) as (_ & Q1 & Q2). rewrite (nthV flog fexp fceil). split; [exact Q1|exact Q2].
Qed.
Lemma solves_near (b b' v v' : list R) E : solves n m a l b v -> solves n m a l b' v' -> within (a * E) b b' (n * m) -> within E v v' (n * m).
Proof.
  intros Hv Hv' HB. pose proof (proj1 (solves_k n m a l Hn Hm b v) Hv) as K. pose proof (proj1 (solves_k n m a l Hn Hm b' v') Hv') as K'.
  set (d := @tab RN (n * m) (fun k => nth k v 0 - nth k v' 0)). set (c := @tab RN (n * m) (fun k => nth k b 0 - nth k b' 0)).
  assert (D : forall k, (k < n * m)%nat -> nth k d 0 = nth k v 0 - nth k v' 0) by (intros k Hk; unfold d; by rewrite nth_tab). assert (C : forall k, (k < n * m)%nat -> nth k c 0 = nth k b 0 - nth k b' 0) by (intros k Hk; unfold c; by rewrite nth_tab).
  assert (S : solves n m a l c d).
  { apply (solves_k n m a l Hn Hm). intros k Hk. specialize (K k Hk). specialize (K' k Hk). rewrite C, D by done. unfold nbs in *.
    rewrite (rsum_minus v v' d) by (intros q Hq; apply D; by eapply nbrs_lt). lra. }
  intros k Hk. rewrite <- D by done. revert k Hk. apply (max_principle n m mu la Hn Hm Sm Sl c d E S). intros k Hk. rewrite C by done. by apply HB.
Qed.
(** what the rounding of the right-hand side adds to the accuracy of the sweeps *)
Definition step_accuracy (X : R) : R := cond mu la * (86 * uro * X + 3 * under mu).
(** The u-step of an iteration (src/bregman.c:393-397): breg_anis_rhs builds mu f + la DxT (dx - bx) + la DyT (dy - by) in
    floating point and J sweeps follow. Every double stays finite and every pixel ends within
    shrinks^J * 2X + cond * (86 * 2^-53 X + 3 under) of the exact solution of the system with the exact right-hand side. *)
Theorem C91_u_step_accuracy (fs dxs bxs dys bys u : list b64) (F M X : R) :
  Forall clean [fs; dxs; bxs; dys; bys; u] -> Forall (fun xs => length xs = (n * m)%nat) [fs; dxs; bxs; dys; bys; u] ->
  (forall k, (k < n * m)%nat -> Rabs (nth k (V fs) 0) <= F) -> Forall (fun xs => forall k, (k < n * m)%nat -> Rabs (nth k (V xs) 0) <= M) [dxs; bxs; dys; bys] ->
  (forall k, (k < n * m)%nat -> Rabs (nth k (V u) 0) <= X) -> M <= 2 ^ 500 -> X <= 2 ^ 500 -> cond mu la <= 2 ^ 46 -> 2 * (a * F + 8 * l * M) + 4 * eta <= a * X ->
  exists v : list R, length v = (n * m)%nat /\
  (forall i j, (i < n)%nat -> (j < m)%nat -> tvop_at n m a l v i j = rhs_at n m a l (V fs) (V dxs) (V bxs) (V dys) (V bys) i j) /\
  forall J : nat, exists uJ : list b64, length uJ = (n * m)%nat /\ clean uJ /\ within (shrinks mu la ^ J * (2 * X) + step_accuracy X) (V uJ) v (n * m) /\
    forall (s : @st BN) (bf bdx bbx bdy bby br b1 b2 bu : nat), NoDup [bf; bdx; bbx; bdy; bby; br; b1; b2; bu] ->
      (forall c, c ∈ [bdx; bbx; bdy; bby; b1] -> is_aligned s (Ptr c 0) = true) ->
      @seg BN s (Ptr bf 0) fs -> @seg BN s (Ptr bdx 0) dxs -> @seg BN s (Ptr bbx 0) bxs -> @seg BN s (Ptr bdy 0) dys -> @seg BN s (Ptr bby 0) bys -> @seg BN s (Ptr bu 0) u ->
      wok s (Ptr br 0) (n * m) -> wok s (Ptr b1 0) (n * m) -> wok s (Ptr b2 0) (n * m) ->
      exists s', (@breg_anis_rhs BN (Z.of_nat n) (Z.of_nat m) (Ptr bf 0) (Ptr bdx 0) (Ptr bbx 0) (Ptr bdy 0) (Ptr bby 0) (Ptr br 0) mu la (Ptr b1 0) (Ptr b2 0) ;!
                  @for_ BN 1 (Z.of_nat J + 1) (fun _ => @breg_anis_guass_seidel BN (Z.of_nat n) (Z.of_nat m) (Ptr bu 0) (Ptr br 0) mu la)) s = Ok tt s' /\
        @seg BN s' (Ptr bu 0) uJ /\ @touch BN [br; b1; b2; bu] s s'.
Proof.
  rewrite !Forall_cons. intros (Cf & Cdx & Cbx & Cdy & Cby & Cu & _) (Lf & Ldx & Lbx & Ldy & Lby & Lu & _) HF (Bdx & Bbx & Bdy & Bby & _) HU HM HX HC HG.
  pose proof (a_pos mu Sm) as A0. pose proof (l_pos la Sl) as L0. pose proof uro_pos as UP. pose proof uro_small as US. pose proof eta_pos as EP.
  assert (NM : (0 < n * m)%nat) by nia.
  assert (M0 : 0 <= M) by (eapply Rle_trans; [apply Rabs_pos|apply (Bdx 0%nat NM)]). assert (F0 : 0 <= F) by (eapply Rle_trans; [apply Rabs_pos|apply (HF 0%nat NM)]). assert (X0 : 0 <= X) by (eapply Rle_trans; [apply Rabs_pos|apply (HU 0%nat NM)]).
  assert (EX : forall (xs : list b64) (Q : R), length xs = (n * m)%nat -> 0 <= Q -> (forall k, (k < n * m)%nat -> Rabs (nth k (V xs) 0) <= Q) -> forall k, Rabs (nth k (V xs) 0) <= Q).
  { intros xs Q L Q0 H k. destruct (Nat.lt_ge_cases k (n * m)) as [Hk|Hk]; [by apply H|]. rewrite nth_overflow by (rewrite V_length; lia). by rewrite Rabs_R0. }
  assert (LM0 : 0 <= l * M) by (apply Rmult_le_pos; lra). assert (AF0 : 0 <= a * F) by (apply Rmult_le_pos; lra).
  assert (FX : F <= X) by (apply (Rmult_le_reg_l a); lra).
  destruct (rhs_close fs dxs bxs dys bys F M Cf Cdx Cbx Cdy Cby Lf) as [CR HR]; [by apply EX..|exact HM|by apply EX|lra|].
  set (b := @rhs_of BN n m fs dxs bxs dys bys mu la) in *. set (bR := @rhs_of RN n m (V fs) (V dxs) (V bxs) (V dys) (V bys) a l) in *.
  assert (Lb : @length (@T BN) b = (n * m)%nat) by apply (@rhs_of_len BN). assert (LbR : @length R bR = (n * m)%nat) by apply (@rhs_of_len RN).
  destruct (solves_exists n m a l Hn Hm A0 L0 bR LbR) as (v & Lv & Hv). exists v. split; [exact Lv|]. split; [intros i j Hi Hj; rewrite (Hv i j Hi Hj); by apply rhs_at_of|].
  assert (LVb : length (V b) = (n * m)%nat) by (rewrite V_length; exact Lb).
  destruct (solves_exists n m a l Hn Hm A0 L0 (V b) LVb) as (w & Lw & Hw).
  set (G := a * F + 8 * l * M) in *. assert (G0 : 0 <= G) by (unfold G; lra). assert (UG : 0 <= uro * G <= / 1000000 * G) by (split; [apply Rmult_le_pos|apply Rmult_le_compat_r]; lra).
  assert (HB : forall k, (k < n * m)%nat -> Rabs (nth k (V b) 0) <= a * X).
  { intros k Hk. destruct (HR k Hk) as [Q1 Q2]. replace (nth k (V b) 0) with ((nth k (V b) 0 - nth k bR 0) + nth k bR 0) by ring. eapply Rle_trans; [apply Rabs_triang|]. lra. }
  assert (HN : within (6 * uro * X + under mu) w v (n * m)).
  { apply (solves_near (V b) bR w v _ Hw Hv). intros k Hk. destruct (HR k Hk) as [Q1 _]. eapply Rle_trans; [exact Q1|]. unfold under.
    replace (a * (6 * uro * X + eta * (1 + 4 * / a))) with (6 * uro * (a * X) + eta * a + 4 * eta * (a * / a)) by ring. rewrite Rinv_r by lra.
    assert (12 * uro * G <= 6 * uro * (a * X)) by (replace (12 * uro * G) with (6 * uro * (2 * G)) by ring; apply Rmult_le_compat_l; lra). assert (0 <= eta * a) by (apply Rmult_le_pos; lra). lra. }
  intros J. destruct (sweeps_round flog fexp fceil n m mu la Hn Hm Fm Fl Sm Sl Sb J b u w X Cu CR Lu Lb Hw HC HX HU HB) as [C W].
  exists (@sweeps BN J n m mu la b u). split; [etransitivity; [apply (@sweeps_len BN)|exact Lu]|]. split; [exact C|]. split.
  { intros k Hk. specialize (W k Hk). specialize (HN k Hk). eapply Rle_trans; [eapply tri; [exact W|exact HN]|]. pose proof (cond_ge1 mu la Sm Sl) as C1. pose proof (under_pos mu Sm) as U0.
    assert (UX : 0 <= 6 * uro * X + under mu) by (assert (0 <= uro * X) by (apply Rmult_le_pos; lra); lra).
    assert (1 * (6 * uro * X + under mu) <= cond mu la * (6 * uro * X + under mu)) by (apply Rmult_le_compat_r; lra). unfold step_accuracy, limit_accuracy in *. lra. }
  intros s bf bdx bbx bdy bby br b1 b2 bu ND HA Sf Sdx Sbx Sdy Sby Su Wr W1 W2.
  assert (ND8 : NoDup [bf; bdx; bbx; bdy; bby; br; b1; b2]).
  { change [bf; bdx; bbx; bdy; bby; br; b1; b2; bu] with ([bf; bdx; bbx; bdy; bby; br; b1; b2] ++ [bu]) in ND. by apply NoDup_app in ND as [ND _]. }
  destruct (@rhs_run BN s n m bf bdx bbx bdy bby br b1 b2 fs dxs bxs dys bys mu la ltac:(lia) Hm Hf ND8 HA Sf Lf Sdx Ldx Sbx Lbx Sdy Ldy Sby Lby Wr W1 W2) as (s1 & E1 & S1 & T1).
  fold b in S1. distinct ND.
  assert (Su1 : @seg BN s1 (Ptr bu 0) u) by (eapply (@touch_seg BN); [exact T1| |exact Su]; notin).
  assert (DJ : disj (Ptr bu 0) (n * m) (Ptr br 0) (n * m)) by dis.
  pose proof (sweeps_run flog fexp fceil n m mu la Hn Hm Hf J b u s1 (Ptr bu 0) (Ptr br 0) Lu Lb Su1 S1 DJ) as E2.
  eexists. split; [rewrite (bind_ok _ _ _ _ _ E1); exact E2|].
  assert (LS : @length (@T BN) (@sweeps BN J n m mu la b u) = (n * m)%nat) by (etransitivity; [apply (@sweeps_len BN)|exact Lu]).
  split; [apply (@seg_wr BN); rewrite LS; rewrite <- Lu; by apply (@seg_wok BN) in Su1|]. eapply (@touch_trans BN); [eapply (@touch_weaken BN); [exact T1|]; intros c Hc; change [br; b1; b2; bu] with ([br; b1; b2] ++ [bu]); apply elem_of_app; by left|]. apply (@touch_wr BN). isin.
Qed.
End ustep.
Print Assumptions C91_u_step_accuracy.


(** a 2x2 iteration with mu = 1, lambda = 2 and 100 sweeps *)
Module UStepEx.
Import RoundEx RoundGSEx.
Definition f : list b64 := [k 3; k (-7); k 10; k 1].
Definition dx : list b64 := [k 1; k 0; k 2; k 0].
Definition bx : list b64 := [k 0; k 0; k (-1); k 0].
Definition dy : list b64 := [k 1; k (-2); k 0; k 0].
Definition by_ : list b64 := [k 0; k 1; k 0; k 0].
Definition store := @state_of B [@full B f; @full B dx; @full B bx; @full B dy; @full B by_; @fresh B 4; @fresh B 4; @fresh B 4; @full B u0].
Example u_step_case : exists (v : list R) (u100 : list b64) s', tvop_at 2 2 1 2 v 1 0 = 10 + 2 * (1 - 3) /\ clean u100 /\ within ((8 / 9) ^ 100 * 200 + 9 * (8600 * uro + 15 * eta)) (V u100) v 4 /\
  (@breg_anis_rhs B 2 2 (Ptr 0 0) (Ptr 1 0) (Ptr 2 0) (Ptr 3 0) (Ptr 4 0) (Ptr 5 0) (k 1) (k 2) (Ptr 6 0) (Ptr 7 0) ;!
   @for_ B 1 101 (fun _ => @breg_anis_guass_seidel B 2 2 (Ptr 8 0) (Ptr 5 0) (k 1) (k 2))) store = Ok tt s' /\ @seg B s' (Ptr 8 0) u100.
Proof.
  assert (EC : cond (k 1) (k 2) = 9) by (unfold cond; rewrite v1, v2; lra). assert (ES : shrinks (k 1) (k 2) = 8 / 9) by (unfold shrinks; rewrite v1, v2; lra).
  assert (EU : under (k 1) = 5 * eta) by (unfold under; rewrite v1; lra). pose proof p500 as P5. pose proof t500 as T5. assert (E1 : eta <= 1) by (replace 1 with (/ 2 ^ 0) by (simpl; lra); apply eta_small; lia).
  assert (P7 : 128 <= 2 ^ 500) by (apply Rle_trans with (2 ^ 7); [simpl; lra|]; apply Rle_pow; [lra|lia]).
  destruct (C91_u_step_accuracy id64 id64 id64 2 2 (k 1) (k 2) ltac:(lia) ltac:(lia) ltac:(unfold fits; vm_compute; discriminate)
    ltac:(apply kf; vm_compute; discriminate) ltac:(apply kf; vm_compute; discriminate) ltac:(rewrite v1; exact T5) ltac:(rewrite v2; lra) ltac:(rewrite v1, v2; lra) f dx bx dy by_ u0 10 2 100)
    as (v & _ & Hv & HJ).
  - repeat constructor; apply kf; vm_compute; discriminate.
  - repeat constructor.
  - intros j Hj. unfold f, V. destruct j as [|[|[|[|j]]]]; [..|lia]; cbn [map nth]; kvs; apply Rabs_le; lra.
  - repeat (apply Forall_cons; split); [..|by apply Forall_nil]; intros j Hj; unfold dx, bx, dy, by_, V; destruct j as [|[|[|[|j]]]]; try lia; cbn [map nth]; kvs; apply Rabs_le; lra.
  - intros j Hj. unfold u0, V. destruct j as [|[|[|[|j]]]]; [..|lia]; cbn [map nth]; kvs; apply Rabs_le; lra.
  - lra.
  - lra.
  - rewrite EC. apply Rle_trans with (2 ^ 4); [simpl; lra|]. apply Rle_pow; [lra|lia].
  - rewrite v1, v2. lra.
  - destruct (HJ 100%nat) as (u100 & _ & C & W & Rn). exists v, u100.
    destruct (Rn store 0%nat 1%nat 2%nat 3%nat 4%nat 5%nat 6%nat 7%nat 8%nat) as (s' & E & S & _);
      [repeat (constructor; [notin|]); constructor|intros c Hc; reflexivity|by apply (@state_of_seg B)..|by eapply (@state_of_wok B)|by eapply (@state_of_wok B)|by eapply (@state_of_wok B)|].
    exists s'. split; [|split; [exact C|split; [|split; [exact E|exact S]]]].
    + specialize (Hv 1%nat 0%nat ltac:(lia) ltac:(lia)). rewrite v1, v2 in Hv. rewrite Hv. unfold rhs_at, px, when, f, dx, bx, dy, by_, V. cbn [map nth Nat.ltb Nat.leb Nat.add Nat.mul Nat.sub]. kvs. lra.
    + unfold step_accuracy in W. rewrite EC, ES, EU in W. intros j Hj. eapply Rle_trans; [by apply W|]. right. ring.
Qed.
End UStepEx.
