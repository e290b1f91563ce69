(** * C99: the explicit-matrix operators of src/matrix_transforms.c in IEEE binary64.

    The calls are run on Flocq's binary64 arithmetic; dgemv adds in the order of the reference BLAS.  [uro] = 2^-53, [eta] = 2^-1075, [gam k] = (1 + 2^-53)^k - 1,
    [huge] = 2^1024 (S_Round.v); [V xs] are the real values of an array of doubles, [clean xs]: no infinity and no NaN (T_Round.v);
    [matvec], [matTvec]: product of a matrix stored row by row, and of its transpose, with a vector (T_Matrix.v). *)
From Coq Require Import ZArith Reals Lra Lia Psatz.
From Flocq Require Import Core Relative BinarySingleNaN.
From stdpp Require Import base numbers gmap list.
From Verif Require Import Num NumB S_Round L_Round L_RoundTV S_Vec S_Mem Globals Mem M_Status M_FFTW M_Matrix P_Mem P_Loop M_Math P_Math P_VCL T_Math P_Round T_Round L_Sum L_Lin L_Cos S_Newt S_Xform P_Xform S_DctApi P_Matrix T_Matrix M_TVt P_Touch P_Memory P_Own P_Dct E_Dct.
Local Open Scope R_scope.

Section C99.
Context (flog fexp fceil : b64 -> b64).
Notation BN := (BN_with flog fexp fceil).
Notation A xs i := (@at_ BN xs i).
Definition absv (xs : list b64) : list R := map Rabs (V xs).
Lemma absv_nth xs i : nth i (absv xs) 0 = Rabs (val (A xs i)).
Proof. unfold absv. rewrite <- Rabs_R0 at 1. rewrite map_nth. by rewrite (V_nth flog fexp fceil). Qed.

Lemma dotf n (p q : nat -> b64) : let r := foldi n (fun j t => @add BN t (@mul BN (p j) (q j))) (@zero BN) in
  let S := Rsum n (fun j => Rabs (val (p j) * val (q j))) in
  (finite r -> (forall j, (j < n)%nat -> finite (p j) /\ finite (q j)) /\ Rabs (val r - Rsum n (fun j => val (p j) * val (q j))) <= gam n * S + INR n * eta * (1 + uro) ^ n) /\
  ((forall j, (j < n)%nat -> finite (p j) /\ finite (q j)) -> (1 + uro) ^ n * (S + INR n * eta) < huge -> finite r).
Proof.
  intros r S. unfold r, S. clear r S. destruct (decide (n = 0%nat)) as [->|Hn].
  { cbn [foldi Rsum]. split; [|intros; apply (zero_val flog fexp fceil)]. intros _. split; [intros; lia|].
    rewrite (proj1 (zero_val flog fexp fceil)). rewrite Rminus_0_r, Rabs_R0. change (INR 0) with 0. lra. }
  rewrite (foldi_ev flog fexp fceil (fun i => @mul BN (p i) (q i))).
  pose proof (comb_perm n) as HP. pose proof (comb_depth (fun i => i) n) as HD. assert (En : (1 + (n - 1) = n)%nat) by lia.
  split.
  - intros F. destruct (red_near flog fexp fceil (fun i => @mul BN (p i) (q i)) _ _ 1 1 _ n _ Rle_0_1 HP HD (fun i _ => near_mul flog fexp fceil _ _) F) as [HF (_ & _ & _ & Q)]. rewrite En in Q.
    split; [intros j Hj; split; apply (fin_mul_inv _ _ _ _ _ (HF j Hj))|].
    eapply Rle_trans; [exact Q|]. rewrite Rmult_1_l. lra.
  - intros HC HH.
    eapply (red_fin flog fexp fceil (fun i => @mul BN (p i) (q i)) (fun i => val (p i) * val (q i)) (fun i => Rabs (val (p i) * val (q i))) 1 1 _ n _ Rle_0_1 HP HD).
    + intros i Hi. apply near_mul. apply mul_fin_size; [by apply HC|by apply HC|]. eapply Rle_lt_trans; [|exact HH]. pose proof uro_pos. pose proof eta_pos.
      pose proof (Rsum_term_le n (fun i => Rabs (val (p i) * val (q i))) i (fun j _ => Rabs_pos _) Hi) as Q. cbv beta in Q. pose proof (Rabs_pos (val (p i) * val (q i))).
      assert (1 <= INR n) by (apply (le_INR 1); lia). pose proof (pow_mono 1 n ltac:(lia)) as P. rewrite pow_1 in P. apply Rmult_le_compat; nra.
    + rewrite En. rewrite Rmult_1_l. exact HH.
Qed.
Lemma mul_one x : finite x -> val (@mul BN (@one BN) x) = val x /\ finite (@mul BN (@one BN) x).
Proof.
  intros Hx. destruct (one_val flog fexp fceil) as [E F].
  assert (R1 : rnd (val (@one BN) * val x) = val x) by (rewrite E, Rmult_1_l; apply rnd_format, format_val).
  assert (F2 : finite (@mul BN (@one BN) x)). { apply mul_fin; [done|done|]. rewrite R1. apply val_huge. }
  split; [|done]. by rewrite mul_val.
Qed.

(** ** The two products *)
Context (n m : nat) (a : list b64) (La : length a = (n * m)%nat).
Notation mv x := (@mv_of BN n m a x).
Notation mtv y := (@mtv_of BN n m a y).
Lemma idx_lt i j : (i < n)%nat -> (j < m)%nat -> (i * m + j < length a)%nat.
Proof. intros Hi Hj. rewrite La. nia. Qed.
Lemma mvec_nth x i : (i < n)%nat -> nth i (matvec n m (V a) (V x)) 0 = Rsum m (fun j => val (A a (i * m + j)) * val (A x j)).
Proof. intros Hi. unfold matvec. rewrite vec_nth by done. apply Rsum_ext. intros j _. by rewrite !(V_nth flog fexp fceil). Qed.
Lemma mvec_abs x i : (i < n)%nat -> nth i (matvec n m (absv a) (absv x)) 0 = Rsum m (fun j => Rabs (val (A a (i * m + j)) * val (A x j))).
Proof. intros Hi. unfold matvec. rewrite vec_nth by done. apply Rsum_ext. intros j _. by rewrite !absv_nth, Rabs_mult. Qed.
Lemma mTvec_nth y j : (j < m)%nat -> nth j (matTvec n m (V a) (V y)) 0 = Rsum n (fun i => val (A a (i * m + j)) * val (A y i)).
Proof. intros Hi. unfold matTvec. rewrite vec_nth by done. apply Rsum_ext. intros i _. by rewrite !(V_nth flog fexp fceil). Qed.
Lemma mTvec_abs y j : (j < m)%nat -> nth j (matTvec n m (absv a) (absv y)) 0 = Rsum n (fun i => Rabs (val (A y i) * val (A a (i * m + j)))).
Proof. intros Hi. unfold matTvec. rewrite vec_nth by done. apply Rsum_ext. intros i _. rewrite !absv_nth, Rabs_mult. ring. Qed.

Lemma mv_acc (x : list b64) i : (i < n)%nat -> length x = m -> let r := A (mv x) i in
  (finite r -> clean x /\ Rabs (val r - nth i (matvec n m (V a) (V x)) 0) <= gam m * nth i (matvec n m (absv a) (absv x)) 0 + INR m * eta * (1 + uro) ^ m) /\
  (clean a -> clean x -> (1 + uro) ^ m * (nth i (matvec n m (absv a) (absv x)) 0 + INR m * eta) < huge -> finite r).
Proof.
  intros Hi Lx r. unfold r. unfold mv_of. rewrite (@at_tab BN) by done. rewrite mvec_nth, mvec_abs by done.
  destruct (dotf m (fun j => A a (i * m + j)) (fun j => A x j)) as [H1 H2]. cbv beta zeta in H1, H2.
  set (d := foldi m _ _) in *. split.
  - intros F. apply fin_add_inv in F as [_ F]. apply fin_mul_inv in F as [_ F]. destruct (mul_one d F) as [E1 F1].
    destruct (add_zero flog fexp fceil _ F1) as [E2 _]. rewrite E2, E1. destruct (H1 F) as [G1 G2]. split; [|exact G2].
    apply (clean_at flog fexp fceil). rewrite Lx. intros j Hj. by apply G1.
  - intros Ca Cx HH. rewrite (clean_at flog fexp fceil) in Ca, Cx. rewrite Lx in Cx.
    assert (F : finite d). { apply H2; [|exact HH]. intros j Hj. split; [apply Ca; by apply idx_lt|by apply Cx]. }
    destruct (mul_one d F) as [_ F1]. apply (add_zero flog fexp fceil _ F1).
Qed.
Lemma mtv_acc (y : list b64) j : (j < m)%nat -> length y = n -> let r := A (mtv y) j in
  (finite r -> clean y /\ Rabs (val r - nth j (matTvec n m (V a) (V y)) 0) <= gam n * nth j (matTvec n m (absv a) (absv y)) 0 + INR n * eta * (1 + uro) ^ n) /\
  (clean a -> clean y -> (1 + uro) ^ n * (nth j (matTvec n m (absv a) (absv y)) 0 + INR n * eta) < huge -> finite r).
Proof.
  intros Hj Ly r. unfold r. unfold mtv_of. rewrite (@at_tab BN) by done. rewrite mTvec_nth, mTvec_abs by done.
  destruct (dotf n (fun i => @mul BN (@one BN) (A y i)) (fun i => A a (i * m + j))) as [H1 H2]. cbv beta zeta in H1, H2.
  set (d := foldi n _ _) in *.
  assert (HE : (forall i, (i < n)%nat -> finite (A y i)) -> Rsum n (fun i => Rabs (val (@mul BN (@one BN) (A y i)) * val (A a (i * m + j)))) = Rsum n (fun i => Rabs (val (A y i) * val (A a (i * m + j))))).
  { intros Hf. apply Rsum_ext. intros i Hi. by rewrite (proj1 (mul_one _ (Hf i Hi))). }
  split.
  - intros F. destruct (H1 F) as [G1 G2]. assert (Fy : forall i, (i < n)%nat -> finite (A y i)). { intros i Hi. destruct (G1 i Hi) as [G _]. by apply fin_mul_inv in G as [_ G]. }
    split; [apply (clean_at flog fexp fceil); by rewrite Ly|]. rewrite HE in G2 by done.
    erewrite Rsum_ext in G2; [exact G2|]. intros i Hi. cbv beta. rewrite (proj1 (mul_one _ (Fy i Hi))). ring.
  - intros Ca Cy HH. rewrite (clean_at flog fexp fceil) in Ca, Cy. rewrite Ly in Cy. apply H2.
    + intros i Hi. split; [by apply mul_one, Cy|apply Ca; by apply idx_lt].
    + by rewrite HE.
Qed.
Lemma atax_acc (x : list b64) j : (j < m)%nat -> length x = m -> let r := A (mtv (mv x)) j in let aa := absv a in
  finite r -> Rabs (val r - nth j (matTvec n m (V a) (matvec n m (V a) (V x))) 0) <=
    gam (n + m) * nth j (matTvec n m aa (matvec n m aa (absv x))) 0 + INR m * eta * (1 + uro) ^ (n + m) * Rsum n (fun i => nth (i * m + j) aa 0) + INR n * eta * (1 + uro) ^ n.
Proof.
  intros Hj Lx r aa F. unfold aa, r in *. assert (Ly : length (mv x) = n) by apply tab_length.
  destruct (proj1 (mtv_acc (mv x) j Hj Ly) F) as [Cy0 HA].
  assert (Cy : forall i, (i < n)%nat -> finite (A (mv x) i)). { intros i Hi. apply (proj1 (clean_at flog fexp fceil _) Cy0). eapply Nat.lt_le_trans; [exact Hi|]. apply Nat.eq_le_incl. symmetry. exact Ly. }
  clear Cy0. set (y := mv x) in *. set (e := fun i => gam m * nth i (matvec n m (absv a) (absv x)) 0 + INR m * eta * (1 + uro) ^ m).
  assert (HY : forall i, (i < n)%nat -> Rabs (val (A y i) - nth i (matvec n m (V a) (V x)) 0) <= e i). { intros i Hi. apply (mv_acc x i Hi Lx). by apply Cy. }
  assert (HS : forall i, (i < n)%nat -> Rabs (nth i (matvec n m (V a) (V x)) 0) <= nth i (matvec n m (absv a) (absv x)) 0).
  { intros i Hi. rewrite mvec_nth, mvec_abs by done. apply Rsum_abs. }
  set (al := fun i => Rabs (val (A a (i * m + j)))). set (S := fun i => nth i (matvec n m (absv a) (absv x)) 0) in *.
  assert (E1 : nth j (matTvec n m (V a) (matvec n m (V a) (V x))) 0 = Rsum n (fun i => val (A a (i * m + j)) * nth i (matvec n m (V a) (V x)) 0)).
  { unfold matTvec. rewrite vec_nth by done. apply Rsum_ext. intros i _. by rewrite (V_nth flog fexp fceil). }
  assert (E2 : nth j (matTvec n m (absv a) (matvec n m (absv a) (absv x))) 0 = Rsum n (fun i => al i * S i)).
  { unfold matTvec. rewrite vec_nth by done. apply Rsum_ext. intros i _. by rewrite absv_nth. }
  assert (E3 : Rsum n (fun i => nth (i * m + j) (absv a) 0) = Rsum n al). { apply Rsum_ext. intros i _. by rewrite absv_nth. }
  rewrite E1, E2, E3. rewrite mTvec_nth, mTvec_abs in HA by done.
  assert (B1 : Rabs (Rsum n (fun i => val (A a (i * m + j)) * val (A y i)) - Rsum n (fun i => val (A a (i * m + j)) * nth i (matvec n m (V a) (V x)) 0)) <= Rsum n (fun i => al i * e i)).
  { rewrite <- Rsum_minus. eapply Rle_trans; [apply Rsum_abs|]. apply Rsum_le. intros i Hi. rewrite <- Rmult_minus_distr_l, Rabs_mult. apply Rmult_le_compat_l; [apply Rabs_pos|by apply HY]. }
  assert (B2 : Rsum n (fun i => Rabs (val (A y i) * val (A a (i * m + j)))) <= Rsum n (fun i => al i * (S i + e i))).
  { apply Rsum_le. intros i Hi. rewrite Rabs_mult, Rmult_comm. apply Rmult_le_compat_l; [apply Rabs_pos|].
    replace (val (A y i)) with (nth i (matvec n m (V a) (V x)) 0 + (val (A y i) - nth i (matvec n m (V a) (V x)) 0)) by ring.
    eapply Rle_trans; [apply Rabs_triang|]. specialize (HY i Hi). specialize (HS i Hi). unfold S. lra. }
  assert (G0 : 0 <= gam n). { unfold gam. pose proof (pow_ge1 n). lra. }
  apply (Rmult_le_compat_l (gam n) _ _ G0) in B2.
  assert (EQ : gam n * Rsum n (fun i => al i * (S i + e i)) + Rsum n (fun i => al i * e i) = gam (n + m) * Rsum n (fun i => al i * S i) + INR m * eta * (1 + uro) ^ (n + m) * Rsum n al).
  { rewrite <- !Rsum_scal, <- !Rsum_plus. apply Rsum_ext. intros i _. unfold e. fold (S i). unfold gam. rewrite pow_add. ring. }
  match goal with |- Rabs (?v - ?t) <= _ => match type of HA with Rabs (_ - ?u) <= _ => replace (v - t) with ((v - u) + (u - t)) by ring end end.
  eapply Rle_trans; [apply Rabs_triang|]. lra.
Qed.
Lemma atax_fin (x : list b64) j : (j < m)%nat -> length x = m -> clean a -> clean x ->
  let B i := (1 + uro) ^ m * (nth i (matvec n m (absv a) (absv x)) 0 + INR m * eta) in
  (forall i, (i < n)%nat -> B i < huge) -> (1 + uro) ^ n * (Rsum n (fun i => nth (i * m + j) (absv a) 0 * B i) + INR n * eta) < huge -> finite (A (mtv (mv x)) j).
Proof.
  intros Hj Lx Ca Cx B HB HH. assert (Ly : length (mv x) = n) by apply tab_length.
  assert (Fy : forall i, (i < n)%nat -> finite (A (mv x) i)). { intros i Hi. apply (mv_acc x i Hi Lx); [done|done|by apply HB]. }
  apply (mtv_acc (mv x) j Hj Ly); [done|apply (clean_at flog fexp fceil); intros i Hi; apply Fy; eapply Nat.lt_le_trans; [exact Hi|]; apply Nat.eq_le_incl; exact Ly|].
  eapply Rle_lt_trans; [|exact HH]. pose proof (pow_ge1 n). apply Rmult_le_compat_l; [lra|]. apply Rplus_le_compat_r.
  rewrite mTvec_abs by done. apply Rsum_le. intros i Hi. rewrite Rabs_mult, Rmult_comm, absv_nth. apply Rmult_le_compat_l; [apply Rabs_pos|].
  destruct (proj1 (mv_acc x i Hi Lx) (Fy i Hi)) as [_ Q].
  assert (HS : Rabs (nth i (matvec n m (V a) (V x)) 0) <= nth i (matvec n m (absv a) (absv x)) 0) by (rewrite mvec_nth, mvec_abs by done; apply Rsum_abs).
  replace (val (A (mv x) i)) with (nth i (matvec n m (V a) (V x)) 0 + (val (A (mv x) i) - nth i (matvec n m (V a) (V x)) 0)) by ring.
  eapply Rle_trans; [apply Rabs_triang|]. unfold B, gam in *. lra.
Qed.
End C99.

(** ** C99: after a successful set-up for the n by m matrix a and any history of calls, a call of Ax, of Aty, and of AtAx *)
Section theorems.
Context (flog fexp fceil : b64 -> b64).
Notation BN := (BN_with flog fexp fceil).
Context (fft1 : fkind -> list b64 -> list b64) (fft2 : fkind -> nat -> nat -> list b64 -> list b64).
Implicit Types (s : @st BN).
Notation ent ys i := (@at_ BN ys i).

Theorem C99_Ax s n m ab ao a ax s1 s2 X (x : list b64) D ds : @started_m BN s n m ab ao a ax s1 ->
  hist (blocks_m s ab) (@dct_ops BN fft1 fft2 ax n m) s1 s2 -> good_call (blocks_m s ab) (@o_Ax BN fft1 fft2 ax n m) s2 X x D ds ->
  exists s3 y, @call BN fft1 fft2 (ax_Ax ax) X D s2 = Ok tt s3 /\ seg s3 D y /\ length y = n /\
  forall i, (i < n)%nat -> let S := nth i (matvec n m (absv a) (absv x)) 0 in
    (finite (ent y i) -> clean x /\ Rabs (val (ent y i) - nth i (matvec n m (V a) (V x)) 0) <= gam m * S + INR m * eta * (1 + uro) ^ m) /\
    (clean a -> clean x -> (1 + uro) ^ m * (S + INR m * eta) < huge -> finite (ent y i)).
Proof.
  intros H Hh HG. destruct (@matrix_calls_history_independent BN fft1 fft2 _ _ _ _ _ _ _ _ H) as (H1 & _).
  destruct (H1 s2 X x D ds Hh HG) as (s3 & E & Sg & L & _). exists s3, (@mv_of BN n m a x). split; [exact E|]. split; [exact Sg|]. split; [exact L|].
  intros i Hi. apply mv_acc; [apply (sm_l _ _ _ _ _ _ _ _ H)|done|]. apply (gc_lx _ _ _ _ _ _ _ HG).
Qed.
Theorem C99_Aty s n m ab ao a ax s1 s2 Y (y : list b64) D ds : @started_m BN s n m ab ao a ax s1 ->
  hist (blocks_m s ab) (@dct_ops BN fft1 fft2 ax n m) s1 s2 -> good_call (blocks_m s ab) (@o_Aty BN fft1 fft2 ax n m) s2 Y y D ds ->
  exists s3 x, @call BN fft1 fft2 (ax_Aty ax) Y D s2 = Ok tt s3 /\ seg s3 D x /\ length x = m /\
  forall j, (j < m)%nat -> let S := nth j (matTvec n m (absv a) (absv y)) 0 in
    (finite (ent x j) -> clean y /\ Rabs (val (ent x j) - nth j (matTvec n m (V a) (V y)) 0) <= gam n * S + INR n * eta * (1 + uro) ^ n) /\
    (clean a -> clean y -> (1 + uro) ^ n * (S + INR n * eta) < huge -> finite (ent x j)).
Proof.
  intros H Hh HG. destruct (@matrix_calls_history_independent BN fft1 fft2 _ _ _ _ _ _ _ _ H) as (_ & H1 & _).
  destruct (H1 s2 Y y D ds Hh HG) as (s3 & E & Sg & L & _). exists s3, (@mtv_of BN n m a y). split; [exact E|]. split; [exact Sg|]. split; [exact L|].
  intros i Hi. apply mtv_acc; [apply (sm_l _ _ _ _ _ _ _ _ H)|done|]. apply (gc_lx _ _ _ _ _ _ _ HG).
Qed.
Theorem C99_AtAx s n m ab ao a ax s1 s2 X (x : list b64) D ds : @started_m BN s n m ab ao a ax s1 ->
  hist (blocks_m s ab) (@dct_ops BN fft1 fft2 ax n m) s1 s2 -> good_call (blocks_m s ab) (@o_AtAx BN fft1 fft2 ax m) s2 X x D ds ->
  exists s3 z, @call BN fft1 fft2 (ax_AtAx ax) X D s2 = Ok tt s3 /\ seg s3 D z /\ length z = m /\
  forall j, (j < m)%nat ->
    (finite (ent z j) -> Rabs (val (ent z j) - nth j (matTvec n m (V a) (matvec n m (V a) (V x))) 0) <=
      gam (n + m) * nth j (matTvec n m (absv a) (matvec n m (absv a) (absv x))) 0 +
      INR m * eta * (1 + uro) ^ (n + m) * Rsum n (fun i => nth (i * m + j) (absv a) 0) + INR n * eta * (1 + uro) ^ n) /\
    let B i := (1 + uro) ^ m * (nth i (matvec n m (absv a) (absv x)) 0 + INR m * eta) in
    (clean a -> clean x -> (forall i, (i < n)%nat -> B i < huge) -> (1 + uro) ^ n * (Rsum n (fun i => nth (i * m + j) (absv a) 0 * B i) + INR n * eta) < huge -> finite (ent z j)).
Proof.
  intros H Hh HG. destruct (@matrix_calls_history_independent BN fft1 fft2 _ _ _ _ _ _ _ _ H) as (_ & _ & H1 & _).
  destruct (H1 s2 X x D ds Hh HG) as (s3 & E & Sg & L & _). exists s3, (@mtv_of BN n m a (@mv_of BN n m a x)). split; [exact E|]. split; [exact Sg|]. split; [exact L|].
  intros j Hj. pose proof (sm_l _ _ _ _ _ _ _ _ H) as La. pose proof (gc_lx _ _ _ _ _ _ _ HG) as Lx.
  split; [by apply (atax_acc flog fexp fceil n m a La)|]. intros B Ca Cx. by apply (atax_fin flog fexp fceil n m a La).
Qed.
End theorems.

(** ** Concrete case: the matrix 1 2 3 / 4 5 6, Ax of 1,-1,1, Aty of 1,-1 and AtAx of 1,-1,1 *)
Module mat_case.
Import RoundEx.
Notation B := (BN_with id64 id64 id64).
Definition f1 : fkind -> list b64 -> list b64 := fun _ x => x.
Definition f2 : fkind -> nat -> nat -> list b64 -> list b64 := fun _ _ _ x => x.
Definition mat : list b64 := [k 1; k 2; k 3; k 4; k 5; k 6].
Definition xv : list b64 := [k 1; k (-1); k 1].
Definition yv : list b64 := [k 1; k (-1)].
Lemma cl_m : clean mat. Proof. repeat constructor; apply kf; vm_compute; discriminate. Qed.
Lemma cl_x : clean xv. Proof. repeat constructor; apply kf; vm_compute; discriminate. Qed.
Lemma cl_y : clean yv. Proof. repeat constructor; apply kf; vm_compute; discriminate. Qed.
Lemma Vm : V mat = [1; 2; 3; 4; 5; 6]. Proof. unfold V, mat. cbn [map]. by kvs. Qed.
Lemma Vx : V xv = [1; -1; 1]. Proof. unfold V, xv. cbn [map]. by kvs. Qed.
Lemma Vy : V yv = [1; -1]. Proof. unfold V, yv. cbn [map]. by kvs. Qed.
Ltac ab := cbn [map]; rewrite ?(Rabs_left (-1)) by lra; rewrite ?Rabs_pos_eq by lra; repeat (f_equal; try lra).
Lemma am : absv mat = [1; 2; 3; 4; 5; 6]. Proof. unfold absv. rewrite Vm. ab. Qed.
Lemma axx : absv xv = [1; 1; 1]. Proof. unfold absv. rewrite Vx. ab. Qed.
Lemma ayy : absv yv = [1; 1]. Proof. unfold absv. rewrite Vy. ab. Qed.
Definition M6 : list R := [1; 2; 3; 4; 5; 6].
Ltac mvs := unfold matvec, matTvec, S_Dct.vec, M6; cbn; repeat (f_equal; [lra|]); f_equal; lra.
Lemma v1 : matvec 2 3 M6 [1; -1; 1] = [2; 5]. Proof. mvs. Qed.
Lemma v2 : matvec 2 3 M6 [1; 1; 1] = [6; 15]. Proof. mvs. Qed.
Lemma v3 : matTvec 2 3 M6 [1; -1] = [-3; -3; -3]. Proof. mvs. Qed.
Lemma v4 : matTvec 2 3 M6 [1; 1] = [5; 7; 9]. Proof. mvs. Qed.
Lemma v5 : matTvec 2 3 M6 [2; 5] = [22; 29; 36]. Proof. mvs. Qed.
Lemma v6 : matTvec 2 3 M6 [6; 15] = [66; 87; 108]. Proof. mvs. Qed.
Definition bl := [@full B mat; @full B xv; @fresh B 2; @full B yv; @fresh B 3].
Definition s0 : @st B := @demo B env0 [] bl.
Example C99_case : exists ax s1, @started_m B s0 2 3 1 0 mat ax s1 /\
  (exists s3 y, @call B f1 f2 (ax_Ax ax) (Ptr 2 0) (Ptr 3 0) s1 = Ok tt s3 /\ seg s3 (Ptr 3 0) y /\
    finite (@at_ B y 1) /\ Rabs (val (@at_ B y 1) - 5) <= gam 3 * 15 + 3 * eta * (1 + uro) ^ 3) /\
  (exists s3 x, @call B f1 f2 (ax_Aty ax) (Ptr 4 0) (Ptr 5 0) s1 = Ok tt s3 /\ seg s3 (Ptr 5 0) x /\
    finite (@at_ B x 2) /\ Rabs (val (@at_ B x 2) - (-3)) <= gam 2 * 9 + 2 * eta * (1 + uro) ^ 2) /\
  (exists s3 z, @call B f1 f2 (ax_AtAx ax) (Ptr 2 0) (Ptr 5 0) s1 = Ok tt s3 /\ seg s3 (Ptr 5 0) z /\
    finite (@at_ B z 0) /\ Rabs (val (@at_ B z 0) - 22) <= gam 5 * 66 + 3 * eta * (1 + uro) ^ 5 * 5 + 2 * eta * (1 + uro) ^ 2).
Proof.
  assert (Hu : unborn s0) by apply demo_unborn.
  assert (Sa : seg s0 (Ptr 1 0) mat) by (by apply (@demo_seg B env0 [] bl 0)).
  destruct (@setupm_run B s0 2 3 (Ptr 1 0) ax0 Hu ltac:(lia) ltac:(lia)) as [(_ & s1 & E & L & _)|(Ha & _)]; [|discriminate Ha].
  assert (H : @started_m B s0 2 3 1 0 mat (axm 2 3) s1). { split; try done. by exists ax0. }
  exists (axm 2 3), s1. split; [done|].
  assert (Hno : forall b k, (b < 6)%nat -> (k, b) ∉ [(KD, nx s0)]).
  { intros b k Hb Hi. apply elem_of_list_singleton in Hi. injection Hi as -> ->. simpl in Hb. lia. }
  assert (Sx : seg s1 (Ptr 2 0) xv). { eapply led_seg; [exact L|intros; apply Hno; lia|]. by apply (@demo_seg B env0 [] bl 1). }
  assert (Sy : seg s1 (Ptr 4 0) yv). { eapply led_seg; [exact L|intros; apply Hno; lia|]. by apply (@demo_seg B env0 [] bl 3). }
  assert (W3 : wok s1 (Ptr 3 0) 2). { eapply led_wok; [exact L|intros; apply Hno; lia|]. by apply (@demo_wok B env0 [] bl 2 (@fresh B 2)). }
  assert (W5 : wok s1 (Ptr 5 0) 3). { eapply led_wok; [exact L|intros; apply Hno; lia|]. by apply (@demo_wok B env0 [] bl 4 (@fresh B 3)). }
  assert (Al : forall b, (1 <= b <= 5)%nat -> is_aligned s1 (Ptr b 0) = true). { intros b Hb. eapply led_al; [exact L|simpl; lia|done]. }
  assert (Ou : forall b, (2 <= b <= 5)%nat -> outside (Ptr b 0) (blocks_m s0 1)). { intros b Hb. assert (b ∈ [2; 3; 4; 5]%nat) as Hb' by (destruct b as [|[|[|[|[|[|]]]]]]; first [lia|isin]). 
    repeat (apply elem_of_cons in Hb' as [->|Hb']; [apply (bool_decide_unpack _); vm_compute; done|]). by apply elem_of_nil in Hb'. }
  pose proof eta_le1. pose proof eta_pos. pose proof (pow_ge1 2). pose proof (pow_ge1 3). pose proof (small_pow 2) as P2. pose proof (small_pow 3) as P3.
  assert (I2 : INR 2 = 2) by (cbn; lra). assert (I3 : INR 3 = 3) by (cbn; lra).
  split; [|split].
  - destruct (C99_Ax id64 id64 id64 f1 f2 s0 2 3 1 0 mat (axm 2 3) s1 s1 (Ptr 2 0) xv (Ptr 3 0) [] H (h_nil _ _ _)) as (s3 & y & E3 & S3 & _ & Q); [by split; try done; first [apply Al; lia|apply Ou; lia]|].
    exists s3, y. split; [exact E3|]. split; [exact S3|]. destruct (Q 1%nat ltac:(lia)) as [Q1 Q2]. rewrite am, axx in Q1, Q2. rewrite Vm, Vx in Q1. fold M6 in Q1, Q2. rewrite v2 in Q1, Q2. rewrite v1 in Q1. cbn [nth] in Q1, Q2. rewrite I3 in Q1, Q2.
    assert (F : finite (@at_ B y 1)). { apply Q2; [apply cl_m|apply cl_x|]. apply big. nra. }
    split; [exact F|]. apply (Q1 F).
  - destruct (C99_Aty id64 id64 id64 f1 f2 s0 2 3 1 0 mat (axm 2 3) s1 s1 (Ptr 4 0) yv (Ptr 5 0) [] H (h_nil _ _ _)) as (s3 & y & E3 & S3 & _ & Q); [by split; try done; first [apply Al; lia|apply Ou; lia]|].
    exists s3, y. split; [exact E3|]. split; [exact S3|]. destruct (Q 2%nat ltac:(lia)) as [Q1 Q2]. rewrite am, ayy in Q1, Q2. rewrite Vm, Vy in Q1. fold M6 in Q1, Q2. rewrite v4 in Q1, Q2. rewrite v3 in Q1. cbn [nth] in Q1, Q2. rewrite I2 in Q1, Q2.
    assert (F : finite (@at_ B y 2)). { apply Q2; [apply cl_m|apply cl_y|]. apply big. nra. }
    split; [exact F|]. apply (Q1 F).
  - destruct (C99_AtAx id64 id64 id64 f1 f2 s0 2 3 1 0 mat (axm 2 3) s1 s1 (Ptr 2 0) xv (Ptr 5 0) [] H (h_nil _ _ _)) as (s3 & y & E3 & S3 & _ & Q); [by split; try done; first [apply Al; lia|apply Ou; lia]|].
    exists s3, y. split; [exact E3|]. split; [exact S3|]. destruct (Q 0%nat ltac:(lia)) as [Q1 Q2]. cbv zeta in Q2. rewrite am, axx in Q1, Q2. rewrite Vm, Vx in Q1. fold M6 in Q1, Q2. rewrite v2 in Q1, Q2. rewrite v1, v5, v6 in Q1. unfold M6 in Q1, Q2. cbn [nth Rsum Nat.mul Nat.add] in Q1, Q2. rewrite I2, I3 in Q1, Q2.
    assert (F : finite (@at_ B y 0)).
    { apply Q2; [apply cl_m|apply cl_x| |].
      - intros [|[|i]] Hi; [..|lia]; cbn [nth]; apply big; nra.
      - apply big. set (u := (1 + uro) ^ 3) in *. set (w := (1 + uro) ^ 2) in *. assert (u * (6 + 3 * eta) <= 8 * 9) by nra. assert (u * (15 + 3 * eta) <= 8 * 18) by nra. nra. }
    split; [exact F|]. specialize (Q1 F). replace (3 * eta * (1 + uro) ^ 5 * 5) with (3 * eta * (1 + uro) ^ 5 * (0 + 1 + 4)) by lra. exact Q1.
Qed.
End mat_case.

Print Assumptions C99_Ax.
Print Assumptions C99_Aty.
Print Assumptions C99_AtAx.
