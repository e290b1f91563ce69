(** * Rounding errors of the reductions, as trees of additions in IEEE binary64. *)
From Coq Require Import ZArith Reals Lra Lia Psatz.
From Flocq Require Import Core BinarySingleNaN.
From stdpp Require Import base numbers list.
From Verif Require Import Num NumB S_Round L_Round L_Sum P_Mem P_Loop M_Math P_Math P_VCL T_Math.
Local Open Scope R_scope.
Local Notation sqrt := R_sqrt.sqrt.

(** number of roundings on the longest path; adding an empty total is exact *)
Fixpoint rdepth (t : rtree) : nat :=
  match t with
  | RZero | RTerm _ => 0
  | RAdd l r => match rleaves l, rleaves r with [], _ => rdepth r | _, [] => rdepth l | _, _ => S (Nat.max (rdepth l) (rdepth r)) end
  end.
Lemma rdepth_le t : (rdepth t <= length (rleaves t) - 1)%nat.
Proof.
  induction t as [| |l IHl r IHr]; cbn [rdepth rleaves]; [lia|cbn; lia|]. rewrite app_length.
  destruct (rleaves l); [exact IHr|]. destruct (rleaves r); cbn [length] in *; lia.
Qed.
Definition LR (f : nat -> R) (l : list nat) : R := foldr (fun i a => f i + a) 0 l.
Lemma LR_app f l k : LR f (l ++ k) = LR f l + LR f k.
Proof. induction l as [|i l IH]; [change (LR f k = 0 + LR f k); lra|]. change (LR f (i :: l)) with (f i + LR f l). change (LR f ((i :: l) ++ k)) with (f i + LR f (l ++ k)). rewrite IH. lra. Qed.
Lemma LR_perm f l k : l ≡ₚ k -> LR f l = LR f k.
Proof. induction 1 as [|i l k _ IH|i j l|? ? ? _ IH1 _ IH2]; [done|change (f i + LR f l = f i + LR f k); by rewrite IH|change (f j + (f i + LR f l) = f i + (f j + LR f l)); lra|congruence]. Qed.
Lemma LR_seq f n : LR f (seq 0 n) = Rsum n f.
Proof. induction n as [|n IH]; [done|]. rewrite seq_S, LR_app, IH. change (LR f [(0 + n)%nat]) with (f n + 0). change (Rsum (S n) f) with (Rsum n f + f n). lra. Qed.
Lemma LR_nonneg f l : (forall i, i ∈ l -> 0 <= f i) -> 0 <= LR f l.
Proof. induction l as [|i l IH]; [intros _; apply Rle_refl|]. intros H. assert (0 <= f i) by (apply H; left). assert (0 <= LR f l) by (apply IH; intros; apply H; by right). change (0 <= f i + LR f l). lra. Qed.

Section trees.
Context (flog fexp fceil : b64 -> b64).
Notation BN := (BN_with flog fexp fceil).
Notation ev := (@reval BN).
Notation nr := near.
Implicit Types (f : nat -> b64) (t : rtree).

Lemma ev_empty f t : rleaves t = [] -> val (ev f t) = 0 /\ finite (ev f t).
Proof.
  induction t as [|i|l IHl r IHr]; cbn [rleaves reval]; [intros _; apply zero_val|done|]. intros [E1 E2]%app_nil.
  destruct (IHl E1) as [V1 F1], (IHr E2) as [V2 F2]. assert (F : finite (@add BN (ev f l) (ev f r))).
  { apply add_fin; [done|done|]. rewrite V1, V2, Rplus_0_l. unfold rnd. rewrite Generic_fmt.round_0 by typeclasses eauto. rewrite Rabs_R0. unfold huge. apply pow_lt. lra. }
  split; [|done]. rewrite add_val by done. rewrite V1, V2, Rplus_0_l. unfold rnd. by rewrite Generic_fmt.round_0 by typeclasses eauto.
Qed.
Lemma val_empty_l x y : val x = 0 -> finite (@add BN x y) -> val (@add BN x y) = val y.
Proof. intros E F. rewrite add_val by done. rewrite E, Rplus_0_l. apply rnd_format, format_val. Qed.
Lemma val_empty_r x y : val y = 0 -> finite (@add BN x y) -> val (@add BN x y) = val x.
Proof. intros E F. rewrite add_val by done. rewrite E, Rplus_0_r. apply rnd_format, format_val. Qed.
Lemma near_eq k c x y s A : val x = val y -> finite y -> nr k c x s A -> nr k c y s A.
Proof. intros E F (_ & H). split; [done|]. by rewrite <- E. Qed.

(** a finite total is close to the exact total *)
Lemma tree_near f (g a : nat -> R) (k : nat) c t : 0 <= c -> (forall i, i ∈ rleaves t -> finite (f i) -> nr k c (f i) (g i) (a i)) -> finite (ev f t) ->
  nr (k + rdepth t) (c * INR (length (rleaves t))) (ev f t) (LR g (rleaves t)) (LR a (rleaves t)).
Proof.
  intros Hc. induction t as [|i|l IHl r IHr]; intros Hf F.
  - destruct (zero_val flog fexp fceil) as [E F0]. change (nr (k + 0) (c * 0) (@zero BN) 0 0). split; [done|]. split; [rewrite Rabs_R0; lra|]. split; [lra|]. rewrite E, Rminus_0_r, Rabs_R0. lra.
  - cbn [rdepth rleaves length LR foldr]. rewrite Nat.add_0_r. change (INR 1) with 1. rewrite Rmult_1_r, !Rplus_0_r. apply Hf; [left|done].
  - cbn [reval] in F. destruct (fin_add_inv _ _ _ _ _ F) as [Fl Fr].
    assert (Nl := IHl (fun i Hi => Hf i (proj2 (elem_of_app _ _ _) (or_introl Hi))) Fl). assert (Nr := IHr (fun i Hi => Hf i (proj2 (elem_of_app _ _ _) (or_intror Hi))) Fr).
    clear IHl IHr. cbn [reval rleaves rdepth]. rewrite app_length, plus_INR, !LR_app, Rmult_plus_distr_l.
    destruct (rleaves l) as [|i l'] eqn:El.
    { destruct (ev_empty f l El) as [V _]. cbn [length LR foldr]. change (INR 0) with 0. rewrite Rmult_0_r, !Rplus_0_l. eapply near_eq; [symmetry; by apply val_empty_l|done|exact Nr]. }
    destruct (rleaves r) as [|j r'] eqn:Er.
    { destruct (ev_empty f r Er) as [V _]. cbn [length]. change (INR 0) with 0. change (LR g []) with 0. change (LR a []) with 0. rewrite Rmult_0_r, !Rplus_0_r. eapply near_eq; [symmetry; by apply val_empty_r|done|exact Nl]. }
    rewrite Nat.add_succ_r. apply near_add; [| |done]; (eapply near_mono; [| |eassumption]; [lia|lra]).
Qed.
(** all terms enter the total *)
Lemma tree_terms f t i : finite (ev f t) -> i ∈ rleaves t -> finite (f i).
Proof.
  induction t as [|j|l IHl r IHr]; cbn [rleaves reval]; [by intros _ []%elem_of_nil|by intros F ->%elem_of_list_singleton|].
  intros [Fl Fr]%fin_add_inv [H|H]%elem_of_app; auto.
Qed.
(** no overflow *)
Lemma tree_fin f (g a : nat -> R) (k : nat) c t : 0 <= c -> (forall i, i ∈ rleaves t -> nr k c (f i) (g i) (a i)) ->
  (1 + uro) ^ (k + rdepth t) * (LR a (rleaves t) + c * INR (length (rleaves t)) * eta) < huge -> finite (ev f t).
Proof.
  intros Hc. induction t as [|i|l IHl r IHr]; intros Hf H.
  - apply zero_val.
  - apply (Hf i). left.
  - cbn [reval rleaves rdepth] in *. rewrite app_length, plus_INR, LR_app in H.
    assert (Hl : forall i, i ∈ rleaves l -> nr k c (f i) (g i) (a i)) by (intros i Hi; apply Hf, elem_of_app; by left).
    assert (Hr : forall i, i ∈ rleaves r -> nr k c (f i) (g i) (a i)) by (intros i Hi; apply Hf, elem_of_app; by right).
    pose proof (LR_nonneg a (rleaves l) (fun i Hi => near_A _ _ _ _ _ (Hl i Hi))) as Pl. pose proof (LR_nonneg a (rleaves r) (fun i Hi => near_A _ _ _ _ _ (Hr i Hi))) as Pr.
    pose proof eta_pos as He. pose proof (pos_INR (length (rleaves l))) as Il. pose proof (pos_INR (length (rleaves r))) as Ir.
    assert (Ql : 0 <= c * INR (length (rleaves l)) * eta) by (repeat apply Rmult_le_pos; lra). assert (Qr : 0 <= c * INR (length (rleaves r)) * eta) by (repeat apply Rmult_le_pos; lra).
    set (D := (match rleaves l with [] => rdepth r | _ => match rleaves r with [] => rdepth l | _ => S (rdepth l `max` rdepth r) end end)%nat) in *.
    assert (Main : forall d X, (d <= D)%nat -> 0 <= X -> X <= LR a (rleaves l) + LR a (rleaves r) + c * (INR (length (rleaves l)) + INR (length (rleaves r))) * eta -> (1 + uro) ^ (k + d) * X < huge).
    { intros d X Hd HX0 HX. eapply Rle_lt_trans; [|exact H]. apply Rmult_le_compat; [pose proof (pow_ge1 (k + d)); lra|done|apply pow_mono; lia|lra]. }
    assert (Fl : finite (ev f l)).
    { destruct (rleaves l) eqn:El; [by apply ev_empty|]. apply IHl; [done|]. apply Main; [unfold D; destruct (rleaves r); lia|lra|nra]. }
    assert (Fr : finite (ev f r)).
    { destruct (rleaves r) eqn:Er; [by apply ev_empty|]. apply IHr; [done|]. apply Main; [unfold D; destruct (rleaves l); lia|lra|nra]. }
    pose proof (tree_near f g a k c l Hc (fun i Hi _ => Hl i Hi) Fl) as Nl. pose proof (tree_near f g a k c r Hc (fun i Hi _ => Hr i Hi) Fr) as Nr.
    destruct (rleaves l) as [|i l'] eqn:El.
    { destruct (ev_empty f l El) as [V _]. apply add_fin; [done|done|]. rewrite V, Rplus_0_l, rnd_format by apply format_val. rewrite <- huge_eq. apply abs_B2R_lt_emax. }
    destruct (rleaves r) as [|j r'] eqn:Er.
    { destruct (ev_empty f r Er) as [V _]. apply add_fin; [done|done|]. rewrite V, Rplus_0_r, rnd_format by apply format_val. rewrite <- huge_eq. apply abs_B2R_lt_emax. }
    eapply near_add_fin with (k := (k + Nat.max (rdepth l) (rdepth r))%nat).
    + eapply near_mono; [| |exact Nl]; [lia|apply Rle_refl].
    + eapply near_mono; [| |exact Nr]; [lia|apply Rle_refl].
    + rewrite <- Nat.add_succ_r. apply Main; [unfold D; lia|lra|nra].
Qed.

(** ** the trees of the code *)
Fixpoint comb (h : nat -> nat) (n : nat) : rtree := match n with O => RZero | S n => RAdd (comb h n) (RTerm (h n)) end.
Lemma comb_leaves h n : rleaves (comb h n) = map h (seq 0 n).
Proof. induction n as [|n IH]; [done|]. rewrite seq_S, map_app. cbn [comb rleaves]. by rewrite IH. Qed.
Lemma comb_ev f h n : foldi n (fun i a => @add BN a (f (h i))) (@zero BN) = ev f (comb h n).
Proof. induction n as [|n IH]; [done|]. cbn [foldi comb reval]. by rewrite IH. Qed.
Lemma comb_depth h n : (rdepth (comb h n) <= n - 1)%nat.
Proof. pose proof (rdepth_le (comb h n)) as H. by rewrite comb_leaves, map_length, seq_length in H. Qed.
Definition vtree (n : nat) : rtree :=
  let q := (n / 4)%nat in
  RAdd (comb (fun i => 4 * q + i)%nat (n - 4 * q))
    (RAdd (RAdd (comb (fun k => 4 * k)%nat q) (comb (fun k => 4 * k + 1)%nat q)) (RAdd (comb (fun k => 4 * k + 2)%nat q) (comb (fun k => 4 * k + 3)%nat q))).
Lemma vtree_ev (g : b64 -> b64) n (xs : list b64) : @vsum_of BN g n xs = ev (fun i => g (@at_ BN xs i)) (vtree n).
Proof.
  unfold vsum_of, vtree. cbv zeta. cbn [reval]. f_equal; [apply (comb_ev (fun i => g (@at_ BN xs i)))|].
  rewrite <- !(comb_ev (fun i => g (@at_ BN xs i))). generalize (n / 4)%nat as q. intros q.
  transitivity (@horizontal_add BN (foldi q (fun i a => @add BN a (g (@at_ BN xs (4 * i)))) (@zero BN), foldi q (fun i a => @add BN a (g (@at_ BN xs (4 * i + 1)))) (@zero BN),
    foldi q (fun i a => @add BN a (g (@at_ BN xs (4 * i + 2)))) (@zero BN), foldi q (fun i a => @add BN a (g (@at_ BN xs (4 * i + 3)))) (@zero BN))); [|done].
  f_equal. induction q as [|q IH]; [done|]. cbn [foldi]. by rewrite IH.
Qed.
Lemma lanes q : map (fun k => 4 * k)%nat (seq 0 q) ++ map (fun k => 4 * k + 1)%nat (seq 0 q) ++ map (fun k => 4 * k + 2)%nat (seq 0 q) ++ map (fun k => 4 * k + 3)%nat (seq 0 q) ≡ₚ seq 0 (4 * q).
Proof.
  induction q as [|q IH]; [done|]. replace (4 * S q)%nat with (4 * q + 4)%nat by lia. rewrite seq_app, <- IH, seq_S, !map_app. cbn [map seq Nat.add].
  replace (4 * q + 0)%nat with (4 * q)%nat by lia. replace (S (4 * q)) with (4 * q + 1)%nat by lia. replace (S (4 * q + 1)) with (4 * q + 2)%nat by lia. replace (S (4 * q + 2)) with (4 * q + 3)%nat by lia.
  solve_Permutation.
Qed.
Lemma seq_shift_o o m : seq o m = map (fun i => o + i)%nat (seq 0 m).
Proof. revert o. induction m as [|m IH]; intros o; [done|]. cbn [seq map]. rewrite Nat.add_0_r. f_equal. rewrite (IH (S o)), (IH 1%nat), map_map. apply map_ext. lia. Qed.
Lemma vtree_leaves n : rleaves (vtree n) ≡ₚ seq 0 n.
Proof.
  unfold vtree. cbv zeta. cbn [rleaves]. rewrite !comb_leaves. pose proof (div4_le n).
  replace (seq 0 n) with (seq 0 (4 * (n / 4)) ++ map (fun i => 4 * (n / 4) + i)%nat (seq 0 (n - 4 * (n / 4)))).
  2:{ replace (seq 0 n) with (seq 0 (4 * (n / 4) + (n - 4 * (n / 4)))) by (f_equal; lia). rewrite seq_app. f_equal. cbn [Nat.add].
      symmetry. apply seq_shift_o. }
  rewrite <- lanes. solve_Permutation.
Qed.
Lemma vtree_depth n : (rdepth (vtree n) <= n / 4 + 3)%nat.
Proof.
  unfold vtree. cbv zeta. set (q := (n / 4)%nat). assert (n - 4 * q <= 3)%nat. { unfold q. pose proof (Nat.mod_upper_bound n 4 ltac:(lia)). pose proof (Nat.div_mod n 4 ltac:(lia)). lia. }
  assert (G : forall l r, (rdepth (RAdd l r) <= S (Nat.max (rdepth l) (rdepth r)))%nat). { intros l r. cbn [rdepth]. destruct (rleaves l), (rleaves r); lia. }
  pose proof (comb_depth (fun i => 4 * q + i)%nat (n - 4 * q)). pose proof (comb_depth (fun k => 4 * k)%nat q). pose proof (comb_depth (fun k => 4 * k + 1)%nat q).
  pose proof (comb_depth (fun k => 4 * k + 2)%nat q). pose proof (comb_depth (fun k => 4 * k + 3)%nat q).
  eapply Nat.le_trans; [apply G|]. pose proof (G (comb (fun k => 4 * k)%nat q) (comb (fun k => 4 * k + 1)%nat q)). pose proof (G (comb (fun k => 4 * k + 2)%nat q) (comb (fun k => 4 * k + 3)%nat q)).
  pose proof (G (RAdd (comb (fun k => 4 * k)%nat q) (comb (fun k => 4 * k + 1)%nat q)) (RAdd (comb (fun k => 4 * k + 2)%nat q) (comb (fun k => 4 * k + 3)%nat q))). lia.
Qed.

(** ** any way of bracketing n terms *)
Lemma red_near f (g a : nat -> R) (k : nat) c t n D : 0 <= c -> rleaves t ≡ₚ seq 0 n -> (rdepth t <= D)%nat -> (forall i, (i < n)%nat -> finite (f i) -> nr k c (f i) (g i) (a i)) -> finite (ev f t) ->
  (forall i, (i < n)%nat -> finite (f i)) /\ nr (k + D) (c * INR n) (ev f t) (Rsum n g) (Rsum n a).
Proof.
  intros Hc HP HD Hf F. assert (HI : forall i, i ∈ rleaves t <-> (i < n)%nat) by (intros i; rewrite HP, elem_of_list_In, in_seq; lia). split.
  { intros i Hi. apply (tree_terms f t i F). by apply HI. }
  assert (Q := tree_near f g a k c t Hc (fun i Hi => Hf i (proj1 (HI i) Hi)) F). rewrite !(LR_perm _ _ _ HP), !LR_seq in Q. rewrite HP, seq_length in Q.
  eapply near_mono; [| |exact Q]; [lia|lra].
Qed.
Lemma red_fin f (g a : nat -> R) (k : nat) c t n D : 0 <= c -> rleaves t ≡ₚ seq 0 n -> (rdepth t <= D)%nat -> (forall i, (i < n)%nat -> nr k c (f i) (g i) (a i)) ->
  (1 + uro) ^ (k + D) * (Rsum n a + c * INR n * eta) < huge -> finite (ev f t).
Proof.
  intros Hc HP HD Hf H. assert (HI : forall i, i ∈ rleaves t <-> (i < n)%nat) by (intros i; rewrite HP, elem_of_list_In, in_seq; lia).
  apply (tree_fin f g a k c t Hc); [intros i Hi; by apply Hf, HI|]. rewrite !(LR_perm _ _ _ HP), !LR_seq, HP, seq_length. eapply Rle_lt_trans; [|exact H].
  apply Rmult_le_compat_r; [|apply pow_mono; lia].
  assert (0 <= Rsum n a). { rewrite <- LR_seq. apply LR_nonneg. intros i Hi. apply elem_of_list_In, in_seq in Hi. eapply near_A, Hf. lia. }
  pose proof eta_pos. pose proof (pos_INR n). assert (0 <= c * INR n * eta) by (repeat apply Rmult_le_pos; lra). lra.
Qed.
Lemma comb_perm n : rleaves (comb (fun i => i) n) ≡ₚ seq 0 n. Proof. rewrite comb_leaves. by rewrite map_id. Qed.
Lemma foldi_ev f n : foldi n (fun i a => @add BN a (f i)) (@zero BN) = ev f (comb (fun i => i) n). Proof. apply (comb_ev f (fun i => i)). Qed.

(** the square of a difference *)
Lemma near_sqdiff x y : let d := @sub BN x y in finite (@mul BN d d) -> nr 3 1 (@mul BN d d) ((val x - val y) ^ 2) ((val x - val y) ^ 2).
Proof.
  intros d F. destruct (fin_mul_inv _ _ _ _ _ F) as [Fd _]. split; [done|]. split; [rewrite Rabs_pos_eq; [lra|apply pow2_ge_0]|]. split; [lra|].
  rewrite mul_val by done. assert (E : Rabs (val d - (val x - val y)) <= uro * Rabs (val x - val y)). { unfold d. rewrite sub_val by done. apply rnd_plus; [apply format_val|apply generic_format_opp, format_val]. }
  set (t := val x - val y) in *. set (w := val d) in *. pose proof uro_pos as U. pose proof eta_pos as He.
  assert (W : Rabs (w * w - t ^ 2) <= ((1 + uro) ^ 2 - 1) * t ^ 2).
  { replace (w * w - t ^ 2) with ((w - t) * (w - t + 2 * t)) by ring. rewrite Rabs_mult. replace (t ^ 2) with (Rabs t * Rabs t) by (rewrite <- Rabs_mult, Rabs_pos_eq by nra; ring).
    assert (Rabs (w - t + 2 * t) <= (uro + 2) * Rabs t). { eapply Rle_trans; [apply Rabs_triang|]. rewrite Rabs_mult, (Rabs_pos_eq 2) by lra. lra. }
    replace (((1 + uro) ^ 2 - 1) * (Rabs t * Rabs t)) with ((uro * Rabs t) * ((uro + 2) * Rabs t)) by ring. apply Rmult_le_compat; auto using Rabs_pos. }
  pose proof (rnd_err (w * w)) as Q. assert (0 <= t ^ 2) by apply pow2_ge_0. rewrite (Rabs_pos_eq (w * w)) in Q by nra.
  assert (W2 : w * w <= (1 + uro) ^ 2 * t ^ 2). { apply Rabs_le_inv in W. lra. }
  replace (rnd (w * w) - t ^ 2) with ((rnd (w * w) - w * w) + (w * w - t ^ 2)) by ring. eapply Rle_trans; [apply Rabs_triang|].
  unfold gam. assert (uro * (w * w) <= uro * ((1 + uro) ^ 2 * t ^ 2)) by (apply Rmult_le_compat_l; lra). pose proof (pow_ge1 3).
  assert (eta * 1 <= eta * (1 + uro) ^ 3) by (apply Rmult_le_compat_l; lra).
  replace (((1 + uro) ^ 3 - 1) * t ^ 2 + 1 * eta * (1 + uro) ^ 3) with (uro * ((1 + uro) ^ 2 * t ^ 2) + ((1 + uro) ^ 2 - 1) * t ^ 2 + eta * (1 + uro) ^ 3) by ring. lra.
Qed.

(** the root of an approximation *)
Lemma sqrt_close a d g e : 0 <= a -> 0 <= d -> 0 <= g -> 0 <= e -> Rabs (a - d) <= g * d + e -> Rabs (sqrt a - sqrt d) <= g * sqrt d + sqrt e.
Proof.
  intros Ha Hd Hg He H. pose proof (sqrt_pos a). pose proof (sqrt_pos d). pose proof (sqrt_pos e). pose proof (sqrt_sqrt a Ha) as Ea. pose proof (sqrt_sqrt d Hd) as Ed. pose proof (sqrt_sqrt e He) as Ee.
  set (p := sqrt a) in *. set (q := sqrt d) in *. set (r := sqrt e) in *. rewrite <- Ea, <- Ed, <- Ee in H. replace (p * p - q * q) with ((p - q) * (p + q)) in H by ring. rewrite Rabs_mult, (Rabs_pos_eq (p + q)) in H by lra.
  pose proof (Rabs_pos (p - q)). destruct (Rle_lt_dec (Rabs (p - q)) (g * q + r)) as [|C]; [done|exfalso].
  assert (Rabs (p - q) <= p + q) by (apply Rabs_le; lra).
  assert (0 <= g * q) by (by apply Rmult_le_pos). nra.
Qed.
Lemma sqrt_fin_inv x : finite (@sqrt_ BN x) -> finite x /\ 0 <= val x.
Proof.
  unfold finite. pose proof (Bsqrt_correct 53 1024 b64_prec b64_emax mode_NE x) as (_ & Q & _). intros F. pose proof (eq_trans (eq_sym Q) F) as F'. clear Q F.
  destruct x as [s|[]| |[] m e B]; try done; [split; [done|]; cbn; lra|]. split; [done|]. unfold val, B2R. apply F2R_ge_0. cbn. lia.
Qed.
Lemma sqrt_fin x : finite x -> 0 <= val x -> finite (@sqrt_ BN x).
Proof.
  intros F H. unfold finite. pose proof (Bsqrt_correct 53 1024 b64_prec b64_emax mode_NE x) as (_ & Q & _). refine (eq_trans Q _). clear Q.
  destruct x as [s|[]| |[] m e B]; try done. exfalso. unfold val, B2R in H. assert (F2R (Float radix2 (cond_Zopp true (Z.pos m)) e) < 0) by (apply F2R_lt_0; cbn; lia). lra.
Qed.
Lemma near_sqrt k c x d : nr k c x d d -> finite (@sqrt_ BN x) ->
  Rabs (val (@sqrt_ BN x) - sqrt d) <= gam (S k) * sqrt d + (1 + uro) * sqrt (c * eta * (1 + uro) ^ k).
Proof.
  intros HN F. pose proof (near_A _ _ _ _ _ HN) as Hd. destruct HN as (Fx & _ & Hc & H). destruct (sqrt_fin_inv _ F) as [_ Hx]. rewrite sqrt_val by done.
  pose proof eta_pos. pose proof (pow_ge1 k). pose proof uro_pos. assert (Pe : 0 <= c * eta * (1 + uro) ^ k) by (apply Rmult_le_pos; [apply Rmult_le_pos; lra|lra]).
  pose proof (sqrt_close (val x) d (gam k) _ Hx Hd (gam_nonneg k) Pe H) as Q. pose proof (rnd_sqrt (val x) (format_val x)) as Q2. set (E := sqrt (c * eta * (1 + uro) ^ k)) in *.
  pose proof (sqrt_pos d). pose proof (sqrt_pos (val x)). assert (0 <= E) by apply sqrt_pos.
  assert (Q3 : sqrt (val x) <= sqrt d + (gam k * sqrt d + E)). { apply Rabs_le_inv in Q. lra. }
  replace (rnd (sqrt (val x)) - sqrt d) with ((rnd (sqrt (val x)) - sqrt (val x)) + (sqrt (val x) - sqrt d)) by ring. eapply Rle_trans; [apply Rabs_triang|].
  assert (uro * sqrt (val x) <= uro * (sqrt d + (gam k * sqrt d + E))) by (apply Rmult_le_compat_l; lra). unfold gam in *. rewrite <- tech_pow_Rmult. nra.
Qed.
(** sums of non-negative terms are not negative *)
Lemma tree_nonneg f t : (forall i, i ∈ rleaves t -> 0 <= val (f i)) -> finite (ev f t) -> 0 <= val (ev f t).
Proof.
  induction t as [|i|l IHl r IHr]; cbn [rleaves reval]; intros Hf F; [destruct (zero_val flog fexp fceil) as [E _]; rewrite E; lra|apply Hf; left|].
  destruct (fin_add_inv _ _ _ _ _ F) as [Fl Fr]. rewrite add_val by done. assert (0 <= val (ev f l)) by (apply IHl; [|done]; intros; apply Hf, elem_of_app; by left).
  assert (0 <= val (ev f r)) by (apply IHr; [|done]; intros; apply Hf, elem_of_app; by right).
  unfold rnd. rewrite <- (Generic_fmt.round_0 radix2 fexp64 ZnearestE). apply round_le; [typeclasses eauto|typeclasses eauto|lra].
Qed.
Lemma mul_self_nonneg x : 0 <= val (@mul BN x x).
Proof.
  pose proof (Bmult_correct 53 1024 b64_prec b64_emax mode_NE x x) as Q. destruct (Rlt_bool _ _).
  - destruct Q as [Q _]. unfold val. eapply Rle_trans; [|right; symmetry; exact Q]. cbn [round_mode].
    rewrite <- (Generic_fmt.round_0 radix2 fexp64 ZnearestE). apply round_le; [typeclasses eauto|typeclasses eauto|apply Rle_0_sqr].
  - assert (N := overflow_nf _ _ Q). change (~ finite (@mul BN x x)) in N. unfold finite in N. unfold val. destruct (@mul BN x x); cbn in *; try lra.
Qed.
End trees.
