(** * The step bound and the line search over the extended reals. *)
From Coq Require Import ZArith Lia Reals Lra Psatz.
From stdpp Require Import base numbers list.
From Verif Require Import Mem P_Mem P_Loop P_Math P_MathR P_TVR P_VCL L_Sum L_ER L_Lin S_Newt P_CG P_LineSearch M_Math M_CG M_LineSearch M_Newton P_Newton P_Newt2 P_Newt3 P_NewtX.
Local Open Scope R_scope.

Definition epos (e : er) : Prop := match e with Fin r => 0 < r | PInf => True | _ => False end.
Lemma leb_refl_E a : a <> NaN -> er_leb a a = true.
Proof. destruct a; simpl; try done. intros _. unfold Rleb. destruct (Rle_dec r r); [done|lra]. Qed.
Lemma leb_trans_E a b c : er_leb a b = true -> er_leb b c = true -> er_leb a c = true.
Proof.
  destruct a, b, c; simpl; try done. unfold Rleb. destruct (Rle_dec r r0), (Rle_dec r0 r1), (Rle_dec r r1); try done; lra.
Qed.
Lemma ltb_leb_E a b : er_ltb a b = true -> er_leb a b = true.
Proof. destruct a, b; simpl; try done. unfold Rltb, Rleb. destruct (Rlt_dec r r0), (Rle_dec r r0); try done; lra. Qed.
Lemma nltb_leb_E a b : a <> NaN -> b <> NaN -> er_ltb a b = false -> er_leb b a = true.
Proof. destruct a, b; simpl; try done. unfold Rltb, Rleb. intros _ _. destruct (Rlt_dec r r0), (Rle_dec r0 r); try done; lra. Qed.
Lemma dmin_spec (Q : er -> Prop) a b : (forall e, Q e -> e <> NaN) -> Q a -> Q b ->
  Q (@dmin ER a b) /\ er_leb (@dmin ER a b) a = true /\ er_leb (@dmin ER a b) b = true.
Proof.
  intros HQ Ha Hb. pose proof (HQ a Ha). pose proof (HQ b Hb). unfold dmin. cbn [ltb_ ER]. destruct (er_ltb a b) eqn:E.
  - split; [done|]. split; [by apply leb_refl_E|by apply ltb_leb_E].
  - split; [done|]. split; [by apply nltb_leb_E|by apply leb_refl_E].
Qed.

Section minstep.
Context (Q : er -> Prop) (HQ : forall e, Q e -> e <> NaN) (QP : Q PInf).
Lemma minstep_spec m (f : list er) (d : nat -> er) :
  (forall i, (i < m)%nat -> er_ltb (Fin 0) (d i) = true -> Q (er_div (er_opp (@at_ ER f i)) (d i))) ->
  Q (@n_minstep ER m f d) /\
  forall i, (i < m)%nat -> er_ltb (Fin 0) (d i) = true -> er_leb (@n_minstep ER m f d) (er_div (er_opp (@at_ ER f i)) (d i)) = true.
Proof.
  unfold n_minstep. rewrite zero_E. cbn [div opp ltb_ ER pinf]. induction m as [|m IH]; intros H; [split; [done|intros; lia]|].
  destruct IH as [I1 I2]; [intros; apply H; [lia|done]|]. cbn [foldi].
  destruct (er_ltb (Fin 0) (d m)) eqn:E; cbn [negb].
  - destruct (dmin_spec Q _ (er_div (er_opp (@at_ ER f m)) (d m)) HQ I1) as (D1 & D2 & D3); [apply H; [lia|done]|].
    split; [exact D1|]. intros i Hi Hd. destruct (decide (i = m)) as [->|]; [exact D3|].
    eapply leb_trans_E; [exact D2|]. apply I2; [lia|done].
  - split; [exact I1|]. intros i Hi Hd. destruct (decide (i = m)) as [->|]; [congruence|]. apply I2; [lia|done].
Qed.
Context (Q1 : Q (Fin 1)).
Lemma maxstep_spec m n A eps (r f1 f2 dx du : list er) :
  (forall i, (i < m)%nat -> er_ltb (Fin 0) (er_sub (@at_ ER dx i) (@at_ ER du i)) = true ->
     Q (er_div (er_opp (@at_ ER f1 i)) (er_sub (@at_ ER dx i) (@at_ ER du i)))) ->
  (forall i, (i < m)%nat -> er_ltb (Fin 0) (er_sub (er_opp (@at_ ER dx i)) (@at_ ER du i)) = true ->
     Q (er_div (er_opp (@at_ ER f2 i)) (er_sub (er_opp (@at_ ER dx i)) (@at_ ER du i)))) ->
  Q (@n_root ER n eps r (A dx)) ->
  exists w, @n_maxstep ER m n A eps r f1 f2 dx du = er_mul w (Fin (99 / 100)) /\ Q w /\ er_leb w (Fin 1) = true /\
    er_leb w (@n_root ER n eps r (A dx)) = true /\
    (forall i, (i < m)%nat -> er_ltb (Fin 0) (er_sub (@at_ ER dx i) (@at_ ER du i)) = true ->
       er_leb w (er_div (er_opp (@at_ ER f1 i)) (er_sub (@at_ ER dx i) (@at_ ER du i))) = true) /\
    (forall i, (i < m)%nat -> er_ltb (Fin 0) (er_sub (er_opp (@at_ ER dx i)) (@at_ ER du i)) = true ->
       er_leb w (er_div (er_opp (@at_ ER f2 i)) (er_sub (er_opp (@at_ ER dx i)) (@at_ ER du i))) = true).
Proof.
  intros H1 H2 H3. unfold n_maxstep.
  destruct (minstep_spec m f1 (fun i => er_sub (@at_ ER dx i) (@at_ ER du i)) H1) as [A1 A2].
  destruct (minstep_spec m f2 (fun i => er_sub (er_opp (@at_ ER dx i)) (@at_ ER du i)) H2) as [B1 B2].
  change (@sub ER) with er_sub. change (@opp ER) with er_opp.
  set (u1 := @n_minstep ER m f1 _) in *. set (u2 := @n_minstep ER m f2 _) in *. set (rt := @n_root ER n eps r (A dx)) in *.
  destruct (dmin_spec Q u1 u2 HQ A1 B1) as (C1 & C2 & C3).
  destruct (dmin_spec Q (@dmin ER u1 u2) rt HQ C1 H3) as (D1 & D2 & D3).
  assert (O1 : @one ER = Fin 1) by (unfold one, ofZ; cbn; f_equal; lra). rewrite O1.
  destruct (dmin_spec Q (Fin 1) (@dmin ER (@dmin ER u1 u2) rt) HQ Q1 D1) as (E1 & E2 & E3).
  eexists. split; [reflexivity|]. split; [exact E1|]. split; [exact E2|]. split; [by eapply leb_trans_E|]. split.
  - intros i Hi Hd. eapply leb_trans_E; [exact E3|]. eapply leb_trans_E; [exact D2|]. eapply leb_trans_E; [exact C2|]. by apply A2.
  - intros i Hi Hd. eapply leb_trans_E; [exact E3|]. eapply leb_trans_E; [exact D2|]. eapply leb_trans_E; [exact C3|]. by apply B2.
Qed.
End minstep.

(** ** the quadratic constraint *)
Lemma nrm2sq_ip v : nrm2sq v = ip (length v) v v.
Proof. unfold nrm2sq, ip. apply Rsum_ext. intros. ring. Qed.
Lemma nrm2sq_line (n : nat) (r d q : list R) (t : R) : length r = n -> length d = n -> length q = n ->
  (forall i, (i < n)%nat -> nth i q 0 = nth i r 0 + t * nth i d 0) -> nrm2sq q = nrm2sq r + 2 * t * ip n r d + t * t * nrm2sq d.
Proof.
  intros L1 L2 L3 H. unfold nrm2sq, ip. rewrite L1, L2, L3. rewrite <- !Rsum_scal, <- !Rsum_plus. apply Rsum_ext. intros i Hi. rewrite H by done. ring.
Qed.
Lemma root_spec (n : nat) (e : R) (r d : list R) : length r = n -> length d = n -> nrm2sq r < e * e ->
  exists rho, @n_root ER n (Fin e) (fin r) (fin d) = Fin rho /\ 0 < rho /\
    forall t, 0 <= t -> t < rho -> nrm2sq r + 2 * t * ip n r d + t * t * nrm2sq d < e * e.
Proof.
  intros L1 L2 H. unfold n_root.
  assert (Ed : @dot_of ER n (fin d) (fin d) = Fin (nrm2sq d)). { etransitivity; [apply dot_fin|]. f_equal. by apply dot_sq. }
  assert (Er : @dot_of ER n (fin r) (fin r) = Fin (nrm2sq r)). { etransitivity; [apply dot_fin|]. f_equal. by apply dot_sq. }
  assert (Erd : @dot_of ER n (fin r) (fin d) = Fin (ip n r d)). { etransitivity; [apply dot_fin|]. f_equal. apply dot_of_ip. }
  rewrite Ed, Er, Erd. set (a := nrm2sq d) in *. set (g := ip n r d) in *. set (q := nrm2sq r) in *.
  assert (O1 : @one ER = Fin 1) by (unfold one, ofZ; cbn; f_equal; lra). rewrite O1.
  assert (O2 : @two ER = Fin 2) by (unfold two, ofZ; cbn; f_equal; lra). rewrite O2.
  assert (O4 : @ofZ ER 4 = Fin 4) by (unfold ofZ; cbn; f_equal; lra). rewrite O4.
  cbn [add sub mul div opp sqrt_ ER er_mul er_opp er_add er_sub isnan].
  set (D := 2 * g * (2 * g) + - (4 * a * (q + - (e * e)))).
  assert (Ha : 0 <= a) by (apply Rsum_pos_le; intros; apply pow2_ge_0).
  assert (HD : (2 * g) * (2 * g) <= D) by (unfold D; nra).
  cbn [er_sqrt]. destruct (Rlt_dec D 0) as [Hlt|Hge]; [exfalso; nra|]. cbn [er_add er_div].
  destruct (Req_EM_T (2 * a) 0) as [Ea|Ea].
  - (* A dx = 0 *)
    assert (a = 0) by lra. assert (Hd0 : forall i, (i < n)%nat -> nth i d 0 = 0).
    { apply ip_self_0. unfold a in *. rewrite nrm2sq_ip, L2 in *. done. }
    assert (Hg : g = 0) by (by apply ip_0_r).
    destruct (Req_EM_T _ 0) as [E0|E0].
    + exists 1. split; [done|]. split; [lra|]. intros t _ _. rewrite Hg. fold a. replace a with 0 by lra. lra.
    + exfalso. apply E0. unfold D. rewrite Hg, H0. replace (2 * 0 * (2 * 0) + - (4 * 0 * (q + - (e * e)))) with 0 by lra. rewrite sqrt_0. lra.
  - assert (Hap : 0 < a) by lra. cbn [er_isnan]. set (rho := (- (2 * g) + R_sqrt.sqrt D) / (2 * a)).
    exists rho. split; [done|].
    assert (HDs : R_sqrt.sqrt D * R_sqrt.sqrt D = D) by (apply sqrt_def; lra). pose proof (sqrt_pos D) as HDp.
    assert (HDlt : (2 * g) * (2 * g) < D) by (unfold D; nra).
    assert (Hnum : 0 < - (2 * g) + R_sqrt.sqrt D) by nra.
    assert (Hrho : 0 < rho) by (unfold rho; apply Rdiv_lt_0_compat; lra).
    split; [done|]. intros t Ht0 Ht.
    assert (Hr : rho * (2 * a) = - (2 * g) + R_sqrt.sqrt D) by (unfold rho; field; lra).
    assert (Hz : a * rho * rho + 2 * g * rho + (q - e * e) = 0).
    { unfold D in HDs. assert (E2 : R_sqrt.sqrt D = rho * (2 * a) + 2 * g) by lra. unfold D in E2. rewrite E2 in HDs. nra. }
    (* convexity *)
    fold a. assert (Hk : rho * (q + 2 * t * g + t * t * a - e * e) <= (rho - t) * (q - e * e)).
    { assert (E3 : (rho - t) * (q - e * e) - rho * (q + 2 * t * g + t * t * a - e * e) = t * (rho - t) * rho * a - t * (a * rho * rho + 2 * g * rho + (q - e * e))) by ring.
      rewrite Hz in E3. assert (0 <= t * (rho - t) * rho * a); [|lra]. apply Rmult_le_pos; [|lra]. apply Rmult_le_pos; [|lra]. apply Rmult_le_pos; lra. }
    assert (Hneg : (rho - t) * (q - e * e) < 0) by nra.
    assert (rho * (q + 2 * t * g + t * t * a - e * e) < 0) by lra. nra.
Qed.

(** ** steps *)
Lemma along_length x d t : length (along x d t) = length d. Proof. apply vlin_length. Qed.
Lemma resid_along m n Ar bv x d t i : linmap m n Ar -> length x = m -> length d = m -> (i < n)%nat ->
  nth i (resid Ar bv (along x d t)) 0 = nth i (resid Ar bv x) 0 + t * nth i (Ar d) 0.
Proof.
  intros [H1 H2] Lx Ld Hi. unfold resid, along. rewrite !nth_vlin by (rewrite H1; [done|by rewrite ?vlin_length]). rewrite H2 by done. lra.
Qed.
Lemma resid_along_sq m n Ar bv x d t : linmap m n Ar -> length x = m -> length d = m ->
  nrm2sq (resid Ar bv (along x d t)) = nrm2sq (resid Ar bv x) + 2 * t * ip n (resid Ar bv x) (Ar d) + t * t * nrm2sq (Ar d).
Proof.
  intros HL Lx Ld. apply (nrm2sq_line n).
  - unfold resid. rewrite vlin_length. by apply HL.
  - by apply HL.
  - unfold resid. rewrite vlin_length. apply HL. by rewrite along_length.
  - intros i Hi. by apply (resid_along m n).
Qed.

Section step.
Context (m n : nat) (A : list er -> list er) (Ar : list R -> list R) (bv : list R) (e : R).
Context (HL : linmap m n Ar) (HA : forall v, length v = m -> A (fin v) = fin (Ar v)) (Lb : length bv = n).
Notation eps := (Fin e).
Notation res := (@n_res ER n A (fin bv)).
Notation fe := (@n_fe ER n A (fin bv) eps).
Notation fval := (@n_fval ER m n A (fin bv) eps).
Notation mstep xs us dx du := (@n_maxstep ER m n A eps (res xs) (@n_f1 ER m xs us) (@n_f2 ER m xs us) dx du).

(** *** finite strictly feasible points and finite directions *)
Lemma maxstep_strict x u dx du : length x = m -> length u = m -> length dx = m -> length du = m -> strictly_feasible Ar bv e x u ->
  exists s, mstep (fin x) (fin u) (fin dx) (fin du) = Fin s /\ 0 < s <= 99 / 100 /\
    forall t, 0 <= t <= s -> strictly_feasible Ar bv e (along x dx t) (along u du t).
Proof.
  intros Lx Lu Ldx Ldu [Hbox Hr]. apply (nrm2_lt_inv e) in Hr as [He Hr].
  assert (LA : length (Ar dx) = n) by (by apply HL).
  destruct (root_spec n e (resid Ar bv x) (Ar dx)) as (rho & Erho & Hrho & Hq); [by apply (resid_length m n)|done|done|].
  assert (HQ : forall e0, epos e0 -> e0 <> NaN) by (by intros []).
  rewrite (res_fin m n A Ar bv HL HA x Lx).
  assert (AT : forall v i, @at_ ER (fin v) i = Fin (nth i v 0)) by (intros v i; rewrite at_fin; by rewrite at_RN).
  assert (F1 : forall i, (i < m)%nat -> @at_ ER (@n_f1 ER m (fin x) (fin u)) i = Fin (nth i x 0 - nth i u 0)).
  { intros i Hi. rewrite f1_at by done. rewrite !AT. cbn. f_equal. lra. }
  assert (F2 : forall i, (i < m)%nat -> @at_ ER (@n_f2 ER m (fin x) (fin u)) i = Fin (- nth i x 0 - nth i u 0)).
  { intros i Hi. rewrite f2_at by done. rewrite !AT. cbn. f_equal. lra. }
  destruct (maxstep_spec epos HQ I Rlt_0_1 m n A eps (fin (resid Ar bv x)) (@n_f1 ER m (fin x) (fin u)) (@n_f2 ER m (fin x) (fin u)) (fin dx) (fin du))
    as (w & Ew & Pw & W1 & W2 & W3 & W4).
  - intros i Hi. rewrite !AT, F1 by done. cbn. unfold Rltb. destruct (Rlt_dec _ _) as [Hd|]; [|done]. intros _.
    destruct (Req_EM_T _ 0); [lra|]. simpl. apply Rdiv_lt_0_compat; [|done]. specialize (Hbox i ltac:(lia)). apply Rabs_def2 in Hbox. lra.
  - intros i Hi. rewrite !AT, F2 by done. cbn. unfold Rltb. destruct (Rlt_dec _ _) as [Hd|]; [|done]. intros _.
    destruct (Req_EM_T _ 0); [lra|]. simpl. apply Rdiv_lt_0_compat; [|done]. specialize (Hbox i ltac:(lia)). apply Rabs_def2 in Hbox. lra.
  - rewrite HA by done. rewrite Erho. done.
  - rewrite HA, Erho in W2 by done. destruct w as [w| | |]; try done. cbn in Ew, W1, W2, Pw.
    unfold Rleb in W1, W2. destruct (Rle_dec w 1); [|done]. destruct (Rle_dec w rho); [|done].
    exists (w * (99 / 100)). split; [exact Ew|]. split; [lra|]. intros t [Ht0 Ht]. split.
    + intros i Hi. rewrite along_length in Hi. unfold along. rewrite !nth_vlin by lia.
      specialize (Hbox i ltac:(lia)). apply Rabs_def2 in Hbox.
      assert (B1 : t * (nth i dx 0 - nth i du 0) < nth i u 0 - nth i x 0).
      { destruct (Rle_dec (nth i dx 0 - nth i du 0) 0) as [|Hpos]; [nra|].
        specialize (W3 i ltac:(lia)). rewrite !AT, F1 in W3 by lia. cbn in W3. unfold Rltb in W3. destruct (Rlt_dec _ _); [|lra].
        specialize (W3 eq_refl). destruct (Req_EM_T _ 0); [lra|]. unfold Rleb in W3. destruct (Rle_dec _ _) as [Hle|]; [|done].
        set (dd := nth i dx 0 + - nth i du 0) in *. apply (Rmult_le_compat_r dd) in Hle; [|lra].
        replace (- (nth i x 0 - nth i u 0) / dd * dd) with (nth i u 0 - nth i x 0) in Hle by (field; lra).
        replace (nth i dx 0 - nth i du 0) with dd by (unfold dd; lra). nra. }
      assert (B2 : t * (- nth i dx 0 - nth i du 0) < nth i u 0 + nth i x 0).
      { destruct (Rle_dec (- nth i dx 0 - nth i du 0) 0) as [|Hpos]; [nra|].
        specialize (W4 i ltac:(lia)). rewrite !AT, F2 in W4 by lia. cbn in W4. unfold Rltb in W4. destruct (Rlt_dec _ _); [|lra].
        specialize (W4 eq_refl). destruct (Req_EM_T _ 0); [lra|]. unfold Rleb in W4. destruct (Rle_dec _ _) as [Hle|]; [|done].
        set (dd := - nth i dx 0 + - nth i du 0) in *. apply (Rmult_le_compat_r dd) in Hle; [|lra].
        replace (- (- nth i x 0 - nth i u 0) / dd * dd) with (nth i u 0 + nth i x 0) in Hle by (field; lra).
        replace (- nth i dx 0 - nth i du 0) with dd by (unfold dd; lra). nra. }
      apply Rabs_def1; nra.
    + apply nrm2_lt; [lra|]. rewrite (resid_along_sq m n) by done. apply Hq; [done|]. nra.
Qed.
End step.
