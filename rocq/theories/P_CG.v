(** * The runs of the two conjugate-gradient solvers as pure sequences of iterates. *)
From Coq Require Import ZArith Lia.
From stdpp Require Import base numbers gmap list.
From Verif Require Import Mem M_Math M_CG P_Mem P_Loop P_Math S_Mem P_Touch P_Step P_Memory.
Local Open Scope Z_scope.

Section best.
Context `{N : Num}.
(** index kept by the best-so-far scan over rel 0, rel 1, ..., rel k *)
Fixpoint besti (rel : nat -> T) (k : nat) : nat :=
  match k with O => O | S j => if ltb_ (rel (S j)) (rel (besti rel j)) then S j else besti rel j end.
Lemma besti_le rel k : (besti rel k <= k)%nat.
Proof. induction k as [|k IH]; simpl; [lia|]. destruct ltb_; lia. Qed.
End best.

Section pure.
Context `{N : Num}.
Context (n : nat) (A : list T -> list T) (xs bs : list T).
(** an iterate: x, r, p and delta *)
Record trj := mkTrj { tx : list T; tr : list T; tp : list T; td : T }.
Definition cg_0 : trj :=
  let r := axpby_of n one bs (opp one) (A xs) in mkTrj xs r r (dot_of n r r).
Definition cg_S (c : trj) : trj :=
  let q := A (tp c) in
  let alpha := div (td c) (dot_of n (tp c) q) in
  let r := axpy_of n (opp alpha) q (tr c) in
  let d := dot_of n r r in
  mkTrj (axpy_of n alpha (tp c) (tx c)) r (axpby_of n one r (div d (td c)) (tp c)) d.
Fixpoint cg_at (k : nat) : trj := match k with O => cg_0 | S j => cg_S (cg_at j) end.
Definition cg_rel (k : nat) : T := sqrt_ (div (td (cg_at k)) (dot_of n bs bs)).

(** preconditioned: tp starts from z = M_inv .* r and delta = r'z *)
Context (ms : list T).
Definition pc_0 : trj :=
  let r := axpby_of n one bs (opp one) (A xs) in
  let z := xmuly_of n r ms in mkTrj xs r z (dot_of n r z).
Definition pc_S (c : trj) : trj :=
  let q := A (tp c) in
  let alpha := div (td c) (dot_of n (tp c) q) in
  let r := axpy_of n (opp alpha) q (tr c) in
  let z := xmuly_of n r ms in
  let d := dot_of n r z in
  mkTrj (axpy_of n alpha (tp c) (tx c)) r (axpby_of n one z (div d (td c)) (tp c)) d.
Fixpoint pc_at (k : nat) : trj := match k with O => pc_0 | S j => pc_S (pc_at j) end.
Definition pc_rel (k : nat) : T :=
  match k with
  | O => sqrt_ (div (td (pc_at 0)) (dot_of n bs bs))
  | _ => sqrt_ (div (dot_of n (tr (pc_at k)) (tr (pc_at k))) (dot_of n bs bs))
  end.
Hypothesis (Lx : length xs = n).
Lemma cg_len k : length (tx (cg_at k)) = n /\ length (tr (cg_at k)) = n /\ length (tp (cg_at k)) = n.
Proof. induction k; simpl; repeat split; try len. Qed.
Lemma pc_len k : length (tx (pc_at k)) = n /\ length (tr (pc_at k)) = n /\ length (tp (pc_at k)) = n.
Proof. induction k; simpl; repeat split; try len. Qed.
End pure.

Section run.
Context `{N : Num}.
Lemma copy_loop_run s n x xs y : seg s x xs -> length xs = n -> wok s y n -> disj y n x n ->
  copy_loop (Z.of_nat n) x y s = Ok tt (wr y xs s).
Proof.
  intros Hx Hl Hy Hd.
  apply (dcopy_loop s n x xs y []); [by apply src_disj|by apply dst_fresh].
Qed.
Lemma dcopy_run s n x xs y : seg s x xs -> length xs = n -> wok s y n -> disj y n x n ->
  cblas_dcopy (Z.of_nat n) x y s = Ok tt (wr y xs s).
Proof. intros Hx Hl Hy Hd. apply (dcopy_loop s n x xs y []); [by apply src_disj|by apply dst_fresh]. Qed.

(** how many iterations: K is the number of the first iterate with rel_K < tol, or mi *)
Definition stops (rel : nat -> T) (tol : T) (mi K : nat) : Prop :=
  (K <= mi)%nat /\ (forall j, (1 <= j < K)%nat -> ltb_ (rel j) tol = false) /\
  (K = mi \/ ((1 <= K)%nat /\ ltb_ (rel K) tol = true)).

Context (n : nat) (bx bb br bp bh bq : nat) (Dw : ptr) (wb : nat) (wc : list (option ptr)).
Context (F : list nat) (J : st -> Prop) (ax : ptr -> ptr -> M unit) (A : list T -> list T).
Context (s : st) (xs bs : list T) (prm : CgParams).
Let x := Ptr bx 0. Let b := Ptr bb 0. Let r := Ptr br 0. Let p := Ptr bp 0. Let bestx := Ptr bh 0. Let q := Ptr bq 0.

Lemma cgsolve_run :
  NoDup [bx; bb; br; bp; bh; bq] -> (forall c, c ∈ [bx; bb; br; bp; bh; bq] -> c ∉ F) ->
  oper F J ax n n A -> J s ->
  seg s x xs -> seg s b bs -> length xs = n -> length bs = n ->
  wok s r n -> wok s p n -> wok s bestx n -> wok s q n ->
  (forall c, c ∈ [bx; bb; br; bp; bh; bq] -> is_aligned s (Ptr c 0) = true) ->
  ldp Dw 0 s = Ok r s -> ldp Dw 1 s = Ok p s -> ldp Dw 2 s = Ok bestx s -> ldp Dw 3 s = Ok q s ->
  cgp_max_iter prm < INT_MAX ->
  exists K s', stops (cg_rel n A xs bs) (cgp_tol prm) (Z.to_nat (cgp_max_iter prm)) K /\
    let k := besti (cg_rel n A xs bs) K in
    cgsolve (Z.of_nat n) x b Dw ax prm s =
      Ok (mkCgR (cg_rel n A xs bs k) (if 0 <=? cgp_max_iter prm then Z.of_nat K else cgp_max_iter prm)) s' /\
    seg s' x (tx (cg_at n A xs bs k)) /\ touch ([bx; br; bp; bh; bq] ++ F) s s' /\ J s'.
Proof.
  intros Hd HF HO HJ Hx Hb Lx Lb Wr Wp Wh Wq Hal Hw0 Hw1 Hw2 Hw3 Hmi.
  distinct Hd.
  assert (Fx : bx ∉ F) by (apply HF; isin). assert (Fb : bb ∉ F) by (apply HF; isin).
  assert (Fr : br ∉ F) by (apply HF; isin). assert (Fp : bp ∉ F) by (apply HF; isin).
  assert (Fh : bh ∉ F) by (apply HF; isin). assert (Fq : bq ∉ F) by (apply HF; isin).
  assert (Ax : is_aligned s x = true) by (apply Hal; isin). assert (Ab : is_aligned s b = true) by (apply Hal; isin).
  assert (Ar : is_aligned s r = true) by (apply Hal; isin). assert (Ap : is_aligned s p = true) by (apply Hal; isin).
  assert (Ah : is_aligned s bestx = true) by (apply Hal; isin). assert (Aq : is_aligned s q = true) by (apply Hal; isin).
  assert (SV : wok s q n /\ forall c, c ∈ [bx; bb; br; bp; bh; bq] -> is_aligned s (Ptr c 0) = true) by done.
  clear Hd HF Hal.
  assert (TT : touch ([bx; br; bp; bh; bq] ++ F) s s) by apply touch_refl.
  unfold x, b, r, p, bestx, q in *. clear x b r p bestx q.
  unfold cgsolve.
  rewrite (bind_ok _ _ _ _ s Hw0).
  rewrite (bind_ok _ _ _ _ s Hw1).
  rewrite (bind_ok _ _ _ _ s Hw2).
  rewrite (bind_ok _ _ _ _ s Hw3).
  clear Hw0 Hw1 Hw2 Hw3.
  pose proof (copy_loop_run s n _ xs (Ptr bh 0) Hx Lx Wh ltac:(dis)) as E.
  wstep E Hh t1.
  ostep HO (Ptr bx 0) (Ptr br 0) Lx Hr HJ t2.
  pose proof (daxpby_run t2 n one _ bs (opp one) _ _ Ab Ar Hb Hr Lb LA ltac:(dis)) as E.
  wstep E Hr' t3. clear Hr. rename Hr' into Hr.
  pose proof (dcopy_run t3 n _ _ (Ptr bp 0) Hr ltac:(len) ltac:(wokt) ltac:(dis)) as E.
  wstep E Hp t4. clear Wp.
  set (R := cg_rel n A xs bs). set (C := cg_at n A xs bs).
  set (bi := besti R).
  assert (BS : forall i, bi (S i) = if ltb_ (R (S i)) (R (bi i)) then S i else bi i) by reflexivity.
  assert (CL : forall k, length (tx (C k)) = n /\ length (tr (C k)) = n /\ length (tp (C k)) = n) by (intros; by apply cg_len).
  rewrite (bind_ok _ _ _ (td (C 0%nat)) t4) by (apply ddot_run; [exact Hr|exact Hr|len|len]).
  rewrite (bind_ok _ _ _ (dot_of n bs bs) t4) by (apply ddot_run; [exact Hb|exact Hb|len|len]).
  change (sqrt_ (div (td (C 0%nat)) (dot_of n bs bs))) with (R (bi 0%nat)).
  set (body := fun (_ : Z) (v : T * T) => _).
  set (I := fun (i : nat) (a : T * T) (t : st) => a = (td (C i), R (bi i)) /\
        seg t (Ptr bx 0) (tx (C i)) /\ seg t (Ptr br 0) (tr (C i)) /\ seg t (Ptr bp 0) (tp (C i)) /\
        seg t (Ptr bh 0) (tx (C (bi i))) /\ seg t (Ptr bb 0) bs /\
        touch ([bx; br; bp; bh; bq] ++ F) s t /\ J t).
  set (mi := Z.to_nat (cgp_max_iter prm)).
  assert (EI : for_brk 1 (cgp_max_iter prm + 1) (td (C 0%nat), R (bi 0%nat)) body = brkn mi 1 (td (C 0%nat), R (bi 0%nat)) body).
  { unfold for_brk, mi. f_equal. lia. }
  rewrite EI. clear EI.
  destruct (brkn_rel (fun i a t => I i a t /\ forall j, (1 <= j <= i)%nat -> ltb_ (R j) (cgp_tol prm) = false)
     (fun i a t => I (S i) a t /\ (forall j, (1 <= j <= i)%nat -> ltb_ (R j) (cgp_tol prm) = false) /\ ltb_ (R (S i)) (cgp_tol prm) = true)
     mi 1 (td (C 0%nat), R (bi 0%nat)) body t4) as (i & a & t5 & EB & HB).
  { split; [|intros; lia]. split; [done|]. auto 10. }
  { clear Wr Wh Wq Ax Ab Ar Ap Ah Aq Hp Hx Hb Hh Hr TT HJ.
    intros i a t Hi ((-> & Hx & Hr & Hp & Hh & Hb & Tt & HJ) & Hno). destruct SV as [Wq Hal].
    apply (touch_wok _ _ _ _ _ Tt) in Wq.
    assert (HA : forall c, c ∈ [bx; bb; br; bp; bh; bq] -> is_aligned t (Ptr c 0) = true)
      by (intros c Hc; rewrite (touch_aligned _ _ _ _ Tt); by apply Hal).
    assert (Ar : is_aligned t (Ptr br 0) = true) by (apply HA; isin).
    assert (Ap : is_aligned t (Ptr bp 0) = true) by (apply HA; isin).
    assert (Aq : is_aligned t (Ptr bq 0) = true) by (apply HA; isin). clear HA Hal.
    destruct (CL i) as (Lxi & Lri & Lpi). destruct (CL (bi i)) as (Lhi & _).
    unfold body. cbv beta iota.
    ostep HO (Ptr bp 0) (Ptr bq 0) Lpi Hq HJ t6.
    rewrite (bind_ok _ _ _ (dot_of n (tp (C i)) (A (tp (C i)))) t6) by (apply ddot_run; [exact Hp|exact Hq|len|len]).
    set (alpha := div (td (C i)) (dot_of n (tp (C i)) (A (tp (C i))))).
    pose proof (daxpy_run t6 n alpha _ _ _ _ (src_disj t6 (Ptr bx 0) _ _ (Ptr bp 0) _ Lpi Hp ltac:(dis)) Hx Lxi) as E.
    wstep E Hx' t7. clear Hx. rename Hx' into Hx.
    pose proof (daxpy_run t7 n (opp alpha) _ _ _ _ (src_disj t7 (Ptr br 0) _ _ (Ptr bq 0) _ LA0 Hq ltac:(dis)) Hr Lri) as E.
    wstep E Hr' t8. clear Hr. rename Hr' into Hr.
    rewrite (bind_ok _ _ _ (td (C (S i))) t8) by (apply ddot_run; [exact Hr|exact Hr|len|len]).
    pose proof (daxpby_run t8 n one _ _ (div (td (C (S i))) (td (C i))) _ _ Ar Ap Hr Hp ltac:(len) Lpi ltac:(dis)) as E.
    wstep E Hp' t9. clear Hp. rename Hp' into Hp.
    change (sqrt_ (div (td (C (S i))) (dot_of n bs bs))) with (R (S i)).
    destruct (ltb_ (R (S i)) (R (bi i))) eqn:EL.
    - pose proof (dcopy_run t9 n _ _ (Ptr bh 0) Hx ltac:(len) ltac:(wokt) ltac:(dis)) as E.
      assert (EB : bi (S i) = S i) by (rewrite BS, EL; reflexivity).
      rewrite (bind_ok _ _ _ (R (S i)) (wr (Ptr bh 0) (axpy_of n alpha (tp (C i)) (tx (C i))) t9)) by (by rewrite (bind_ok _ _ _ _ _ E)).
      clear E. after_wr Hh' t10.
      assert (HI : I (S i) (td (C (S i)), R (S i)) t10).
      { unfold I. rewrite EB. auto 10. }
      destruct (ltb_ (R (S i)) (cgp_tol prm)) eqn:ET.
      + eexists (Stop _), t10. split; [done|]. auto.
      + eexists (Go _), t10. split; [done|]. split; [exact HI|].
        intros j Hj. destruct (decide (j = S i)) as [->|]; [exact ET|apply Hno; lia].
    - assert (EB : bi (S i) = bi i) by (rewrite BS, EL; reflexivity).
      rewrite (bind_ok _ _ _ (R (bi i)) t9) by done.
      assert (HI : I (S i) (td (C (S i)), R (bi i)) t9).
      { unfold I. rewrite EB. auto 10. }
      destruct (ltb_ (R (S i)) (cgp_tol prm)) eqn:ET.
      + eexists (Stop _), t9. split; [done|]. auto.
      + eexists (Go _), t9. split; [done|]. split; [exact HI|].
        intros j Hj. destruct (decide (j = S i)) as [->|]; [exact ET|apply Hno; lia]. }
  rewrite (bind_ok _ _ _ _ _ EB). clear EB. cbv iota.
  assert (HK : exists K, stops R (cgp_tol prm) mi K /\ I K a t5 /\
     Z.min (1 + Z.of_nat i) (cgp_max_iter prm) = (if 0 <=? cgp_max_iter prm then Z.of_nat K else cgp_max_iter prm)).
  { assert (mi = Z.to_nat (cgp_max_iter prm)) by done.
    destruct HB as [(-> & HI & Hno)|(Hi & HI & Hno & Hst)].
    - exists mi. split; [|split; [done|]].
      + split; [lia|]. split; [intros j Hj; apply Hno; lia|auto].
      + destruct (Z.leb_spec 0 (cgp_max_iter prm)); lia.
    - exists (S i). split; [|split; [done|]].
      + split; [lia|]. split; [intros j Hj; apply Hno; lia|]. right. split; [lia|done].
      + destruct (Z.leb_spec 0 (cgp_max_iter prm)); lia. }
  destruct HK as (K & HS & (-> & Hx' & Hr' & Hp' & Hh' & Hb' & Tt & HJ') & EZ).
  rewrite (bind_ok _ _ _ (1 + Z.of_nat i) t5).
  2:{ apply i32_ok. assert (mi = Z.to_nat (cgp_max_iter prm)) by done. unfold in_int, INT_MIN, INT_MAX in *. lia. }
  pose proof (dcopy_run t5 n _ _ (Ptr bx 0) Hh' (proj1 (CL _)) ltac:(eapply wok_le; [apply (seg_wok _ _ _ Hx')|destruct (CL K); lia]) ltac:(dis)) as E.
  rewrite (bind_ok _ _ _ _ _ E). clear E.
  exists K. eexists. split; [exact HS|]. cbv zeta. split; [|split; [|split]].
  - rewrite EZ. reflexivity.
  - apply seg_wr. eapply wok_le; [apply (seg_wok _ _ _ Hx')|]. pose proof (proj1 (CL K)). pose proof (proj1 (CL (bi K))). lia.
  - eapply touch_trans; [exact Tt|]. apply touch_wr. isin.
  - apply (op_J _ _ _ _ _ _ HO [bx] t5 _ HJ'); [apply touch_wr; isin|avoid].
Qed.
Context (bm bz : nat) (ms : list T).
Let mi := Ptr bm 0. Let z := Ptr bz 0.
Lemma cgsolve_pc_run :
  NoDup [bx; bb; br; bp; bh; bq; bm; bz] -> (forall c, c ∈ [bx; bb; br; bp; bh; bq; bm; bz] -> c ∉ F) ->
  oper F J ax n n A -> J s ->
  seg s x xs -> seg s b bs -> seg s mi ms -> length xs = n -> length bs = n -> length ms = n ->
  wok s r n -> wok s p n -> wok s bestx n -> wok s q n -> wok s z n ->
  (forall c, c ∈ [bx; bb; br; bp; bh; bq; bm; bz] -> is_aligned s (Ptr c 0) = true) ->
  pm s !! wb = Some wc -> wc !! 0%nat = Some (Some r) -> wc !! 1%nat = Some (Some p) ->
  wc !! 2%nat = Some (Some bestx) -> wc !! 3%nat = Some (Some q) -> wc !! 4%nat = Some (Some z) ->
  cgp_max_iter prm < INT_MAX ->
  exists K s', stops (pc_rel n A xs bs ms) (cgp_tol prm) (Z.to_nat (cgp_max_iter prm)) K /\
    let k := besti (pc_rel n A xs bs ms) K in
    cgsolve_diag_precond (Z.of_nat n) x b mi (Ptr wb 0) ax prm s =
      Ok (mkCgR (pc_rel n A xs bs ms k) (if 0 <=? cgp_max_iter prm then Z.of_nat K else cgp_max_iter prm)) s' /\
    seg s' x (tx (pc_at n A xs bs ms k)) /\ touch ([bx; br; bp; bh; bq; bz] ++ F) s s' /\ J s'.
Proof.
  intros Hd HF HO HJ Hx Hb Hm Lx Lb Lm Wr Wp Wh Wq Wz Hal Hw Hw0 Hw1 Hw2 Hw3 Hw4 Hmi.
  distinct Hd.
  assert (Fx : bx ∉ F) by (apply HF; isin). assert (Fb : bb ∉ F) by (apply HF; isin).
  assert (Fr : br ∉ F) by (apply HF; isin). assert (Fp : bp ∉ F) by (apply HF; isin).
  assert (Fh : bh ∉ F) by (apply HF; isin). assert (Fq : bq ∉ F) by (apply HF; isin).
  assert (Fm : bm ∉ F) by (apply HF; isin). assert (Fz : bz ∉ F) by (apply HF; isin).
  assert (Am : is_aligned s mi = true) by (apply Hal; isin). assert (Az : is_aligned s z = true) by (apply Hal; isin).
  assert (Ax : is_aligned s x = true) by (apply Hal; isin). assert (Ab : is_aligned s b = true) by (apply Hal; isin).
  assert (Ar : is_aligned s r = true) by (apply Hal; isin). assert (Ap : is_aligned s p = true) by (apply Hal; isin).
  assert (Ah : is_aligned s bestx = true) by (apply Hal; isin). assert (Aq : is_aligned s q = true) by (apply Hal; isin).
  assert (SV : (wok s q n /\ wok s z n) /\ forall c, c ∈ [bx; bb; br; bp; bh; bq; bm; bz] -> is_aligned s (Ptr c 0) = true) by done.
  clear Hd HF Hal.
  assert (TT : touch ([bx; br; bp; bh; bq; bz] ++ F) s s) by apply touch_refl.
  unfold x, b, r, p, bestx, q, mi, z in *. clear x b r p bestx q mi z.
  unfold cgsolve_diag_precond.
  rewrite (bind_ok _ _ _ _ s) by (by eapply (ldp_ok _ _ _ 0)).
  rewrite (bind_ok _ _ _ _ s) by (by eapply (ldp_ok _ _ _ 1)).
  rewrite (bind_ok _ _ _ _ s) by (by eapply (ldp_ok _ _ _ 2)).
  rewrite (bind_ok _ _ _ _ s) by (by eapply (ldp_ok _ _ _ 3)).
  rewrite (bind_ok _ _ _ _ s) by (by eapply (ldp_ok _ _ _ 4)).
  clear Hw Hw0 Hw1 Hw2 Hw3 Hw4.
  pose proof (copy_loop_run s n _ xs (Ptr bh 0) Hx Lx Wh ltac:(dis)) as E.
  wstep E Hh t1.
  ostep HO (Ptr bx 0) (Ptr br 0) Lx Hr HJ t2.
  pose proof (daxpby_run t2 n one _ bs (opp one) _ _ Ab Ar Hb Hr Lb LA ltac:(dis)) as E.
  wstep E Hr' t3. clear Hr. rename Hr' into Hr.
  pose proof (dxmuly_z_run t3 n _ _ _ ms _ Ar Am Az Hr Hm ltac:(len) Lm ltac:(dis) ltac:(dis) Wz) as E.
  wstep E Hz t3z.
  pose proof (dcopy_run t3z n _ _ (Ptr bp 0) Hz ltac:(len) ltac:(wokt) ltac:(dis)) as E.
  wstep E Hp t4. clear Wp.
  set (R := pc_rel n A xs bs ms). set (C := pc_at n A xs bs ms).
  set (bi := besti R).
  assert (BS : forall i, bi (S i) = if ltb_ (R (S i)) (R (bi i)) then S i else bi i) by reflexivity.
  assert (CL : forall k, length (tx (C k)) = n /\ length (tr (C k)) = n /\ length (tp (C k)) = n) by (intros; by apply pc_len).
  rewrite (bind_ok _ _ _ (td (C 0%nat)) t4) by (apply ddot_run; [exact Hr|exact Hz|len|len]).
  rewrite (bind_ok _ _ _ (dot_of n bs bs) t4) by (apply ddot_run; [exact Hb|exact Hb|len|len]).
  change (sqrt_ (div (td (C 0%nat)) (dot_of n bs bs))) with (R (bi 0%nat)).
  set (body := fun (_ : Z) (v : T * T) => _).
  set (I := fun (i : nat) (a : T * T) (t : st) => a = (td (C i), R (bi i)) /\
        seg t (Ptr bx 0) (tx (C i)) /\ seg t (Ptr br 0) (tr (C i)) /\ seg t (Ptr bp 0) (tp (C i)) /\
        seg t (Ptr bh 0) (tx (C (bi i))) /\ seg t (Ptr bb 0) bs /\ seg t (Ptr bm 0) ms /\
        touch ([bx; br; bp; bh; bq; bz] ++ F) s t /\ J t).
  set (mi' := Z.to_nat (cgp_max_iter prm)).
  assert (EI : for_brk 1 (cgp_max_iter prm + 1) (td (C 0%nat), R (bi 0%nat)) body = brkn mi' 1 (td (C 0%nat), R (bi 0%nat)) body).
  { unfold for_brk, mi'. f_equal. lia. }
  rewrite EI. clear EI.
  destruct (brkn_rel (fun i a t => I i a t /\ forall j, (1 <= j <= i)%nat -> ltb_ (R j) (cgp_tol prm) = false)
     (fun i a t => I (S i) a t /\ (forall j, (1 <= j <= i)%nat -> ltb_ (R j) (cgp_tol prm) = false) /\ ltb_ (R (S i)) (cgp_tol prm) = true)
     mi' 1 (td (C 0%nat), R (bi 0%nat)) body t4) as (i & a & t5 & EB & HB).
  { split; [|intros; lia]. split; [done|]. auto 10. }
  { clear Wr Wh Wq Wz Ax Ab Ar Ap Ah Aq Am Az Hp Hx Hb Hh Hr Hm Hz TT HJ.
    intros i a t Hi ((-> & Hx & Hr & Hp & Hh & Hb & Hm & Tt & HJ) & Hno). destruct SV as [[Wq Wz] Hal].
    apply (touch_wok _ _ _ _ _ Tt) in Wq. apply (touch_wok _ _ _ _ _ Tt) in Wz.
    assert (HA : forall c, c ∈ [bx; bb; br; bp; bh; bq; bm; bz] -> is_aligned t (Ptr c 0) = true)
      by (intros c Hc; rewrite (touch_aligned _ _ _ _ Tt); by apply Hal).
    assert (Ar : is_aligned t (Ptr br 0) = true) by (apply HA; isin).
    assert (Ap : is_aligned t (Ptr bp 0) = true) by (apply HA; isin).
    assert (Aq : is_aligned t (Ptr bq 0) = true) by (apply HA; isin).
    assert (Am : is_aligned t (Ptr bm 0) = true) by (apply HA; isin).
    assert (Az : is_aligned t (Ptr bz 0) = true) by (apply HA; isin). clear HA Hal.
    destruct (CL i) as (Lxi & Lri & Lpi). destruct (CL (bi i)) as (Lhi & _).
    unfold body. cbv beta iota.
    ostep HO (Ptr bp 0) (Ptr bq 0) Lpi Hq HJ t6.
    rewrite (bind_ok _ _ _ (dot_of n (tp (C i)) (A (tp (C i)))) t6) by (apply ddot_run; [exact Hp|exact Hq|len|len]).
    set (alpha := div (td (C i)) (dot_of n (tp (C i)) (A (tp (C i))))).
    pose proof (daxpy_run t6 n alpha _ _ _ _ (src_disj t6 (Ptr bx 0) _ _ (Ptr bp 0) _ Lpi Hp ltac:(dis)) Hx Lxi) as E.
    wstep E Hx' t7. clear Hx. rename Hx' into Hx.
    pose proof (daxpy_run t7 n (opp alpha) _ _ _ _ (src_disj t7 (Ptr br 0) _ _ (Ptr bq 0) _ LA0 Hq ltac:(dis)) Hr Lri) as E.
    wstep E Hr' t8. clear Hr. rename Hr' into Hr.
    pose proof (dxmuly_z_run t8 n _ _ _ ms _ Ar Am Az Hr Hm ltac:(len) Lm ltac:(dis) ltac:(dis) Wz) as E.
    wstep E Hz t8z.
    rewrite (bind_ok _ _ _ (td (C (S i))) t8z) by (apply ddot_run; [exact Hr|exact Hz|len|len]).
    pose proof (daxpby_run t8z n one _ _ (div (td (C (S i))) (td (C i))) _ _ Az Ap Hz Hp ltac:(len) Lpi ltac:(dis)) as E.
    wstep E Hp' t9. clear Hp. rename Hp' into Hp.
    rewrite (bind_ok _ _ _ (dot_of n (tr (C (S i))) (tr (C (S i)))) t9) by (apply ddot_run; [exact Hr|exact Hr| |]; pose proof (proj1 (proj2 (CL (S i)))); lia).
    change (sqrt_ (div (dot_of n (tr (C (S i))) (tr (C (S i)))) (dot_of n bs bs))) with (R (S i)).
    destruct (ltb_ (R (S i)) (R (bi i))) eqn:EL.
    - pose proof (dcopy_run t9 n _ _ (Ptr bh 0) Hx ltac:(len) ltac:(wokt) ltac:(dis)) as E.
      assert (EB : bi (S i) = S i) by (rewrite BS, EL; reflexivity).
      rewrite (bind_ok _ _ _ (R (S i)) (wr (Ptr bh 0) (axpy_of n alpha (tp (C i)) (tx (C i))) t9)) by (by rewrite (bind_ok _ _ _ _ _ E)).
      clear E. after_wr Hh' t10.
      assert (HI : I (S i) (td (C (S i)), R (S i)) t10).
      { unfold I. rewrite EB. auto 10. }
      destruct (ltb_ (R (S i)) (cgp_tol prm)) eqn:ET.
      + eexists (Stop _), t10. split; [done|]. auto.
      + eexists (Go _), t10. split; [done|]. split; [exact HI|].
        intros j Hj. destruct (decide (j = S i)) as [->|]; [exact ET|apply Hno; lia].
    - assert (EB : bi (S i) = bi i) by (rewrite BS, EL; reflexivity).
      rewrite (bind_ok _ _ _ (R (bi i)) t9) by done.
      assert (HI : I (S i) (td (C (S i)), R (bi i)) t9).
      { unfold I. rewrite EB. auto 10. }
      destruct (ltb_ (R (S i)) (cgp_tol prm)) eqn:ET.
      + eexists (Stop _), t9. split; [done|]. auto.
      + eexists (Go _), t9. split; [done|]. split; [exact HI|].
        intros j Hj. destruct (decide (j = S i)) as [->|]; [exact ET|apply Hno; lia]. }
  rewrite (bind_ok _ _ _ _ _ EB). clear EB. cbv iota.
  assert (HK : exists K, stops R (cgp_tol prm) mi' K /\ I K a t5 /\
     Z.min (1 + Z.of_nat i) (cgp_max_iter prm) = (if 0 <=? cgp_max_iter prm then Z.of_nat K else cgp_max_iter prm)).
  { assert (mi' = Z.to_nat (cgp_max_iter prm)) by done.
    destruct HB as [(-> & HI & Hno)|(Hi & HI & Hno & Hst)].
    - exists mi'. split; [|split; [done|]].
      + split; [lia|]. split; [intros j Hj; apply Hno; lia|auto].
      + destruct (Z.leb_spec 0 (cgp_max_iter prm)); lia.
    - exists (S i). split; [|split; [done|]].
      + split; [lia|]. split; [intros j Hj; apply Hno; lia|]. right. split; [lia|done].
      + destruct (Z.leb_spec 0 (cgp_max_iter prm)); lia. }
  destruct HK as (K & HS & (-> & Hx' & Hr' & Hp' & Hh' & Hb' & Hm' & Tt & HJ') & EZ).
  rewrite (bind_ok _ _ _ (1 + Z.of_nat i) t5).
  2:{ apply i32_ok. assert (mi' = Z.to_nat (cgp_max_iter prm)) by done. unfold in_int, INT_MIN, INT_MAX in *. lia. }
  pose proof (dcopy_run t5 n _ _ (Ptr bx 0) Hh' (proj1 (CL _)) ltac:(eapply wok_le; [apply (seg_wok _ _ _ Hx')|destruct (CL K); lia]) ltac:(dis)) as E.
  rewrite (bind_ok _ _ _ _ _ E). clear E.
  exists K. eexists. split; [exact HS|]. cbv zeta. split; [|split; [|split]].
  - rewrite EZ. reflexivity.
  - apply seg_wr. eapply wok_le; [apply (seg_wok _ _ _ Hx')|]. pose proof (proj1 (CL K)). pose proof (proj1 (CL (bi K))). lia.
  - eapply touch_trans; [exact Tt|]. apply touch_wr. isin.
  - apply (op_J _ _ _ _ _ _ HO [bx] t5 _ HJ'); [apply touch_wr; isin|avoid].
Qed.
End run.
