(** * Runs of the line searches. *)
From Coq Require Import ZArith Lia.
From stdpp Require Import base numbers gmap list.
From Verif Require Export P_Touch P_Memory M_LineSearch.
Local Open Scope Z_scope.

Section ls.
Context `{N : Num}.
Implicit Types (s : st).

(** An objective callback.  Its k-th evaluation returns [Fv k xs us]; it may write the blocks F and
    keeps an invariant J, indexed by the number of evaluations so far and by the point evaluated last. *)
Record objective2 (F : list nat) (J : nat -> list T -> list T -> st -> Prop) (fx0 : ptr) (feval : ptr -> ptr -> M T)
    (xp up : ptr) (m : nat) (Fv : nat -> list T -> list T -> T) : Prop := {
  ob_run : forall k s x0 u0 xs us, J k x0 u0 s -> seg s xp xs -> seg s up us -> length xs = m -> length us = m ->
     exists s', feval xp up s = Ok (Fv k xs us) s' /\ touch F s s' /\ J (S k) xs us s';
  ob_J : forall k x0 u0 W s s', J k x0 u0 s -> touch W s s' -> (forall b, b ∈ W -> b ∉ F) -> J k x0 u0 s';
  ob_fx0 : forall k x0 u0 s v, J k x0 u0 s -> J k x0 u0 (wr fx0 [v] s)
}.
(** the same with one argument; [G k xs] is what the cell fx0 holds after evaluation number k *)
Record objective1 (F : list nat) (J : nat -> st -> Prop) (fx0 : ptr) (feval : ptr -> M T)
    (xp : ptr) (m : nat) (Fv G : nat -> list T -> T) : Prop := {
  ob1_run : forall k s xs, J k s -> seg s xp xs -> length xs = m ->
     exists s', feval xp s = Ok (Fv k xs) s' /\ touch F s s' /\ J (S k) s' /\ cell s' fx0 0 = Some (Some (G k xs));
  ob1_J : forall k W s s', J k s -> touch W s s' -> (forall b, b ∈ W -> b ∉ F) -> J k s'
}.

(** the k-th trial step: s * beta * ... * beta (k = 0, 1, ...) *)
Fixpoint ls_stepk (prm : LSParams) (k : nat) : T :=
  match k with O => lsp_s prm | S k' => mul (lsp_beta prm) (ls_stepk prm k') end.
Definition ls_flink (prm : LSParams) (f0 g : T) (k : nat) : T :=
  add f0 (mul (mul (lsp_alpha prm) (ls_stepk prm k)) g).
(** the last linear bound that was computed *)
Fixpoint ls_lastflin prm (f0 g : T) (v : nat -> T) (k : nat) : T :=
  match k with O => zero | S k' => if isnan (v k') then ls_lastflin prm f0 g v k' else ls_flink prm f0 g k' end.

Section xu.
Context (m : nat) (bx bu bdx bdu bxp bup bw bf : nat) (fo : Z) (g : T) (prm : LSParams).
Context (feval : ptr -> ptr -> M T) (F : list nat) (J : nat -> list T -> list T -> st -> Prop) (Fv : nat -> list T -> list T -> T).
Context (s : st) (xs us dxs dus : list T) (f0 : T) (wc : list (option ptr)).
Notation x := (Ptr bx 0). Notation u := (Ptr bu 0). Notation dx := (Ptr bdx 0). Notation du := (Ptr bdu 0).
Notation xp := (Ptr bxp 0). Notation up := (Ptr bup 0). Notation fx0 := (Ptr bf fo).
Context (Hdist : NoDup [bx; bu; bdx; bdu; bxp; bup; bf]).
Context (HF : forall b, b ∈ [bx; bu; bdx; bdu; bxp; bup] -> b ∉ F).
Context (Hobj : objective2 F J fx0 feval xp up m Fv) (x0 u0 : list T) (HJ : J 0%nat x0 u0 s).
Context (Hx : seg s x xs) (Hu : seg s u us) (Hdx : seg s dx dxs) (Hdu : seg s du dus).
Context (Lx : length xs = m) (Lu : length us = m) (Ldx : length dxs = m) (Ldu : length dus = m).
Context (Hxp : wok s xp m) (Hup : wok s up m) (Hf : cell s fx0 0 = Some (Some f0)).
Context (Ax : is_aligned s x = true) (Au : is_aligned s u = true) (Adx : is_aligned s dx = true)
  (Adu : is_aligned s du = true) (Axp : is_aligned s xp = true) (Aup : is_aligned s up = true).
Context (Hw : pm s !! bw = Some wc) (Hw0 : wc !! 0%nat = Some (Some xp)) (Hw1 : wc !! 1%nat = Some (Some up)).

Let ptx k := axpy_of m (ls_stepk prm k) dxs xs.
Let ptu k := axpy_of m (ls_stepk prm k) dus us.
Let val k := Fv k (ptx k) (ptu k).
Definition ls_acc2 (k : nat) : Prop := isnan (val k) = false /\ leb_ (val k) (ls_flink prm f0 g k) = true.

Lemma linesearch_xu_run :
  exists r s', linesearch_xu (Z.of_nat m) x u dx du fx0 g feval prm (Ptr bw 0) s = Ok r s' /\
   ((exists k, (k < 32)%nat /\ ls_acc2 k /\ (forall j, (j < k)%nat -> ~ ls_acc2 j) /\
       r = mkLS (ls_flink prm f0 g k) (ls_stepk prm k) (1 + Z.of_nat k) 0 /\
       seg s' x (ptx k) /\ seg s' u (ptu k) /\ seg s' fx0 [val k] /\ J (S k) (ptx k) (ptu k) s' /\
       touch ([bx; bu; bxp; bup; bf] ++ F) s s') \/
    ((forall j, (j < 32)%nat -> ~ ls_acc2 j) /\
       r = mkLS (ls_lastflin prm f0 g val 32) (ls_stepk prm 32) 32 1 /\ J 32%nat (ptx 31) (ptu 31) s' /\
       touch ([bxp; bup] ++ F) s s')).
Proof.
  distinct Hdist.
  assert (NF : bx ∉ F /\ bu ∉ F /\ bdx ∉ F /\ bdu ∉ F /\ bxp ∉ F /\ bup ∉ F).
  { repeat split; apply HF; isin. }
  destruct NF as (Fx & Fu & Fdx & Fdu & Fxp & Fup).
  unfold linesearch_xu.
  rewrite (bind_ok _ _ _ f0 s) by (by apply ld_ok).
  rewrite (bind_ok _ _ _ xp s) by (by eapply (ldp_ok _ _ _ 0)).
  rewrite (bind_ok _ _ _ up s) by (by eapply (ldp_ok _ _ _ 1)).
  set (body := fun (iter : Z) (v : lsv) => _).
  destruct (brkn_rel
    (fun i (a : lsv) t => a = (ls_stepk prm i, ls_lastflin prm f0 g val i, None) /\
        (forall j, (j < i)%nat -> ~ ls_acc2 j) /\ touch ([bxp; bup] ++ F) s t /\
        J i (match i with O => x0 | S j => ptx j end) (match i with O => u0 | S j => ptu j end) t)
    (fun i (a : lsv) t => a = (ls_stepk prm i, ls_flink prm f0 g i, Some (mkLS (ls_flink prm f0 g i) (ls_stepk prm i) (1 + Z.of_nat i) 0)) /\
        ls_acc2 i /\ (forall j, (j < i)%nat -> ~ ls_acc2 j) /\
        seg t x (ptx i) /\ seg t u (ptu i) /\ seg t fx0 [val i] /\ J (S i) (ptx i) (ptu i) t /\
        touch ([bx; bu; bxp; bup; bf] ++ F) s t)
    32 1 (lsp_s prm, zero, None) body s) as (i & a & s2 & EB & HB).
  - split; [reflexivity|]. split; [intros j Hj; by apply Nat.nlt_0_r in Hj|]. split; [apply touch_refl|exact HJ].
  - intros i a t Hi (-> & Hno & Ht & HJt). subst body. cbv beta iota.
    assert (Tx : seg t x xs) by (apply (touch_seg _ _ _ _ _ _ Ht); [notin|done]).
    assert (Tu : seg t u us) by (apply (touch_seg _ _ _ _ _ _ Ht); [notin|done]).
    assert (Tdx : seg t dx dxs) by (apply (touch_seg _ _ _ _ _ _ Ht); [notin|done]).
    assert (Tdu : seg t du dus) by (apply (touch_seg _ _ _ _ _ _ Ht); [notin|done]).
    assert (Txp : wok t xp m) by (by apply (touch_wok _ _ _ _ _ Ht)).
    assert (Tup : wok t up m) by (by apply (touch_wok _ _ _ _ _ Ht)).
    rewrite (bind_ok _ _ _ tt (wr xp (ptx i) t)).
    2:{ apply daxpy_z_run; first [assumption|dis|alt]. }
    set (t1 := wr xp (ptx i) t).
    assert (E1 : seg t1 xp (ptx i)) by (unfold t1, ptx; segt).
    rewrite (bind_ok _ _ _ tt (wr up (ptu i) t1)).
    2:{ unfold t1, ptx. apply daxpy_z_run; first [assumption|dis|alt|segt|wokt|idtac]. }
    set (t2 := wr up (ptu i) t1).
    assert (Ht2 : touch [bxp; bup] t t2).
    { unfold t2, t1. tcht. }
    destruct (ob_run _ _ _ _ _ _ _ _ Hobj i t2 (match i with O => x0 | S j => ptx j end) (match i with O => u0 | S j => ptu j end) (ptx i) (ptu i)) as (t3 & E3 & Ht3 & HJ3).
    { eapply (ob_J _ _ _ _ _ _ _ _ Hobj); [exact HJt|exact Ht2|].
      intros b Hb. apply HF. sub Hb. }
    { unfold t2, t1, ptx, ptu. segt. }
    { unfold t2, t1, ptx, ptu. segt. }
    { unfold ptx; len. } { unfold ptu; len. }
    rewrite (bind_ok _ _ _ _ _ E3). change (Fv i (ptx i) (ptu i)) with (val i).
    assert (TT : touch ([bxp; bup] ++ F) s t3).
    { eapply touch_trans; [exact Ht|]. eapply touch_trans; [eapply touch_weaken; [exact Ht2|]|eapply touch_weaken; [exact Ht3|]];
        intros b Hb; apply elem_of_app; auto. }
    destruct (isnan (val i)) eqn:Enan.
    { eexists (Go _), t3. split; [done|]. split.
      - simpl. by rewrite Enan.
      - split; [|done]. intros j Hj. destruct (decide (j = i)) as [->|]; [|apply Hno; lia].
        intros [A _]. congruence. }
    fold (ls_flink prm f0 g i).
    destruct (leb_ (val i) (ls_flink prm f0 g i)) eqn:Ele.
    2:{ eexists (Go _), t3. split; [done|]. split.
      - simpl. by rewrite Enan.
      - split; [|done]. intros j Hj. destruct (decide (j = i)) as [->|]; [|apply Hno; lia].
        intros [_ A]. congruence. }
    (* success *)
    assert (S3x : seg t3 x xs) by (apply (touch_seg _ _ _ _ _ _ Ht3); [done|]; unfold t2, t1, ptx, ptu; segt).
    assert (S3u : seg t3 u us) by (apply (touch_seg _ _ _ _ _ _ Ht3); [done|]; unfold t2, t1, ptx, ptu; segt).
    assert (S3xp : seg t3 xp (ptx i)) by (apply (touch_seg _ _ _ _ _ _ Ht3); [done|]; unfold t2, t1, ptx, ptu; segt).
    assert (S3up : seg t3 up (ptu i)) by (apply (touch_seg _ _ _ _ _ _ Ht3); [done|]; unfold t2, t1, ptx, ptu; segt).
    assert (Lpx : length (ptx i) = m) by (unfold ptx; len).
    assert (Lpu : length (ptu i) = m) by (unfold ptu; len).
    rewrite (bind_ok _ _ _ tt (wr x (ptx i) t3)).
    2:{ apply (dcopy_loop t3 m xp (ptx i) x xs); [apply src_disj; [exact Lpx|exact S3xp|dis]|apply dst_seg; [exact S3x|exact Lx]]. }
    set (t4 := wr x (ptx i) t3).
    assert (S4u : seg t4 u us) by (unfold t4; segt).
    assert (S4x : seg t4 x (ptx i)).
    { unfold t4. apply seg_wr. rewrite Lpx, <- Lx. by apply seg_wok. }
    rewrite (bind_ok _ _ _ tt (wr u (ptu i) t4)).
    2:{ assert (S4up : seg t4 up (ptu i)) by (unfold t4; segt).
        apply (dcopy_loop t4 m up (ptu i) u us); [apply src_disj; [exact Lpu|exact S4up|dis]|apply dst_seg; [exact S4u|exact Lu]]. }
    set (t5 := wr u (ptu i) t4).
    assert (Wf0 : wok s fx0 1).
    { intros [|] ?; [|lia]. change (Z.of_nat 0) with 0. rewrite Hf. eauto. }
    assert (Wf : wok t3 fx0 1) by (by apply (touch_wok _ _ _ _ _ TT)).
    assert (Wf5 : wok t5 fx0 1) by (unfold t5, t4; apply wok_wr; [|apply wok_wr]; auto; rewrite ?Lpx, ?Lpu; wokt).
    rewrite (bind_ok _ _ _ tt (wr fx0 [val i] t5)).
    2:{ rewrite (sto_wok _ _ 1) by (done || lia). by rewrite padd_0. }
    eexists (Stop _), _. split; [reflexivity|]. split; [done|]. split; [by split|].
    assert (Wx : wok t3 x (length (ptx i))) by (rewrite Lpx, <- Lx; by apply seg_wok).
    assert (Wu : wok t4 u (length (ptu i))) by (rewrite Lpu, <- Lu; by apply seg_wok).
    split; [exact Hno|]. split; [|split; [|split; [|split]]].
    + apply seg_wr_disj; [done| |dis]. unfold t5. apply seg_wr_disj; [done|done|dis].
    + apply seg_wr_disj; [done| |dis]. unfold t5. by apply seg_wr.
    + by apply seg_wr.
    + apply (ob_fx0 _ _ _ _ _ _ _ _ Hobj). eapply (ob_J _ _ _ _ _ _ _ _ Hobj (S i) _ _ [bx; bu]); [exact HJ3| |].
      * unfold t5, t4. tcht.
      * intros b Hb. apply HF. sub Hb.
    + eapply touch_trans; [eapply touch_weaken; [exact TT|]|].
      * intros b Hb. sub Hb.
      * eapply (touch_weaken [bx; bu; bxp; bup; bf]); [unfold t5, t4; tcht|]. intros b Hb. apply elem_of_app. auto.
  - unfold for_brk. change (Z.to_nat (MAX_LINESEARCH_ITER + 1 - 1)) with 32%nat.
    rewrite (bind_ok _ _ _ _ _ EB).
    destruct HB as [(-> & -> & Hno & Ht & HJ2)|(Hi & -> & Hacc & Hno & S1 & S2 & S3 & HJ2 & Ht)].
    + eexists _, s2. split; [done|]. right. split; [done|]. split; [|done]. reflexivity.
    + eexists _, s2. split; [done|]. left. exists i. split; [done|]. split; [done|]. split; [done|]. split; [done|]. auto.
Qed.
End xu.

Section plain.
Context (m : nat) (bx bdx bxp bf : nat) (fo : Z) (g : T) (prm : LSParams).
Context (fobj : ptr -> M T) (F : list nat) (J : nat -> st -> Prop) (Fv G : nat -> list T -> T).
Context (s : st) (xs dxs : list T).
Notation x := (Ptr bx 0). Notation dx := (Ptr bdx 0).
Notation xp := (Ptr bxp 0). Notation fx0 := (Ptr bf fo).
Context (Hdist : NoDup [bx; bdx; bxp; bf]).
Context (HF : forall b, b ∈ [bx; bdx; bxp] -> b ∉ F).
Context (Hobj : objective1 F J fx0 fobj xp m Fv G) (HJ : J 0%nat s).
Context (Hx : seg s x xs) (Hdx : seg s dx dxs).
Context (Lx : length xs = m) (Ldx : length dxs = m).
Context (Hxp : wok s xp m).
Context (Ax : is_aligned s x = true) (Adx : is_aligned s dx = true) (Axp : is_aligned s xp = true).

Let ptx k := axpy_of m (ls_stepk prm k) dxs xs.
Let val k := Fv k (ptx k).
Let f0 k := G k (ptx k).
Definition ls_acc1 (k : nat) : Prop := isnan (val k) = false /\ leb_ (val k) (ls_flink prm (f0 k) g k) = true.
Fixpoint ls_lastflin1 (k : nat) : T :=
  match k with O => zero | S k' => if isnan (val k') then ls_lastflin1 k' else ls_flink prm (f0 k') g k' end.

Lemma linesearch_run :
  exists r s', linesearch (Z.of_nat m) x dx fx0 g fobj prm xp s = Ok r s' /\
   ((exists k, (k < 32)%nat /\ ls_acc1 k /\ (forall j, (j < k)%nat -> ~ ls_acc1 j) /\
       r = mkLS (ls_flink prm (f0 k) g k) (ls_stepk prm k) (1 + Z.of_nat k) 0 /\
       seg s' x (ptx k) /\ seg s' fx0 [val k] /\ (exists t, J (S k) t /\ touch [bx; bf] t s') /\
       touch ([bx; bxp; bf] ++ F) s s') \/
    ((forall j, (j < 32)%nat -> ~ ls_acc1 j) /\
       r = mkLS (ls_lastflin1 32) (ls_stepk prm 32) 32 1 /\ J 32%nat s' /\
       touch ([bxp] ++ F) s s')).
Proof.
  distinct Hdist.
  assert (NF : bx ∉ F /\ bdx ∉ F /\ bxp ∉ F).
  { repeat split; apply HF; isin. }
  destruct NF as (Fx & Fdx & Fxp).
  unfold linesearch.
  set (body := fun (iter : Z) (v : lsv) => _).
  destruct (brkn_rel
    (fun i (a : lsv) t => a = (ls_stepk prm i, ls_lastflin1 i, None) /\
        (forall j, (j < i)%nat -> ~ ls_acc1 j) /\ touch ([bxp] ++ F) s t /\ J i t)
    (fun i (a : lsv) t => a = (ls_stepk prm i, ls_flink prm (f0 i) g i, Some (mkLS (ls_flink prm (f0 i) g i) (ls_stepk prm i) (1 + Z.of_nat i) 0)) /\
        ls_acc1 i /\ (forall j, (j < i)%nat -> ~ ls_acc1 j) /\
        seg t x (ptx i) /\ seg t fx0 [val i] /\ (exists t0, J (S i) t0 /\ touch [bx; bf] t0 t) /\
        touch ([bx; bxp; bf] ++ F) s t)
    32 1 (lsp_s prm, zero, None) body s) as (i & a & s2 & EB & HB).
  - split; [reflexivity|]. split; [intros j Hj; by apply Nat.nlt_0_r in Hj|]. split; [apply touch_refl|exact HJ].
  - intros i a t Hi (-> & Hno & Ht & HJt). subst body. cbv beta iota.
    assert (Tx : seg t x xs) by (apply (touch_seg _ _ _ _ _ _ Ht); [notin|done]).
    assert (Tdx : seg t dx dxs) by (apply (touch_seg _ _ _ _ _ _ Ht); [notin|done]).
    assert (Txp : wok t xp m) by (by apply (touch_wok _ _ _ _ _ Ht)).
    rewrite (bind_ok _ _ _ tt (wr xp (ptx i) t)).
    2:{ apply daxpy_z_run; first [assumption|dis|alt]. }
    set (t2 := wr xp (ptx i) t).
    assert (Ht2 : touch [bxp] t t2).
    { unfold t2. tcht. }
    assert (S2xp : seg t2 xp (ptx i)) by (unfold t2, ptx; segt).
    destruct (ob1_run _ _ _ _ _ _ _ _ Hobj i t2 (ptx i)) as (t3 & E3 & Ht3 & HJ3 & Hf3).
    { eapply (ob1_J _ _ _ _ _ _ _ _ Hobj); [exact HJt|exact Ht2|].
      intros b Hb. apply HF. sub Hb. }
    { exact S2xp. }
    { unfold ptx; len. }
    rewrite (bind_ok _ _ _ _ _ E3). change (Fv i (ptx i)) with (val i).
    assert (TT : touch ([bxp] ++ F) s t3).
    { eapply touch_trans; [exact Ht|]. eapply touch_trans; [eapply touch_weaken; [exact Ht2|]|eapply touch_weaken; [exact Ht3|]];
        intros b Hb; apply elem_of_app; auto. }
    destruct (isnan (val i)) eqn:Enan.
    { eexists (Go _), t3. split; [done|]. split.
      - simpl. by rewrite Enan.
      - split; [|done]. intros j Hj. destruct (decide (j = i)) as [->|]; [|apply Hno; lia].
        intros [A _]. congruence. }
    rewrite (bind_ok _ _ _ (f0 i) t3) by (apply ld_ok; exact Hf3).
    fold (ls_flink prm (f0 i) g i).
    destruct (leb_ (val i) (ls_flink prm (f0 i) g i)) eqn:Ele.
    2:{ eexists (Go _), t3. split; [done|]. split.
      - simpl. by rewrite Enan.
      - split; [|done]. intros j Hj. destruct (decide (j = i)) as [->|]; [|apply Hno; lia].
        intros [_ A]. congruence. }
    (* success *)
    assert (S3x : seg t3 x xs) by (apply (touch_seg _ _ _ _ _ _ Ht3); [done|]; unfold t2, ptx; segt).
    assert (S3xp : seg t3 xp (ptx i)) by (apply (touch_seg _ _ _ _ _ _ Ht3); [done|]; unfold t2, ptx; segt).
    assert (Lpx : length (ptx i) = m) by (unfold ptx; len).
    rewrite (bind_ok _ _ _ tt (wr x (ptx i) t3)).
    2:{ apply (dcopy_loop t3 m xp (ptx i) x xs); [apply src_disj; [exact Lpx|exact S3xp|dis]|apply dst_seg; [exact S3x|exact Lx]]. }
    set (t4 := wr x (ptx i) t3).
    assert (Wf : wok t3 fx0 1).
    { intros [|] ?; [|lia]. change (Z.of_nat 0) with 0. rewrite Hf3. eauto. }
    assert (Wx : wok t3 x (length (ptx i))) by (rewrite Lpx, <- Lx; by apply seg_wok).
    assert (Wf5 : wok t4 fx0 1) by (unfold t4; by apply wok_wr).
    rewrite (bind_ok _ _ _ tt (wr fx0 [val i] t4)).
    2:{ rewrite (sto_wok _ _ 1) by (done || lia). by rewrite padd_0. }
    eexists (Stop _), _. split; [reflexivity|]. split; [done|]. split; [by split|].
    split; [exact Hno|]. split; [|split; [|split]].
    + apply seg_wr_disj; [done| |dis]. by apply seg_wr.
    + by apply seg_wr.
    + exists t3. split; [exact HJ3|]. unfold t4. tcht.
    + eapply touch_trans; [eapply touch_weaken; [exact TT|]|].
      * intros b Hb. sub Hb.
      * eapply (touch_weaken [bx; bxp; bf]); [unfold t4; tcht|]. intros b Hb. apply elem_of_app. auto.
  - unfold for_brk. change (Z.to_nat (MAX_LINESEARCH_ITER + 1 - 1)) with 32%nat.
    rewrite (bind_ok _ _ _ _ _ EB).
    destruct HB as [(-> & -> & Hno & Ht & HJ2)|(Hi & -> & Hacc & Hno & S1 & S3 & HJ2 & Ht)].
    + eexists _, s2. split; [done|]. right. split; [done|]. split; [|done]. reflexivity.
    + eexists _, s2. split; [done|]. left. exists i. split; [done|]. split; [done|]. split; [done|]. split; [done|]. auto.
Qed.
End plain.
End ls.
