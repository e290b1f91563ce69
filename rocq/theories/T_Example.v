(** * C87: the example program examples/c/l1qc_dct_c.c. *)
From Coq Require Import ZArith Lia Reals Lra Classical_Prop.
From stdpp Require Import base numbers gmap list strings.
From Flocq Require Import Core.Raux.
From Verif Require Import Globals Mem M_Math M_Memory M_Status M_CG M_LineSearch M_FFTW M_Dct1 M_Dct2 M_Dct M_TVt M_Newton M_L1qcDct M_MexUtils M_Mex M_Json M_Example
  P_Mem P_Loop S_Mem P_Touch P_Memory P_Own P_Own2 P_Own3 P_Newton P_Newt2 P_Newt3 P_Newt5 P_Newt7 P_FFTW P_Dct1s P_Dct2s P_TVR L_ER S_Dct L_Cos P_DctR S_Xform P_Xform S_DctApi P_Dct P_DctA E_Dct S_L1qcDct P_L1qcDct T_Dct T_DctLife
  L_Sum S_Vec L_Lin P_NewtX P_NewtX2 P_NewtX3 P_NewtR P_Newt8 T_Newton P_DctE S_Newt S_Mex P_Mex T_Json T_L1qcDct L_Min T_TVt.
Local Open Scope Z_scope.

Section prog.
Context `{N : Num}.
Context (fft1 : fkind -> list T -> list T) (fft2 : fkind -> nat -> nat -> list T -> list T).
Context (files : string -> option (list Z)) (parse : list Z -> option json) (atoi : string -> Z).
Implicit Types (s t : st).
Notation main := (example_main fft1 fft2 files parse atoi).

(** the file is JSON with an array "b" that gives the numbers bs, an array "pix_idx" that gives the indices ms, and
    the number of pixels m as "mtot" *)
Record holds_data (args : list string) (bs : list T) (ms : list nat) (m : nat) : Prop := mkHolds {
  hd_file : exists bytes (tx : list Z) j, files (example_file args) = Some bytes /\ 0 < Z.of_nat (length bytes) < INT_MAX /\ is_text bytes tx /\ parse tx = Some j /\
    (exists js, member j "b" (JArr js) /\ bs = valuedouble <$> js) /\
    (exists js, member j "pix_idx" (JArr js) /\ Forall2 (fun j (k : nat) => forall s, valueint j s = Ok (Z.of_nat k) s) js ms) /\
    (exists d, member j "mtot" (JNum d) /\ forall s, valueint (JNum d) s = Ok (Z.of_nat m) s);
  hd_len : Z.of_nat (length bs) <= INT_MAX; hd_ilen : Z.of_nat (length ms) <= INT_MAX }.
(** ... that make sense: a measurement for each index, at least one and not more than pixels, and the indices are
    those of pixels; the solver's sizes fit an int *)
Record makes_sense (bs : list T) (ms : list nat) (m : nat) : Prop := mkSense {
  ok_len : length bs = length ms; ok_n : (1 <= length ms <= m)%nat; ok_in : forall k, k ∈ ms -> (k < m)%nat; ok_fit : 2 * Z.of_nat m + 1 <= INT_MAX }.
(** the state of a program in which no 1D transform has been made yet *)
Record begins s : Prop := mkBegins {
  bg_unborn : unborn s; bg_ints : forall b, (nx s <= b)%nat -> im s !! b = None;
  bg_EMx : d1_plan_EMx (g_d1 (gl s)) = Null; bg_MtEty : d1_plan_MtEty (g_d1 (gl s)) = Null }.
(** the i-th request for memory of the program is granted *)
Notation ok s i := (alloc_ok (en s) (nx s + i)).

(** ** the state in which l1qc_dct is called *)
Record prepared s (args : list string) (bs : list T) (ms : list nat) (m : nat) t : Prop := mkPrep {
  pr_dm : dm t = <[(nx s + 4)%nat := replicate m None]> (<[(nx s + 2)%nat := Some <$> bs]> (dm s));
  pr_im : im t = <[(nx s + 3)%nat := Z.of_nat <$> ms]> (<[nx s := codes (example_file args) ++ [0]]> (im s));
  pr_pm : pm t = pm s; pr_om : om t = om s; pr_gl : gl t = gl s; pr_en : en t = en s; pr_nx : nx t = (nx s + 5)%nat; pr_al : al t (nx s + 4)%nat = true }.

Lemma copy_name_run name s : im s !! nx s = None ->
  copy_name name s = if alloc_ok (en s) (nx s) then Ok (Ptr (nx s) 0) (tick (set_im <[nx s := codes name ++ [0]]> s)) else Ok Null (tick s).
Proof.
  intros Hi. unfold copy_name. set (k := length (codes name)). unfold calloc_i at 1, bind at 1. rewrite (proj2 (Z.leb_le 0 _)) by lia. cbn [andb].
  destruct (alloc_ok (en s) (nx s)); [|done]. cbn [is_null]. replace (Z.to_nat (Z.of_nat k + 1)) with (S k) by lia.
  set (s1 := tick _). rewrite (bind_ok _ _ _ tt (set_im <[nx s := take k (codes name) ++ replicate (S k - k) 0]> s1)).
  2:{ apply fill_run; [apply lookup_insert|lia|unfold k; lia]. }
  unfold ret. f_equal. rewrite take_ge by (unfold k; lia). replace (S k - k)%nat with 1%nat by lia. unfold s1, set_im, tick. cbn. by rewrite insert_insert.
Qed.

Lemma begins_lookup s i : begins s -> dm s !! (nx s + i)%nat = None /\ im s !! (nx s + i)%nat = None.
Proof. intros [Hu Hi _ _]. split; [apply Hu; lia|apply Hi; lia]. Qed.
(** closing: what was made is released *)
Lemma exit_run s px pb pi (st : Z) t : begins s ->
  im t !! nx s <> None -> 
  (px = Null \/ px = Ptr (nx s + 4) 0 /\ is_Some (dm t !! (nx s + 4)%nat)) -> (pb = Null \/ pb = Ptr (nx s + 2) 0 /\ is_Some (dm t !! (nx s + 2)%nat)) ->
  (pi = Null \/ pi = Ptr (nx s + 3) 0 /\ is_Some (im t !! (nx s + 3)%nat)) ->
  (forall b, b <> (nx s + 4)%nat \/ px = Null -> b <> (nx s + 2)%nat \/ pb = Null -> dm t !! b = dm s !! b) ->
  (forall b, b <> nx s -> b <> (nx s + 3)%nat \/ pi = Null -> im t !! b = im s !! b) -> pm t = pm s -> om t = om s ->
  exists s', (free_i (Ptr (nx s) 0) ;! l1c_free_double px ;! free_i pi ;! l1c_free_double pb ;! ret st) t = Ok st s' /\ same_heap s s'.
Proof.
  intros HB Hn Hx Hb Hi Hd Hm Hp Ho.
  destruct (im t !! nx s) as [c|] eqn:Ec; [|done].
  rewrite (bind_ok _ _ _ tt (set_im (delete (nx s)) t)) by (unfold free_i; change (0 =? 0) with true; cbv iota; by rewrite Ec).
  set (t1 := set_im (delete (nx s)) t).
  assert (exists t2, l1c_free_double px t1 = Ok tt t2 /\ im t2 = im t1 /\ pm t2 = pm t /\ om t2 = om t /\ dm t2 = (if is_null px then dm t else delete (nx s + 4)%nat (dm t))) as (t2 & E2 & I2 & P2 & O2 & D2).
  { destruct Hx as [->|[-> [d Ed]]]; [by exists t1|].
    exists (set_dm (delete (nx s + 4)%nat) t1). split; [|done]. unfold l1c_free_double, free_d. change (0 =? 0) with true. cbv iota. change (dm t1) with (dm t). by rewrite Ed. }
  rewrite (bind_ok _ _ _ _ _ E2).
  assert (exists t3, free_i pi t2 = Ok tt t3 /\ dm t3 = dm t2 /\ pm t3 = pm t /\ om t3 = om t /\ im t3 = (if is_null pi then im t1 else delete (nx s + 3)%nat (im t1))) as (t3 & E3 & D3 & P3 & O3 & I3).
  { destruct Hi as [->|[-> [d Ed]]]; [by exists t2|]. cbn [is_null].
    exists (set_im (delete (nx s + 3)%nat) t2). split; [|split; [done|split; [done|split; [done|]]]; cbn; by rewrite I2]. unfold free_i. change (0 =? 0) with true. cbv iota. rewrite I2. cbn. rewrite lookup_delete_ne by lia. by rewrite Ed. }
  rewrite (bind_ok _ _ _ _ _ E3).
  assert (exists t4, l1c_free_double pb t3 = Ok tt t4 /\ im t4 = im t3 /\ pm t4 = pm t /\ om t4 = om t /\ dm t4 = (if is_null pb then dm t3 else delete (nx s + 2)%nat (dm t3))) as (t4 & E4 & I4 & P4 & O4 & D4).
  { destruct Hb as [->|[-> [d Ed]]]; [by exists t3|]. cbn [is_null].
    exists (set_dm (delete (nx s + 2)%nat) t3). split; [|done]. unfold l1c_free_double, free_d. change (0 =? 0) with true. cbv iota. rewrite D3, D2.
    destruct (is_null px); [by rewrite Ed|]. rewrite lookup_delete_ne by lia. by rewrite Ed. }
  rewrite (bind_ok _ _ _ _ _ E4). exists t4. split; [done|]. split; [|split; [|split]].
  - rewrite D4, D3, D2. apply map_eq. intros b.
    destruct (decide (b = nx s + 4)%nat) as [->|N4]; [|destruct (decide (b = nx s + 2)%nat) as [->|N2]].
    + rewrite (proj1 (begins_lookup s 4 HB)). destruct (is_null pb), (is_null px) eqn:En; rewrite ?lookup_delete_ne, ?lookup_delete by lia; try done;
      (rewrite Hd; [apply (begins_lookup s 4 HB)|right; by destruct px|left; lia]).
    + rewrite (proj1 (begins_lookup s 2 HB)). destruct (is_null pb) eqn:En; [|by rewrite lookup_delete].
      destruct (is_null px); rewrite ?lookup_delete_ne by lia; (rewrite Hd; [apply (begins_lookup s 2 HB)|left; lia|right; by destruct pb]).
    + destruct (is_null pb), (is_null px); rewrite ?lookup_delete_ne by done; (apply Hd; by left).
  - congruence.
  - congruence.
  - rewrite I4, I3. apply map_eq. intros b. unfold t1. cbn [im set_im].
    destruct (decide (b = nx s)) as [->|N0]; [|destruct (decide (b = nx s + 3)%nat) as [->|N3]].
    + pose proof (begins_lookup s 0 HB) as [_ Q]. rewrite Nat.add_0_r in Q. rewrite Q. destruct (is_null pi); rewrite ?lookup_delete_ne by lia; by rewrite lookup_delete.
    + rewrite (proj2 (begins_lookup s 3 HB)). destruct (is_null pi) eqn:En; [|by rewrite lookup_delete]. rewrite lookup_delete_ne by lia.
      rewrite Hm; [apply (begins_lookup s 3 HB)|lia|right; by destruct pi].
    + destruct (is_null pi); rewrite ?lookup_delete_ne by done; (apply Hm; [done|by left]).
Qed.

Notation solve args m n s := (l1qc_dct fft1 fft2 (Z.of_nat m) 1 (Ptr (nx s + 4) 0) (Z.of_nat n) (Ptr (nx s + 2) 0) (Ptr (nx s + 3) 0) (example_opts (example_verbose atoi args))).
(** ** every way the program can go *)
Lemma main_cases s args bs ms m : begins s -> holds_data args bs ms m -> ms <> [] ->
  (ok s 0 = false /\ exists s', main args s = Ok 1 s' /\ same_heap s s') \/
  (ok s 0 = true /\ ok s 1 = false /\ exists s', main args s = Ok L1C_FILE_READ_FAILURE s' /\ same_heap s s') \/
  (ok s 0 = true /\ ok s 1 = true /\ ok s 3 = false /\ main args s = Ub UbOob) \/
  (ok s 0 = true /\ ok s 1 = true /\ ok s 2 = false /\ ok s 3 = true /\ exists s', main args s = Ok 2 s' /\ same_heap s s') \/
  (ok s 0 = true /\ ok s 1 = true /\ ok s 2 = true /\ ok s 3 = true /\ ok s 4 = false /\ exists s', main args s = Ok 1 s' /\ same_heap s s') \/
  ((forall i, (i < 5)%nat -> ok s i = true) /\ exists t, prepared s args bs ms m t /\
    main args s = (let* _ := solve args m (length ms) s in free_i (Ptr (nx s) 0) ;! l1c_free_double (Ptr (nx s + 4) 0) ;! free_i (Ptr (nx s + 3) 0) ;! l1c_free_double (Ptr (nx s + 2) 0) ;! ret 0) t).
Proof.
  intros HB [(bytes & tx & j & Ef & Hl & Ht & Ep & (jb & Mb & Eb) & (ji & Mi & Ei) & (d & Mm & Em)) L1 L2] Hne.
  rewrite Nat.add_0_r. set (X := main args s). assert (EX : X = main args s) by done. clearbody X. unfold example_main in EX.
  pose proof (begins_lookup s 0 HB) as [D0 I0]. rewrite Nat.add_0_r in D0, I0.
  unfold bind at 1 in EX. rewrite (copy_name_run _ s I0) in EX. destruct (alloc_ok (en s) (nx s)) eqn:A0; [right|left; split; [done|]; exists (tick s); done].
  cbv beta iota in EX. cbn [is_null] in EX. set (s1 := tick (set_im <[nx s := codes (example_file args) ++ [0]]> s)) in *. assert (E1 : nx s1 = (nx s + 1)%nat) by (cbn; lia).
  unfold example_work in EX.
  destruct (ok s 1) eqn:A1.
  2:{ left. split; [done|]. split; [done|].
      destruct (load_out_of_memory files parse (example_file args) None s1 bytes Ef) as (s2 & E2 & (Q1 & Q2 & Q3 & Q4 & Q5 & Q6)).
      { unfold file_len. rewrite int_of_nat by lia. lia. } { rewrite E1. exact A1. }
      unfold bind at 1 2 in EX. rewrite E2 in EX. cbv beta iota in EX. change (negb (1 =? 0)) with true in EX. cbv iota in EX. unfold ret at 1 in EX. cbv beta iota in EX. rewrite EX.
      apply exit_run; try done; try (by left).
      - rewrite Q2. cbn. by rewrite lookup_insert.
      - intros b _ _. by rewrite Q1.
      - intros b Hb _. rewrite Q2. cbn. by rewrite lookup_insert_ne. }
  right.
  assert (R1 := load_run files parse (example_file args) None s1 bytes (length bytes) tx Ef ltac:(unfold file_len; rewrite int_of_nat by lia; done) Hl ltac:(lia)).
  rewrite take_ge in R1 by lia. rewrite E1 in R1. specialize (R1 Ht A1 ltac:(cbn; rewrite lookup_insert_ne by lia; apply (begins_lookup s 1 HB))).
  unfold bind at 1 2 in EX. rewrite R1 in EX. cbv beta iota in EX. change (negb (0 =? 0)) with false in EX. cbv iota in EX. rewrite Ep in EX.
  set (s2 := tick s1) in *. assert (E2 : nx s2 = (nx s + 2)%nat) by (cbn; lia).
  assert (U2 : unborn s2). { destruct HB as [Hu _ _ _]. intros b Hb. rewrite E2 in Hb. apply (Hu b). lia. }
  destruct (extract_double_array_result j "b" Null 0 s2 U2) as (X1 & X2 & _ & _).
  assert (L1' : Z.of_nat (length jb) <= INT_MAX) by (rewrite Eb, fmap_length in L1; done).
  assert (exists sb (pb : ptr) s3, extract_json_double_array (Some j) "b" Null 0 s2 = Ok (sb, pb, Z.of_nat (length jb)) s3 /\ nx s3 = (nx s + 3)%nat /\
    im s3 = im s1 /\ pm s3 = pm s /\ om s3 = om s /\ gl s3 = gl s /\ en s3 = en s /\
    if ok s 2 then sb = 0 /\ pb = Ptr (nx s + 2) 0 /\ dm s3 = <[(nx s + 2)%nat := Some <$> bs]> (dm s) else sb = 1 /\ pb = Null /\ dm s3 = dm s) as (sb & pb & s3 & R2 & N3 & I3 & P3 & O3 & G3 & W3 & C3).
  { destruct (ok s 2) eqn:A2.
    - destruct (X1 jb Mb L1') as (s3 & R & Dd & _ & Q2 & Q3 & Q4 & Q5 & Q6 & Q7); [rewrite E2; exact A2|].
      rewrite E2 in R, Dd, Q7. exists 0, (Ptr (nx s + 2) 0), s3. split; [exact R|]. split; [rewrite Q7; lia|]. split; [exact Q2|]. split; [exact Q3|]. split; [exact Q4|]. split; [exact Q5|]. split; [exact Q6|].
      split; [done|]. split; [done|]. rewrite Dd, Eb. f_equal. by rewrite <- list_fmap_compose.
    - exists 1, Null, (tick s2). split; [apply (X2 jb Mb L1'); rewrite E2; exact A2|]. repeat split. cbn. lia. }
  unfold bind at 1 2 in EX. rewrite R2 in EX. cbv beta iota in EX.
  destruct (extract_int_array_result j "pix_idx" Null (Z.of_nat (length jb)) s3) as (Y1 & Y2 & _ & _).
  assert (HZ : Forall2 (fun j z => forall s, valueint j s = Ok z s) ji (Z.of_nat <$> ms)).
  { apply Forall2_fmap_r. exact Ei. }
  assert (Lj : length ji = length ms) by (eapply Forall2_length; exact Ei).
  rewrite N3, W3 in Y1, Y2.
  destruct (ok s 3) eqn:A3.
  2:{ left. split; [done|]. split; [done|]. split; [done|]. unfold bind at 1 2 in EX. rewrite (Y2 ji _ Mi HZ) in EX; [done|rewrite Lj; done|done|].
      intros ->. destruct ms; [done|discriminate Lj]. }
  right. unfold bind at 1 2 in EX. rewrite (Y1 ji _ Mi HZ ltac:(by rewrite Lj) eq_refl) in EX. cbv beta iota in EX. set (s4 := set_im _ (tick s3)) in EX.
  destruct (extract_int_result j "mtot" 0 s4) as (Z1 & _ & _).
  unfold bind at 1 2 in EX. rewrite (Z1 d _ Mm (Em s4)) in EX. cbv beta iota zeta in EX. rewrite Lj in EX.
  assert (N4 : nx s4 = (nx s + 4)%nat) by (cbn; lia). assert (W4 : en s4 = en s) by done.
  assert (I4 : im s4 = <[(nx s + 3)%nat := Z.of_nat <$> ms]> (<[nx s := codes (example_file args) ++ [0]]> (im s))) by (cbn; rewrite I3; done).
  assert (HIc : im s4 !! nx s <> None) by (rewrite I4, lookup_insert_ne by lia; by rewrite lookup_insert).
  assert (HIp : is_Some (im s4 !! (nx s + 3)%nat)) by (rewrite I4, lookup_insert; done).
  assert (HIo : forall b, b <> nx s -> b <> (nx s + 3)%nat -> im s4 !! b = im s !! b) by (intros b H1 H2; rewrite I4, !lookup_insert_ne by done; done).
  unfold l1c_malloc_double at 1, alloc_d in EX. rewrite (proj2 (Z.leb_le 0 (Z.of_nat m))) in EX by lia.
  unfold bind at 1 2 in EX. rewrite N4, W4 in EX. cbn [andb] in EX.
  destruct (ok s 4) eqn:A4.
  - rewrite Nat2Z.id in EX. set (s5 := tick (set_al (nx s + 4)%nat true (set_dm <[(nx s + 4)%nat := replicate m None]> s4))) in EX.
    destruct (ok s 2) eqn:A2; destruct C3 as (-> & -> & D3).
    + right. right. split. { intros [|[|[|[|[|]]]]] Hi; try done; [by rewrite Nat.add_0_r|lia]. }
      exists s5. change (negb (0 + 0 + 0 =? 0)) with false in EX. cbn [is_null orb] in EX. split.
      * split; try done; [cbn; by rewrite D3|cbn; rewrite N3; lia|cbn; by rewrite Nat.eqb_refl].
      * rewrite EX. unfold bind at 1 2. unfold bind at 4. destruct (solve args m (length ms) s s5) as [[r1 r2] s6|e]; done.
    + left. split; [done|]. split; [done|]. split; [done|]. split; [done|]. change (negb (1 + 0 + 0 =? 0)) with true in EX. cbn [orb is_null] in EX. unfold ret at 1 in EX. cbv beta iota in EX. rewrite EX.
      apply exit_run; try done.
      * right. split; [done|]. cbn. by rewrite lookup_insert.
      * by left.
      * by right.
      * intros b [Hb|Hb] _; [|done]. cbn. by rewrite lookup_insert_ne, D3.
      * intros b Hb [Hb'|Hb']; [|done]. by apply HIo.
  - destruct (ok s 2) eqn:A2; destruct C3 as (-> & -> & D3).
    + right. left. split; [done|]. split; [done|]. split; [done|]. split; [done|]. split; [done|]. change (negb (0 + 0 + 0 =? 0)) with false in EX. cbn [orb is_null] in EX. unfold ret at 1 in EX. cbv beta iota in EX. rewrite EX.
      apply exit_run; try done.
      * by left.
      * right. split; [done|]. cbn. by rewrite D3, lookup_insert.
      * by right.
      * intros b _ [Hb|Hb]; [|done]. cbn. by rewrite D3, lookup_insert_ne.
      * intros b Hb [Hb'|Hb']; [|done]. by apply HIo.
    + left. split; [done|]. split; [done|]. split; [done|]. split; [done|]. change (negb (1 + 0 + 0 =? 0)) with true in EX. cbn [orb is_null] in EX. unfold ret at 1 in EX. cbv beta iota in EX. rewrite EX.
      apply exit_run; try done.
      * by left.
      * by left.
      * by right.
      * intros b _ _. cbn. by rewrite D3.
      * intros b Hb [Hb'|Hb']; [|done]. by apply HIo.
Qed.

(** ** the solver's call *)
Lemma prepared_call s args bs ms m t : begins s -> makes_sense bs ms m -> prepared s args bs ms m t ->
  dct_call t m 1 (nx s + 3) 0 ms (nx s + 2) 0 bs (nx s + 4) 0.
Proof.
  intros [Hu Hi _ _] [H1 H2 H3 H4] [Pd Pi Pp Po Pg Pe Pn Pa]. split; try lia; try done.
  - intros b Hb. rewrite Pn in Hb. rewrite Pd, Pp, Po, !lookup_insert_ne by lia. apply Hu. lia.
  - intros i k Hk. unfold ldi. rewrite Z.add_0_l, (proj2 (Z.leb_le _ _)) by lia. rewrite Pi, lookup_insert, Nat2Z.id, list_lookup_fmap, Hk. done.
  - rewrite Pd, !lookup_insert_ne by lia. apply Hu. lia.
  - rewrite Nat.mul_1_r. done.
  - intros i v Hv. unfold cell. rewrite Z.add_0_l, (proj2 (Z.leb_le _ _)) by lia. rewrite Pd, lookup_insert_ne, lookup_insert by lia. rewrite Nat2Z.id, list_lookup_fmap, Hv. done.
  - intros i Hi'. unfold cell. rewrite Z.add_0_l, (proj2 (Z.leb_le _ _)) by lia. rewrite Pd, lookup_insert, Nat2Z.id. apply lookup_lt_is_Some. rewrite replicate_length. lia.
  - unfold is_aligned. rewrite Pa. done.
Qed.

(** ** what is handed to the solver: the data of the file named by the first argument (or of example_img_data.json), and the
    documented options, with the second argument (or 0) as verbosity *)
Theorem example_calls_solver s args bs ms m : begins s -> holds_data args bs ms m -> ms <> [] -> (forall i, (i < 5)%nat -> ok s i = true) ->
  example_file args = nth 0 args "example_img_data.json"%string /\
  exists t (o : L1qcOpts), prepared s args bs ms m t /\
    main args s = (let* _ := l1qc_dct fft1 fft2 (Z.of_nat m) 1 (Ptr (nx s + 4) 0) (Z.of_nat (length ms)) (Ptr (nx s + 2) 0) (Ptr (nx s + 3) 0) o in
                   free_i (Ptr (nx s) 0) ;! l1c_free_double (Ptr (nx s + 4) 0) ;! free_i (Ptr (nx s + 3) 0) ;! l1c_free_double (Ptr (nx s + 2) 0) ;! ret 0) t /\
    lo_epsilon o = lit 1 10 /\ lo_mu o = ofZ 10 /\ lo_lbtol o = lit 1 1000 /\ lo_newton_tol o = lit 1 1000 /\ lo_newton_max_iter o = 50 /\
    lo_verbose o = default 0 (atoi <$> args !! 1%nat) /\ lo_l1_tol o = lit 1 100000 /\ lo_cg_tol o = lit 1 100000000 /\ lo_cg_maxiter o = 200 /\
    lo_cg_verbose o = 0 /\ lo_warm_start_cg o = 0 /\ lo_dct_mode o = dct1.
Proof.
  intros HB HD Hm Hok. split; [by destruct args|].
  destruct (main_cases s args bs ms m HB HD Hm) as [[Q _]|[(_ & Q & _)|[(_ & _ & Q & _)|[(_ & _ & Q & _)|[(_ & _ & _ & _ & Q & _)|(_ & t & Pt & E)]]]]];
    [rewrite Hok in Q by lia; discriminate Q..|].
  exists t, (example_opts (example_verbose atoi args)). split; [exact Pt|]. split; [exact E|]. split_and!; try reflexivity. by destruct args as [|? [|? ?]].
Qed.

(** what stands in the way of solving: nothing, or a request that was refused *)
Definition exit_status s : Z :=
  if negb (ok s 0) then 1 else if negb (ok s 1) then L1C_FILE_READ_FAILURE else if negb (ok s 2) then 2 else if negb (ok s 4) then 1 else 0.
(** no int counter of the solver overflows, with the options of the program *)
Definition no_overflow s args bs ms m : Prop :=
  forall t, en t = en s -> nx t = (nx s + 5)%nat -> counters_fit fft1 fft2 t m 1 (example_opts (example_verbose atoi args)) ms bs.
Hypothesis fft1_len : forall k xs, length (fft1 k xs) = length xs.
Hypothesis fft2_len : forall k nr nc xs, length xs = (nr * nc)%nat -> length (fft2 k nr nc xs) = (nr * nc)%nat.

(** the solver's call changes nothing but x *)
Lemma solve_keeps s args bs ms m t r t' : begins s -> makes_sense bs ms m -> no_overflow s args bs ms m -> prepared s args bs ms m t ->
  solve args m (length ms) s t = Ok r t' ->
  (forall b, b <> (nx s + 4)%nat -> dm t' !! b = dm t !! b) /\ is_Some (dm t' !! (nx s + 4)%nat) /\ om t' = om t /\ pm t' = pm t /\ im t' = im t.
Proof.
  intros HB HS HC HP E. pose proof (prepared_call _ _ _ _ _ _ HB HS HP) as HD. destruct r as [st lb].
  assert (X : is_Some (dm t !! (nx s + 4)%nat)) by (rewrite (pr_dm _ _ _ _ _ _ HP), lookup_insert; done).
  assert (Q : same_heap t t' -> (forall b, b <> (nx s + 4)%nat -> dm t' !! b = dm t !! b) /\ is_Some (dm t' !! (nx s + 4)%nat) /\ om t' = om t /\ pm t' = pm t /\ im t' = im t).
  { intros (E1 & E2 & E3 & E4). rewrite E1. done. }
  change 1 with (Z.of_nat 1) in E.
  destruct (grants_dec t 5) as [HG|HG].
  - destruct (l1qc_dct_outcome fft1 fft2 fft1_len fft2_len t m 1 _ _ ms _ _ bs _ _ _ st lb t' HD HG (HC t (pr_en _ _ _ _ _ _ HP) (pr_nx _ _ _ _ _ _ HP)) E) as [(_ & _ & HH)|[(r & _ & _ & _ & HH)|(_ & r & eta & _ & _ & _ & _ & E1 & E2 & E3 & E4)]]; [by apply Q..|].
    rewrite E1, E2, E3, E4. cbn [wr set_dm dm]. split; [intros b Hb; by rewrite lookup_alter_ne|]. split; [|done]. rewrite lookup_alter. destruct X as [c ->]. done.
  - destruct (l1qc_dct_1d_setup_releases fft1 fft2 t (Z.of_nat m) (Z.of_nat 1) (Ptr (nx s + 4) 0) (Ptr (nx s + 2) 0) (Ptr (nx s + 3) 0) ms (example_opts (example_verbose atoi args)) (dct_call_accepted _ _ _ _ _ _ _ _ _ _ _ HD)) as (t2 & E2 & HH).
    + unfold one_d. cbn. by rewrite orb_true_r.
    + done.
    + rewrite (pr_gl _ _ _ _ _ _ HP). apply HB.
    + rewrite (pr_gl _ _ _ _ _ _ HP). apply HB.
    + pose proof (eq_trans (eq_sym E) E2) as W. injection W as _ _ <-. by apply Q.
Qed.

(** Whenever the program ends, everything it allocated was released, and the exit status depends on its own
    first five requests only: what l1qc_dct reports is not in it. *)
Theorem example_outcome s args bs ms m r s' : begins s -> holds_data args bs ms m -> makes_sense bs ms m -> no_overflow s args bs ms m ->
  main args s = Ok r s' -> same_heap s s' /\ r = exit_status s.
Proof.
  intros HB HD HS HC E. assert (Hne : ms <> []) by (destruct HS as [_ Hn _ _]; destruct ms; simpl in Hn; [lia|done]).
  unfold exit_status.
  destruct (main_cases s args bs ms m HB HD Hne) as [(A0 & s1 & E1 & HH)|[(A0 & A1 & s1 & E1 & HH)|[(A0 & A1 & A3 & E1)|[(A0 & A1 & A2 & A3 & s1 & E1 & HH)|[(A0 & A1 & A2 & A3 & A4 & s1 & E1 & HH)|(HA & t & HP & E1)]]]]].
  - rewrite E1 in E. injection E as <- <-. split; [done|]. by rewrite A0.
  - rewrite E1 in E. injection E as <- <-. split; [done|]. by rewrite A0, A1.
  - rewrite E1 in E. discriminate E.
  - rewrite E1 in E. injection E as <- <-. split; [done|]. by rewrite A0, A1, A2.
  - rewrite E1 in E. injection E as <- <-. split; [done|]. by rewrite A0, A1, A2, A4.
  - rewrite !HA by lia. rewrite E1 in E. unfold bind at 1 in E. destruct (solve args m (length ms) s t) as [r1 t1|e] eqn:ES; [|discriminate E]. cbv beta iota in E.
    destruct (solve_keeps _ _ _ _ _ _ _ _ HB HS HC HP ES) as (K1 & K2 & K3 & K4 & K5). destruct HP as [Pd Pi Pp Po Pg Pe Pn Pa].
    destruct (exit_run s (Ptr (nx s + 4) 0) (Ptr (nx s + 2) 0) (Ptr (nx s + 3) 0) 0 t1 HB) as (s2 & E2 & HH).
    + rewrite K5, Pi, lookup_insert_ne, lookup_insert by lia. done.
    + right. done.
    + right. split; [done|]. rewrite K1, Pd, lookup_insert_ne, lookup_insert by lia. done.
    + right. split; [done|]. rewrite K5, Pi, lookup_insert. done.
    + intros b [Hb|Hb] [Hb'|Hb']; try done. rewrite K1, Pd, !lookup_insert_ne by done. done.
    + intros b Hb [Hb'|Hb']; [|done]. rewrite K5, Pi, !lookup_insert_ne by done. done.
    + by rewrite K4.
    + by rewrite K3.
    + pose proof (eq_trans (eq_sym E) E2) as W. injection W as -> ->. done.
Qed.
(** ** refused requests *)
(** a refused index array is not noticed *)
Theorem example_indices_refused_undefined s args bs ms m : begins s -> holds_data args bs ms m -> ms <> [] ->
  ok s 0 = true -> ok s 1 = true -> ok s 3 = false -> main args s = Ub UbOob.
Proof.
  intros HB HD Hne A0 A1 A3.
  destruct (main_cases s args bs ms m HB HD Hne) as [(B0 & _)|[(_ & B1 & _)|[(_ & _ & _ & E1)|[(_ & _ & _ & B3 & _)|[(_ & _ & _ & B3 & _)|(HA & _)]]]]]; try congruence.
  rewrite HA in A3 by lia. done.
Qed.
(** the solver is refused its first array: it reports L1C_DCT_INIT_FAILURE, and the program ends with status 0 *)
Theorem example_solver_failure_unreported s args bs ms m : begins s -> holds_data args bs ms m -> makes_sense bs ms m ->
  (forall i, (i < 5)%nat -> ok s i = true) -> ok s 5 = false ->
  exists t t' s', prepared s args bs ms m t /\ solve args m (length ms) s t = Ok (L1C_DCT_INIT_FAILURE, None) t' /\ main args s = Ok 0 s' /\ same_heap s s'.
Proof.
  intros HB HD HS HA A5. assert (Hne : ms <> []) by (destruct HS as [_ Hn _ _]; destruct ms; simpl in Hn; [lia|done]).
  destruct (main_cases s args bs ms m HB HD Hne) as [(B & _)|[(_ & B & _)|[(_ & _ & B & _)|[(_ & _ & B & _)|[(_ & _ & _ & _ & B & _)|(_ & t & HP & E1)]]]]]; try (rewrite HA in B by lia; discriminate B).
  pose proof (prepared_call _ _ _ _ _ _ HB HS HP) as HC.
  assert (HG : ~ grants t 5). { intros G. specialize (G 0%nat ltac:(lia)). rewrite (pr_en _ _ _ _ _ _ HP), (pr_nx _ _ _ _ _ _ HP), Nat.add_0_r in G. congruence. }
  destruct (l1qc_dct_1d_setup_releases fft1 fft2 t (Z.of_nat m) (Z.of_nat 1) (Ptr (nx s + 4) 0) (Ptr (nx s + 2) 0) (Ptr (nx s + 3) 0) ms (example_opts (example_verbose atoi args)) (dct_call_accepted _ _ _ _ _ _ _ _ _ _ _ HC)) as (t2 & E2 & K1 & K3 & K4 & K5).
  { unfold one_d. cbn. by rewrite orb_true_r. } { done. } { rewrite (pr_gl _ _ _ _ _ _ HP). apply HB. } { rewrite (pr_gl _ _ _ _ _ _ HP). apply HB. }
  exists t, t2. change (Z.of_nat 1) with 1 in E2. rewrite E1. unfold bind at 1. rewrite E2. cbv beta iota. destruct HP as [Pd Pi Pp Po Pg Pe Pn Pa].
  destruct (exit_run s (Ptr (nx s + 4) 0) (Ptr (nx s + 2) 0) (Ptr (nx s + 3) 0) 0 t2 HB) as (s2 & E3 & HH).
  + rewrite K5, Pi, lookup_insert_ne, lookup_insert by lia. done.
  + right. split; [done|]. rewrite K1, Pd, lookup_insert. done.
  + right. split; [done|]. rewrite K1, Pd, lookup_insert_ne, lookup_insert by lia. done.
  + right. split; [done|]. rewrite K5, Pi, lookup_insert. done.
  + intros b [Hb|Hb] [Hb'|Hb']; try done. rewrite K1, Pd, !lookup_insert_ne by done. done.
  + intros b Hb [Hb'|Hb']; [|done]. rewrite K5, Pi, !lookup_insert_ne by done. done.
  + by rewrite K4.
  + by rewrite K3.
  + exists s2. done.
Qed.

(** ** a file that cannot be used *)
(** no such file: everything is released, and the status says so *)
Theorem example_no_file s args : begins s -> files (example_file args) = None -> ok s 0 = true ->
  exists s', main args s = Ok L1C_FILE_READ_FAILURE s' /\ same_heap s s'.
Proof.
  intros HB Ef A0. pose proof (begins_lookup s 0 HB) as [D0 I0]. rewrite Nat.add_0_r in D0, I0, A0.
  unfold example_main. unfold bind at 1. rewrite (copy_name_run _ s I0), A0. cbv beta iota. cbn [is_null]. unfold example_work.
  unfold bind at 1 2. rewrite (load_no_file files parse _ None _ Ef). cbv beta iota. change (negb (1 =? 0)) with true. cbv iota. unfold ret at 1. cbv beta iota.
  apply exit_run; try done; try (by left).
  - cbn. by rewrite lookup_insert.
  - intros b Hb _. cbn. by rewrite lookup_insert_ne.
Qed.
(** a file without JSON: one for each of the three members that are then not found, and one more *)
Theorem example_no_json s args bytes (tx : list Z) : begins s -> files (example_file args) = Some bytes -> 0 < Z.of_nat (length bytes) < INT_MAX -> is_text bytes tx -> parse tx = None ->
  ok s 0 = true -> ok s 1 = true -> exists s', main args s = Ok 4 s' /\ same_heap s s'.
Proof.
  intros HB Ef Hl Ht Ep A0 A1. pose proof (begins_lookup s 0 HB) as [D0 I0]. rewrite Nat.add_0_r in D0, I0, A0.
  unfold example_main. unfold bind at 1. rewrite (copy_name_run _ s I0), A0. cbv beta iota. cbn [is_null]. unfold example_work.
  set (s1 := tick (set_im <[nx s := codes (example_file args) ++ [0]]> s)). assert (E1 : nx s1 = (nx s + 1)%nat) by (cbn; lia).
  assert (R1 := load_run files parse (example_file args) None s1 bytes (length bytes) tx Ef ltac:(unfold file_len; rewrite int_of_nat by lia; done) Hl ltac:(lia)).
  rewrite take_ge in R1 by lia. rewrite E1 in R1. specialize (R1 Ht A1 ltac:(cbn; rewrite lookup_insert_ne by lia; apply (begins_lookup s 1 HB))).
  unfold bind at 1 2. rewrite R1. cbv beta iota. change (negb (0 =? 0)) with false. cbv iota. rewrite Ep.
  set (s2 := tick s1). assert (E2 : nx s2 = (nx s + 2)%nat) by (cbn; lia).
  unfold extract_json_double_array, extract_json_int_array, extract_json_int, bind at 1 2 3 4, ret at 1 2 3, l1c_malloc_double, alloc_d. cbv beta iota zeta.
  change (negb (1 + 1 + 1 =? 0)) with true. cbn [orb]. change (0 <=? 0) with true. cbn [andb]. rewrite E2.
  assert (Hc : im s2 !! nx s = Some (codes (example_file args) ++ [0])) by (cbn; by rewrite lookup_insert).
  assert (Hd : delete (nx s) (im s2) = im s) by (cbn; by apply delete_insert).
  destruct (alloc_ok (en s2) (nx s + 2)).
  - set (t := tick _). unfold bind, ret. cbn [free_i]. change (0 =? 0) with true. cbv iota. change (im t) with (im s2). rewrite Hc. unfold l1c_free_double. cbn [free_d].
    change (0 =? 0) with true. cbv iota. cbn [dm set_im t tick set_al set_dm]. rewrite lookup_insert. eexists. split; [reflexivity|].
    split; [|split; [done|split; [done|]]]; cbn [dm im set_dm set_im]; [apply delete_insert; apply (begins_lookup s 2 HB)|exact Hd].
  - unfold bind, ret. cbn [free_i]. change (0 =? 0) with true. cbv iota. change (im (tick s2)) with (im s2). rewrite Hc. eexists. split; [reflexivity|]. split; [done|split; [done|split; [done|exact Hd]]].
Qed.

(** ** fewer measurements than indices *)
Lemma dcopy_short s n bb (c : list T) d : dm s !! bb = Some (Some <$> c) -> (length c < n)%nat -> wok s (Ptr d 0) n -> d <> bb ->
  cblas_dcopy (Z.of_nat n) (Ptr bb 0) (Ptr d 0) s = Ub UbOob.
Proof.
  intros Eb Hn Hw Hd. unfold cblas_dcopy, for_. rewrite Z.sub_0_r, Nat2Z.id. set (body := fun i => _).
  enough (G : forall k i t, (i + k = n)%nat -> (i <= length c)%nat -> dm t !! bb = Some (Some <$> c) -> wok t (Ptr d 0) n -> forn k (Z.of_nat i) body t = Ub UbOob).
  { apply (G n 0%nat s); [done|lia|done|done]. }
  intros k. induction k as [|k IH]; intros i t Hik Hic Et Wt; [lia|]. cbn [forn].
  assert (Cl : forall u, dm u !! bb = Some (Some <$> c) -> cell u (Ptr bb 0) (Z.of_nat i) = Some <$> c !! i).
  { intros u Eu. unfold cell. rewrite Z.add_0_l, (proj2 (Z.leb_le _ _)) by lia. rewrite Eu, Nat2Z.id. by rewrite list_lookup_fmap. }
  destruct (c !! i) as [v|] eqn:Ei.
  - rewrite (bind_ok _ _ _ tt (wr (padd (Ptr d 0) (Z.of_nat i)) [v] t)).
    2:{ unfold body. rewrite (bind_ok _ _ _ v t) by (unfold ld; rewrite Cl by done; done). unfold sto. destruct (Wt i ltac:(lia)) as [w ->]. done. }
    replace (Z.of_nat i + 1) with (Z.of_nat (S i)) by lia. apply IH; [lia|apply lookup_lt_Some in Ei; lia| |].
    + cbn. by rewrite lookup_alter_ne.
    + apply wok_wr; [|done]. intros j Hj. assert (j = 0)%nat as -> by (simpl in Hj; lia). destruct (Wt i ltac:(lia)) as [w Ew]. exists w. rewrite <- Ew. unfold cell. cbn [padd]. replace (0 + Z.of_nat i + Z.of_nat 0) with (0 + Z.of_nat i) by lia. done.
  - apply bind_ub. unfold body. apply bind_ub. unfold ld. rewrite Cl by done. done.
Qed.
Lemma l1qc_dct_short s nr nc mb mo ms bb (bs : list T) bx ox opts : accepted s (Z.of_nat nr) (Z.of_nat nc) (Ptr mb mo) ms ->
  dm s !! bb = Some (Some <$> bs) -> (length bs < length ms)%nat -> grants s 7 ->
  l1qc_dct fft1 fft2 (Z.of_nat nr) (Z.of_nat nc) (Ptr bx ox) (Z.of_nat (length ms)) (Ptr bb 0) (Ptr mb mo) opts s = Ub UbOob.
Proof.
  intros HA Ebb Lb HG. pose proof HA as [Hu Hr Hc Hi Hn Hp Hin]. set (m := (nr * nc)%nat). set (n := length ms) in *. set (k := nx s).
  assert (Hbb : (bb < nx s)%nat). { destruct (decide (bb < nx s)%nat) as [|H]; [done|]. destruct (Hu bb ltac:(lia)) as [Q _]. congruence. }
  destruct (started_exists s nr nc (lo_dct_mode opts) mb mo ms ax_local Hu Hp ltac:(lia) ltac:(lia) ltac:(lia) ltac:(lia) ltac:(intros j Hj; specialize (Hin j Hj); lia) ltac:(intros i H'; apply HG; lia)) as (ax & s1 & Es & Hst).
  pose proof (started_inv _ _ _ _ _ _ _ _ _ Hst) as Hf. pose proof (sf_led _ _ _ _ _ _ _ _ _ Hf) as L1. pose proof (sf_nx _ _ _ _ _ _ _ _ _ Hf) as N1. fold k in N1.
  destruct (started_ready fft1 fft2 fft1_len fft2_len s nr nc (lo_dct_mode opts) mb mo ms ax s1 Hst) as (J & HJ1 & HX).
  assert (Hu1 : unborn s1) by (eapply ledger_unborn; [exact Hu|exact L1]).
  unfold l1qc_dct.
  rewrite (bind_ok _ _ _ (Z.of_nat m) s) by (rewrite i32_ok; [by rewrite <- Nat2Z.inj_mul|unfold INT_MIN, INT_MAX in *; unfold m in *; lia]).
  rewrite (bind_ok _ _ _ _ _ Es). cbv beta iota.
  pose proof (xr_set _ _ _ _ _ _ _ _ _ _ _ HX) as HS.
  rewrite (bind_ok _ _ _ false s1).
  2:{ rewrite !orelse_ff; [apply not_set_fn|apply not_set_fn|apply not_set_fn|apply not_set_fn|done]; apply HS; isin. }
  cbv beta iota. clear HS Es.
  destruct (calloc_own [] [] s1 s1 (Z.of_nat m) Hu1 (acct_nil s1)) as (p1 & s2 & E2 & A2 & G2 & P2 & O2 & N2).
  rewrite (bind_ok _ _ _ _ _ E2). clear E2.
  destruct (malloc_acct [] _ s1 s2 (Z.of_nat n) Hu1 A2) as (p2 & s3 & E3 & A3 & G3 & P3 & O3 & N3).
  rewrite (bind_ok _ _ _ _ _ E3). clear E3 A2. cbn [app] in A3.
  destruct A3 as [L3 Hent _ Hold]. apply Forall_cons_1 in Hent as [Ent1 Hent]. apply Forall_cons_1 in Hent as [Ent2 _].
  unfold ent_ok in Ent1, Ent2. cbn [e_p e_b e_n e_c] in Ent1, Ent2. rewrite Nat2Z.id in Ent1, Ent2.
  rewrite (lg_en _ _ _ _ L1), N2, N1 in *. fold k in Ent1, Ent2. rewrite ?N1 in Ent1, Ent2.
  pose proof (HG 5%nat ltac:(lia)) as Q5. pose proof (HG 6%nat ltac:(lia)) as Q6. fold k in Q5, Q6.
  destruct Ent1 as [(-> & _ & _ & D1 & Al1)|(_ & [?|Q])]; [|lia|congruence].
  replace (S (k + 5)) with (k + 6)%nat in * by lia.
  destruct Ent2 as [(-> & _ & _ & D2 & Al2)|(_ & [?|Q])]; [|lia|congruence].
  cbn [is_null orb].
  apply bind_ub, bind_ub. eapply dcopy_short; [|exact Lb| |].
  - rewrite Hold by lia. rewrite (lg_dm _ _ _ _ L1); [exact Ebb|apply not_elem_of_nil|]. intros Hx. apply (lg_own _ _ _ _ L1) in Hx. lia.
  - eapply wok_block; [exact D2|]. rewrite replicate_length. lia.
  - unfold k. lia.
Qed.
(** an array "b" that is shorter than "pix_idx" is read past its end *)
Theorem example_short_b_undefined s args bs ms m : begins s -> holds_data args bs ms m -> (length bs < length ms)%nat ->
  (1 <= m)%nat -> (forall k, k ∈ ms -> (k < m)%nat) -> Z.of_nat m <= INT_MAX -> (forall i, (i < 12)%nat -> ok s i = true) -> main args s = Ub UbOob.
Proof.
  intros HB HD Lb Hm Hin Hf HA. assert (Hne : ms <> []) by (destruct ms; simpl in Lb; [lia|done]).
  destruct (main_cases s args bs ms m HB HD Hne) as [(B & _)|[(_ & B & _)|[(_ & _ & B & _)|[(_ & _ & B & _)|[(_ & _ & _ & _ & B & _)|(_ & t & HP & E1)]]]]]; try (rewrite HA in B by lia; discriminate B).
  rewrite E1. apply bind_ub. change 1 with (Z.of_nat 1). destruct HP as [Pd Pi Pp Po Pg Pe Pn Pa]. destruct HB as [Hu Hi _ _].
  apply l1qc_dct_short with bs; [split|..].
  - intros b Hb. rewrite Pn in Hb. rewrite Pd, Pp, Po, !lookup_insert_ne by lia. apply Hu. lia.
  - lia.
  - lia.
  - lia.
  - lia.
  - intros i k Hk. unfold ldi. rewrite Z.add_0_l, (proj2 (Z.leb_le _ _)) by lia. rewrite Pi, lookup_insert, Nat2Z.id, list_lookup_fmap, Hk. done.
  - intros k Hk. specialize (Hin k Hk). lia.
  - rewrite Pd, lookup_insert_ne, lookup_insert by lia. done.
  - done.
  - intros i Hi'. rewrite Pe, Pn, <- Nat.add_assoc. apply HA. lia.
Qed.
End prog.

(** ** in exact arithmetic *)
Section exact.
Local Open Scope R_scope.
Context (fft1 : fkind -> list er -> list er) (fft2 : fkind -> nat -> nat -> list er -> list er).
Context (files : string -> option (list Z)) (parse : list Z -> option (@json ER)) (atoi : string -> Z).
Hypothesis fft1_len : forall k xs, length (fft1 k xs) = length xs.
Hypothesis fft2_len : forall k nr nc xs, length xs = (nr * nc)%nat -> length (fft2 k nr nc xs) = (nr * nc)%nat.
Hypothesis fft1_exact : forall k (x : list R), fft1 k (fin x) = fin (dft1 k x).
Hypothesis fft2_exact : forall k nr nc (x : list R), length x = (nr * nc)%nat -> fft2 k nr nc (fin x) = fin (dft2 k nr nc x).
Notation opts args := (@example_opts ER (@example_verbose atoi args)).

Lemma ln_mono x y : 0 < x -> x <= y -> ln x <= ln y.
Proof. intros H [Hl| ->]; [left; by apply ln_increasing|lra]. Qed.
Lemma ln_pow10 k : ln (10 ^ k) = INR k * ln 10.
Proof. apply ln_pow. lra. Qed.
Lemma two_ten : 2 ^ 1110 <= 10 ^ 444.
Proof. replace 1110%nat with (10 * 111)%nat by done. replace 444%nat with (4 * 111)%nat by done. rewrite !pow_mult. apply pow_incr. split; [apply pow_le; lra|]. simpl. lra. Qed.
(** the program's tolerance and factor lead to at most 13 barrier stages, if the starting point is not as good
    as zero (every positive double is at least 2^-1074) *)
Lemma example_stages m (x : list R) v : length x = m -> (2 * Z.of_nat m + 1 <= INT_MAX)%Z -> / 2 ^ 1074 <= nrm1 x ->
  exists tau stages, @starts ER m (fin x) (@example_opts ER v) tau stages /\ (stages <= 13)%Z.
Proof.
  intros Lx Hm Hx. assert (P : 0 < / 2 ^ 1074) by (apply Rinv_0_lt_compat, pow_lt; lra).
  assert (Hne : exists i, nth i x 0 <> 0).
  { destruct (Classical_Prop.classic (exists i, nth i x 0 <> 0)) as [|Hz]; [done|]. exfalso. assert (nrm1 x = 0); [|lra]. unfold nrm1. apply Rsum_0. intros i _.
    destruct (Req_dec (nth i x 0) 0) as [->|Hi]; [apply Rabs_R0|]. exfalso. apply Hz. by exists i. }
  unfold starts, n_init. change (lo_lbiter (@example_opts ER v)) with 0%Z. cbn [Z.eqb].
  replace (lo_lbtol (@example_opts ER v)) with (Fin (1 / 1000)) by done. replace (lo_mu (@example_opts ER v)) with (Fin 10) by (cbn; f_equal; lra).
  rewrite (stages_ER m x (1 / 1000) 10 Lx Hne ltac:(lra) ltac:(lra)). cbv zeta.
  set (t0 := Rmax _ 1). set (y := (_ / ln 10)).
  assert (L10 : 0 < ln 10) by (rewrite <- ln_1; apply ln_increasing; lra).
  assert (M1 : 1 <= 2 * INR m + 1 <= 2 ^ 31). { pose proof (pos_INR m). split; [lra|]. unfold INT_MAX in Hm. apply IZR_le in Hm. rewrite plus_IZR, mult_IZR, <- INR_IZR_INZ in Hm. change (2^31-1)%Z with 2147483647%Z in Hm. simpl. lra. }
  assert (T1 : 1 <= t0) by apply Rmax_r.
  assert (B31 : 2 ^ 31 <= 10 ^ 10) by (simpl; lra).
  assert (L1 : ln (2 * INR m + 1) <= 10 * ln 10).
  { replace 10 with (INR 10) at 1 by (simpl; lra). rewrite <- ln_pow10. apply ln_mono; lra. }
  assert (L0 : 0 <= ln (2 * INR m + 1)) by (rewrite <- ln_1; apply ln_mono; lra).
  assert (L3 : ln (1 / 1000) = - (3 * ln 10)). { replace (1 / 1000) with (/ 10 ^ 3) by (simpl; lra). rewrite ln_Rinv by (simpl; lra). rewrite ln_pow10. simpl. lra. }
  assert (LT0 : 0 <= ln t0) by (rewrite <- ln_1; apply ln_mono; lra).
  assert (LT1 : ln t0 <= 444 * ln 10).
  { replace 444 with (INR 444) at 1 by (rewrite INR_IZR_INZ; f_equal). rewrite <- ln_pow10. apply ln_mono; [lra|]. apply Rmax_lub.
    - apply Rle_trans with (2 ^ 31 * 2 ^ 1074).
      + unfold Rdiv. apply Rmult_le_compat; [lra|left; apply Rinv_0_lt_compat; lra|lra|]. rewrite <- (Rinv_inv (2 ^ 1074)). apply Rinv_le_contravar; lra.
      + rewrite <- pow_add. apply Rle_trans with (2 ^ 1110); [apply Rle_pow; [lra|]; apply Nat.leb_le; vm_compute; done|apply two_ten].
    - apply pow_R1_Rle. lra. }
  assert (Y : y * ln 10 = ln (2 * INR m + 1) - ln (1 / 1000) - ln t0) by (unfold y; field; lra).
  assert (Y1 : y <= 13) by nra. assert (Y2 : -444 <= y) by nra.
  assert (C1 : (Zceil y <= 13)%Z) by (by apply Zceil_glb).
  assert (C2 : (-444 <= Zceil y)%Z). { apply le_IZR. pose proof (Zceil_ub y). lra. }
  exists (@n_tau0 ER m (fin x)), (Zceil y). split; [|done].
  assert (in_int (Zceil y) = true) as -> by (unfold in_int, INT_MIN, INT_MAX; apply andb_true_intro; split; apply Z.leb_le; lia). done.
Qed.

(** the starting point is a list of numbers, and its l1 norm at least the size of any measurement *)
Lemma example_start (t : @st ER) (bv : list R) ms m o : @planner_finite t -> (1 <= m)%nat -> NoDup ms -> (forall k, k ∈ ms -> (k < m)%nat) -> length bv = length ms ->
  exists x0, length x0 = m /\ @start ER fft1 fft2 t m 1 o ms (fin bv) = fin x0 /\ forall i, Rabs (nth i bv 0) <= nrm1 x0.
Proof.
  intros HP Hm ND Hin Lb. destruct (planner_list t (m * 1) HP) as (w & Lw & Ew).
  exists (xf_fwd (Z.of_nat m) (Z.of_nat 1) (lo_dct_mode o) (@scatter RN ms (@at_ RN bv) w)). split; [|split].
  - rewrite (proj2 (xf_len m 1 _ _)). lia.
  - unfold start. apply (fAt_fin fft1 fft2 fft1_exact fft2_exact m 1 Hm ltac:(lia) (lo_dct_mode o) t ms w bv Lw Ew).
  - intros i. destruct (Nat.lt_ge_cases i (length bv)) as [Hi|Hi].
    2:{ rewrite nth_overflow by done. rewrite Rabs_R0. apply Rle_trans with (2 := nrm2_1 _). apply sqrt_pos. }
    apply Rle_trans with (2 := nrm2_1 _). unfold nrm2. rewrite xf_iso; [|done|lia|].
    2:{ change (@length (@T RN) (@scatter RN ms (@at_ RN bv) w) = (m * 1)%nat). rewrite (@scatter_len RN). exact Lw. }
    pose proof (coord_nrm2 (@scatter RN ms (@at_ RN bv) w) (nth i ms 0%nat)) as H. rewrite <- at_RN in H.
    rewrite (@scatter_in RN) in H; [rewrite at_RN in H; exact H|done|lia|].
    change (nth i ms 0 < @length R w)%nat. rewrite Lw, Nat.mul_1_r. apply Hin. apply elem_of_list_In, nth_In. lia.
Qed.
(** at least one measurement is a nonzero double *)
Definition some_signal (bv : list R) : Prop := exists i, / 2 ^ 1074 <= Rabs (nth i bv 0).
(** the scratch memory of the FFT planner has numbers in it *)
Definition planner_ok (s : @st ER) : Prop := forall j, exists r, scrib (en s) (nx s + 8) 0 j = Fin r.

Lemma planner_ok_finite s (t : @st ER) : planner_ok s -> en t = en s -> nx t = (nx s + 5)%nat -> planner_finite t.
Proof. intros H E1 E2 j. rewrite E1, E2. replace (nx s + 5 + 3)%nat with (nx s + 8)%nat by lia. apply H. Qed.
(** the solver's int counters stay far from overflow *)
Theorem example_never_overflows (s : @st ER) args (bv : list R) ms m : @makes_sense ER (fin bv) ms m -> NoDup ms -> planner_ok s -> some_signal bv ->
  @no_overflow ER fft1 fft2 atoi s args (fin bv) ms m.
Proof.
  intros [H1 H2 H3 H4] ND HP [i Hi] t E1 E2 tau stages Hs. rewrite fin_length in H1.
  destruct (example_start t bv ms m (opts args) (planner_ok_finite s t HP E1 E2) ltac:(lia) ND H3 H1) as (x0 & L0 & E0 & B0).
  destruct (example_stages m x0 (@example_verbose atoi args) L0 H4) as (tau' & st' & Hs' & B); [specialize (B0 i); lra|].
  rewrite E0, Nat.mul_1_r in Hs. unfold starts in Hs, Hs'. pose proof (eq_trans (eq_sym Hs) Hs') as W. injection W as -> ->.
  unfold counts_fit, n_fuel, cgm, INT_MAX. cbn [example_opts lo_cg_maxiter lo_newton_max_iter]. change (Z.of_nat (Z.to_nat (50 - 1))) with 49%Z. change (Z.abs 200) with 200%Z. change (2 ^ 31)%Z with 2147483648%Z. lia.
Qed.
(** With all memory granted the program ends with status 0 and has released everything, and before that x held
    an image that reproduces the measurements to 1/10 in the 2-norm. *)
Theorem example_recovers (s : @st ER) args (bv : list R) ms m : begins s -> @holds_data ER files parse args (fin bv) ms m -> @makes_sense ER (fin bv) ms m -> NoDup ms ->
  (forall i, alloc_ok (en s) i = true) -> planner_ok s -> some_signal bv ->
  exists s1 r s2 img s', @prepared ER s args (fin bv) ms m s1 /\
    @l1qc_dct ER fft1 fft2 (Z.of_nat m) 1 (Ptr (nx s + 4) 0) (Z.of_nat (length ms)) (Ptr (nx s + 2) 0) (Ptr (nx s + 3) 0) (opts args) s1 = Ok (0%Z, Some r) s2 /\
    length img = m /\ seg s2 (Ptr (nx s + 4) 0) (fin img) /\ nrm2 (resid (sample ms) bv img) < 1 / 10 /\
    @example_main ER fft1 fft2 files parse atoi args s = Ok 0%Z s' /\ same_heap s s'.
Proof.
  intros HB HD HS ND HA HP Hsig. assert (Hne : ms <> []) by (destruct HS as [_ Hn _ _]; destruct ms; simpl in Hn; [lia|done]).
  pose proof (example_never_overflows s args bv ms m HS ND HP Hsig) as HO.
  destruct (@main_cases ER fft1 fft2 files parse atoi s args (fin bv) ms m HB HD Hne) as [(B & _)|[(_ & B & _)|[(_ & _ & B & _)|[(_ & _ & B & _)|[(_ & _ & _ & _ & B & _)|(_ & t & HPr & E1)]]]]]; try (rewrite HA in B; discriminate B).
  pose proof (prepared_call _ _ _ _ _ _ HB HS HPr) as HC. pose proof (pr_en _ _ _ _ _ _ HPr) as Pe. pose proof (pr_nx _ _ _ _ _ _ HPr) as Pn.
  pose proof (planner_ok_finite s t HP Pe Pn) as HPf. pose proof HS as [H1 H2 H3 H4]. rewrite fin_length in H1.
  destruct (example_start t bv ms m (opts args) HPf ltac:(lia) ND H3 H1) as (x0 & L0 & E0 & B0). destruct Hsig as [i Hi].
  destruct (example_stages m x0 (@example_verbose atoi args) L0 H4) as (tau & stg & Hs & B); [specialize (B0 i); lra|].
  assert (Hs' : @starts ER (m * 1) (@start ER fft1 fft2 t m 1 (opts args) ms (fin bv)) (opts args) tau stg) by (rewrite E0, Nat.mul_1_r; exact Hs).
  destruct (l1qc_dct_reproduces_measurements fft1 fft2 fft1_len fft2_len fft1_exact fft2_exact t m 1 _ _ ms _ _ bv _ _ (opts args) (1 / 10) tau stg HC) as (r & t2 & img & E2 & Li & HH & F1 & F2 & _); try done; try lra.
  { by rewrite Pe. } { exact (HO t Pe Pn tau stg Hs'). }
  rewrite Nat.mul_1_r in Li. change (Z.of_nat 1) with 1%Z in E2.
  destruct (@example_main ER fft1 fft2 files parse atoi args s) as [st s'|e] eqn:EM.
  - destruct (@example_outcome ER fft1 fft2 files parse atoi fft1_len fft2_len s args (fin bv) ms m st s' HB HD HS HO EM) as [HH' ->].
    exists t, r, t2, img, s'. split; [done|]. split; [exact E2|]. split; [done|]. split; [|split; [apply F2; lra|split; [|done]]].
    + destruct HH as (HH & _). intros j v Hj. unfold cell. rewrite HH. pose proof (seg_wr t (Ptr (nx s + 4) 0) (fin img)) as W. unfold seg, cell in W. apply W; [|done].
      rewrite fin_length, Li, <- (Nat.mul_1_r m). apply HC.
    + unfold exit_status. rewrite !HA. done.
  - exfalso. unfold bind at 1 in E1. rewrite E2 in E1. cbv beta iota in E1.
    destruct (@solve_keeps ER fft1 fft2 atoi fft1_len fft2_len s args (fin bv) ms m t _ _ HB HS HO HPr E2) as (K1 & K2 & K3 & K4 & K5). destruct HPr as [Pd Pi Pp Po Pg _ _ Pa].
    destruct (@exit_run ER s (Ptr (nx s + 4) 0) (Ptr (nx s + 2) 0) (Ptr (nx s + 3) 0) 0 t2 HB) as (s2 & E3 & _).
    + rewrite K5, Pi, lookup_insert_ne, lookup_insert by lia. done.
    + right. done.
    + right. split; [done|]. rewrite K1, Pd, lookup_insert_ne, lookup_insert by lia. done.
    + right. split; [done|]. rewrite K5, Pi, lookup_insert. done.
    + intros b [Hb|Hb] [Hb'|Hb']; try done. rewrite K1, Pd, !lookup_insert_ne by done. done.
    + intros b Hb [Hb'|Hb']; [|done]. rewrite K5, Pi, !lookup_insert_ne by done. done.
    + by rewrite K4.
    + by rewrite K3.
    + pose proof (eq_trans E1 E3) as W. discriminate W.
Qed.
End exact.

(** ** Concrete cases: three pixels, of which the first and the last were measured *)
Module ExampleEx.
Notation f1 := L1qcEx.f1. Notation f2 := L1qcEx.f2. Notation f1_len := L1qcEx.f1_len. Notation f2_len := L1qcEx.f2_len. Notation f1_exact := L1qcEx.f1_exact. Notation f2_exact := L1qcEx.f2_exact.
Notation stE := (@st ER).
Definition s0 (e : @env ER) : stE := mkSt ∅ ∅ ∅ ∅ (fun _ => false) 0 e glob0.
Definition all : @env ER := @mkEnv ER (fun _ => true) (fun _ => false) (fun _ _ _ => Fin 0).
Definition only (f : nat -> bool) : @env ER := @mkEnv ER f (fun _ => false) (fun _ _ _ => Fin 0).
Definition num (z : Z) : @json ER := @JNum ER (Fin (IZR z)).
Definition tree (b : list (@json ER)) : @json ER := JObj [("mtot", num 3); ("b", JArr b); ("pix_idx", JArr [num 0; num 2])].
Definition files (f : string) : option (list Z) := if String.eqb f "x.json" then Some [123; 125] else if String.eqb f "short.json" then Some [123] else if String.eqb f "bad.json" then Some [55] else None.
Definition parse (x : list Z) : option (@json ER) :=
  if bool_decide (x = [123; 125]) then Some (tree [num 1; num 2]) else if bool_decide (x = [123]) then Some (tree [num 1]) else None.
Definition atoi (_ : string) : Z := 1.
Lemma starts_here e : begins (s0 e). Proof. split; [intros b _; done|done|done|done]. Qed.
Lemma int_of (z : Z) (s : stE) : (0 <= z < 100)%Z -> valueint (num z) s = Ok z s.
Proof.
  intros H. unfold valueint, num. rewrite !ofZ_ER. cbn [leb_ ER er_leb]. assert (0 <= IZR z < 100)%R by (split; [apply IZR_le; lia|apply IZR_lt; lia]).
  unfold Rleb. unfold INT_MAX, INT_MIN. destruct (Rle_dec _ _) as [Q|_]; [exfalso; change (2^31-1)%Z with 2147483647%Z in Q; lra|]. destruct (Rle_dec _ _) as [Q|_]; [exfalso; change (-2^31)%Z with (-2147483648)%Z in Q; lra|].
  unfold cast_int. cbn [toint ER er_toint]. rewrite Ztrunc_IZR. assert (in_int z = true) as -> by (unfold in_int, INT_MIN, INT_MAX; apply andb_true_intro; split; apply Z.leb_le; lia). done.
Qed.
Lemma mem_b b : member (tree b) "b" (JArr b). Proof. exists [("mtot", num 3)], [("pix_idx", JArr [num 0; num 2])]. split; [done|]. apply (bool_decide_unpack _). vm_compute. done. Qed.
Lemma mem_p b : member (tree b) "pix_idx" (JArr [num 0; num 2]). Proof. exists [("mtot", num 3); ("b", JArr b)], []. split; [done|]. apply (bool_decide_unpack _). vm_compute. done. Qed.
Lemma mem_m b : member (tree b) "mtot" (num 3). Proof. exists [], [("b", JArr b); ("pix_idx", JArr [num 0; num 2])]. split; [done|]. apply not_elem_of_nil. Qed.
Lemma tree_holds f bytes b bv : files f = Some bytes -> (0 < Z.of_nat (length bytes) < INT_MAX)%Z -> is_text bytes bytes -> parse bytes = Some (tree b) -> valuedouble <$> b = fin bv -> (Z.of_nat (length b) <= INT_MAX)%Z ->
  @holds_data ER files parse [f] (fin bv) [0; 2]%nat 3.
Proof.
  intros E1 E2 E3 E4 E5 E6. split; [|rewrite <- E5, fmap_length; done|done]. exists bytes, bytes, (tree b). split; [done|]. split; [done|]. split; [done|]. split; [done|]. split; [|split].
  - exists b. split; [apply mem_b|done].
  - exists [num 0; num 2]. split; [apply mem_p|]. constructor; [intros s; by apply (int_of 0)|]. constructor; [intros s; by apply (int_of 2)|]. constructor.
  - exists (Fin 3). split; [apply mem_m|]. intros s. by apply (int_of 3).
Qed.
Lemma x_holds : @holds_data ER files parse ["x.json"] (fin [1; 2]%R) [0; 2]%nat 3.
Proof.
  apply (tree_holds _ [123; 125] [num 1; num 2]); try done. split; [apply (bool_decide_unpack _); vm_compute; done|]. by exists [].
Qed.
Lemma short_holds : @holds_data ER files parse ["short.json"] (fin [1]%R) [0; 2]%nat 3.
Proof.
  apply (tree_holds _ [123] [num 1]); try done. split; [apply (bool_decide_unpack _); vm_compute; done|]. by exists [].
Qed.
Lemma pixels k : k ∈ [0; 2]%nat -> (k < 3)%nat. Proof. rewrite !elem_of_cons, elem_of_nil. lia. Qed.
Lemma x_sense : @makes_sense ER (fin [1; 2]%R) [0; 2]%nat 3. Proof. split; [done|simpl; lia|exact pixels|done]. Qed.
Lemma x_distinct : NoDup [0; 2]%nat. Proof. apply (bool_decide_unpack _). vm_compute. done. Qed.
Lemma x_signal : some_signal [1; 2]%R. Proof. exists 0%nat. cbn [nth]. rewrite Rabs_R1, <- Rinv_1. apply Rinv_le_contravar; [lra|]. apply pow_R1_Rle. lra. Qed.
Lemma planner_all : planner_ok (s0 all). Proof. intros j. exists 0%R. done. Qed.
(** enough memory: the image is found and the program ends with 0 *)
Example recovered : exists s1 r s2 img s', @prepared ER (s0 all) ["x.json"] (fin [1; 2]%R) [0; 2]%nat 3 s1 /\
    @l1qc_dct ER f1 f2 3 1 (Ptr 4 0) 2 (Ptr 2 0) (Ptr 3 0) (@example_opts ER 0) s1 = Ok (0%Z, Some r) s2 /\
    length img = 3%nat /\ seg s2 (Ptr 4 0) (fin img) /\ (nrm2 (resid (sample [0; 2]%nat) [1; 2]%R img) < 1 / 10)%R /\
    @example_main ER f1 f2 files parse atoi ["x.json"] (s0 all) = Ok 0%Z s' /\ same_heap (s0 all) s'.
Proof.
  exact (example_recovers f1 f2 files parse atoi f1_len f2_len f1_exact f2_exact (s0 all) ["x.json"] [1; 2]%R [0; 2]%nat 3 (starts_here _) x_holds x_sense x_distinct (fun _ => eq_refl) planner_all x_signal).
Qed.
Example called : exists t (o : @L1qcOpts ER), @prepared ER (s0 all) ["x.json"] (fin [1; 2]%R) [0; 2]%nat 3 t /\ lo_epsilon o = Fin (1 / 10) /\ lo_verbose o = 0%Z.
Proof.
  destruct (@example_calls_solver ER f1 f2 files parse atoi (s0 all) ["x.json"] (fin [1; 2]%R) [0; 2]%nat 3 (starts_here _) x_holds ltac:(done) ltac:(done)) as (_ & t & o & Pt & _ & H1 & _ & _ & _ & _ & H2 & _).
  exists t, o. split; [exact Pt|]. split; [rewrite H1; cbn; done|]. rewrite H2. done.
Qed.
(** The exit status does not tell whether the solver succeeded: here its set-up failed. *)
Theorem example_status_reports_solver_refuted : exists s s1 s2 s', begins s /\ @holds_data ER files parse ["x.json"] (fin [1; 2]%R) [0; 2]%nat 3 /\ @makes_sense ER (fin [1; 2]%R) [0; 2]%nat 3 /\
  @prepared ER s ["x.json"] (fin [1; 2]%R) [0; 2]%nat 3 s1 /\
  @l1qc_dct ER f1 f2 3 1 (Ptr (nx s + 4) 0) 2 (Ptr (nx s + 2) 0) (Ptr (nx s + 3) 0) (@example_opts ER 0) s1 = Ok (L1C_DCT_INIT_FAILURE, None) s2 /\
  @example_main ER f1 f2 files parse atoi ["x.json"] s = Ok 0%Z s'.
Proof.
  set (e := only (fun i => (i <? 5)%nat)).
  destruct (@example_solver_failure_unreported ER f1 f2 files parse atoi (s0 e) ["x.json"] (fin [1; 2]%R) [0; 2]%nat 3 (starts_here e) x_holds x_sense) as (s1 & s2 & s' & P1 & P2 & P3 & _).
  { intros i Hi. cbn. apply Nat.leb_le. lia. } { done. }
  exists (s0 e), s1, s2, s'. split; [apply starts_here|]. split; [exact x_holds|]. split; [exact x_sense|]. split; [exact P1|]. split; [exact P2|exact P3].
Qed.
(** each refused request of the program itself *)
Example refused (k : nat) st s' : (k = 0 \/ k = 1 \/ k = 2 \/ k = 4)%nat ->
  @example_main ER f1 f2 files parse atoi ["x.json"] (s0 (only (fun i => negb (i =? k)%nat))) = Ok st s' ->
  same_heap (s0 (only (fun i => negb (i =? k)%nat))) s' /\ st = match k with 0%nat => 1 | 1%nat => L1C_FILE_READ_FAILURE | 2%nat => 2 | _ => 1 end.
Proof.
  intros Hk E. destruct (@example_outcome ER f1 f2 files parse atoi f1_len f2_len _ _ _ _ _ _ _ (starts_here _) x_holds x_sense
    (example_never_overflows f1 f2 atoi f1_exact f2_exact (s0 (only (fun i => negb (i =? k)%nat))) ["x.json"] [1; 2]%R [0; 2]%nat 3 x_sense x_distinct ltac:(intros j; by exists 0%R) x_signal) E) as [H1 H2].
  split; [done|]. rewrite H2. unfold exit_status. destruct Hk as [->|[->|[->| ->]]]; done.
Qed.
Example refused_indices : @example_main ER f1 f2 files parse atoi ["x.json"] (s0 (only (fun i => negb (i =? 3)%nat))) = Ub UbOob.
Proof. by apply (@example_indices_refused_undefined ER f1 f2 files parse atoi _ _ _ _ _ (starts_here _) x_holds). Qed.
Example short : @example_main ER f1 f2 files parse atoi ["short.json"] (s0 all) = Ub UbOob.
Proof. apply (@example_short_b_undefined ER f1 f2 files parse atoi f1_len f2_len _ _ _ _ _ (starts_here _) short_holds); [simpl; lia|lia|exact pixels|done|done]. Qed.
Example no_file : exists s', @example_main ER f1 f2 files parse atoi [] (s0 all) = Ok L1C_FILE_READ_FAILURE s' /\ same_heap (s0 all) s'.
Proof. by apply (@example_no_file ER f1 f2 files parse atoi _ [] (starts_here _)). Qed.
Example no_json : exists s', @example_main ER f1 f2 files parse atoi ["bad.json"; "2"] (s0 all) = Ok 4 s' /\ same_heap (s0 all) s'.
Proof.
  apply (@example_no_json ER f1 f2 files parse atoi _ ["bad.json"; "2"] [55] [55] (starts_here _)); try done. split; [apply (bool_decide_unpack _); vm_compute; done|]. by exists [].
Qed.
End ExampleEx.
