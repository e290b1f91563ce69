(** * C61 and C75: loading and reading JSON files (src/json_utils.c). *)
From Coq Require Import ZArith Lia Reals Lra.
From Flocq Require Import Core.Raux Core.Zaux IEEE754.BinarySingleNaN.
From stdpp Require Import base numbers gmap list strings.
From Verif Require Import Globals Mem NumB M_Math M_Memory M_MexUtils M_Mex M_Json P_Mem P_Loop S_Mem P_Memory S_Mex P_Mex.
Local Open Scope Z_scope.

(** the text a C string function sees: the characters before the first 0, the array being closed by a 0 *)
Definition is_text (bytes t : list Z) : Prop := 0 ∉ t /\ exists rest, bytes ++ [0] = t ++ 0 :: rest.
Lemma has_text bytes : exists t, is_text bytes t.
Proof.
  induction bytes as [|b bs IH].
  - exists []. split; [apply not_elem_of_nil|]. by exists [].
  - destruct (decide (b = 0)) as [->|Hb].
    + exists []. split; [apply not_elem_of_nil|]. by exists (bs ++ [0]).
    + destruct IH as (t & Ht & rest & E). exists (b :: t). split; [|exists rest; simpl; by rewrite E].
      rewrite elem_of_cons. intros [Hx|Hx]; [by subst|done].
Qed.
Lemma text_unique bytes t t' : is_text bytes t -> is_text bytes t' -> t = t'.
Proof.
  intros [H [r E]] [H' [r' E']]. rewrite E in E'. clear E. revert t' H' E'. induction t as [|a t IH]; intros [|a' t'] H' E'; simpl in E'; try done.
  - injection E' as E0 _. exfalso. apply H'. rewrite E0. apply elem_of_list_here.
  - injection E' as E0 _. exfalso. apply H. rewrite <- E0. apply elem_of_list_here.
  - injection E' as -> E'. f_equal. apply IH; [| |done].
    + intros Hx. apply H. by right.
    + intros Hx. apply H'. by right.
Qed.

Section C61.
Context `{N : Num}.
Implicit Types (s : st).
(** nothing in memory differs *)
Definition quiet s s' : Prop := dm s' = dm s /\ im s' = im s /\ pm s' = pm s /\ om s' = om s /\ gl s' = gl s /\ en s' = en s.

Lemma fill_run b (bytes : list Z) n (k : nat) s : im s !! b = Some (replicate n 0) -> (k <= n)%nat -> (k <= length bytes)%nat ->
  for_ 0 (Z.of_nat k) (fun i => sti (Ptr b 0) i (nth (Z.to_nat i) bytes 0)) s = Ok tt (set_im <[b := take k bytes ++ replicate (n - k) 0]> s).
Proof.
  intros Eb Hk Hl. unfold for_. rewrite Z.sub_0_r, Nat2Z.id.
  assert (E0 : s = set_im <[b := take 0 bytes ++ replicate (n - 0) 0]> s) by (simpl; rewrite Nat.sub_0_r; symmetry; by apply set_im_id).
  rewrite E0 at 1. apply (forn_inv (fun i => set_im <[b := take i bytes ++ replicate (n - i) 0]> s) k 0).
  - intros i Hi. rewrite Z.add_0_l, Nat2Z.id.
    destruct (lookup_lt_is_Some_2 bytes i ltac:(lia)) as [v Hv].
    rewrite (sti_ok _ b i (take i bytes ++ replicate (n - i) 0)); [|apply lookup_insert|rewrite app_length, take_length, replicate_length; lia].
    rewrite set_im_twice. do 3 f_equal. rewrite (nth_lookup_Some bytes i 0 v Hv), (take_S_r _ _ _ Hv).
    replace (n - i)%nat with (S (n - S i)) by lia. simpl. rewrite insert_app_r_alt by (rewrite take_length; lia). rewrite take_length.
    replace (i - i `min` length bytes)%nat with 0%nat by lia. simpl. by rewrite <- app_assoc.
Qed.
Lemma c_string_run b (c t rest : list Z) s : im s !! b = Some c -> forall pre k, c = pre ++ t ++ 0 :: rest -> 0 ∉ t -> (length t < k)%nat ->
  c_string k (Ptr b 0) (Z.of_nat (length pre)) s = Ok t s.
Proof.
  intros Eb. induction t as [|a t IH]; intros pre k Ec Ht Hk; (destruct k as [|k]; [simpl in Hk; lia|]); cbn [c_string].
  - unfold bind, ldi. rewrite Z.add_0_l, (proj2 (Z.leb_le _ _)) by lia. rewrite Eb, Nat2Z.id, Ec. simpl app. rewrite list_lookup_middle by done. done.
  - unfold bind, ldi at 1. rewrite Z.add_0_l, (proj2 (Z.leb_le _ _)) by lia. rewrite Eb, Nat2Z.id. rewrite Ec at 1. simpl app at 1. rewrite list_lookup_middle by done.
    destruct (Z.eqb_spec a 0) as [->|Ha]; [exfalso; apply Ht; left|].
    replace (Z.of_nat (length pre) + 1) with (Z.of_nat (length (pre ++ [a]))) by (rewrite app_length; simpl; lia).
    unfold bind in IH |- *. rewrite (IH (pre ++ [a]) k); [done|by rewrite <- app_assoc|intros Hx; apply Ht; by right|simpl in Hk; lia].
Qed.

Lemma load_run files parse fname old s bytes (r : nat) t : files fname = Some bytes -> file_len bytes = Z.of_nat r -> 0 < Z.of_nat r < INT_MAX -> (r <= length bytes)%nat ->
  is_text (take r bytes) t -> alloc_ok (en s) (nx s) = true -> im s !! nx s = None ->
  load_file_to_json files parse fname old s = Ok (0, parse t) (tick s).
Proof.
  intros E EL Hl Hr [Ht [rest Er]] Ha Hi. unfold load_file_to_json, load_file_as_text. rewrite E. cbv zeta. rewrite EL.
  unfold bind at 1.
  rewrite (bind_ok _ _ _ _ _ (i32_ok (Z.of_nat r + 1) s ltac:(unfold INT_MIN; lia))). replace (Z.of_nat r + 1) with (Z.of_nat (S r)) by lia.
  unfold calloc_i at 1, bind at 1. rewrite Ha, (proj2 (Z.leb_le 0 _)) by lia. cbn [andb is_null]. rewrite Nat2Z.id.
  set (s1 := tick (set_im <[nx s := replicate (S r) 0]> s)).
  assert (E1 : im s1 !! nx s = Some (replicate (S r) 0)) by apply lookup_insert.
  unfold fread1. cbv zeta. rewrite Z.mod_small by (unfold INT_MAX in *; lia). rewrite Z.min_l by lia.
  unfold bind at 1 2. rewrite (fill_run (nx s) bytes (S r) r s1 E1) by lia. cbv beta.
  rewrite (proj2 (Z.ltb_lt 0 _)) by lia. rewrite (proj2 (Z.leb_le _ _)) by lia. cbn [andb ret]. change (1 =? 1) with true. cbv iota beta. unfold ret at 1. cbv iota beta. change (negb (0 =? 0)) with false. cbv iota.
  replace (S r - r)%nat with 1%nat by lia. set (s2 := set_im <[nx s := take r bytes ++ replicate 1 0]> s1).
  assert (E2 : im s2 !! nx s = Some (take r bytes ++ [0])) by apply lookup_insert.
  unfold bind at 1, room at 1. rewrite E2.
  unfold bind at 1. change 0 with (Z.of_nat (length (@nil Z))) at 1.
  rewrite (c_string_run (nx s) (take r bytes ++ [0]) t rest s2 E2 [] _ Er Ht).
  2:{ pose proof (f_equal length Er) as L. rewrite !app_length in L. rewrite ?app_length. simpl in *. lia. }
  unfold bind, free_i. change (0 =? 0) with true. cbv iota. rewrite E2. unfold ret. f_equal.
  unfold s2, s1, set_im, tick. cbn. rewrite !delete_insert_delete, delete_notin by done. by destruct s.
Qed.
Lemma quiet_tick s : quiet s (tick s). Proof. done. Qed.

(** ** Every way a load can go.  [len] is the length of the file as an int: C's conversion of a long
    takes it modulo 2^32 *)
(** no such file *)
Theorem load_no_file files parse fname old s : files fname = None -> load_file_to_json files parse fname old s = Ok (1, old) s.
Proof. intros E. unfold load_file_to_json, load_file_as_text, bind, ret. by rewrite E. Qed.
(** a file shorter than INT_MAX bytes, and memory for it: the result is that of the parser on the text up
    to the first 0, nothing stays allocated, and 0 is returned whether or not there was JSON in the file *)
Theorem load_reads_file files parse fname old s bytes t : files fname = Some bytes -> 0 < Z.of_nat (length bytes) < INT_MAX ->
  is_text bytes t -> alloc_ok (en s) (nx s) = true -> im s !! nx s = None ->
  exists s', load_file_to_json files parse fname old s = Ok (0, parse t) s' /\ quiet s s'.
Proof.
  intros E Hl HT Ha Hi. exists (tick s). split; [|apply quiet_tick]. apply (load_run files parse fname old s bytes (length bytes)); try done.
  - unfold file_len, int_of_size, INT_MAX in *. rewrite Z.mod_small by lia. lia.
  - by rewrite take_ge.
Qed.
(** an empty file is an error, and the buffer stays allocated *)
Theorem load_empty_file files parse fname old s : files fname = Some [] ->
  exists s', load_file_to_json files parse fname old s = Ok (1, old) s' /\ dm s' = dm s /\ pm s' = pm s /\ om s' = om s /\
    im s' = if alloc_ok (en s) (nx s) then <[nx s := [0]]> (im s) else im s.
Proof.
  intros E. unfold load_file_to_json, load_file_as_text. rewrite E. cbv zeta. change (file_len []) with 0. unfold bind at 1 2.
  change (i32 (0 + 1) s) with (Ok 1 s). cbv iota beta. unfold bind, calloc_i. cbn [Z.leb]. change (0 <=? 1) with true. cbn [andb].
  destruct (alloc_ok (en s) (nx s)); (eexists; split; [reflexivity|]); done.
Qed.
(** no memory: an error *)
Theorem load_out_of_memory files parse fname old s bytes : files fname = Some bytes -> file_len bytes < INT_MAX -> alloc_ok (en s) (nx s) = false ->
  exists s', load_file_to_json files parse fname old s = Ok (1, old) s' /\ quiet s s'.
Proof.
  intros E Hl Ha. unfold load_file_to_json, load_file_as_text. rewrite E. cbv zeta. unfold bind at 1.
  assert (B : INT_MIN <= file_len bytes) by (unfold file_len, int_of_size, INT_MIN; pose proof (Z.mod_pos_bound (Z.of_nat (length bytes) + 2 ^ 31) (2 ^ 32)); lia).
  rewrite (bind_ok _ _ _ _ _ (i32_ok (file_len bytes + 1) s ltac:(lia))).
  unfold bind, calloc_i. rewrite Ha, andb_false_r. eexists. split; [reflexivity|]. done.
Qed.
(** a file of INT_MAX bytes: the size of the buffer overflows *)
Theorem load_INT_MAX_undefined files parse fname old s bytes : files fname = Some bytes -> Z.of_nat (length bytes) = INT_MAX ->
  load_file_to_json files parse fname old s = Ub UbOverflow.
Proof.
  intros E Hl. unfold load_file_to_json, load_file_as_text. rewrite E. cbv zeta. unfold file_len. rewrite Hl. done.
Qed.
(** a file of 4 GiB or more, the rest fitting an int: only the rest is read, and 0 is returned *)
Theorem load_long_file_cut files parse fname old s bytes (q : Z) (r : nat) t : files fname = Some bytes -> 0 < Z.of_nat r < INT_MAX -> 0 < q ->
  Z.of_nat (length bytes) = q * 2 ^ 32 + Z.of_nat r -> is_text (take r bytes) t -> alloc_ok (en s) (nx s) = true -> im s !! nx s = None ->
  exists s', load_file_to_json files parse fname old s = Ok (0, parse t) s' /\ quiet s s'.
Proof.
  intros E Hr Hq HL HT Ha Hi. exists (tick s). split; [|apply quiet_tick]. apply (load_run files parse fname old s bytes r); try done; [|lia].
  unfold file_len, int_of_size. rewrite HL. replace (q * 2 ^ 32 + Z.of_nat r + 2 ^ 31) with (Z.of_nat r + 2 ^ 31 + q * 2 ^ 32) by lia. rewrite Z.mod_add by lia.
  unfold INT_MAX in Hr. rewrite Z.mod_small by lia. lia.
Qed.
(** so a file that is not JSON is never reported *)
Corollary load_ignores_parse_errors files parse fname old s bytes t : files fname = Some bytes -> 0 < Z.of_nat (length bytes) < INT_MAX ->
  is_text bytes t -> alloc_ok (en s) (nx s) = true -> im s !! nx s = None -> parse t = None ->
  exists s', load_file_to_json files parse fname old s = Ok (0, None) s'.
Proof. intros E Hl HT Ha Hi HP. destruct (load_reads_file files parse fname old s bytes t E Hl HT Ha Hi) as (s' & R & _). rewrite HP in R. by exists s'. Qed.

(** ** C75: reading members *)
(** v is the value of the first member called name *)
Definition member (j : json) (name : string) (v : json) : Prop :=
  exists l1 l2, j = JObj (l1 ++ (name, v) :: l2) /\ name ∉ l1.*1.
Lemma member_get j name v : get_item j name = Some v <-> member j name v.
Proof.
  split.
  - destruct j as [| | | | |l]; try done. simpl. induction l as [|[k w] l IH]; [done|]. simpl. destruct (String.eqb_spec k name) as [->|Hk].
    + intros [= ->]. exists [], l. split; [done|]. apply not_elem_of_nil.
    + intros H. destruct (IH H) as (l1 & l2 & [= ->] & Hn). exists ((k, w) :: l1), l2. split; [done|]. simpl. rewrite elem_of_cons. intros [Hx|Hx]; [by subst|done].
  - intros (l1 & l2 & -> & Hn). simpl. induction l1 as [|[k w] l1 IH]; simpl.
    + by rewrite String.eqb_refl.
    + simpl in Hn. rewrite elem_of_cons in Hn. destruct (String.eqb_spec k name) as [->|Hk]; [exfalso; apply Hn; by left|]. apply IH. intros Hx. apply Hn. by right.
Qed.

(** one double: status 0 exactly if the first member of that name is a number, which is then the result;
    otherwise the result variable keeps its value *)
Theorem extract_double_result j name old s :
  (forall d, member j name (JNum d) -> extract_json_double (Some j) name old s = Ok (0, d) s) /\
  ((forall d, ~ member j name (JNum d)) -> extract_json_double (Some j) name old s = Ok (1, old) s) /\
  extract_json_double None name old s = Ok (1, old) s.
Proof.
  split; [|split; [|done]].
  - intros d H. unfold extract_json_double. by rewrite (proj2 (member_get _ _ _) H).
  - intros H. unfold extract_json_double. destruct (get_item j name) as [v|] eqn:E; [|done]. destruct v; try done.
    exfalso. apply member_get in E. by apply (H d).
Qed.
(** the same for one int *)
Theorem extract_int_result j name old s :
  (forall d z, member j name (JNum d) -> valueint (JNum d) s = Ok z s -> extract_json_int (Some j) name old s = Ok (0, z) s) /\
  ((forall d, ~ member j name (JNum d)) -> extract_json_int (Some j) name old s = Ok (1, old) s) /\
  extract_json_int None name old s = Ok (1, old) s.
Proof.
  split; [|split; [|done]].
  - intros d z H HZ. unfold extract_json_int. rewrite (proj2 (member_get _ _ _) H). cbn [is_number]. unfold bind. by rewrite HZ.
  - intros H. unfold extract_json_int. destruct (get_item j name) as [v|] eqn:E; [|done]. destruct v; try done.
    exfalso. apply member_get in E. by apply (H d).
Qed.

Lemma int_of_nat (k : nat) : Z.of_nat k <= INT_MAX -> int_of_size (Z.of_nat k) = Z.of_nat k.
Proof. intros H. unfold int_of_size, INT_MAX in *. rewrite Z.mod_small by lia. lia. Qed.
Lemma store_doubles_run b l : forall k s (c : list (option T)), dm s !! b = Some c -> length c = (k + length l)%nat ->
  exists s', store_doubles (Ptr b 0) (Z.of_nat k) l s = Ok tt s' /\ dm s' = <[b := take k c ++ (Some ∘ valuedouble <$> l)]> (dm s) /\
    im s' = im s /\ pm s' = pm s /\ om s' = om s /\ gl s' = gl s /\ al s' = al s /\ nx s' = nx s /\ en s' = en s.
Proof.
  induction l as [|j l IH]; intros k s c Ec Hl; cbn [store_doubles].
  - exists s. simpl in Hl. rewrite Nat.add_0_r in Hl. split; [done|]. repeat split. rewrite take_ge by lia. simpl. rewrite app_nil_r. by rewrite insert_id.
  - simpl in Hl. unfold bind, sto, cell at 1. rewrite Z.add_0_l, (proj2 (Z.leb_le _ _)) by lia. rewrite Ec, Nat2Z.id.
    destruct (lookup_lt_is_Some_2 c k ltac:(lia)) as [w Hw]. rewrite Hw. cbn [padd wr]. rewrite Z.add_0_l, Nat2Z.id.
    set (s1 := set_dm _ s).
    assert (E1 : dm s1 !! b = Some (<[k := Some (valuedouble j)]> c)) by (unfold s1; cbn; rewrite lookup_alter, Ec; done).
    destruct (IH (S k) s1 _ E1 ltac:(rewrite insert_length; lia)) as (s' & R & D & H).
    replace (Z.of_nat k + 1) with (Z.of_nat (S k)) by lia. exists s'. split; [exact R|]. split; [|exact H].
    rewrite D. unfold s1. cbn [dm set_dm]. apply map_eq. intros b'. destruct (decide (b' = b)) as [->|Hb].
    + rewrite !lookup_insert. f_equal. rewrite (take_S_r _ _ (Some (valuedouble j))) by (apply list_lookup_insert; lia). rewrite take_insert by lia. by rewrite <- app_assoc.
    + rewrite !lookup_insert_ne by done. by rewrite lookup_alter_ne.
Qed.

(** an array of doubles: a new aligned block with one double per item, in order; without memory status 1
    but the size already stored; no array of that name: status 1, size 0, and the pointer is left as it was *)
Theorem extract_double_array_result j name oldx oldN s : unborn s ->
  (forall l, member j name (JArr l) -> Z.of_nat (length l) <= INT_MAX -> alloc_ok (en s) (nx s) = true ->
     exists s', extract_json_double_array (Some j) name oldx oldN s = Ok (0, Ptr (nx s) 0, Z.of_nat (length l)) s' /\
       dm s' = <[nx s := Some ∘ valuedouble <$> l]> (dm s) /\ is_aligned s' (Ptr (nx s) 0) = true /\ im s' = im s /\ pm s' = pm s /\ om s' = om s /\
       gl s' = gl s /\ en s' = en s /\ nx s' = S (nx s)) /\
  (forall l, member j name (JArr l) -> Z.of_nat (length l) <= INT_MAX -> alloc_ok (en s) (nx s) = false ->
     extract_json_double_array (Some j) name oldx oldN s = Ok (1, Null, Z.of_nat (length l)) (tick s)) /\
  ((forall l, ~ member j name (JArr l)) -> extract_json_double_array (Some j) name oldx oldN s = Ok (1, oldx, 0) s) /\
  extract_json_double_array None name oldx oldN s = Ok (1, oldx, oldN) s.
Proof.
  intros Hu. split; [|split; [|split; [|done]]].
  - intros l H Hl Ha. unfold extract_json_double_array. rewrite (proj2 (member_get _ _ _) H). cbn [is_array]. cbv zeta. rewrite (int_of_nat _ Hl).
    unfold bind at 1, l1c_malloc_double, alloc_d. rewrite Ha, (proj2 (Z.leb_le 0 _)) by lia. cbn [andb is_null]. rewrite Nat2Z.id. set (s1 := tick _).
    destruct (store_doubles_run (nx s) l 0 s1 (replicate (length l) None) (lookup_insert _ _ _) ltac:(by rewrite replicate_length)) as (s' & R & D & I1 & I2 & I3 & I4 & I5 & I6 & I7).
    change (Z.of_nat 0) with 0 in R. rewrite (bind_ok _ _ _ _ _ R). exists s'. split; [reflexivity|]. split; [|split; [|done]].
    + rewrite D. simpl. by rewrite insert_insert.
    + unfold is_aligned. rewrite I5. cbn. by rewrite Nat.eqb_refl.
  - intros l H Hl Ha. unfold extract_json_double_array. rewrite (proj2 (member_get _ _ _) H). cbn [is_array]. cbv zeta. rewrite (int_of_nat _ Hl).
    unfold bind, l1c_malloc_double, alloc_d. rewrite Ha, andb_false_r. done.
  - intros H. unfold extract_json_double_array. destruct (get_item j name) as [v|] eqn:E; [|done]. destruct v; try done.
    exfalso. apply member_get in E. by apply (H l).
Qed.
(** for an array of numbers these are the numbers *)
Corollary extract_double_array_numbers j name oldx oldN s ds : unborn s -> member j name (JArr (JNum <$> ds)) -> Z.of_nat (length ds) <= INT_MAX ->
  alloc_ok (en s) (nx s) = true ->
  exists s' p, extract_json_double_array (Some j) name oldx oldN s = Ok (0, p, Z.of_nat (length ds)) s' /\ seg s' p ds.
Proof.
  intros Hu H Hl Ha. destruct (extract_double_array_result j name oldx oldN s Hu) as (R & _).
  destruct (R _ H ltac:(by rewrite fmap_length) Ha) as (s' & E & D & _). rewrite fmap_length in E. exists s', (Ptr (nx s) 0). split; [done|].
  intros i v Hv. unfold cell. rewrite Z.add_0_l, (proj2 (Z.leb_le _ _)) by lia. rewrite D, lookup_insert, Nat2Z.id, !list_lookup_fmap, Hv. done.
Qed.

Lemma store_ints_run b l zs : forall k s (c : list Z), Forall2 (fun j z => forall s, valueint j s = Ok z s) l zs -> im s !! b = Some c -> length c = (k + length l)%nat ->
  store_ints (Ptr b 0) (Z.of_nat k) l s = Ok tt (set_im <[b := take k c ++ zs]> s).
Proof.
  revert zs. induction l as [|j l IH]; intros zs k s c HZ Ec Hl; cbn [store_ints].
  - inversion HZ; subst. simpl in Hl. rewrite Nat.add_0_r in Hl. rewrite take_ge, app_nil_r by lia. by rewrite (set_im_id _ _ _ Ec).
  - inversion HZ as [|? z ? zs' Hz HZ']; subst. simpl in Hl. rewrite (bind_ok _ _ _ _ _ (Hz s)).
    rewrite (bind_ok _ _ _ _ _ (sti_ok s b k c z Ec ltac:(lia))).
    replace (Z.of_nat k + 1) with (Z.of_nat (S k)) by lia.
    rewrite (IH zs' (S k) _ (<[k := z]> c) HZ'); [|apply lookup_insert|rewrite insert_length; lia].
    rewrite set_im_twice. do 3 f_equal. rewrite (take_S_r _ _ z) by (apply list_lookup_insert; lia). rewrite take_insert by lia. by rewrite <- app_assoc.
Qed.
(** an array of ints; refused memory is not noticed: the first item is stored through NULL *)
Theorem extract_int_array_result j name oldx oldN s :
  (forall l zs, member j name (JArr l) -> Forall2 (fun j z => forall s, valueint j s = Ok z s) l zs -> Z.of_nat (length l) <= INT_MAX -> alloc_ok (en s) (nx s) = true ->
     extract_json_int_array (Some j) name oldx oldN s = Ok (0, Ptr (nx s) 0, Z.of_nat (length l)) (set_im <[nx s := zs]> (tick s))) /\
  (forall l zs, member j name (JArr l) -> Forall2 (fun j z => forall s, valueint j s = Ok z s) l zs -> Z.of_nat (length l) <= INT_MAX -> alloc_ok (en s) (nx s) = false ->
     l <> [] -> extract_json_int_array (Some j) name oldx oldN s = Ub UbOob) /\
  ((forall l, ~ member j name (JArr l)) -> extract_json_int_array (Some j) name oldx oldN s = Ok (1, oldx, 0) s) /\
  extract_json_int_array None name oldx oldN s = Ok (1, oldx, oldN) s.
Proof.
  split; [|split; [|split; [|done]]].
  - intros l zs H HZ Hl Ha. unfold extract_json_int_array. rewrite (proj2 (member_get _ _ _) H). cbn [is_array]. cbv zeta. rewrite (int_of_nat _ Hl).
    unfold bind at 1, calloc_i. rewrite Ha, (proj2 (Z.leb_le 0 _)) by lia. cbn [andb]. rewrite Nat2Z.id. set (s1 := tick _).
    pose proof (store_ints_run (nx s) l zs 0 s1 (replicate (length l) 0) HZ (lookup_insert _ _ _) ltac:(by rewrite replicate_length)) as R.
    change (Z.of_nat 0) with 0 in R. rewrite (bind_ok _ _ _ _ _ R). unfold ret, s1, tick, set_im. simpl. by rewrite insert_insert.
  - intros l zs H HZ Hl Ha Hn. unfold extract_json_int_array. rewrite (proj2 (member_get _ _ _) H). cbn [is_array]. cbv zeta. rewrite (int_of_nat _ Hl).
    unfold bind at 1, calloc_i. rewrite Ha, andb_false_r. destruct l as [|j0 l]; [done|]. inversion HZ as [|? z ? zs' Hz HZ']; subst. cbn [store_ints].
    unfold bind at 1 2. rewrite Hz. done.
  - intros H. unfold extract_json_int_array. destruct (get_item j name) as [v|] eqn:E; [|done]. destruct v; try done.
    exfalso. apply member_get in E. by apply (H l).
Qed.
(** an item that is not a number is not reported: it becomes 0 (or 1) *)
Theorem extract_array_accepts_anything j name oldx oldN s l : unborn s -> member j name (JArr l) -> Z.of_nat (length l) <= INT_MAX -> alloc_ok (en s) (nx s) = true ->
  exists s' p, extract_json_double_array (Some j) name oldx oldN s = Ok (0, p, Z.of_nat (length l)) s' /\
    forall i t, l !! i = Some (JStr t) -> cell s' p (Z.of_nat i) = Some (Some zero).
Proof.
  intros Hu H Hl Ha. destruct (extract_double_array_result j name oldx oldN s Hu) as (R & _).
  destruct (R _ H Hl Ha) as (s' & E & D & _). exists s', (Ptr (nx s) 0). split; [done|].
  intros i t Hv. unfold cell. rewrite Z.add_0_l, (proj2 (Z.leb_le _ _)) by lia. rewrite D, lookup_insert, Nat2Z.id, !list_lookup_fmap, Hv. done.
Qed.
End C61.

(** the int of a number in binary64: the fraction is cut off, and values outside the ints become the
    nearest int *)
Section b64.
Context (flog fexp fceil : b64 -> b64).
Notation B := (BN_with flog fexp fceil).
Theorem valueint_b64 (d : b64) (s : @st B) : finite d ->
  @valueint B (@JNum B d) s = Ok (Z.max INT_MIN (Z.min INT_MAX (Ztrunc (NumB.val d)))) s.
Proof.
  intros F. unfold valueint.
  destruct (ofZ_exact flog fexp fceil INT_MAX ltac:(unfold INT_MAX; lia)) as [E1 F1].
  destruct (ofZ_exact flog fexp fceil INT_MIN ltac:(unfold INT_MIN; lia)) as [E2 F2].
  change (@leb_ B) with (@Bleb 53 1024). rewrite !Bleb_correct by done.
  change (B2R (@ofZ B INT_MAX)) with (NumB.val (@ofZ B INT_MAX)). change (B2R (@ofZ B INT_MIN)) with (NumB.val (@ofZ B INT_MIN)). rewrite E1, E2. fold (NumB.val d).
  destruct (Rle_bool_spec (IZR INT_MAX) (NumB.val d)) as [H|H].
  - assert (INT_MAX <= Ztrunc (NumB.val d)) by (rewrite <- (Ztrunc_IZR INT_MAX); by apply Ztrunc_le).
    unfold ret. do 2 f_equal. unfold INT_MAX, INT_MIN in *. lia.
  - destruct (Rle_bool_spec (NumB.val d) (IZR INT_MIN)) as [H2|H2].
    + assert (Ztrunc (NumB.val d) <= INT_MIN) by (rewrite <- (Ztrunc_IZR INT_MIN); by apply Ztrunc_le).
      unfold ret. do 2 f_equal. unfold INT_MAX, INT_MIN in *. lia.
    + assert (Hlo : INT_MIN <= Ztrunc (NumB.val d)) by (rewrite <- (Ztrunc_IZR INT_MIN); apply Ztrunc_le; lra).
      assert (Hhi : Ztrunc (NumB.val d) <= INT_MAX) by (rewrite <- (Ztrunc_IZR INT_MAX); apply Ztrunc_le; lra).
      assert (TI : @toint B d = Some (Ztrunc (NumB.val d))).
      { etransitivity; [exact (toint_trunc d F)|]. cbv zeta. unfold in_int. rewrite (proj2 (Z.leb_le _ _) Hlo), (proj2 (Z.leb_le _ _) Hhi). done. }
      rewrite (@cast_ok B _ _ s TI). do 2 f_equal. lia.
Qed.
(** 3.5e9 is beyond the ints *)
Example valueint_ex (s : @st B) : @valueint B (@JNum B (@ofZ B 3500000000)) s = Ok INT_MAX s.
Proof.
  destruct (ofZ_exact flog fexp fceil 3500000000 ltac:(lia)) as [E F]. rewrite (valueint_b64 _ s F). do 2 f_equal. rewrite E, Ztrunc_IZR. done.
Qed.
End b64.

(** * Concrete cases *)
Module JsonEx.
Section ex.
Context `{N : Num}.
Definition env0 : env := mkEnv (fun _ => true) (fun _ => false) (fun _ _ _ => zero).
Definition env1 : env := mkEnv (fun _ => false) (fun _ => false) (fun _ _ _ => zero).
Definition s0 (e : env) : st := mkSt ∅ ∅ ∅ ∅ (fun _ => false) 0 e glob0.
(** one file with the text {7, and a parser that accepts only {} *)
Definition files (f : string) : option (list Z) := if String.eqb f "x.json" then Some [123; 55] else None.
Definition parse (t : list Z) : option json := if bool_decide (t = [123; 125]) then Some (JObj []) else None.
Example text_ex : is_text [123; 55] [123; 55].
Proof. split; [|by exists []]. rewrite !elem_of_cons, elem_of_nil. lia. Qed.
(** a text with a 0 inside *)
Example text_ex2 : is_text [123; 125; 0; 55] [123; 125].
Proof. split; [|by exists [55; 0]]. rewrite !elem_of_cons, elem_of_nil. lia. Qed.
(** C61: the file is not JSON, yet 0 is returned *)
Theorem load_reports_parse_error_refuted : exists s', load_file_to_json files parse "x.json" None (s0 env0) = Ok (0, None) s' /\ parse [123; 55] = None.
Proof. destruct (load_ignores_parse_errors files parse "x.json" None (s0 env0) [123; 55] [123; 55]) as (s' & E); try done; [apply text_ex|]. by exists s'. Qed.
Example load_empty_leaks : exists s', load_file_to_json (fun _ => Some []) parse "e" None (s0 env0) = Ok (1, None) s' /\ im s' !! 0%nat = Some [0].
Proof. destruct (load_empty_file (fun _ => Some []) parse "e" None (s0 env0) eq_refl) as (s' & E & _ & _ & _ & H). exists s'. split; [done|]. rewrite H. done. Qed.
Example load_refused : exists s', load_file_to_json files parse "x.json" None (s0 env1) = Ok (1, None) s'.
Proof. destruct (load_out_of_memory files parse "x.json" None (s0 env1) [123; 55]) as (s' & E & _); try done. by exists s'. Qed.
(** a file of 4 GiB and two bytes: only {} is read *)
Example load_cut : exists s', load_file_to_json (fun _ => Some ([123; 125] ++ replicate (Z.to_nat (2 ^ 32)) 32)) parse "big" None (s0 env0) = Ok (0, Some (JObj [])) s'.
Proof.
  destruct (load_long_file_cut (fun _ => Some ([123; 125] ++ replicate (Z.to_nat (2 ^ 32)) 32)) parse "big" None (s0 env0) _ 1 2 [123; 125] eq_refl) as (s' & E & _).
  - unfold INT_MAX. lia.
  - lia.
  - rewrite app_length, replicate_length, Nat2Z.inj_add, Z2Nat.id by lia. done.
  - rewrite take_app_le by (simpl; lia). split; [|by exists []]. simpl. rewrite !elem_of_cons, elem_of_nil. lia.
  - done.
  - done.
  - by exists s'.
Qed.
Example load_max : load_file_to_json (fun _ => Some (replicate (Z.to_nat INT_MAX) 32)) parse "big" None (s0 env0) = Ub UbOverflow.
Proof. eapply load_INT_MAX_undefined; [done|]. rewrite replicate_length, Z2Nat.id; [done|unfold INT_MAX; lia]. Qed.

Lemma s0_unborn e : unborn (s0 e). Proof. intros b Hb. done. Qed.
(** {"a": 1, "x": [1, "two", true], "a": 2} *)
Definition tree : json := JObj [("a", JNum one); ("x", JArr [JNum one; JStr "two"; JBool true]); ("a", JNum two)].
Example tree_a : member tree "a" (JNum one).
Proof. exists [], [("x", JArr [JNum one; JStr "two"; JBool true]); ("a", JNum two)]. split; [done|apply not_elem_of_nil]. Qed.
Example tree_x : member tree "x" (JArr [JNum one; JStr "two"; JBool true]).
Proof. exists [("a", JNum one)], [("a", JNum two)]. split; [done|]. simpl. rewrite elem_of_list_singleton. done. Qed.
(** the first of two members of the same name counts *)
Example first_counts : extract_json_double (Some tree) "a" zero (s0 env0) = Ok (0, one) (s0 env0).
Proof. apply (proj1 (extract_double_result tree "a" zero (s0 env0))). apply tree_a. Qed.
(** the string "two" is read as 0 without any report *)
Theorem extract_array_reports_items_refuted : exists s' p, extract_json_double_array (Some tree) "x" Null 0 (s0 env0) = Ok (0, p, 3) s' /\ cell s' p 1 = Some (Some zero).
Proof.
  destruct (extract_array_accepts_anything tree "x" Null 0 (s0 env0) _ (s0_unborn _) tree_x ltac:(done) eq_refl) as (s' & p & E & H).
  exists s', p. split; [done|]. by apply (H 1%nat "two").
Qed.
(** refused memory: reported for doubles, undefined for ints *)
Example refused_doubles : extract_json_double_array (Some tree) "x" Null 0 (s0 env1) = Ok (1, Null, 3) (tick (s0 env1)).
Proof. apply (proj1 (proj2 (extract_double_array_result tree "x" Null 0 (s0 env1) (s0_unborn _))) _ tree_x); done. Qed.
Definition itree : json := JObj [("i", JArr [JBool true; JNull])].
Theorem extract_int_array_refused_refuted : extract_json_int_array (Some itree) "i" Null 0 (s0 env1) = Ub UbOob.
Proof.
  apply (proj1 (proj2 (extract_int_array_result itree "i" Null 0 (s0 env1))) [JBool true; JNull] [1; 0]); try done.
  - exists [], []. split; [done|apply not_elem_of_nil].
  - by repeat constructor.
Qed.
Example ints_ok : extract_json_int_array (Some itree) "i" Null 0 (s0 env0) = Ok (0, Ptr 0 0, 2) (set_im <[0%nat := [1; 0]]> (tick (s0 env0))).
Proof.
  apply (proj1 (extract_int_array_result itree "i" Null 0 (s0 env0)) [JBool true; JNull] [1; 0]); try done.
  - exists [], []. split; [done|apply not_elem_of_nil].
  - by repeat constructor.
Qed.
Example missing : extract_json_int_array (Some itree) "j" (Ptr 5 0) 9 (s0 env0) = Ok (1, Ptr 5 0, 0) (s0 env0).
Proof.
  apply (extract_int_array_result itree "j" (Ptr 5 0) 9 (s0 env0)). intros l (l1 & l2 & E & _). injection E as E.
  destruct l1 as [|[k v] l1]; simpl in E; [done|]. injection E as _ _ E. by destruct l1.
Qed.
End ex.
End JsonEx.

Print Assumptions load_reads_file.
Print Assumptions load_long_file_cut.
Print Assumptions load_ignores_parse_errors.
Print Assumptions extract_double_array_result.
Print Assumptions extract_int_array_result.
Print Assumptions valueint_b64.
Print Assumptions JsonEx.load_reports_parse_error_refuted.
