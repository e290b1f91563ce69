(** * Runs of the MEX functions. *)
From Coq Require Import ZArith Lia.
From stdpp Require Import base numbers gmap list strings.
From Verif Require Import Globals Mem M_Math M_Memory M_Status M_CG M_LineSearch M_FFTW M_Dct1 M_Dct2 M_Dct M_TVt M_Newton M_L1qcDct M_Bregman M_Nesta
  M_Logging M_MexUtils M_Mex P_Mem P_Loop P_Math P_Touch P_Memory P_Own P_FFTW S_Mem S_Mex S_L1qcDct.
Local Open Scope Z_scope.

Section monad.
Context `{N : Num}.
Implicit Types (s t : st).
Lemma mbind_val {A B} (m : MX A) (k : A -> MX B) s a s' : m s = Ok (Val a) s' -> mbind m k s = k a s'.
Proof. intros E. unfold mbind, bind. by rewrite E. Qed.
Lemma mbind_err {A B} (m : MX A) (k : A -> MX B) s id s' : m s = Ok (Err id) s' -> mbind m k s = Ok (Err id) s'.
Proof. intros E. unfold mbind, bind. by rewrite E. Qed.
Lemma mbind_ub {A B} (m : MX A) (k : A -> MX B) s e : m s = Ub e -> mbind m k s = Ub e.
Proof. intros E. unfold mbind, bind. by rewrite E. Qed.
Lemma lift_ok {A} (m : M A) s a s' : m s = Ok a s' -> lift m s = Ok (Val a) s'.
Proof. intros E. unfold lift, bind. by rewrite E. Qed.
Lemma lift_ub {A} (m : M A) s e : m s = Ub e -> lift m s = Ub e.
Proof. intros E. unfold lift, bind. by rewrite E. Qed.
Lemma mbind_lift {A B} (m : M A) (k : A -> MX B) s a s' : m s = Ok a s' -> mbind (lift m) k s = k a s'.
Proof. intros E. apply mbind_val. by apply lift_ok. Qed.
Lemma cast_ok v z s : toint v = Some z -> cast_int v s = Ok z s.
Proof. unfold cast_int. by intros ->. Qed.
Lemma cast_ub v s : toint v = None -> cast_int v s = Ub UbCast.
Proof. unfold cast_int. by intros ->. Qed.
Lemma arg_ok (l : list mxArray) i a s : l !! i = Some a -> arg l i s = Ok a s.
Proof. unfold arg. by intros ->. Qed.

Lemma seg_dm s s' p xs : dm s' = dm s -> seg s p xs -> seg s' p xs.
Proof. intros E H i v Hi. specialize (H i v Hi). unfold cell in *. by rewrite E. Qed.
Lemma scalar_run s a v : scalar s a v -> mex_get_double_scalar_or_fail a s = Ok (Val v) s.
Proof.
  intros (D & M1 & N1 & Sg). unfold mex_get_double_scalar_or_fail, mex_assert_double_scalar, mxIsScalar.
  rewrite D, M1, N1. cbn [negb andb orb Z.eqb Pos.eqb]. rewrite (mbind_val _ _ s tt s) by done.
  apply lift_ok. unfold mxGetScalar. apply (seg_ld s _ [v] 0 Sg). simpl. lia.
Qed.
Lemma scalar_dm s s' a v : dm s' = dm s -> scalar s a v -> scalar s' a v.
Proof. intros E (D & M1 & N1 & Sg). split; [done|]. split; [done|]. split; [done|]. by eapply seg_dm. Qed.
Lemma field_run s a name v : field s a name v -> mex_get_double_from_struct_or_fail a name s = Ok (Val v) s.
Proof.
  intros (f & E & H). unfold mex_get_double_from_struct_or_fail. rewrite E. exact (scalar_run s f v H).
Qed.
Lemma field_int_run {B} s a name z (k : Z -> MX B) : field_int s a name z ->
  (let! v := mex_get_double_from_struct_or_fail a name in let! i := lift (cast_int v) in k i) s = k z s.
Proof.
  intros (v & Hf & Hz). rewrite (mbind_val _ _ _ _ _ (field_run _ _ _ _ Hf)). by rewrite (mbind_lift _ _ _ _ _ (cast_ok _ _ s Hz)).
Qed.
Lemma vector_run s a p vs : vector s a p vs -> mex_get_double_array_or_fail a s = Ok (Val (p, Z.of_nat (length vs))) s.
Proof.
  intros (D & Hd & Hmn & H2 & Hi & <- & _). unfold mex_get_double_array_or_fail, mex_assert_1darray, mxIsScalar.
  rewrite D. cbn [negb]. unfold INT_MAX in *.
  destruct Hmn as [[-> ->]|[-> ->]]; cbn [Z.eqb orb andb negb];
   (rewrite (mbind_val _ _ s tt s);
    [ replace (1 * Z.of_nat (length vs)) with (Z.of_nat (length vs)) by lia; replace (Z.of_nat (length vs) * 1) with (Z.of_nat (length vs)) by lia;
      rewrite Z.mod_small by lia; destruct (Z.ltb_spec 2147483647 (Z.of_nat (length vs))); [lia|done]
    | ]).
  - destruct (Z.eqb_spec (Z.of_nat (length vs)) 0); [lia|]. destruct (Z.eqb_spec (Z.of_nat (length vs)) 1); [lia|]. cbn.
    destruct (Z.ltb_spec 2 (mxGetNumberOfDimensions a)); [lia|done].
  - destruct (Z.eqb_spec (Z.of_nat (length vs)) 0); [lia|]. destruct (Z.eqb_spec (Z.of_nat (length vs)) 1); [lia|]. cbn.
    destruct (Z.ltb_spec 2 (mxGetNumberOfDimensions a)); [lia|done].
Qed.
Lemma struct_run s a : is_struct a -> mex_assert_scalar_struct a s = Ok (Val tt) s.
Proof. intros (S1 & M1 & N1). unfold mex_assert_scalar_struct. by rewrite M1, N1, S1. Qed.
Lemma opts_run s a o : l1qc_struct s a o -> l1qc_mex_opts a s = Ok (Val (with_mode o dct1)) s.
Proof.
  intros []. unfold l1qc_mex_opts.
  do 7 (erewrite mbind_val by (apply field_run; eassumption)).
  do 5 (erewrite field_int_run by eassumption). done.
Qed.

(** ** the index conversion *)
Lemma im_set f s : im (set_im f s) = f (im s). Proof. done. Qed.
Lemma set_im_id s b c : im s !! b = Some c -> set_im <[b := c]> s = s.
Proof. intros E. destruct s. unfold set_im; simpl in *. by rewrite insert_id. Qed.
Lemma set_im_twice s b c c' : set_im <[b := c']> (set_im <[b := c]> s) = set_im <[b := c']> s.
Proof. unfold set_im; simpl. by rewrite insert_insert. Qed.
Lemma sti_ok s b (i : nat) (c : list Z) v : im s !! b = Some c -> (i < length c)%nat -> sti (Ptr b 0) (Z.of_nat i) v s = Ok tt (set_im <[b := <[i := v]> c]> s).
Proof.
  intros E Hi. unfold sti. rewrite Z.add_0_l, E. rewrite (proj2 (Z.leb_le _ _)) by lia. rewrite (proj2 (Z.ltb_lt _ _)) by lia. by rewrite Nat2Z.id.
Qed.

(** values in range *)
Definition in_idx (mtot z : Z) : Prop := 1 <= z <= mtot.
Definition conv (zs : list Z) (k n : nat) : list Z := ((fun z => z - 1) <$> take k zs) ++ replicate (n - k) 0.
Lemma convert_run s pd vs zs b mtot : seg s pd vs -> Forall2 (fun v z => toint v = Some z /\ INT_MIN < z <= INT_MAX) vs zs -> 
  im s !! b = Some (replicate (length vs) 0) ->
  exists st cs, convert_idx (Z.of_nat (length vs)) mtot pd (Ptr b 0) s = Ok st (set_im <[b := cs]> s) /\ length cs = length vs /\
    ((Forall (in_idx mtot) zs /\ st = 0 /\ cs = (fun z => z - 1) <$> zs) \/ (Exists (fun z => ~ in_idx mtot z) zs /\ st = L1C_INVALID_ARGUMENT)).
Proof.
  intros Sg HZ Eb. set (n := length vs) in *. pose proof (Forall2_length _ _ _ HZ) as HL. fold n in HL.
  unfold convert_idx, for_brk. rewrite Z.sub_0_r, Nat2Z.id.
  assert (Hcl : forall k, (k <= n)%nat -> length (conv zs k n) = n).
  { intros k Hk. unfold conv. rewrite app_length, fmap_length, take_length, replicate_length. lia. }
  destruct (brkn_rel
    (fun i (a : Z) s' => a = 0 /\ s' = set_im <[b := conv zs i n]> s /\ Forall (in_idx mtot) (take i zs))
    (fun i (a : Z) s' => a = L1C_INVALID_ARGUMENT /\ s' = set_im <[b := conv zs i n]> s /\ Exists (fun z => ~ in_idx mtot z) zs)
    n 0 0 (fun i _ =>
     let* v := ld pd i in
     let* c := cast_int v in
     let* idx := i32 (c - 1) in
     if (idx <? 0) || (mtot - 1 <? idx) then ret (Stop L1C_INVALID_ARGUMENT)
     else sti (Ptr b 0) i idx ;! ret (Go 0)) s) as (i & a & s' & E & H).
  - split; [done|]. split; [|apply Forall_nil; done]. unfold conv. simpl. rewrite Nat.sub_0_r. symmetry. by apply set_im_id.
  - intros i a s' Hi (-> & -> & HF). rewrite Z.add_0_l.
    destruct (lookup_lt_is_Some_2 vs i Hi) as [v Hv]. destruct (Forall2_lookup_l _ _ _ _ _ HZ Hv) as (z & Hz & Tz & Iz).
    assert (Bz : INT_MIN <= z - 1 <= INT_MAX) by lia.
    set (s1 := set_im <[b := conv zs i n]> s).
    assert (Sg1 : seg s1 pd vs) by (by apply (seg_dm s)).
    rewrite (bind_ok _ _ _ _ _ (ld_ok _ _ _ _ (Sg1 i v Hv))).
    rewrite (bind_ok _ _ _ _ _ (cast_ok _ _ s1 Tz)), (bind_ok _ _ _ _ _ (i32_ok _ s1 Bz)).
    destruct (Z.ltb_spec (z - 1) 0) as [Hlo|Hlo]; [|destruct (Z.ltb_spec (mtot - 1) (z - 1)) as [Hhi|Hhi]]; cbn [orb].
    + eexists _, s1. split; [done|]. cbn. split; [done|]. split; [done|]. apply Exists_exists. exists z. split; [by eapply elem_of_list_lookup_2|]. unfold in_idx. lia.
    + eexists _, s1. split; [done|]. cbn. split; [done|]. split; [done|]. apply Exists_exists. exists z. split; [by eapply elem_of_list_lookup_2|]. unfold in_idx. lia.
    + eexists (Go 0), _. split.
      { rewrite (bind_ok _ _ s1 tt _ (sti_ok s1 b i (conv zs i n) (z - 1) (lookup_insert _ _ _) ltac:(rewrite Hcl; lia))). done. }
      cbn. split; [done|]. split.
      * unfold s1. rewrite set_im_twice. do 2 f_equal. unfold conv.
        rewrite (take_S_r _ _ _ Hz), fmap_app. replace (n - i)%nat with (S (n - S i)) by lia. simpl.
        rewrite insert_app_r_alt by (rewrite fmap_length, take_length; lia). rewrite fmap_length, take_length.
        replace (i - i `min` length zs)%nat with 0%nat by lia. simpl. by rewrite <- app_assoc.
      * rewrite (take_S_r _ _ _ Hz). apply Forall_app. split; [done|]. apply Forall_singleton. unfold in_idx. lia.
  - rewrite Z.add_0_l in E. rewrite (bind_ok _ _ _ _ _ E). cbn [snd].
    destruct H as [[-> (-> & -> & HF)]|[Hi (-> & -> & HE)]].
    + eexists _, _. split; [done|]. split; [by apply Hcl|]. left. rewrite take_ge in HF by lia. split; [done|]. split; [done|].
      unfold conv. rewrite take_ge by lia. rewrite Nat.sub_diag. simpl. by rewrite app_nil_r.
    + eexists _, _. split; [done|]. split; [apply Hcl; lia|]. by right.
Qed.

(** ** reading the result *)
Lemma read_all_seg s p xs (k : nat) : seg s p xs -> forall j, (j + k <= length xs)%nat ->
  read_all k p (Z.of_nat j) s = Ok (take k (drop j xs)) s.
Proof.
  intros Sg. induction k as [|k IH]; intros j Hj; simpl; [done|].
  destruct (lookup_lt_is_Some_2 xs j ltac:(lia)) as [v Hv].
  rewrite (bind_ok _ _ _ _ _ (ld_ok _ _ _ _ (Sg j v Hv))).
  replace (Z.of_nat j + 1) with (Z.of_nat (S j)) by lia. rewrite (bind_ok _ _ _ _ _ (IH (S j) ltac:(lia))).
  rewrite (drop_S _ _ _ Hv). done.
Qed.
Lemma copy_out_seg s p xs n : seg s p xs -> n = Z.of_nat (length xs) -> copy_out n p s = Ok xs s.
Proof.
  intros Sg ->. unfold copy_out. rewrite Nat2Z.id. change 0 with (Z.of_nat 0). rewrite (read_all_seg s p xs _ Sg 0) by lia.
  simpl. by rewrite drop_0, take_ge by lia.
Qed.
Lemma copy_out_uninit s b n m : dm s !! b = Some (replicate m None) -> (1 <= m)%nat -> 1 <= n -> copy_out n (Ptr b 0) s = Ub UbUninit.
Proof.
  intros E Hm Hn. unfold copy_out. destruct (Z.to_nat n) eqn:En; [lia|]. simpl. unfold bind, ld, cell. simpl. rewrite E.
  destruct m; [lia|]. done.
Qed.
Lemma seg_live s b o xs : seg s (Ptr b o) xs -> xs <> [] -> is_Some (dm s !! b).
Proof.
  intros Sg Hne. destruct xs as [|v xs]; [done|]. specialize (Sg 0%nat v eq_refl). unfold cell in Sg.
  destruct (0 <=? _); [|done]. destruct (dm s !! b); [eauto|done].
Qed.
Lemma seg_dmb s s' b o xs : dm s' !! b = dm s !! b -> seg s (Ptr b o) xs -> seg s' (Ptr b o) xs.
Proof. intros E H i v Hi. specialize (H i v Hi). unfold cell in *. by rewrite E. Qed.

(** ** the state in which l1qc_dct is called *)
Definition log_to (k : Z) s : st := set_gl (fun g => mkGlob _ (g_d1 g) (g_d2 g) (g_tv g) (g_mt g) k) s.
Definition x_made (m : nat) s : st := tick (set_al (nx s) true (set_dm (<[nx s := replicate m None]>) s)).
Definition idx_made (cs : list Z) s : st := tick (set_im (<[nx s := cs]>) s).
Definition handed (m : nat) (cs : list Z) s : st := idx_made cs (x_made m (log_to mexPrintf s)).
Lemma handed_seg m cs s b o xs : unborn s -> xs <> [] -> seg s (Ptr b o) xs -> seg (handed m cs s) (Ptr b o) xs.
Proof.
  intros Hu Hne Sg. eapply seg_dmb; [|exact Sg]. simpl. apply lookup_insert_ne.
  destruct (seg_live _ _ _ _ Sg Hne) as [c Hc]. intros <-. rewrite (proj1 (Hu (nx s) ltac:(lia))) in Hc. done.
Qed.
Lemma handed_call m cs s nr nc ms bb bo bs : unborn s -> (1 <= nr)%nat -> (1 <= nc)%nat -> m = (nr * nc)%nat -> 2 * Z.of_nat m + 1 <= INT_MAX ->
  cs = Z.of_nat <$> ms -> (forall k, k ∈ ms -> (k < m)%nat) -> (1 <= length ms <= m)%nat -> seg s (Ptr bb bo) bs -> length bs = length ms ->
  dct_call (handed m cs s) nr nc (nx s + 1) 0 ms bb bo bs (nx s) 0.
Proof.
  intros Hu Hr Hc -> Hf -> Hin Hn Sb Lb. split; try done.
  - intros b Hb. simpl in *. rewrite lookup_insert_ne by lia. apply Hu. lia.
  - intros i k Hi. unfold ldi. simpl. rewrite (proj2 (Z.leb_le _ _)) by lia. replace (nx s + 1)%nat with (S (nx s)) by lia.
    rewrite lookup_insert, ?Z.add_0_l, Nat2Z.id, list_lookup_fmap, Hi. done.
  - simpl. rewrite lookup_insert_ne by lia. apply Hu. lia.
  - simpl. lia.
  - apply handed_seg; [done| |done]. intros ->. simpl in Lb. lia.
  - intros i Hi. unfold cell. simpl. rewrite (proj2 (Z.leb_le _ _)) by lia. rewrite lookup_insert, ?Z.add_0_l, Nat2Z.id. rewrite lookup_replicate_2 by lia. eauto.
  - simpl. rewrite Nat.eqb_refl. done.
Qed.
End monad.
