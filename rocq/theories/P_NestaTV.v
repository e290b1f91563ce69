(** * NESTA run with the DCT-TV transforms in analysis mode, in exact arithmetic. *)
From Coq Require Import ZArith Lia Reals Lra Psatz.
From stdpp Require Import base numbers gmap list.
From Verif Require Import Globals Mem M_Math M_Memory M_Status M_FFTW M_TV M_Dct M_TVt M_Nesta P_Mem P_Loop P_Math P_MathR P_TVR P_Touch P_Step P_TV P_Memory P_Own P_Own2 P_Own3 P_Newton L_Sum S_Vec L_Lin L_ER P_CGR P_NewtX P_NewtX2 P_NewtR L_Barrier S_Img S_Newt S_Dct L_Cos P_FFTW P_Dct1 P_Dct1s P_DctR P_Dct2 P_Dct2s P_Dct2R S_Mem S_Xform P_Xform S_DctApi P_Dct P_DctA S_TVtApi P_TVt P_TVs P_TVa P_TVuR S_Nesta L_Nesta P_Nesta P_Nesta2 P_Nesta3 P_NestaR P_NestaG P_NestaGR T_Dct T_TVt T_Nesta P_DctE P_TVtE.
Local Open Scope R_scope.
Local Notation sqrt := R_sqrt.sqrt.

(** a map with an adjoint is linear *)
Lemma adjoint_lin m n A B : (forall u, length u = m -> length (A u) = n) -> adjoint m n A B -> linmap m n A.
Proof.
  intros LA [LB HB]. split; [done|]. intros a u v Lu Lv i Hi.
  assert (E : forall y, length y = m -> nth i (A y) 0 = dot y (B (ebas n i))).
  { intros y Ly. rewrite <- HB by (done || apply ebas_length). rewrite dot_ebas; auto. }
  rewrite !E; [|done|done|by rewrite vlin_length]. rewrite dot_vlin_l; [lra|lia|]. rewrite LB by apply ebas_length. lia.
Qed.
Lemma adjoint_swap m n A B : (forall u, length u = m -> length (A u) = n) -> adjoint m n A B -> adjoint n m B A.
Proof. intros LA [LB HB]. split; [done|]. intros x y Lx Ly. rewrite dot_sym by (rewrite LB, Ly; done). rewrite <- HB by done. apply dot_sym. rewrite LA, Lx; done. Qed.
Lemma nodup_le (ms : list nat) m : NoDup ms -> (forall k, k ∈ ms -> (k < m)%nat) -> (length ms <= m)%nat.
Proof.
  intros ND H. rewrite <- (seq_length m 0). apply submseteq_length, NoDup_submseteq; [done|]. intros k Hk. apply elem_of_seq. specialize (H k Hk). lia.
Qed.

Section run.
Context (fft1 : fkind -> list er -> list er) (fft2 : fkind -> nat -> nat -> list er -> list er).
Context (fft1_len : forall k xs, length (fft1 k xs) = length xs).
Context (fft2_len : forall k nr nc xs, length xs = (nr * nc)%nat -> length (fft2 k nr nc xs) = (nr * nc)%nat).
Context (fft1_exact : forall k (x : list R), fft1 k (fin x) = fin (dft1 k x)).
Context (fft2_exact : forall k nr nc (x : list R), length x = (nr * nc)%nat -> fft2 k nr nc (fin x) = fin (dft2 k nr nc x)).
Context (s : @st ER) (nr nc : nat) (rv rh : R) (mode bp : Z) (mb : nat) (ms : list nat) (ax : @AxFuns ER) (s1 sb : @st ER) (axb : @AxFuns ER) (J : @st ER -> Prop).
Context (Lv : @live ER fft1 fft2 s nr nc (Fin rv) (Fin rh) mode bp mb ms ax s1 sb axb J) (Ebp : bp = analysis) (ND : NoDup ms).
Notation m := (nr * nc)%nat. Notation n := (length ms). Notation p := (@psize ER nr nc (Fin rv) (Fin rh)).
Notation F := (blocks_t s mb). Notation Q := (@Jx ER J axb nr nc (Fin rv) (Fin rh) (nx s) Known).
Notation inv := (xf_inv (Z.of_nat nr) (Z.of_nat nc) mode). Notation fwd := (xf_fwd (Z.of_nat nr) (Z.of_nat nc) mode).
Definition tvA : list er -> list er := @tR ER ms.
Definition tvB (ys : list er) : list er := @scatter ER ms (@at_ ER ys) (fin (repeat 0 m)).
Definition tvWt : list er -> list er := @Wt_of ER (@tMt ER fft1 fft2 nr nc mode) nr nc (Fin rv) (Fin rh).
Definition tvW : list er -> list er := @W_of ER (@tM ER fft1 fft2 nr nc mode sb) nr nc (Fin rv) (Fin rh).
Definition nW : R := sqrt (1 + 4 * rv ^ 2 + 4 * rh ^ 2).
Lemma Hbp : (bp =? synthesis)%Z = false. Proof. by rewrite Ebp. Qed.
Let hr := lv_r _ _ _ _ _ _ _ _ _ _ _ _ _ _ _ _ Lv.
Let hc := lv_c _ _ _ _ _ _ _ _ _ _ _ _ _ _ _ _ Lv.
Let hms := lv_ms _ _ _ _ _ _ _ _ _ _ _ _ _ _ _ _ Lv.
Let hax := an_ax _ _ _ _ _ _ _ _ _ _ _ _ _ _ _ _ Lv Hbp.
Let B := lv_base _ _ _ _ _ _ _ _ _ _ _ _ _ _ _ _ Lv.
Let hM := b_M _ _ _ _ _ _ _ _ _ _ _ B (exactE (Z.of_nat nr) (Z.of_nat nc) mode).
Let hMt := b_Mt _ _ _ _ _ _ _ _ _ _ _ B.
Let hR := b_R _ _ _ _ _ _ _ _ _ _ _ B.
Let hRt := b_Rt _ _ _ _ _ _ _ _ _ _ _ B.
Let hS := b_same _ _ _ _ _ _ _ _ _ _ _ B.
Let uu := lv_u _ _ _ _ _ _ _ _ _ _ _ _ _ _ _ _ Lv.
Let hb := lv_big _ _ _ _ _ _ _ _ _ _ _ _ _ _ _ _ Lv.
Let hi := lv_int _ _ _ _ _ _ _ _ _ _ _ _ _ _ _ _ Lv.
Let hF := lv_F _ _ _ _ _ _ _ _ _ _ _ _ _ _ _ _ Lv.
Lemma tv_A : @oper ER F Q (@M_TVt.call ER fft1 fft2 (ax_Ax ax)) m n tvA.
Proof. destruct hax as (nw & ag & Eax). rewrite Eax. rewrite hF. exact (@Rx_oper ER fft1 fft2 _ _ _ _ _ _ _ _ _ _ hR hS uu Known). Qed.
Lemma tv_W : @oper ER F Q (@M_TVt.call ER fft1 fft2 (ax_Wz ax)) p m tvW.
Proof. destruct hax as (nw & ag & Eax). rewrite Eax. rewrite hF. exact (@Wv_oper ER fft1 fft2 _ _ _ _ _ _ _ _ _ hM hS uu hb hi Known ltac:(done)). Qed.
Lemma tv_Wt : @oper ER F Q (@M_TVt.call ER fft1 fft2 (ax_Wtx ax)) m p tvWt.
Proof. destruct hax as (nw & ag & Eax). rewrite Eax. rewrite hF. exact (@Wtx_oper ER fft1 fft2 _ _ _ _ _ _ _ _ _ hMt hS uu hb hi Known). Qed.
Lemma scal_zero (d : list R) : @scal_of ER m zero (fin d) = fin (repeat 0 m).
Proof.
  unfold scal_of. rewrite (tab_fin' m _ (fun _ => 0)).
  - f_equal. apply (list_eq_nth m); [apply (@tab_length RN)|apply repeat_length|]. intros i Hi. rewrite nth_tab by done. symmetry. apply nth_repeat.
  - intros i _. rewrite at_fin, zero_E. cbn [mul ER er_mul]. f_equal. lra.
Qed.
Lemma tv_B : @operd ER isnum F Q (@M_TVt.call ER fft1 fft2 (ax_Aty ax)) n m tvB.
Proof.
  split.
  - intros t X xs D ds HQ Sx Lx Sd Ld Gd Hd Ax Ad Ox Od. destruct (isnum_list ds Gd) as [d ->].
    pose proof (@c_Rty ER fft1 fft2 _ _ _ _ _ _ _ _ _ _ _ _ _ _ Lv Known) as HC.
    destruct (HC t X xs D (fin d)) as (_ & t' & E & HT & HJ'); [done|split; try done; cbn [x_out]; rewrite <- Ld; by apply seg_wok|].
    cbn [x_op] in E. exists t'. destruct hax as (nw & ag & Eax). rewrite Eax. split; [exact E|]. split; [|exact HJ'].
    assert (EB : tvB xs = @scatter ER ms (@at_ ER xs) (@scal_of ER m zero (fin d))) by (unfold tvB; by rewrite scal_zero). rewrite EB. exact HT.
  - intros xs _. unfold tvB. rewrite (@scatter_len ER), fin_length. apply repeat_length.
Qed.
Lemma tv_Q_same t t' : Q t -> same_on F t t' -> Q t'.
Proof. rewrite hF. apply Jx_same. exact hS. Qed.
Lemma tv_hist t : hist F (@analysis_ops ER fft1 fft2 ax n m p) s1 t -> Q t.
Proof. exact (an_hist _ _ _ _ _ _ _ _ _ _ _ _ _ _ _ _ Lv (exactE _ _ _) Hbp t). Qed.
Lemma tv_p : (1 <= p)%nat. Proof. unfold psize. pose proof hr. pose proof hc. nia. Qed.
Lemma tv_n : (n <= m)%nat. Proof. by apply nodup_le. Qed.
Lemma tv_sizes : ax_m ax = Z.of_nat m /\ ax_n ax = Z.of_nat n /\ ax_p ax = Z.of_nat p. Proof. destruct hax as (nw & ag & Eax). rewrite Eax. done. Qed.
Lemma tv_fields : fields_set ax = true. Proof. destruct hax as (nw & ag & Eax). rewrite Eax. done. Qed.
Lemma tv_nW : ax_norm_W ax = Fin nW.
Proof.
  destruct (lv_ax _ _ _ _ _ _ _ _ _ _ _ _ _ _ _ _ Lv) as (a0 & Ea0). rewrite Ea0. unfold ax_fin, normw. rewrite Ebp. unfold ofZ. change (analysis =? synthesis)%Z with false. change (analysis =? analysis)%Z with true. cbn [ax_norm_W]. rewrite ?one_ER. cbn [lit ER mul add er_mul er_add]. 
  unfold nW. cbn [sqrt_ ER]. rewrite sqrt_fin by (rewrite ?one_RN; nra). do 2 f_equal. rewrite ?one_RN. lra.
Qed.
Lemma nW_pos : 0 < nW. Proof. apply sqrt_lt_R0. nra. Qed.
Lemma big3 : (0 < rv \/ 0 < rh) -> (3 <= nr)%nat /\ (3 <= nc)%nat.
Proof.
  intros Hp. apply hb. cbn [ltb_ ER]. rewrite zero_E. cbn [er_ltb]. unfold Rltb. destruct Hp; [left|right]; (destruct (Rlt_dec _ _); [done|lra]).
Qed.
Lemma psz : p = (nblocks rv rh * m)%nat. Proof. rewrite psize_E. apply psize_R. Qed.
Lemma d_len x : length x = m -> length (dictT fwd nr nc rv rh x) = p.
Proof. rewrite psz. apply (dictT_len inv fwd); [by apply xf_adj|exact big3]. Qed.
Lemma d_adj : adjoint m p (dictT fwd nr nc rv rh) (dict inv nr nc rv rh).
Proof.
  rewrite psz. apply adjoint_swap; [intros; apply vec_len|]. apply dict_adjoint; [by apply xf_adj|intros v _; apply xf_len|exact big3].
Qed.
Lemma d_lin : linmap m p (dictT fwd nr nc rv rh).
Proof. eapply adjoint_lin; [apply d_len|apply d_adj]. Qed.
Lemma s_adj : adjoint m n (sample ms) (spread m ms).
Proof. split; [intros; apply vec_len|]. intros x y Lx Ly. by apply sample_adjoint. Qed.
Lemma s_lin : linmap m n (sample ms).
Proof. eapply adjoint_lin; [intros; apply vec_len|apply s_adj]. Qed.
Lemma s_unit : unit_rows n (sample ms) (spread m ms).
Proof. intros y Ly. by apply sample_spread. Qed.
Lemma tvB_fin v : length v = n -> tvB (fin v) = fin (spread m ms v).
Proof.
  intros L. transitivity (@tRt ER nr nc ms (fin (repeat 0 m)) (fin v)); [|by apply Rt_E].
  unfold tvB, tRt. by rewrite scal_zero.
Qed.
(** the first m entries of W^T A^T b are the DCT of b put at its places: they vanish only with b *)
Lemma starts_iff (bv : list R) : length bv = n -> (exists i, nth i bv 0 <> 0) -> starts_positive m (dictT fwd nr nc rv rh (spread m ms bv)).
Proof.
  intros Lb (i & Hi). assert (Ls : length (spread m ms bv) = m) by apply vec_len.
  assert (Hn : 0 < nrm2sq (fwd (spread m ms bv))).
  { rewrite xf_iso by done. assert (Hi' : (i < n)%nat) by (destruct (Nat.lt_ge_cases i (length bv)); [lia|]; rewrite nth_overflow in Hi by done; lra).
    pose proof (s_unit bv Lb) as E. rewrite <- E in Hi. unfold sample in Hi. rewrite (vec_nth _ (fun i => _)) in Hi by done.
    assert (Hk : (nth i ms 0 < m)%nat) by (apply hms, elem_of_list_In, nth_In; done).
    unfold nrm2sq. rewrite Ls. eapply Rlt_le_trans; [|apply (Rsum_term_le m _ (nth i ms 0%nat)); [intros; apply pow2_ge_0|done]]. cbv beta. nra. }
  destruct (Classical_Prop.classic (exists k, (k < m)%nat /\ nth k (fwd (spread m ms bv)) 0 <> 0)) as [(k & Hk & Hk2)|Hz].
  - exists k. rewrite d_len by done. unfold psize. split; [lia|]. left. split; [done|]. unfold dictT. rewrite app_nth1; [done|]. by rewrite (proj2 (xf_len nr nc mode _)).
  - exfalso. assert (E : nrm2sq (fwd (spread m ms bv)) = 0); [|lra]. unfold nrm2sq. rewrite (proj2 (xf_len nr nc mode _)).
    apply Rsum_0. intros k Hk.
    assert (nth k (fwd (spread m ms bv)) 0 = 0) as ->; [|lra]. apply Classical_Prop.NNPP. intros Hne. apply Hz. eauto.
Qed.
Context (bx bb : nat) (bv : list R) (opts : @NestaOpts ER) (sg mu : R) (t : @st ER).
Context (Lb : length bv = n) (Es : no_sigma opts = Fin sg) (Hs : 0 < sg) (Em : no_mu opts = Fin mu) (Hmu : 0 < mu).
Context (Hst : (no_n_continue opts <= 0)%Z \/ exists i, nth i bv 0 <> 0).
Lemma start_or : (no_n_continue opts <= 0)%Z \/
  (exists i, (i < p)%nat /\ 0 < (if (i <? m)%nat then Rabs (nth i (dictT fwd nr nc rv rh (spread m ms bv)) 0) else nth i (dictT fwd nr nc rv rh (spread m ms bv)) 0)).
Proof.
  destruct Hst as [H|H]; [by left|right]. apply (starts_iff bv Lb) in H. apply starts_pos in H. rewrite d_len in H by apply vec_len. done.
Qed.
Lemma tv_EL : @ne_L ER ax = Fin (nW * nW). Proof. unfold ne_L. rewrite tv_nW. done. Qed.
Lemma LL : 0 < nW * nW. Proof. pose proof nW_pos. nra. Qed.
Lemma tv_ok : @all_ok ER isnum m n p tvA tvB tvWt tvW ax (fin bv) opts.
Proof.
  apply (all_num m n p tvA tvB tvWt tvW (sample ms) (spread m ms) (dictT fwd nr nc rv rh) (dict inv nr nc rv rh) bv sg (nW * nW)) with (mu := mu); try done.
  - apply s_lin. - apply s_adj. - apply s_unit. - apply d_lin. - apply d_adj.
  - intros v _. apply R_E. - apply tvB_fin.
  - intros v Lx. apply Wt_E; try done. intros Hh. apply big3. by right.
  - intros v _. by apply W_E.
  - apply LL. - apply tv_EL. - apply tv_p. - apply start_or.
Qed.
Lemma tv_result : exists x, @ne_result ER m n p tvA tvB tvWt tvW (fin bv) (tvB (fin bv)) (no_sigma opts) (@ne_L ER ax) (no_mu opts) (no_tol opts) (no_n_continue opts) = fin x /\
  length x = m /\ feasible (sample ms) bv sg x.
Proof.
  rewrite Es, Em, tv_EL, tvB_fin by done.
  apply (result_feasible m n p tvA tvB tvWt tvW (sample ms) (spread m ms) (dictT fwd nr nc rv rh) (dict inv nr nc rv rh) bv sg (nW * nW)); try done.
  - apply s_lin. - apply s_adj. - apply s_unit. - apply d_lin. - apply d_adj.
  - intros v _. apply R_E. - apply tvB_fin.
  - intros v Lx. apply Wt_E; try done. intros Hh. apply big3. by right.
  - intros v _. by apply W_E.
  - apply LL. - apply tv_p. - apply start_or.
Qed.
End run.
