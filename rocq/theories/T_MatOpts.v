(** * What the MATLAB option builders hand to the solvers (interfaces/mex/l1qc_dct_opts.m, nesta_opts.m). *)
From Coq Require Import Reals ZArith Lia Lra.
From stdpp Require Import base numbers gmap list strings.
From Verif Require Import Globals Mem M_Math M_Memory M_Status M_CG M_LineSearch M_FFTW M_Dct1 M_Dct2 M_Dct M_TVt M_Newton M_L1qcDct M_Bregman M_Nesta
  M_Logging M_MexUtils M_Mex P_Mem P_Loop S_Mem P_Touch P_Math P_CG P_Memory P_Own P_Newton P_FFTW P_Dct1s S_DctApi P_Dct S_L1qcDct S_Mex P_Mex P_Mex2
  S_Xform P_Xform S_TVtApi P_TVt P_TVs P_TVa T_TVt P_Nesta P_Nesta2 S_MexNesta P_MexNesta L_ER S_Vec S_Newt S_Dct T_Bregman T_Nesta T_NestaTV T_Mex T_L1qcDct P_MathR P_TVR P_DctE P_TVtE S_Nesta S_NestaRate T_NestaTVRate T_Dct T_MexNesta M_MatOpts P_NewtX P_Newt2 P_L1qcDct P_Newt3 T_Newton P_Newt5 P_Newt7 P_Newt8.
Local Open Scope Z_scope.

Section matopts.
Context `{N : Num}.
Implicit Types (s : st) (args : list (string * mxArray)).
(** the pairs do not name [n] *)
Definition absent args (n : string) : Prop := Forall (fun kv => lower (fst kv) <> lower n) args.
(** the last pair that names [n] has the value [a] *)
Definition last_pair args (n : string) (a : mxArray) : Prop :=
  exists l1 k l2, args = l1 ++ (k, a) :: l2 /\ lower k = lower n /\ absent l2 n.
(** the option [n] is the number [v]: that of the last pair, or the default [d] *)
Definition set_to s args (n : string) (d v : T) : Prop := (exists a, last_pair args n a /\ scalar s a v) \/ (absent args n /\ v = d).
Definition set_to_int s args (n : string) (d : T) (z : Z) : Prop := exists v, set_to s args n d v /\ toint v = Some z.
(** every pair names one of [l] *)
Definition known (l : list string) args : Prop := Forall (fun kv => exists n, n ∈ l /\ lower (fst kv) = lower n) args.
Definition l1qc_names : list string :=
  ["epsilon"; "mu"; "lbtol"; "tau"; "lbiter"; "newton_tol"; "newton_max_iter"; "verbose"; "l1_tol"; "cgtol"; "cgmaxiter"; "warm_start_cg"; "dct_mode"].
Definition nesta_names : list string := ["sigma"; "mu"; "tol"; "alpha_v"; "alpha_h"; "verbose"; "n_continue"; "dct_mode"; "bp_mode"].
(** what MATLAB had before is still there *)
Definition kept s s' : Prop :=
  unborn s' /\ (nx s <= nx s')%nat /\ (forall b, (b < nx s)%nat -> dm s' !! b = dm s !! b) /\
  im s' = im s /\ pm s' = pm s /\ om s' = om s /\ en s' = en s /\ gl s' = gl s.

(** ** inputParser *)
Lemma same_spec a b : same_name a b = true <-> lower a = lower b.
Proof. apply String.eqb_eq. Qed.
Lemma given_absent args n d : absent args n -> last_given args n d = d.
Proof.
  revert d. induction args as [|[k v] l IH]; intros d H; [done|]. apply Forall_cons_1 in H as [H1 H2]. cbn [last_given].
  destruct (same_name k n) eqn:E; [by apply same_spec in E|]. by apply IH.
Qed.
Lemma given_last args n a d : last_pair args n a -> last_given args n d = a.
Proof.
  intros (l1 & k & l2 & -> & Hk & H2). revert d. induction l1 as [|[k' v'] l1 IH]; intros d.
  - cbn [app last_given]. rewrite (proj2 (same_spec k n) Hk). by apply given_absent.
  - cbn [app last_given]. apply IH.
Qed.
Lemma known_check (defs args : list (string * mxArray)) : known (fst <$> defs) args <-> 
  forallb (fun kv => existsb (fun nd => same_name (fst kv) (fst nd)) defs) args = true.
Proof.
  rewrite forallb_forall. unfold known. rewrite Forall_forall. split; intros H kv Hkv.
  - apply existsb_exists. destruct (H kv ltac:(by apply elem_of_list_In)) as (n & Hn & E). apply elem_of_list_fmap in Hn as (nd & -> & Hnd).
    exists nd. split; [by apply elem_of_list_In|]. by apply same_spec.
  - apply elem_of_list_In in Hkv. apply H in Hkv. apply existsb_exists in Hkv as (nd & Hnd & E). apply same_spec in E. exists (fst nd). split; [|done].
    apply elem_of_list_fmap. exists nd. split; [done|by apply elem_of_list_In].
Qed.
Lemma parse_known defs args : known (fst <$> defs) args -> parse_params defs args = Some ((fun nd => (fst nd, last_given args (fst nd) (snd nd))) <$> defs).
Proof. intros H. unfold parse_params. by rewrite (proj1 (known_check _ _) H). Qed.
Lemma parse_unknown defs args : ~ known (fst <$> defs) args -> parse_params defs args = None.
Proof. intros H. unfold parse_params. destruct (forallb _ _) eqn:E; [|done]. by apply known_check in E. Qed.

(** ** the literals *)
Lemma kept_refl s : unborn s -> kept s s.
Proof. intros Hu. split; [done|]. split; [lia|]. by repeat split. Qed.
Lemma kept_trans s1 s2 s3 : kept s1 s2 -> kept s2 s3 -> kept s1 s3.
Proof.
  intros (A1 & A2 & A3 & A4 & A5 & A6 & A7 & A8) (B1 & B2 & B3 & B4 & B5 & B6 & B7 & B8).
  split; [done|]. split; [lia|]. split; [|repeat split; congruence]. intros b Hb. rewrite B3 by lia. by apply A3.
Qed.
Lemma kept_seg s s' p xs : unborn s -> kept s s' -> seg s p xs -> seg s' p xs.
Proof.
  intros Hu (_ & _ & H & _) Hs i v Hv. pose proof (Hs i v Hv) as Hc. unfold cell in *. destruct p as [|b o]; [done|].
  destruct (0 <=? o + Z.of_nat i); [|done]. destruct (dm s !! b) eqn:E; [|done]. rewrite H, E; [done|].
  destruct (decide (b < nx s)%nat); [done|]. by rewrite (proj1 (Hu b ltac:(lia))) in E.
Qed.
Lemma kept_scalar s s' a v : unborn s -> kept s s' -> scalar s a v -> scalar s' a v.
Proof. intros Hu K (A & B & C & D). split; [done|]. split; [done|]. split; [done|]. by apply (kept_seg s). Qed.
Lemma kept_vector s s' a p vs : unborn s -> kept s s' -> vector s a p vs -> vector s' a p vs.
Proof. intros Hu K (A & B & C & D & E & F & G). repeat (split; [done|]). by apply (kept_seg s). Qed.
Lemma scalar_run s v : unborn s -> exists a s', mxScalar v s = Ok a s' /\ kept s s' /\ scalar s' a v.
Proof.
  intros Hu. eexists _, _. split; [reflexivity|]. split.
  - split; [|repeat split; simpl; try lia; intros b Hb; rewrite lookup_insert_ne by lia; done].
    intros b Hb. simpl in *. rewrite lookup_insert_ne by lia. apply Hu. lia.
  - split; [done|]. split; [done|]. split; [done|]. intros i x Hx. apply list_lookup_singleton_Some in Hx as [-> <-].
    unfold cell. simpl. by rewrite lookup_insert.
Qed.
Lemma add_run l s : unborn s -> exists ds s', add_params l s = Ok ds s' /\ kept s s' /\ Forall2 (fun nv na => fst na = fst nv /\ scalar s' (snd na) (snd nv)) l ds.
Proof.
  revert s. induction l as [|[n v] l IH]; intros s Hu; cbn [add_params].
  - eexists _, _. split; [reflexivity|]. split; [by apply kept_refl|constructor].
  - destruct (scalar_run s v Hu) as (a & s1 & E1 & K1 & S1). rewrite (bind_ok _ _ _ _ _ E1).
    destruct (IH s1 (proj1 K1)) as (ds & s2 & E2 & K2 & F2). rewrite (bind_ok _ _ _ _ _ E2).
    eexists _, _. split; [reflexivity|]. split; [by apply (kept_trans s s1)|]. constructor; [|done]. split; [done|].
    simpl. exact (kept_scalar s1 s2 a v (proj1 K1) K2 S1).
Qed.
(** the value an option gets *)
Lemma get_value s s' args n d v f : unborn s -> kept s s' -> scalar s' f d -> set_to s args n d v -> scalar s' (last_given args n f) v.
Proof.
  intros Hu K Hf [(a & HL & Ha)|[HA ->]].
  - rewrite (given_last _ _ _ _ HL). by apply (kept_scalar s).
  - by rewrite (given_absent _ _ _ HA).
Qed.
End matopts.

Ltac split_defs F := repeat (apply Forall2_cons_inv_l in F as ([? ?] & ? & [? ?] & F & ->)); apply Forall2_nil_inv_l in F as ->; cbn [fst snd] in *; subst.
Ltac get Hu K := eexists; split; [cbn; reflexivity|]; eapply (get_value _ _ _ _ _ _ _ Hu K); eassumption.

Section builders.
Context `{N : Num}.
Implicit Types (s : st) (args : list (string * mxArray)).
(** The options a user of l1qc_dct_opts asks for. *)
Record l1qc_asked s args (o : L1qcOpts) : Prop := {
  q_known : known l1qc_names args;
  q_eps : set_to s args "epsilon" (lit 1 10) (lo_epsilon o); q_mu : set_to s args "mu" (ofZ 10) (lo_mu o);
  q_lt : set_to s args "lbtol" (lit 1 1000) (lo_lbtol o); q_tau : set_to s args "tau" zero (lo_tau o);
  q_nt : set_to s args "newton_tol" (lit 1 1000) (lo_newton_tol o); q_l1 : set_to s args "l1_tol" (lit 1 100000) (lo_l1_tol o);
  q_cg : set_to s args "cgtol" (lit 1 100000000) (lo_cg_tol o);
  q_lb : set_to_int s args "lbiter" zero (lo_lbiter o); q_ni : set_to_int s args "newton_max_iter" (ofZ 50) (lo_newton_max_iter o);
  q_v : set_to_int s args "verbose" (ofZ 2) (lo_verbose o); q_ci : set_to_int s args "cgmaxiter" (ofZ 200) (lo_cg_maxiter o);
  q_w : set_to_int s args "warm_start_cg" zero (lo_warm_start_cg o); q_dct : set_to_int s args "dct_mode" one (lo_dct_mode o) }.

(** The struct that l1qc_dct_opts returns is one that l1qc_dct reads, with the options the user asked for; the arrays MATLAB
    had before are still there. *)
Theorem l1qc_options_built s args o : unborn s -> l1qc_asked s args o ->
  exists a s', l1qc_dct_opts args s = Ok (Some a) s' /\ kept s s' /\ l1qc_struct s' a o.
Proof.
  intros Hu [HK ?? ?? ?? ? (v1 & ? & ?) (v2 & ? & ?) (v3 & ? & ?) (v4 & ? & ?) (v5 & ? & ?) (v6 & ? & ?)].
  destruct (add_run l1qc_defaults s Hu) as (ds & s' & E & K & F).
  unfold l1qc_dct_opts. rewrite (bind_ok _ _ _ _ _ E). unfold l1qc_defaults in F. split_defs F.
  rewrite parse_known by exact HK. eexists _, s'. split; [reflexivity|]. split; [done|].
  constructor; [repeat split; reflexivity|..]; first [get Hu K|eexists; split; [get Hu K|eassumption]].
Qed.
(** Any other name is an error. *)
Theorem l1qc_options_unknown s args : unborn s -> ~ known l1qc_names args -> exists s', l1qc_dct_opts args s = Ok None s'.
Proof.
  intros Hu HK. destruct (add_run l1qc_defaults s Hu) as (ds & s' & E & K & F).
  unfold l1qc_dct_opts. rewrite (bind_ok _ _ _ _ _ E). unfold l1qc_defaults in F. split_defs F.
  rewrite parse_unknown by exact HK. by eexists.
Qed.

(** The options a user of nesta_opts asks for, but for bp_mode. *)
Record nesta_asked s args (o : NestaOpts) (av ah : T) (mode : Z) : Prop := {
  t_known : known nesta_names args;
  t_sigma : set_to s args "sigma" (lit 1 100) (no_sigma o); t_mu : set_to s args "mu" (lit 1 100000) (no_mu o); t_tol : set_to s args "tol" (lit 1 1000) (no_tol o);
  t_av : set_to s args "alpha_v" zero av; t_ah : set_to s args "alpha_h" zero ah; t_v : set_to_int s args "verbose" (ofZ 5) (no_verbose o);
  t_nc : set_to_int s args "n_continue" (ofZ 5) (no_n_continue o); t_dct : set_to_int s args "dct_mode" one mode }.
(** bp_mode is the text [t] *)
Definition mode_text args (t : string) : Prop :=
  (exists m n nd p f, last_pair args "bp_mode" (MxA (MxChar t) m n nd p f)) \/ (absent args "bp_mode" /\ t = "analysis"%string).
Theorem nesta_options_built s args o av ah mode t : unborn s -> nesta_asked s args o av ah mode -> mode_text args t ->
  exists a s', nesta_opts args s = Ok (Some a) s' /\ kept s s' /\
    (t = "analysis"%string -> nesta_struct s' a o av ah mode analysis) /\ (t = "synthesis"%string -> nesta_struct s' a o av ah mode synthesis) /\
    (t <> "analysis"%string -> t <> "synthesis"%string -> nesta_mex_opts a s' = Ok (Err "l1c:badField") s').
Proof.
  intros Hu [HK ?? ?? ? (v1 & ? & ?) (v2 & ? & ?) (v3 & ? & ?)] Ht.
  destruct (add_run nesta_defaults s Hu) as (ds & s' & E & K & F).
  unfold nesta_opts. rewrite (bind_ok _ _ _ _ _ E). unfold nesta_defaults in F. split_defs F.
  rewrite parse_known by exact HK. eexists _, s'. split; [reflexivity|]. split; [done|].
  match goal with |- context [nesta_struct s' ?a] => set (st := a) end.
  assert (exists f, mxGetField st "bp_mode" = Some f /\ forall k, mxGetString f k = if (String.length t <? k)%nat then Some t else None) as (f & Ef & Et).
  { eexists. split; [cbn; reflexivity|]. destruct Ht as [(x1 & x2 & x3 & x4 & x5 & HL)|[HA ->]]; [by rewrite (given_last _ _ _ _ HL)|by rewrite (given_absent _ _ _ HA)]. }
  assert (forall bp, (t = "analysis"%string /\ bp = analysis) \/ (t = "synthesis"%string /\ bp = synthesis) -> nesta_struct s' st o av ah mode bp) as HS.
  { intros bp Hb. constructor; [repeat split; reflexivity|get Hu K|eexists; split; [get Hu K|eassumption]|get Hu K|get Hu K|eexists; split; [get Hu K|eassumption]|get Hu K|get Hu K|eexists; split; [get Hu K|eassumption]|].
    exists f, t. split; [done|]. split; [|done]. rewrite Et. by destruct Hb as [[-> _]|[-> _]]. }
  split; [|split]; [intros ->; apply HS; by left|intros ->; apply HS; by right|]. intros Ht1 Ht2.
  assert (field s' st "sigma" (no_sigma o)) as F1 by (get Hu K).
  assert (field_int s' st "verbose" (no_verbose o)) as F2 by (eexists; split; [get Hu K|eassumption]).
  assert (field s' st "mu" (no_mu o)) as F3 by (get Hu K). assert (field s' st "tol" (no_tol o)) as F4 by (get Hu K).
  assert (field_int s' st "n_continue" (no_n_continue o)) as F5 by (eexists; split; [get Hu K|eassumption]).
  assert (field s' st "alpha_v" av) as F6 by (get Hu K). assert (field s' st "alpha_h" ah) as F7 by (get Hu K).
  assert (field_int s' st "dct_mode" mode) as F8 by (eexists; split; [get Hu K|eassumption]).
  unfold nesta_mex_opts.
  rewrite (mbind_val _ _ _ _ _ (field_run _ _ _ _ F1)). rewrite (field_int_run _ _ _ _ _ F2).
  rewrite (mbind_val _ _ _ _ _ (field_run _ _ _ _ F3)), (mbind_val _ _ _ _ _ (field_run _ _ _ _ F4)). rewrite (field_int_run _ _ _ _ _ F5).
  rewrite (mbind_val _ _ _ _ _ (field_run _ _ _ _ F6)), (mbind_val _ _ _ _ _ (field_run _ _ _ _ F7)). rewrite (field_int_run _ _ _ _ _ F8).
  rewrite Ef, Et. destruct (_ <? _)%nat; [|done].
  destruct (String.eqb_spec t "synthesis"); [done|]. by destruct (String.eqb_spec t "analysis").
Qed.
Theorem nesta_options_unknown s args : unborn s -> ~ known nesta_names args -> exists s', nesta_opts args s = Ok None s'.
Proof.
  intros Hu HK. destruct (add_run nesta_defaults s Hu) as (ds & s' & E & K & F).
  unfold nesta_opts. rewrite (bind_ok _ _ _ _ _ E). unfold nesta_defaults in F. split_defs F.
  rewrite parse_unknown by exact HK. by eexists.
Qed.

(** ** The whole call in MATLAB: l1qc_dct(nr, nc, b, pix_idx, l1qc_dct_opts(...)). *)
(** the four arguments with the data *)
Record l1qc_data s (a0 a1 a2 a3 : mxArray) (nr nc : nat) (bb : nat) (bo : Z) (bs : list T) (pi : ptr) (vs : list T) (zs : list Z) : Prop := {
  d_u : unborn s; d_im : forall b, (nx s <= b)%nat -> im s !! b = None;
  d_r : (1 <= nr)%nat; d_c : (1 <= nc)%nat; d_fit : Z.of_nat (nr * nc) <= INT_MAX;
  d_nr : exists v, scalar s a0 v /\ toint v = Some (Z.of_nat nr); d_nc : exists v, scalar s a1 v /\ toint v = Some (Z.of_nat nc);
  d_b : vector s a2 (Ptr bb bo) bs; d_p : vector s a3 pi vs;
  d_len : length vs = length bs; d_lt : (length bs < nr * nc)%nat;
  d_zs : Forall2 (fun v z => toint v = Some z /\ INT_MIN < z <= INT_MAX) vs zs }.
(** The struct that was built completes the arguments of a correct call, with the options that were asked for. *)
Theorem l1qc_called_with_options s args o a0 a1 a2 a3 nr nc bb bo bs pi vs zs : l1qc_data s a0 a1 a2 a3 nr nc bb bo bs pi vs zs -> l1qc_asked s args o ->
  exists a s', l1qc_dct_opts args s = Ok (Some a) s' /\ kept s s' /\ l1qc_args s' [a0; a1; a2; a3; a] nr nc bb bo bs pi vs zs o.
Proof.
  intros [Hu Him Hr Hc Hf (v0 & S0 & T0) (v1 & S1 & T1) V2 V3 HL Hlt HZ] HA.
  destruct (l1qc_options_built s args o Hu HA) as (a & s' & E & K & HS). exists a, s'. split; [done|]. split; [done|].
  pose proof K as (K1 & K2 & _ & K4 & _). constructor; try assumption.
  - intros b Hb. rewrite K4. apply Him. lia.
  - exists a0, a1, a2, a3, a, v0, v1. split; [done|]. split; [by apply (kept_scalar s)|]. split; [done|]. split; [by apply (kept_scalar s)|].
    split; [done|]. split; [by apply (kept_vector s)|]. split; [by apply (kept_vector s)|done].
Qed.
Theorem nesta_called_with_options s args o av ah mode t bp a0 a1 a2 a3 nr nc bb bo bs pi vs zs : l1qc_data s a0 a1 a2 a3 nr nc bb bo bs pi vs zs ->
  nesta_asked s args o av ah mode -> mode_text args t -> (t = "analysis"%string /\ bp = analysis) \/ (t = "synthesis"%string /\ bp = synthesis) ->
  exists a s', nesta_opts args s = Ok (Some a) s' /\ kept s s' /\ nesta_args s' [a0; a1; a2; a3; a] nr nc bb bo bs pi vs zs o av ah mode bp.
Proof.
  intros [Hu Him Hr Hc Hf (v0 & S0 & T0) (v1 & S1 & T1) V2 V3 HL Hlt HZ] HA HT Hb.
  destruct (nesta_options_built s args o av ah mode t Hu HA HT) as (a & s' & E & K & HS1 & HS2 & _). exists a, s'. split; [done|]. split; [done|].
  pose proof K as (K1 & K2 & _ & K4 & _). constructor; try assumption.
  - intros b Hb'. rewrite K4. apply Him. lia.
  - exists a0, a1, a2, a3, a, v0, v1. split; [done|]. split; [by apply (kept_scalar s)|]. split; [done|]. split; [by apply (kept_scalar s)|].
    split; [done|]. split; [by apply (kept_vector s)|]. split; [by apply (kept_vector s)|]. destruct Hb as [[H1 ->]|[H1 ->]]; [by apply HS1|by apply HS2].
Qed.
(** ** What the comments in the two files say. *)
Lemma unknown_pair l args k v : (k, v) ∈ args -> forallb (fun n => negb (same_name k n)) l = true -> ~ known l args.
Proof.
  intros Hin Hl HK. unfold known in HK. rewrite Forall_forall in HK. destruct (HK _ Hin) as (n & Hn & E).
  rewrite forallb_forall in Hl. apply elem_of_list_In in Hn. specialize (Hl n Hn). cbn [fst] in E. apply same_spec in E. by rewrite E in Hl.
Qed.
(** nesta_opts.m:15 documents an option 'mode', with the values 'analysis' and 'synthesys'.  The name is refused by nesta_opts in every call,
    and under the name bp_mode the text 'synthesys' is refused by nesta_dctTV. *)
Theorem nesta_documented_mode_refuted s args o av ah mode v : unborn s ->
  ((("mode"%string, v) ∈ args) -> exists s', nesta_opts args s = Ok None s') /\
  (nesta_asked s args o av ah mode -> mode_text args "synthesys" -> 
     exists a s', nesta_opts args s = Ok (Some a) s' /\ nesta_mex_opts a s' = Ok (Err "l1c:badField") s').
Proof.
  intros Hu. split.
  - intros Hin. apply nesta_options_unknown; [done|]. by apply (unknown_pair _ _ _ _ Hin).
  - intros HA HT. destruct (nesta_options_built s args o av ah mode _ Hu HA HT) as (a & s' & E & _ & _ & _ & H3). exists a, s'. split; [done|]. by apply H3.
Qed.
(** The option dct_mode of l1qc_dct_opts is accepted and then not used: l1qc_dct takes the one-dimensional DCT of the whole image. *)
Theorem l1qc_dct_mode_refuted s args o : unborn s -> l1qc_asked s args o ->
  exists a s' o', l1qc_dct_opts args s = Ok (Some a) s' /\ l1qc_mex_opts a s' = Ok (Val o') s' /\ lo_dct_mode o' = dct1.
Proof.
  intros Hu HA. destruct (l1qc_options_built s args o Hu HA) as (a & s' & E & K & HS). exists a, s', (with_mode o dct1).
  split; [done|]. split; [by apply opts_run|done].
Qed.
End builders.

(** l1qc_dct_opts.m:20 says that l1_tol is 0 by default; it is 1e-5. *)
Theorem l1_tol_default_refuted (s : @st ER) args o : @l1qc_asked ER s args o -> absent args "l1_tol" -> lo_l1_tol o = Fin (1 / 100000) /\ lo_l1_tol o <> @zero ER.
Proof.
  intros HA Hab. destruct (q_l1 _ _ _ HA) as [(a & (l1 & k & l2 & -> & Hk & _) & _)|[_ E]].
  - exfalso. apply Forall_app in Hab as [_ Hab]. by apply Forall_cons_1 in Hab as [Hab _].
  - assert (@lit ER 1 100000 = Fin (1 / 100000)) as El by (cbn; f_equal; lra). rewrite E, El. split; [done|]. intros C. injection C as C. lra.
Qed.

(** ** Concrete cases *)
Module MatOptsEx.
Import MexEx.
Local Open Scope R_scope.
(** block 0: the number 2, rows and columns of the image; 1 the measurements, 2 their places, 3 epsilon, 4 another epsilon *)
Definition m0 : @st ER := @mem ER (@env0 ER) [[@ofZ ER 2]; fin [1; 2]; [@ofZ ER 4; @ofZ ER 1]; [Fin (1/2)]; [Fin 3]].
Definition pairs : list (string * mxArray) := [("epsilon", sc 4); ("lbIter", sc 0); ("dct_mode", sc 0); ("Epsilon", sc 3)]%string.
Definition opt0 : @L1qcOpts ER :=
  @mkL1qc ER (Fin (1/2)) (@ofZ ER 10) (@lit ER 1 1000) (@zero ER) 2 (@lit ER 1 1000) 50 2 (@lit ER 1 100000) (@lit ER 1 100000000) 200 0 0 2.
Lemma iz z : in_int z = true -> @toint ER (@ofZ ER z) = Some z.
Proof. intros Hz. rewrite ofZ_ER. by apply toint_ER. Qed.
Lemma iz0 : @toint ER (@zero ER) = Some 0%Z. Proof. exact (iz 0 eq_refl). Qed.
Lemma not_named n : forallb (fun kv => negb (same_name (fst kv) n)) pairs = true -> absent pairs n.
Proof.
  intros H. apply Forall_forall. intros kv Hkv E. rewrite forallb_forall in H. apply elem_of_list_In in Hkv. specialize (H kv Hkv). apply same_spec in E. by rewrite E in H.
Qed.
Lemma asked0 : @l1qc_asked ER m0 pairs opt0.
Proof.
  assert (E : forall n d, forallb (fun kv => negb (same_name (fst kv) n)) pairs = true -> @set_to ER m0 pairs n d d) by (intros n d H; right; split; [by apply not_named|done]).
  constructor; try (by apply E).
  - unfold known, pairs. rewrite !Forall_cons, Forall_nil. assert (M : forall n, bool_decide (n ∈ l1qc_names) = true -> n ∈ l1qc_names) by (intros n H; by apply bool_decide_eq_true in H).
    split; [exists "epsilon"%string; split; [by apply M|done]|]. split; [exists "lbiter"%string; split; [by apply M|done]|].
    split; [exists "dct_mode"%string; split; [by apply M|done]|]. split; [exists "epsilon"%string; split; [by apply M|done]|done].
  - left. exists (sc 3). split; [|by apply (@mem_scalar ER)]. exists [("epsilon", sc 4); ("lbIter", sc 0); ("dct_mode", sc 0)]%string, "Epsilon"%string, []. split; [done|]. split; [done|constructor].
  - exists (@ofZ ER 2). split; [|by apply iz]. left. exists (sc 0). split; [|by apply (@mem_scalar ER)].
    exists [("epsilon", sc 4)]%string, "lbIter"%string, [("dct_mode", sc 0); ("Epsilon", sc 3)]%string. split; [done|]. split; [done|]. by repeat constructor.
  - exists (@ofZ ER 50). split; [by apply E|by apply iz].
  - exists (@ofZ ER 2). split; [by apply E|by apply iz].
  - exists (@ofZ ER 200). split; [by apply E|by apply iz].
  - exists (@zero ER). split; [by apply E|exact iz0].
  - exists (@ofZ ER 2). split; [|by apply iz]. left. exists (sc 0). split; [|by apply (@mem_scalar ER)].
    exists [("epsilon", sc 4); ("lbIter", sc 0)]%string, "dct_mode"%string, [("Epsilon", sc 3)]%string. split; [done|]. split; [done|]. by repeat constructor.
Qed.
Lemma data0 : @l1qc_data ER m0 (sc 0) (sc 0) (col 1 2) (col 2 2) 2 2 1 0 (fin [1; 2]) (Ptr 2 0) [@ofZ ER 4; @ofZ ER 1] [4; 1]%Z.
Proof.
  constructor; try done.
  - apply (@mem_unborn ER).
  - lia.
  - lia.
  - exists (@ofZ ER 2). split; [by apply (@mem_scalar ER)|by apply iz].
  - exists (@ofZ ER 2). split; [by apply (@mem_scalar ER)|by apply iz].
  - apply (@mem_col ER _ _ 1 (fin [1; 2])); [done|simpl; lia|done].
  - by apply (@mem_col ER _ _ 2 [@ofZ ER 4; @ofZ ER 1]).
  - simpl. lia.
  - repeat constructor; try (by apply iz); done.
Qed.
(** the last of two values for epsilon counts, names may be spelt in capitals, the rest is as the defaults; the solver then returns an image that has the measurements *)
Example whole_call : exists a s1 img q s', @l1qc_dct_opts ER pairs m0 = Ok (Some a) s1 /\
  @l1qc_dct_mex ER L1qcEx.f1 L1qcEx.f2 2 5 [sc 0; sc 0; col 1 2; col 2 2; a] s1 = Ok (Val [@OutDouble ER 4 1 (fin img); @stats ER q]) s' /\
  length img = 4%nat /\ nrm2 (resid (sample [3; 0]%nat) [1; 2] img) < 1/2.
Proof.
  destruct (l1qc_called_with_options m0 pairs opt0 _ _ _ _ _ _ _ _ _ _ _ _ data0 asked0) as (a & s1 & E1 & K & A). exists a, s1.
  assert (Een : en s1 = @env0 ER) by (destruct K as (_ & _ & _ & _ & _ & _ & -> & _); done).
  destruct (mex_reproduces_measurements L1qcEx.f1 L1qcEx.f2 L1qcEx.f1_len L1qcEx.f2_len L1qcEx.f1_exact L1qcEx.f2_exact _ _ _ _ _ _ _ _ _ _ _ 2 (1/2)
     (@n_tau0 ER 4 (@start ER L1qcEx.f1 L1qcEx.f2 (@handed ER 4 [3; 0]%Z s1) 2 2 (with_mode opt0 dct1) [3; 0]%nat (fin [1; 2]))) 2%Z A)
    as (img & q & s' & E & HS & Li & _ & H2 & _).
  - done.
  - done.
  - by rewrite Een.
  - apply (bool_decide_unpack _). vm_compute. done.
  - repeat constructor; simpl; lia.
  - apply planner0. done.
  - done.
  - lra.
  - done.
  - unfold counts_fit, INT_MAX. cbn. unfold n_fuel, cgm. cbn. lia.
  - exists img, q, s'. split; [exact E1|]. split; [exact E|]. split; [exact Li|]. apply H2. lra.
Qed.
(** a misspelt name *)
Example misspelt : exists s', @l1qc_dct_opts ER [("epsilon", sc 3); ("newton_iter", sc 0)]%string m0 = Ok None s'.
Proof. apply l1qc_options_unknown; [apply (@mem_unborn ER)|]. apply (unknown_pair _ _ "newton_iter" (sc 0)); [by right; left|done]. Qed.
(** nesta: the text of bp_mode *)
Definition text (t : string) : mxArray := MxA (MxChar t) 1 (Z.of_nat (String.length t)) 2 Null [].
Definition nopt0 : @NestaOpts ER := @mkNOpt ER (@lit ER 1 100000) (@lit ER 1 1000) (@lit ER 1 100) 2 5.
Lemma nasked0 t : @nesta_asked ER m0 [("n_continue", sc 0); ("bp_mode", text t); ("alpha_v", sc 4)]%string nopt0 (Fin 3) (@zero ER) 1.
Proof.
  set (ps := [("n_continue", sc 0); ("bp_mode", text t); ("alpha_v", sc 4)]%string).
  assert (E : forall n d, forallb (fun k => negb (same_name k n)) ["n_continue"; "bp_mode"; "alpha_v"]%string = true -> @set_to ER m0 ps n d d).
  { intros n d H. right. split; [|done]. unfold absent, ps. rewrite !Forall_cons, Forall_nil. cbn [fst forallb] in *. rewrite !andb_true_iff, !negb_true_iff in H.
    destruct H as (H1 & H2 & H3 & _). split; [|split; [|split; [|done]]]; intros C; apply same_spec in C; congruence. }
  constructor; try (by apply E).
  - unfold known, ps. rewrite !Forall_cons, Forall_nil. assert (M : forall n, bool_decide (n ∈ nesta_names) = true -> n ∈ nesta_names) by (intros n H; by apply bool_decide_eq_true in H).
    split; [exists "n_continue"%string; split; [by apply M|done]|]. split; [exists "bp_mode"%string; split; [by apply M|done]|].
    split; [exists "alpha_v"%string; split; [by apply M|done]|done].
  - left. exists (sc 4). split; [|by apply (@mem_scalar ER)]. exists [("n_continue", sc 0); ("bp_mode", text t)]%string, "alpha_v"%string, []. split; [done|]. split; [done|constructor].
  - exists (@ofZ ER 5). split; [by apply E|by apply iz].
  - exists (@ofZ ER 2). split; [|by apply iz]. left. exists (sc 0). split; [|by apply (@mem_scalar ER)].
    exists [], "n_continue"%string, [("bp_mode", text t); ("alpha_v", sc 4)]%string. split; [done|]. split; [done|]. by repeat constructor.
  - exists (@one ER). split; [by apply E|exact (iz 1 eq_refl)].
Qed.
Lemma ntext0 t : mode_text [("n_continue", sc 0); ("bp_mode", text t); ("alpha_v", sc 4)]%string t.
Proof.
  left. exists 1%Z, (Z.of_nat (String.length t)), 2%Z, Null, []. exists [("n_continue", sc 0)]%string, "bp_mode"%string, [("alpha_v", sc 4)]%string.
  split; [done|]. split; [done|]. by repeat constructor.
Qed.
Example synthesis_call : exists a s', @nesta_opts ER [("n_continue", sc 0); ("bp_mode", text "synthesis"); ("alpha_v", sc 4)]%string m0 = Ok (Some a) s' /\
  @nesta_args ER s' [sc 0; sc 0; col 1 2; col 2 2; a] 2 2 1 0 (fin [1; 2]) (Ptr 2 0) [@ofZ ER 4; @ofZ ER 1] [4; 1]%Z nopt0 (Fin 3) (@zero ER) 1 synthesis.
Proof.
  destruct (nesta_called_with_options m0 _ _ _ _ _ _ synthesis _ _ _ _ _ _ _ _ _ _ _ _ data0 (nasked0 "synthesis") (ntext0 "synthesis")) as (a & s' & E & _ & H); [by right|].
  exists a, s'. split; [exact E|exact H].
Qed.
Example documented_spelling : exists a s', @nesta_opts ER [("n_continue", sc 0); ("bp_mode", text "synthesys"); ("alpha_v", sc 4)]%string m0 = Ok (Some a) s' /\
  @nesta_mex_opts ER a s' = Ok (Err "l1c:badField") s'.
Proof.
  apply (proj2 (nesta_documented_mode_refuted m0 _ _ _ _ _ (sc 0) (@mem_unborn ER _ _)) (nasked0 "synthesys") (ntext0 "synthesys")).
Qed.
End MatOptsEx.
