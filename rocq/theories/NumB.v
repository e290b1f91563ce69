(** * IEEE binary64 as an instance of [Num], on Flocq's formalisation.

    Every operation is the correctly rounded one (round to nearest, ties to even), with signed zeros,
    infinities, NaN, overflow and gradual underflow.  log, exp and ceil of the C library are left open
    (parameters); the theorems that use this instance hold for every choice of them. *)
From Coq Require Import ZArith Reals Lra Lia Psatz Bool.
From Flocq Require Import Core BinarySingleNaN.
From Verif Require Import Num.

Definition b64 : Type := binary_float 53 1024.
Definition b64_prec : Prec_gt_0 53 := eq_refl.
Definition b64_emax : Prec_lt_emax 53 1024 := eq_refl.
(** an int or an integer literal as a double *)
Definition b64_ofZ (z : Z) : b64 := binary_normalize 53 1024 b64_prec b64_emax mode_NE z 0 false.
(** (int)x: C99 6.3.1.4, truncation; undefined if the truncated value does not fit an int *)
Definition b64_toint (x : b64) : option Z :=
  if is_finite x then (let z := Btrunc x in if in_int z then Some z else None) else None.

Definition BN_with (flog fexp fceil : b64 -> b64) : Num := {|
  T := b64;
  lit p q := @Bdiv 53 1024 b64_prec b64_emax mode_NE (b64_ofZ p) (b64_ofZ q);
  add := @Bplus 53 1024 b64_prec b64_emax mode_NE;
  sub := @Bminus 53 1024 b64_prec b64_emax mode_NE;
  mul := @Bmult 53 1024 b64_prec b64_emax mode_NE;
  div := @Bdiv 53 1024 b64_prec b64_emax mode_NE;
  opp := Bopp; fabs := Babs;
  sqrt_ := @Bsqrt 53 1024 b64_prec b64_emax mode_NE;
  log_ := flog; exp_ := fexp; ceil_ := fceil;
  ltb_ := Bltb; leb_ := Bleb; isnan := is_nan;
  pinf := B754_infinity false; ninf := B754_infinity true; nan_ := B754_nan;
  toint := b64_toint
|}.

(** the rounding of a real to a double, and the doubles as reals *)
Definition fexp64 : Z -> Z := SpecFloat.fexp 53 1024.
Definition rnd (x : R) : R := round radix2 fexp64 ZnearestE x.
Definition format64 (x : R) : Prop := generic_format radix2 fexp64 x.
Definition val (x : b64) : R := B2R x.
Definition finite (x : b64) : Prop := is_finite x = true.

#[global] Instance fexp64_valid : Valid_exp fexp64 := fexp_correct 53 1024 b64_prec.
#[global] Instance fexp64_mono : Monotone_exp fexp64 := fexp_monotone 53 1024.

Lemma fexp64_FLT : fexp64 = FLT_exp (-1074) 53.
Proof. reflexivity. Qed.
Lemma rnd_format x : format64 x -> rnd x = x.
Proof. intros H. apply round_generic; [apply valid_rnd_N|exact H]. Qed.
Lemma format_val x : format64 (val x).
Proof. apply generic_format_B2R. Qed.

(** k/8^j-like numbers: m * 2^e with |m| < 2^53, e >= -1074 are doubles *)
Lemma format_F2R m e : (Z.abs m < 2 ^ 53)%Z -> (-1074 <= e)%Z -> format64 (F2R (Float radix2 m e)).
Proof.
  intros Hm He. unfold format64. rewrite fexp64_FLT. apply generic_format_FLT.
  exists (Float radix2 m e); simpl; auto.
Qed.
Lemma format_Z z : (Z.abs z <= 2 ^ 53)%Z -> format64 (IZR z).
Proof.
  intros Hz. destruct (Z.eq_dec (Z.abs z) (2 ^ 53)) as [E|NE].
  - replace (IZR z) with (F2R (Float radix2 (z / 2 ^ 53) 53)).
    + apply format_F2R; [|lia]. assert (z = 2 ^ 53 \/ z = - 2 ^ 53)%Z as [->| ->] by lia; vm_compute; reflexivity.
    + unfold F2R; simpl. rewrite <- mult_IZR. f_equal.
      assert (z = 2 ^ 53 \/ z = - 2 ^ 53)%Z as [->| ->] by lia; vm_compute; reflexivity.
  - replace (IZR z) with (F2R (Float radix2 z 0)) by (unfold F2R; simpl; lra).
    apply format_F2R; lia.
Qed.

Lemma bpow1024_gt z : (Z.abs z <= 2 ^ 53)%Z -> (Rabs (IZR z) < bpow radix2 1024)%R.
Proof.
  intros Hz. rewrite <- abs_IZR. apply Rle_lt_trans with (IZR (2 ^ 53)); [now apply IZR_le|].
  change (IZR (2 ^ 53)) with (bpow radix2 53). apply bpow_lt. lia.
Qed.

(** integers up to 2^53 are exact doubles *)
Lemma ofZ_exact flog fexp fceil z : (Z.abs z <= 2 ^ 53)%Z ->
  val (@ofZ (BN_with flog fexp fceil) z) = IZR z /\ finite (@ofZ (BN_with flog fexp fceil) z).
Proof.
  assert (forall z, (Z.abs z <= 2 ^ 53)%Z -> val (b64_ofZ z) = IZR z /\ finite (b64_ofZ z)) as Hof.
  { intros y Hy.
    pose proof (binary_normalize_correct 53 1024 b64_prec b64_emax mode_NE y 0 false) as H.
    cbv zeta in H. replace (F2R (Float radix2 y 0)) with (IZR y) in H by (unfold F2R; simpl; lra).
    change (round radix2 (SpecFloat.fexp 53 1024) (round_mode mode_NE) (IZR y)) with (rnd (IZR y)) in H.
    rewrite (rnd_format _ (format_Z y Hy)) in H.
    rewrite Rlt_bool_true in H by (now apply bpow1024_gt). split; apply H. }
  intros Hz. destruct (Hof z Hz) as [Ez Fz]. destruct (Hof 1%Z ltac:(lia)) as [E1 F1].
  unfold ofZ. simpl. unfold val, finite in *.
  pose proof (Bdiv_correct 53 1024 b64_prec b64_emax mode_NE (b64_ofZ z) (b64_ofZ 1)) as H.
  rewrite E1, Ez in H. specialize (H ltac:(lra)).
  replace (IZR z / 1)%R with (IZR z) in H by lra.
  change (round radix2 (SpecFloat.fexp 53 1024) (round_mode mode_NE) (IZR z)) with (rnd (IZR z)) in H.
  rewrite (rnd_format _ (format_Z z Hz)) in H.
  rewrite Rlt_bool_true in H by (now apply bpow1024_gt).
  destruct H as (H1 & H2 & _). split; [exact H1|]. etransitivity; [exact H2|exact Fz].
Qed.

(** the cast to int is truncation of the value *)
Lemma toint_trunc (x : b64) : finite x ->
  b64_toint x = (let z := Ztrunc (val x) in if in_int z then Some z else None).
Proof.
  intros Hf. unfold b64_toint. rewrite Hf.
  replace (Btrunc x) with (Ztrunc (val x)); [reflexivity|].
  apply eq_IZR. rewrite Btrunc_correct by reflexivity.
  unfold round, scaled_mantissa, cexp, FIX_exp, F2R; simpl. now rewrite !Rmult_1_r.
Qed.
