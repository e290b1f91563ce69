(** * How far the rational function of the vector logarithm is from the logarithm, in exact arithmetic.

    The coefficients are the doubles of include/vcl/vectormath_exp.h:783-793. *)
From Coq Require Import Reals Lra Lia.
From Coquelicot Require Import Coquelicot.
From Interval Require Import Tactic.
Local Open Scope R_scope.
Definition rP0 := 8678872585264376 / 2 ^ 50. Definition rP1 := 5048779460560973 / 2 ^ 48.
Definition rP2 := 8162167765265198 / 2 ^ 49. Definition rP3 := 5298249872337169 / 2 ^ 50.
Definition rP4 := 8962073095983858 / 2 ^ 54. Definition rP5 := 7517097190169520 / 2 ^ 66.
Definition rQ0 := 6509154438948274 / 2 ^ 48. Definition rQ1 := 5007051052723745 / 2 ^ 46.
Definition rQ2 := 5839728035675581 / 2 ^ 46. Definition rQ3 := 6365263102066739 / 2 ^ 47.
Definition rQ4 := 6354218065063822 / 2 ^ 49.
(** vectormath_exp.h:823,827 as polynomials *)
Definition pp x := rP0 + x * (rP1 + x * (rP2 + x * (rP3 + x * (rP4 + x * rP5)))).
Definition qq x := rQ0 + x * (rQ1 + x * (rQ2 + x * (rQ3 + x * (rQ4 + x)))).
Definition dpp x := rP1 + x * (2 * rP2 + x * (3 * rP3 + x * (4 * rP4 + x * (5 * rP5)))).
Definition dqq x := rQ1 + x * (2 * rQ2 + x * (3 * rQ3 + x * (4 * rQ4 + x * 5))).
Definition rat x := x - x * x / 2 + x * x * x * (pp x / qq x).
Ltac unf := unfold rat, pp, qq, dpp, dqq, rP0, rP1, rP2, rP3, rP4, rP5, rQ0, rQ1, rQ2, rQ3, rQ4.

Lemma qq_bound x : -293 / 1000 <= x <= 41422 / 100000 -> 8 <= qq x.
Proof. intros H. unf. interval with (i_bisect x, i_depth 12). Qed.
Lemma pp_bound x : -293 / 1000 <= x <= 41422 / 100000 -> 35 / 10 <= pp x <= 181 / 10.
Proof. intros H. unf. split; interval with (i_bisect x, i_depth 12). Qed.
Lemma pq_bound x : -293 / 1000 <= x <= 41422 / 100000 -> 25 / 100 <= pp x / qq x <= 44 / 100.
Proof. intros H. unf. split; interval with (i_bisect x, i_depth 12). Qed.
Lemma far_pos x : 5 / 100 <= x <= 41422 / 100000 -> Rabs ((ln (1 + x) - rat x) / x) <= 4 / 10 ^ 17.
Proof. intros H. unf. interval with (i_bisect x, i_taylor x, i_degree 14, i_prec 100, i_depth 10). Qed.
Lemma far_neg x : -293 / 1000 <= x <= -5 / 100 -> Rabs ((ln (1 + x) - rat x) / x) <= 4 / 10 ^ 17.
Proof. intros H. unf. interval with (i_bisect x, i_taylor x, i_degree 14, i_prec 100, i_depth 10). Qed.
Definition drat x := x * x * (1 / (1 + x) - ((3 * pp x + x * dpp x) * qq x - x * pp x * dqq x) / (qq x * qq x)).
Lemma near_zero x : -5 / 100 <= x <= 5 / 100 -> Rabs (drat x) <= 4 / 10 ^ 17.
Proof. intros H. unfold drat. unf. interval with (i_bisect x, i_taylor x, i_degree 14, i_prec 100, i_depth 10). Qed.

Lemma pp_diff x : is_derive pp x (dpp x).
Proof. unfold pp, dpp. auto_derive; [trivial|]. ring. Qed.
Lemma qq_diff x : is_derive qq x (dqq x).
Proof. unfold qq, dqq. auto_derive; [trivial|]. ring. Qed.
Lemma err_diff x : -5 / 100 <= x <= 5 / 100 -> is_derive (fun x => ln (1 + x) - rat x) x (drat x).
Proof.
  intros H. pose proof (qq_bound x ltac:(lra)) as Hq.
  assert (D : is_derive (fun y => ln (1 + y) - (y - y * y / 2 + y * y * y * (pp y / qq y))) x
     (1 / (1 + x) - (1 - x + (3 * (x * x) * (pp x / qq x) + x * x * x * ((dpp x * qq x - pp x * dqq x) / (qq x) ^ 2))))).
  { assert (D3 : is_derive (fun y => y * y * y) x (3 * (x * x))) by (auto_derive; [trivial|]; ring).
    pose proof (is_derive_div pp qq x _ _ (pp_diff x) (qq_diff x) ltac:(lra)) as D4.
    pose proof (@is_derive_mult R_AbsRing _ _ x _ _ D3 D4 Rmult_comm) as D5.
    assert (D1 : is_derive (fun y => ln (1 + y)) x (1 / (1 + x))) by (auto_derive; [lra|]; field; lra).
    assert (D2 : is_derive (fun y => y - y * y / 2) x (1 - x)) by (auto_derive; [trivial|]; field).
    exact (@is_derive_minus R_AbsRing R_NormedModule _ _ x _ _ D1 (@is_derive_plus R_AbsRing R_NormedModule _ _ x _ _ D2 D5)). }
  unfold rat. eapply is_derive_ext; [intros t; reflexivity|]. replace (drat x) with (1 / (1 + x) - (1 - x + (3 * (x * x) * (pp x / qq x) + x * x * x * ((dpp x * qq x - pp x * dqq x) / (qq x) ^ 2)))); [exact D|].
  unfold drat. field. lra.
Qed.

(** the error relative to x *)
Lemma approx x : -293 / 1000 <= x <= 41422 / 100000 -> Rabs (ln (1 + x) - rat x) <= 4 / 10 ^ 17 * Rabs x.
Proof.
  intros H.
  assert (F : x <> 0 -> Rabs ((ln (1 + x) - rat x) / x) <= 4 / 10 ^ 17 -> Rabs (ln (1 + x) - rat x) <= 4 / 10 ^ 17 * Rabs x).
  { intros Hx B. replace (ln (1 + x) - rat x) with ((ln (1 + x) - rat x) / x * x) by (field; exact Hx). rewrite Rabs_mult. apply Rmult_le_compat_r; [apply Rabs_pos|exact B]. }
  destruct (Rle_lt_dec (5 / 100) x); [apply F; [lra|apply far_pos; lra]|].
  destruct (Rle_lt_dec x (-5 / 100)); [apply F; [lra|apply far_neg; lra]|].
  destruct (MVT_gen (fun x => ln (1 + x) - rat x) 0 x drat) as (c & Hc & E).
  - intros y Hy. apply err_diff. unfold Rmin, Rmax in Hy. destruct (Rle_dec 0 x); lra.
  - intros y Hy. apply continuity_pt_filterlim. apply (ex_derive_continuous (fun x => ln (1 + x) - rat x)). eexists. apply err_diff. unfold Rmin, Rmax in Hy. destruct (Rle_dec 0 x); lra.
  - cbn beta in E. assert (Z : ln (1 + 0) - rat 0 = 0). { rewrite Rplus_0_r, ln_1. unfold rat. lra. }
    rewrite Z in E. replace (ln (1 + x) - rat x) with (drat c * (x - 0)) by lra. rewrite Rabs_mult. replace (x - 0) with x by ring.
    apply Rmult_le_compat_r; [apply Rabs_pos|]. apply near_zero. unfold Rmin, Rmax in Hc. destruct (Rle_dec 0 x); lra.
Qed.
Lemma ln_low x : -293 / 1000 <= x <= 41422 / 100000 -> 79 / 100 * Rabs x <= Rabs (ln (1 + x)).
Proof.
  intros H. pose proof (approx x H) as A. apply Rcomplements.Rabs_le_between in A. pose proof (pq_bound x H) as B. unfold rat in A.
  set (r := pp x / qq x) in *. clearbody r. destruct (Rle_lt_dec 0 x).
  - rewrite (Rabs_pos_eq x) in * by lra. eapply Rle_trans; [|apply Rle_abs].
    assert (0 <= x * x * x * r) by (repeat apply Rmult_le_pos; lra). pose proof (Rmult_le_pos x (41422 / 100000 - x) ltac:(lra) ltac:(lra)) as N. clear - A N H0 r0. nra.
  - rewrite (Rabs_left x) in * by lra. rewrite <- Rabs_Ropp. eapply Rle_trans; [|apply Rle_abs].
    assert (N : 0 <= (- x) * (- x) * (- x) * r) by (repeat apply Rmult_le_pos; lra).
    pose proof (Rmult_le_pos (- x) (- x) ltac:(lra) ltac:(lra)) as N2. clear - A N N2 r0. nra.
Qed.
Lemma ln_high x : -293 / 1000 <= x <= 41422 / 100000 -> Rabs (ln (1 + x)) <= 34673 / 100000.
Proof. intros H. interval. Qed.
