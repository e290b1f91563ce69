(** * Specification vocabulary for a run of the log-barrier solver in exact arithmetic. *)
From Coq Require Import Reals List Arith ZArith.
From Verif Require Export S_Newt.
Import ListNotations.
Local Open Scope R_scope.

(** (d, g) solves the Newton system of f at (x, u) up to rho in the first block and exactly in the second:
    moving along it the first block of the gradient changes at the rate - gradient + rho *)
Definition newton_direction_upto (m : nat) (dom : list R -> list R -> Prop) (f : list R -> list R -> R) (x u d g rho : list R) : Prop :=
  forall G H : list R -> list R -> list R,
    (forall y v, length y = m -> length v = m -> dom y v -> is_gradient f y v (G y v) (H y v)) ->
    forall i, (i < m)%nat ->
      derivable_pt_lim (fun t => nth i (G (along x d t) (along u g t)) 0) 0 (- nth i (G x u) 0 + nth i rho 0) /\
      derivable_pt_lim (fun t => nth i (H (along x d t) (along u g t)) 0) 0 (- nth i (H x u) 0).
(** lam is minus the directional derivative of f at (x, u) along (d, g) *)
Definition decrement (f : list R -> list R -> R) (x u d g : list R) (lam : R) : Prop :=
  exists G H, is_gradient f x u G H /\ lam = - (dot G d + dot H g).

(** the options that decide when a run ends *)
Record run_opts : Type := mkRun {
  ro_mu : R;             (* growth of tau from stage to stage *)
  ro_newton_tol : R;     (* stop when half the decrement is below *)
  ro_l1_tol : R;         (* stop when the one-norm changes less, relatively *)
  ro_max : nat;          (* most Newton iterations in one stage *)
  ro_cg : R              (* what an accepted solution of the reduced system may leave over, relatively *)
}.
(** how a Newton iteration ends *)
Inductive ending : Type :=
| Search_failed        (* no trial step gives enough decrease: the point is kept and the stage ends *)
| Small_decrement      (* the point moves, the stage ends *)
| Little_change        (* the point moves, the stage ends *)
| Goes_on.             (* the point moves *)
(** one Newton iteration: where it starts, the direction, the step, the decrement, what CG left over *)
Record iteration : Type := mkIt { it_x : list R; it_u : list R; it_d : list R; it_g : list R; it_t : R; it_lam : R;
  it_rho : list R; it_solved : bool; it_end : ending }.
Definition new_x (i : iteration) : list R := match it_end i with Search_failed => it_x i | _ => along (it_x i) (it_d i) (it_t i) end.
Definition new_u (i : iteration) : list R := match it_end i with Search_failed => it_u i | _ => along (it_u i) (it_g i) (it_t i) end.

Section run.
Context (m : nat) (A : list R -> list R) (b : list R) (eps : R) (o : run_opts).

(** what holds of one iteration for the barrier parameter tau; first: it is the first of its stage; gp: the
    u part of the direction of the iteration before it *)
Record good_iteration (tau : R) (first : bool) (gp : list R) (i : iteration) : Prop := {
  gi_len : length (it_x i) = m /\ length (it_u i) = m /\ length (it_d i) = m /\ length (it_g i) = m /\ length (it_rho i) = m;
  gi_feas : strictly_feasible A b eps (it_x i) (it_u i);
  (* it_lam is the decrement along the direction *)
  gi_lam : decrement (barrier A b eps tau) (it_x i) (it_u i) (it_d i) (it_g i) (it_lam i);
  (* when CG is accepted, the direction is Newton's up to it_rho, a fraction of what no step at all leaves *)
  gi_newton : it_solved i = true ->
    newton_direction_upto m (strictly_feasible A b eps) (barrier A b eps tau) (it_x i) (it_u i) (it_d i) (it_g i) (it_rho i) /\
    exists g0 rho0, length g0 = m /\ length rho0 = m /\
      newton_direction_upto m (strictly_feasible A b eps) (barrier A b eps tau) (it_x i) (it_u i) (repeat 0 m) g0 rho0 /\
      nrm2 (it_rho i) <= ro_cg o * nrm2 rho0;
  (* when it is not, more than half is left and the u part is still that of the iteration before *)
  gi_unsolved : it_solved i = false -> it_g i = gp /\
    exists g0 rho0 g1 rho1, length g0 = m /\ length rho0 = m /\ length g1 = m /\ length rho1 = m /\
      newton_direction_upto m (strictly_feasible A b eps) (barrier A b eps tau) (it_x i) (it_u i) (repeat 0 m) g0 rho0 /\
      newton_direction_upto m (strictly_feasible A b eps) (barrier A b eps tau) (it_x i) (it_u i) (it_d i) g1 rho1 /\
      1 / 2 * nrm2 rho0 < nrm2 rho1;
  (* the step: at most 99/100, inside the domain, sufficient decrease of the barrier objective *)
  gi_step : it_end i <> Search_failed ->
    0 < it_t i <= 99 / 100 /\ strictly_feasible A b eps (new_x i) (new_u i) /\
    barrier A b eps tau (new_x i) (new_u i) <= barrier A b eps tau (it_x i) (it_u i) - 1 / 100 * it_t i * it_lam i;
  (* no step was found: 32 halvings of the first trial, and none had sufficient decrease *)
  gi_failed : it_end i = Search_failed ->
    exists s, 0 < s <= 99 / 100 /\ forall k, (k < 32)%nat -> let t := s * (1 / 2) ^ k in
      barrier A b eps tau (it_x i) (it_u i) - 1 / 100 * t * it_lam i < barrier A b eps tau (along (it_x i) (it_d i) t) (along (it_u i) (it_g i) t);
  (* the stopping rules, in this order *)
  gi_dec : it_end i = Small_decrement <-> it_end i <> Search_failed /\ it_lam i / 2 < ro_newton_tol o;
  gi_rate : it_end i = Little_change <-> it_end i <> Search_failed /\ ro_newton_tol o <= it_lam i / 2 /\
    first = false /\ 0 < nrm1 (new_x i) /\ Rabs (nrm1 (it_x i) - nrm1 (new_x i)) / nrm1 (new_x i) < ro_l1_tol o
}.
(** the iterations of a stage that starts at (x, u) and leaves (x', u'); gp and gp' are the u parts of the
    last direction before and after it *)
Inductive stage (tau : R) : bool -> nat -> list R -> list R -> list R -> list iteration -> list R -> list R -> list R -> Prop :=
| stage_limit first gp x u : stage tau first 0 gp x u [] gp x u
| stage_stop first k i gp x u : it_x i = x -> it_u i = u -> good_iteration tau first gp i -> it_end i <> Goes_on ->
    stage tau first (S k) gp x u [i] (it_g i) (new_x i) (new_u i)
| stage_next first k i l gp x u gp' x' u' : it_x i = x -> it_u i = u -> good_iteration tau first gp i -> it_end i = Goes_on ->
    stage tau false k (it_g i) (new_x i) (new_u i) l gp' x' u' -> stage tau first (S k) gp x u (i :: l) gp' x' u'.
(** the stages of a run: tau grows by the factor mu *)
Inductive run : R -> list R -> list R -> list R -> list (list iteration) -> list R -> list R -> Prop :=
| run_done tau gp x u : run tau gp x u [] x u
| run_next tau gp x u l gp1 x1 u1 ls x' u' : stage tau true (ro_max o) gp x u l gp1 x1 u1 -> run (tau * ro_mu o) gp1 x1 u1 ls x' u' ->
    run tau gp x u (l :: ls) x' u'.
End run.
