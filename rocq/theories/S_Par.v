(** * Parallel execution: interleavings of single memory accesses.

    A loop under [#pragma omp parallel for] is executed by threads, each running some of the
    iterations; the threads' memory accesses interleave in any way.  [prog] is the sequence of memory
    accesses of a piece of code (its private variables live in the continuations), [pstep] lets any
    thread perform its next access, and [parallel] says what a correct parallel loop is:
    for every distribution of the iterations over threads, no reachable configuration is undefined or
    has a data race, every execution ends, and it ends in the given memory. *)
From Coq Require Import ZArith.
From stdpp Require Import base list relations.
From Verif Require Import Mem.
Local Open Scope Z_scope.

Section par.
Context `{N : Num}.

(** A program: finished, undefined, or a load or store followed by the rest. *)
Inductive prog : Type :=
| PRet
| PUb (e : ub)
| PLd (p : ptr) (i : Z) (k : T -> prog)
| PSto (p : ptr) (i : Z) (v : T) (k : prog).

(** [a], then [b] *)
Fixpoint pseq (a b : prog) : prog :=
  match a with
  | PRet => b
  | PUb e => PUb e
  | PLd p i k => PLd p i (fun v => pseq (k v) b)
  | PSto p i v k => PSto p i v (pseq k b)
  end.
(** checked int arithmetic *)
Definition p32 (z : Z) (k : Z -> prog) : prog := if in_int z then k z else PUb UbOverflow.
(** for (i = lo; i < hi; i++) body *)
Fixpoint pforn (k : nat) (i : Z) (body : Z -> prog) : prog :=
  match k with O => PRet | S k' => pseq (body i) (pforn k' (i + 1) body) end.
Definition pfor (lo hi : Z) (body : Z -> prog) : prog := pforn (Z.to_nat (hi - lo)) lo body.

(** A program run alone. *)
Fixpoint run (q : prog) : M unit :=
  match q with
  | PRet => ret tt
  | PUb e => undef e
  | PLd p i k => let* v := ld p i in run (k v)
  | PSto p i v k => sto p i v ;! run k
  end.

(** A configuration: the rest of every thread's program, and the shared memory. *)
Definition conf : Type := list prog * st.

(** One thread performs one access. *)
Inductive pstep : conf -> conf -> Prop :=
| pstep_ld qs s j p i k v :
    qs !! j = Some (PLd p i k) -> cell s p i = Some (Some v) ->
    pstep (qs, s) (<[j := k v]> qs, s)
| pstep_sto qs s j p i v k :
    qs !! j = Some (PSto p i v k) -> is_Some (cell s p i) ->
    pstep (qs, s) (<[j := k]> qs, wr (padd p i) [v] s).

(** Some thread is about to do something undefined. *)
Inductive bad : conf -> Prop :=
| bad_ub qs s j e : qs !! j = Some (PUb e) -> bad (qs, s)
| bad_ld qs s j p i k :
    qs !! j = Some (PLd p i k) -> (cell s p i = None \/ cell s p i = Some None) -> bad (qs, s)
| bad_sto qs s j p i v k : qs !! j = Some (PSto p i v k) -> cell s p i = None -> bad (qs, s).

(** Where a program's next access goes, and whether it is a store. *)
Definition addr (p : ptr) (i : Z) : option (nat * Z) :=
  match p with Null => None | Ptr b o => Some (b, o + i) end.
Definition next (q : prog) : option (bool * (nat * Z)) :=
  match q with
  | PLd p i _ => (fun a => (false, a)) <$> addr p i
  | PSto p i _ _ => (fun a => (true, a)) <$> addr p i
  | _ => None
  end.
(** Two threads are about to access the same double, one of them to write it. *)
Definition race (c : conf) : Prop :=
  exists j1 j2 q1 q2 w1 w2 a, j1 <> j2 /\ c.1 !! j1 = Some q1 /\ c.1 !! j2 = Some q2 /\
    next q1 = Some (w1, a) /\ next q2 = Some (w2, a) /\ (w1 = true \/ w2 = true).

(** A thread executes its iterations one after the other. *)
Fixpoint thread (body : Z -> prog) (l : list Z) : prog :=
  match l with [] => PRet | i :: l' => pseq (body i) (thread body l') end.

(** The loop [for (i = lo; i < hi; i++) body] may run in parallel from memory [s], ending in [s']:
    [ls] says which thread executes which iterations, in which order. *)
Definition parallel (body : Z -> prog) (lo hi : Z) (s s' : st) : Prop :=
  forall ls : list (list Z), concat ls ≡ₚ range lo hi ->
    let c0 := (thread body <$> ls, s) in
    sn pstep c0 /\
    forall c, rtc pstep c0 c ->
      ~ bad c /\ ~ race c /\
      (nf pstep c -> c.2 = s' /\ Forall (fun q => q = PRet) c.1).

(** The accesses in [prog] are those of the sequential [body]. *)
Definition implements (q : Z -> prog) (body : Z -> M unit) : Prop := forall i s, run (q i) s = body i s.

(** The arrays [ws] (pointer and length) overlap neither each other nor the arrays [rs]. *)
Definition separate (ws rs : list (ptr * Z)) : Prop :=
  (forall j1 j2 p n q k, j1 <> j2 -> ws !! j1 = Some (p, n) -> ws !! j2 = Some (q, k) -> overlap p n q k = false) /\
  (forall p n q k, (p, n) ∈ ws -> (q, k) ∈ rs -> overlap p n q k = false).

End par.
