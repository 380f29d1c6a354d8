(** Model of the use of random numbers by fossil/main.py:51-115 [run_benchmark],
    [synthesise] and fossil/cegis_supervisor.py:18-59.  No proofs in this file.

    torch's generator is a seed and a position in the stream of that seed.  All random
    numbers of fossil (initial weights, samples of the sets, perturbed counterexamples) come
    from it, and nothing in fossil seeds it except the three places modelled here.
    (control.py:81 draws points from numpy's generator, for an assertion only.)
    A program is a computation that draws numbers.  Simplification: the SMT solver is a
    function of its query (its time limit depends on the machine). *)
From Coq Require Import List ZArith Bool.
Import ListNotations.
Local Open Scope Z_scope.

Record gen := { g_seed : Z; g_pos : nat }.
(** [torch.manual_seed], [torch.initial_seed]. *)
Definition manual_seed (s : Z) : gen := {| g_seed := s; g_pos := 0 |}.
Definition initial_seed (g : gen) : Z := g_seed g.

Section Main.
  (** [D]: drawn values; [stream s n]: the n-th value after seeding with [s]. *)
  Context {D : Type} (stream : Z -> nat -> D).
  Inductive prog (A : Type) := Ret (a : A) | Draw (k : D -> prog A).
  Arguments Ret {A}. Arguments Draw {A}.
  Fixpoint run {A} (p : prog A) (g : gen) : A * gen :=
    match p with
    | Ret a => (a, g)
    | Draw k => run (k (stream (g_seed g) (g_pos g))) {| g_seed := g_seed g; g_pos := S (g_pos g) |}
    end.

  (** [Config]: a configuration without its SEED; [Out]: a result without its seed
      (certificate, iterations, ...). *)
  Context {Config Out : Type} (cegis : Config -> prog Out).
  (** cegis.py:221-227, 530-536: the statistics of a result record the seed. *)
  Record res := { r_out : Out; r_seed : Z }.
  (** [Cegis(config).solve()]. *)
  Definition solve (c : Config) (g : gen) : res * gen :=
    let (a, g') := run (cegis c) g in ({| r_out := a; r_seed := initial_seed g' |}, g').

  (** main.py:98-115 [synthesise]. *)
  Definition synthesise (c : Config) (seed : option Z) (g : gen) : res * gen :=
    solve c (match seed with Some s => manual_seed s | None => g end).

  (** main.py:27-28. *)
  Definition N_PROCS : Z := 4.
  Definition BASE_SEED : Z := 167.
  (** main.py:72-79 with [concurrent=False]: the results of the repetitions
      [i], [i + 1], ... ([n] of them). *)
  Fixpoint run_benchmark_from (c : Config) (i : Z) (n : nat) (g : gen) : list res * gen :=
    match n with
    | O => ([], g)
    | S n =>
        let (r, g1) := solve c (manual_seed (BASE_SEED + i * N_PROCS)) in
        let (l, g2) := run_benchmark_from c (i + 1) n g1 in (r :: l, g2)
    end.
  Definition run_benchmark (c : Config) (repeat : nat) (g : gen) : list res * gen :=
    run_benchmark_from c 0 repeat g.

  (** cegis_supervisor.py:19-24, 56: worker [id] of a supervisor whose process has
      generator [g]. *)
  Definition worker (c : Config) (g : gen) (id : nat) : res :=
    fst (solve c (manual_seed (initial_seed g + Z.of_nat id))).
  (** main.py:73-77 with [concurrent=True]: worker [id] in repetition [i]. *)
  Definition benchmark_worker (c : Config) (i id : nat) : res :=
    worker c (manual_seed (BASE_SEED + Z.of_nat i * N_PROCS)) id.
End Main.
Arguments prog D A : clear implicits. Arguments Ret {D A}. Arguments Draw {D A}. Arguments r_out {Out}. Arguments r_seed {Out}.
