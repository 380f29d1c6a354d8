(** Model of fossil/cegis_supervisor.py.  No proofs in this file.
    The processes and the queue are a transition system: the scheduler decides when a
    worker process ends ([Finish i]) and when the supervisor makes a pass through its
    loop ([Poll]).  Not represented: process termination after a success, time. *)
From Coq Require Import List Bool Arith.
Import ListNotations.

(** ** The worker *)
(** What [Cegis(config).solve()] did in a worker: raised, or returned a [Result]. *)
Inductive solved (A : Type) := SolveRaised | SolveReturned (r : A).
Arguments SolveRaised {A}. Arguments SolveReturned {A}.

(** certificate.py:1634-1649: [CertificateSolution], the [cert] of every result
    (cegis.py:224-227, 533-536), defines no method [clean]. *)
Definition solution_has_clean : bool := false.

(** cegis_supervisor.py:18-42 [worker_Q]: line 29 calls [result.cert.clean()] before
    [queue.put]; without such a method the worker ends with an AttributeError.
    [None]: nothing is put on the queue. *)
Definition worker_Q {A} (has_clean : bool) (s : solved A) : option A :=
  match s with
  | SolveRaised => None
  | SolveReturned r => if has_clean then Some r else None
  end.

(** ** The supervisor *)
Inductive event := Finish (i : nat) | Poll.

Section Supervisor.
  (** [A]: results; [w i]: what worker [i] puts on the queue, if anything. *)
  Context {A : Type} (success : A -> bool) (w : nat -> option A) (max_P : nat).

  Record sup := {
    s_started : nat;              (* processes started: ids below it *)
    s_finished : list nat;        (* processes that ended, in that order *)
    s_queue : list (nat * A);
    s_nres : nat;                 (* n_res *)
    s_out : option (nat * A)      (* the value returned by solve *)
  }.
  (** cegis_supervisor.py:53-59. *)
  Definition sup0 : sup := {| s_started := 0; s_finished := []; s_queue := []; s_nres := 0; s_out := None |}.

  (** A worker process ends, having put its message (if any). *)
  Definition finish (i : nat) (s : sup) : sup :=
    if (i <? s_started s)%nat && negb (existsb (Nat.eqb i) (s_finished s))
    then {| s_started := s_started s; s_finished := s_finished s ++ [i];
            s_queue := s_queue s ++ match w i with Some a => [(i, a)] | None => [] end;
            s_nres := s_nres s; s_out := s_out s |}
    else s.

  (** cegis_supervisor.py:60-86: one pass through the loop.  [procs] is never emptied,
      so processes are started in the first pass only. *)
  Definition poll (s : sup) : sup :=
    let s := {| s_started := Nat.max (s_started s) max_P; s_finished := s_finished s; s_queue := s_queue s;
                s_nres := s_nres s; s_out := s_out s |} in
    match s_queue s with
    | [] => s                                                         (* 85-86 Empty *)
    | (i, a) :: q =>
        if success a
        then {| s_started := s_started s; s_finished := s_finished s; s_queue := q;
                s_nres := s_nres s; s_out := Some (i, a) |}           (* 71-76 *)
        else let n := (s_nres s + 1)%nat in                           (* 78 *)
             {| s_started := s_started s; s_finished := s_finished s; s_queue := q; s_nres := n;
                s_out := if (n =? max_P)%nat then Some (i, a) else None |}  (* 79-84 *)
    end.

  Definition step (s : sup) (e : event) : sup :=
    match s_out s with
    | Some _ => s                                                     (* solve has returned *)
    | None => match e with Finish i => finish i s | Poll => poll s end
    end.
  (** The state after the first [n] events of a schedule. *)
  Fixpoint after (sched : nat -> event) (n : nat) : sup :=
    match n with O => sup0 | S n => step (after sched n) (sched n) end.
End Supervisor.
Arguments s_started {A}. Arguments s_finished {A}. Arguments s_queue {A}. Arguments s_nres {A}. Arguments s_out {A}.
