(** Specification: the questions of the shipped configuration files, in plain terms. *)
From Coquelicot Require Import Coquelicot.
From Coq Require Import String Reals QArith List Arith ZArith.
From Verif Require Import M_Syntax M_Certificates M_Verifier M_Activations M_Network M_Cegis M_Fossil M_Double M_Control M_Parser M_Cli M_Config
  S_Network S_Fossil S_Double S_Control S_Success P_Config P_ConfigDouble.
Import ListNotations.
Local Open Scope R_scope.

(** fossil is run on the file [doc] and returns [r], a success: the optimisers keep the shape of the
    networks, and the solver's "unsat" is right. *)
Definition succeeds (doc : document) (r : result) : Prop :=
  exists numpy f1 f2 rand randc pb net ctrl env S fuel,
    session_of numpy f1 f2 rand randc doc = Some (pb, net, ctrl) /\
    lawful pb env /\ keeps_controller env /\ honest pb env /\
    run_fossil pb env fuel net ctrl S = Some (Some r) /\ r_res r = true.
(** The same for the certificates of two functions. *)
Definition succeeds2 (doc : document) (r : result) : Prop :=
  exists numpy f1 f2 rand rand2 randc pb net net2 ctrl env S fuel,
    session2_of numpy f1 f2 rand rand2 randc doc = Some (pb, net, net2, ctrl) /\
    lawful2 env /\ keeps_controller2 env /\ honest2 pb env /\
    run_double pb env fuel net net2 ctrl S = Some (Some r) /\ r_res r = true.

(** States (x, y) and discs. *)
Definition disc (a b r : R) (s : state) : Prop := (s 0%nat - a) ^ 2 + (s 1%nat - b) ^ 2 <= r ^ 2.
Definition square (h : R) (s : state) : Prop := - h <= s 0%nat <= h /\ - h <= s 1%nat <= h.
(** x' = f(x, y), y' = g(x, y) at time [t]. *)
Definition moves (f g : state -> R) (x : R -> state) (t : R) : Prop :=
  is_derive (fun v => x v 0%nat) t (f (x t)) /\ is_derive (fun v => x v 1%nat) t (g (x t)).

(** The returned feedback, with weights rounded to five decimals. *)
Definition fed_back (c : controller) (s : state) (j : nat) : R := feedback 2 (rounded c) s j.
(** x' = y + u, y' = x - y, from time 0 to [T]. *)
Definition plant (c : controller) (x : R -> state) (T : R) : Prop :=
  forall t, 0 <= t <= T -> moves (fun s => s 1%nat + fed_back c s 0) (fun s => s 0%nat - s 1%nat) x t.
(** x' = y + u, y' = v + (0.73575 sin x - 0.1 y) / 0.0375. *)
Definition pendulum (c : controller) (x : R -> state) (T : R) : Prop :=
  forall t, 0 <= t <= T ->
    moves (fun s => s 1%nat + fed_back c s 0) (fun s => fed_back c s 1 + (73575/100000 * sin (s 0%nat) - 1/10 * s 1%nat) / (375/10000)) x t.
