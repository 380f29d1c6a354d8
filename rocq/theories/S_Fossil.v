(** Specification: what is assumed about a configuration and its environment. *)
From Coq Require Import Reals QArith List Bool Arith ZArith.
From Verif Require Import M_Syntax M_Certificates M_Verifier M_Activations M_Network M_Learner M_Cegis M_Fossil
  S_Network S_Learner S_Success.
Import ListNotations.

(** The learner builds a network with the right shape, and the dynamics have one
    expression per variable. *)
Definition well_posed {K} (pb : problem K) (random : network) : Prop :=
  wf_net random /\ in_size random = pb_n pb /\ forall k xdot, pb_xdot pb k = Some xdot -> length xdot = pb_n pb.

(** The dynamics with controller parameters [k] (empty if they cannot be built). *)
Definition dynamics {K} (pb : problem K) (k : K) : list expr :=
  match pb_xdot pb k with Some xdot => xdot | None => [] end.

(** The optimiser keeps the architecture and only touches registered parameters. *)
Definition lawful {K} (pb : problem K) (env : environment K) : Prop :=
  forall it p S Sdot, optimiser (pb_llo pb) (e_step env it p S Sdot).

(** The solver's verdicts on the queries of this configuration can be trusted. *)
Definition honest {K} (pb : problem K) (env : environment K) : Prop :=
  forall it beta V Vdot gs, fossil_constraints pb beta V Vdot = Some gs -> trustworthy (e_solver env it) gs.

(** Activations that map 0 to 0 at every position. *)
Definition zero_at_zero (a : act) : bool :=
  match a with
  | ASigmoid | ASoftplus | AEvenPolyN _ => false
  | _ => true
  end.
(** A network without biases whose activations vanish at zero. *)
Definition zero_preserving (net : network) : Prop :=
  Forall (fun la => bias (fst la) = None /\ zero_at_zero (snd la) = true) (hidden net) /\
  bias (last net) = None.
