(** Specification: what is assumed about a two-certificate configuration. *)
From Coq Require Import Reals QArith List Bool Arith ZArith.
From Verif Require Import M_Syntax M_Certificates M_Verifier M_Activations M_Network M_Learner M_Cegis M_Fossil M_Double
  S_Network S_Learner S_Success S_Fossil.
Import ListNotations.

Definition well_posed2 {K} (pb : problem K) (random1 random2 : network) : Prop :=
  well_posed pb random1 /\ well_posed pb random2.

(** The optimiser keeps both architectures. *)
Definition lawful2 {K} (env : environment2 K) : Prop :=
  forall it p S Sdot t nets,
    same_shape (fst nets) (fst (e2_step env it p S Sdot t nets)) /\
    same_shape (snd nets) (snd (e2_step env it p S Sdot t nets)).

(** The solver's verdicts on the queries of this configuration can be trusted. *)
Definition honest2 {K} (pb : problem K) (env : environment2 K) : Prop :=
  forall it beta c gs, double_constraints pb beta c = Some gs -> trustworthy (e2_solver env it) gs.
(** The solver always decides: it never answers "unknown". *)
Definition decisive {K} (env : environment2 K) : Prop :=
  forall it k f, b_is_sat (e2_solver env it) (b_solve (e2_solver env it) k f) = false ->
                 b_is_unsat (e2_solver env it) (b_solve (e2_solver env it) k f) = true.
