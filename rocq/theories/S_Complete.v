(** Specification: candidates of a run, when a candidate is valid, solvers that decide.  No proofs in this file. *)
From Coq Require Import Reals QArith Qreals List Bool Arith ZArith.
From Verif Require Import M_Syntax M_Certificates M_Verifier M_Network M_Cegis M_Fossil M_Double S_Certificates S_Cegis.
Import ListNotations.
Local Open Scope R_scope.

(** In iteration [it] of the run training gives [p], and the candidate [c] is handed to the verifier. *)
Definition proposes {P C} (k : components P C) (start : P) (S : dict) (it : nat) (p : P) (c : C) : Prop :=
  exists st, visited k start S it st /\
    c_learn k it (st_frozen st) (st_params st) (st_S st) (st_Sdot st) = Some p /\ c_translate k it p = Some c.

(** The solver answers the query rightly, whenever it is asked. *)
Definition answers_rightly (be : backend) (f : fml) : Prop :=
  forall k, (b_is_unsat be (b_solve be k f) = true <-> forall s, ~ holds s f) /\
            (b_is_sat be (b_solve be k f) = true <-> exists s, holds s f).
(** ... the queries about the candidates that the run comes to (for RSWS also those of the search for a level). *)
Definition exact_solver {K} (pb : problem K) (env : environment K) (start : learned K) (S : dict) : Prop :=
  forall it p c, proposes (fossil pb env) start S it p c ->
    (forall gs g l f, fossil_constraints pb (l_beta p) (fst c) (snd c) = Some gs -> In g gs -> In (l, f) g -> answers_rightly (e_solver env it) f) /\
    (pb_type pb = RSWS -> forall level, answers_rightly (e_solver env it) (stay_border_condition (pb_sets pb) (fst c) level) /\
       answers_rightly (e_solver env it) (stay_lie_condition (pb_sets pb) (fst c) (snd c) level)).
Definition exact_solver2 {K} (pb : problem K) (env : environment2 K) (start : learned2 K) (S : dict) : Prop :=
  forall it p c, proposes (double pb env) start S it p c ->
    forall gs g l f, double_constraints pb (d_beta p) c = Some gs -> In g gs -> In (l, f) g -> answers_rightly (e2_solver env it) f.

(** What each certificate asks of the functions ([beta]: the level of ROA). *)
Definition valid {K} (pb : problem K) (beta : Q) (V Vdot : state -> R) : Prop :=
  match pb_type pb with
  | LYAPUNOV => lyapunov_conditions (pb_llo pb) (pb_n pb) (pb_sets pb) V Vdot
  | ROA => roa_conditions (pb_llo pb) (pb_n pb) (pb_sets pb) (11/10 * Q2R beta) V Vdot
  | BARRIER => barrier_conditions (pb_sets pb) XI XU V Vdot
  | BARRIERALT => barrier_alt_conditions (pb_sets pb) V Vdot
  | RWS | RWA | RSWA => rws_conditions (pb_sets pb) V Vdot
  | RSWS => rws_conditions (pb_sets pb) V Vdot /\ exists level, stay_conditions (pb_sets pb) (Q2R level) V Vdot
  | STABLESAFE | RAR | CUSTOM => False
  end.
Definition valid2 {K} (pb : problem K) (beta : Q) (V Vdot B Bdot : state -> R) : Prop :=
  match pb_type pb with
  | STABLESAFE => roa_conditions (pb_llo pb) (pb_n pb) (pb_sets pb) (11/10 * Q2R beta) V Vdot /\ barrier_conditions (pb_sets pb) XI XU B Bdot
  | RAR => rws_conditions (pb_sets pb) V Vdot /\ barrier_conditions (pb_sets pb) XG XNF B Bdot
  | _ => False
  end.
