(** Specification for C78: solvers and training for which the loop must end.  No proofs in this file. *)
From Coq Require Import Reals QArith Qreals List Bool Arith ZArith.
From Verif Require Import M_Syntax M_Certificates M_Verifier M_Network M_Cegis M_Fossil S_Certificates S_Domains S_Network S_Cegis S_Progress.
Import ListNotations.
Local Open Scope R_scope.

(** The solver answers each query about the candidates; its models are real solutions, of the right size, and come from
    the finite [pool] (a label and a point), such as the vectors of floats in a bounded domain. *)
Definition answers_from {K} (pb : problem K) (env : environment K) (start : learned K) (S : dict) (pool : list (label * point)) : Prop :=
  forall it st p c gs g l f n, trained pb env start S it st p c -> fossil_constraints pb (l_beta p) (fst c) (snd c) = Some gs -> In g gs -> In (l, f) g ->
    let be := e_solver env it in let a := b_solve be n f in
    b_is_unsat be a = true \/
    (b_is_sat be a = true /\ holds (state_of (b_model be a)) f /\ length (b_model be a) = pb_n pb /\ In (l, b_model be a) pool).
(** Training always reaches a network that passes the test, and strictly at the points of [pool] that are samples. *)
Definition trains {K} (pb : problem K) (env : environment K) (start : learned K) (xdot : list expr) (S : dict) (pool : list (label * point)) : Prop :=
  forall it st p c, trained pb env start S it st p c ->
    passed env it st p /\
    (pb_type pb <> LYAPUNOV -> pb_type pb <> ROA -> rows XI S <> []) /\
    forall l x, In (l, x) pool -> In x (rows l (st_S st)) ->
      softplus_ok (l_net p) (state_of x) /\ (pb_discrete pb = true -> softplus_ok (l_net p) (state_of (map (eval (state_of x)) xdot))) /\
      ~ excused pb (l_beta p) l (state_of x) (eval (state_of x) (fst c)) (eval (state_of x) (snd c)) /\
      ~ left_out pb (l_net p) (st_S st) l x (map (eval (state_of x)) xdot).
