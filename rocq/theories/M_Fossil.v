(** fossil assembled: [SingleCegis] (fossil/cegis.py:39-358) with the modelled
    translator, verifier, certificates and sublevel search plugged into the CEGIS loop.
    No proofs in this file.
    What stays arbitrary (the record [environment]): the optimiser, the accuracy, the
    solver, random noise, the controller's training and the consolidator. *)
From Coq Require Import Reals QArith List Bool Arith ZArith.
From Verif Require Import M_Syntax M_Certificates M_Verifier M_BetaSearch M_Activations M_Network M_Learner
  M_Cegis.
Import ListNotations.

(** consts.py:169-215 [CegisConfig] (the fields that matter here) and the objects built
    from it in cegis.py:40-55.  [K] is the type of controller parameters. *)
Record problem (K : Type) := {
  pb_type : cert_type;                 (* CERTIFICATE *)
  pb_n : nat;                          (* N_VARS *)
  pb_llo : bool;                       (* LLO *)
  pb_quad : bool;                      (* FACTORS == QUADRATIC *)
  pb_discrete : bool;                  (* TIME_DOMAIN *)
  pb_rounding : Z;                     (* ROUNDING *)
  pb_max_iters : Z;                    (* CEGIS_MAX_ITERS *)
  pb_control : bool;                   (* CTRLAYER is given *)
  pb_symb : symb;                      (* the symbolic library of VERIFIER *)
  pb_sets : sets;                      (* symbolic domains, 101-120 *)
  pb_xdot : K -> option (list expr);   (* self.f(self.x): symbolic dynamics, 82-99, 230-233; may raise *)
  pb_f : K -> point -> point           (* self.f on one sample *)
}.
Arguments pb_type {K}. Arguments pb_n {K}. Arguments pb_llo {K}. Arguments pb_quad {K}.
Arguments pb_discrete {K}. Arguments pb_rounding {K}. Arguments pb_max_iters {K}. Arguments pb_control {K}.
Arguments pb_symb {K}. Arguments pb_sets {K}. Arguments pb_xdot {K}. Arguments pb_f {K}.

(** Everything that training changes: the network, the controller and [self.beta] of
    the ROA certificate (certificate.py:446-447). *)
Record learned (K : Type) := { l_net : network; l_ctrl : K; l_beta : Q }.
Arguments l_net {K}. Arguments l_ctrl {K}. Arguments l_beta {K}.

Record environment (K : Type) := {
  e_perfect : nat -> learned K -> dict -> dict -> nat -> network -> bool;
  e_step : nat -> learned K -> dict -> dict -> nat -> network -> network;
  e_ctrl : nat -> learned K -> dict -> dict -> K;
  e_beta : nat -> learned K -> dict -> dict -> Q;
  e_simp : expr -> expr;                            (* the symbolic simplifier *)
  e_solver : nat -> backend;                        (* the solver during iteration [it] *)
  e_noise : nat -> label -> nat -> nat -> R;
  e_stay_fuel : nat -> nat;                         (* when the user stops waiting for beta_search *)
  e_stay_calls : nat -> nat;                        (* solver calls made before it *)
  e_trajectory : nat -> bool -> learned K -> point -> option (list point);
  e_estimate_beta : nat -> learned K -> option unit
}.
Arguments e_perfect {K}. Arguments e_step {K}. Arguments e_ctrl {K}. Arguments e_beta {K}.
Arguments e_simp {K}. Arguments e_solver {K}. Arguments e_noise {K}. Arguments e_stay_fuel {K}.
Arguments e_stay_calls {K}. Arguments e_trajectory {K}. Arguments e_estimate_beta {K}.

Section Fossil.
  Context {K : Type} (pb : problem K) (env : environment K).

  (** certificate.py:1683-1709 [get_certificate]: the [learn] of each class, on the network. *)
  Definition learn_network (cond : nat -> network -> bool) (step : nat -> network -> network)
    (net : network) : network :=
    match pb_type pb with
    | LYAPUNOV | ROA => learn (pb_llo pb) cond step net
    | _ => learn_twice cond step net
    end.
  (** learner.py:99-104 [get]: trains in place. *)
  Definition fossil_learn (it : nat) (frozen : bool) (p : learned K) (S Sdot : dict) : option (learned K) :=
    Some {| l_net := learn_network (e_perfect env it p S Sdot) (e_step env it p S Sdot) (l_net p);
            l_ctrl := e_ctrl env it p S Sdot;
            l_beta := e_beta env it p S Sdot |}.

  (** cegis.py:230-233 [update_controller], then translator.get (144-154: the translator
      is chosen by the time domain). *)
  Definition fossil_translate (it : nat) (p : learned K) : option (expr * expr) :=
    option_bind (pb_xdot pb (l_ctrl p)) (fun xdot =>
      if pb_discrete pb
      then translate_dt (pb_symb pb) (pb_rounding pb) (pb_quad pb) (l_net p) (new_vars (pb_n pb)) xdot
      else translate_ct (pb_symb pb) (e_simp env) (pb_rounding pb) (pb_quad pb) (l_net p) (new_vars (pb_n pb)) xdot).

  (** certificate.py:1683-1709: the [get_constraints] of each class; [None] for the
      certificates [SingleCegis] does not handle. *)
  Definition fossil_constraints (beta : Q) (V Vdot : expr) : option (list group) :=
    match pb_type pb with
    | LYAPUNOV => Some (lyapunov_constraints (pb_llo pb) (new_vars (pb_n pb)) (pb_sets pb) V Vdot)
    | ROA => Some (roa_constraints (pb_llo pb) (new_vars (pb_n pb)) (pb_sets pb) beta V Vdot)
    | BARRIER => Some (barrier_constraints (pb_sets pb) V Vdot)
    | BARRIERALT => Some (barrier_alt_constraints (pb_sets pb) V Vdot)
    | RWS | RWA | RSWS | RSWA => Some (rws_constraints (pb_sets pb) V Vdot)
    | STABLESAFE | RAR | CUSTOM => None
    end.
  Definition fossil_verify (it : nat) (p : learned K) (c : expr * expr) : option (bool * dict) :=
    option_bind (fossil_constraints (l_beta p) (fst c) (snd c)) (fun gs =>
      let v := verify (e_solver env it) (e_noise env it) gs in Some (v_found v, v_cex v)).

  Definition fossil_stay (it : nat) (p : learned K) (c : expr * expr) : option bool :=
    match beta_search (e_solver env it) (pb_sets pb) (fst c) (snd c) (e_stay_fuel env it) (e_stay_calls env it) with
    | Some (BetaTrue _) => Some true
    | Some BetaFalse => Some false
    | _ => None
    end.

  (** cegis.py:40-55 [SingleCegis.__init__]. *)
  Definition fossil : components (learned K) (expr * expr) :=
    {| c_type := pb_type pb; c_double := false; c_control := pb_control pb; c_max_iters := pb_max_iters pb;
       c_f := fun p => pb_f pb (l_ctrl p); c_learn := fossil_learn; c_translate := fossil_translate;
       c_verify := fossil_verify; c_trajectory := e_trajectory env; c_stay := fossil_stay;
       c_estimate_beta := e_estimate_beta env |}.

  (** [SingleCegis(config).solve()] from a randomly initialised network (learner.py:41-88)
      and controller. *)
  Definition initial (random : network) (ctrl : K) : learned K :=
    {| l_net := init_learner (pb_llo pb) random;
       l_ctrl := ctrl; l_beta := 0%Q |}.
  Definition run_fossil (fuel : nat) (random : network) (ctrl : K) (S : dict) : option (option (result (P := learned K))) :=
    solve fossil fuel (initial random ctrl) S.
End Fossil.
