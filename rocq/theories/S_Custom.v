(** Specification: what is asked of a certificate class written by the user, and what its run proves. *)
From Coq Require Import Reals List Bool Arith.
From Verif Require Import M_Syntax M_Certificates M_Verifier M_Network M_Learner M_Cegis M_Fossil M_Custom
  S_Certificates S_Network S_Learner S_Success S_Dynamics S_Fossil.
Import ListNotations.

(** The dictionaries that are yielded. *)
Definition dictionaries (y : yielded) : list group :=
  match y with
  | Groups gs => flat_map (fun o => match o with Some g => [g] | None => [] end) gs
  | _ => []
  end.
(** The class asks for the (negated) condition [f] under the key [l]. *)
Definition asks (y : yielded) (l : label) (f : fml) : Prop := exists g, In g (dictionaries y) /\ In (l, f) g.
(** No key is used for two conditions. *)
Definition keys_once (y : yielded) : Prop := NoDup (map fst (concat (dictionaries y))).

(** [learn] changes numbers in the network, not its architecture. *)
Definition keeps_architecture {T K} (cls : custom T K) : Prop :=
  forall it p S Sdot p', cu_learn cls it p S Sdot = Some p' -> same_shape (u_net p) (u_net p').

(** The solver's verdicts on the conditions of this class can be trusted. *)
Definition honest_custom {T K} (pb : problem K) (cls : custom T K) (env : custom_environment T K) : Prop :=
  forall it self V Vdot, trustworthy (ue_solver env it) (dictionaries (cu_constraints cls self (new_vars (pb_n pb)) V Vdot)).

(** The conditions of the class express [Cond]: whatever the candidate, if none of the (negated) conditions has a
    solution then [Cond] is true of it. *)
Definition expresses {T K} (cls : custom T K) (n : nat) (Cond : T -> (state -> R) -> (state -> R) -> Prop) : Prop :=
  forall self V Vdot,
    (forall l f s, asks (cu_constraints cls self (new_vars n) V Vdot) l f -> ~ holds s f) ->
    Cond self (fun s => eval s V) (fun s => eval s Vdot).

(** A solver that decides every condition the class asks for, correctly. *)
Definition decides (be : backend) (y : yielded) : Prop :=
  forall k l f, asks y l f ->
              (b_is_unsat be (b_solve be k f) = true <-> unsatisfiable f) /\
              (b_is_sat be (b_solve be k f) = true <-> ~ unsatisfiable f).

(** The same learning, solver and consolidator around a built-in certificate ([d] is the symbolic domain XD). *)
Definition as_custom {K} (d : fml) (p : learned K) : custom_learned fml K :=
  {| u_net := l_net p; u_ctrl := l_ctrl p; u_self := d |}.
Definition same_surroundings {K} (d : fml)
  (perfect : nat -> custom_learned fml K -> dict -> dict -> nat -> network -> bool)
  (step : nat -> custom_learned fml K -> dict -> dict -> nat -> network -> network)
  (train_ctrl : nat -> custom_learned fml K -> dict -> dict -> K)
  (env : custom_environment fml K) (env' : environment K) : Prop :=
  (forall it p S Sdot, e_perfect env' it p S Sdot = perfect it (as_custom d p) S Sdot) /\
  (forall it p S Sdot, e_step env' it p S Sdot = step it (as_custom d p) S Sdot) /\
  (forall it p S Sdot, e_ctrl env' it p S Sdot = train_ctrl it (as_custom d p) S Sdot) /\
  e_simp env' = ue_simp env /\ (forall it, e_solver env' it = ue_solver env it) /\ (forall it, e_noise env' it = ue_noise env it) /\
  (forall it b p x, e_trajectory env' it b p x = ue_trajectory env it b (as_custom d p) x) /\
  (forall it p, e_estimate_beta env' it p = Some tt).
