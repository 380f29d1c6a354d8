(** Model of a run with a certificate class written by the user: CERTIFICATE = CUSTOM and CUSTOM_CERTIFICATE
    (fossil/consts.py:119, 185, cegis.py:126-134, certificate.py:63-151, 1702-1707), and of the class shipped as
    an example (custom_cert.py:18-128).  No proofs in this file.

    [T] is the type of the attributes of the user's object, [K] of the controller parameters.  The keys of the
    dictionaries are the names of consts.py:87-97, as the documentation asks (certificate.py:121).
    [None] is an exception. *)
From Coq Require Import Reals QArith List Bool Arith ZArith.
From Verif Require Import M_Syntax M_Certificates M_Verifier M_Activations M_Network M_Learner M_Cegis M_Fossil.
Import ListNotations.

(** Everything that [learn] may change: the network, the controller and the object itself. *)
Record custom_learned (T K : Type) := { u_net : network; u_ctrl : K; u_self : T }.
Arguments u_net {T K}. Arguments u_ctrl {T K}. Arguments u_self {T K}.

(** What [get_constraints] gives back (certificate.py:112-141): a tuple or generator of dictionaries, whose
    element [None] is the point where the generator raises; or one dictionary. *)
Inductive yielded :=
| Groups (gs : list (option group))
| OneDictionary (d : group)
| Raised.

(** The class: [__init__] on the symbolic domains (cegis.py:134), [learn] (90-110) and [get_constraints]. *)
Record custom (T K : Type) := {
  cu_init : sets -> option T;
  cu_learn : nat -> custom_learned T K -> dict -> dict -> option (custom_learned T K);
  cu_constraints : T -> list expr -> expr -> expr -> yielded
}.
Arguments cu_init {T K}. Arguments cu_learn {T K}. Arguments cu_constraints {T K}.

(** The groups before a generator raises, and whether it does. *)
Fixpoint before_raise (gs : list (option group)) : list group * bool :=
  match gs with
  | [] => ([], false)
  | None :: _ => ([], true)
  | Some g :: gs => let '(l, b) := before_raise gs in (g :: l, b)
  end.

(** verifier.py:118-166 [verify] on what the class yields.  The generator is consumed group by group and left at
    the first group with a counterexample, so that a later exception may not be reached.  Iterating over a
    dictionary gives its keys, and a text has no [items]: AttributeError, unless the dictionary is empty. *)
Definition verify_yielded (be : backend) (noise : label -> nat -> nat -> R) (y : yielded) : option (bool * dict) :=
  match y with
  | Raised => None
  | OneDictionary (_ :: _) => None
  | OneDictionary [] => let v := verify be noise [] in Some (v_found v, v_cex v)
  | Groups gs =>
      let '(before, raises) := before_raise gs in
      let v := verify be noise before in
      if raises && negb (any_sat be (snd (run_groups be 0 before []))) then None else Some (v_found v, v_cex v)
  end.

(** What stays arbitrary: simplifier, solver, noise, consolidator. *)
Record custom_environment (T K : Type) := {
  ue_simp : expr -> expr;
  ue_solver : nat -> backend;
  ue_noise : nat -> label -> nat -> nat -> R;
  ue_trajectory : nat -> bool -> custom_learned T K -> point -> option (list point)
}.
Arguments ue_simp {T K}. Arguments ue_solver {T K}. Arguments ue_noise {T K}. Arguments ue_trajectory {T K}.

Section Custom.
  Context {T K : Type} (pb : problem K) (cls : custom T K) (env : custom_environment T K).

  (** cegis.py:230-233 [update_controller], translator.get (144-154); TIME_DOMAIN is continuous. *)
  Definition custom_translate (it : nat) (p : custom_learned T K) : option (expr * expr) :=
    option_bind (pb_xdot pb (u_ctrl p)) (fun xdot =>
      translate_ct (pb_symb pb) (ue_simp env) (pb_rounding pb) (pb_quad pb) (u_net p) (new_vars (pb_n pb)) xdot).
  (** verifier.py:171-172 [domain_constraints]. *)
  Definition custom_verify (it : nat) (p : custom_learned T K) (c : expr * expr) : option (bool * dict) :=
    verify_yielded (ue_solver env it) (ue_noise env it) (cu_constraints cls (u_self p) (new_vars (pb_n pb)) (fst c) (snd c)).

  (** cegis.py:40-55; process_certificate (291-327) does nothing more for CUSTOM. *)
  Definition custom_components : components (custom_learned T K) (expr * expr) :=
    {| c_type := CUSTOM; c_double := false; c_control := pb_control pb; c_max_iters := pb_max_iters pb;
       c_f := fun p => pb_f pb (u_ctrl p); c_learn := fun it _ => cu_learn cls it; c_translate := custom_translate;
       c_verify := custom_verify; c_trajectory := ue_trajectory env; c_stay := fun _ _ _ => None;
       c_estimate_beta := fun _ _ => None |}.

  (** [Cegis(config).solve()]: cegis.py:348-358 refuses discrete time for CUSTOM; learner.py:41-88 as for the
      other certificates ([random] has biases as [cls.bias] says). *)
  Definition run_custom (fuel : nat) (random : network) (ctrl : K) (S : dict)
    : option (option (result (P := custom_learned T K) (C := expr * expr))) :=
    if pb_discrete pb then Some None
    else match cu_init cls (pb_sets pb) with
         | None => Some None
         | Some self => solve custom_components fuel
                          {| u_net := init_learner (pb_llo pb) random; u_ctrl := ctrl; u_self := self |} S
         end.
End Custom.

(** ** custom_cert.py:18-128 [CustomLyapunov].  Its only attribute is [self.domain]. *)

(** custom_cert.py:58-97 [learn], with the optimiser, the accuracy and the controller's training arbitrary. *)
Definition custom_lyapunov_learn {K} (llo : bool) (perfect : nat -> custom_learned fml K -> dict -> dict -> nat -> network -> bool)
  (step : nat -> custom_learned fml K -> dict -> dict -> nat -> network -> network)
  (train_ctrl : nat -> custom_learned fml K -> dict -> dict -> K)
  (it : nat) (p : custom_learned fml K) (S Sdot : dict) : option (custom_learned fml K) :=
  match dlookup XD S with
  | None => None (* KeyError *)
  | Some _ =>
      Some {| u_net := learn_loop (take_abs llo (u_net p)) (perfect it p S Sdot) (step it p S Sdot) 0 learning_loops (u_net p);
              u_ctrl := train_ctrl it p S Sdot; u_self := u_self p |}
  end.
(** custom_cert.py:99-117 [get_constraints]. *)
Local Open Scope E.
Definition custom_lyapunov_constraints (domain : fml) (xs : list expr) (V Vdot : expr) : yielded :=
  let lyap_negated := for_ [V <= E0; Vdot >= E0] in
  let not_origin := FNot (fand (map (fun xi => xi == E0) xs)) in
  let lyap_negated := fand [lyap_negated; not_origin] in
  let lyap_condition := fand [domain; lyap_negated] in
  Groups [Some [(XD, lyap_condition)]].
Definition custom_lyapunov {K} (llo : bool) perfect step (train_ctrl : nat -> custom_learned fml K -> dict -> dict -> K) : custom fml K :=
  {| cu_init := fun d => Some (d XD);
     cu_learn := custom_lyapunov_learn llo perfect step train_ctrl;
     cu_constraints := custom_lyapunov_constraints |}.
