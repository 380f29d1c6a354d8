(** Specification: a configuration file written as the documentation says (README.md:32-48, user-guide.md,
    consts.py:100-216), and what a run may assume of its environment.  No proofs in this file. *)
From Coq Require Import String Ascii Reals QArith List Arith ZArith Decimal.
From Verif Require Import M_Syntax M_Certificates M_Verifier M_Activations M_Network M_Cegis M_Labels M_Fossil M_Double M_Control M_Parser M_Lexer
  M_Variables M_DomainParser M_Cli S_Network S_Parser S_Lexer S_DomainParser S_Control S_Cli S_Config S_Labels.
Import ListNotations.
Local Open Scope string_scope.
Local Open Scope list_scope.
Local Open Scope nat_scope.

(** A list of natural numbers, a list of words. *)
Definition numbers (l : list nat) : yaml := YList (map (fun k => YInt (Z.of_nat k)) l).
Definition words (l : list string) : yaml := YList (map YStr l).
Definition missing (doc : document) (field : string) : Prop := forall y, ~ gives doc field y.
(** An integer with its default. *)
Definition integer_field (doc : document) (field : string) (default z : Z) : Prop :=
  gives doc field (YInt z) \/ missing doc field /\ z = default.

(** VERIFIER: Z3 (also when the field is missing), DREAL or CVC5. *)
Definition solver (doc : document) (v : verifier_type) : Prop :=
  (v = VZ3 \/ v = VDREAL \/ v = VCVC5) /\
  ((exists s, gives doc "VERIFIER" (YStr s) /\ spelled s (verifier_name v)) \/ missing doc "VERIFIER" /\ v = VZ3).
(** The activations that exist for a solver. *)
Definition available (v : verifier_type) (a : act_type) : Prop :=
  match a with
  | RATIONAL => False
  | TANH | TANH_SQUARE | SIGMOID => v <> VZ3
  | SOFTPLUS | SHIFTED_SOFTPLUS | SHIFTED_SOFTPLUS_SQUARE | COSH => v = VDREAL
  | _ => True
  end.
(** A list of activations. *)
Definition activations_written (ss : list string) (acts : list act_type) : Prop :=
  Forall2 (fun s a => spelled s (activation_name a)) ss acts.
(** The two fields of a network: one activation for each hidden layer; one layer of ten SQUARE neurons by default. *)
Definition layers (doc : document) (v : verifier_type) (neurons activations : string) : Prop :=
  exists sizes acts, sizes <> [] /\ Forall (fun k => 0 < k) sizes /\ length acts = length sizes /\ Forall (available v) acts /\
    (gives doc neurons (numbers sizes) \/ missing doc neurons /\ sizes = [10]) /\
    ((exists ss, gives doc activations (words ss) /\ activations_written ss acts) \/ missing doc activations /\ acts = [SQUARE]).
(** The inputs: none without CTRLAYER; otherwise u0, ..., u(m-1), where m is the last entry of CTRLAYER, with one
    activation for each of the other entries (at least one). *)
Inductive driven (doc : document) (v : verifier_type) (trees : list tree) : option nat -> Prop :=
| undriven : (forall y, gives doc "CTRLAYER" y -> y = YNull) -> (forall d, ~ In (VU, d) (flat_map variables trees)) ->
    driven doc v trees None
| driven_by sizes m acts ss : gives doc "CTRLAYER" (numbers (sizes ++ [m])) -> sizes <> [] -> Forall (fun k => 0 < k) sizes -> 0 < m ->
    gives doc "CTRLACTIVATION" (words ss) -> activations_written ss acts -> length acts = length sizes -> Forall (available v) acts ->
    (forall d, In (VU, d) (flat_map variables trees) <-> exists j, j < m /\ d = Nat.to_uint j) ->
    driven doc v trees (Some m).
(** DOMAINS: the sets of the certificate, each written as a sphere, rectangle or torus of the state space. *)
Definition sets_written (doc : document) (ty : cert_type) (n : nat) : Prop :=
  exists d, gives doc "DOMAINS" (YMap d) /\ NoDup (map fst d) /\
    (forall key y, In (key, y) d -> exists l value g, user_domain ty l /\ key = label_name l /\ y = YStr value /\
       region_text (list_ascii_of_string value) g /\ proper n g) /\
    (forall l, user_domain ty l -> In (label_name l) (map fst d)).
(** N_DATA: a number for each of the sampled sets, or one number for all of them (only for the certificates without
    border sets: C39). *)
Definition amounts_written (doc : document) (ty : cert_type) : Prop :=
  (exists ns, gives doc "N_DATA" (YMap (map (fun p => (label_name (fst p), YInt (Z.of_nat (snd p)))) ns)) /\
     NoDup (map fst ns) /\ forall l, In l (map fst ns) <-> needs_data ty l) \/
  (exists k, gives doc "N_DATA" (YInt (Z.of_nat k)) /\ In ty [LYAPUNOV; ROA; BARRIER; BARRIERALT; STABLESAFE]).

(** The file. *)
Record documented (doc : document) (ty : cert_type) (time : time_domain) (v : verifier_type) (n : nat) (trees : list tree)
    (outputs : option nat) (rounding iters : Z) : Prop := {
  d_fields : NoDup (map fst doc);
  d_values : forall f y, gives doc f y -> In f settings -> exists a, S_Cli.means f y a;
  d_asks : asks doc ty time;
  d_type : ty <> CUSTOM;
  d_time : supported time ty;
  d_solver : solver doc v;
  d_dimension : dimension doc n;
  d_equations : equations doc trees;
  d_count : length trees = n;
  (* no text "((", natural exponents, functions only for dReal, no constant right-hand side *)
  d_readable : Forall (fun t => no_double_paren t /\ natural_powers t /\ variables t <> [] /\ (v <> VDREAL -> no_functions t)) trees;
  (* the states are x0, ..., x(n-1), and each occurs *)
  d_states : forall d, In (VX, d) (flat_map variables trees) <-> exists j, j < n /\ d = Nat.to_uint j;
  d_inputs : driven doc v trees outputs;
  d_sets : sets_written doc ty n;
  d_amounts : amounts_written doc ty;
  d_network : layers doc v "N_HIDDEN_NEURONS" "ACTIVATION";
  d_rounding : integer_field doc "ROUNDING" 3 rounding;
  d_iters : integer_field doc "CEGIS_MAX_ITERS" 10 iters;
  (* what the program takes for granted, outside the model: positive rate and times (cegis.py:348-358), natural numbers
     (consts.py:195-216), nothing for the settings only the Python interface can fill *)
  d_positive : 0 < n /\ forall f y, In f ["LEARNING_RATE"; "CEGIS_MAX_TIME_S"; "PRECISION"] -> gives doc f y ->
    y = YInf /\ f = "CEGIS_MAX_TIME_S" \/ (exists z, y = YInt z /\ (0 < z)%Z) \/ (exists q, y = YNum q /\ (0 < q)%Q);
  d_natural : forall f y, In f ["SEED"; "DREAL_JOBS"; "VERBOSE"] -> gives doc f y -> exists k, y = YInt (Z.of_nat k);
  d_python : forall f, In f ["DATA"; "CUSTOM_CERTIFICATE"; "ENET"; "CANDIDATE"] -> missing doc f }.

(** A controller with the architecture of [k]: the same activations, [n] inputs and as many outputs as [k]. *)
Definition like (n : nat) (outputs : option nat) (k k' : controller) : Prop :=
  k_acts k' = k_acts k /\ match outputs with None => True | Some m => wf_controller n m k' end.
(** Training keeps the architecture of the controller. *)
Definition keeps_controller (n : nat) (outputs : option nat) (k : controller) (env : environment controller) : Prop :=
  forall it p S Sdot, like n outputs k (l_ctrl p) -> like n outputs k (e_ctrl env it p S Sdot).
(** The parts outside the model return: sampling a trajectory, the estimate of the level. *)
Definition environment_returns (env : environment controller) : Prop :=
  (forall it b p x, e_trajectory env it b p x <> None) /\ (forall it p, e_estimate_beta env it p <> None).
(** The same for the certificates with two functions. *)
Definition keeps_controller2 (n : nat) (outputs : option nat) (k : controller) (env : environment2 controller) : Prop :=
  forall it p S Sdot, like n outputs k (d_ctrl p) -> like n outputs k (e2_ctrl env it p S Sdot).
(** The data: samples for each sampled set of the certificate. *)
Definition sampled (ty : cert_type) (S : dict) : Prop := forall l, In l (map fst S) <-> needs_data ty l.
(** Files that do not start.  The documentation does not say so of all of them. *)
Definition readable_lines (trees : list tree) : Prop := Forall (fun t => no_double_paren t /\ no_functions t) trees.
Inductive unusable (doc : document) : Prop :=
(* no N_DATA (it has a default, 500, in consts.py:180) *)
| no_amounts : missing doc "N_DATA" -> unusable doc
(* one N_DATA for all the sets of a certificate with border sets *)
| one_amount ty time z : asks doc ty time -> In ty [RWS; RWA; RSWS; RSWA; RAR] -> gives doc "N_DATA" (YInt z) -> unusable doc
(* discrete time with another certificate *)
| not_discrete ty : asks doc ty DISCRETE -> ty <> LYAPUNOV -> ty <> BARRIERALT -> unusable doc
(* N_VARS is not the number of equations *)
| wrong_count n lines : dimension doc n -> gives doc "SYSTEM" (YList (map YStr lines)) -> length lines <> n -> unusable doc
(* an equation without variables, such as x' = 1 *)
| constant_equation trees t : equations doc trees -> readable_lines trees -> In t trees -> variables t = [] -> unusable doc
(* an input, and no CTRLAYER *)
| input_alone trees d : equations doc trees -> readable_lines trees -> In (VU, d) (flat_map variables trees) ->
    (forall y, gives doc "CTRLAYER" y -> y = YNull) -> unusable doc
(* CTRLAYER, and no input *)
| controller_alone trees sizes : equations doc trees -> readable_lines trees -> (forall d, ~ In (VU, d) (flat_map variables trees)) ->
    gives doc "CTRLAYER" (numbers sizes) -> unusable doc
(* a controller without a hidden layer *)
| no_hidden_layer m : gives doc "CTRLAYER" (numbers [m]) -> unusable doc
(* fewer activations than hidden layers *)
| few_activations sizes ss : gives doc "N_HIDDEN_NEURONS" (numbers sizes) -> gives doc "ACTIVATION" (words ss) -> length ss < length sizes ->
    unusable doc.
