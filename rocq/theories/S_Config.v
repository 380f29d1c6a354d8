(** Specification: the question a configuration file asks, in terms of its text. *)
From Coq Require Import String Ascii Reals QArith List Arith ZArith Decimal.
From Verif Require Import M_Syntax M_Certificates M_Verifier M_Activations M_Cegis M_Labels M_Control M_Parser M_Lexer M_Variables
  M_DomainParser M_Cli S_Dynamics S_Parser S_Lexer S_Variables S_DomainParser S_Control S_Cli.
Import ListNotations.
Local Open Scope string_scope.
Local Open Scope R_scope.

(** The usual meaning of powers and functions. *)
Definition usual (i : interp) : Prop :=
  (forall x k, i_pow i x (INR k) = x ^ k) /\
  i_fun i FSin = sin /\ i_fun i FCos = cos /\ i_fun i FExp = exp /\ i_fun i FLog = ln /\ i_fun i FTanh = tanh.

(** CERTIFICATE and TIME_DOMAIN. *)
Definition asks (doc : document) (c : cert_type) (t : time_domain) : Prop :=
  exists s1 s2, gives doc "CERTIFICATE" (YStr s1) /\ spelled s1 (certificate_name c) /\
                gives doc "TIME_DOMAIN" (YStr s2) /\ spelled s2 (time_name t).
(** VERIFIER is not CVC5 (see C22). *)
Definition not_cvc5 (doc : document) : Prop := forall s, gives doc "VERIFIER" (YStr s) -> ~ spelled s "CVC5".
(** N_VARS. *)
Definition dimension (doc : document) (n : nat) : Prop := gives doc "N_VARS" (YInt (Z.of_nat n)).
(** SYSTEM: one line per equation, in the usual notation. *)
Definition equations (doc : document) (trees : list tree) : Prop :=
  exists lines, gives doc "SYSTEM" (YList (map YStr lines)) /\ Forall2 written trees lines /\
    Forall (fun t => std Sum t /\ no_minus_power t) trees.
(** DOMAINS: the set [l] is written [g]. *)
Definition declares (doc : document) (n : nat) (l : label) (g : region) : Prop :=
  exists d value, gives doc "DOMAINS" (YMap d) /\ NoDup (map fst d) /\ In (label_name l, YStr value) d /\
    region_text (list_ascii_of_string value) g /\ proper n g.
(** A list of activations: none of the given names; without the field, SQUARE is used. *)
Definition avoids_in (doc : document) (field : string) (names : list string) : Prop :=
  forall v, gives doc field v ->
    exists ss, v = YList (map YStr ss) /\ forall s w, In s ss -> In w names -> ~ spelled s w.
Definition avoids (doc : document) (names : list string) : Prop := avoids_in doc "ACTIVATION" names.
Definition avoids_alt (doc : document) (names : list string) : Prop := avoids_in doc "ACTIVATION_ALT" names.
Definition relu_names : list string := ["RELU"; "RELU_SQUARE"; "REQU"].
(** Activations which are not zero at zero. *)
Definition offset_names : list string :=
  ["SIGMOID"; "SOFTPLUS"; "EVEN_POLY_4"; "EVEN_POLY_6"; "EVEN_POLY_8"; "EVEN_POLY_10"].

(** The system: without CTRLAYER it has no input; otherwise the inputs are the outputs of the
    feedback network (rounded as in C42), as many as the last entry of CTRLAYER, with one activation
    for each of the other entries. *)
Inductive inputs_of (doc : document) (trees : list tree) : option nat -> Prop :=
| no_inputs : (forall v, gives doc "CTRLAYER" v -> v = YNull) -> inputs_of doc trees None
| some_inputs sizes m ss :
    gives doc "CTRLAYER" (YList (map (fun k => YInt (Z.of_nat k)) (sizes ++ [m]))) ->
    gives doc "CTRLACTIVATION" (YList (map YStr ss)) -> length ss = length sizes ->
    (* u0 to u(m-1), fewer than eleven (see C38) *)
    (m <= 10)%nat -> (forall d, In (VU, d) (flat_map variables trees) -> exists j, (j < m)%nat /\ d = Nat.to_uint j) ->
    (* each once, with dReal (see C38) *)
    (forall s, gives doc "VERIFIER" (YStr s) -> spelled s "DREAL" -> NoDup (named VU (flat_map variables trees))) ->
    inputs_of doc trees (Some m).
Definition feedback_law (n : nat) (outputs : option nat) (k : controller) (s : state) : list R :=
  match outputs with None => [] | Some m => map (feedback n (rounded k) s) (seq 0 m) end.
Definition system_field (i : interp) (n : nat) (trees : list tree) (law : state -> list R) : vfield :=
  fun s k => value (component i (map s (seq 0 n)) (law s)) (nth k trees (CNum 0)).
(** Right-hand sides that are defined and continuous everywhere: sums, products and natural powers of variables, numbers and sin, cos, exp, tanh; division by a number. *)
Fixpoint everywhere (t : tree) : Prop :=
  match t with
  | CNum _ | CVar _ _ => True
  | CFun f t => (f = FSin \/ f = FCos \/ f = FExp \/ f = FTanh) /\ everywhere t
  | CParen t | CNeg t => everywhere t
  | CBin OPow a b => everywhere a /\ exists k, b = CNum (inject_Z (Z.of_nat k))
  | CBin ODiv a b => everywhere a /\ exists q, b = CNum q /\ Q2R q <> 0
  | CBin _ a b => everywhere a /\ everywhere b
  end.
