(** Specification: the problem a configuration file describes. *)
From Coq Require Import String Reals QArith List Arith ZArith.
From Verif Require Import M_Syntax M_Certificates M_Verifier M_Activations M_Cegis M_Labels M_Network M_Control M_Cli
  S_Activations S_Network S_Control S_Cli.
Import ListNotations.
Local Open Scope string_scope.

(** The value of a field: the one given in the file, or the default value. *)
Inductive setting (doc : document) (field : string) (default : yaml) : yaml -> Prop :=
| set_given v : gives doc field v -> setting doc field default v
| set_default : (forall v, ~ gives doc field v) -> setting doc field default default.
(** The choice named in the file, or the default. *)
Inductive choice (doc : document) (field default : string) : string -> Prop :=
| choice_given s w : gives doc field (YStr s) -> spelled s w -> choice doc field default w
| choice_default : (forall v, ~ gives doc field v) -> choice doc field default default.
(** What YAML (and Python) count as false. *)
Definition no (y : yaml) : Prop :=
  y = YNull \/ y = YBool false \/ y = YInt 0 \/ (exists q, y = YNum q /\ (q == 0)%Q) \/ y = YStr "" \/ y = YList [] \/ y = YMap [].
Definition solver_name (b : symb) : string :=
  match b with SZ3 => "Z3" | SDREAL => "DREAL" | SCVC5 => "CVC5" | SSYMPY => "SYMPY" end.

(** The activation an activation name stands for (see C25 for the names left out). *)
Definition applies (t : act_type) (a : act) : Prop :=
  t <> RELU_SQUARE -> t <> REQU ->
  (forall h, named t = Some h -> forall w j x, act_fun a w j x = h x) /\
  (forall k, poly_name t = Some k -> forall w j x, act_fun a w j x = (x ^ (block k w j + 1))%R).
(** A list of names of activations. *)
Inductive activations (doc : document) (field : string) : list act -> Prop :=
| acts_given ss l : gives doc field (YList (map YStr ss)) ->
    Forall2 (fun s a => exists t, spelled s (activation_name t) /\ applies t a) ss l -> activations doc field l
| acts_default : (forall v, ~ gives doc field v) -> activations doc field [ASquare].
(** A network of the given widths and activations, from [n] inputs to one output, with or without biases. *)
Definition shaped (doc : document) (neurons field : string) (biases : bool) (n : nat) (net : network) : Prop :=
  in_size net = n /\ wf_net net /\
  setting doc neurons (YList [YInt 10]) (YList (map (fun la => YInt (Z.of_nat (length (weight (fst la))))) (hidden net))) /\
  (* one activation per layer; those left over (without LLO only) are not used *)
  (exists rest, activations doc field (map snd (hidden net) ++ rest) /\ (gives doc "LLO" (YBool true) -> rest = [])) /\
  Forall (fun l => bias l = None <-> biases = false) (last net :: map fst (hidden net)).

(** The feedback law with the weights as they are (the numerical right-hand side does not round). *)
Definition trained_law (n : nat) (outputs : option nat) (k : controller) (s : state) : list R :=
  match outputs with None => [] | Some m => map (feedback n k s) (seq 0 m) end.
