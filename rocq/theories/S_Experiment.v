(** Specification: what a script asks for. *)
From Coq Require Import String Reals QArith List Arith.
From Verif Require Import M_Syntax M_Certificates M_Verifier M_Activations M_Domains M_Network M_Cegis M_Labels M_Control M_Cli M_Model M_Experiment
  S_Domains S_Network S_Control S_Dynamics S_Model.
Import ListNotations.
Local Open Scope R_scope.

(** The set given for a label in DOMAINS. *)
Definition given_set (e : script) (l : label) (s : state) : Prop :=
  exists S, In (l, S) (x_domains e) /\
    match S with
    | Shipped D => member (x_n e) D s
    | Written g => holds s (g (map EVar (seq 0 (x_n e))))
    end.
(** The inputs: the outputs of the feedback network, its weights rounded to five decimals (see C42). *)
Definition script_law (e : script) (k : controller) (s : state) : list R :=
  match x_ctrl e with
  | None => []
  | Some (sizes, _) => map (feedback (x_n e) (rounded k) s) (seq 0 (List.last sizes 0%nat))
  end.
(** The system of the script, with that feedback. *)
Definition script_field (e : script) (k : controller) : vfield :=
  fun s i => match x_system e with
             | None => 0
             | Some m => value (map s (seq 0 (x_n e))) (script_law e k s) (nth i (bm_smt m) (UNum 0))
             end.
(** XD is the ring of the points at distance [ri] to [ro] from the origin. *)
Definition ring_of (e : script) (ro ri : R) : Prop :=
  forall s, given_set e XD s <-> ri ^ 2 <= sum_below (x_n e) (fun i => s i ^ 2) <= ro ^ 2.
(** A network of the given widths and activations (by name), with or without biases, and one output. *)
Definition of_shape (sizes : list nat) (names : list act_type) (biases : bool) (n : nat) (net : network) : Prop :=
  in_size net = n /\ wf_net net /\
  map (fun la => List.length (weight (fst la))) (hidden net) = sizes /\
  Forall2 (fun name a => activation_fcn name = Some a) names (map snd (hidden net)) /\
  Forall (fun l => bias l = None <-> biases = false) (last net :: map fst (hidden net)).
(** The system with the feedback as it is trained: the weights are not rounded. *)
Definition trained_field (e : script) (k : controller) : vfield :=
  fun s i => match x_system e with
             | None => 0
             | Some m => value (map s (seq 0 (x_n e)))
                 (match x_ctrl e with None => [] | Some (sizes, _) => map (feedback (x_n e) k s) (seq 0 (List.last sizes 0%nat)) end)
                 (nth i (bm_smt m) (UNum 0))
             end.
