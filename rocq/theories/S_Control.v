(** Specification: feedback laws, independently of how fossil evaluates them. *)
From Coq Require Import Reals QArith Qreals List Bool Arith ZArith.
From Verif Require Import M_Syntax M_Activations M_Network M_Control S_Activations S_Domains S_Network S_Dynamics.
Import ListNotations.
Local Open Scope R_scope.

(** A controller as configured: [n] inputs, [m] outputs, one activation per hidden
    layer, no biases. *)
Definition wf_controller (n m : nat) (c : controller) : Prop :=
  exists hs o k, k_layers c = hs ++ [o] /\ length hs = length (k_acts c) /\
    Forall (fun l => bias l = None) (k_layers c) /\
    wf_hidden n (combine hs (k_acts c)) k /\ wf_layer k o /\ length (weight o) = m.

(** Output [j] of the feedback law: the usual feed-forward network through the hidden
    layers and one linear output layer. *)
Definition feedback (n : nat) (c : controller) (s : state) (j : nat) : R :=
  let hs := combine (removelast (k_layers c)) (k_acts c) in
  neuron (out_width n hs) (output_layer c) (hidden_value n hs s) j.

(** s' = f(s, u(s)). *)
Definition actuated (n : nat) (f : list expr) (u : state -> nat -> R) : vfield :=
  fun s i => eval (fun j => if (j <? n)%nat then s j else u s (j - n)%nat) (nth i f (ENum 0)).

(** The same controller with every weight rounded to five decimals. *)
Definition rounded (c : controller) : controller :=
  {| k_acts := k_acts c;
     k_layers := map (fun l => {| weight := map (map (round_dp 5)) (weight l); bias := bias l |}) (k_layers c) |}.
(** Every weight is a multiple of 10^-5. *)
Definition five_decimals (c : controller) : Prop :=
  Forall (fun l => Forall (Forall (fun w => round_dp 5 w == w)%Q) (weight l)) (k_layers c).
(** No softplus is fed more than 20 (see C25). *)
Definition ctrl_softplus_ok (n : nat) (c : controller) (s : state) : Prop :=
  hidden_all softplus_range n (combine (removelast (k_layers c)) (k_acts c)) s.
