(** Specification for C77: which counterexamples a later candidate may violate again.  No proofs in this file. *)
From Coq Require Import Reals QArith Qreals List Bool Arith ZArith.
From Verif Require Import M_Syntax M_Certificates M_Verifier M_Activations M_Network M_Learner M_Cegis M_Fossil M_Learning M_Gradient
  S_Verifier S_Certificates S_Domains S_Network S_Cegis S_Loops.
Import ListNotations.
Local Open Scope R_scope.

(** A system without a controller: the dynamics are [xdot], symbolically and on samples. *)
Definition without_controller {K} (pb : problem K) (xdot : list expr) : Prop :=
  length xdot = pb_n pb /\ (forall k, pb_xdot pb k = Some xdot) /\
  (forall k k' x, pb_f pb k x = pb_f pb k' x) /\
  forall k x, length x = pb_n pb -> pb_f pb k x = map (eval (state_of x)) xdot.

(** What the learner computes at one sample [x] with image [xd]. *)
Definition value_at {K} (pb : problem K) (net : network) (x : point) : R := if pb_discrete pb then net_forward net x else learner_value (pb_quad pb) net x.
Definition derivative_at {K} (pb : problem K) (net : network) (x xd : point) : R :=
  snd (if pb_discrete pb then get_all_dt (pb_quad pb) net x xd else get_all_ct (pb_quad pb) net x xd).
(** The test that ends training (M_Learning.v), on the data. *)
Definition training_test {K} (pb : problem K) (net : network) (S Sdot : dict) : Prop :=
  match pb_type pb with
  | LYAPUNOV | ROA => exists act b, lyapunov_batch (value_at pb net) (derivative_at pb net) None S Sdot = Some b /\ lyapunov_ok act (pb_llo pb) b = Some true
  | BARRIER => exists act symmetric b, barrier_batch (value_at pb net) (derivative_at pb net) None S Sdot = Some b /\ barrier_ok act symmetric b = Some true
  | BARRIERALT => exists b, barrier_batch (value_at pb net) (derivative_at pb net) None S Sdot = Some b /\ barrier_alt_ok b = Some true
  | RWS | RWA => exists b, rws_batch (value_at pb net) (learner_grad (pb_quad pb) net) None S Sdot = Some b /\ rws_ok b = Some true
  | RSWS | RSWA => exists b, rsws_batch (value_at pb net) (learner_grad (pb_quad pb) net) None S Sdot = Some b /\ rws_ok (fst b) = Some true
  | STABLESAFE | RAR | CUSTOM => False
  end.
Definition tests {K} (pb : problem K) (env : environment K) : Prop :=
  forall it p S Sdot t net, e_perfect env it p S Sdot t net = true -> training_test pb net S Sdot.

(** In iteration [it], from the state [st], training gives [p] and the candidate is [c]. *)
Definition trained {K} (pb : problem K) (env : environment K) (start : learned K) (S : dict) (it : nat) (st : cstate) (p : learned K) (c : expr * expr) : Prop :=
  visited (fossil pb env) start S it st /\
  c_learn (fossil pb env) it (st_frozen st) (st_params st) (st_S st) (st_Sdot st) = Some p /\ c_translate (fossil pb env) it p = Some c.
(** The network that training returned had passed the test. *)
Definition passed {K} (env : environment K) (it : nat) (st : @cstate (learned K) (expr * expr)) (p : learned K) : Prop :=
  exists t, e_perfect env it (st_params st) (st_S st) (st_Sdot st) t (l_net p) = true.
(** Training ended because of the limit of 1000 optimiser steps. *)
Definition exhausted {K} (pb : problem K) (env : environment K) (it : nat) (st : @cstate (learned K) (expr * expr)) (p : learned K) : Prop :=
  let net := l_net (st_params st) in
  let step := e_step env it (st_params st) (st_S st) (st_Sdot st) in
  let abs := match pb_type pb with LYAPUNOV | ROA => take_abs (pb_llo pb) net | _ => false end in
  l_net p = after (fun t n => if abs then make_final_layer_positive (step t n) else step t n) net 1000.
(** The verifier reported [x] as a counterexample for the set [l] in iteration [j]. *)
Definition reported {K} (pb : problem K) (env : environment K) (start : learned K) (S : dict) (j : nat) (l : label) (x : point) : Prop :=
  exists st p c cex, trained pb env start S j st p c /\ c_verify (fossil pb env) j p c = Some (false, cex) /\ In x (rows l cex).
(** [x] is a solution of the query [l] about the candidate. *)
Definition violates {K} (pb : problem K) (p : learned K) (c : expr * expr) (l : label) (x : point) : Prop :=
  exists gs g f, fossil_constraints pb (l_beta p) (fst c) (snd c) = Some gs /\ In g gs /\ In (l, f) g /\ holds (state_of x) f.
(** The points that can be violated again although the training test held: at equality, where the test is weaker
    than the query; and the initial states of ROA, whose counterexamples go to the samples of the domain. *)
Definition excused {K} (pb : problem K) (beta : Q) (l : label) (s : state) (v d : R) : Prop :=
  match pb_type pb, l with
  | LYAPUNOV, XD => d = 0 \/ (pb_llo pb = false /\ v = 0)
  | ROA, XD => (if pb_llo pb then d = 0 else v = 0) \/ (inside (pb_sets pb) XI s /\ 11/10 * Q2R beta < v)
  | BARRIER, XI => v = 0
  | BARRIER, XU => v = 0
  | BARRIER, XD => v = 0 /\ d = 0
  | BARRIERALT, _ => False
  | (RWS | RWA | RSWS | RSWA), XI => False
  | (RWS | RWA | RSWS | RSWA), XU => v = 0
  | (RWS | RWA | RSWS | RSWA), XD => v = 0
  | _, _ => False
  end.
(** The tests of the barrier and reach-avoid certificates let one sample of the domain in a thousand fail. *)
Definition left_out {K} (pb : problem K) (net : network) (S : dict) (l : label) (x xd : point) : Prop :=
  l = XD /\ (1000 <= length (rows XD S))%nat /\
  let v := value_at pb net x in let d := derivative_at pb net x xd in
  match pb_type pb with
  | BARRIER => v = 0 /\ 0 < d
  | BARRIERALT => - (5/100) < d
  | RWS | RWA | RSWS | RSWA => v < 0 /\ - (1/100) < d
  | _ => False
  end.
