(** Specification for C77 and C78, certificates with two functions (STABLESAFE, RAR).  No proofs in this file. *)
From Coq Require Import Reals QArith Qreals List Bool Arith ZArith.
From Verif Require Import M_Syntax M_Certificates M_Verifier M_Activations M_Network M_Learner M_Cegis M_Fossil M_Double M_Learning M_Gradient
  S_Verifier S_Certificates S_Domains S_Network S_Cegis S_Loops S_Progress.
Import ListNotations.
Local Open Scope R_scope.

(** The order in which the losses expect the data (certificate.py:1379, 1502 concatenate the dictionary). *)
Definition in_order (ty : cert_type) (S : dict) : Prop :=
  match ty with
  | STABLESAFE => map fst S = [XD; XI; XU]
  | RAR => map fst S = [XD; XI; XU; XG; XF; XNF]
  | _ => False
  end.
(** The test that ends training (certificate.py:1413-1420, 1548-1556), on the data. *)
Definition training_test2 {K} (pb : problem K) (nets : network * network) (S Sdot : dict) : Prop :=
  let v1 := value_at pb (fst nets) in let v2 := value_at pb (snd nets) in
  let l1 := derivative_at pb (fst nets) in let l2 := derivative_at pb (snd nets) in
  match pb_type pb with
  | STABLESAFE => exists act1 act2 symmetric b, safe_roa_batch v1 v2 l1 l2 None S Sdot = Some b /\
      lyapunov_ok act1 (pb_llo pb) (fst b) = Some true /\ barrier_ok act2 symmetric (snd b) = Some true
  | RAR => exists symmetric b, rar_batch v1 v2 l2 (learner_grad (pb_quad pb) (fst nets)) None S Sdot = Some b /\ rar_ok symmetric b = Some true
  | _ => False
  end.
Definition tests2 {K} (pb : problem K) (env : environment2 K) : Prop :=
  forall it p S Sdot t nets, e2_perfect env it p S Sdot t nets = true -> training_test2 pb nets S Sdot.

(** In iteration [it], from the state [st], training gives [p] and the candidate is [c]. *)
Definition trained2 {K} (pb : problem K) (env : environment2 K) (start : learned2 K) (S : dict) (it : nat) (st : cstate) (p : learned2 K) (c : candidate2) : Prop :=
  visited (double pb env) start S it st /\
  c_learn (double pb env) it (st_frozen st) (st_params st) (st_S st) (st_Sdot st) = Some p /\ c_translate (double pb env) it p = Some c.
Definition passed2 {K} (env : environment2 K) (it : nat) (st : @cstate (learned2 K) candidate2) (p : learned2 K) : Prop :=
  exists t, e2_perfect env it (st_params st) (st_S st) (st_Sdot st) t (d_lyap p, d_barr p) = true.
(** Training ended because of the limit of 1000 optimiser steps; a frozen first network is not changed by them. *)
Definition exhausted2 {K} (env : environment2 K) (it : nat) (st : @cstate (learned2 K) candidate2) (p : learned2 K) : Prop :=
  let step := e2_step env it (st_params st) (st_S st) (st_Sdot st) in
  (d_lyap p, d_barr p) =
  after (fun t nets => if st_frozen st then (fst nets, snd (step t nets)) else step t nets) (d_lyap (st_params st), d_barr (st_params st)) 1000.
Definition reported2 {K} (pb : problem K) (env : environment2 K) (start : learned2 K) (S : dict) (j : nat) (l : label) (x : point) : Prop :=
  exists st p c cex, trained2 pb env start S j st p c /\ c_verify (double pb env) j p c = Some (false, cex) /\ In x (rows l cex).
(** [x] is a solution of a query with the name [l] about one of the two functions. *)
Definition violates2 {K} (pb : problem K) (p : learned2 K) (c : candidate2) (l : label) (x : point) : Prop :=
  exists gs g f, double_constraints pb (d_beta p) c = Some gs /\ In g gs /\ In (l, f) g /\ holds (state_of x) f.
(** The points that can be violated again although the training test held: [v], [d] belong to the first function,
    [w], [e] to the second. *)
Definition excused2 {K} (pb : problem K) (beta : Q) (l : label) (s : state) (v d w e : R) : Prop :=
  match pb_type pb, l with
  | STABLESAFE, XD => (if pb_llo pb then d = 0 else v = 0) \/ (inside (pb_sets pb) XI s /\ 11/10 * Q2R beta < v) \/ (w = 0 /\ e = 0)
  | STABLESAFE, (XI | XU) => w = 0
  | RAR, (XU | XD) => v = 0
  | RAR, (XG | XNF) => w = 0
  | RAR, XF => w = 0 /\ e = 0
  | _, _ => False
  end.
(** Enough samples for the tests to make sense. *)
Definition sized (ty : cert_type) (S : dict) : Prop := rows XI S <> [] /\ (ty = RAR -> rows XG S <> []).
(** The barrier test of the second function lets one in a thousand of its domain samples fail (for RAR these are the
    goal, final and outside samples together). *)
Definition left_out2 {K} (pb : problem K) (nets : network * network) (S : dict) (l : label) (x xd : point) : Prop :=
  value_at pb (snd nets) x = 0 /\ 0 < derivative_at pb (snd nets) x xd /\
  match pb_type pb with
  | STABLESAFE => l = XD /\ (1000 <= length (rows XD S))%nat
  | RAR => l = XF /\ (1000 <= length (rows XG S ++ rows XF S ++ rows XNF S))%nat
  | _ => False
  end.

(** As in S_Terminates.v. *)
Definition answers_from2 {K} (pb : problem K) (env : environment2 K) (start : learned2 K) (S : dict) (pool : list (label * point)) : Prop :=
  forall it st p c gs g l f n, trained2 pb env start S it st p c -> double_constraints pb (d_beta p) c = Some gs -> In g gs -> In (l, f) g ->
    let be := e2_solver env it in let a := b_solve be n f in
    b_is_unsat be a = true \/
    (b_is_sat be a = true /\ holds (state_of (b_model be a)) f /\ length (b_model be a) = pb_n pb /\ In (l, b_model be a) pool).
(** Training reaches its test, and no sample of the pool is left out by its tolerance or excused. *)
Definition trains2 {K} (pb : problem K) (env : environment2 K) (start : learned2 K) (xdot : list expr) (S : dict) (pool : list (label * point)) : Prop :=
  sized (pb_type pb) S /\
  forall it st p c, trained2 pb env start S it st p c ->
    passed2 env it st p /\
    forall l x, In (l, x) pool -> In x (rows l (st_S st)) ->
      softplus_ok (d_lyap p) (state_of x) /\ softplus_ok (d_barr p) (state_of x) /\
      ~ left_out2 pb (d_lyap p, d_barr p) (st_S st) l x (map (eval (state_of x)) xdot) /\
      ~ excused2 pb (d_beta p) l (state_of x) (eval (state_of x) (fst (fst c))) (eval (state_of x) (snd (fst c)))
          (eval (state_of x) (fst (snd c))) (eval (state_of x) (snd (snd c))).
