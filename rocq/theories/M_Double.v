(** fossil assembled, two certificates at once: [DoubleCegis] (fossil/cegis.py:361-563) for
    STABLESAFE and RAR, with the modelled translator, certificates and verifier plugged
    into the CEGIS loop.  No proofs in this file.
    What stays arbitrary (the record [environment2]): the optimiser, the accuracies, the
    level of the region of attraction, the solver, random noise, the controller's training
    and the consolidator. *)
From Coq Require Import Reals QArith List Bool Arith ZArith.
From Verif Require Import M_Syntax M_Certificates M_Verifier M_Activations M_Network M_Learner
  M_Cegis M_Fossil.
Import ListNotations.

(** Everything that training changes: both networks (cegis.py:376, [self.learner]), the
    controller, and [self.ROA.beta] (certificate.py:1426). *)
Record learned2 (K : Type) := { d_lyap : network; d_barr : network; d_ctrl : K; d_beta : Q }.
Arguments d_lyap {K}. Arguments d_barr {K}. Arguments d_ctrl {K}. Arguments d_beta {K}.

(** A symbolic candidate: (V, Vdot) and (B, Bdot). *)
Definition candidate2 := ((expr * expr) * (expr * expr))%type.

Record environment2 (K : Type) := {
  e2_perfect : nat -> learned2 K -> dict -> dict -> nat -> network * network -> bool;
  e2_step : nat -> learned2 K -> dict -> dict -> nat -> network * network -> network * network;
  e2_ctrl : nat -> learned2 K -> dict -> dict -> K;
  e2_beta : nat -> learned2 K -> dict -> dict -> Q;
  e2_simp : expr -> expr;
  e2_solver : nat -> backend;
  e2_noise : nat -> label -> nat -> nat -> R;
  e2_trajectory : nat -> bool -> learned2 K -> point -> option (list point)
}.
Arguments e2_perfect {K}. Arguments e2_step {K}. Arguments e2_ctrl {K}. Arguments e2_beta {K}.
Arguments e2_simp {K}. Arguments e2_solver {K}. Arguments e2_noise {K}. Arguments e2_trajectory {K}.

(** certificate.py:1382-1420 [SafeROA.learn]: stop when accurate, but not before [t > 1]. *)
Fixpoint safe_pair_loop (perfect : nat -> network * network -> bool)
  (step : nat -> network * network -> network * network) (t loops : nat) (nets : network * network)
  : network * network :=
  match loops with
  | O => nets
  | S loops =>
      if perfect t nets && (2 <=? t)%nat then nets
      else safe_pair_loop perfect step (t + 1) loops (step t nets)
  end.
(** certificate.py:1505-1560 [ReachAvoidRemain.learn]: stop when accurate twice in a row. *)
Fixpoint rar_pair_loop (cond : nat -> network * network -> bool)
  (step : nat -> network * network -> network * network) (t loops : nat) (old : bool) (nets : network * network)
  : network * network :=
  match loops with
  | O => nets
  | S loops =>
      if cond t nets && old then nets
      else rar_pair_loop cond step (t + 1) loops (cond t nets) (step t nets)
  end.

(** learner.py:140-146 [freeze]: parameters that do not require gradients are left alone
    by the optimiser ([zero_grad] drops their gradients, [step] skips parameters without). *)
Definition freeze_step (frozen : bool) (step : nat -> network * network -> network * network)
  (t : nat) (nets : network * network) : network * network :=
  if frozen then (fst nets, snd (step t nets)) else step t nets.

Section Double.
  Context {K : Type} (pb : problem K) (env : environment2 K).

  Definition learn_pair (frozen : bool) (it : nat) (p : learned2 K) (S Sdot : dict) : network * network :=
    let step := freeze_step frozen (e2_step env it p S Sdot) in
    let perfect := e2_perfect env it p S Sdot in
    match pb_type pb with
    | STABLESAFE => safe_pair_loop perfect step 0 learning_loops (d_lyap p, d_barr p)
    | _ => rar_pair_loop perfect step 0 learning_loops false (d_lyap p, d_barr p)
    end.
  (** cegis.py:467 [self.lyap_learner.get]: trains both networks, and the controller if
      there is one (learner.py:99-104, 404-424); certificate.py:1425-1427 sets the level. *)
  Definition double_learn (it : nat) (frozen : bool) (p : learned2 K) (S Sdot : dict) : option (learned2 K) :=
    let nets := learn_pair frozen it p S Sdot in
    Some {| d_lyap := fst nets; d_barr := snd nets;
            d_ctrl := if pb_control pb then e2_ctrl env it p S Sdot else d_ctrl p;
            d_beta := e2_beta env it p S Sdot |}.

  (** translator.py:276-290 [TranslatorCTDouble.get]: the factors come from the state,
      where nobody puts them, so no quadratic factor is ever used; cegis.py:230-233. *)
  Definition double_translate (it : nat) (p : learned2 K) : option candidate2 :=
    option_bind (pb_xdot pb (d_ctrl p)) (fun xdot =>
    option_bind (translate_ct (pb_symb pb) (e2_simp env) (pb_rounding pb) false (d_lyap p) (new_vars (pb_n pb)) xdot) (fun v =>
    option_bind (translate_ct (pb_symb pb) (e2_simp env) (pb_rounding pb) false (d_barr p) (new_vars (pb_n pb)) xdot) (fun b =>
      Some (v, b)))).

  (** cegis.py:378-385, certificate.py:1431-1444, 1567-1590. *)
  Definition double_constraints (beta : Q) (c : candidate2) : option (list group) :=
    let '((V, Vdot), (B, Bdot)) := c in
    match pb_type pb with
    | STABLESAFE => Some (safe_roa_constraints (pb_llo pb) (new_vars (pb_n pb)) (pb_sets pb) beta V B Vdot Bdot)
    | RAR => Some (rar_constraints (pb_sets pb) V B Vdot Bdot)
    | _ => None (* ValueError *)
    end.
  Definition double_verify (it : nat) (p : learned2 K) (c : candidate2) : option (bool * dict) :=
    option_bind (double_constraints (d_beta p) c) (fun gs =>
      let v := verify (e2_solver env it) (e2_noise env it) gs in Some (v_found v, v_cex v)).

  (** cegis.py:374-376; [process_certificate] (291-327) never needs a level or a stay check
      for these two certificates. *)
  Definition double : components (learned2 K) candidate2 :=
    {| c_type := pb_type pb; c_double := true; c_control := pb_control pb; c_max_iters := pb_max_iters pb;
       c_f := fun p => pb_f pb (d_ctrl p); c_learn := double_learn; c_translate := double_translate;
       c_verify := double_verify; c_trajectory := e2_trajectory env; c_stay := fun _ _ _ => None;
       c_estimate_beta := fun _ _ => None |}.

  (** cegis.py:387-419: the second learner is built with LLO off. *)
  Definition initial2 (random1 random2 : network) (ctrl : K) : learned2 K :=
    {| d_lyap := init_learner (pb_llo pb) random1; d_barr := init_learner false random2;
       d_ctrl := ctrl; d_beta := 0%Q |}.
  (** [DoubleCegis(config).solve()]; a discrete configuration is refused (348-358). *)
  Definition run_double (fuel : nat) (random1 random2 : network) (ctrl : K) (S : dict)
    : option (option (result (P := learned2 K) (C := candidate2))) :=
    if pb_discrete pb then Some None else solve double fuel (initial2 random1 random2 ctrl) S.
End Double.
