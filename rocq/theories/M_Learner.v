(** Model of the construction and training of the learner network
    (fossil/learner.py:41-88, 112-115, 269-301; the [learn] loops of certificate.py).
    No proofs in this file.
    The optimiser (loss, gradients, AdamW) is an arbitrary function on networks. *)
From Coq Require Import QArith Qabs List Bool Arith.
From Verif Require Import M_Activations M_Network.
Import ListNotations.

(** [acts[-1]] (294, 298): the class of the last activation. *)
Definition final_act (net : network) : option act :=
  match rev (hidden net) with [] => None | (_, a) :: _ => Some a end.

(** learner.py:296-301 [is_final_polynomial]: "POLY" or "SQUARE" in the type name. *)
Definition polynomial_name (a : act) : bool :=
  match a with
  | ASquare | APoly2 | ATanhSquared | AShiftedSoftplusSquare | APolyN _ | AEvenPolyN _ => true
  | _ => false
  end.
Definition is_final_polynomial (net : network) : bool :=
  match final_act net with Some a => polynomial_name a | None => false end.

(** learner.py:269-294 [is_positive_definite]: otherwise a warning is printed (85-86). *)
Definition pd_act (a : act) : bool :=
  match a with
  | AReLU | ASoftplus | ASquare | ACosh | ASigmoid | ATanhSquared | AShiftedSoftplusSquare => true
  | AEvenPolyN n => existsb (Nat.eqb n) [4; 6; 8; 10]%nat
  | _ => false
  end.
Definition is_positive_definite (net : network) : bool :=
  match final_act net with Some a => pd_act a | None => false end &&
  match bias (last net) with None => true | Some _ => false end.

(** learner.py:61 [_take_abs]. *)
Definition take_abs (llo : bool) (net : network) : bool := llo && negb (is_final_polynomial net).

Definition set_last_weight (net : network) (w : list (list Q)) : network :=
  {| in_size := in_size net; hidden := hidden net; last := {| weight := w; bias := bias (last net) |} |}.

(** learner.py:63-84: from randomly initialised layers; a last layer of ones with LLO
    and a polynomial activation. *)
Definition init_learner (llo : bool) (random : network) : network :=
  if llo && negb (take_abs llo random)
  then set_last_weight random (map (map (fun _ => 1%Q)) (weight (last random)))
  else random.

(** learner.py:77-84: the last layer is a parameter unless it is the layer of ones. *)
Definition last_registered (llo : bool) (net : network) : bool := negb (llo && negb (take_abs llo net)).

(** learner.py:112-115. *)
Definition make_final_layer_positive (net : network) : network :=
  set_last_weight net (map (map Qabs) (weight (last net))).

(** certificate.py:257-280 (Lyapunov), 423-443 (ROA): [perfect t net] is "accuracy = 100"
    and [step t net] the optimiser's update in loop [t]. *)
Fixpoint learn_loop (abs : bool) (perfect : nat -> network -> bool) (step : nat -> network -> network)
  (t loops : nat) (net : network) : network :=
  match loops with
  | O => net
  | S loops =>
      if perfect t net && (1 <=? t)%nat then net
      else
        let net := step t net in
        let net := if abs then make_final_layer_positive net else net in
        learn_loop abs perfect step (t + 1) loops net
  end.
Definition learning_loops : nat := 1000.
Definition learn (llo : bool) (perfect : nat -> network -> bool) (step : nat -> network -> network)
  (net : network) : network :=
  learn_loop (take_abs llo net) perfect step 0 learning_loops net.

(** certificate.py:1382-1423 (SafeROA), the Lyapunov half: same loop, never made
    positive, and [t > 1] to stop. *)
Fixpoint safe_roa_loop (perfect : nat -> network -> bool) (step : nat -> network -> network)
  (t loops : nat) (net : network) : network :=
  match loops with
  | O => net
  | S loops =>
      if perfect t net && (2 <=? t)%nat then net
      else safe_roa_loop perfect step (t + 1) loops (step t net)
  end.
Definition learn_safe_roa (perfect : nat -> network -> bool) (step : nat -> network -> network)
  (net : network) : network := safe_roa_loop perfect step 0 learning_loops net.

(** certificate.py:578-644 (Barrier), 770-844 (BarrierAlt), 968-1039 (RWS), 1152-1237
    (RSWS): stop as soon as the accuracy condition holds in two consecutive loops. *)
Fixpoint twice_loop (cond : nat -> network -> bool) (step : nat -> network -> network)
  (t loops : nat) (old : bool) (net : network) : network :=
  match loops with
  | O => net
  | S loops =>
      if cond t net && old then net
      else twice_loop cond step (t + 1) loops (cond t net) (step t net)
  end.
Definition learn_twice (cond : nat -> network -> bool) (step : nat -> network -> network)
  (net : network) : network := twice_loop cond step 0 learning_loops false net.

(** cegis.py:172-215: the learner is trained once per CEGIS iteration. *)
Definition history := list ((nat -> network -> bool) * (nat -> network -> network)).
Definition train (llo : bool) (h : history) (net : network) : network :=
  fold_left (fun net ps => learn llo (fst ps) (snd ps) net) h net.
Definition train_safe_roa (h : history) (net : network) : network :=
  fold_left (fun net ps => learn_safe_roa (fst ps) (snd ps) net) h net.
