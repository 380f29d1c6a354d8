(** Specification: what an optimiser may do to a network. *)
From Coq Require Import QArith List Bool.
From Verif Require Import M_Activations M_Network M_Learner.

(** It keeps the architecture and touches only registered parameters. *)
Definition same_shape (n n' : network) : Prop :=
  in_size n = in_size n' /\
  map (fun la => (map (@length Q) (weight (fst la)), option_map (@length Q) (bias (fst la)), snd la)) (hidden n) =
  map (fun la => (map (@length Q) (weight (fst la)), option_map (@length Q) (bias (fst la)), snd la)) (hidden n') /\
  map (@length Q) (weight (last n)) = map (@length Q) (weight (last n')) /\
  option_map (@length Q) (bias (last n)) = option_map (@length Q) (bias (last n')).
Definition optimiser (llo : bool) (step : nat -> network -> network) : Prop :=
  forall t net, same_shape net (step t net) /\
    (last_registered llo net = false -> weight (last (step t net)) = weight (last net)).
