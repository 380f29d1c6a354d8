(** Specification for the terms added to the loss of a controller. *)
From Coq Require Import Reals List Arith.
From Verif Require Import M_Syntax M_Cegis S_Learning S_Domains.
Import ListNotations.
Local Open Scope R_scope.

(** A batch of [n]-dimensional points. *)
Definition batch (n : nat) (l : list point) : Prop := forall s, In s l -> length s = n.
(** Squared Euclidean length. *)
Definition size2 (s : point) : R := dot s s.
Definition times (k : R) (s : point) : point := map (Rmult k) s.
Definition towards (c s : point) : point := map (fun p => fst p - snd p) (combine c s).
(** Same / opposite directions. *)
Definition along_with (d s : point) : Prop := exists k, 0 < k /\ d = times k s.
Definition against (d s : point) : Prop := exists k, 0 < k /\ d = times (- k) s.
(** Not so short that torch's bound of 1e-8 on the norms, or on their product in older
    versions, replaces them. *)
Definition length_of (s : point) : R := sqrt (size2 s).
Definition resolved (joint : bool) (d s : point) : Prop :=
  if joint then / 100000000 <= length_of d * length_of s
  else / 100000000 <= length_of d /\ / 100000000 <= length_of s.
(** The first [n] components of a state. *)
Definition components (n : nat) (s : state) : point := map s (seq 0 n).
(** Two outcomes of a training loop that agree on whether to stop, or both raise; their
    losses differ by at most one. *)
Definition same_stop (a b : option (R * bool)) : Prop :=
  match a, b with
  | Some (l, stop), Some (l', stop') => stop = stop' /\ Rabs (l - l') <= 1
  | None, None => True
  | _, _ => False
  end.
