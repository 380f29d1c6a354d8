(** Specification for training: where the images of the samples come from, and what
    "every sample satisfies the condition" means. *)
From Coq Require Import Reals List Arith.
From Verif Require Import M_Certificates M_Cegis.
Import ListNotations.
Local Open Scope R_scope.

(** The images are those of the dynamics [f]: recomputed from a controller's [f_torch],
    or stored in [Sdot] under the same labels, in the same order (cegis.py:157). *)
Definition images_of (f : point -> point) (f_torch : option (point -> point)) (S Sdot : dict) : Prop :=
  (f_torch = Some f /\ length S = length Sdot) \/
  (f_torch = None /\ Sdot = map (fun e => (fst e, map f (snd e))) S).

(** Values at the same position of two batches. *)
Definition at_same_place {A B} (l : list A) (m : list B) (P : A -> B -> Prop) : Prop :=
  forall i a b, nth_error l i = Some a -> nth_error m i = Some b -> P a b.

(** Lie-style derivative from a gradient. *)
Fixpoint dot (g d : list R) : R :=
  match g, d with a :: g, b :: d => a * b + dot g d | _, _ => 0 end.

(** Pointwise order of batches. *)
Definition below (l m : list R) : Prop := Forall2 Rle l m.

(** [P] holds of exactly [k] numbers. *)
Definition number_of (P : nat -> Prop) (k : nat) : Prop :=
  exists l, NoDup l /\ (forall i, In i l <-> P i) /\ length l = k.
(** The region on which the barrier's derivative is trained. *)
Definition in_belt (symmetric : bool) (b : R) : Prop := if symmetric then Rabs b <= 1/2 else 0 <= b.
(** Positions of two batches where [P] holds of both values. *)
Definition where_both (l m : list R) (P : R -> R -> Prop) (i : nat) : Prop :=
  exists a b, nth_error l i = Some a /\ nth_error m i = Some b /\ P a b.
