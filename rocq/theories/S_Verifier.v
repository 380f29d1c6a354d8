(** Specification vocabulary for the verifier properties (C01-C05).
    Nothing here refers to how [verify] is programmed. *)
From Coq Require Import Reals List Arith.
From Verif Require Import M_Syntax M_Certificates M_Verifier.
Import ListNotations.

(** The labels of all conditions of a certificate are pairwise different. *)
Definition distinct_labels (gs : list group) : Prop :=
  NoDup (map fst (concat gs)).

(** Condition [j] of group [i] is the pair (label, formula). *)
Definition condition_at (gs : list group) (i j : nat) (l : label) (f : fml) : Prop :=
  exists g, nth_error gs i = Some g /\ nth_error g j = Some (l, f).

(** Conditions are posed to the solver in order; this is the call number of
    condition [j] of group [i]. *)
Definition call_number (gs : list group) (i j : nat) : nat :=
  length (concat (firstn i gs)) + j.

(** Group [i] is reached when no condition of an earlier group was answered sat. *)
Definition group_reached {A} (is_sat : A -> bool) (solve : nat -> fml -> A)
    (gs : list group) (i : nat) : Prop :=
  forall i' j' l f, i' < i -> condition_at gs i' j' l f ->
    is_sat (solve (call_number gs i' j') f) = false.

(** Assumptions on an SMT solver. *)
Definition unsat_sound (solve : nat -> fml -> answer) : Prop :=
  forall k f, solve k f = Unsat -> unsatisfiable f.

(** [m] is read as a state: components beyond the list are irrelevant. *)
Definition agrees (s : state) (m : list R) : Prop :=
  forall i a, nth_error m i = Some a -> s i = a.

Definition sat_sound (solve : nat -> fml -> answer) : Prop :=
  forall k f m, solve k f = Sat m -> forall s, agrees s m -> holds s f.
