(** Specification: the textbook conditions of each certificate, over states.
    Mentions only the meaning of sets ([holds s (d L)]) and functions. *)
From Coq Require Import Reals QArith Qreals List.
From Verif Require Import M_Syntax M_Certificates.
Import ListNotations.
Local Open Scope R_scope.

(** Every constraint of the certificate has no solution. *)
Definition refuted (gs : list group) : Prop :=
  forall g l f, In g gs -> In (l, f) g -> unsatisfiable f.

(** State [s] lies in the set labelled [l]. *)
Definition inside (d : sets) (l : label) (s : state) : Prop := holds s (d l).

Definition origin (n : nat) (s : state) : Prop := forall i, (i < n)%nat -> s i = 0.

(** Sum of squares of the first [n] components. *)
Fixpoint sqnorm (n : nat) (s : state) : R :=
  match n with
  | O => 0
  | S m => sqnorm m s + s m * s m
  end.

Definition lyapunov_conditions (llo : bool) (n : nat) (d : sets) (V Vdot : state -> R) : Prop :=
  forall s, inside d XD s -> ~ origin n s ->
    (llo = false -> 0 < V s) /\ Vdot s < 0.

Definition roa_conditions (llo : bool) (n : nat) (d : sets) (level : R) (V Vdot : state -> R) : Prop :=
  (forall s, inside d XI s -> V s <= level) /\
  (forall s, V s <= level -> (1/100) * (1/100) < sqnorm n s ->
     if llo then Vdot s < 0 else 0 < V s /\ Vdot s <= 0).

Definition barrier_conditions (d : sets) (initl unsafel : label) (B Bdot : state -> R) : Prop :=
  (forall s, inside d XD s -> inside d initl s -> B s < 0) /\
  (forall s, inside d XD s -> inside d unsafel s -> 0 < B s) /\
  (forall s, inside d XD s -> B s = 0 -> Bdot s < 0).

Definition barrier_alt_conditions (d : sets) (B Bdot : state -> R) : Prop :=
  (forall s, inside d XD s -> inside d XI s -> B s < 0) /\
  (forall s, inside d XD s -> inside d XU s -> 0 < B s) /\
  (forall s, inside d XD s -> Bdot s <= 0).

Definition rws_conditions (d : sets) (C Cdot : state -> R) : Prop :=
  (forall s, inside d XD s -> inside d XI s -> C s <= 0) /\
  (forall s, inside d XD s -> inside d XS_BORDER s -> 0 < C s) /\
  (forall s, inside d XS s -> ~ inside d XG s -> C s <= 0 -> Cdot s <= - (1/100)).

Definition stay_conditions (d : sets) (beta : R) (C Cdot : state -> R) : Prop :=
  (forall s, inside d XG_BORDER s -> beta < C s) /\
  (forall s, inside d XG s -> ~ (inside d XS s /\ C s < beta) -> Cdot s <= - (1/100)).
