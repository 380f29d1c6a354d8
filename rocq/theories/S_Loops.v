(** Specification: what a training call may return. *)
From Coq Require Import Bool Arith.
Local Open Scope nat_scope.

(** The network after [k] optimiser steps. *)
Fixpoint after {A} (step : nat -> A -> A) (a : A) (k : nat) : A :=
  match k with O => a | S k => step k (after step a k) end.
(** [b] is what remains after at most [max] steps: training stops at the first step at which it
    is [done], and not before step [max] otherwise. *)
Definition trained_until {A} (done : nat -> Prop) (max : nat) (step : nat -> A -> A) (a b : A) : Prop :=
  exists k, k <= max /\ b = after step a k /\ (forall j, j < k -> ~ done j) /\ (k < max -> done k).
