(** Specification vocabulary for the CEGIS loop. *)
From Coq Require Import Reals List Bool Arith ZArith.
From Verif Require Import M_Syntax M_Certificates M_Verifier M_Cegis.
Import ListNotations.

(** [visited k p S it st]: in the run of [solve] from parameters [p] and data [S] the
    learner is called in iteration [it] with the contents of [st]. *)
Inductive visited {P C} (k : components P C) (p : P) (S : dict) : nat -> @cstate P C -> Prop :=
| visited_first : visited k p S 0 (init_state k p S)
| visited_next : forall it st st',
    visited k p S it st -> iterate k it st = Some (false, st') -> visited k p S (it + 1) st'.

Definition rows (l : label) (d : dict) : list point :=
  match dlookup l d with Some r => r | None => [] end.
Definition keys {A} (d : list (label * A)) : list label := map fst d.
Definition total (d : dict) : nat := fold_right plus O (map (fun e => length (snd e)) d).
Definition prefix {A} (a b : list A) : Prop := exists c, b = a ++ c.

(** No component raises: an exception in one of them ends the run. *)
Definition components_return {P C} (k : components P C) : Prop :=
  (forall it fr p S Sdot, c_learn k it fr p S Sdot <> None) /\
  (forall it p, c_translate k it p <> None) /\
  (forall it p c, c_verify k it p c <> None) /\
  (forall it b p x, c_trajectory k it b p x <> None) /\
  (forall it p c, c_stay k it p c <> None) /\
  (forall it p, c_estimate_beta k it p <> None).

(** The verifier reports counterexamples as a dictionary whose labels have data. *)
Definition cex_labels_ok {P C} (k : components P C) (S : dict) : Prop :=
  forall it p c found cex, c_verify k it p c = Some (found, cex) ->
    NoDup (keys cex) /\ forall l, rows l cex <> [] -> In l (keys S).
