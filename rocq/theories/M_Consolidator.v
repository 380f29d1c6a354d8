(** Model of fossil/consolidator.py.  No proofs in this file.
    [vdot] and [grad] are the network's derivative and its gradient by autograd at one
    point (they are arbitrary functions here); reals instead of floats, so the NaN
    assertion (67) is not represented. *)
From Coq Require Import Reals List Bool.
From Verif Require Import M_Cegis.
Import ListNotations.
Local Open Scope R_scope.

(** consolidator.py:41-42. *)
Definition gamma : R := 5/100.
Definition max_steps : nat := 20.
(** consolidator.py:46: the value the first derivative is compared with. *)
Definition initial_old : R := -1.

Definition Rltb (a b : R) : bool := if Rlt_dec a b then true else false.
Definition plus_scaled (c : R) (p g : point) : point := map (fun '(x, d) => x + c * d) (combine p g).

Section Trajectory.
  Variables (vdot : point -> R) (grad : point -> point).

  (** consolidator.py:51-57: the conditions to break. *)
  Definition stop (old new : R) (g : point) : bool :=
    Rltb new old || Rltb (Rabs (old - new)) (1 / 100000) || Rltb 1000000 new ||
    existsb (fun d => Rltb 100 (Rabs d)) g.

  (** consolidator.py:48-64. *)
  Fixpoint steps (k : nat) (old : R) (p : point) : list point :=
    match k with
    | O => []
    | S k =>
        if stop old (vdot p) (grad p) then []
        else let p' := plus_scaled gamma p (grad p) in p' :: steps k (vdot p) p'
    end.
  (** consolidator.py:34-68 [compute_trajectory]. *)
  Definition compute_trajectory (p : point) : list point := p :: steps max_steps initial_old p.
End Trajectory.
