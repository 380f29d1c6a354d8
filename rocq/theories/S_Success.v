(** Specification: what "synthesis/verification reported success" means. *)
From Coq Require Import List.
From Verif Require Import M_Syntax M_Certificates M_Verifier.
Import ListNotations.

(** The solver's verdicts on the conditions of [gs] can be trusted: an accepted
    condition really has no solution, and no answer counts as both sat and unsat. *)
Definition trustworthy (be : backend) (gs : list group) : Prop :=
  (forall k g l f, In g gs -> In (l, f) g ->
     b_is_unsat be (b_solve be k f) = true -> unsatisfiable f) /\
  (forall k f, b_is_sat be (b_solve be k f) = true ->
     b_is_unsat be (b_solve be k f) = false).

(** [Verifier.verify] reported success on the constraints [gs] with some
    trustworthy solver. *)
Definition certified (gs : list group) : Prop :=
  exists be noise, trustworthy be gs /\ v_found (verify be noise gs) = true.
