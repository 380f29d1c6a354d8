(** Model of RSWS's search for a sublevel value (fossil/certificate.py).
    No proofs in this file. *)
From Coq Require Import Reals QArith List Bool.
From Verif Require Import M_Syntax M_Certificates M_Verifier.
Import ListNotations.

(** certificate.py:1272-1282: the possible outcomes of [stay_in_goal_check]:
    (True, None), (False, "decrease"), (False, "increase"), (False, "both") or the
    failing assertion on line 1283. *)
Inductive stay_outcome := StayOk | StayDecrease | StayIncrease | StayBoth | StayAssertionError.

Section Beta.
  Context (be : backend) (d : sets) (C Cdot : expr).

  (** certificate.py:1239-1282 [RSWS.stay_in_goal_check].  Solver calls number
      [k] and [k+1] of this run. *)
  Definition stay_in_goal_check (k : nat) (beta : Q) : stay_outcome :=
    let res1 := b_solve be k (stay_border_condition d C beta) in
    let res2 := b_solve be (S k) (stay_lie_condition d C Cdot beta) in
    if b_is_unsat be res1 && b_is_unsat be res2 then StayOk
    else if b_is_sat be res1 && b_is_unsat be res2 then StayDecrease
    else if b_is_unsat be res1 && b_is_sat be res2 then StayIncrease
    else if b_is_sat be res1 && b_is_sat be res2 then StayBoth
    else StayAssertionError.

  Inductive beta_outcome :=
  | BetaTrue (beta : Q)   (* returns True after [learner.beta = beta_guess] *)
  | BetaFalse             (* returns False *)
  | BetaError.            (* the assertion of [stay_in_goal_check] fails *)

  (** certificate.py:1307-1321: the [while True] loop with at most [fuel]
      iterations; [None] means the loop is still running after them.  The guess is
      always the midpoint of the two bounds (Python floats idealised as
      rationals). *)
  Fixpoint beta_loop (fuel k : nat) (lower upper : Q) : option beta_outcome :=
    match fuel with
    | O => None
    | S fuel =>
        let guess := ((upper + lower) / 2)%Q in
        match stay_in_goal_check k guess with
        | StayOk => Some (BetaTrue guess)
        | StayDecrease => beta_loop fuel (2 + k) lower guess
        | StayIncrease => beta_loop fuel (2 + k) guess upper
        | StayBoth => Some BetaFalse
        | StayAssertionError => Some BetaError
        end
    end.

  (** certificate.py:1285-1321 [RSWS.beta_search]; the bounds are lines 1304-1305. *)
  Definition beta_search (fuel k : nat) : option beta_outcome :=
    beta_loop fuel k (-1000000) 1000.
End Beta.
