(** Specification vocabulary for checking a user's candidate (C54). *)
From Coq Require Import Reals QArith Qreals List.
From Verif Require Import M_Syntax M_Certificates M_Verifier M_Cegis M_Fossil M_Verify S_Success.
Local Open Scope R_scope.

(** The expression uses only the first [n] variables, and at every state each logarithm has a
    positive argument and each denominator is not zero: it is an elementary function on
    all of R^n. *)
Fixpoint uses_only (n : nat) (e : expr) : Prop :=
  match e with
  | ENum _ => True
  | EVar i => (i < n)%nat
  | EUn _ a | EPow a _ => uses_only n a
  | EBin _ a b => uses_only n a /\ uses_only n b
  | EIfPos c a b => uses_only n c /\ uses_only n a /\ uses_only n b
  end.
Fixpoint defined_at (s : state) (e : expr) : Prop :=
  match e with
  | ENum _ | EVar _ => True
  | EUn ULog a => defined_at s a /\ 0 < eval s a
  | EUn _ a | EPow a _ => defined_at s a
  | EBin BDiv a b => defined_at s a /\ defined_at s b /\ eval s b <> 0
  | EBin _ a b => defined_at s a /\ defined_at s b
  | EIfPos c a b => defined_at s c /\ defined_at s a /\ defined_at s b
  end.
Definition elementary (n : nat) (e : expr) : Prop := uses_only n e /\ forall s, defined_at s e.

(** [verify(opts)] returned a result with found = True for the candidate [C], the closed loop
    being [xdot], and the solver can be trusted on its queries. *)
Definition accepted {K} (pb : problem K) (C : expr) (xdot : list expr) : Prop :=
  exists be noise ctrl candidate v,
    (forall Cdot gs, candidate_constraints pb C Cdot = Some gs -> trustworthy be gs) /\
    pb_xdot pb ctrl = Some xdot /\ length xdot = pb_n pb /\ candidate (new_vars (pb_n pb)) = Some C /\
    verify_candidate pb be noise ctrl candidate = Some v /\ v_found v = true.
