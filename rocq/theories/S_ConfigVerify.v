(** Specification: the candidate certificate of a configuration file. *)
From Coq Require Import String Reals QArith List Arith Decimal.
From Verif Require Import M_Syntax M_Parser M_Cli M_Variables S_Dynamics S_Parser S_Lexer S_Variables S_Cli S_Config.
Import ListNotations.
Local Open Scope string_scope.

(** CANDIDATE: a list with one line, in the usual notation. *)
Definition candidate (doc : document) (t : tree) : Prop :=
  exists line, gives doc "CANDIDATE" (YList [YStr line]) /\ written t line /\ std Sum t /\ no_minus_power t.
(** The value of the written candidate at a state. *)
Definition written_value (i : interp) (n : nat) (t : tree) (s : state) : R := value (component i (map s (seq 0 n)) []) t.
(** It mentions no variables but x0, ..., x(n-1). *)
Definition of_state (n : nat) (t : tree) : Prop :=
  forall k d, In (k, d) (variables t) -> k = VX /\ exists j, (j < n)%nat /\ d = Nat.to_uint j.
