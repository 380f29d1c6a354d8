(** Specification: x_i is component i of the state, u_i component i of the input. *)
From Coq Require Import Reals List Decimal.
From Verif Require Import M_Activations M_Parser M_Variables.
Import ListNotations.

Definition component (rest : interp) (v u : list R) : interp :=
  {| i_var := fun k d => match k with
                         | VX => nth (Nat.of_uint d) v 0%R
                         | VU => nth (Nat.of_uint d) u 0%R
                         end;
     i_pow := i_pow rest; i_fun := i_fun rest |}.

(** Variable [d] of kind [k] occurs in the system. *)
Definition mentions (es : list ast) (k : vkind) (d : uint) : Prop := In (k, d) (flat_map vars es).
(** The variables of kind [k] are number 0 to n-1. *)
Definition exactly (es : list ast) (k : vkind) (n : nat) : Prop :=
  forall d, mentions es k d <-> exists i, (i < n)%nat /\ d = Nat.to_uint i.
(** Each control variable occurs once. *)
Definition inputs_once (es : list ast) : Prop := NoDup (named VU (flat_map vars es)).
(** Neither variables nor functions. *)
Fixpoint literal (e : ast) : Prop :=
  match e with
  | ANum _ => True
  | AVar _ _ | AFun _ _ => False
  | ANeg a => literal a
  | ABin _ a b => literal a /\ literal b
  end.
Definition constant_side (es : list ast) : Prop := exists e, In e es /\ literal e.
