(** Specification for the samplers: what a random source may return. *)
From Coq Require Import Reals QArith Qreals List Arith.
From Verif Require Import M_Syntax M_Domains S_Domains.
Local Open Scope nat_scope.
Local Open Scope R_scope.

(** torch.rand draws from [0,1); a Gaussian vector is never exactly zero. *)
Definition good_source (s : source) : Prop :=
  (forall k i j, 0 <= rnd s k i j < 1) /\
  (forall k i n, (0 < n)%nat -> 0 < norm2 (map (gauss s k i) (seq 0 n))).

(** The border of a set, as the documentation of [sample_border] has it: the face of a box,
    the surface of a ball or of an ellipse; a complement has the border of the set; a union
    both borders (see the warning in Union.sample_border). *)
Fixpoint on_border (n : nat) (D : fset) (x : state) : Prop :=
  match D with
  | Rect lb ub => (forall i, (i < n)%nat -> qn lb i <= x i <= qn ub i) /\
                  exists i, (i < n)%nat /\ (x i = qn lb i \/ x i = qn ub i)
  | Sph c r sel | OpenSph c r sel => dist2 c sel x = Q2R r ^ 2
  | Ell a c r sel => ell2 a c sel x = Q2R r ^ 2
  | UnionS s1 s2 => on_border n s1 x \/ on_border n s2 x
  | ComplS s => on_border n s x
  | _ => False
  end.

(** Which sets can be sampled at all, and how many rows their border samples have. *)
Fixpoint border_count (D : fset) (batch : nat) : option nat :=
  match D with
  | Rect _ _ | OpenRect _ _ | Sph _ _ _ | OpenSph _ _ _ | Ell _ _ _ _ | Tor _ _ _ _ => Some batch
  | UnionS s1 s2 =>
      match border_count s1 (batch / 2), border_count s2 (batch / 2) with
      | Some a, Some b => Some (a + b)%nat | _, _ => None end
  | ComplS s => border_count s batch
  | OrthSph _ _ | Bean _ _ _ | EmptyS | RealsS _ | InterS _ _ | MinusS _ _ => None
  end.
Fixpoint has_test (D : fset) : Prop :=
  match D with
  | Rect _ _ | OpenRect _ _ | Sph _ _ None | OpenSph _ _ None | Ell _ _ _ None | Tor _ _ _ None | EmptyS => True
  | MinusS s1 s2 => has_test s1 /\ has_test s2
  | ComplS s => has_test s
  | _ => False
  end.
Fixpoint can_sample (D : fset) : Prop :=
  match D with
  | Rect _ _ | OpenRect _ _ | Sph _ _ _ | OpenSph _ _ _ | Ell _ _ _ _ | Tor _ _ _ _ => True
  | OrthSph c _ => length c = 2%nat \/ length c = 3%nat
  | UnionS s1 s2 => can_sample s1 /\ can_sample s2
  | InterS s1 s2 => can_sample s1 /\ can_sample s2 /\ has_test s1 /\ has_test s2
  | MinusS s1 s2 => can_sample s1 /\ has_test s2
  | _ => False
  end.
