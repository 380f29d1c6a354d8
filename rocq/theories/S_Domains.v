(** Specification: the subset of R^n each kind of set denotes. *)
From Coq Require Import Reals QArith Qreals List.
From Verif Require Import M_Syntax M_Domains.
Import ListNotations.
Local Open Scope R_scope.

Fixpoint sum_below (n : nat) (g : nat -> R) : R :=
  match n with O => 0 | S m => sum_below m g + g m end.

Definition qn (l : list Q) (i : nat) : R := Q2R (nth i l 0%Q).

(** Which state component coordinate [j] of a set refers to. *)
Definition coord (sel : dimsel) (j : nat) : nat :=
  match sel with Some (i :: l) => nth j (i :: l) 0%nat | _ => j end.

(** Squared distance from the centre, and its ellipse variant. *)
Definition dist2 (c : list Q) (sel : dimsel) (x : state) : R :=
  sum_below (length c) (fun j => (x (coord sel j) - qn c j) ^ 2).
Definition ell2 (a c : list Q) (sel : dimsel) (x : state) : R :=
  sum_below (length c) (fun j => (qn a j * x (coord sel j) - qn c j) ^ 2).

Fixpoint member (n : nat) (S : fset) (x : state) : Prop :=
  match S with
  | Rect lb ub => forall i, (i < length lb)%nat -> qn lb i <= x i <= qn ub i
  | OpenRect lb ub => forall i, (i < length lb)%nat -> qn lb i < x i < qn ub i
  | Sph c r sel => dist2 c sel x <= Q2R r ^ 2
  | OpenSph c r sel => dist2 c sel x < Q2R r ^ 2
  | Ell a c r sel => ell2 a c sel x <= Q2R r ^ 2
  | OrthSph c r => (forall i, (i < n)%nat -> 0 < x i) /\ dist2 c None x <= Q2R r ^ 2
  | Tor c ro ri sel => Q2R ri ^ 2 <= dist2 c sel x <= Q2R ro ^ 2
  | Bean c0 c1 r =>
      let u := x 0%nat - Q2R c0 in let v := x 1%nat - Q2R c1 in
      (u ^ 2 + v ^ 2) ^ 2 <= Q2R r * (u ^ 3 - v ^ 3)
  | EmptyS => False
  | RealsS _ => True
  | UnionS s1 s2 => member n s1 x \/ member n s2 x
  | InterS s1 s2 => member n s1 x /\ member n s2 x
  | MinusS s1 s2 => member n s1 x /\ ~ member n s2 x
  | ComplS s => ~ member n s x
  end.

(** The set's parameters fit an [n]-dimensional system. *)
Definition sel_fits (n k : nat) (sel : dimsel) : Prop :=
  match sel with
  | Some (i :: l) => length (i :: l) = k /\ Forall (fun i => (i < n)%nat) (i :: l)
  | _ => k = n
  end.

Fixpoint fits (n : nat) (S : fset) : Prop :=
  match S with
  | Rect lb ub | OpenRect lb ub => length lb = n /\ length ub = n
  | Sph c _ sel | OpenSph c _ sel => sel_fits n (length c) sel
  | Ell a c _ sel => length a = length c /\ sel_fits n (length c) sel
  | OrthSph c _ => length c = n
  | Tor c _ _ sel => sel_fits n (length c) sel
  | Bean _ _ _ => n = 2%nat
  | EmptyS => True
  | RealsS m => m = n
  | UnionS s1 s2 | InterS s1 s2 | MinusS s1 s2 => fits n s1 /\ fits n s2
  | ComplS s => fits n s
  end.

(** A numeric row read as a state. *)
Definition state_of (row : list R) : state := fun i => nth i row 0.
