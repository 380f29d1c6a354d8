(** Specification: trajectories of continuous- and discrete-time systems and what
    it means to be safe / stable / reach a set. *)
From Coq Require Import Reals List.
From Coquelicot Require Import Coquelicot.
From Verif Require Import M_Syntax.
Local Open Scope R_scope.

(** A vector field gives the derivative of each component. *)
Definition vfield := state -> nat -> R.

(** [x] moves along [f] at time [t]: x_i'(t) = f_i(x(t)) for each of the [n] components. *)
Definition follows (n : nat) (f : vfield) (x : R -> state) (t : R) : Prop :=
  forall i, (i < n)%nat -> is_derive (fun u => x u i) t (f (x t) i).

(** [x] is a trajectory of [f] on the time interval [0,T] (two-sided derivative at
    the end points: the trajectory may be thought of as slightly extended). *)
Definition solves (n : nat) (f : vfield) (x : R -> state) (T : R) : Prop :=
  forall t, 0 <= t <= T -> follows n f x t.

Definition solves_forever (n : nat) (f : vfield) (x : R -> state) : Prop :=
  forall t, 0 <= t -> follows n f x t.

(** [Vdot] is the derivative of [V] along every motion of [f]. *)
Definition lie_derivative (n : nat) (f : vfield) (V Vdot : state -> R) : Prop :=
  forall x t, follows n f x t -> is_derive (fun u => V (x u)) t (Vdot (x t)).

(** A run of the discrete-time system s(k+1) = F(s(k)). *)
Definition run (n : nat) (F : vfield) (x : nat -> state) : Prop :=
  forall k i, (i < n)%nat -> x (S k) i = F (x k) i.

(** A path whose [n] components are continuous on [a,b]. *)
Definition continuous_path (n : nat) (x : R -> state) (a b : R) : Prop :=
  forall t, a <= t <= b -> forall i, (i < n)%nat -> continuous (fun u => x u i) t.

(** [dK] is a fence around [K]: whoever leaves [K] continuously meets [dK] at a
    moment before which it has been in [K] all the time. *)
Definition fence (n : nat) (K dK : state -> Prop) : Prop :=
  forall x a b, a <= b -> continuous_path n x a b -> K (x a) -> ~ K (x b) ->
    exists t, a <= t <= b /\ dK (x t) /\ forall u, a <= u < t -> K (x u).

(** Distance of a state from the origin in the max norm is below/at most e. *)
Definition near (n : nat) (e : R) (s : state) : Prop :=
  forall i, (i < n)%nat -> Rabs (s i) < e.

(** Lyapunov stability of the origin of s' = f(s). *)
Definition stable (n : nat) (f : vfield) : Prop :=
  forall e, 0 < e -> exists d, 0 < d /\
    forall x T, 0 <= T -> solves n f x T -> near n d (x 0) ->
      forall t, 0 <= t <= T -> near n e (x t).

(** The origin attracts all trajectories that start near enough and exist forever. *)
Definition attractive (n : nat) (f : vfield) : Prop :=
  exists d, 0 < d /\
    forall x, solves_forever n f x -> near n d (x 0) ->
      forall e, 0 < e -> exists T, forall t, T <= t -> near n e (x t).

(** Continuity of a function of the first [n] components at a state. *)
Definition cont_at (n : nat) (h : state -> R) (p : state) : Prop :=
  forall e, 0 < e -> exists d, 0 < d /\
    forall s, (forall i, (i < n)%nat -> Rabs (s i - p i) < d) -> Rabs (h s - h p) < e.

(** Discrete time: [dV] is the change of [V] in one step of [F]. *)
Definition step_difference (n : nat) (F : vfield) (V dV : state -> R) : Prop :=
  forall s s', (forall i, (i < n)%nat -> s' i = F s i) -> dV s = V s' - V s.

(** Reach-while-stay on [0,T]: the goal is visited, and at every moment before
    the first visit the state is safe. *)
Definition reach_while_stay (S G : state -> Prop) (x : R -> state) (T : R) : Prop :=
  (exists t, 0 <= t <= T /\ G (x t)) /\
  (forall u, 0 <= u <= T -> (forall v, 0 <= v <= u -> ~ G (x v)) -> S (x u)).
