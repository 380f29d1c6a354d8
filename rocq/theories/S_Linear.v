(** Specification: linearisation of a system at the origin, eigenvalues, and optimal linear control. *)
From Coq Require Import String Reals QArith Qreals List Bool Arith.
From Coquelicot Require Import Coquelicot.
From Verif Require Import M_Syntax M_Model M_Linear S_Model S_Domains S_Dynamics.
Import ListNotations.
Local Open Scope R_scope.

(** ** What is assumed of sympy *)
(** No denominator of the term is zero at [s]. *)
Fixpoint defined (s : state) (e : expr) : Prop :=
  match e with
  | ENum _ | EVar _ => True
  | EUn _ a | EPow a _ => defined s a
  | EBin BDiv a b => defined s a /\ defined s b /\ eval s b <> 0
  | EBin _ a b => defined s a /\ defined s b
  | EIfPos c a b => defined s c /\ defined s a /\ defined s b
  end.
(** Automatic simplification keeps the value of a term wherever the term is defined. *)
Definition keeps_values (simplified : expr -> expr) : Prop :=
  forall e s, defined s e -> defined s (simplified e) /\ eval s (simplified e) = eval s e.

(** ** Linearisation *)
(** The [i]-th component of a model. *)
Definition component (m : benchmark_model) (i : nat) (x u : list R) : R := value x u (nth i (bm_smt m) (UNum 0)).
(** How many inputs a model has. *)
Definition input_dim (m : benchmark_model) : nat :=
  if bm_control m then match bm_n_u m with Some k => k | None => 0%nat end else 0%nat.
(** No denominator is zero at the state [x] with the input [u]. *)
Fixpoint regular (x u : list R) (e : uexpr) : Prop :=
  match e with
  | UNum _ | UVar _ | UInput _ => True
  | UMinus a | UPow a _ | UFn _ a => regular x u a
  | UAdd a b | USub a b | UMul a b => regular x u a /\ regular x u b
  | UDiv a b => regular x u a /\ regular x u b /\ value x u b <> 0
  end.
Definition zeros (n : nat) : list R := repeat 0 n.
(** A vector with all entries below [d]. *)
Definition small (d : R) (x : list R) : Prop := forall c, In c x -> Rabs c < d.
Definition inner (a x : list R) : R := sum_below (List.length x) (fun j => nth j a 0 * nth j x 0).
(** [F x] is [F 0 + a . x] up to an error that vanishes faster than the size of [x]. *)
Definition first_order (n : nat) (F : list R -> R) (a : list R) : Prop :=
  forall e, 0 < e -> exists d, 0 < d /\
    forall x, List.length x = n -> small d x ->
      forall r, small r x -> Rabs (F x - (F (zeros n) + inner a x)) <= e * r.

(** The vector with [h] at [j] and zeros elsewhere. *)
Definition only (n j : nat) (h : R) : list R := map (fun i => if (i =? j)%nat then h else 0) (seq 0 n).
(** A formula made of numbers, states, sums and products. *)
Fixpoint polynomial (n : nat) (e : uexpr) : Prop :=
  match e with
  | UNum _ => True
  | UVar i => (i < n)%nat
  | UInput _ | UDiv _ _ | UFn _ _ => False
  | UMinus a | UPow a _ => polynomial n a
  | UAdd a b | USub a b | UMul a b => polynomial n a /\ polynomial n b
  end.
(** The same for terms; sympy keeps such terms so, adds no symbols, and computes them when they have none. *)
Fixpoint polynomial_term (n : nat) (e : expr) : Prop :=
  match e with
  | ENum _ => True
  | EVar i => (i < n)%nat
  | EUn UNeg a | EPow a _ => polynomial_term n a
  | EBin BAdd a b | EBin BSub a b | EBin BMul a b => polynomial_term n a /\ polynomial_term n b
  | _ => False
  end.
Definition computes_polynomials (simplified : expr -> expr) : Prop :=
  (forall n e, polynomial_term n e -> polynomial_term n (simplified e)) /\
  (forall e, polynomial_term 0 e -> exists q, simplified e = ENum q).

(** The system that a model without inputs stands for. *)
Definition autonomous (m : benchmark_model) (n : nat) : vfield := fun s i => component m i (map s (seq 0 n)) [].

(** ** Linear systems *)
Definition linear (n : nat) (a : matrix) : vfield := fun s i => sum_below n (fun j => a i j * s j).
(** All motions shrink at the rate [r]. *)
Definition decays (n : nat) (f : vfield) (r : R) : Prop :=
  exists M, forall x T, 0 <= T -> solves n f x T ->
    forall e, near n e (x 0) -> forall i, (i < n)%nat -> Rabs (x T i) <= M * e * exp (- r * T).
(** The same for motions that begin near the origin. *)
Definition decays_locally (n : nat) (f : vfield) (r : R) : Prop :=
  exists d M, 0 < d /\ forall x T, 0 <= T -> solves n f x T -> near n d (x 0) ->
    forall e, near n e (x 0) -> forall i, (i < n)%nat -> Rabs (x T i) <= M * e * exp (- r * T).

(** ** Eigenvalues *)
Fixpoint csum (n : nat) (f : nat -> C) : C :=
  match n with O => RtoC 0 | S n => Cplus (csum n f) (f n) end.
Definition cmatrix := nat -> nat -> C.
Definition cproduct (n : nat) (a b : cmatrix) : cmatrix := fun i j => csum n (fun k => Cmult (a i k) (b k j)).
Definition same (n : nat) (a b : cmatrix) : Prop := forall i j, (i < n)%nat -> (j < n)%nat -> a i j = b i j.
Definition identity : cmatrix := fun i j => if (i =? j)%nat then RtoC 1 else RtoC 0.
(** [l] are the eigenvalues of [a] with their multiplicities: [a] is similar to an upper triangular
    matrix with [l] on its diagonal. *)
Definition eigenvalues (n : nat) (a : matrix) (l : list C) : Prop :=
  List.length l = n /\
  exists Z W T : cmatrix,
    same n (cproduct n W Z) identity /\ same n (cproduct n Z W) identity /\
    same n (cproduct n (fun i j => RtoC (a i j)) Z) (cproduct n Z T) /\
    (forall i j, (j < i < n)%nat -> T i j = RtoC 0) /\
    forall k, (k < n)%nat -> T k k = nth k l (RtoC 0).

(** ** Linear-quadratic control *)
(** [v' a w] for vectors of [n] and [m] entries. *)
Definition bilinear (n m : nat) (a : matrix) (v w : state) : R := sum_below n (fun i => sum_below m (fun j => v i * a i j * w j)).
Definition quadratic (n : nat) (a : matrix) (v : state) : R := bilinear n n a v v.
Definition symmetric (n : nat) (a : matrix) : Prop := forall i j, (i < n)%nat -> (j < n)%nat -> a i j = a j i.
Definition positive_definite (n : nat) (a : matrix) : Prop := forall v, (exists i, (i < n)%nat /\ v i <> 0) -> 0 < quadratic n a v.
Definition positive_semidefinite (n : nat) (a : matrix) : Prop := forall v, 0 <= quadratic n a v.
(** [b] is the inverse of [a]. *)
Definition inverse (n : nat) (a b : matrix) : Prop :=
  forall i j, (i < n)%nat -> (j < n)%nat ->
    sum_below n (fun k => a i k * b k j) = (if (i =? j)%nat then 1 else 0) /\
    sum_below n (fun k => b i k * a k j) = (if (i =? j)%nat then 1 else 0).
Definition finds_inverse (inv : nat -> matrix -> option matrix) : Prop := forall n a b, inv n a = Some b -> inverse n a b.
(** [A' P + P A - P B R^-1 B' P + Q = 0], [Ri] the inverse of [R]. *)
Definition riccati (n k : nat) (A B Q Ri P : matrix) : Prop :=
  symmetric n P /\
  forall i j, (i < n)%nat -> (j < n)%nat ->
    sum_below n (fun l => A l i * P l j) + sum_below n (fun l => P i l * A l j)
    - sum_below n (fun a => sum_below k (fun b => sum_below k (fun c => sum_below n (fun d => P i a * B a b * Ri b c * B d c * P d j))))
    + Q i j = 0.
Definition solves_riccati (care : nat -> nat -> matrix -> matrix -> matrix -> matrix -> option matrix) : Prop :=
  forall n k A B Q Rm P, care n k A B Q Rm = Some P -> forall Ri, inverse k Rm Ri -> riccati n k A B Q Ri P.
(** The system [x' = A x + B u] with the input [u = - K x]. *)
Definition feedback_matrix (k : nat) (A B K : matrix) : matrix := fun i j => A i j - sum_below k (fun l => B i l * K l j).
(** A controlled motion on [0, T] and its cost: [J' = x' Q x + u' R u]. *)
Definition controlled (n k : nat) (A B : matrix) (x u : R -> state) (T : R) : Prop :=
  forall t, 0 <= t <= T -> forall i, (i < n)%nat ->
    is_derive (fun s => x s i) t (sum_below n (fun j => A i j * x t j) + sum_below k (fun j => B i j * u t j)).
Definition cost (n k : nat) (Q Rm : matrix) (x u : R -> state) (J : R -> R) (T : R) : Prop :=
  J 0 = 0 /\ forall t, 0 <= t <= T -> is_derive J t (quadratic n Q (x t) + quadratic k Rm (u t)).
