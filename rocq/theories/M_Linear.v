(** Model of control.py:428-529: [Lineariser], [EigenCalculator], [LQR].  No proofs in this file.

    Simplifications: floats are exact real numbers.  Sympy, numpy.linalg and scipy.linalg are parameters;
    what is assumed of them is in S_Linear.  Sympy's symbols [x_i] and [u_j] are [EVar i] and [EVar (n + j)]. *)
From Coq Require Import String Reals QArith Qreals List Bool Arith.
From Coquelicot Require Import Complex.
From Verif Require Import M_Syntax M_Activations M_Control M_Recorder M_Model.
Import ListNotations.
Local Open Scope nat_scope.

(** ** [Lineariser] *)
(** 439-440 [self.x], [self.u]. *)
Definition symbols_x (n : nat) : list expr := map EVar (seq 0 n).
Definition symbols_u (n k : nat) : list expr := map EVar (seq n k).
(** 433-438: AttributeError without [n_vars]; [n_u] is 0 if the model has none. *)
Definition input_count (m : benchmark_model) : nat := match bm_n_u m with Some k => k | None => 0 end.
(** 445-450 [get_model]: a controllable model called without inputs is a TypeError, so it is called with them;
    any other model is called without inputs.  454, 462 [sp.Matrix(None)]: TypeError. *)
Definition get_model (m : benchmark_model) (n : nat) : option (list expr) :=
  match snd (call m None (AObject (PList (map (PLeaf (KVar SSYMPY)) (symbols_x n))))
               (if bm_control m then InputTerms (symbols_u n (input_count m)) else NoInputs)) with
  | Terms l => Some l
  | _ => None
  end.
(** [diff] of sympy on the terms that can occur: SP_FNCS (consts.py:343-347) has no other functions
    than sin, cos and exp, and no ReLU. *)
Local Open Scope expr_scope.
Fixpoint diff (j : nat) (e : expr) : expr :=
  match e with
  | ENum _ => ENum 0
  | EVar i => if (i =? j)%nat then ENum 1 else ENum 0
  | EUn UNeg a => - diff j a
  | EUn UExp a => EUn UExp a * diff j a
  | EUn USin a => EUn UCos a * diff j a
  | EUn UCos a => - (EUn USin a * diff j a)
  | EUn _ _ => ENum 0
  | EBin BAdd a b => diff j a + diff j b
  | EBin BSub a b => diff j a - diff j b
  | EBin BMul a b => diff j a * b + a * diff j b
  | EBin BDiv a b => (diff j a * b - a * diff j b) / b ^ 2
  | EBin BMax _ _ => ENum 0
  | EPow _ 0 => ENum 0
  | EPow a (S p) => ENum (Z.of_nat (S p) # 1) * a ^ p * diff j a
  | EIfPos _ _ _ => ENum 0
  end.
(** [subs([(x, 0) for x in ...])] for the symbols selected by [zero]. *)
Fixpoint subs0 (zero : nat -> bool) (e : expr) : expr :=
  match e with
  | ENum q => ENum q
  | EVar i => if zero i then ENum 0 else EVar i
  | EUn f a => EUn f (subs0 zero a)
  | EBin f a b => EBin f (subs0 zero a) (subs0 zero b)
  | EPow a p => EPow (subs0 zero a) p
  | EIfPos c a b => EIfPos (subs0 zero c) (subs0 zero a) (subs0 zero b)
  end.
(** [fi != 0] compares the automatically simplified term with the number. *)
Definition is_zero (e : expr) : bool := match e with ENum q => Qeq_bool q 0 | _ => false end.
(** [astype(np.float64)]: TypeError on a term with symbols in it. *)
Fixpoint closed (e : expr) : bool :=
  match e with
  | ENum _ => true
  | EVar _ => false
  | EUn _ a | EPow a _ => closed a
  | EBin _ a b => closed a && closed b
  | EIfPos c a b => closed c && closed a && closed b
  end.
Definition as_float (e : expr) : option R := if closed e then Some (eval (fun _ => 0%R) e) else None.
Section Lineariser.
  (** The simplifications that sympy does whenever it builds a term. *)
  Context (simplified : expr -> expr).
  (** 452-459 [_check_zero]. *)
  Definition check_zero (m : benchmark_model) (n : nat) : bool :=
    match get_model m n with
    | None => false
    | Some f =>
        forallb (fun fi => is_zero (simplified (subs0 (fun i => (n <=? i)%nat) (simplified (subs0 (fun i => (i <? n)%nat) fi))))) f
    end.
  (** 461-464 [get_jacobian]: TypeError for an empty matrix. *)
  Definition get_jacobian (m : benchmark_model) (n : nat) : option (list (list expr)) :=
    match get_model m n with
    | None | Some [] => None
    | Some f => Some (map (fun fi => map (fun j => simplified (diff j fi)) (seq 0 n)) f)
    end.
  (** 466-470 [linearise]. *)
  Definition linearise_with (m : benchmark_model) (n : nat) : option (list (list R)) :=
    option_bind (get_jacobian m n) (fun J =>
      all_some (map (fun row => all_some (map (fun e => as_float (simplified (subs0 (fun i => (i <? n)%nat) e))) row)) J)).
  (** [Lineariser(model).linearise()]; [None]: an exception. *)
  Definition linearise (m : benchmark_model) : option (list (list R)) :=
    match bm_n_vars m with
    | None => None
    | Some n => if check_zero m n then linearise_with m n else None
    end.
End Lineariser.

(** ** Matrices: entries by row and column *)
Definition matrix := nat -> nat -> R.
(** Model of numpy's arrays of lists. *)
Definition of_rows (l : list (list R)) : matrix := fun i j => nth j (nth i l []) 0%R.
Local Open Scope R_scope.
Fixpoint entries_sum (n : nat) (f : nat -> R) : R :=
  match n with O => 0 | S n => entries_sum n f + f n end.
(** [a @ b], [k] columns of [a]. *)
Definition matmul (k : nat) (a b : matrix) : matrix := fun i j => entries_sum k (fun l => a i l * b l j).
Definition transpose (a : matrix) : matrix := fun i j => a j i.
(** [np.eye]. *)
Definition eye : matrix := fun i j => if (i =? j)%nat then 1 else 0.

(** ** [EigenCalculator] *)
Section Eigen.
  (** 481 [np.linalg.eigvals] of an [n] by [n] array. *)
  Context (eigvals : nat -> matrix -> list C).
  Definition get_eigs := eigvals.
  (** 487 [get_real_parts]. *)
  Definition get_real_parts (n : nat) (a : matrix) : list R := map fst (get_eigs n a).
  Definition below (x y : R) : bool := if Rlt_dec x y then true else false.
  (** 491 [is_stable]. *)
  Definition is_stable (n : nat) (a : matrix) : bool := forallb (fun e : C => below (fst e) 0) (get_eigs n a).
  (** 495 [is_sufficiently_stable]. *)
  Definition is_sufficiently_stable (n : nat) (a : matrix) : bool := forallb (fun e : C => below (fst e) (-1)) (get_eigs n a).
  (** 499 [get_worst_pole]: ValueError if there is none. *)
  Definition get_worst_pole (n : nat) (a : matrix) : option R :=
    match get_real_parts n a with [] => None | r :: l => Some (fold_left Rmax l r) end.
End Eigen.

(** ** [LQR] *)
Record lqr := { q_n : nat; q_A : matrix; q_nu : nat; q_B : matrix; q_Q : matrix; q_R : matrix }.
(** 505-521 [__init__], [B] of [b_rows] rows and [b_cols] columns: AssertionError. *)
Definition LQR (n : nat) (A : matrix) (b_rows b_cols : nat) (B : matrix) (Q R : option matrix) : option lqr :=
  if (b_rows =? n)%nat then
    Some {| q_n := n; q_A := A; q_nu := b_cols; q_B := B;
            q_Q := match Q with Some Q => Q | None => eye end; q_R := match R with Some R => R | None => eye end |}
  else None.
Section Solve.
  (** [scipy.linalg.solve_continuous_are(A, B, Q, R)] and [np.linalg.inv(R)]; [None]: LinAlgError, ValueError. *)
  Context (care : nat -> nat -> matrix -> matrix -> matrix -> matrix -> option matrix) (inv : nat -> matrix -> option matrix).
  (** 523-527 [solve]. *)
  Definition solve (l : lqr) : option matrix :=
    option_bind (care (q_n l) (q_nu l) (q_A l) (q_B l) (q_Q l) (q_R l)) (fun P =>
    option_bind (inv (q_nu l) (q_R l)) (fun Ri =>
      Some (matmul (q_n l) (matmul (q_nu l) Ri (transpose (q_B l))) P))).
End Solve.
