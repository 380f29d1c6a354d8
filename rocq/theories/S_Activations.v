(** Specification: the scalar function an activation applies at position [j] of a
    layer of width [w], and the function each activation name stands for. *)
From Coq Require Import Reals List Arith.
From Verif Require Import M_Activations.
Local Open Scope R_scope.

Definition softplus (x : R) : R := ln (1 + exp x).
Definition sigmoid (x : R) : R := / (1 + exp (- x)).

(** A layer of width [w] cut into [n] consecutive blocks of [w/n] neurons, the last
    block taking the remainder (everything when [w < n]): the block of neuron [j]. *)
Definition block (n w j : nat) : nat :=
  if (w / n =? 0)%nat then n - 1 else Nat.min (j / (w / n)) (n - 1).

Definition act_fun (a : act) (w j : nat) : R -> R :=
  match a with
  | AIdentity => fun x => x
  | AReLU => fun x => Rmax 0 x
  | ASquare => fun x => x ^ 2
  | APoly2 => fun x => x ^ (block 2 w j + 1)
  | ATanh => tanh
  | ATanhSquared => fun x => (tanh x) ^ 2
  | ASigmoid => sigmoid
  | ASoftplus => softplus
  | AShiftedSoftplus => fun x => softplus x - ln 2
  | AShiftedSoftplusSquare => fun x => (softplus x - ln 2) ^ 2
  | ACosh => fun x => cosh x - 1
  | APolyN n => fun x => x ^ (block n w j + 1)
  | AEvenPolyN n => fun x => x ^ (2 * block n w j)
  end.

(** Sensible classes: the polynomial classes need at least one block. *)
Definition act_ok (a : act) : Prop :=
  match a with APolyN n | AEvenPolyN n => (0 < n)%nat | _ => True end.

(** Where the derivative formulas are claimed: ReLU away from its kink. *)
Definition smooth_at (a : act) (x : R) : Prop := match a with AReLU => x <> 0 | _ => True end.

(** The range on which torch's softplus is the softplus function. *)
Definition softplus_range (a : act) (x : R) : Prop :=
  match a with ASoftplus | AShiftedSoftplus | AShiftedSoftplusSquare => x <= 20 | _ => True end.

(** The function a scalar activation name stands for. *)
Definition named (t : act_type) : option (R -> R) :=
  match t with
  | IDENTITY | LINEAR => Some (fun x => x)
  | RELU => Some (fun x => Rmax 0 x)
  | SQUARE => Some (fun x => x ^ 2)
  | RELU_SQUARE | REQU => Some (fun x => (Rmax 0 x) ^ 2)
  | TANH => Some tanh
  | TANH_SQUARE => Some (fun x => (tanh x) ^ 2)
  | SIGMOID => Some sigmoid
  | SOFTPLUS => Some softplus
  | SHIFTED_SOFTPLUS => Some (fun x => softplus x - ln 2)
  | SHIFTED_SOFTPLUS_SQUARE => Some (fun x => (softplus x - ln 2) ^ 2)
  | COSH => Some (fun x => cosh x - 1)
  | _ => None
  end.

(** The polynomial names: POLY_k raises block [i] (of [k]) of the layer to the power [i + 1];
    EVEN_POLY_k should raise to the even powers 2, 4, ..., k. *)
Definition poly_name (t : act_type) : option nat :=
  match t with
  | POLY_2 => Some 2 | POLY_3 => Some 3 | POLY_4 => Some 4 | POLY_5 => Some 5
  | POLY_6 => Some 6 | POLY_7 => Some 7 | POLY_8 => Some 8
  | _ => None
  end%nat.
Definition even_poly_name (t : act_type) : option nat :=
  match t with
  | EVEN_POLY_4 => Some 4 | EVEN_POLY_6 => Some 6 | EVEN_POLY_8 => Some 8 | EVEN_POLY_10 => Some 10
  | _ => None
  end%nat.
