(** Specification: the usual notation for arithmetic.  Trees with explicit parentheses,
    the text of a tree, the standard grammar (sums of products of signed powers) and the
    value of a tree. *)
From Coq Require Import Reals QArith Qreals List Decimal.
From Verif Require Import M_Parser.
Import ListNotations.

Inductive tree :=
| CNum (q : Q) | CVar (k : vkind) (digits : uint) | CFun (f : fname) (t : tree) | CParen (t : tree)
| CNeg (t : tree) | CBin (o : op) (a b : tree).

Fixpoint text (t : tree) : list token :=
  match t with
  | CNum q => [TNum q]
  | CVar k d => [TVar k d]
  | CFun f t => TFun f :: TLpar :: text t ++ [TRpar]
  | CParen t => TLpar :: text t ++ [TRpar]
  | CNeg t => TOp OSub :: text t
  | CBin o a b => text a ++ TOp o :: text b
  end.

Fixpoint value (i : interp) (t : tree) : R :=
  match t with
  | CNum q => Q2R q
  | CVar k d => i_var i k d
  | CFun f t => i_fun i f (value i t)
  | CParen t => value i t
  | CNeg t => - value i t
  | CBin OAdd a b => value i a + value i b
  | CBin OSub a b => value i a - value i b
  | CBin OMul a b => value i a * value i b
  | CBin ODiv a b => value i a / value i b
  | CBin OPow a b => i_pow i (value i a) (value i b)
  end%R.

(** The variables of a tree, from left to right. *)
Fixpoint variables (t : tree) : list (vkind * uint) :=
  match t with
  | CNum _ => []
  | CVar k d => [(k, d)]
  | CFun _ t | CParen t | CNeg t => variables t
  | CBin _ a b => variables a ++ variables b
  end.

(** The standard grammar:
      sum     ::= sum + product | sum - product | product
      product ::= product * factor | product / factor | factor
      factor  ::= - factor | power
      power   ::= primary ** factor | primary
      primary ::= number | variable | function ( sum ) | ( sum )            *)
Inductive cat := Sum | Product | Factor | Power | Primary.
Inductive std : cat -> tree -> Prop :=
| std_add a b : std Sum a -> std Product b -> std Sum (CBin OAdd a b)
| std_sub a b : std Sum a -> std Product b -> std Sum (CBin OSub a b)
| std_sum t : std Product t -> std Sum t
| std_mul a b : std Product a -> std Factor b -> std Product (CBin OMul a b)
| std_div a b : std Product a -> std Factor b -> std Product (CBin ODiv a b)
| std_product t : std Factor t -> std Product t
| std_neg t : std Factor t -> std Factor (CNeg t)
| std_factor t : std Power t -> std Factor t
| std_pow a b : std Primary a -> std Factor b -> std Power (CBin OPow a b)
| std_power t : std Primary t -> std Power t
| std_num q : std Primary (CNum q)
| std_var k d : std Primary (CVar k d)
| std_fun f t : std Sum t -> std Primary (CFun f t)
| std_paren t : std Sum t -> std Primary (CParen t).

(** No minus sign in front of a power. *)
Fixpoint no_minus_power (t : tree) : Prop :=
  match t with
  | CNum _ | CVar _ _ => True
  | CFun _ t | CParen t => no_minus_power t
  | CNeg t => (forall a b, t <> CBin OPow a b) /\ no_minus_power t
  | CBin _ a b => no_minus_power a /\ no_minus_power b
  end.
(** No functions. *)
Fixpoint no_functions (t : tree) : Prop :=
  match t with
  | CNum _ | CVar _ _ => True
  | CFun _ _ => False
  | CParen t | CNeg t => no_functions t
  | CBin _ a b => no_functions a /\ no_functions b
  end.
(** No text inside parentheses begins with a parenthesis. *)
Definition opens (t : tree) : Prop := exists r, text t = TLpar :: r.
Fixpoint no_double_paren (t : tree) : Prop :=
  match t with
  | CNum _ | CVar _ _ => True
  | CFun _ t | CParen t => ~ opens t /\ no_double_paren t
  | CNeg t => no_double_paren t
  | CBin _ a b => no_double_paren a /\ no_double_paren b
  end.
(** No argument of a function begins with a parenthesis. *)
Fixpoint plain_arguments (t : tree) : Prop :=
  match t with
  | CNum _ | CVar _ _ => True
  | CFun _ t => ~ opens t /\ plain_arguments t
  | CParen t | CNeg t => plain_arguments t
  | CBin _ a b => plain_arguments a /\ plain_arguments b
  end.
(** Powers have written natural exponents; no square roots. *)
Fixpoint natural_powers (t : tree) : Prop :=
  match t with
  | CNum _ | CVar _ _ => True
  | CFun f t => f <> FSqrt /\ natural_powers t
  | CParen t | CNeg t => natural_powers t
  | CBin OPow a b => natural_powers a /\ exists q k, b = CNum q /\ Q2R q = INR k
  | CBin _ a b => natural_powers a /\ natural_powers b
  end.
