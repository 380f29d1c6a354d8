(** Specification: the values of sympy expressions and of converted terms, and which expressions are
    convertible. *)
From Coq Require Import String Reals QArith Qreals List Bool ZArith.
From Verif Require Import M_Activations M_SympyConverter.
Import ListNotations.
Local Open Scope string_scope.
Local Open Scope R_scope.

(** The functions of the source. *)
Definition real_function (name : string) : option (R -> R) :=
  if String.eqb name "sin" then Some sin else if String.eqb name "cos" then Some cos
  else if String.eqb name "exp" then Some exp else if String.eqb name "tanh" then Some tanh else None.

Section Values.
  (** [pw] is the power of the reals wherever it is defined; all that matters is that a positive integral
      exponent means repeated multiplication. *)
  Context (pw : R -> R -> R).
  Definition power_law : Prop := forall x k, pw x (INR (S k)) = x ^ S k.

  (** The value of an expression, when its symbols have the values [rho]. *)
  Fixpoint spval (rho : string -> R) (e : spexpr) : R :=
    match e with
    | SpSymbol s => rho s
    | SpNumber q => Q2R q
    | SpAdd l => fold_right Rplus 0 (map (spval rho) l)
    | SpMul l => fold_right Rmult 1 (map (spval rho) l)
    | SpPow b x => pw (spval rho b) (spval rho x)
    | SpFunction f l =>
        match real_function f, map (spval rho) l with Some g, [a] => g a | _, _ => 0 end
    | SpOther => 0
    end.
  (** The value of a solver term: [env] its variables, [f1] and [f2] its functions of one and two arguments. *)
  Fixpoint tval (env : string -> R) (f1 : string -> R -> R) (f2 : string -> R -> R -> R) (t : target) : R :=
    match t with
    | TNum _ q => Q2R q
    | TVar s => env s
    | TAdd a b => tval env f1 f2 a + tval env f1 f2 b
    | TMul a b => tval env f1 f2 a * tval env f1 f2 b
    | TPower a b => pw (tval env f1 f2 a) (tval env f1 f2 b)
    | TCall f l => match map (tval env f1 f2) l with [a] => f1 f a | [a; b] => f2 f a b | _ => 0 end
    end.

  (** The dictionary gives every symbol a term of its value and every function name that function. *)
  Definition faithful (syms : symbols) (rho : string -> R) env f1 f2 : Prop :=
    (forall s t, get s syms = Some (Term t) -> tval env f1 f2 t = rho s) /\
    (forall s f g, real_function s = Some g -> get s syms = Some (Func f) -> forall x, f1 f x = g x) /\
    (forall f, get "pow" syms = Some (Func f) -> forall x y, f2 f x y = pw x y).

  (** Functions have one argument, and no exponent has the value 0 (sympy replaces x**0 by 1 unless told
      not to). *)
  Inductive regular (rho : string -> R) : spexpr -> Prop :=
  | RSymbol s : regular rho (SpSymbol s)
  | RNumber q : regular rho (SpNumber q)
  | RAdd l : Forall (regular rho) l -> regular rho (SpAdd l)
  | RMul l : Forall (regular rho) l -> regular rho (SpMul l)
  | RPow b x : regular rho b -> regular rho x -> spval rho x <> 0 -> regular rho (SpPow b x)
  | RFunction f a : regular rho a -> regular rho (SpFunction f [a])
  | ROther : regular rho SpOther.
End Values.

(** What can be converted: bound symbols, numbers, sums and products, powers, and the four functions as far
    as the dictionary has them. *)
Inductive convertible (syms : symbols) (numeral : Q -> Prop) : spexpr -> Prop :=
| CSymbol s t : get s syms = Some (Term t) -> convertible syms numeral (SpSymbol s)
| CNumber q : numeral q -> convertible syms numeral (SpNumber q)
| CAdd l : l <> [] -> Forall (convertible syms numeral) l -> convertible syms numeral (SpAdd l)
| CMul l : l <> [] -> Forall (convertible syms numeral) l -> convertible syms numeral (SpMul l)
| CPow b x : convertible syms numeral b -> convertible syms numeral x -> convertible syms numeral (SpPow b x)
| CFunction f g a l : In f ["tanh"; "sin"; "cos"; "exp"] -> get f syms = Some (Func g) -> convertible syms numeral a ->
    convertible syms numeral (SpFunction f (a :: l)).
