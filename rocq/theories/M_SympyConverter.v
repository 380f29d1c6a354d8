(** Model of fossil/sympy_converter.py.  No proofs in this file.

    [None] is an exception.  Simplifications: sympy numbers are rationals; a symbol bound to a function in
    [syms] (or a function name bound to a term) is refused at once instead of when it is used. *)
From Coq Require Import String QArith List Bool ZArith.
From Verif Require Import M_Activations.
Import ListNotations.
Local Open Scope string_scope.

(** sympy expressions; [SpOther] is any other subclass of Expr. *)
Inductive spexpr :=
| SpSymbol (name : string)
| SpNumber (q : Q)
| SpAdd (args : list spexpr)
| SpMul (args : list spexpr)
| SpPow (base exponent : spexpr)
| SpFunction (name : string) (args : list spexpr)
| SpOther.

(** What is built: terms of the solver's library, and Python's numbers.  [TNum true q] is a z3 numeral
    (it has a method [sexpr]), [TNum false q] a Python float. *)
Inductive target :=
| TNum (z3 : bool) (q : Q)
| TVar (name : string)
| TAdd (a b : target)
| TMul (a b : target)
| TPower (a b : target)                   (* [a**b] *)
| TCall (f : string) (args : list target). (* a function of [syms] *)

(** The dictionary [syms]. *)
Inductive entry := Term (t : target) | Func (f : string).
Definition symbols := list (string * entry).
Fixpoint get (s : string) (syms : symbols) : option entry :=
  match syms with
  | [] => None
  | (s', e) :: syms => if String.eqb s' s then Some e else get s syms
  end.

(** 52-54 [float(e.sexpr())], [assert i.is_integer()], [int(i)]: z3 prints a numeral as a decimal
    if it is a natural number ("(- 2.0)" and "(/ 1.0 2.0)" are no floats); other terms have no [sexpr]
    or do not print as a number. *)
Definition literal (t : target) : option Z :=
  match t with
  | TNum true q =>
      let q := Qred q in
      match Qden q with xH => if (0 <=? Qnum q)%Z then Some (Qnum q) else None | _ => None end
  | _ => None
  end.
(** 54-57: [rv = x] and [range(i - 1)] more factors. *)
Definition repeat_mul (x : target) (i : Z) : target :=
  Nat.iter (Z.to_nat (i - 1)) (fun rv => TMul rv x) x.
(** 63-66. *)
Definition known_function (name : string) : bool := existsb (String.eqb name) ["tanh"; "sin"; "cos"; "exp"].
(** 34-37, 39-41: the first argument (IndexError if there is none), then the others. *)
Definition fold_args (op : target -> target -> target) (l : list (option target)) : option target :=
  match l with
  | [] => None
  | x :: l => fold_left (fun acc y => option_bind acc (fun a => option_bind y (fun b => Some (op a b)))) l x
  end.

Section Converter.
  Context (syms : symbols) (to_number approximate : Q -> option target).

  Definition symbol (name : string) : option target :=
    match get name syms with Some (Term t) => Some t | _ => None end.
  (** 26-31: [except] also catches what [to_number] raises. *)
  Definition number (q : Q) : option target :=
    match to_number q with Some t => Some t | None => approximate q end.
  (** 58-61. *)
  Definition power (x e : target) : option target :=
    match get "pow" syms with
    | Some (Func f) => Some (TCall f [x; e])
    | Some (Term _) => None
    | None => Some (TPower x e)
    end.
  (** 62-67; only the first argument is used. *)
  Definition call (name : string) (args : list (option target)) : option target :=
    if known_function name then
      match args with
      | [] => None
      | a :: _ => option_bind a (fun a => match get name syms with Some (Func f) => Some (TCall f [a]) | _ => None end)
      end
    else None.

  (** 19-75 with [expand_pow=False]. *)
  Fixpoint convert_plain (e : spexpr) : option target :=
    match e with
    | SpSymbol s => symbol s
    | SpNumber q => number q
    | SpAdd l => fold_args TAdd (map convert_plain l)
    | SpMul l => fold_args TMul (map convert_plain l)
    | SpPow b e => option_bind (convert_plain b) (fun x => option_bind (convert_plain e) (power x))
    | SpFunction f l => call f (map convert_plain l)
    | SpOther => None
    end.
  (** 19-75 with [expand_pow=True]; 49-57: the fallback converts the whole power again. *)
  Fixpoint convert (e : spexpr) : option target :=
    match e with
    | SpSymbol s => symbol s
    | SpNumber q => number q
    | SpAdd l => fold_args TAdd (map convert l)
    | SpMul l => fold_args TMul (map convert l)
    | SpPow b x =>
        option_bind (convert b) (fun b' => option_bind (convert x) (fun x' =>
          match literal x' with
          | Some i => Some (repeat_mul b' i)
          | None => option_bind (convert_plain b) (fun b' => option_bind (convert_plain x) (power b'))
          end))
    | SpFunction f l => call f (map convert l)
    | SpOther => None
    end.
End Converter.

(** 19-21: the default [to_number]; the tests use z3's [RealVal] (tst/shared/test_sympy_converter.py:38). *)
Definition to_float (q : Q) : option target := Some (TNum false q).
Definition real_val (q : Q) : option target := Some (TNum true q).
Definition sympy_converter (syms : symbols) (to_number approximate : Q -> option target) (expand_pow : bool) (e : spexpr) : option target :=
  if expand_pow then convert syms to_number approximate e else convert_plain syms to_number approximate e.
