(** Model of fossil/parser.py: expressions on the command line.  No proofs in this file.

    pyparsing (external) is modelled for the combinators the grammar uses: [infixNotation],
    [nestedExpr], [Group], [Forward] are unfolded to the recursive descent they denote.
    Simplifications: the text is already split into tokens (numbers, variables, function
    names, operators, parentheses; white space skipped), quoted strings
    (the [ignoreExpr] of [nestedExpr]) and the functions on formulas
    (Not, And, Or, If, sum) are left out; numbers are exact rationals. *)
From Coq Require Import Reals QArith Qreals List Bool Arith Decimal.
From Verif Require Import M_Activations.
Import ListNotations.
Local Open Scope nat_scope.

Inductive op := OAdd | OSub | OMul | ODiv | OPow.
Definition op_eqb (a b : op) : bool :=
  match a, b with
  | OAdd, OAdd | OSub, OSub | OMul, OMul | ODiv, ODiv | OPow, OPow => true
  | _, _ => false
  end.
(** parser.py:203-208: a variable is the letter x or u followed by digits. *)
Inductive vkind := VX | VU.
(** parser.py:315-329, 388-402. *)
Inductive fname := FSin | FCos | FExp | FLog | FSqrt | FTanh.

Inductive token :=
| TNum (q : Q) | TVar (k : vkind) (digits : uint) | TFun (f : fname) | TOp (o : op) | TLpar | TRpar.

(** The nested lists pyparsing returns: numbers and variables (made by the parse
    actions), function names, operator strings, the string "u-" of parser.py:119, lists. *)
Inductive ptree :=
| PNum (q : Q) | PVar (k : vkind) (digits : uint) | PFun (f : fname) | POp (o : op) | PNeg
| PList (l : list ptree).

(** ** The grammar: parser.py:111-145 [create_grammar] *)
(** A parsing attempt: success with the results and the rest of the input, failure, or
    not finished within the fuel. *)
Inductive outcome := Ok (l : list ptree) (rest : list token) | Fail | Fuel.

(** [Level k] is the expression of the k-th line of the operator table (0: operands);
    [Nested] is [nestedExpr("(", ")", content=expr)]; [Items] the [ZeroOrMore] inside it;
    [Loop o k] the repetition of operator [o] followed by [Level k]. *)
Inductive nonterm := Level (k : nat) | Nested | Items | Loop (o : op) (k : nat).

(** parser.py:133-143: the binary operators, tightest first ([OPow] is level 2 and
    associates to the right, the others to the left). *)
Definition level_op (k : nat) : option op :=
  match k with
  | 2 => Some OPow | 3 => Some ODiv | 4 => Some OMul | 5 => Some OSub | 6 => Some OAdd | _ => None
  end.
Definition top : nat := 6.

(** The look-aheads of [infixNotation] ([FollowedBy]) parse the same input as the match
    itself, and when they fail the lower level is parsed again with the same result, so
    each level is parsed once here. *)
Fixpoint run (fuel : nat) (n : nonterm) (ts : list token) : outcome :=
  match fuel with
  | O => Fuel
  | S fuel =>
      match n with
      | Level 0 =>
          (* number | variable | func_call | nested_paren_expr | "(" expr ")" *)
          match ts with
          | TNum q :: r => Ok [PNum q] r
          | TVar k d :: r => Ok [PVar k d] r
          | TFun f :: r =>
              match run fuel Nested r with
              | Ok l r' => Ok [PList (PFun f :: l)] r'
              | Fail => Fail
              | Fuel => Fuel
              end
          | TLpar :: r =>
              match run fuel Nested ts with
              | Ok l r' => Ok l r'
              | Fuel => Fuel
              | Fail =>
                  match run fuel (Level top) r with
                  | Ok l (TRpar :: r') => Ok l r'
                  | Ok _ _ => Fail
                  | Fail => Fail
                  | Fuel => Fuel
                  end
              end
          | _ => Fail
          end
      | Level 1 =>
          (* unary minus *)
          match ts with
          | TOp OSub :: r =>
              match run fuel (Level 1) r with
              | Ok l r' => Ok [PList (PNeg :: l)] r'
              | Fail => run fuel (Level 0) ts
              | Fuel => Fuel
              end
          | _ => run fuel (Level 0) ts
          end
      | Level (S k' as k) =>
          match level_op k with
          | None => Fail
          | Some o =>
              let operand := match o with OPow => k | _ => k' end in
              match run fuel (Level k') ts with
              | Ok a r =>
                  match run fuel (Loop o operand) r with
                  | Ok [] _ => Ok a r
                  | Ok l r' => Ok [PList (a ++ l)] r'
                  | Fail => Fail
                  | Fuel => Fuel
                  end
              | x => x
              end
          end
      | Loop o k =>
          match ts with
          | TOp o' :: r =>
              if op_eqb o o'
              then match run fuel (Level k) r with
                   | Ok b r1 =>
                       match run fuel (Loop o k) r1 with
                       | Ok l r2 => Ok (POp o :: b ++ l) r2
                       | x => x
                       end
                   | Fail => Ok [] ts
                   | Fuel => Fuel
                   end
              else Ok [] ts
          | _ => Ok [] ts
          end
      | Nested =>
          match ts with
          | TLpar :: r =>
              match run fuel Items r with
              | Ok l (TRpar :: r') => Ok [PList l] r'
              | Ok _ _ => Fail
              | Fail => Fail
              | Fuel => Fuel
              end
          | _ => Fail
          end
      | Items =>
          match run fuel Nested ts with
          | Fuel => Fuel
          | Ok a r =>
              match run fuel Items r with
              | Ok l r' => Ok (a ++ l) r'
              | x => x
              end
          | Fail =>
              match run fuel (Level top) ts with
              | Fuel => Fuel
              | Fail => Ok [] ts
              | Ok a r =>
                  match run fuel Items r with
                  | Ok l r' => Ok (a ++ l) r'
                  | x => x
                  end
              end
          end
      end
  end.

(** ** From the nested lists to an expression: parser.py:147-201 [convert_parse_to_ast] *)
(** What the Python operators and functions build. *)
Inductive ast :=
| ANum (q : Q) | AVar (k : vkind) (digits : uint) | ANeg (a : ast) | ABin (o : op) (a b : ast)
| AFun (f : fname) (args : list ast).

Fixpoint map_opt {A B} (f : A -> option B) (l : list A) : option (list B) :=
  match l with
  | [] => Some []
  | x :: l => option_bind (f x) (fun y => option_bind (map_opt f l) (fun r => Some (y :: r)))
  end.
(** [parsed[::2]]. *)
Fixpoint evens {A} (l : list A) : list A :=
  match l with x :: _ :: l => x :: evens l | l => l end.
(** 196-201: one level of lists is removed. *)
Definition flatten (l : list ptree) : list ptree :=
  flat_map (fun p => match p with PList l => l | p => [p] end) l.

(** [None] is an exception (IndexError, KeyError, TypeError: unhashable list, or the
    RecursionError of an endless recursion, here: out of fuel). *)
Fixpoint convert (fuel : nat) (p : ptree) : option ast :=
  match fuel with
  | O => None
  | S fuel =>
      match p with
      | PNum q => Some (ANum q)
      | PVar k d => Some (AVar k d)
      | PFun _ | POp _ | PNeg => None
      | PList [x] => convert fuel x
      | PList l =>
          if (3 <=? length l)%nat && Nat.odd (length l)
          then match l with
               | _ :: POp o :: _ =>
                   option_bind (map_opt (convert fuel) (evens l)) (fun args =>
                   match args with
                   | [] => None
                   | a :: args => Some (fold_left (ABin o) args a)
                   end)
               | _ => None
               end
          else match l with
               | PNeg :: x :: _ => option_map ANeg (convert fuel x)
               | PFun f :: PList args :: _ => option_map (AFun f) (map_opt (convert fuel) args)
               | PList _ :: _ => None
               | [] => None
               | _ => convert fuel (PList (flatten l))
               end
      end
  end.

(** parser.py:69-73: [self.expr.parseString(s, parseAll=True)], then the conversion.
    [f1], [f2] bound the two computations. *)
Definition parse_expression (f1 f2 : nat) (ts : list token) : option ast :=
  match run f1 (Level top) ts with
  | Ok l [] => convert f2 (PList l)
  | _ => None
  end.

(** ** Meaning of the result *)
(** dReal's functions take one argument; sympy's [log(x, base)] and
    [sqrt(x, evaluate)] accept a second one.  Z3 and CVC5 have none of them. *)
Inductive library := LibDReal | LibSympy | LibSMT.
Record interp := {
  i_var : vkind -> uint -> R;
  i_pow : R -> R -> R;
  i_fun : fname -> R -> R
}.
Definition apply (lib : library) (i : interp) (f : fname) (args : list R) : option R :=
  match lib, f, args with
  | LibSMT, _, _ => None
  | _, _, [x] => Some (i_fun i f x)
  | LibSympy, FSqrt, [x; _] => Some (i_fun i FSqrt x)
  | LibSympy, FLog, [x; b] => Some (i_fun i FLog x / i_fun i FLog b)%R
  | _, _, _ => None
  end.
Definition op_eval (i : interp) (o : op) (x y : R) : R :=
  match o with
  | OAdd => x + y | OSub => x - y | OMul => x * y | ODiv => x / y | OPow => i_pow i x y
  end%R.
Fixpoint aval (lib : library) (i : interp) (a : ast) : option R :=
  match a with
  | ANum q => Some (Q2R q)
  | AVar k d => Some (i_var i k d)
  | ANeg a => option_map Ropp (aval lib i a)
  | ABin o a b => option_bind (aval lib i a) (fun x => option_bind (aval lib i b) (fun y => Some (op_eval i o x y)))
  | AFun f args =>
      option_bind ((fix go l := match l with
                    | [] => Some []
                    | x :: l => option_bind (aval lib i x) (fun y => option_bind (go l) (fun r => Some (y :: r)))
                    end) args) (apply lib i f)
  end.
