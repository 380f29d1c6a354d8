(** Deep embedding of the symbolic terms that fossil builds through its SMT
    back-ends (z3 / dReal / cvc5 / sympy objects).

    Python builds these objects with overloaded operators; the classes come from
    external libraries.  We model the fragment fossil uses
    (fossil/consts.py:290-352 [Z3_FNCS], [DREAL_FNCS], [CVC5_FNCS], [SP_FNCS])
    and give it its standard meaning over the real numbers.

    Simplifications: numeric literals are exact rationals (floats idealised);
    [simplify]/[expand] are the identity on meaning and are not represented;
    division is total (as in SMT-LIB, x/0 is some fixed value). *)
From Coq Require Import Reals QArith Qreals List String.
Import ListNotations.

(** The unary functions fossil asks the back-ends for (consts.py:301-318
    DREAL_FNCS, 320-335 CVC5_FNCS; [log] is used directly by
    activations.py:211,230,249,258; unary minus is the Python operator). *)
Inductive unop := UNeg | UExp | ULog | USin | UCos | UTanh | USinh | UCosh.

Inductive binop := BAdd | BSub | BMul | BDiv | BMax.

(** Arithmetic terms.  [EIfPos c a b] is [If(c > 0, a, b)], the only
    if-then-else fossil generates (consts.py:295,329, activations.py:86-93). *)
Inductive expr :=
| ENum (q : Q)
| EVar (i : nat)
| EUn (u : unop) (e : expr)
| EBin (b : binop) (e1 e2 : expr)
| EPow (e : expr) (n : nat)
| EIfPos (c a b : expr).

Inductive cmp := CLt | CLe | CEq | CGe | CGt.

(** Formulas.  The back-ends' n-ary And/Or are [fand]/[for_] below. *)
Inductive fml :=
| FTrue
| FFalse
| FCmp (c : cmp) (e1 e2 : expr)
| FAnd (f1 f2 : fml)
| FOr (f1 f2 : fml)
| FNot (f : fml).

Definition fand (l : list fml) : fml := fold_right FAnd FTrue l.
Definition for_ (l : list fml) : fml := fold_right FOr FFalse l.

Declare Scope expr_scope.
Delimit Scope expr_scope with E.
Bind Scope expr_scope with expr.
Notation "a + b" := (EBin BAdd a b) : expr_scope.
Notation "a - b" := (EBin BSub a b) : expr_scope.
Notation "a * b" := (EBin BMul a b) : expr_scope.
Notation "a / b" := (EBin BDiv a b) : expr_scope.
Notation "- a" := (EUn UNeg a) : expr_scope.
Notation "a ^ n" := (EPow a n) : expr_scope.
Notation "a <= b" := (FCmp CLe a b) : expr_scope.
Notation "a < b" := (FCmp CLt a b) : expr_scope.
Notation "a >= b" := (FCmp CGe a b) : expr_scope.
Notation "a > b" := (FCmp CGt a b) : expr_scope.
Notation "a == b" := (FCmp CEq a b) (at level 70) : expr_scope.

(** Python's [sum(l)]: starts from the integer 0 and adds left to right. *)
Definition esum (l : list expr) : expr := fold_left (EBin BAdd) l (ENum 0).

(** verifier.py:290, 366, 470: [new_vars(n)] creates x0 .. x(n-1). *)
Definition new_vars (n : nat) : list expr := map EVar (seq 0 n).

(** ** Meaning *)
Definition state := nat -> R.

Local Open Scope R_scope.

Definition unop_eval (u : unop) (a : R) : R :=
  match u with
  | UNeg => - a
  | UExp => exp a
  | ULog => ln a
  | USin => sin a
  | UCos => cos a
  | UTanh => tanh a
  | USinh => sinh a
  | UCosh => cosh a
  end.

Definition binop_eval (b : binop) (x y : R) : R :=
  match b with
  | BAdd => x + y
  | BSub => x - y
  | BMul => x * y
  | BDiv => x / y
  | BMax => Rmax x y
  end.

Fixpoint eval (s : state) (e : expr) : R :=
  match e with
  | ENum q => Q2R q
  | EVar i => s i
  | EUn u e => unop_eval u (eval s e)
  | EBin b e1 e2 => binop_eval b (eval s e1) (eval s e2)
  | EPow e n => (eval s e) ^ n
  | EIfPos c a b => if Rlt_dec 0 (eval s c) then eval s a else eval s b
  end.

Definition cmp_holds (c : cmp) (x y : R) : Prop :=
  match c with
  | CLt => x < y
  | CLe => x <= y
  | CEq => x = y
  | CGe => x >= y
  | CGt => x > y
  end.

Fixpoint holds (s : state) (f : fml) : Prop :=
  match f with
  | FTrue => True
  | FFalse => False
  | FCmp c e1 e2 => cmp_holds c (eval s e1) (eval s e2)
  | FAnd f1 f2 => holds s f1 /\ holds s f2
  | FOr f1 f2 => holds s f1 \/ holds s f2
  | FNot f => ~ holds s f
  end.

(** A formula is unsatisfiable when no real state satisfies it. *)
Definition unsatisfiable (f : fml) : Prop := forall s, ~ holds s f.
