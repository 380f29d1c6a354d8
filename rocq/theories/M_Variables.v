(** Model of fossil/parser.py and fossil/control.py: the variables of a parsed system.
    No proofs in this file.

    A system is the list of its parsed expressions ([ast] of M_Parser).  Simplifications:
    sympy's automatic simplification, which may remove a symbol (x0 - x0), is not modelled;
    the parse action of a variable runs once for each occurrence in the text, from
    left to right (attempts of the parser which fail create variables nobody uses). *)
From Coq Require Import Reals QArith List Bool Arith Decimal.
From Verif Require Import M_Activations M_Parser.
Import ListNotations.
Local Open Scope nat_scope.

(** ** Names *)
Fixpoint digits (d : uint) : list nat :=
  match d with
  | Nil => []
  | D0 d => 0 :: digits d | D1 d => 1 :: digits d | D2 d => 2 :: digits d | D3 d => 3 :: digits d
  | D4 d => 4 :: digits d | D5 d => 5 :: digits d | D6 d => 6 :: digits d | D7 d => 7 :: digits d
  | D8 d => 8 :: digits d | D9 d => 9 :: digits d
  end.
(** Python's comparison of strings. *)
Fixpoint lex_leb (a b : list nat) : bool :=
  match a, b with
  | [], _ => true
  | _ :: _, [] => false
  | x :: a, y :: b => (x <? y) || (x =? y) && lex_leb a b
  end.
Definition name_leb (a b : uint) : bool := lex_leb (digits a) (digits b).
Fixpoint insert (x : uint) (l : list uint) : list uint :=
  match l with [] => [x] | y :: r => if name_leb x y then x :: l else y :: insert x r end.
(** [sorted(..., key=name)], names without the letter. *)
Definition sort (l : list uint) : list uint := fold_right insert [] l.
Definition uint_eq_dec : forall a b : uint, {a = b} + {a <> b}.
Proof. decide equality. Defined.
Fixpoint index (d : uint) (l : list uint) : nat :=
  match l with [] => 0 | y :: l => if uint_eq_dec d y then 0 else S (index d l) end.

(** Variables in the text, from left to right. *)
Fixpoint vars (e : ast) : list (vkind * uint) :=
  match e with
  | ANum _ => []
  | AVar k d => [(k, d)]
  | ANeg a => vars a
  | ABin _ a b => vars a ++ vars b
  | AFun _ args => flat_map vars args
  end.
Definition named (k : vkind) (l : list (vkind * uint)) : list uint :=
  flat_map (fun p => match fst p, k with VX, VX | VU, VU => [snd p] | _, _ => [] end) l.

(** An expression without variables and functions is a Python number: [expr.free_symbols]
    (parser.py:594), [Substitute] and [substitute] raise. *)
Fixpoint is_number (e : ast) : bool :=
  match e with
  | ANum _ => true
  | AVar _ _ | AFun _ _ => false
  | ANeg a => is_number a
  | ABin _ a b => is_number a && is_number b
  end.

(** ** Numbers: parser.py:571-607 [parse_dynamical_system_to_numpy] *)
(** The sorted free symbols. *)
Definition symbols (k : vkind) (es : list ast) : list uint :=
  sort (nodup uint_eq_dec (named k (flat_map vars es))).
(** parser.py:489-533, sympy's [lambdify]: one argument for the state, and one for the input
    if there are control variables; each is unpacked into the symbols (ValueError unless
    the numbers agree). [rest] are the functions and the power. *)
Definition numpy_interp (rest : interp) (es : list ast) (v u : list R) : interp :=
  {| i_var := fun k d => match k with
                         | VX => nth (index d (symbols VX es)) v 0%R
                         | VU => nth (index d (symbols VU es)) u 0%R
                         end;
     i_pow := i_pow rest; i_fun := i_fun rest |}.
(** control.py:206-207, 245-246 [f_torch] on one point; [None] for [u]: a model without input. *)
Definition f_torch (rest : interp) (es : list ast) (v : list R) (u : option (list R)) : option (list R) :=
  if existsb is_number es then None else
  if length v =? length (symbols VX es)
  then match symbols VU es, u with
       | [], None => map_opt (aval LibSympy (numpy_interp rest es v [])) es
       | _ :: _, Some u =>
           if length u =? length (symbols VU es)
           then map_opt (aval LibSympy (numpy_interp rest es v u)) es else None
       | _, _ => None
       end
  else None.

(** ** Symbols: parser.py:203-234, 340-366 *)
(** A Z3 or CVC5 variable is its name; each dReal [Variable] is a new object. *)
Inductive ident := ByName (k : vkind) (d : uint) | Fresh (n : nat).
Definition ident_eq_dec : forall a b : ident, {a = b} + {a <> b}.
Proof. repeat decide equality. Defined.

Record pstate := { p_xs : list (uint * ident); p_us : list (uint * ident); p_next : nat }.
Definition lookup (d : uint) (l : list (uint * ident)) : option ident :=
  option_map snd (find (fun p => if uint_eq_dec d (fst p) then true else false) l).
Definition update (d : uint) (x : ident) (l : list (uint * ident)) : list (uint * ident) :=
  if existsb (fun p => if uint_eq_dec d (fst p) then true else false) l
  then map (fun p => if uint_eq_dec d (fst p) then (d, x) else p) l
  else l ++ [(d, x)].
(** [var_function]. *)
Definition new_var (lib : library) (s : pstate) (k : vkind) (d : uint) : ident :=
  match lib with LibDReal => Fresh (p_next s) | _ => ByName k d end.
(** [make_var]: only [self.xs] is searched. *)
Definition make_var (lib : library) (s : pstate) (k : vkind) (d : uint) : ident * pstate :=
  let x := new_var lib s k d in
  match k with
  | VX => match lookup d (p_xs s) with
          | Some y => (y, s)
          | None => (x, {| p_xs := update d x (p_xs s); p_us := p_us s; p_next := S (p_next s) |})
          end
  | VU => (x, {| p_xs := p_xs s; p_us := update d x (p_us s); p_next := S (p_next s) |})
  end.

Inductive sym :=
| SNum (q : Q) | SVar (x : ident) | SNeg (a : sym) | SBin (o : op) (a b : sym) | SFun (f : fname) (args : list sym).
Fixpoint symbolic (lib : library) (e : ast) (s : pstate) : sym * pstate :=
  match e with
  | ANum q => (SNum q, s)
  | AVar k d => let (x, s) := make_var lib s k d in (SVar x, s)
  | ANeg a => let (a, s) := symbolic lib a s in (SNeg a, s)
  | ABin o a b => let (a, s) := symbolic lib a s in let (b, s) := symbolic lib b s in (SBin o a b, s)
  | AFun f args =>
      let (args, s) := (fix go l s := match l with
                        | [] => ([], s)
                        | x :: l => let (y, s) := symbolic lib x s in let (r, s) := go l s in (y :: r, s)
                        end) args s in
      (SFun f args, s)
  end.
(** parser.py:57-77 [parse_dynamical_system]. *)
Fixpoint symbolic_system (lib : library) (es : list ast) (s : pstate) : list sym * pstate :=
  match es with
  | [] => ([], s)
  | e :: es => let (a, s) := symbolic lib e s in let (r, s) := symbolic_system lib es s in (a :: r, s)
  end.
Definition start : pstate := {| p_xs := []; p_us := []; p_next := 0 |}.

(** Value of a symbolic expression: [env] gives the values of its variables. *)
Fixpoint sval (lib : library) (rest : interp) (env : ident -> R) (a : sym) : option R :=
  match a with
  | SNum q => Some (Q2R q)
  | SVar x => Some (env x)
  | SNeg a => option_map Ropp (sval lib rest env a)
  | SBin o a b => option_bind (sval lib rest env a) (fun x => option_bind (sval lib rest env b) (fun y => Some (op_eval rest o x y)))
  | SFun f args =>
      option_bind ((fix go l := match l with
                    | [] => Some []
                    | x :: l => option_bind (sval lib rest env x) (fun y => option_bind (go l) (fun r => Some (y :: r)))
                    end) args) (apply lib rest f)
  end.

(** parser.py:262-279, 303-320, 372-386: the substitution.  [v] are the values of the variables
    x0, x1, ... of the caller, [u] those of the feedback; [None]: KeyError or IndexError. *)
Definition state_entries {A} (s : pstate) (v : list A) : option (list (ident * A)) :=
  map_opt (fun p => option_map (fun x => (x, snd p)) (lookup (Nat.to_uint (fst p)) (p_xs s)))
    (combine (seq 0 (length v)) v).
Definition input_entries {A} (s : pstate) (u : list A) : option (list (ident * A)) :=
  map_opt (fun p => option_bind (lookup (snd p) (p_us s)) (fun x => option_map (fun r => (x, r)) (nth_error u (fst p))))
    (let names := sort (map fst (p_us s)) in combine (seq 0 (length names)) names).
(** A variable without entry stays in the expression: [free] is its value. *)
Definition substitute {A} (entries : list (ident * A)) (free : ident -> A) (x : ident) : A :=
  match find (fun p => if ident_eq_dec x (fst p) then true else false) entries with
  | Some p => snd p
  | None => free x
  end.
(** parser.py:79-87, control.py:209-210, 248-249 [f_smt]. *)
Definition f_smt (lib : library) (rest : interp) (free : ident -> R) (es : list ast)
    (v : list R) (u : option (list R)) : option (list R) :=
  if existsb is_number es then None else
  let (a, s) := symbolic_system lib es start in
  match p_us s, u with
  | [], None =>
      option_bind (state_entries s v) (fun en => map_opt (sval lib rest (substitute en free)) a)
  | _ :: _, Some u =>
      option_bind (state_entries s v) (fun en => option_bind (input_entries s u) (fun eu =>
      map_opt (sval lib rest (substitute (en ++ eu) free)) a))
  | _, _ => None
  end.
(** control.py:225-243: the assertions of a system with inputs. *)
Definition controllable_ok (lib : library) (es : list ast) : bool :=
  let (_, s) := symbolic_system lib es start in
  (0 <? length (p_us s)) && (length es =? length (p_xs s)).
