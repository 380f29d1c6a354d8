(** Model of the characters of an expression (fossil/parser.py:42-43, 111-127, 203-208).
    No proofs in this file.

    pyparsing reads characters and has no separate lexer.  Reading the text from left to
    right, each time taking the longest token, gives the same result for this grammar: white
    space is skipped before every token; a number, a variable and a function name is
    always taken to its last character; "*" is only tried where "**" followed by an operand
    does not fit, and then nothing that could be an operand follows the first star. *)
From Coq Require Import Reals QArith Bool Arith Decimal Ascii String List.
From Verif Require Import M_Activations M_Parser M_DomainParser.
Import ListNotations.
Local Open Scope char_scope.
Local Open Scope list_scope.
Local Open Scope nat_scope.

(** parser.py:113-117: [decimal | integer], without sign. *)
Definition unsigned (cs : chars) : option (Q * chars) :=
  match digits cs with
  | ([], _) => None
  | (ds, r) =>
      let int := Some ((nat_of_digits ds # 1)%Q, r) in
      match r with
      | c :: r' =>
          if Ascii.eqb c "."
          then match digits r' with
               | ([], _) => int
               | (fs, r'') => Some ((nat_of_digits (ds ++ fs) # Z.to_pos (10 ^ Z.of_nat (List.length fs)))%Q, r'')
               end
          else int
      | [] => int
      end
  end.

(** parser.py:203-208: the digits of a variable's name. *)
Fixpoint uint_of (ds : chars) : uint :=
  match ds with
  | [] => Nil
  | c :: r =>
      let d := uint_of r in
      match nat_of_ascii c - 48 with
      | 0 => D0 d | 1 => D1 d | 2 => D2 d | 3 => D3 d | 4 => D4 d
      | 5 => D5 d | 6 => D6 d | 7 => D7 d | 8 => D8 d | _ => D9 d
      end
  end.

(** parser.py:329-341, 397-411: the names of the functions. *)
Definition fname_text (f : fname) : string :=
  match f with FSin => "sin" | FCos => "cos" | FExp => "exp" | FLog => "log" | FSqrt => "sqrt" | FTanh => "tanh" end.
Definition all_fnames : list fname := [FSin; FCos; FExp; FLog; FSqrt; FTanh].
(** parser.py:42-43: the first [Keyword] that matches: not followed by a character of an
    identifier; [prev]: such a character stands just before. *)
Definition keyword_here (prev : bool) (w : string) (cs : chars) : option chars :=
  if prev then None
  else match prefix (list_ascii_of_string w) cs with
       | Some (c :: r) => if is_ident c then None else Some (c :: r)
       | x => x
       end.
Fixpoint first_function (prev : bool) (fs : list fname) (cs : chars) : option (token * chars) :=
  match fs with
  | [] => None
  | f :: fs =>
      match keyword_here prev (fname_text f) cs with
      | Some r => Some (TFun f, r)
      | None => first_function prev fs cs
      end
  end.

(** One token; the text does not begin with white space. *)
Definition lex_one (prev : bool) (cs : chars) : option (token * chars) :=
  match cs with
  | [] => None
  | c :: r =>
      if is_digit c then option_map (fun p => (TNum (fst p), snd p)) (unsigned cs)
      else if Ascii.eqb c "x" then let (d, r') := digits r in Some (TVar VX (uint_of d), r')
      else if Ascii.eqb c "u" then let (d, r') := digits r in Some (TVar VU (uint_of d), r')
      else if Ascii.eqb c "(" then Some (TLpar, r)
      else if Ascii.eqb c ")" then Some (TRpar, r)
      else if Ascii.eqb c "+" then Some (TOp OAdd, r)
      else if Ascii.eqb c "-" then Some (TOp OSub, r)
      else if Ascii.eqb c "/" then Some (TOp ODiv, r)
      else if Ascii.eqb c "*" then
        match r with
        | c' :: r' => if Ascii.eqb c' "*" then Some (TOp OPow, r') else Some (TOp OMul, r)
        | [] => Some (TOp OMul, r)
        end
      else first_function prev all_fnames cs
  end.
(** Does the token end in a character of an identifier? *)
Definition wordlike (t : token) : bool :=
  match t with TNum _ | TVar _ _ | TFun _ => true | _ => false end.
Definition starts_space (cs : chars) : bool := match cs with c :: _ => is_space c | [] => false end.

(** The whole text; every token has a character, so the length of the text is enough fuel. *)
Fixpoint lex (fuel : nat) (prev : bool) (cs : chars) : option (list token) :=
  match skip cs with
  | [] => Some []
  | cs' =>
      match fuel with
      | O => None
      | S fuel =>
          option_bind (lex_one (prev && negb (starts_space cs)) cs') (fun '(t, r) =>
            option_bind (lex fuel (wordlike t) r) (fun ts => Some (t :: ts)))
      end
  end.
Definition tokens (s : string) : option (list token) :=
  let cs := list_ascii_of_string s in lex (List.length cs) false cs.

(** parser.py:69-73 on a text. *)
Definition parse_text (f1 f2 : nat) (s : string) : option ast :=
  option_bind (tokens s) (parse_expression f1 f2).
