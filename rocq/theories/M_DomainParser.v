(** Model of [DomainParser] and [parse_domain] (fossil/parser.py:429-486, 559-573): the text
    of a set, as written in the DOMAINS section of a configuration file, and of
    [read_domains] (fossil/cli.py:98-105).  No proofs in this file.

    pyparsing (external) is modelled for the combinators used, on characters: white space is
    skipped before every token; [Combine] glues its parts without white space; [nestedExpr]
    is [Suppress(opener) + ZeroOrMore(ret | content) + Suppress(closer)].  Simplifications:
    quoted strings (the [ignoreExpr] of [nestedExpr]) are left out; numbers are exact
    rationals, not floats; a domain object whose arguments are not numbers or flat lists of
    numbers (possible through nested brackets, and useless: using it raises) is an error. *)
From Coq Require Import Reals QArith Qreals List Bool Arith Ascii String.
From Verif Require Import M_Syntax M_Domains M_Certificates M_Activations M_Verifier.
Import ListNotations.
Local Open Scope char_scope.
Local Open Scope list_scope.
Local Open Scope nat_scope.

Definition chars := list ascii.

(** pyparsing's default white space: " \t\n\r". *)
Definition is_space (c : ascii) : bool :=
  let n := nat_of_ascii c in (n =? 32) || (n =? 9) || (n =? 10) || (n =? 13).
Definition is_digit (c : ascii) : bool := let n := nat_of_ascii c in (48 <=? n) && (n <=? 57).
Fixpoint skip (cs : chars) : chars :=
  match cs with c :: r => if is_space c then skip r else cs | [] => [] end.
(** [Word(nums)]: the longest run of digits. *)
Fixpoint digits (cs : chars) : chars * chars :=
  match cs with
  | c :: r => if is_digit c then let (d, r') := digits r in (c :: d, r') else ([], cs)
  | [] => ([], [])
  end.
(** [Literal], after white space. *)
Definition lit (c : ascii) (cs : chars) : option chars :=
  match skip cs with c' :: r => if Ascii.eqb c c' then Some r else None | [] => None end.

(** Python's [int] on a run of digits. *)
Definition nat_of_digits (ds : chars) : Z :=
  fold_left (fun n c => (10 * n + Z.of_nat (nat_of_ascii c - 48))%Z) ds 0%Z.

(** parser.py:437-443: [Optional(oneOf("+ -")) + Word(nums)]. *)
Definition signed (cs : chars) : option (bool * chars * chars) :=
  let '(neg, r) := match cs with
                   | c :: r => if Ascii.eqb c "-" then (true, r)
                               else if Ascii.eqb c "+" then (false, r) else (false, cs)
                   | [] => (false, cs)
                   end in
  match digits r with
  | ([], _) => None
  | (ds, r') => Some (neg, ds, r')
  end.
Definition sgn (neg : bool) (z : Z) : Z := if neg then (- z)%Z else z.
(** parser.py:437-439 [decimal]. *)
Definition decimal (cs : chars) : option (Q * chars) :=
  match signed (skip cs) with
  | Some (neg, ds, c :: r) =>
      if Ascii.eqb c "."
      then match digits r with
           | ([], _) => None
           | (fs, r') => Some ((sgn neg (nat_of_digits (ds ++ fs)) # Z.to_pos (10 ^ Z.of_nat (List.length fs)))%Q, r')
           end
      else None
  | _ => None
  end.
(** parser.py:440-442 [integer]. *)
Definition integer (cs : chars) : option (Q * chars) :=
  match signed (skip cs) with
  | Some (neg, ds, r) => Some ((sgn neg (nat_of_digits ds) # 1)%Q, r)
  | None => None
  end.
(** parser.py:443 [decimal | integer]. *)
Definition number (cs : chars) : option (Q * chars) :=
  match decimal cs with Some x => Some x | None => integer cs end.

(** [delimitedList(number)]: a number, then commas each followed by a number. *)
Fixpoint more_numbers (fuel : nat) (cs : chars) : list Q * chars :=
  match fuel with
  | O => ([], cs)
  | S fuel =>
      match lit "," cs with
      | Some r =>
          match number r with
          | Some (q, r') => let (l, r'') := more_numbers fuel r' in (q :: l, r'')
          | None => ([], cs)
          end
      | None => ([], cs)
      end
  end.
Definition delimited (cs : chars) : option (list Q * chars) :=
  match number cs with
  | Some (q, r) => let (l, r') := more_numbers (List.length r) r in Some (q :: l, r')
  | None => None
  end.

(** What [nestedExpr("[", "]", ...)] returns: numbers and sublists. *)
Inductive ntree := NNum (q : Q) | NList (l : list ntree).
(** parser.py:444 [number_list]: the inside of the brackets, [ZeroOrMore(ret | content)];
    every round reads at least one character, so the length of the text is enough fuel. *)
Fixpoint items (fuel : nat) (cs : chars) : list ntree * chars :=
  match fuel with
  | O => ([], cs)
  | S fuel =>
      match lit "[" cs with
      | Some r =>
          let (l, r1) := items fuel r in
          match lit "]" r1 with
          | Some r2 => let (l', r3) := items fuel r2 in (NList l :: l', r3)
          | None => ([], cs)
          end
      | None =>
          match delimited cs with
          | Some (qs, r) => let (l', r') := items fuel r in (map NNum qs ++ l', r')
          | None => ([], cs)
          end
      end
  end.
Definition number_list (cs : chars) : option (list ntree * chars) :=
  match lit "[" cs with
  | Some r =>
      let (l, r1) := items (List.length r) r in
      match lit "]" r1 with Some r2 => Some (l, r2) | None => None end
  | None => None
  end.

(** parser.py:445-455: the arguments of each keyword, separated by commas. *)
Inductive argkind := KList | KNum.
Inductive arg := AList (l : list ntree) | ANum (q : Q).
Definition parse_arg (k : argkind) (cs : chars) : option (arg * chars) :=
  match k with
  | KList => match number_list cs with Some (l, r) => Some (AList l, r) | None => None end
  | KNum => match number cs with Some (q, r) => Some (ANum q, r) | None => None end
  end.
Fixpoint parse_args (ks : list argkind) (cs : chars) : option (list arg * chars) :=
  match ks with
  | [] => Some ([], cs)
  | [k] => match parse_arg k cs with Some (a, r) => Some ([a], r) | None => None end
  | k :: ks =>
      match parse_arg k cs with
      | Some (a, r) =>
          match lit "," r with
          | Some r1 => match parse_args ks r1 with Some (l, r2) => Some (a :: l, r2) | None => None end
          | None => None
          end
      | None => None
      end
  end.

(** [nestedExpr("(", ")", content=Group(...))]. *)
Inductive gtree := GGroup (l : list arg) | GNest (l : list gtree).
Fixpoint groups (fuel : nat) (ks : list argkind) (cs : chars) : list gtree * chars :=
  match fuel with
  | O => ([], cs)
  | S fuel =>
      match lit "(" cs with
      | Some r =>
          let (l, r1) := groups fuel ks r in
          match lit ")" r1 with
          | Some r2 => let (l', r3) := groups fuel ks r2 in (GNest l :: l', r3)
          | None => ([], cs)
          end
      | None =>
          match parse_args ks cs with
          | Some (a, r) => let (l', r') := groups fuel ks r in (GGroup a :: l', r')
          | None => ([], cs)
          end
      end
  end.
Definition paren (ks : list argkind) (cs : chars) : option (list gtree * chars) :=
  match lit "(" cs with
  | Some r =>
      let (l, r1) := groups (List.length r) ks r in
      match lit ")" r1 with Some r2 => Some (l, r2) | None => None end
  | None => None
  end.

(** [Keyword]: the literal, not followed by a letter, a digit, "_" or "$". *)
Definition is_ident (c : ascii) : bool :=
  let n := nat_of_ascii c in
  is_digit c || ((65 <=? n) && (n <=? 90)) || ((97 <=? n) && (n <=? 122)) || (n =? 95) || (n =? 36).
Fixpoint prefix (p cs : chars) : option chars :=
  match p, cs with
  | [], _ => Some cs
  | a :: p, b :: cs => if Ascii.eqb a b then prefix p cs else None
  | _, _ => None
  end.
Definition keyword (w : string) (cs : chars) : option chars :=
  match prefix (list_ascii_of_string w) (skip cs) with
  | Some (c :: r) => if is_ident c then None else Some (c :: r)
  | x => x
  end.

Fixpoint flat (l : list ntree) : option (list Q) :=
  match l with
  | [] => Some []
  | NNum q :: l => match flat l with Some qs => Some (q :: qs) | None => None end
  | NList _ :: _ => None
  end.

Inductive kind := KSphere | KRectangle | KTorus.
Definition kind_name (k : kind) : string :=
  match k with KSphere => "Sphere" | KRectangle => "Rectangle" | KTorus => "Torus" end.
(** parser.py:445, 447, 451-453. *)
Definition kind_args (k : kind) : list argkind :=
  match k with KSphere => [KList; KNum] | KRectangle => [KList; KList] | KTorus => [KList; KNum; KNum] end.
(** parser.py:466-486 [make_sphere], [make_rectangle], [make_torus]: the arguments are those of
    the first group, [t.asList()[1][0]]; domains.py:958: the outer radius of a torus must
    be greater than the inner one (AssertionError). *)
Definition make (k : kind) (t : list gtree) : option fset :=
  match k, t with
  | KSphere, GGroup [AList c; ANum r] :: _ => option_bind (flat c) (fun c => Some (Sph c r None))
  | KRectangle, GGroup [AList lb; AList ub] :: _ =>
      option_bind (flat lb) (fun lb => option_bind (flat ub) (fun ub => Some (Rect lb ub)))
  | KTorus, GGroup [AList c; ANum ro; ANum ri] :: _ =>
      option_bind (flat c) (fun c => if negb (Qle_bool ro ri) then Some (Tor c ro ri None) else None)
  | _, _ => None
  end.
(** parser.py:456 [sphere | rectangle | torus]; 571 [parseString(s, parseAll=True)]. *)
Definition parse_kind (k : kind) (cs : chars) : option fset :=
  option_bind (keyword (kind_name k) cs) (fun r =>
    option_bind (paren (kind_args k) r) (fun '(t, r1) =>
      match skip r1 with [] => make k t | _ => None end)).
Definition parse_domain (s : string) : option fset :=
  let cs := list_ascii_of_string s in
  match parse_kind KSphere cs with
  | Some D => Some D
  | None => match parse_kind KRectangle cs with Some D => Some D | None => parse_kind KTorus cs end
  end.

(** consts.py:87-97 [DomainNames[key]]: KeyError on an unknown name. *)
Definition label_name (l : label) : string :=
  match l with
  | XD => "XD" | XU => "XU" | XI => "XI" | XG => "XG" | XG_BORDER => "XG_BORDER" | XF => "XF"
  | XS => "XS" | XS_BORDER => "XS_BORDER" | XNF => "XNF" | XR => "XR"
  end.
Definition all_labels : list label := [XD; XU; XI; XG; XG_BORDER; XF; XS; XS_BORDER; XNF; XR].
Definition label_of_name (s : string) : option label :=
  find (fun l => String.eqb (label_name l) s) all_labels.
(** cli.py:98-105 [read_domains]: the pairs of the DOMAINS section, whose keys are distinct. *)
Fixpoint read_domains (d : list (string * string)) : option (list (label * fset)) :=
  match d with
  | [] => Some []
  | (key, value) :: d =>
      option_bind (label_of_name key) (fun l =>
        option_bind (parse_domain value) (fun D =>
          option_bind (read_domains d) (fun r => Some ((l, D) :: r))))
  end.
