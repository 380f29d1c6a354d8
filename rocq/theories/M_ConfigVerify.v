(** Model of the command line's verification of a candidate: main.py:131-157 and cli.py:65-71,
    233-236, parser.py:90-108.  No proofs in this file.

    [None] is an exception; the simplifications of M_Config apply. *)
From Coq Require Import String Reals QArith List Bool Arith.
From Verif Require Import M_Syntax M_Certificates M_Verifier M_Activations M_Network M_Cegis M_Fossil M_Control M_Parser M_Lexer M_Variables
  M_Cli M_Config M_Verify.
Import ListNotations.
Local Open Scope string_scope.

(** parser.py:104 [[certificate] = s] with [s = config_data["CANDIDATE"]]: any iterable with one item. *)
Definition candidate_text (doc : document) : option string :=
  option_bind (assoc "CANDIDATE" doc) (fun y => option_bind (iterate y) (fun l =>
    match l with [y] => as_string y | _ => None end)).
(** parser.py:105-108: the expression, parsed by a new parser, and [subsitution_function] on the
    verifier's variables (AttributeError on a number; KeyError when a state variable is not mentioned;
    inputs stay variables). *)
Definition candidate_expr (lib : library) (free : ident -> expr) (e : ast) (v : list expr) : option expr :=
  if is_number e then None else
  let (a, s) := M_Variables.symbolic lib e start in
  option_bind (state_entries s v) (fun en => term lib (substitute en free) a).
(** main.py:150-157 [_cli_entry] with a CANDIDATE, cli.py:65-71, 234-236, main.py:131-147 [verify]. *)
Definition verify_file (numpy : interp) (f1 f2 : nat) (rand randc : nat -> nat -> nat -> Q) (doc : document)
  (be : backend) (noise : label -> nat -> nat -> R) : option verdict :=
  option_bind (option_bind (read_config doc) (fun c => option_bind (get_verifier_type c) library_of)) (fun '(lib, _) =>
  option_bind (option_bind (candidate_text doc) (parse_text f1 f2)) (fun e =>
  option_bind (session_of numpy f1 f2 rand randc doc) (fun '(pb, _, ctrl) =>
  verify_candidate pb be noise ctrl (candidate_expr lib (leftover (pb_n pb)) e)))).
