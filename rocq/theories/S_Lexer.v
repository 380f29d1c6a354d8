(** Specification: how the tokens of an expression are written, with any white space
    between them. *)
From Coq Require Import Reals QArith Qreals Decimal Ascii String List.
From Verif Require Import M_Parser S_Parser S_DomainParser.
Import ListNotations.
Local Open Scope list_scope.
Local Open Scope R_scope.

(** The digits of a variable's index. *)
Fixpoint index_text (d : uint) : S_DomainParser.text :=
  match d with
  | Nil => []
  | D0 d => "0"%char :: index_text d | D1 d => "1"%char :: index_text d
  | D2 d => "2"%char :: index_text d | D3 d => "3"%char :: index_text d
  | D4 d => "4"%char :: index_text d | D5 d => "5"%char :: index_text d
  | D6 d => "6"%char :: index_text d | D7 d => "7"%char :: index_text d
  | D8 d => "8"%char :: index_text d | D9 d => "9"%char :: index_text d
  end.

(** The spellings of a token. *)
Inductive token_text : token -> S_DomainParser.text -> Prop :=
| tt_integer q ds : numeral ds -> Q2R q = whole ds -> token_text (TNum q) ds
| tt_decimal q ds fs : numeral ds -> numeral fs -> Q2R q = whole ds + fraction fs ->
    token_text (TNum q) (ds ++ ["."%char] ++ fs)
| tt_state d : token_text (TVar VX d) ("x"%char :: index_text d)
| tt_input d : token_text (TVar VU d) ("u"%char :: index_text d)
| tt_sin : token_text (TFun FSin) (list_ascii_of_string "sin")
| tt_cos : token_text (TFun FCos) (list_ascii_of_string "cos")
| tt_exp : token_text (TFun FExp) (list_ascii_of_string "exp")
| tt_log : token_text (TFun FLog) (list_ascii_of_string "log")
| tt_sqrt : token_text (TFun FSqrt) (list_ascii_of_string "sqrt")
| tt_tanh : token_text (TFun FTanh) (list_ascii_of_string "tanh")
| tt_add : token_text (TOp OAdd) ["+"%char]
| tt_sub : token_text (TOp OSub) ["-"%char]
| tt_mul : token_text (TOp OMul) ["*"%char]
| tt_div : token_text (TOp ODiv) ["/"%char]
| tt_pow : token_text (TOp OPow) ["*"%char; "*"%char]
| tt_lpar : token_text TLpar ["("%char]
| tt_rpar : token_text TRpar [")"%char].

(** Tokens written one after the other, with any white space before, between and after. *)
Inductive spaced : list token -> S_DomainParser.text -> Prop :=
| spaced_nil b : blank b -> spaced [] b
| spaced_cons b k t ks ts : blank b -> token_text k t -> spaced ks ts -> spaced (k :: ks) (b ++ t ++ ts).

(** [s] is a way to write the expression [t]. *)
Definition written (t : tree) (s : string) : Prop := spaced (S_Parser.text t) (list_ascii_of_string s).
