(** Specification: how a user writes a set in a configuration file (README.md:38-47), and
    which points it contains.  White space is allowed between the parts, not inside numbers. *)
From Coq Require Import Reals Ascii String Arith List.
From Verif Require Import M_Syntax S_Domains.
Import ListNotations.
Local Open Scope list_scope.
Local Open Scope R_scope.

Definition text := list ascii.
Definition blank (t : text) : Prop :=
  Forall (fun c => c = " "%char \/ c = "009"%char \/ c = "010"%char \/ c = "013"%char) t.
Definition digit_value (c : ascii) : R := INR (nat_of_ascii c - 48).
(** A non-empty run of the digits 0 to 9. *)
Definition numeral (t : text) : Prop :=
  t <> [] /\ Forall (fun c => (48 <= nat_of_ascii c <= 57)%nat) t.
(** Digits before the point count 1, 10, 100, ... from the right, those after it
    1/10, 1/100, ... from the left. *)
Fixpoint whole (t : text) : R :=
  match t with [] => 0 | c :: r => digit_value c * 10 ^ length r + whole r end.
Fixpoint fraction (t : text) : R :=
  match t with [] => 0 | c :: r => (digit_value c + fraction r) / 10 end.

Inductive sign_text : text -> R -> Prop :=
| no_sign : sign_text [] 1
| plus_sign : sign_text ["+"%char] 1
| minus_sign : sign_text ["-"%char] (-1).
Inductive number_text : text -> R -> Prop :=
| integer_text : forall sg s ds, sign_text sg s -> numeral ds -> number_text (sg ++ ds) (s * whole ds)
| decimal_text : forall sg s ds fs, sign_text sg s -> numeral ds -> numeral fs ->
    number_text (sg ++ ds ++ ["."%char] ++ fs) (s * (whole ds + fraction fs)).
(** [a, b, c]: what stands between the brackets. *)
Inductive numbers_text : text -> list R -> Prop :=
| one_number : forall b1 t r b2, blank b1 -> number_text t r -> blank b2 ->
    numbers_text (b1 ++ t ++ b2) [r]
| next_number : forall b1 t r b2 ts rs, blank b1 -> number_text t r -> blank b2 ->
    numbers_text ts rs -> numbers_text (b1 ++ t ++ b2 ++ [","%char] ++ ts) (r :: rs).
(** A number, or a bracketed list, with white space around it. *)
Definition one_text (t : text) (r : R) : Prop := numbers_text t [r].
Definition list_text (t : text) (rs : list R) : Prop :=
  exists b1 ts b2, blank b1 /\ blank b2 /\ numbers_text ts rs /\ t = b1 ++ ["["%char] ++ ts ++ ["]"%char] ++ b2.

(** The sets of the README. *)
Inductive region := Ball (c : list R) (r : R) | Box (lo hi : list R) | Shell (c : list R) (outer inner : R).

Definition comma : text := [","%char].
Definition keyword_text (w : string) (args t : text) : Prop :=
  exists b1 b2 b3, blank b1 /\ blank b2 /\ blank b3 /\
    t = b1 ++ list_ascii_of_string w ++ b2 ++ ["("%char] ++ args ++ [")"%char] ++ b3.
Inductive region_text : text -> region -> Prop :=
| sphere_text : forall tc c tr r t, list_text tc c -> one_text tr r ->
    keyword_text "Sphere" (tc ++ comma ++ tr) t -> region_text t (Ball c r)
| rectangle_text : forall tl lo th hi t, list_text tl lo -> list_text th hi ->
    keyword_text "Rectangle" (tl ++ comma ++ th) t -> region_text t (Box lo hi)
| torus_text : forall tc c to ro ti ri t, list_text tc c -> one_text to ro -> one_text ti ri ->
    keyword_text "Torus" (tc ++ comma ++ to ++ comma ++ ti) t -> region_text t (Shell c ro ri).

(** The points of a region of R^n. *)
Definition distance (c : list R) (x : state) : R :=
  sqrt (sum_below (length c) (fun j => (x j - nth j c 0) ^ 2)).
Definition in_region (g : region) (x : state) : Prop :=
  match g with
  | Ball c r => distance c x <= r
  | Box lo hi => forall i, (i < length lo)%nat -> nth i lo 0 <= x i <= nth i hi 0
  | Shell c ro ri => ri <= distance c x <= ro
  end.
(** It makes sense in R^n. *)
Definition proper (n : nat) (g : region) : Prop :=
  match g with
  | Ball c r => length c = n /\ 0 <= r
  | Box lo hi => length lo = n /\ length hi = n
  | Shell c ro ri => length c = n /\ 0 <= ri < ro
  end.

(** The characters that can occur after the keyword. *)
Definition plain (c : ascii) : Prop :=
  In c (list_ascii_of_string "0123456789+-.,[]() ") \/ c = "009"%char \/ c = "010"%char \/ c = "013"%char.
