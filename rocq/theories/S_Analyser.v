(** Specification: what a line of the summary table says. *)
From Coq Require Import List String Ascii Bool Arith ZArith QArith.
From Verif Require Import M_Activations M_Cegis M_Recorder.
Import ListNotations.
Local Open Scope string_scope.

(** A finished run: its configuration, result and total time. *)
Definition run := (rconfig * rresult * Q)%type.
Definition was_recorded (x : run) : bool := let '(c, r, T) := x in snd (record c r T None).
Definition succeeded (x : run) : bool := let '(_, r, _) := x in rr_res r.
Definition total_time (x : run) : Q := let '(_, _, T) := x in T.
(** The first component time is the learner's (C44). *)
Definition learner_time (x : run) : Q := let '(_, r, _) := x in hd 0%Q (rr_times r).

(** Underscores are escaped for LaTeX. *)
Fixpoint latexed (s : string) : string :=
  match s with
  | EmptyString => EmptyString
  | String c s => if Ascii.eqb c "_" then String "\" (String "_" (latexed s)) else String c (latexed s)
  end.
Definition prop_name (c : cert_type) : string :=
  match c with
  | LYAPUNOV => "Stability" | ROA => "ROA" | BARRIER | BARRIERALT => "Safety" | RAR => "RAR" | STABLESAFE => "SWA"
  | RWS | RWA => "RWA" | RSWS | RSWA => "RSWA" | CUSTOM => ""
  end.
Definition has_alt (c : rconfig) : bool := match rc_certificate c with STABLESAFE | RAR => true | _ => false end.
Definition activation_list (l : list act_type) : string := match get_activations l with Some s => s | None => "" end.
Definition or_empty (o : option string) : string := match o with Some s => s | None => "" end.
(** The line a configuration belongs to: the system, the sets, the model's name, the numbers of states and
    inputs, the property, and the sizes and activations of the networks. *)
Definition benchmark (show : value -> string) (c : rconfig) : list string :=
  [or_empty (rc_latex c); or_empty (rc_domains c); latexed (or_empty (rc_model_name c)); show (VNat (rc_n_vars c));
   show (VNat match rc_ctrlayer c with Some l => List.last l 0%nat | None => 0%nat end); prop_name (rc_certificate c);
   show (VNats (rc_neurons c)) ++ ", " ++ (if has_alt c then show (VNats (rc_neurons_alt c)) else "");
   latexed (activation_list (rc_activation c)) ++ ", " ++ (if has_alt c then latexed (activation_list (rc_activation_alt c)) else "")].

Definition config_of (x : run) : rconfig := let '(c, _, _) := x in c.
(** The texts are not empty. *)
Definition labelled (c : rconfig) : Prop := rc_latex c <> Some "" /\ rc_domains c <> Some "" /\ rc_model_name c <> Some "".
Definition on_line (show : value -> string) (key : list string) (x : run) : bool :=
  was_recorded x && if list_eq_dec string_dec (benchmark show (config_of x)) key then true else false.

(** [p] percent of [n], rounded down. *)
Definition percentage (s n : nat) (p : Z) : Prop :=
  (p * Z.of_nat n <= 100 * Z.of_nat s < (p + 1) * Z.of_nat n)%Z.
(** Least, mean and greatest element. *)
Definition summary (l : list Q) (s : Q * Q * Q) : Prop :=
  let '(lo, mean, hi) := s in
  (In lo l /\ forall x, In x l -> lo <= x)%Q /\ (In hi l /\ forall x, In x l -> x <= hi)%Q /\
  (mean * inject_Z (Z.of_nat (List.length l)) == fold_right Qplus 0 l)%Q.
Definition count {A} (f : A -> bool) (l : list A) : nat := List.length (filter f l).
