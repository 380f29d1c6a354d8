(** Specification: what a model written in Python stands for. *)
From Coq Require Import String Reals QArith Qreals List Bool Arith.
From Verif Require Import M_Syntax M_Activations M_Control M_Model.
Import ListNotations.
Local Open Scope string_scope.
Local Open Scope R_scope.

(** The functions by their names. *)
Definition function (name : string) (x : R) : R :=
  if String.eqb name "sin" then sin x else if String.eqb name "cos" then cos x else if String.eqb name "exp" then exp x
  else if String.eqb name "tanh" then tanh x else if String.eqb name "sinh" then sinh x else if String.eqb name "cosh" then cosh x
  else if String.eqb name "sigmoid" then 1 / (1 + exp (- x)) else if String.eqb name "ReLU" then Rmax x 0
  else if String.eqb name "softplus" then ln (1 + exp x) else 0.
(** The value of a formula at the state [x] and the input [u]. *)
Fixpoint value (x u : list R) (e : uexpr) : R :=
  match e with
  | UNum q => Q2R q
  | UVar i => nth i x 0
  | UInput j => nth j u 0
  | UMinus a => - value x u a
  | UAdd a b => value x u a + value x u b
  | USub a b => value x u a - value x u b
  | UMul a b => value x u a * value x u b
  | UDiv a b => value x u a / value x u b
  | UPow a n => value x u a ^ n
  | UFn name a => function name (value x u a)
  end.
(** The functions a solver offers. *)
Definition offers (b : symb) : list string :=
  match b with
  | SDREAL => ["sin"; "cos"; "exp"; "tanh"; "sinh"; "cosh"; "sigmoid"; "softplus"; "ReLU"]
  | SZ3 => ["ReLU"]
  | SCVC5 => ["sin"; "cos"; "exp"; "tanh"; "sigmoid"; "ReLU"]
  | SSYMPY => ["sin"; "cos"; "exp"]
  end.
(** Names whose numerical version is the mathematical one everywhere (not softplus, see C25). *)
Definition plain : list string := ["sin"; "cos"; "exp"; "tanh"; "sinh"; "cosh"; "sigmoid"; "ReLU"].

(** A formula that can be evaluated on [n] states and [k] inputs, with functions from [fs]; it depends on
    the state or the input, as does every argument of a function. *)
Fixpoint depends (e : uexpr) : bool :=
  match e with
  | UNum _ => false
  | UVar _ | UInput _ => true
  | UMinus a | UPow a _ | UFn _ a => depends a
  | UAdd a b | USub a b | UMul a b | UDiv a b => depends a || depends b
  end.
Fixpoint evaluable (n k : nat) (fs : list string) (e : uexpr) : Prop :=
  match e with
  | UNum _ => True
  | UVar i => (i < n)%nat
  | UInput j => (j < k)%nat
  | UMinus a | UPow a _ => evaluable n k fs a
  | UAdd a b | USub a b | UMul a b | UDiv a b => evaluable n k fs a /\ evaluable n k fs b
  | UFn name a => In name fs /\ In name plain /\ depends a = true /\ evaluable n k fs a
  end.
(** The same formulas are written in [f_torch] and in [f_smt]. *)
Definition written_twice (m : benchmark_model) (n k : nat) : Prop :=
  bm_torch m = bm_smt m /\ bm_smt m <> [] /\
  (forall e, In e (bm_smt m) -> depends e = true /\ evaluable n k (bm_functions m) e) /\
  (bm_unpack_v m = None \/ bm_unpack_v m = Some n) /\ (bm_unpack_u m = None \/ bm_unpack_u m = Some k) /\
  (bm_control m = false -> k = 0%nat /\ bm_unpack_u m = None).

(** Simulating: the derivatives (successors) of a batch of states are those of the field, row by row. *)
Definition simulates (m : benchmark_model) (n k : nat) (F : list R -> list R -> list R) : Prop :=
  forall fncs rows us,
    Forall (fun x => List.length x = n) rows -> Forall (fun u => List.length u = k) us -> List.length us = List.length rows ->
    snd (call m fncs (ATensor rows) (if bm_control m then InputRows us else NoInputs)) =
      Rows (map (fun p => F (fst p) (snd p)) (combine rows us)).
(** In a solver: the terms have the values of the field at every point. *)
Definition is_in_solver (m : benchmark_model) (n k : nat) (F : list R -> list R -> list R) (b : symb) : Prop :=
  forall fncs first rest us,
    List.length (first :: rest) = n -> List.length us = k ->
    exists ts,
      snd (call m fncs (AObject (PList (PLeaf (KVar b) first :: map (PLeaf KOther) rest)))
             (if bm_control m then InputTerms us else NoInputs)) = Terms ts /\
      forall s, map (eval s) ts = F (map (eval s) (first :: rest)) (map (eval s) us).
(** A model in use: calls with any arguments, and [clean]. *)
Inductive operation := Call (v : arg) (u : inputs) | Clean.
Definition operate (m : benchmark_model) (fncs : option symb) (o : operation) : option symb :=
  match o with Call v u => fst (call m fncs v u) | Clean => clean end.
Definition operate_closed (m : benchmark_model) (c : controller) (st : option symb * option symb) (o : operation) : option symb * option symb :=
  match o with Call v _ => fst (call_closed m c st v) | Clean => (clean, clean) end.
