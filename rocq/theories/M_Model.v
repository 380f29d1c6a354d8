(** Model of system models written in Python: control.py:30-183 [DynamicalModel],
    [ControllableDynamicalModel], 313-366 [GeneralClosedLoopModel], utils.py:554-562 [contains_object],
    consts.py:290-346 (the dictionaries of functions), experiments/benchmarks/models.py.
    No proofs in this file.

    Simplifications: floats are exact; tensors have two dimensions, given by their rows; the user's
    methods [f_torch] and [f_smt] are formulas, one per component; the functions of the back-ends
    accept numbers as well. *)
From Coq Require Import String Reals QArith Qreals List Bool Arith.
From Verif Require Import M_Syntax M_Activations M_Network M_Control M_Recorder.
Import ListNotations.
Local Open Scope string_scope.
Local Open Scope nat_scope.

(** ** Formulas of user code *)
Inductive uexpr :=
| UNum (q : Q)
| UVar (i : nat)
| UInput (j : nat)
| UMinus (a : uexpr)
| UAdd (a b : uexpr) | USub (a b : uexpr) | UMul (a b : uexpr) | UDiv (a b : uexpr)
| UPow (a : uexpr) (n : nat)
| UFn (name : string) (a : uexpr).
(** A class of models.  [bm_functions]: the names looked up in [self.fncs]; [bm_unpack_v]: the number
    of variables on the left of [x, y, ... = v]; [None]: no such assignment, or no such attribute. *)
Record benchmark_model := {
  bm_name : string; bm_control : bool; bm_n_vars : option nat; bm_n_u : option nat;
  bm_torch : list uexpr;
  bm_functions : list string; bm_unpack_v : option nat; bm_unpack_u : option nat; bm_smt : list uexpr }.

(** [torch.sin] etc.; [torch.relu] is written "ReLU" and [torch.nn.functional.softplus] "softplus". *)
Definition torch_fn (name : string) : option (R -> R) :=
  if String.eqb name "sin" then Some sin else if String.eqb name "cos" then Some cos
  else if String.eqb name "exp" then Some exp else if String.eqb name "tanh" then Some tanh
  else if String.eqb name "sinh" then Some sinh else if String.eqb name "cosh" then Some cosh
  else if String.eqb name "sigmoid" then Some torch_sigmoid else if String.eqb name "ReLU" then Some (fun x => Rmax x 0)
  else if String.eqb name "softplus" then Some torch_softplus else None.
(** A formula on one row; a result without tensor in it is a Python number. *)
Inductive item := Number (r : R) | Tensor (r : R).
Definition item_value (i : item) : R := match i with Number r | Tensor r => r end.
Definition lift2 (f : R -> R -> R) (a b : item) : item :=
  match a, b with Number x, Number y => Number (f x y) | _, _ => Tensor (f (item_value a) (item_value b)) end.
Definition lift1 (f : R -> R) (a : item) : item := match a with Number x => Number (f x) | Tensor x => Tensor (f x) end.
Fixpoint uval (x u : list R) (e : uexpr) : option item :=
  match e with
  | UNum q => Some (Number (Q2R q))
  | UVar i => option_map Tensor (nth_error x i)
  | UInput j => option_map Tensor (nth_error u j)
  | UMinus a => option_map (lift1 Ropp) (uval x u a)
  | UAdd a b => option_bind (uval x u a) (fun a => option_map (lift2 Rplus a) (uval x u b))
  | USub a b => option_bind (uval x u a) (fun a => option_map (lift2 Rminus a) (uval x u b))
  | UMul a b => option_bind (uval x u a) (fun a => option_map (lift2 Rmult a) (uval x u b))
  | UDiv a b => option_bind (uval x u a) (fun a => option_map (lift2 Rdiv a) (uval x u b))
  | UPow a n => option_map (lift1 (fun x => x ^ n)%R) (uval x u a)
  | UFn name a =>
      (* torch.sin of a number: TypeError *)
      option_bind (torch_fn name) (fun f => option_bind (uval x u a) (fun a =>
        match a with Tensor r => Some (Tensor (f r)) | Number _ => None end))
  end.
Definition tensor_only (i : item) : option R := match i with Tensor r => Some r | Number _ => None end.
(** control.py:66-68, 166-168 [torch.stack(self.f_torch(v)).T]: TypeError when a component is a number,
    RuntimeError when there is none.  [k] rows. *)
Definition columns (m : benchmark_model) (points : list (list R * list R)) : option (list (list R)) :=
  all_some (map (fun e => all_some (map (fun '(x, u) => option_bind (uval x u e) tensor_only) points)) (bm_torch m)).
Definition stack_T (k : nat) (cols : list (list R)) : list (list R) :=
  map (fun i => map (fun col => nth i col 0%R) cols) (seq 0 k).
Definition f_torch_rows (m : benchmark_model) (points : list (list R * list R)) : option (list (list R)) :=
  match bm_torch m with
  | [] => None
  | _ => option_map (stack_T (List.length points)) (columns m points)
  end.

(** ** Symbolic evaluation *)
Local Open Scope expr_scope.
(** consts.py:301-318 [DREAL_FNCS], 290-299 [Z3_FNCS], 320-335 [CVC5_FNCS], 343-347 [SP_FNCS]: the entries
    that are functions of one number. *)
Definition fncs (b : symb) (name : string) : option (expr -> expr) :=
  let is s := String.eqb name s in
  match b with
  | SDREAL =>
      if is "sin" then Some (EUn USin) else if is "cos" then Some (EUn UCos) else if is "exp" then Some (EUn UExp)
      else if is "ReLU" then Some (fun x => EBin BMax x (ENum 0)) else if is "tanh" then Some (EUn UTanh)
      else if is "sigmoid" then Some (fun x => ENum 1 / (ENum 1 + EUn UExp (- x)))
      else if is "softplus" then Some (fun x => EUn ULog (ENum 1 + EUn UExp x))
      else if is "cosh" then Some (EUn UCosh) else if is "sinh" then Some (EUn USinh) else None
  | SZ3 => if is "ReLU" then Some (fun x => EIfPos x x (ENum 0)) else None
  | SCVC5 =>
      if is "sin" then Some (EUn USin) else if is "cos" then Some (EUn UCos) else if is "exp" then Some (EUn UExp)
      else if is "ReLU" then Some (fun x => EIfPos x x (ENum 0))
      else if is "tanh" then Some (fun x => (EUn UExp x - EUn UExp (- x)) / (EUn UExp x + EUn UExp (- x)))
      else if is "sigmoid" then Some (fun x => ENum 1 / (ENum 1 + EUn UExp (- x))) else None
  | SSYMPY => if is "sin" then Some (EUn USin) else if is "cos" then Some (EUn UCos) else if is "exp" then Some (EUn UExp) else None
  end.
Fixpoint uterm (b : symb) (x u : list expr) (e : uexpr) : option expr :=
  match e with
  | UNum q => Some (ENum q)
  | UVar i => nth_error x i
  | UInput j => nth_error u j
  | UMinus a => option_map (EUn UNeg) (uterm b x u a)
  | UAdd a c => option_bind (uterm b x u a) (fun a => option_map (EBin BAdd a) (uterm b x u c))
  | USub a c => option_bind (uterm b x u a) (fun a => option_map (EBin BSub a) (uterm b x u c))
  | UMul a c => option_bind (uterm b x u a) (fun a => option_map (EBin BMul a) (uterm b x u c))
  | UDiv a c => option_bind (uterm b x u a) (fun a => option_map (EBin BDiv a) (uterm b x u c))
  | UPow a n => option_map (fun a => EPow a n) (uterm b x u a)
  | UFn name a => option_bind (fncs b name) (fun f => option_map f (uterm b x u a))
  end.
(** ValueError: too many or not enough values to unpack. *)
Definition unpack {A} (n : option nat) (l : list A) : bool :=
  match n with None => true | Some n => List.length l =? n end.
(** [self.fncs] is None or one of the dictionaries. *)
Definition f_smt_terms (m : benchmark_model) (self_fncs : option symb) (x u : list expr) : option (list expr) :=
  if unpack (bm_unpack_v m) x && unpack (bm_unpack_u m) u then
    match self_fncs with
    | None => None
    | Some b =>
        if forallb (fun name => match fncs b name with Some _ => true | None => false end) (bm_functions m)
        then all_some (map (uterm b x u) (bm_smt m)) else None
    end
  else None.

(** ** Arguments and results of a call *)
Inductive kind := KVar (b : symb) (* an instance of dreal.Variable, z3.ArithRef, cvc5's ArithRef, sympy.Expr *)
                | KOther (* numbers, dreal.Expression, ... *).
Inductive pyobj := PLeaf (k : kind) (e : expr) | PList (l : list pyobj) | PText.
Inductive arg := ATensor (rows : list (list R)) | AArray | AObject (o : pyobj).
Inductive outcome := Raises | ReturnsNone | Rows (l : list (list R)) | Terms (l : list expr).
Definition symb_eqb (a b : symb) : bool :=
  match a, b with SZ3, SZ3 | SDREAL, SDREAL | SCVC5, SCVC5 | SSYMPY, SSYMPY => true | _, _ => false end.
(** utils.py:554-562 [contains_object]: looks at the first element only; [None]: StopIteration on an empty
    iterable, RecursionError on a text. *)
Fixpoint contains_object (o : pyobj) (b : symb) : option bool :=
  match o with
  | PLeaf (KVar b') _ => Some (symb_eqb b' b)
  | PLeaf KOther _ => Some false
  | PList (o :: _) => contains_object o b
  | PList [] => None
  | PText => None
  end.
(** A list of numbers and terms; arithmetic on anything else is a TypeError. *)
Definition leaves (o : pyobj) : option (list expr) :=
  match o with
  | PList l => all_some (map (fun o => match o with PLeaf _ e => Some e | _ => None end) l)
  | _ => None
  end.
(** control.py:34-50, 140-156 [f]: the new value of [self.fncs] and the outcome.  An array of numpy passes the
    first test, but [torch.stack] accepts tensors only. *)
Definition symbolic_case (m : benchmark_model) (b : symb) (v : pyobj) (u : list expr) : option symb * outcome :=
  (Some b, match option_bind (leaves v) (fun x => f_smt_terms m (Some b) x u) with Some l => Terms l | None => Raises end).
(** The inputs: rows of a tensor, or a list of terms. *)
Inductive inputs := NoInputs | InputRows (rows : list (list R)) | InputTerms (l : list expr).
Definition points_of (rows : list (list R)) (u : inputs) : option (list (list R * list R)) :=
  match u with
  | NoInputs => Some (map (fun x => (x, [])) rows)
  | InputRows us => if List.length us =? List.length rows then Some (combine rows us) else None
  | InputTerms _ => None
  end.
Definition terms_of (u : inputs) : option (list expr) :=
  match u with NoInputs => Some [] | InputTerms l => Some l | InputRows _ => None end.
Definition call (m : benchmark_model) (self_fncs : option symb) (v : arg) (u : inputs) : option symb * outcome :=
  match v with
  | ATensor rows =>
      (self_fncs, match option_bind (points_of rows u) (f_torch_rows m) with Some r => Rows r | None => Raises end)
  | AArray => (self_fncs, Raises)
  | AObject o =>
      let case b (rest : option symb * outcome) :=
        match contains_object o b with
        | None => (self_fncs, Raises)
        | Some true => match terms_of u with Some us => symbolic_case m b o us | None => (Some b, Raises) end
        | Some false => rest
        end in
      case SDREAL (case SZ3 (case SCVC5 (case SSYMPY (self_fncs, ReturnsNone))))
  end.

(** ** The closed loop *)
(** control.py:313-358 [GeneralClosedLoopModel]: [None]: AttributeError in [__init__]. *)
Definition can_close (m : benchmark_model) : bool :=
  match bm_n_vars m, bm_n_u m with Some _, Some _ => true | _, _ => false end.
(** [f] of the closed loop; the state is [fncs] of the loop and of the open loop. *)
Definition call_closed (m : benchmark_model) (c : controller) (st : option symb * option symb) (v : arg)
  : (option symb * option symb) * outcome :=
  match v with
  | ATensor rows =>
      let (s, r) := call m (snd st) v (InputRows (map (ctrl_forward c) rows)) in ((fst st, s), r)
  | AArray => (st, Raises)
  | AObject o =>
      let case b (rest : (option symb * option symb) * outcome) :=
        match contains_object o b with
        | None => (st, Raises)
        | Some true =>
            match option_bind (leaves o) (to_symbolic b c) with
            | None => ((Some b, snd st), Raises)
            | Some us => let (s, r) := call m (snd st) v (InputTerms us) in ((Some b, s), r)
            end
        | Some false => rest
        end in
      case SDREAL (case SZ3 (case SCVC5 (case SSYMPY (st, ReturnsNone))))
  end.
(** control.py:128-130, 173-175, 353-356 [clean]. *)
Definition clean : option symb := None.

(** ** The remaining classes of models.py *)
(** models.py:13-33 [Eulerised.f] of a model. *)
Definition euler_rows (h : R) (rows out : list (list R)) : list (list R) :=
  map (fun '(x, y) => map (fun '(a, b) => (a + h * b)%R) (combine x y)) (combine rows out).
Definition euler_terms (h : Q) (x out : list expr) : list expr :=
  map (fun '(a, b) => a + ENum h * b) (combine x out).
(** models.py:252-261 [LinearDiscreteNVars]: [v[i] for i in range(len(v))] are the rows of the tensor, so
    [torch.stack(...).T] has one row per variable. *)
Definition LinearDiscreteNVars_torch (n : nat) (rows : list (list R)) : option (list (list R)) :=
  match rows with
  | [] => None
  | _ => Some (stack_T n (map (map (Rmult (Q2R (1 # 2)))) rows))
  end.
Definition LinearDiscreteNVars_smt (x : list expr) : option (list expr) :=
  if List.length x =? 2 then Some (map (EBin BMul (ENum (1 # 2))) x) else None.
(** models.py:610-664 [Quadrotor2d.f_torch]: [qdot[:, 0]] on a list is a TypeError. *)
Definition Quadrotor2d_torch (points : list (list R * list R)) : option (list (list R)) := None.
(** models.py:668-721 [LinearSatellite.f_torch]: [qdot = v[:, 3:]] has [n_vars - 3] columns, [qdot[:, 2]] is read. *)
Definition LinearSatellite_n_vars : nat := 5.
Definition LinearSatellite_torch (mu : R) (points : list (list R * list R)) : option (list (list R)) :=
  let f := fun '(x, u) =>
    option_bind (all_some (map (nth_error x) (seq 0 6))) (fun x => option_bind (all_some (map (nth_error u) (seq 0 3))) (fun u =>
    match x, u with
    | [q0; q1; q2; d0; d1; d2], [u1; u2; u3] =>
        Some [d0; d1; d2; (3 * mu ^ 2 * q0 - 2 * mu * d1 + u1 / 1)%R; (- (2) * mu * d0 + u2 / 1)%R; (- mu ^ 2 * q2 + u3 / 1)%R]
    | _, _ => None
    end)) in
  all_some (map f points).
