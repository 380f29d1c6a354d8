(** Model of a Python script that calls the library: [main.run_benchmark(CegisConfig(...))]
    (fossil/main.py:51-95, cegis.py:39-120, 361-411; experiments/benchmarks/*/*.py).
    No proofs in this file.  The scripts themselves are in [M_Scripts].
    [None] is an exception. *)
From Coq Require Import String QArith Reals ZArith List Bool Arith.
From Verif Require Import M_Syntax M_Certificates M_Verifier M_Activations M_Domains M_Network M_Cegis M_Labels M_Fossil
  M_Control M_Parser M_Cli M_Config M_Model.
Import ListNotations.
Local Open Scope string_scope.
Local Open Scope nat_scope.

(** A set: one of the library's, or a class of the script with its own [generate_domain]. *)
Inductive xset := Shipped (S : fset) | Written (g : list expr -> fml).
(** The fields of the configuration.  [x_system = None]: models.py's Quadrotor2d, which is not translated
    (its [f_torch] raises, see [M_Model.Quadrotor2d_torch]). *)
Record script := {
  x_file : string; x_system : option benchmark_model; x_n : nat;
  x_type : cert_type; x_time : time_domain; x_verifier : verifier_type;
  x_domains : list (label * xset);        (* DOMAINS *)
  x_data : list label;                    (* the labels of DATA *)
  x_hidden : list nat; x_acts : list act_type;
  x_hidden_alt : list nat; x_acts_alt : list act_type;
  x_ctrl : option (list nat * list act_type);   (* CTRLAYER, CTRLACTIVATION *)
  x_llo : bool; x_max_iters : Z }.
(** consts.py:182, 192-195, 200, 210-211: the defaults of the fields no script, or not every script, sets. *)
Definition default_hidden_alt : list nat := [10].
Definition default_acts_alt : list act_type := [SQUARE].
Definition default_max_iters : Z := 10.
Definition default_rounding : Z := 3.

(** cegis.py:101-120.  The base class of the sets, domains.py:330-375, has no [generate_boundary]
    (NotImplementedError); the complement of a script's own set is not represented. *)
Definition xformula (n : nat) (d : M_Labels.symbolic xset) : option fml :=
  match d with
  | SDomain (Shipped D) => Some (generate_domain D (new_vars n))
  | SDomain (Written g) => Some (g (new_vars n))
  | SBoundary (Shipped D) => generate_boundary D (new_vars n)
  | SComplement (Shipped D) => Some (generate_complement D (new_vars n))
  | SBoundary (Written _) | SComplement (Written _) => None
  end.
Definition xformulas (n : nat) (sym : list (label * M_Labels.symbolic xset)) : option (list (label * fml)) :=
  map_opt (fun p => option_map (pair (fst p)) (xformula n (snd p))) sym.

(** cegis.py:82-99 [f(self.x)]: the model's symbolic right-hand side, closed with the controller
    (control.py:313-366) if CTRLAYER is given. *)
Definition script_xdot (m : benchmark_model) (closed : bool) (b : symb) (n : nat) (k : controller) : option (list expr) :=
  let v := AObject (PList (map (PLeaf (KVar b)) (new_vars n))) in
  match (if closed then snd (call_closed m k (None, None) v) else snd (call m None v NoInputs)) with
  | Terms l => Some l
  | _ => None
  end.
(** [f] on one sample. *)
Definition script_torch (m : benchmark_model) (closed : bool) (k : controller) (p : point) : point :=
  match (if closed then snd (call_closed m k (None, None) (ATensor [p])) else snd (call m None (ATensor [p]) NoInputs)) with
  | Rows [q] => q
  | _ => []
  end.

(** learner.py:41-88, cegis.py:61-74, 392-410: a network with random weights. *)
Definition script_network (rand : nat -> nat -> nat -> Q) (sizes : list nat) (names : list act_type) (with_bias : bool) (n : nat)
  : option network :=
  option_bind (map_opt activation_fcn names) (fun acts =>
  if negb (length acts =? length sizes) then None else
  Some {| in_size := n; hidden := combine (linears rand 0 n sizes with_bias) acts;
          last := linear (rand (length sizes)) (List.last sizes n) 1 with_bias |}).
Definition script_net (rand : nat -> nat -> nat -> Q) (e : script) : option network :=
  script_network rand (x_hidden e) (x_acts e) (certificate_bias (x_type e)) (x_n e).
Definition script_net_alt (rand : nat -> nat -> nat -> Q) (e : script) : option network :=
  script_network rand (x_hidden_alt e) (x_acts_alt e) true (x_n e).
(** cegis.py:85-93, control.py:260-277. *)
Definition script_controller (rand : nat -> nat -> nat -> Q) (e : script) : option controller :=
  match x_ctrl e with
  | None => Some {| k_acts := []; k_layers := [] |}
  | Some (sizes, names) =>
      if length sizes <=? 1 then None else
      option_map (fun acts => {| k_acts := acts; k_layers := linears rand 0 (x_n e) sizes false |}) (map_opt activation_fcn names)
  end.

(** The search the script starts, or [None] if the constructors raise: the labels do not fit the certificate, the
    solver is not available, a set has no border, [GeneralClosedLoopModel] misses an attribute. *)
Definition script_problem (e : script) : option (problem controller) :=
  option_bind (x_system e) (fun m =>
  option_bind (library_of (x_verifier e)) (fun '(_, b) =>
  let closed := match x_ctrl e with None => false | Some _ => true end in
  if closed && negb (can_close m) then None else
  if negb (accepted (x_time e) (x_type e) (x_domains e) (map (fun l => (l, tt)) (x_data e))) then None else
  option_bind (option_bind (initialise_domains (x_type e) (x_domains e)) (xformulas (x_n e))) (fun fs =>
  Some {| pb_type := x_type e; pb_n := x_n e; pb_llo := x_llo e; pb_quad := false;
          pb_discrete := match x_time e with DISCRETE => true | CONTINUOUS => false end;
          pb_rounding := default_rounding; pb_max_iters := x_max_iters e; pb_control := closed; pb_symb := b;
          pb_sets := lookup_set fs; pb_xdot := script_xdot m closed b (x_n e); pb_f := script_torch m closed |}))).
(** [Cegis(config)] of a script: the problem, the first network and the controller. *)
Definition script_session (rand randc : nat -> nat -> nat -> Q) (e : script) : option (problem controller * network * controller) :=
  option_bind (script_problem e) (fun pb => option_bind (script_net rand e) (fun net =>
  option_map (fun ctrl => (pb, net, ctrl)) (script_controller randc e))).
(** With two functions (cegis.py:361-411). *)
Definition script_session2 (rand rand2 randc : nat -> nat -> nat -> Q) (e : script)
  : option (problem controller * network * network * controller) :=
  option_bind (script_session rand randc e) (fun '(pb, net, ctrl) =>
  option_map (fun net2 => (pb, net, net2, ctrl)) (script_net_alt rand2 e)).
