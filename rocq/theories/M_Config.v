(** Model of the path from a configuration file to the synthesis problem: cli.py:206-248
    (after the fields are read, M_Cli), control.py:190-249 and cegis.py:40-120.
    No proofs in this file.

    [None] is an exception.  Simplifications:
    - an equation which is a solver expression outside the fragment of M_Syntax (a power whose
      exponent is not a natural number, sqrt) also gives [None];
    - [f_torch] is called once in [init_state], with data of the right shape; its ValueErrors (the
      number of symbols, parser.py:493-533) are raised here;
    - [numpy] gives powers and functions on numbers;
    - [f1], [f2] bound the recursion of the expression parser. *)
From Coq Require Import String Reals QArith Qreals List Bool Arith ZArith Decimal.
From Verif Require Import M_Syntax M_Certificates M_Verifier M_Activations M_Domains M_Network M_Learner M_Cegis M_Labels M_Fossil
  M_Control M_Parser M_Lexer M_Variables M_DomainParser M_Cli.
Import ListNotations.
Local Open Scope string_scope.
Local Open Scope list_scope.
Local Open Scope nat_scope.

(** ** Solver terms *)
(** Numbers in an expression are Python numbers. *)
Fixpoint constant (a : sym) : option Q :=
  match a with
  | SNum q => Some q
  | SNeg a => option_map Qopp (constant a)
  | SBin OAdd a b => option_bind (constant a) (fun x => option_bind (constant b) (fun y => Some (x + y)%Q))
  | SBin OSub a b => option_bind (constant a) (fun x => option_bind (constant b) (fun y => Some (x - y)%Q))
  | SBin OMul a b => option_bind (constant a) (fun x => option_bind (constant b) (fun y => Some (x * y)%Q))
  | _ => None
  end.
Definition natural (q : Q) : option nat :=
  let q := Qred q in
  match Qden q with xH => if (0 <=? Qnum q)%Z then Some (Z.to_nat (Qnum q)) else None | _ => None end.
Definition function_of (f : fname) : option unop :=
  match f with
  | FSin => Some USin | FCos => Some UCos | FExp => Some UExp | FLog => Some ULog | FTanh => Some UTanh
  | FSqrt => None
  end.
(** The solver expression after substitution: parser.py:147-201 builds it, 254-386 substitute. *)
Fixpoint term (lib : library) (env : ident -> expr) (a : sym) : option expr :=
  match a with
  | SNum q => Some (ENum q)
  | SVar x => Some (env x)
  | SNeg a => option_map (EUn UNeg) (term lib env a)
  | SBin OPow a b =>
      option_bind (term lib env a) (fun x => option_bind (option_bind (constant b) natural) (fun k => Some (EPow x k)))
  | SBin o a b =>
      option_bind (term lib env a) (fun x => option_bind (term lib env b) (fun y =>
        match o with
        | OAdd => Some (EBin BAdd x y) | OSub => Some (EBin BSub x y) | OMul => Some (EBin BMul x y)
        | ODiv => Some (EBin BDiv x y) | OPow => None
        end))
  | SFun f [a] =>
      match lib with
      | LibDReal => option_bind (function_of f) (fun u => option_map (EUn u) (term lib env a))
      | _ => None
      end
  | SFun _ _ => None
  end.
(** control.py:209-210, 248-249 [f_smt] with solver expressions for the state and the input.
    A variable the substitution misses is none of the caller's variables. *)
Definition smt_rhs (lib : library) (free : ident -> expr) (es : list ast) (v : list expr) (u : option (list expr))
  : option (list expr) :=
  if existsb is_number es then None else
  let (a, s) := symbolic_system lib es start in
  match p_us s, u with
  | [], None =>
      option_bind (state_entries s v) (fun en => map_opt (term lib (substitute en free)) a)
  | _ :: _, Some u =>
      option_bind (state_entries s v) (fun en => option_bind (input_entries s u) (fun eu =>
      map_opt (term lib (substitute (en ++ eu) free)) a))
  | _, _ => None
  end.
(** Identities of variables: the caller's are 0, ..., n-1, the others get numbers of their own
    from n on.  Z3 and cvc5 identify variables by their names (x1 and x01 are two), dReal's are
    objects. *)
Fixpoint number_of_name (d : Decimal.uint) : nat :=
  match d with
  | Decimal.Nil => 0
  | Decimal.D0 d => 10 * number_of_name d + 1
  | Decimal.D1 d => 10 * number_of_name d + 2
  | Decimal.D2 d => 10 * number_of_name d + 3
  | Decimal.D3 d => 10 * number_of_name d + 4
  | Decimal.D4 d => 10 * number_of_name d + 5
  | Decimal.D5 d => 10 * number_of_name d + 6
  | Decimal.D6 d => 10 * number_of_name d + 7
  | Decimal.D7 d => 10 * number_of_name d + 8
  | Decimal.D8 d => 10 * number_of_name d + 9
  | Decimal.D9 d => 10 * number_of_name d + 10
  end.
Definition leftover (n : nat) (x : ident) : expr :=
  match x with
  | ByName VX d => EVar (n + 2 * number_of_name d)
  | ByName VU d => EVar (n + 2 * number_of_name d + 1)
  | Fresh k => EVar (n + k)
  end.

(** ** The settings *)
Definition library_of (v : verifier_type) : option (library * symb) :=
  match v with
  | VZ3 => Some (LibSMT, SZ3) | VDREAL => Some (LibDReal, SDREAL) | VCVC5 => Some (LibSMT, SCVC5)
  | VMARABOU | VNONE => None
  end.
Definition get_certificate_type (c : config) : option cert_type :=
  match getattr c "CERTIFICATE" with Some (Certificate t) => Some t | _ => None end.
Definition get_time (c : config) : option time_domain :=
  match getattr c "TIME_DOMAIN" with Some (Time t) => Some t | _ => None end.
Definition get_verifier_type (c : config) : option verifier_type :=
  match getattr c "VERIFIER" with Some (Verifier v) => Some v | _ => None end.
Definition get_quad (c : config) : bool :=
  match getattr c "FACTORS" with Some (Factors QUADRATIC) => true | _ => false end.
Definition get_raw (c : config) (f : string) : option yaml :=
  match getattr c f with Some (Raw y) => Some y | _ => None end.
(** [if value:]. *)
Definition truthy (y : yaml) : bool :=
  match y with
  | YNull => false | YBool b => b | YInt z => negb (z =? 0)%Z | YNum q => negb (Qeq_bool q 0) | YInf => true
  | YStr s => negb (String.eqb s "") | YList l => negb (length l =? 0) | YMap d => negb (length d =? 0)
  end.
Definition get_int (c : config) (f : string) : option Z :=
  match get_raw c f with Some (YInt z) => Some z | _ => None end.
(** cegis.py:85-93: [CTRLAYER[-1]] is the number of outputs; control.py:190-249, cli.py:85-95: without CTRLAYER
    the model takes no input.  An empty list: a model with inputs and no controller, TypeError. *)
Definition get_outputs (c : config) : option (option nat) :=
  match get_raw c "CTRLAYER" with
  | Some YNull => Some None
  | Some (YList (x :: l)) => option_map Some (as_nat (List.last l x))
  | _ => None
  end.

(** cegis.py:101-120: one formula per label. *)
Definition formula (n : nat) (d : M_Labels.symbolic fset) : option fml :=
  match d with
  | SDomain D => Some (generate_domain D (new_vars n))
  | SBoundary D => generate_boundary D (new_vars n)
  | SComplement D => Some (generate_complement D (new_vars n))
  end.
Definition formulas (n : nat) (sym : list (label * M_Labels.symbolic fset)) : option (list (label * fml)) :=
  map_opt (fun p => option_map (pair (fst p)) (formula n (snd p))) sym.
(** [self.domains[label]]; [_assert_state] has checked that the labels of the certificate are there. *)
Definition lookup_set (fs : list (label * fml)) (l : label) : fml :=
  match dlookup l fs with Some f => f | None => FFalse end.

(** control.py:294-309, 339-343: the feedback in the solver's terms, then the open loop. *)
Definition xdot_of (lib : library) (b : symb) (n : nat) (es : list ast) (outputs : option nat) (k : controller)
  : option (list expr) :=
  match outputs with
  | None => smt_rhs lib (leftover n) es (new_vars n) None
  | Some _ => option_bind (to_symbolic b k (new_vars n)) (fun u => smt_rhs lib (leftover n) es (new_vars n) (Some u))
  end.
(** control.py:206-207, 245-246, 335-337. *)
Definition torch_of (numpy : interp) (es : list ast) (outputs : option nat) (k : controller) (p : point) : point :=
  match M_Variables.f_torch numpy es p (match outputs with None => None | Some _ => Some (ctrl_forward k p) end) with
  | Some q => q
  | None => []
  end.
(** The checks on the system: parser.py:594 and 489-533 (see above); control.py:240-243; the
    translator multiplies the gradient, of N_VARS entries, with the right-hand side. *)
Definition system_ok (lib : library) (n : nat) (es : list ast) (outputs : option nat) : bool :=
  negb (existsb is_number es) && (length es =? n) && (length (symbols VX es) =? n) &&
  match outputs with
  | None => length (symbols VU es) =? 0
  | Some m => (length (symbols VU es) =? m) && (0 <? m) && controllable_ok lib es
  end.

(** ** The networks *)
(** [torch.nn.Linear]: [rand] are the random initial weights (row 0: the bias). *)
Definition linear (rand : nat -> nat -> Q) (n_in n_out : nat) (with_bias : bool) : layer :=
  {| weight := map (fun i => map (rand (S i)) (seq 0 n_in)) (seq 0 n_out);
     bias := if with_bias then Some (map (rand 0) (seq 0 n_out)) else None |}.
Fixpoint linears (rand : nat -> nat -> nat -> Q) (k n_prev : nat) (sizes : list nat) (with_bias : bool) : list layer :=
  match sizes with
  | [] => []
  | m :: sizes => linear (rand k) n_prev m with_bias :: linears rand (S k) m sizes with_bias
  end.
Definition get_sizes (c : config) (f : string) : option (list nat) :=
  match get_raw c f with Some (YList l) => map_opt as_nat l | _ => None end.
Definition get_activations (c : config) (f : string) : option (list act) :=
  match getattr c f with Some (Activations l) => map_opt activation_fcn l | _ => None end.
(** certificate.py:77, 162, 332, 511, 719, 913, 1128; of the first network for the certificates with two: 1341, 1463. *)
Definition certificate_bias (ty : cert_type) : bool := match ty with LYAPUNOV | ROA | STABLESAFE => false | _ => true end.
(** learner.py:41-80: one layer per size, then one output.
    learner.py:131-135: an activation per hidden layer is needed (IndexError); further activations are
    not used there.  With LLO they are looked at (learner.py:61, 269-302 take the last of the list as
    that of the last hidden layer), which is not represented ([None]). *)
Definition learner_from (rand : nat -> nat -> nat -> Q) (c : config) (neurons activations : string) (with_bias : bool) (n : nat)
  : option network :=
  option_bind (get_sizes c neurons) (fun sizes =>
  option_bind (get_activations c activations) (fun acts =>
  if (length acts <? length sizes) then None else
  if (length sizes <? length acts) && match get_raw c "LLO" with Some y => truthy y | None => true end then None else
  let k := length sizes in
  Some {| in_size := n; hidden := combine (linears rand 0 n sizes with_bias) acts;
          last := linear (rand k) (List.last sizes n) 1 with_bias |})).
(** cegis.py:61-74, 392-399. *)
Definition learner_of (rand : nat -> nat -> nat -> Q) (c : config) (ty : cert_type) (n : nat) : option network :=
  learner_from rand c "N_HIDDEN_NEURONS" "ACTIVATION" (certificate_bias ty) n.
(** cegis.py:403-410: the second network; certificate.py:1341, 1463, 511: with biases. *)
Definition learner_alt_of (rand : nat -> nat -> nat -> Q) (c : config) (n : nat) : option network :=
  learner_from rand c "N_HIDDEN_NEURONS_ALT" "ACTIVATION_ALT" true n.
(** cegis.py:85-93, control.py:260-277; without CTRLAYER there is none (represented by empty lists).
    With one entry the loop over the layers never sets [k] (NameError). *)
Definition controller_of (rand : nat -> nat -> nat -> Q) (c : config) (n : nat) : option controller :=
  match get_raw c "CTRLAYER" with
  | Some YNull => Some {| k_acts := []; k_layers := [] |}
  | _ =>
      option_bind (get_sizes c "CTRLAYER") (fun sizes =>
      option_bind (get_activations c "CTRLACTIVATION") (fun acts =>
      if (length sizes <=? 1) then None else
      Some {| k_acts := acts; k_layers := linears rand 0 n sizes false |}))
  end.

(** [Cegis(parse_yaml_to_cegis_config(file))]. *)
Definition session_of (numpy : interp) (f1 f2 : nat) (rand randc : nat -> nat -> nat -> Q) (doc : document)
  : option (problem controller * network * controller) :=
  option_bind (read_config doc) (fun c =>
  option_bind (get_certificate_type c) (fun ty => option_bind (get_time c) (fun time =>
  option_bind (option_bind (get_verifier_type c) library_of) (fun '(lib, b) =>
  option_bind (option_bind (get_raw c "N_VARS") as_nat) (fun n =>
  option_bind (get_outputs c) (fun outputs =>
  option_bind (get_int c "ROUNDING") (fun rounding => option_bind (get_int c "CEGIS_MAX_ITERS") (fun iters =>
  option_bind (option_bind (read_system doc) (map_opt (parse_text f1 f2))) (fun es =>
  if negb (system_ok lib n es outputs) then None else
  option_bind (option_bind (read_section doc) read_domains) (fun domains =>
  option_bind (read_amounts doc) (fun amounts =>
  option_bind (parse_sets ty domains amounts) (fun '(data, domains) =>
  if negb (accepted time ty domains data) then None else
  option_bind (option_bind (initialise_domains ty domains) (formulas n)) (fun fs =>
  option_bind (learner_of rand c ty n) (fun net => option_bind (controller_of randc c n) (fun ctrl =>
  Some ({| pb_type := ty; pb_n := n; pb_llo := match get_raw c "LLO" with Some y => truthy y | None => true end;
          pb_quad := get_quad c; pb_discrete := match time with DISCRETE => true | CONTINUOUS => false end;
          pb_rounding := rounding; pb_max_iters := iters;
          pb_control := match outputs with None => false | Some _ => true end;
          pb_symb := b; pb_sets := lookup_set fs; pb_xdot := xdot_of lib b n es outputs;
          pb_f := torch_of numpy es outputs |}, net, ctrl)))))))))))))))).
(** cegis.py:361-411, 566-580 [Cegis] with a certificate of two functions: [DoubleCegis]. *)
Definition session2_of (numpy : interp) (f1 f2 : nat) (rand rand2 randc : nat -> nat -> nat -> Q) (doc : document)
  : option (problem controller * network * network * controller) :=
  option_bind (session_of numpy f1 f2 rand randc doc) (fun '(pb, net, ctrl) =>
  match pb_type pb with
  | STABLESAFE | RAR =>
      option_bind (read_config doc) (fun c => option_bind (learner_alt_of rand2 c (pb_n pb)) (fun net2 =>
      Some (pb, net, net2, ctrl)))
  | _ => None
  end).
