(** Model of fossil/cli.py:26-47, 206-269: reading a configuration file.  No proofs in this file.

    [yaml] is what [yaml.safe_load] returns (the YAML syntax itself is an external library);
    [None] is an exception.  Simplifications: [str.upper] on ASCII characters; the
    attributes every Python object has ([__class__], ...) are not names of fields; a file
    whose top level is not a dictionary is not represented. *)
From Coq Require Import String Ascii QArith List Bool Arith ZArith.
From Verif Require Import M_Certificates M_Verifier M_Activations M_Cegis M_Labels M_DomainParser M_Parser.
Import ListNotations.
Local Open Scope string_scope.
Local Open Scope list_scope.

Inductive yaml :=
| YNull | YBool (b : bool) | YInt (z : Z) | YNum (q : Q) | YInf | YStr (s : string)
| YList (l : list yaml) | YMap (d : list (string * yaml)).
(** A file: its fields, in order, with distinct names. *)
Definition document := list (string * yaml).

(** [str.upper]. *)
Definition upper_char (c : ascii) : ascii :=
  let n := nat_of_ascii c in
  if ((97 <=? n) && (n <=? 122))%nat then ascii_of_nat (n - 32) else c.
Fixpoint upper (s : string) : string :=
  match s with EmptyString => EmptyString | String c s => String (upper_char c) (upper s) end.

Definition assoc {A} (k : string) (l : list (string * A)) : option A :=
  option_map snd (find (fun p => String.eqb (fst p) k) l).

(** consts.py:54-59, 73-75 [VerifierType], [LearningFactors]. *)
Inductive verifier_type := VZ3 | VDREAL | VCVC5 | VMARABOU | VNONE.
Inductive learning_factors := QUADRATIC | NO_FACTORS.

(** The names of the members: consts.py:20-46, 54-59, 73-80, 100-111. *)
Definition certificate_names : list (string * cert_type) :=
  [("BARRIER", BARRIER); ("BARRIERALT", BARRIERALT); ("LYAPUNOV", LYAPUNOV); ("ROA", ROA); ("RWA", RWA);
   ("RSWA", RSWA); ("RWS", RWS); ("RSWS", RSWS); ("STABLESAFE", STABLESAFE); ("RAR", RAR); ("CUSTOM", CUSTOM)].
Definition time_names : list (string * time_domain) := [("CONTINUOUS", CONTINUOUS); ("DISCRETE", DISCRETE)].
Definition verifier_names : list (string * verifier_type) :=
  [("Z3", VZ3); ("DREAL", VDREAL); ("CVC5", VCVC5); ("MARABOU", VMARABOU); ("NONE", VNONE)].
Definition factor_names : list (string * learning_factors) := [("QUADRATIC", QUADRATIC); ("NONE", NO_FACTORS)].
Definition activation_names : list (string * act_type) :=
  [("IDENTITY", IDENTITY); ("RELU", RELU); ("LINEAR", LINEAR); ("SQUARE", SQUARE); ("POLY_2", POLY_2);
   ("RELU_SQUARE", RELU_SQUARE); ("REQU", REQU); ("POLY_3", POLY_3); ("POLY_4", POLY_4); ("POLY_5", POLY_5);
   ("POLY_6", POLY_6); ("POLY_7", POLY_7); ("POLY_8", POLY_8); ("EVEN_POLY_4", EVEN_POLY_4);
   ("EVEN_POLY_6", EVEN_POLY_6); ("EVEN_POLY_8", EVEN_POLY_8); ("EVEN_POLY_10", EVEN_POLY_10);
   ("RATIONAL", RATIONAL); ("TANH", TANH); ("TANH_SQUARE", TANH_SQUARE); ("SIGMOID", SIGMOID);
   ("SOFTPLUS", SOFTPLUS); ("SHIFTED_SOFTPLUS", SHIFTED_SOFTPLUS);
   ("SHIFTED_SOFTPLUS_SQUARE", SHIFTED_SOFTPLUS_SQUARE); ("COSH", COSH)].

(** cli.py:26-40 [string_to_enum_value]: [value.upper()] needs a string. *)
Definition string_to_enum_value {A} (names : list (string * A)) (value : yaml) : option A :=
  match value with YStr s => assoc (upper s) names | _ => None end.
(** Iterating over a value: a dictionary gives its keys, a string its characters. *)
Definition iterate (value : yaml) : option (list yaml) :=
  match value with
  | YList l => Some l
  | YStr s => Some (map (fun c => YStr (String c EmptyString)) (list_ascii_of_string s))
  | YMap d => Some (map (fun p => YStr (fst p)) d)
  | _ => None
  end.
(** cli.py:42-47 [read_activations]. *)
Definition read_activations (value : yaml) : option (list act_type) :=
  option_bind (iterate value) (map_opt (string_to_enum_value activation_names)).

(** The value of an attribute of the configuration. *)
Inductive attribute :=
| Raw (y : yaml) | Certificate (c : cert_type) | Time (t : time_domain) | Verifier (v : verifier_type)
| Factors (f : learning_factors) | Activations (l : list act_type).
Definition config := list (string * attribute).
Definition getattr (c : config) (field : string) : option attribute := assoc field c.
Definition setattr (c : config) (field : string) (a : attribute) : config :=
  map (fun p => if String.eqb (fst p) field then (fst p, a) else p) c.
Definition hasattr (c : config) (field : string) : bool := existsb (fun p => String.eqb (fst p) field) c.

(** consts.py:169-216 [CegisConfig()]. *)
Definition default_config : config :=
  [("SYSTEM", Raw YNull); ("N_VARS", Raw (YInt 0)); ("CERTIFICATE", Certificate LYAPUNOV); ("DOMAINS", Raw YNull);
   ("DATA", Raw YNull); ("TIME_DOMAIN", Time CONTINUOUS); ("VERIFIER", Verifier VZ3);
   ("N_DATA", Raw (YInt 500)); ("CEGIS_MAX_ITERS", Raw (YInt 10)); ("CEGIS_MAX_TIME_S", Raw YInf);
   ("SEED", Raw YNull); ("CUSTOM_CERTIFICATE", Raw YNull);
   ("N_HIDDEN_NEURONS", Raw (YList [YInt 10])); ("ACTIVATION", Activations [SQUARE]); ("CTRLAYER", Raw YNull);
   ("CTRLACTIVATION", Raw YNull); ("N_HIDDEN_NEURONS_ALT", Raw (YList [YInt 10])); ("ACTIVATION_ALT", Activations [SQUARE]);
   ("PRECISION", Raw (YNum (1 # 100000))); ("DREAL_JOBS", Raw (YInt 1)); ("ROUNDING", Raw (YInt 3));
   ("LOSS_MARGIN", Raw (YList [YInt 0; YInt 0])); ("ACCURACY_MARGIN", Raw (YList [YInt 0; YInt 0]));
   ("SYMMETRIC_BELT", Raw (YBool false)); ("LEARNING_RATE", Raw (YNum (1 # 10))); ("FACTORS", Factors NO_FACTORS);
   ("LLO", Raw (YBool false)); ("VERBOSE", Raw (YInt 0)); ("ENET", Raw YNull); ("CANDIDATE", Raw YNull)].

(** cli.py:251-269 [ENUM_ATTR_MAP], [enum_type_map]; 224-231: the other fields are stored as they are. *)
Definition convert_field (field : string) (value : yaml) : option attribute :=
  if String.eqb field "CERTIFICATE" then option_map Certificate (string_to_enum_value certificate_names value)
  else if String.eqb field "TIME_DOMAIN" then option_map Time (string_to_enum_value time_names value)
  else if String.eqb field "VERIFIER" then option_map Verifier (string_to_enum_value verifier_names value)
  else if String.eqb field "FACTORS" then option_map Factors (string_to_enum_value factor_names value)
  else if String.eqb field "ACTIVATION" || String.eqb field "CTRLACTIVATION" || String.eqb field "ACTIVATION_ALT"
  then option_map Activations (read_activations value)
  else Some (Raw value).

(** cli.py:220-233: the loop over the fields; an unknown field only gives a warning. *)
Fixpoint read_fields (doc : document) (c : config) : option config :=
  match doc with
  | [] => Some c
  | (field, value) :: doc =>
      if hasattr c field
      then option_bind (convert_field field value) (fun a => read_fields doc (setattr c field a))
      else read_fields doc c
  end.
(** cli.py:206-218: the required fields. *)
Definition required_fields : list string := ["SYSTEM"; "CERTIFICATE"; "DOMAINS"; "TIME_DOMAIN"].
Definition present (doc : document) (field : string) : bool := existsb (fun p => String.eqb (fst p) field) doc.
Definition read_config (doc : document) : option config :=
  if forallb (present doc) required_fields then read_fields doc default_config else None.

(** ** The system, the sets and the data: cli.py:235-248 *)
Definition as_string (y : yaml) : option string := match y with YStr s => Some s | _ => None end.
Definition as_nat (y : yaml) : option nat :=
  match y with YInt z => if (0 <=? z)%Z then Some (Z.to_nat z) else None | _ => None end.
(** [config_data["SYSTEM"]]: parser.py:71 iterates over it. *)
Definition read_system (doc : document) : option (list string) :=
  option_bind (assoc "SYSTEM" doc) (fun y => option_bind (iterate y) (map_opt as_string)).
(** [config_data["DOMAINS"].items()]. *)
Definition read_section (doc : document) : option (list (string * string)) :=
  option_bind (assoc "DOMAINS" doc) (fun y =>
    match y with YMap d => map_opt (fun p => option_map (pair (fst p)) (as_string (snd p))) d | _ => None end).
(** [config_data["N_DATA"]]: KeyError if it is missing; a number of samples that is not a natural
    number fails when the data are generated. *)
Definition read_amounts (doc : document) : option n_data :=
  option_bind (assoc "N_DATA" doc) (fun y =>
    match y with
    | YMap d => option_map PerSet (map_opt (fun p => option_bind (label_of_name (fst p)) (fun l => option_map (pair l) (as_nat (snd p)))) d)
    | _ => option_map Scalar (as_nat y)
    end).
