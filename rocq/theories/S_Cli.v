(** Specification: what the fields of a configuration file mean (user-guide.md). *)
From Coq Require Import String Ascii List Arith.
From Verif Require Import M_Certificates M_Verifier M_Activations M_Cegis M_Labels M_Cli.
Import ListNotations.
Local Open Scope string_scope.

(** [s] is the word [w] (in capitals), with some letters in lower case. *)
Definition letter (a b : ascii) : Prop :=
  a = b \/ (65 <= nat_of_ascii b <= 90 /\ nat_of_ascii a = nat_of_ascii b + 32)%nat.
Definition spelled (s w : string) : Prop := Forall2 letter (list_ascii_of_string s) (list_ascii_of_string w).

Definition certificate_name (c : cert_type) : string :=
  match c with
  | BARRIER => "BARRIER" | BARRIERALT => "BARRIERALT" | LYAPUNOV => "LYAPUNOV" | ROA => "ROA" | RWA => "RWA"
  | RSWA => "RSWA" | RWS => "RWS" | RSWS => "RSWS" | STABLESAFE => "STABLESAFE" | RAR => "RAR" | CUSTOM => "CUSTOM"
  end.
Definition time_name (t : time_domain) : string := match t with CONTINUOUS => "CONTINUOUS" | DISCRETE => "DISCRETE" end.
Definition verifier_name (v : verifier_type) : string :=
  match v with VZ3 => "Z3" | VDREAL => "DREAL" | VCVC5 => "CVC5" | VMARABOU => "MARABOU" | VNONE => "NONE" end.
Definition factor_name (f : learning_factors) : string := match f with QUADRATIC => "QUADRATIC" | NO_FACTORS => "NONE" end.
Definition activation_name (a : act_type) : string :=
  match a with
  | IDENTITY => "IDENTITY" | RELU => "RELU" | LINEAR => "LINEAR" | SQUARE => "SQUARE" | POLY_2 => "POLY_2"
  | RELU_SQUARE => "RELU_SQUARE" | REQU => "REQU" | POLY_3 => "POLY_3" | POLY_4 => "POLY_4" | POLY_5 => "POLY_5"
  | POLY_6 => "POLY_6" | POLY_7 => "POLY_7" | POLY_8 => "POLY_8" | EVEN_POLY_4 => "EVEN_POLY_4"
  | EVEN_POLY_6 => "EVEN_POLY_6" | EVEN_POLY_8 => "EVEN_POLY_8" | EVEN_POLY_10 => "EVEN_POLY_10"
  | RATIONAL => "RATIONAL" | TANH => "TANH" | TANH_SQUARE => "TANH_SQUARE" | SIGMOID => "SIGMOID"
  | SOFTPLUS => "SOFTPLUS" | SHIFTED_SOFTPLUS => "SHIFTED_SOFTPLUS"
  | SHIFTED_SOFTPLUS_SQUARE => "SHIFTED_SOFTPLUS_SQUARE" | COSH => "COSH"
  end.

(** The fields that name a choice; every other field keeps its value. *)
Definition activation_fields : list string := ["ACTIVATION"; "CTRLACTIVATION"; "ACTIVATION_ALT"].
Definition choice_fields : list string := ["CERTIFICATE"; "TIME_DOMAIN"; "VERIFIER"; "FACTORS"] ++ activation_fields.

(** The setting a field stands for. *)
Inductive means : string -> yaml -> attribute -> Prop :=
| means_certificate s c : spelled s (certificate_name c) -> means "CERTIFICATE" (YStr s) (Certificate c)
| means_time s t : spelled s (time_name t) -> means "TIME_DOMAIN" (YStr s) (Time t)
| means_verifier s v : spelled s (verifier_name v) -> means "VERIFIER" (YStr s) (Verifier v)
| means_factors s f : spelled s (factor_name f) -> means "FACTORS" (YStr s) (Factors f)
| means_activations field ss l : In field activation_fields ->
    Forall2 (fun s a => spelled s (activation_name a)) ss l -> means field (YList (map YStr ss)) (Activations l)
| means_plain field v : ~ In field choice_fields -> means field v (Raw v).

(** The names of the settings (consts.py:169-216). *)
Definition settings : list string :=
  ["SYSTEM"; "N_VARS"; "CERTIFICATE"; "DOMAINS"; "DATA"; "TIME_DOMAIN"; "VERIFIER"; "N_DATA"; "CEGIS_MAX_ITERS";
   "CEGIS_MAX_TIME_S"; "SEED"; "CUSTOM_CERTIFICATE"; "N_HIDDEN_NEURONS"; "ACTIVATION"; "CTRLAYER"; "CTRLACTIVATION";
   "N_HIDDEN_NEURONS_ALT"; "ACTIVATION_ALT"; "PRECISION"; "DREAL_JOBS"; "ROUNDING"; "LOSS_MARGIN"; "ACCURACY_MARGIN";
   "SYMMETRIC_BELT"; "LEARNING_RATE"; "FACTORS"; "LLO"; "VERBOSE"; "ENET"; "CANDIDATE"].

(** The file gives [field] the value [v]. *)
Definition gives (doc : document) (field : string) (v : yaml) : Prop := In (field, v) doc.
