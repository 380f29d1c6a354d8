(** Model of the choice of components: cegis.py:39-154, 348-358, 374-437, 566-580, learner.py:489-499,
    translator.py:358-381, verifier.py:507-512, 597-673, parser.py:610-624.  No proofs in this file.

    [None] is an exception.  The classes are names here; what they do is modelled elsewhere
    (M_Fossil, M_Double, M_Network, M_Verifier, M_Parser), except the dummy verifier, below. *)
From Coq Require Import List Bool Arith.
From Verif Require Import M_Activations M_Cegis M_Labels M_Network M_Fossil M_Double M_Parser M_Cli.
Import ListNotations.

(** learner.py:489-499 [get_learner]; both time domains are covered, so the ValueError is never reached. *)
Inductive learner_class := LearnerCT | LearnerDT | CtrlLearnerCT | CtrlLearnerDT.
Definition get_learner (time : time_domain) (ctrl : bool) : learner_class :=
  match ctrl, time with
  | true, CONTINUOUS => CtrlLearnerCT
  | true, DISCRETE => CtrlLearnerDT
  | false, CONTINUOUS => LearnerCT
  | false, DISCRETE => LearnerDT
  end.

(** translator.py:358-370 [get_translator_type]. *)
Inductive translator_class := MarabouTranslator | TranslatorDT | TranslatorCT | TranslatorCTDouble.
Definition get_translator_type (time : time_domain) (v : verifier_type) : option translator_class :=
  match v, time with
  | VMARABOU, CONTINUOUS => None
  | VMARABOU, DISCRETE => Some MarabouTranslator
  | _, DISCRETE => Some TranslatorDT
  | _, CONTINUOUS => Some TranslatorCT
  end.

(** verifier.py:648-660 [get_verifier_type]. *)
Inductive verifier_class := VerifierDReal | VerifierZ3 | VerifierCVC5 | VerifierMarabou | VerifierNone.
Definition get_verifier_class (v : verifier_type) : verifier_class :=
  match v with
  | VDREAL => VerifierDReal | VZ3 => VerifierZ3 | VCVC5 => VerifierCVC5
  | VMARABOU => VerifierMarabou | VNONE => VerifierNone
  end.
(** verifier.py:663-673 [get_verifier]: the constructor; verifier.py:508-510: the one of VerifierMarabou
    reads [CegisConfig.INNER_RADIUS], which does not exist (consts.py:169-216): AttributeError. *)
Definition get_verifier (w : verifier_class) : option verifier_class :=
  match w with VerifierMarabou => None | _ => Some w end.

(** parser.py:610-624 [get_parser_from_verifier]. *)
Inductive parser_class := DrealParser | Z3Parser | CVC5Parser | SympyParser.
Definition get_parser_from_verifier (v : verifier_type) : option parser_class :=
  match v with
  | VDREAL => Some DrealParser | VZ3 => Some Z3Parser | VCVC5 => Some CVC5Parser | VNONE => Some SympyParser
  | VMARABOU => None
  end.

(** cegis.py:566-580 [Cegis.__new__]. *)
Inductive cegis_class := SingleCegis | DoubleCegis.
Definition get_cegis (ty : cert_type) : cegis_class :=
  match ty with STABLESAFE | RAR => DoubleCegis | _ => SingleCegis end.

(** certificate.py:1683-1709 [get_certificate] with cegis.py:126-134, 378-385. *)
Inductive certificate_class := Lyapunov | ROACert | Barrier | BarrierAlt | RWSCert | RSWSCert | SafeROA | ReachAvoidRemain | UserCertificate.
Definition get_certificate (ty : cert_type) (custom : bool) : option certificate_class :=
  match ty with
  | LYAPUNOV => Some Lyapunov | ROA => Some ROACert | BARRIER => Some Barrier | BARRIERALT => Some BarrierAlt
  | RWS | RWA => Some RWSCert | RSWS | RSWA => Some RSWSCert
  | STABLESAFE => Some SafeROA | RAR => Some ReachAvoidRemain
  | CUSTOM => if custom then Some UserCertificate else None
  end.

(** cegis.py:40-55: what is built from a configuration ([time_ok], M_Labels, is cegis.py:351-355). *)
Record built := {
  b_cegis : cegis_class; b_certificate : certificate_class; b_learner : learner_class;
  b_verifier : verifier_class; b_translator : translator_class
}.
Definition build (ty : cert_type) (custom : bool) (time : time_domain) (v : verifier_type) (ctrl : bool) : option built :=
  option_bind (get_certificate ty custom) (fun cert =>
  option_bind (get_verifier (get_verifier_class v)) (fun w =>
  option_bind (match get_cegis ty with
               | SingleCegis => get_translator_type time v
               | DoubleCegis => Some TranslatorCTDouble (* cegis.py:428-437 *)
               end) (fun t =>
  if time_ok time ty
  then Some {| b_cegis := get_cegis ty; b_certificate := cert; b_learner := get_learner time ctrl;
               b_verifier := w; b_translator := t |}
  else None))).

(** verifier.py:597-645 [VerifierNone]: found, and an empty dictionary of counterexamples, without looking
    at the candidate.  Its [solver_fncts] mentions [sp.If], which sympy does not have, so the sublevel
    search (certificate.py:1257) raises AttributeError. *)
Definition without_verifier {P C} (k : components P C) : components P C :=
  {| c_type := c_type k; c_double := c_double k; c_control := c_control k; c_max_iters := c_max_iters k;
     c_f := c_f k; c_learn := c_learn k; c_translate := c_translate k;
     c_verify := fun _ _ _ => Some (true, []);
     c_trajectory := c_trajectory k; c_stay := fun _ _ _ => None; c_estimate_beta := c_estimate_beta k |}.
(** [Cegis(config).solve()] with VERIFIER = NONE. *)
Definition run_fossil_none {K} (pb : problem K) (env : environment K) (fuel : nat) (random : network) (ctrl : K) (S : dict) :=
  solve (without_verifier (fossil pb env)) fuel (initial pb random ctrl) S.
Definition run_double_none {K} (pb : problem K) (env : environment2 K) (fuel : nat) (random1 random2 : network) (ctrl : K) (S : dict) :=
  if pb_discrete pb then Some None else solve (without_verifier (double pb env)) fuel (initial2 pb random1 random2 ctrl) S.
