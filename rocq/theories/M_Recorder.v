(** Model of the result recorder (fossil/analysis.py) and its name tables
    (fossil/consts.py:250-287).  No proofs in this file.
    Simplifications: the LaTeX and domain strings are given by the configuration (they
    may raise); a csv file is a list of rows; Enum members are their names. *)
From Coq Require Import List String Bool Arith QArith.
From Verif Require Import M_Activations M_Cegis.
Import ListNotations.
Local Open Scope string_scope.

(** consts.py:250-274 [ACTIVATION_NAMES]; a missing key raises KeyError. *)
Definition activation_name (t : act_type) : option string :=
  match t with
  | IDENTITY => Some "identity"
  | RELU => Some "$ReLU$"
  | LINEAR => Some "$\varphi_{1}$"
  | SQUARE | POLY_2 => Some "$\varphi_{2}$"
  | RELU_SQUARE | REQU => Some "$ReLU\varphi_{2}$"
  | POLY_3 => Some "$\varphi_{3}$"
  | POLY_4 | EVEN_POLY_4 => Some "$\varphi_{4}$"
  | POLY_5 => Some "$\varphi_{5}$"
  | POLY_6 | EVEN_POLY_6 => Some "$\varphi_{6}$"
  | POLY_7 => Some "$\varphi_{7}$"
  | POLY_8 | EVEN_POLY_8 => Some "$\varphi_{8}$"
  | EVEN_POLY_10 => Some "$\varphi_{10}$"
  | RATIONAL => Some "$\varphi_{rat}$"
  | TANH => Some "$\sigma_{\mathrm{t}}$"
  | TANH_SQUARE => Some "$\sigma_{\mathrm{t}}^{2}$"
  | SIGMOID => Some "$\sigma_{\mathrm{sig}}$"
  | SOFTPLUS => Some "$\sigma_{\mathrm{soft}}$"
  | COSH => Some "$cosh$"
  | SHIFTED_SOFTPLUS | SHIFTED_SOFTPLUS_SQUARE => None
  end.
(** consts.py:276-287 [PROPERTIES]. *)
Definition property_name (c : cert_type) : option string :=
  match c with
  | LYAPUNOV => Some "Stability"
  | ROA => Some "ROA"
  | BARRIER | BARRIERALT => Some "Safety"
  | RAR => Some "RAR"
  | RWA | RWS => Some "RWA"
  | RSWA | RSWS => Some "RSWA"
  | STABLESAFE => Some "SWA"
  | CUSTOM => None
  end.

(** analysis.py:87-88 [get_activations]. *)
Fixpoint all_some {A} (l : list (option A)) : option (list A) :=
  match l with
  | [] => Some []
  | None :: _ => None
  | Some a :: l => option_bind (all_some l) (fun l => Some (a :: l))
  end.
Definition get_activations (acts : list act_type) : option string :=
  option_bind (all_some (map activation_name acts)) (fun names =>
  Some ("[" ++ String.concat "," names ++ "]")).

(** A cell of the table. *)
Inductive value :=
| VStr (s : string) | VNat (n : nat) | VBool (b : bool) | VNum (q : Q)
| VNats (l : list nat) | VActs (l : list act_type) | VNone.

(** The fields of CegisConfig read by the recorder, and the strings computed from the
    system and domains (analysis.py:78-84, 328-433; [None]: an exception). *)
Record rconfig := {
  rc_certificate : cert_type; rc_n_vars : nat; rc_neurons : list nat; rc_activation : list act_type;
  rc_ctrlayer : option (list nat); rc_ctrlactivation : list act_type;
  rc_neurons_alt : list nat; rc_activation_alt : list act_type;
  rc_factors : string; rc_llo : bool; rc_symmetric_belt : bool; rc_time_domain : string; rc_verifier : string;
  rc_model_name : option string; rc_latex : option string; rc_domains : option string
}.
(** cegis.py:25-36 [Result] and [CegisStats]. *)
Record rresult := { rr_res : bool; rr_iters : nat; rr_N_data : nat; rr_times : list Q; rr_seed : nat }.

(** analysis.py:43-70 [HEADER]. *)
Definition HEADER : list string := [
  "Certificate"; "N_s"; "N_u"; "Result"; "Benchmark_file"; "seed"; "latex"; "domains"; "N_Data"; "Neurons";
  "Activations"; "Ctrl_Neurons"; "Ctrl_Activations"; "Alt_Neurons"; "Alt_Activations"; "Factors"; "LLO";
  "Symmetric_Belt"; "Time_Domain"; "Verifier"; "Loops"; "Total_Time"; "Learner_Time"; "Translator_Time";
  "Verifier_Time"; "Consolidator_Time"].

(** analysis.py:155-218 [Recorder.record]: the row; [None]: an exception. *)
Definition record_row (c : rconfig) (r : rresult) (T : Q) : option (list value) :=
  option_bind (rc_model_name c) (fun model_name =>
  (* 169-176; an empty CTRLAYER has no [-1] *)
  option_bind (match rc_ctrlayer c with
               | Some l => match rev l with
                           | [] => None
                           | m :: _ => Some (VNat m, VNats (removelast l), VActs (rc_ctrlactivation c))
                           end
               | None => Some (VNat 0, VNone, VNone)
               end) (fun '(N_u, ctrlayer, ctrl_act) =>
  (* 178-187 *)
  option_bind (match rc_certificate c with
               | STABLESAFE | RAR =>
                   option_bind (get_activations (rc_activation_alt c)) (fun s => Some (VNats (rc_neurons_alt c), VStr s))
               | _ => Some (VNone, VNone)
               end) (fun '(alt_layers, alt_act) =>
  option_bind (rc_latex c) (fun latex =>
  option_bind (rc_domains c) (fun domains =>
  option_bind (property_name (rc_certificate c)) (fun prop =>
  option_bind (get_activations (rc_activation c)) (fun acts =>
  match rr_times r with
  | t0 :: t1 :: t2 :: t3 :: _ =>
      Some [VStr prop; VNat (rc_n_vars c); N_u; VBool (rr_res r); VStr model_name; VNat (rr_seed r);
            VStr latex; VStr domains; VNat (rr_N_data r); VNats (rc_neurons c); VStr acts; ctrlayer; ctrl_act;
            alt_layers; alt_act; VStr (rc_factors c); VBool (rc_llo c); VBool (rc_symmetric_belt c);
            VStr (rc_time_domain c); VStr (rc_verifier c); VNat (rr_iters r); VNum T;
            VNum t0; VNum t1; VNum t2; VNum t3]
  | _ => None
  end))))))).

(** analysis.py:95-131 [CSVWriter]: a file is absent or a list of rows; the header is
    written when the file is created, rows of any length are appended. *)
Definition file := option (list (list value)).
Definition csv_writer (headers : list string) (f : file) : file :=
  match f with None => Some [map VStr headers] | Some rows => Some rows end.
Definition write_row (row : list value) (f : file) : file :=
  match f with None => Some [row] | Some rows => Some (rows ++ [row])%list end.
(** analysis.py:155-221 [Recorder.record] on the results file; an exception leaves the
    file as it was (the writer is created last). *)
Definition record (c : rconfig) (r : rresult) (T : Q) (f : file) : file * bool :=
  match record_row c r T with
  | Some row => (write_row row (csv_writer HEADER f), true)
  | None => (f, false)
  end.
