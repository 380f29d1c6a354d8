(** The scripts of experiments/benchmarks/, translated by tools/gen_scripts.py from the source text: local
    names are replaced by their values, decimal literals are exact, [np.pi] is the double it stands for,
    the sets are those passed as DOMAINS, and of DATA only the labels are kept.  No proofs in this file.
    Not translated: the scripts in archive/. *)
From Coq Require Import String QArith ZArith List.
From Verif Require Import M_Syntax M_Certificates M_Verifier M_Labels M_Activations M_Domains M_Cegis M_Control M_Cli M_Dispatch M_Model M_Benchmarks M_Experiment.
Import ListNotations.
Local Open Scope string_scope.
Local Open Scope Q_scope.
Local Open Scope nat_scope.

(** experiments/benchmarks/rwa/ctrl_rwa_1.py:16-72. *)
Definition script_ctrl_rwa_1 : script :=
  {| x_file := "rwa/ctrl_rwa_1.py"; x_system := Some Linear1; x_n := 2;
     x_type := RWS; x_time := CONTINUOUS; x_verifier := VDREAL;
     x_domains := [(XD, (Shipped (Rect [((-3) # 2); ((-3) # 2)]%Q [(3 # 2); (3 # 2)]%Q)));
      (XI, (Shipped (Rect [((-1) # 2); ((-1) # 2)]%Q [(1 # 2); (1 # 2)]%Q)));
      (XS_BORDER, (Shipped (Rect [((-1) # 1); ((-1) # 1)]%Q [(1 # 1); (1 # 1)]%Q)));
      (XS, (Shipped (Rect [((-1) # 1); ((-1) # 1)]%Q [(1 # 1); (1 # 1)]%Q)));
      (XG, (Shipped (Rect [((-1) # 10); ((-1) # 10)]%Q [(1 # 10); (1 # 10)]%Q)))];
     x_data := [XD; XI; XU];
     x_hidden := [5]; x_acts := [SQUARE];
     x_hidden_alt := default_hidden_alt; x_acts_alt := default_acts_alt;
     x_ctrl := (Some ([8; 1], [LINEAR])); x_llo := false; x_max_iters := 25 |}.

(** experiments/benchmarks/rwa/ctrl_rwa_2.py:20-74. *)
Definition script_ctrl_rwa_2 : script :=
  {| x_file := "rwa/ctrl_rwa_2.py"; x_system := Some SecondOrder; x_n := 2;
     x_type := RWS; x_time := CONTINUOUS; x_verifier := VDREAL;
     x_domains := [(XD, (Shipped (Rect [((-3) # 2); ((-3) # 2)]%Q [(3 # 2); (3 # 2)]%Q)));
      (XI, (Shipped (Rect [((-1) # 2); ((-1) # 2)]%Q [(1 # 2); (1 # 2)]%Q)));
      (XS_BORDER, (Shipped (Rect [((-1) # 1); ((-1) # 1)]%Q [(1 # 1); (1 # 1)]%Q)));
      (XS, (Shipped (Rect [((-1) # 1); ((-1) # 1)]%Q [(1 # 1); (1 # 1)]%Q)));
      (XG, (Shipped (Rect [((-1) # 20); ((-1) # 20)]%Q [(1 # 20); (1 # 20)]%Q)))];
     x_data := [XD; XI; XU];
     x_hidden := [8]; x_acts := [SQUARE];
     x_hidden_alt := default_hidden_alt; x_acts_alt := default_acts_alt;
     x_ctrl := (Some ([8; 1], [LINEAR])); x_llo := false; x_max_iters := 25 |}.

(** experiments/benchmarks/rwa/ctrl_rwa_2_complex.py:20-77. *)
Definition script_ctrl_rwa_2_complex : script :=
  {| x_file := "rwa/ctrl_rwa_2_complex.py"; x_system := Some SecondOrder; x_n := 2;
     x_type := RWS; x_time := CONTINUOUS; x_verifier := VDREAL;
     x_domains := [(XD, (Shipped (Rect [((-2) # 1); ((-2) # 1)]%Q [(2 # 1); (2 # 1)]%Q)));
      (XI, (Shipped (Rect [((-3) # 5); ((-3) # 5)]%Q [((-1) # 5); ((-1) # 5)]%Q)));
      (XS_BORDER, (Shipped (MinusS (Rect [((-3) # 2); ((-3) # 2)]%Q [(3 # 2); (3 # 2)]%Q) (OpenSph [(3 # 5); (3 # 5)]%Q (3 # 10) None))));
      (XS, (Shipped (MinusS (Rect [((-3) # 2); ((-3) # 2)]%Q [(3 # 2); (3 # 2)]%Q) (OpenSph [(3 # 5); (3 # 5)]%Q (3 # 10) None))));
      (XG, (Shipped (Rect [((-1) # 20); ((-1) # 20)]%Q [(1 # 20); (1 # 20)]%Q)))];
     x_data := [XD; XI; XU];
     x_hidden := [8; 8]; x_acts := [SIGMOID; SQUARE];
     x_hidden_alt := default_hidden_alt; x_acts_alt := default_acts_alt;
     x_ctrl := (Some ([8; 1], [LINEAR])); x_llo := false; x_max_iters := 25 |}.

(** experiments/benchmarks/rwa/ctrl_rwa_3.py:15-73. *)
Definition script_ctrl_rwa_3 : script :=
  {| x_file := "rwa/ctrl_rwa_3.py"; x_system := Some ThirdOrder; x_n := 3;
     x_type := RWS; x_time := CONTINUOUS; x_verifier := VDREAL;
     x_domains := [(XD, (Shipped (Rect [((-6) # 1); ((-6) # 1); ((-6) # 1)]%Q [(6 # 1); (6 # 1); (6 # 1)]%Q)));
      (XI, (Shipped (Rect [((-6) # 5); ((-6) # 5); ((-6) # 5)]%Q [(6 # 5); (6 # 5); (6 # 5)]%Q)));
      (XS_BORDER, (Shipped (Rect [((-5) # 1); ((-5) # 1); ((-5) # 1)]%Q [(5 # 1); (5 # 1); (5 # 1)]%Q)));
      (XS, (Shipped (Rect [((-5) # 1); ((-5) # 1); ((-5) # 1)]%Q [(5 # 1); (5 # 1); (5 # 1)]%Q)));
      (XG, (Shipped (Rect [((-3) # 10); ((-3) # 10); ((-3) # 10)]%Q [(3 # 10); (3 # 10); (3 # 10)]%Q)))];
     x_data := [XD; XI; XU];
     x_hidden := [5]; x_acts := [SQUARE];
     x_hidden_alt := default_hidden_alt; x_acts_alt := default_acts_alt;
     x_ctrl := (Some ([8; 1], [LINEAR])); x_llo := false; x_max_iters := 25 |}.

(** experiments/benchmarks/rwa/ctrl_rwa_4.py:44-100. *)
Definition script_ctrl_rwa_4 : script :=
  {| x_file := "rwa/ctrl_rwa_4.py"; x_system := Some SecondOrder; x_n := 2;
     x_type := RWS; x_time := CONTINUOUS; x_verifier := VDREAL;
     x_domains := [(XD, (Shipped (Rect [((-3) # 2); ((-3) # 2)]%Q [(3 # 2); (3 # 2)]%Q)));
      (XI, (Shipped (Rect [((-1) # 2); ((-1) # 2)]%Q [((-1) # 10); ((-1) # 10)]%Q)));
      (XS_BORDER, (Shipped (MinusS (Rect [((-3) # 2); ((-3) # 2)]%Q [(3 # 2); (3 # 2)]%Q) (OpenSph [(1 # 2); (1 # 2)]%Q (1 # 5) None))));
      (XS, (Shipped (MinusS (Rect [((-3) # 2); ((-3) # 2)]%Q [(3 # 2); (3 # 2)]%Q) (OpenSph [(1 # 2); (1 # 2)]%Q (1 # 5) None))));
      (XG, (Shipped (Rect [((-1) # 20); ((-1) # 20)]%Q [(1 # 20); (1 # 20)]%Q)))];
     x_data := [XD; XI; XU];
     x_hidden := [4; 4]; x_acts := [SIGMOID; SQUARE];
     x_hidden_alt := default_hidden_alt; x_acts_alt := default_acts_alt;
     x_ctrl := (Some ([8; 1], [LINEAR])); x_llo := false; x_max_iters := 25 |}.

(** experiments/benchmarks/rwa/ctrl_rwa_inv_pend.py:15-68. *)
Definition script_ctrl_rwa_inv_pend : script :=
  {| x_file := "rwa/ctrl_rwa_inv_pend.py"; x_system := Some SineModel; x_n := 2;
     x_type := RWS; x_time := CONTINUOUS; x_verifier := VDREAL;
     x_domains := [(XD, (Shipped (Rect [((-3) # 1); ((-3) # 1)]%Q [(3 # 1); (3 # 1)]%Q)));
      (XI, (Shipped (Rect [((-3) # 5); ((-3) # 5)]%Q [(3 # 5); (3 # 5)]%Q)));
      (XS_BORDER, (Shipped (Rect [((-5) # 2); ((-5) # 2)]%Q [(5 # 2); (5 # 2)]%Q)));
      (XS, (Shipped (Rect [((-5) # 2); ((-5) # 2)]%Q [(5 # 2); (5 # 2)]%Q)));
      (XG, (Shipped (Rect [((-1) # 100); ((-1) # 100)]%Q [(1 # 100); (1 # 100)]%Q)))];
     x_data := [XD; XI; XU];
     x_hidden := [5]; x_acts := [SIGMOID];
     x_hidden_alt := default_hidden_alt; x_acts_alt := default_acts_alt;
     x_ctrl := (Some ([8; 2], [LINEAR])); x_llo := false; x_max_iters := 25 |}.

(** experiments/benchmarks/rwa/rwa_1.py:15-65. *)
Definition script_rwa_1 : script :=
  {| x_file := "rwa/rwa_1.py"; x_system := Some Linear1LQR; x_n := 2;
     x_type := RWS; x_time := CONTINUOUS; x_verifier := VDREAL;
     x_domains := [(XD, (Shipped (Rect [((-3) # 2); ((-3) # 2)]%Q [(3 # 2); (3 # 2)]%Q)));
      (XI, (Shipped (Rect [((-1) # 2); ((-1) # 2)]%Q [(1 # 2); (1 # 2)]%Q)));
      (XS_BORDER, (Shipped (Rect [((-1) # 1); ((-1) # 1)]%Q [(1 # 1); (1 # 1)]%Q)));
      (XS, (Shipped (Rect [((-1) # 1); ((-1) # 1)]%Q [(1 # 1); (1 # 1)]%Q)));
      (XG, (Shipped (Rect [((-1) # 10); ((-1) # 10)]%Q [(1 # 10); (1 # 10)]%Q)))];
     x_data := [XD; XI; XU];
     x_hidden := [4]; x_acts := [SQUARE];
     x_hidden_alt := default_hidden_alt; x_acts_alt := default_acts_alt;
     x_ctrl := None; x_llo := false; x_max_iters := 25 |}.

(** experiments/benchmarks/rwa/rwa_2.py:16-69. *)
Definition script_rwa_2 : script :=
  {| x_file := "rwa/rwa_2.py"; x_system := Some SecondOrderLQR; x_n := 2;
     x_type := RWS; x_time := CONTINUOUS; x_verifier := VDREAL;
     x_domains := [(XD, (Shipped (Rect [((-3) # 2); ((-3) # 2)]%Q [(3 # 2); (3 # 2)]%Q)));
      (XI, (Shipped (Rect [((-1) # 2); ((-1) # 2)]%Q [(1 # 2); (1 # 2)]%Q)));
      (XS_BORDER, (Shipped (Rect [((-1) # 1); ((-1) # 1)]%Q [(1 # 1); (1 # 1)]%Q)));
      (XS, (Shipped (Rect [((-1) # 1); ((-1) # 1)]%Q [(1 # 1); (1 # 1)]%Q)));
      (XG, (Shipped (Rect [((-1) # 20); ((-1) # 20)]%Q [(1 # 20); (1 # 20)]%Q)))];
     x_data := [XD; XI; XU];
     x_hidden := [4]; x_acts := [SQUARE];
     x_hidden_alt := default_hidden_alt; x_acts_alt := default_acts_alt;
     x_ctrl := None; x_llo := false; x_max_iters := 25 |}.

(** experiments/benchmarks/rwa/rwa_3.py:16-67. *)
Definition script_rwa_3 : script :=
  {| x_file := "rwa/rwa_3.py"; x_system := Some ThirdOrderLQR; x_n := 3;
     x_type := RWS; x_time := CONTINUOUS; x_verifier := VDREAL;
     x_domains := [(XD, (Shipped (Rect [((-6) # 1); ((-6) # 1); ((-6) # 1)]%Q [(6 # 1); (6 # 1); (6 # 1)]%Q)));
      (XI, (Shipped (Rect [((-6) # 5); ((-6) # 5); ((-6) # 5)]%Q [(6 # 5); (6 # 5); (6 # 5)]%Q)));
      (XS_BORDER, (Shipped (Rect [((-5) # 1); ((-5) # 1); ((-5) # 1)]%Q [(5 # 1); (5 # 1); (5 # 1)]%Q)));
      (XS, (Shipped (Rect [((-5) # 1); ((-5) # 1); ((-5) # 1)]%Q [(5 # 1); (5 # 1); (5 # 1)]%Q)));
      (XG, (Shipped (Rect [((-3) # 10); ((-3) # 10); ((-3) # 10)]%Q [(3 # 10); (3 # 10); (3 # 10)]%Q)))];
     x_data := [XD; XI; XU];
     x_hidden := [16]; x_acts := [SQUARE];
     x_hidden_alt := default_hidden_alt; x_acts_alt := default_acts_alt;
     x_ctrl := None; x_llo := false; x_max_iters := 25 |}.

(** experiments/benchmarks/rwa/rwa_inv_pend.py:15-64. *)
Definition script_rwa_inv_pend : script :=
  {| x_file := "rwa/rwa_inv_pend.py"; x_system := Some SineModelLQR; x_n := 2;
     x_type := RWS; x_time := CONTINUOUS; x_verifier := VDREAL;
     x_domains := [(XD, (Shipped (Rect [((-3) # 1); ((-3) # 1)]%Q [(3 # 1); (3 # 1)]%Q)));
      (XI, (Shipped (Rect [((-3) # 5); ((-3) # 5)]%Q [(3 # 5); (3 # 5)]%Q)));
      (XS_BORDER, (Shipped (Rect [((-5) # 2); ((-5) # 2)]%Q [(5 # 2); (5 # 2)]%Q)));
      (XS, (Shipped (Rect [((-5) # 2); ((-5) # 2)]%Q [(5 # 2); (5 # 2)]%Q)));
      (XG, (Shipped (Rect [((-3) # 10); ((-3) # 10)]%Q [(3 # 10); (3 # 10)]%Q)))];
     x_data := [XD; XI; XU];
     x_hidden := [5]; x_acts := [SQUARE];
     x_hidden_alt := default_hidden_alt; x_acts_alt := default_acts_alt;
     x_ctrl := None; x_llo := false; x_max_iters := 25 |}.

(** experiments/benchmarks/rswa/ctrl_rswa_1.py:16-76. *)
Definition script_ctrl_rswa_1 : script :=
  {| x_file := "rswa/ctrl_rswa_1.py"; x_system := Some Linear1; x_n := 2;
     x_type := RSWS; x_time := CONTINUOUS; x_verifier := VDREAL;
     x_domains := [(XD, (Shipped (Rect [((-3) # 2); ((-3) # 2)]%Q [(3 # 2); (3 # 2)]%Q)));
      (XI, (Shipped (Rect [((-1) # 2); ((-1) # 2)]%Q [(1 # 2); (1 # 2)]%Q)));
      (XS_BORDER, (Shipped (Rect [((-1) # 1); ((-1) # 1)]%Q [(1 # 1); (1 # 1)]%Q)));
      (XS, (Shipped (Rect [((-1) # 1); ((-1) # 1)]%Q [(1 # 1); (1 # 1)]%Q)));
      (XG, (Shipped (Rect [((-1) # 10); ((-1) # 10)]%Q [(1 # 10); (1 # 10)]%Q)));
      (XG_BORDER, (Shipped (Rect [((-1) # 10); ((-1) # 10)]%Q [(1 # 10); (1 # 10)]%Q)))];
     x_data := [XD; XI; XU; XS; XG_BORDER; XG];
     x_hidden := [5]; x_acts := [SQUARE];
     x_hidden_alt := default_hidden_alt; x_acts_alt := default_acts_alt;
     x_ctrl := (Some ([8; 1], [LINEAR])); x_llo := false; x_max_iters := 25 |}.

(** experiments/benchmarks/rswa/ctrl_rswa_2.py:20-79. *)
Definition script_ctrl_rswa_2 : script :=
  {| x_file := "rswa/ctrl_rswa_2.py"; x_system := Some SecondOrder; x_n := 2;
     x_type := RSWS; x_time := CONTINUOUS; x_verifier := VDREAL;
     x_domains := [(XD, (Shipped (Rect [((-3) # 2); ((-3) # 2)]%Q [(3 # 2); (3 # 2)]%Q)));
      (XI, (Shipped (Rect [((-1) # 2); ((-1) # 2)]%Q [(1 # 2); (1 # 2)]%Q)));
      (XS_BORDER, (Shipped (Rect [((-1) # 1); ((-1) # 1)]%Q [(1 # 1); (1 # 1)]%Q)));
      (XS, (Shipped (Rect [((-1) # 1); ((-1) # 1)]%Q [(1 # 1); (1 # 1)]%Q)));
      (XG_BORDER, (Shipped (Rect [((-1) # 20); ((-1) # 20)]%Q [(1 # 20); (1 # 20)]%Q)));
      (XG, (Shipped (Rect [((-1) # 20); ((-1) # 20)]%Q [(1 # 20); (1 # 20)]%Q)))];
     x_data := [XD; XI; XU; XS; XG_BORDER; XG];
     x_hidden := [8]; x_acts := [SQUARE];
     x_hidden_alt := default_hidden_alt; x_acts_alt := default_acts_alt;
     x_ctrl := (Some ([8; 1], [LINEAR])); x_llo := false; x_max_iters := 25 |}.

(** experiments/benchmarks/rswa/ctrl_rswa_3.py:15-75. *)
Definition script_ctrl_rswa_3 : script :=
  {| x_file := "rswa/ctrl_rswa_3.py"; x_system := Some ThirdOrder; x_n := 3;
     x_type := RSWS; x_time := CONTINUOUS; x_verifier := VDREAL;
     x_domains := [(XD, (Shipped (Rect [((-6) # 1); ((-6) # 1); ((-6) # 1)]%Q [(6 # 1); (6 # 1); (6 # 1)]%Q)));
      (XI, (Shipped (Rect [((-6) # 5); ((-6) # 5); ((-6) # 5)]%Q [(6 # 5); (6 # 5); (6 # 5)]%Q)));
      (XS_BORDER, (Shipped (Rect [((-5) # 1); ((-5) # 1); ((-5) # 1)]%Q [(5 # 1); (5 # 1); (5 # 1)]%Q)));
      (XS, (Shipped (Rect [((-5) # 1); ((-5) # 1); ((-5) # 1)]%Q [(5 # 1); (5 # 1); (5 # 1)]%Q)));
      (XG, (Shipped (Rect [((-3) # 10); ((-3) # 10); ((-3) # 10)]%Q [(3 # 10); (3 # 10); (3 # 10)]%Q)));
      (XG_BORDER, (Shipped (Rect [((-3) # 10); ((-3) # 10); ((-3) # 10)]%Q [(3 # 10); (3 # 10); (3 # 10)]%Q)))];
     x_data := [XD; XI; XU; XS; XG_BORDER; XG];
     x_hidden := [12]; x_acts := [SQUARE];
     x_hidden_alt := default_hidden_alt; x_acts_alt := default_acts_alt;
     x_ctrl := (Some ([8; 1], [LINEAR])); x_llo := false; x_max_iters := 25 |}.

(** experiments/benchmarks/rswa/ctrl_rswa_invpend.py:15-72. *)
Definition script_ctrl_rswa_invpend : script :=
  {| x_file := "rswa/ctrl_rswa_invpend.py"; x_system := Some SineModel; x_n := 2;
     x_type := RSWS; x_time := CONTINUOUS; x_verifier := VDREAL;
     x_domains := [(XD, (Shipped (Rect [((-3) # 1); ((-3) # 1)]%Q [(3 # 1); (3 # 1)]%Q)));
      (XI, (Shipped (Rect [((-3) # 5); ((-3) # 5)]%Q [(3 # 5); (3 # 5)]%Q)));
      (XS_BORDER, (Shipped (Rect [((-5) # 2); ((-5) # 2)]%Q [(5 # 2); (5 # 2)]%Q)));
      (XS, (Shipped (Rect [((-5) # 2); ((-5) # 2)]%Q [(5 # 2); (5 # 2)]%Q)));
      (XG, (Shipped (Rect [((-3) # 10); ((-3) # 10)]%Q [(3 # 10); (3 # 10)]%Q)));
      (XG_BORDER, (Shipped (Rect [((-3) # 10); ((-3) # 10)]%Q [(3 # 10); (3 # 10)]%Q)))];
     x_data := [XD; XI; XU; XS; XG_BORDER; XG];
     x_hidden := [5; 5]; x_acts := [SIGMOID; SQUARE];
     x_hidden_alt := default_hidden_alt; x_acts_alt := default_acts_alt;
     x_ctrl := (Some ([8; 2], [LINEAR])); x_llo := false; x_max_iters := 25 |}.

(** experiments/benchmarks/rswa/rswa_1.py:15-70. *)
Definition script_rswa_1 : script :=
  {| x_file := "rswa/rswa_1.py"; x_system := Some Linear1LQR; x_n := 2;
     x_type := RSWS; x_time := CONTINUOUS; x_verifier := VDREAL;
     x_domains := [(XD, (Shipped (Rect [((-3) # 2); ((-3) # 2)]%Q [(3 # 2); (3 # 2)]%Q)));
      (XI, (Shipped (Rect [((-1) # 2); ((-1) # 2)]%Q [(1 # 2); (1 # 2)]%Q)));
      (XS_BORDER, (Shipped (Rect [((-1) # 1); ((-1) # 1)]%Q [(1 # 1); (1 # 1)]%Q)));
      (XS, (Shipped (Rect [((-1) # 1); ((-1) # 1)]%Q [(1 # 1); (1 # 1)]%Q)));
      (XG, (Shipped (Rect [((-1) # 10); ((-1) # 10)]%Q [(1 # 10); (1 # 10)]%Q)));
      (XG_BORDER, (Shipped (Rect [((-1) # 10); ((-1) # 10)]%Q [(1 # 10); (1 # 10)]%Q)))];
     x_data := [XD; XI; XU; XS; XG_BORDER; XG];
     x_hidden := [4]; x_acts := [SQUARE];
     x_hidden_alt := default_hidden_alt; x_acts_alt := default_acts_alt;
     x_ctrl := None; x_llo := false; x_max_iters := 25 |}.

(** experiments/benchmarks/rswa/rswa_2.py:16-73. *)
Definition script_rswa_2 : script :=
  {| x_file := "rswa/rswa_2.py"; x_system := Some SecondOrderLQR; x_n := 2;
     x_type := RSWS; x_time := CONTINUOUS; x_verifier := VDREAL;
     x_domains := [(XD, (Shipped (Rect [((-3) # 2); ((-3) # 2)]%Q [(3 # 2); (3 # 2)]%Q)));
      (XI, (Shipped (Rect [((-1) # 2); ((-1) # 2)]%Q [(1 # 2); (1 # 2)]%Q)));
      (XS_BORDER, (Shipped (Rect [((-1) # 1); ((-1) # 1)]%Q [(1 # 1); (1 # 1)]%Q)));
      (XS, (Shipped (Rect [((-1) # 1); ((-1) # 1)]%Q [(1 # 1); (1 # 1)]%Q)));
      (XG, (Shipped (Rect [((-1) # 20); ((-1) # 20)]%Q [(1 # 20); (1 # 20)]%Q)));
      (XG_BORDER, (Shipped (Rect [((-1) # 20); ((-1) # 20)]%Q [(1 # 20); (1 # 20)]%Q)))];
     x_data := [XD; XI; XU; XS; XG_BORDER; XG];
     x_hidden := [4]; x_acts := [SQUARE];
     x_hidden_alt := default_hidden_alt; x_acts_alt := default_acts_alt;
     x_ctrl := None; x_llo := false; x_max_iters := 25 |}.

(** experiments/benchmarks/rswa/rswa_3.py:16-71. *)
Definition script_rswa_3 : script :=
  {| x_file := "rswa/rswa_3.py"; x_system := Some ThirdOrderLQR; x_n := 3;
     x_type := RSWS; x_time := CONTINUOUS; x_verifier := VDREAL;
     x_domains := [(XD, (Shipped (Rect [((-6) # 1); ((-6) # 1); ((-6) # 1)]%Q [(6 # 1); (6 # 1); (6 # 1)]%Q)));
      (XI, (Shipped (Rect [((-6) # 5); ((-6) # 5); ((-6) # 5)]%Q [(6 # 5); (6 # 5); (6 # 5)]%Q)));
      (XS_BORDER, (Shipped (Rect [((-5) # 1); ((-5) # 1); ((-5) # 1)]%Q [(5 # 1); (5 # 1); (5 # 1)]%Q)));
      (XS, (Shipped (Rect [((-5) # 1); ((-5) # 1); ((-5) # 1)]%Q [(5 # 1); (5 # 1); (5 # 1)]%Q)));
      (XG, (Shipped (Rect [((-3) # 10); ((-3) # 10); ((-3) # 10)]%Q [(3 # 10); (3 # 10); (3 # 10)]%Q)));
      (XG_BORDER, (Shipped (Rect [((-3) # 10); ((-3) # 10); ((-3) # 10)]%Q [(3 # 10); (3 # 10); (3 # 10)]%Q)))];
     x_data := [XD; XI; XU; XS; XG_BORDER; XG];
     x_hidden := [16]; x_acts := [SQUARE];
     x_hidden_alt := default_hidden_alt; x_acts_alt := default_acts_alt;
     x_ctrl := None; x_llo := false; x_max_iters := 25 |}.

(** experiments/benchmarks/rswa/rswa_invpend.py:15-68. *)
Definition script_rswa_invpend : script :=
  {| x_file := "rswa/rswa_invpend.py"; x_system := Some SineModelLQR; x_n := 2;
     x_type := RSWS; x_time := CONTINUOUS; x_verifier := VDREAL;
     x_domains := [(XD, (Shipped (Rect [((-3) # 1); ((-3) # 1)]%Q [(3 # 1); (3 # 1)]%Q)));
      (XI, (Shipped (Rect [((-3) # 5); ((-3) # 5)]%Q [(3 # 5); (3 # 5)]%Q)));
      (XS_BORDER, (Shipped (Rect [((-5) # 2); ((-5) # 2)]%Q [(5 # 2); (5 # 2)]%Q)));
      (XS, (Shipped (Rect [((-5) # 2); ((-5) # 2)]%Q [(5 # 2); (5 # 2)]%Q)));
      (XG, (Shipped (Rect [((-3) # 10); ((-3) # 10)]%Q [(3 # 10); (3 # 10)]%Q)));
      (XG_BORDER, (Shipped (Rect [((-3) # 10); ((-3) # 10)]%Q [(3 # 10); (3 # 10)]%Q)))];
     x_data := [XD; XI; XU; XS; XG_BORDER; XG];
     x_hidden := [5; 5]; x_acts := [SIGMOID; SQUARE];
     x_hidden_alt := default_hidden_alt; x_acts_alt := default_acts_alt;
     x_ctrl := None; x_llo := false; x_max_iters := 25 |}.

(** experiments/benchmarks/rar/ctrl_rar1.py:15-82. *)
Definition script_ctrl_rar1 : script :=
  {| x_file := "rar/ctrl_rar1.py"; x_system := Some SecondOrder; x_n := 2;
     x_type := RAR; x_time := CONTINUOUS; x_verifier := VDREAL;
     x_domains := [(XD, (Shipped (Rect [((-7) # 2); ((-7) # 2)]%Q [(7 # 2); (7 # 2)]%Q)));
      (XI, (Shipped (Rect [((-2) # 1); ((-2) # 1)]%Q [(2 # 1); (2 # 1)]%Q)));
      (XS_BORDER, (Shipped (Rect [((-3) # 1); ((-3) # 1)]%Q [(3 # 1); (3 # 1)]%Q)));
      (XS, (Shipped (Rect [((-3) # 1); ((-3) # 1)]%Q [(3 # 1); (3 # 1)]%Q)));
      (XG, (Shipped (Rect [((-1) # 10); ((-1) # 10)]%Q [(1 # 10); (1 # 10)]%Q)));
      (XF, (Shipped (Rect [((-3) # 20); ((-3) # 20)]%Q [(3 # 20); (3 # 20)]%Q)))];
     x_data := [XD; XI; XU; XG; XF; XNF];
     x_hidden := [6]; x_acts := [SQUARE];
     x_hidden_alt := [6]; x_acts_alt := [SQUARE];
     x_ctrl := (Some ([8; 1], [LINEAR])); x_llo := false; x_max_iters := 100 |}.

(** experiments/benchmarks/rar/ctrl_rar_invpend.py:15-81. *)
Definition script_ctrl_rar_invpend : script :=
  {| x_file := "rar/ctrl_rar_invpend.py"; x_system := Some SineModel; x_n := 2;
     x_type := RAR; x_time := CONTINUOUS; x_verifier := VDREAL;
     x_domains := [(XD, (Shipped (Rect [((-7) # 2); ((-7) # 2)]%Q [(7 # 2); (7 # 2)]%Q)));
      (XI, (Shipped (Rect [((-2) # 1); ((-2) # 1)]%Q [(2 # 1); (2 # 1)]%Q)));
      (XS_BORDER, (Shipped (Rect [((-3) # 1); ((-3) # 1)]%Q [(3 # 1); (3 # 1)]%Q)));
      (XS, (Shipped (Rect [((-3) # 1); ((-3) # 1)]%Q [(3 # 1); (3 # 1)]%Q)));
      (XG, (Shipped (Rect [((-1) # 10); ((-1) # 10)]%Q [(1 # 10); (1 # 10)]%Q)));
      (XF, (Shipped (Rect [((-1) # 5); ((-1) # 5)]%Q [(1 # 5); (1 # 5)]%Q)))];
     x_data := [XD; XI; XU; XG; XF; XNF];
     x_hidden := [6; 6]; x_acts := [SIGMOID; SQUARE];
     x_hidden_alt := [6; 6]; x_acts_alt := [SIGMOID; SQUARE];
     x_ctrl := (Some ([8; 2], [LINEAR])); x_llo := false; x_max_iters := 100 |}.

(** experiments/benchmarks/rar/rar1.py:15-79. *)
Definition script_rar1 : script :=
  {| x_file := "rar/rar1.py"; x_system := Some SecondOrderLQR; x_n := 2;
     x_type := RAR; x_time := CONTINUOUS; x_verifier := VDREAL;
     x_domains := [(XD, (Shipped (Rect [((-7) # 2); ((-7) # 2)]%Q [(7 # 2); (7 # 2)]%Q)));
      (XI, (Shipped (Rect [((-2) # 1); ((-2) # 1)]%Q [(2 # 1); (2 # 1)]%Q)));
      (XS_BORDER, (Shipped (Rect [((-3) # 1); ((-3) # 1)]%Q [(3 # 1); (3 # 1)]%Q)));
      (XS, (Shipped (Rect [((-3) # 1); ((-3) # 1)]%Q [(3 # 1); (3 # 1)]%Q)));
      (XG, (Shipped (Rect [((-1) # 10); ((-1) # 10)]%Q [(1 # 10); (1 # 10)]%Q)));
      (XF, (Shipped (Rect [((-3) # 20); ((-3) # 20)]%Q [(3 # 20); (3 # 20)]%Q)))];
     x_data := [XD; XI; XU; XG; XF; XNF];
     x_hidden := [6]; x_acts := [SQUARE];
     x_hidden_alt := [6]; x_acts_alt := [SQUARE];
     x_ctrl := None; x_llo := false; x_max_iters := 100 |}.

(** experiments/benchmarks/rar/rar_softplus.py:15-79. *)
Definition script_rar_softplus : script :=
  {| x_file := "rar/rar_softplus.py"; x_system := Some SecondOrderLQR; x_n := 2;
     x_type := RAR; x_time := CONTINUOUS; x_verifier := VDREAL;
     x_domains := [(XD, (Shipped (Rect [((-7) # 2); ((-7) # 2)]%Q [(7 # 2); (7 # 2)]%Q)));
      (XI, (Shipped (Rect [((-2) # 1); ((-2) # 1)]%Q [(2 # 1); (2 # 1)]%Q)));
      (XS_BORDER, (Shipped (Rect [((-3) # 1); ((-3) # 1)]%Q [(3 # 1); (3 # 1)]%Q)));
      (XS, (Shipped (Rect [((-3) # 1); ((-3) # 1)]%Q [(3 # 1); (3 # 1)]%Q)));
      (XG, (Shipped (Rect [((-1) # 10); ((-1) # 10)]%Q [(1 # 10); (1 # 10)]%Q)));
      (XF, (Shipped (Rect [((-3) # 20); ((-3) # 20)]%Q [(3 # 20); (3 # 20)]%Q)))];
     x_data := [XD; XI; XU; XG; XF; XNF];
     x_hidden := [6]; x_acts := [SOFTPLUS];
     x_hidden_alt := [6]; x_acts_alt := [SQUARE];
     x_ctrl := None; x_llo := false; x_max_iters := 100 |}.

(** experiments/benchmarks/stabsafe/ctrl_stablesafe1.py:20-76. *)
Definition script_ctrl_stablesafe1 : script :=
  {| x_file := "stabsafe/ctrl_stablesafe1.py"; x_system := Some SecondOrder; x_n := 2;
     x_type := STABLESAFE; x_time := CONTINUOUS; x_verifier := VDREAL;
     x_domains := [(XD, (Shipped (Rect [((-3) # 2); ((-3) # 2)]%Q [(3 # 2); (3 # 2)]%Q)));
      (XI, (Shipped (Rect [((-1) # 2); ((-1) # 2)]%Q [(1 # 2); (1 # 2)]%Q)));
      (XU, (Shipped (ComplS (Rect [((-1) # 1); ((-1) # 1)]%Q [(1 # 1); (1 # 1)]%Q))))];
     x_data := [XD; XI; XU];
     x_hidden := [8]; x_acts := [SQUARE];
     x_hidden_alt := [5]; x_acts_alt := [SQUARE];
     x_ctrl := (Some ([8; 1], [LINEAR])); x_llo := false; x_max_iters := 25 |}.

(** experiments/benchmarks/stabsafe/ctrl_stablesafe3.py:16-71. *)
Definition script_ctrl_stablesafe3 : script :=
  {| x_file := "stabsafe/ctrl_stablesafe3.py"; x_system := Some ThirdOrder; x_n := 3;
     x_type := STABLESAFE; x_time := CONTINUOUS; x_verifier := VDREAL;
     x_domains := [(XD, (Shipped (Rect [((-6) # 1); ((-6) # 1); ((-6) # 1)]%Q [(6 # 1); (6 # 1); (6 # 1)]%Q)));
      (XI, (Shipped (Rect [((-6) # 5); ((-6) # 5); ((-6) # 5)]%Q [(6 # 5); (6 # 5); (6 # 5)]%Q)));
      (XU, (Shipped (ComplS (Rect [((-5) # 1); ((-5) # 1); ((-5) # 1)]%Q [(5 # 1); (5 # 1); (5 # 1)]%Q))))];
     x_data := [XD; XR; XI; XU];
     x_hidden := [10]; x_acts := [SQUARE];
     x_hidden_alt := [8]; x_acts_alt := [TANH];
     x_ctrl := (Some ([8; 1], [LINEAR])); x_llo := true; x_max_iters := 100 |}.

(** experiments/benchmarks/stabsafe/stablesafe1.py:17-71. *)
Definition script_stablesafe1 : script :=
  {| x_file := "stabsafe/stablesafe1.py"; x_system := Some NonPoly3; x_n := 3;
     x_type := STABLESAFE; x_time := CONTINUOUS; x_verifier := VDREAL;
     x_domains := [(XD, (Shipped (Tor [(0 # 1); (0 # 1); (0 # 1)]%Q (3 # 1) (1 # 100) None)));
      (XI, (Shipped (Sph [((-9) # 10); ((-9) # 10); ((-9) # 10)]%Q (1 # 1) None)));
      (XU, (Shipped (UnionS (Sph [(2 # 5); (2 # 5); (2 # 5)]%Q (1 # 5) None) (Sph [((-2) # 5); (2 # 5); (2 # 5)]%Q (1 # 5) None))))];
     x_data := [XD; XI; XU];
     x_hidden := [6]; x_acts := [SQUARE];
     x_hidden_alt := [5]; x_acts_alt := [TANH];
     x_ctrl := None; x_llo := true; x_max_iters := 25 |}.

(** experiments/benchmarks/stabsafe/stablesafe2.py:16-65. *)
Definition script_stablesafe2 : script :=
  {| x_file := "stabsafe/stablesafe2.py"; x_system := Some Barr3; x_n := 2;
     x_type := STABLESAFE; x_time := CONTINUOUS; x_verifier := VDREAL;
     x_domains := [(XD, (Shipped (Rect [((-3) # 1); ((-2) # 1)]%Q [(5 # 2); (1 # 1)]%Q)));
      (XI, (Shipped (Rect [(2 # 5); (1 # 10)]%Q [(4 # 5); (1 # 2)]%Q)));
      (XU, (Shipped (Sph [((-1) # 1); ((-1) # 1)]%Q (2 # 5) None)))];
     x_data := [XD; XR; XI; XU];
     x_hidden := [5]; x_acts := [SQUARE];
     x_hidden_alt := [5; 5]; x_acts_alt := [SIGMOID; SQUARE];
     x_ctrl := None; x_llo := true; x_max_iters := 25 |}.

(** experiments/benchmarks/lyap/ctrllyap0_ct.py:18-67. *)
Definition script_ctrllyap0_ct : script :=
  {| x_file := "lyap/ctrllyap0_ct.py"; x_system := Some Benchmark1; x_n := 2;
     x_type := LYAPUNOV; x_time := CONTINUOUS; x_verifier := VDREAL;
     x_domains := [(XD, (Shipped (Tor [(0 # 1); (0 # 1)]%Q (10 # 1) (1 # 10) None)))];
     x_data := [XD];
     x_hidden := [4]; x_acts := [SQUARE];
     x_hidden_alt := default_hidden_alt; x_acts_alt := default_acts_alt;
     x_ctrl := (Some ([15; 2], [LINEAR])); x_llo := false; x_max_iters := 25 |}.

(** experiments/benchmarks/lyap/ctrllyap_dt.py:17-63. *)
Definition script_ctrllyap_dt : script :=
  {| x_file := "lyap/ctrllyap_dt.py"; x_system := Some DTAhmadi; x_n := 2;
     x_type := LYAPUNOV; x_time := DISCRETE; x_verifier := VDREAL;
     x_domains := [(XD, (Shipped (Tor [(0 # 1); (0 # 1)]%Q (1 # 1) (1 # 10) None)))];
     x_data := [XD];
     x_hidden := [5]; x_acts := [SQUARE];
     x_hidden_alt := default_hidden_alt; x_acts_alt := default_acts_alt;
     x_ctrl := (Some ([5; 2], [LINEAR])); x_llo := true; x_max_iters := 25 |}.

(** experiments/benchmarks/lyap/ctrllyap_invpend.py:15-61. *)
Definition script_ctrllyap_invpend : script :=
  {| x_file := "lyap/ctrllyap_invpend.py"; x_system := Some SineModel; x_n := 2;
     x_type := LYAPUNOV; x_time := CONTINUOUS; x_verifier := VDREAL;
     x_domains := [(XD, (Shipped (Tor [(0 # 1); (0 # 1)]%Q (1 # 1) (1 # 10) None)))];
     x_data := [XD];
     x_hidden := [5]; x_acts := [SQUARE];
     x_hidden_alt := default_hidden_alt; x_acts_alt := default_acts_alt;
     x_ctrl := (Some ([25; 2], [LINEAR])); x_llo := false; x_max_iters := 25 |}.

(** experiments/benchmarks/lyap/custom_lyap_cert.py:144-170. *)
Definition script_custom_lyap_cert : script :=
  {| x_file := "lyap/custom_lyap_cert.py"; x_system := Some NonPoly0; x_n := 2;
     x_type := CUSTOM; x_time := CONTINUOUS; x_verifier := VDREAL;
     x_domains := [(XD, (Shipped (Tor [(0 # 1); (0 # 1)]%Q (1 # 1) (1 # 100) None)))];
     x_data := [XD];
     x_hidden := [6]; x_acts := [SQUARE];
     x_hidden_alt := default_hidden_alt; x_acts_alt := default_acts_alt;
     x_ctrl := None; x_llo := false; x_max_iters := 25 |}.

(** experiments/benchmarks/lyap/lyap_dt.py:16-56. *)
Definition script_lyap_dt : script :=
  {| x_file := "lyap/lyap_dt.py"; x_system := Some DTAhmadi2; x_n := 2;
     x_type := LYAPUNOV; x_time := DISCRETE; x_verifier := VDREAL;
     x_domains := [(XD, (Shipped (Tor [(0 # 1); (0 # 1)]%Q (1 # 1) (1 # 10) None)))];
     x_data := [XD];
     x_hidden := [2]; x_acts := [SQUARE];
     x_hidden_alt := default_hidden_alt; x_acts_alt := default_acts_alt;
     x_ctrl := None; x_llo := true; x_max_iters := 25 |}.

(** experiments/benchmarks/lyap/non_poly_0.py:25-51. *)
Definition script_non_poly_0 : script :=
  {| x_file := "lyap/non_poly_0.py"; x_system := Some NonPoly0; x_n := 2;
     x_type := LYAPUNOV; x_time := CONTINUOUS; x_verifier := VDREAL;
     x_domains := [(XD, (Shipped (Tor [(0 # 1); (0 # 1)]%Q (1 # 1) (1 # 100) None)))];
     x_data := [XD];
     x_hidden := [6]; x_acts := [SQUARE];
     x_hidden_alt := default_hidden_alt; x_acts_alt := default_acts_alt;
     x_ctrl := None; x_llo := true; x_max_iters := 25 |}.

(** experiments/benchmarks/lyap/non_poly_2.py:15-56. *)
Definition script_non_poly_2 : script :=
  {| x_file := "lyap/non_poly_2.py"; x_system := Some NonPoly2; x_n := 3;
     x_type := LYAPUNOV; x_time := CONTINUOUS; x_verifier := VDREAL;
     x_domains := [(XD, (Shipped (Tor [(0 # 1); (0 # 1); (0 # 1)]%Q (3 # 1) (1 # 100) None)))];
     x_data := [XD];
     x_hidden := [10]; x_acts := [SQUARE];
     x_hidden_alt := default_hidden_alt; x_acts_alt := default_acts_alt;
     x_ctrl := None; x_llo := true; x_max_iters := 25 |}.

(** experiments/benchmarks/lyap/poly_1.py:16-61. *)
Definition script_poly_1 : script :=
  {| x_file := "lyap/poly_1.py"; x_system := Some Poly1; x_n := 3;
     x_type := LYAPUNOV; x_time := CONTINUOUS; x_verifier := VDREAL;
     x_domains := [(XD, (Shipped (Tor [(0 # 1); (0 # 1); (0 # 1)]%Q (10 # 1) (1 # 10) None)))];
     x_data := [XD];
     x_hidden := [8]; x_acts := [SQUARE];
     x_hidden_alt := default_hidden_alt; x_acts_alt := default_acts_alt;
     x_ctrl := None; x_llo := true; x_max_iters := 25 |}.

(** experiments/benchmarks/lyap/poly_2.py:15-53. *)
Definition script_poly_2 : script :=
  {| x_file := "lyap/poly_2.py"; x_system := Some Poly2; x_n := 2;
     x_type := LYAPUNOV; x_time := CONTINUOUS; x_verifier := VDREAL;
     x_domains := [(XD, (Shipped (Tor [(0 # 1); (0 # 1)]%Q (3 # 1) (1 # 100) None)))];
     x_data := [XD];
     x_hidden := [8]; x_acts := [SQUARE];
     x_hidden_alt := default_hidden_alt; x_acts_alt := default_acts_alt;
     x_ctrl := None; x_llo := true; x_max_iters := 25 |}.

(** experiments/benchmarks/roa/ctrl_roa_1.py:17-65. *)
Definition script_ctrl_roa_1 : script :=
  {| x_file := "roa/ctrl_roa_1.py"; x_system := Some LorenzSystem; x_n := 3;
     x_type := ROA; x_time := CONTINUOUS; x_verifier := VDREAL;
     x_domains := [(XI, (Shipped (Sph [(0 # 1); (0 # 1); (0 # 1)]%Q (3 # 10) None)))];
     x_data := [XD; XI];
     x_hidden := [8]; x_acts := [SQUARE];
     x_hidden_alt := default_hidden_alt; x_acts_alt := default_acts_alt;
     x_ctrl := (Some ([8; 3], [LINEAR])); x_llo := true; x_max_iters := 25 |}.

(** experiments/benchmarks/roa/roa_1.py:17-67. *)
Definition script_roa_1 : script :=
  {| x_file := "roa/roa_1.py"; x_system := Some NonPoly1; x_n := 2;
     x_type := ROA; x_time := CONTINUOUS; x_verifier := VDREAL;
     x_domains := [(XI, (Shipped (UnionS (Sph [((-1) # 1); (1 # 1)]%Q (1 # 10) None) (Sph [(1 # 1); ((-1) # 1)]%Q (1 # 5) None))))];
     x_data := [XD; XI];
     x_hidden := [10]; x_acts := [TANH_SQUARE];
     x_hidden_alt := default_hidden_alt; x_acts_alt := default_acts_alt;
     x_ctrl := None; x_llo := true; x_max_iters := 25 |}.

(** experiments/benchmarks/barrier/barr_1.py:33-72. *)
Definition script_barr_1 : script :=
  {| x_file := "barrier/barr_1.py"; x_system := Some Barr1; x_n := 2;
     x_type := BARRIER; x_time := CONTINUOUS; x_verifier := VDREAL;
     x_domains := [(XD, (Shipped (Rect [((-2) # 1); ((-2) # 1)]%Q [(2 # 1); (2 # 1)]%Q)));
      (XI, (Shipped (Rect [(0 # 1); (1 # 1)]%Q [(1 # 1); (2 # 1)]%Q)));
      (XU, (Written (fun v => FCmp CLe (EBin BAdd (nth 0 v (ENum 0)) (EPow (nth 1 v (ENum 0)) 2)) (ENum (0 # 1)))))];
     x_data := [XD; XI; XU];
     x_hidden := [5]; x_acts := [SIGMOID];
     x_hidden_alt := default_hidden_alt; x_acts_alt := default_acts_alt;
     x_ctrl := None; x_llo := false; x_max_iters := 25 |}.

(** experiments/benchmarks/barrier/barr_2.py:18-78. *)
Definition script_barr_2 : script :=
  {| x_file := "barrier/barr_2.py"; x_system := Some Barr2; x_n := 2;
     x_type := BARRIER; x_time := CONTINUOUS; x_verifier := VDREAL;
     x_domains := [(XD, (Written (fun v => fand [FCmp CLe (ENum ((-2) # 1)) (nth 0 v (ENum 0)); FCmp CLe (nth 1 v (ENum 0)) (ENum (2 # 1))])));
      (XI, (Shipped (Sph [((-1) # 2); (1 # 2)]%Q (2 # 5) None)));
      (XU, (Shipped (Sph [(7 # 10); ((-7) # 10)]%Q (3 # 10) None)))];
     x_data := [XD; XI; XU];
     x_hidden := [15]; x_acts := [TANH];
     x_hidden_alt := default_hidden_alt; x_acts_alt := default_acts_alt;
     x_ctrl := None; x_llo := false; x_max_iters := 25 |}.

(** experiments/benchmarks/barrier/barr_2room_DT.py:15-59. *)
Definition script_barr_2room_DT : script :=
  {| x_file := "barrier/barr_2room_DT.py"; x_system := Some TwoRoomTemp; x_n := 2;
     x_type := BARRIERALT; x_time := DISCRETE; x_verifier := VDREAL;
     x_domains := [(XD, (Shipped (Rect [(18 # 1); (18 # 1)]%Q [(23 # 1); (23 # 1)]%Q)));
      (XI, (Shipped (Rect [(18 # 1); (18 # 1)]%Q [(79 # 4); (79 # 4)]%Q)));
      (XU, (Shipped (Rect [(22 # 1); (22 # 1)]%Q [(23 # 1); (23 # 1)]%Q)))];
     x_data := [XD; XI; XU];
     x_hidden := [2]; x_acts := [SQUARE];
     x_hidden_alt := default_hidden_alt; x_acts_alt := default_acts_alt;
     x_ctrl := None; x_llo := false; x_max_iters := 25 |}.

(** experiments/benchmarks/barrier/barr_3.py:16-71. *)
Definition script_barr_3 : script :=
  {| x_file := "barrier/barr_3.py"; x_system := Some Barr3; x_n := 2;
     x_type := BARRIER; x_time := CONTINUOUS; x_verifier := VDREAL;
     x_domains := [(XD, (Shipped (Rect [((-3) # 1); ((-2) # 1)]%Q [(5 # 2); (1 # 1)]%Q)));
      (XI, (Shipped (UnionS (Sph [(3 # 2); (0 # 1)]%Q (1 # 2) None) (UnionS (Rect [((-9) # 5); ((-1) # 10)]%Q [((-6) # 5); (1 # 10)]%Q) (Rect [((-7) # 5); ((-1) # 2)]%Q [((-6) # 5); (1 # 10)]%Q)))));
      (XU, (Shipped (UnionS (Sph [((-1) # 1); ((-1) # 1)]%Q (2 # 5) None) (UnionS (Rect [(2 # 5); (1 # 10)]%Q [(3 # 5); (1 # 2)]%Q) (Rect [(2 # 5); (1 # 10)]%Q [(4 # 5); (3 # 10)]%Q)))))];
     x_data := [XD; XI; XU];
     x_hidden := [10; 10]; x_acts := [SIGMOID; SIGMOID];
     x_hidden_alt := default_hidden_alt; x_acts_alt := default_acts_alt;
     x_ctrl := None; x_llo := false; x_max_iters := 25 |}.

(** experiments/benchmarks/barrier/barr_3_package.py:25-81. *)
Definition script_barr_3_package : script :=
  {| x_file := "barrier/barr_3_package.py"; x_system := Some Barr3; x_n := 2;
     x_type := BARRIER; x_time := CONTINUOUS; x_verifier := VDREAL;
     x_domains := [(XD, (Shipped (Rect [((-3) # 1); ((-2) # 1)]%Q [(5 # 2); (1 # 1)]%Q)));
      (XI, (Shipped (UnionS (Sph [(3 # 2); (0 # 1)]%Q (1 # 2) None) (UnionS (Rect [((-9) # 5); ((-1) # 10)]%Q [((-6) # 5); (1 # 10)]%Q) (Rect [((-7) # 5); ((-1) # 2)]%Q [((-6) # 5); (1 # 10)]%Q)))));
      (XU, (Shipped (UnionS (Sph [((-1) # 1); ((-1) # 1)]%Q (2 # 5) None) (UnionS (Rect [(2 # 5); (1 # 10)]%Q [(3 # 5); (1 # 2)]%Q) (Rect [(2 # 5); (1 # 10)]%Q [(4 # 5); (3 # 10)]%Q)))))];
     x_data := [XD; XI; XU];
     x_hidden := [10; 10]; x_acts := [SIGMOID; SIGMOID];
     x_hidden_alt := default_hidden_alt; x_acts_alt := default_acts_alt;
     x_ctrl := None; x_llo := false; x_max_iters := 25 |}.

(** experiments/benchmarks/barrier/barr_4.py:69-110. *)
Definition script_barr_4 : script :=
  {| x_file := "barrier/barr_4.py"; x_system := Some ObstacleAvoidance; x_n := 3;
     x_type := BARRIER; x_time := CONTINUOUS; x_verifier := VDREAL;
     x_domains := [(XD, (Written (fun v => fand [FCmp CLe (ENum ((-2) # 1)) (nth 0 v (ENum 0)); FCmp CLe (nth 0 v (ENum 0)) (ENum (2 # 1)); FCmp CLe (ENum ((-2) # 1)) (nth 1 v (ENum 0)); FCmp CLe (nth 1 v (ENum 0)) (ENum (2 # 1)); FCmp CLe (ENum ((-157) # 100)) (nth 2 v (ENum 0)); FCmp CLe (nth 2 v (ENum 0)) (ENum (157 # 100))])));
      (XI, (Written (fun v => fand [FCmp CLe (ENum ((-1) # 10)) (nth 0 v (ENum 0)); FCmp CLe (nth 0 v (ENum 0)) (ENum (1 # 10)); FCmp CLe (ENum ((-2) # 1)) (nth 1 v (ENum 0)); FCmp CLe (nth 1 v (ENum 0)) (ENum ((-9) # 5)); FCmp CLe (ENum ((-13) # 25)) (nth 2 v (ENum 0)); FCmp CLe (nth 2 v (ENum 0)) (ENum (13 # 25))])));
      (XU, (Written (fun v => FCmp CLe (EBin BAdd (EPow (nth 0 v (ENum 0)) 2) (EPow (nth 1 v (ENum 0)) 2)) (ENum (1 # 25)))))];
     x_data := [XD; XI; XU];
     x_hidden := [25]; x_acts := [POLY_4];
     x_hidden_alt := default_hidden_alt; x_acts_alt := default_acts_alt;
     x_ctrl := None; x_llo := false; x_max_iters := 25 |}.

(** experiments/benchmarks/barrier/ctrlbarr_2roomtemp_DT.py:17-68. *)
Definition script_ctrlbarr_2roomtemp_DT : script :=
  {| x_file := "barrier/ctrlbarr_2roomtemp_DT.py"; x_system := Some CtrlTwoRoomTemp; x_n := 2;
     x_type := BARRIERALT; x_time := DISCRETE; x_verifier := VDREAL;
     x_domains := [(XD, (Shipped (Rect [(17 # 1); (17 # 1)]%Q [(30 # 1); (30 # 1)]%Q)));
      (XI, (Shipped (Rect [(17 # 1); (17 # 1)]%Q [(18 # 1); (18 # 1)]%Q)));
      (XU, (Shipped (Rect [(28 # 1); (28 # 1)]%Q [(30 # 1); (30 # 1)]%Q)))];
     x_data := [XD; XI; XU];
     x_hidden := [10; 10]; x_acts := [SIGMOID; SQUARE];
     x_hidden_alt := default_hidden_alt; x_acts_alt := default_acts_alt;
     x_ctrl := (Some ([5; 2], [TANH])); x_llo := false; x_max_iters := 25 |}.

(** experiments/benchmarks/barrier/ctrlbarr_obstacle.py:17-75. *)
Definition script_ctrlbarr_obstacle : script :=
  {| x_file := "barrier/ctrlbarr_obstacle.py"; x_system := Some CtrlObstacleAvoidance; x_n := 3;
     x_type := BARRIER; x_time := CONTINUOUS; x_verifier := VDREAL;
     x_domains := [(XD, (Shipped (Rect [((-10) # 1); ((-10) # 1); ((-884279719003555) # 281474976710656)]%Q [(10 # 1); (10 # 1); (884279719003555 # 281474976710656)]%Q)));
      (XI, (Shipped (Rect [(4 # 1); (4 # 1); ((-884279719003555) # 562949953421312)]%Q [(6 # 1); (6 # 1); (884279719003555 # 562949953421312)]%Q)));
      (XU, (Shipped (Rect [((-9) # 1); ((-9) # 1); ((-884279719003555) # 562949953421312)]%Q [((-7) # 1); ((-6) # 1); (884279719003555 # 562949953421312)]%Q)))];
     x_data := [XD; XI; XU];
     x_hidden := [15]; x_acts := [TANH];
     x_hidden_alt := default_hidden_alt; x_acts_alt := default_acts_alt;
     x_ctrl := (Some ([5; 1], [TANH])); x_llo := false; x_max_iters := 25 |}.

(** experiments/benchmarks/barrier/ctrlbarr_quadrotor2d.py:20-83. *)
Definition script_ctrlbarr_quadrotor2d : script :=
  {| x_file := "barrier/ctrlbarr_quadrotor2d.py"; x_system := None; x_n := 6;
     x_type := BARRIER; x_time := CONTINUOUS; x_verifier := VDREAL;
     x_domains := [(XD, (Shipped (Rect [((-2) # 1); ((-2) # 1); (884279719003555 # 281474976710656); ((-2) # 1); ((-2) # 1); ((-884279719003555) # 140737488355328)]%Q [(2 # 1); (2 # 1); (884279719003555 # 281474976710656); (2 # 1); (2 # 1); (884279719003555 # 140737488355328)]%Q)));
      (XI, (Shipped (Sph [(7 # 10); (7 # 10); (7 # 10); (7 # 10); (7 # 10); (7 # 10)]%Q (1 # 5) None)));
      (XU, (Shipped (Sph [((-5) # 2); ((-5) # 2); ((-5) # 2); ((-5) # 2); ((-5) # 2); ((-5) # 2)]%Q (1 # 5) None)))];
     x_data := [XD; XI; XU];
     x_hidden := [4]; x_acts := [SQUARE];
     x_hidden_alt := default_hidden_alt; x_acts_alt := default_acts_alt;
     x_ctrl := (Some ([5; 2], [LINEAR])); x_llo := false; x_max_iters := 25 |}.

(** experiments/benchmarks/barrier/hi_ord_8.py:16-64. *)
Definition script_hi_ord_8 : script :=
  {| x_file := "barrier/hi_ord_8.py"; x_system := Some HighOrd8; x_n := 8;
     x_type := BARRIER; x_time := CONTINUOUS; x_verifier := VZ3;
     x_domains := [(XD, (Shipped (Rect [((-11) # 5); ((-11) # 5); ((-11) # 5); ((-11) # 5); ((-11) # 5); ((-11) # 5); ((-11) # 5); ((-11) # 5)]%Q [(11 # 5); (11 # 5); (11 # 5); (11 # 5); (11 # 5); (11 # 5); (11 # 5); (11 # 5)]%Q)));
      (XI, (Shipped (Rect [(9 # 10); (9 # 10); (9 # 10); (9 # 10); (9 # 10); (9 # 10); (9 # 10); (9 # 10)]%Q [(11 # 10); (11 # 10); (11 # 10); (11 # 10); (11 # 10); (11 # 10); (11 # 10); (11 # 10)]%Q)));
      (XU, (Shipped (Rect [((-11) # 5); ((-11) # 5); ((-11) # 5); ((-11) # 5); ((-11) # 5); ((-11) # 5); ((-11) # 5); ((-11) # 5)]%Q [((-9) # 5); ((-9) # 5); ((-9) # 5); ((-9) # 5); ((-9) # 5); ((-9) # 5); ((-9) # 5); ((-9) # 5)]%Q)))];
     x_data := [XD; XI; XU];
     x_hidden := [10]; x_acts := [LINEAR];
     x_hidden_alt := default_hidden_alt; x_acts_alt := default_acts_alt;
     x_ctrl := None; x_llo := false; x_max_iters := 25 |}.

Definition rwa_scripts : list script := [script_ctrl_rwa_1; script_ctrl_rwa_2; script_ctrl_rwa_2_complex; script_ctrl_rwa_3; script_ctrl_rwa_4; script_ctrl_rwa_inv_pend; script_rwa_1; script_rwa_2; script_rwa_3; script_rwa_inv_pend].
Definition rswa_scripts : list script := [script_ctrl_rswa_1; script_ctrl_rswa_2; script_ctrl_rswa_3; script_ctrl_rswa_invpend; script_rswa_1; script_rswa_2; script_rswa_3; script_rswa_invpend].
Definition rar_scripts : list script := [script_ctrl_rar1; script_ctrl_rar_invpend; script_rar1; script_rar_softplus].
Definition stabsafe_scripts : list script := [script_ctrl_stablesafe1; script_ctrl_stablesafe3; script_stablesafe1; script_stablesafe2].
Definition lyap_scripts : list script := [script_ctrllyap0_ct; script_ctrllyap_dt; script_ctrllyap_invpend; script_custom_lyap_cert; script_lyap_dt; script_non_poly_0; script_non_poly_2; script_poly_1; script_poly_2].
Definition roa_scripts : list script := [script_ctrl_roa_1; script_roa_1].
Definition barrier_scripts : list script := [script_barr_1; script_barr_2; script_barr_2room_DT; script_barr_3; script_barr_3_package; script_barr_4; script_ctrlbarr_2roomtemp_DT; script_ctrlbarr_obstacle; script_ctrlbarr_quadrotor2d; script_hi_ord_8].
Definition all_scripts : list script := (rwa_scripts ++ rswa_scripts ++ rar_scripts ++ stabsafe_scripts ++ lyap_scripts ++ roa_scripts ++ barrier_scripts)%list.
