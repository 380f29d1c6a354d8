(** The configuration files shipped with the tool, translated by tools/gen_documents.py from their text.
    No proofs in this file.  Not translated: config.yaml (it is empty). *)
From Coq Require Import String ZArith List.
From Verif Require Import M_Cli.
Import ListNotations.
Local Open Scope string_scope.
Local Open Scope Z_scope.

(** lyap-test.yaml:1-15. *)
Definition doc_root_lyap_test : document :=
  [("SYSTEM", YList [YStr "x1"; YStr "-x1 - x0"]);
   ("CERTIFICATE", YStr "Lyapunov");
   ("DOMAINS", YMap [("XD", YStr "Sphere([0,0], 1.0)")]);
   ("TIME_DOMAIN", YStr "CONTINUOUS");
   ("VERIFIER", YStr "Z3");
   ("N_DATA", YMap [("XD", YInt 1000)]);
   ("N_VARS", YInt 2);
   ("N_HIDDEN_NEURONS", YList [YInt 5]);
   ("ACTIVATION", YList [YStr "SQUARE"]);
   ("SEED", YInt 0)].

(** experiments/benchmarks/cli/barr-test.yaml:1-19. *)
Definition doc_barr_test : document :=
  [("SYSTEM", YList [YStr "x1 + u0"; YStr "x0-x1"]);
   ("CERTIFICATE", YStr "Barrier");
   ("DOMAINS", YMap [("XD", YStr "Sphere([0,0], 1.1)"); ("XI", YStr "Sphere([0,0], 0.1)"); ("XU", YStr "Sphere([0.8,0.8], 0.1)")]);
   ("TIME_DOMAIN", YStr "CONTINUOUS");
   ("VERIFIER", YStr "DREAL");
   ("N_DATA", YMap [("XD", YInt 1000); ("XI", YInt 1000); ("XU", YInt 1000)]);
   ("VERBOSE", YBool true);
   ("N_VARS", YInt 2);
   ("N_HIDDEN_NEURONS", YList [YInt 5]);
   ("ACTIVATION", YList [YStr "SQUARE"]);
   ("CTRLAYER", YList [YInt 5; YInt 1]);
   ("CTRLACTIVATION", YList [YStr "LINEAR"]);
   ("SEED", YInt 0)].

(** experiments/benchmarks/cli/ctrl_rar_sine.yaml:1-27. *)
Definition doc_ctrl_rar_sine : document :=
  [("SYSTEM", YList [YStr "x1 + u0"; YStr "u1 + (0.73575*sin(x0) - 0.1*x1) / (0.0375) "]);
   ("CERTIFICATE", YStr "RAR");
   ("DOMAINS", YMap [("XD", YStr "Rectangle([-3.5, -3.5], [3.5, 3.5])"); ("XS", YStr "Rectangle([-3.0, -3.0], [3.0, 3.0])"); ("XI", YStr "Rectangle([-2.0, -2.0], [2.0, 2.0])"); ("XG", YStr "Rectangle([-0.1, -0.1], [0.1, 0.1])"); ("XF", YStr "Rectangle([-0.2, -0.2], [0.2, 0.2])")]);
   ("TIME_DOMAIN", YStr "CONTINUOUS");
   ("VERIFIER", YStr "DREAL");
   ("N_DATA", YMap [("XD", YInt 500); ("XI", YInt 500); ("XU", YInt 500); ("XG", YInt 500); ("XF", YInt 500); ("XNF", YInt 500)]);
   ("VERBOSE", YInt 0);
   ("N_VARS", YInt 2);
   ("N_HIDDEN_NEURONS", YList [YInt 6]);
   ("ACTIVATION", YList [YStr "SIGMOID"; YStr "SQUARE"]);
   ("N_HIDDEN_NEURONS_ALT", YList [YInt 6]);
   ("ACTIVATION_ALT", YList [YStr "SIGMOID"; YStr "SQUARE"]);
   ("CTRLAYER", YList [YInt 8; YInt 2]);
   ("CTRLACTIVATION", YList [YStr "LINEAR"]);
   ("SEED", YInt 1);
   ("CEGIS_MAX_ITERS", YInt 100)].

(** experiments/benchmarks/cli/learn.yaml:1-15. *)
Definition doc_learn : document :=
  [("SYSTEM", YList [YStr "x1"; YStr "-x1 - x0"]);
   ("CERTIFICATE", YStr "Lyapunov");
   ("DOMAINS", YMap [("XD", YStr "Sphere([0,0], 1.0)")]);
   ("TIME_DOMAIN", YStr "CONTINUOUS");
   ("VERIFIER", YStr "NONE");
   ("N_DATA", YMap [("XD", YInt 1000)]);
   ("N_VARS", YInt 2);
   ("N_HIDDEN_NEURONS", YList [YInt 5]);
   ("ACTIVATION", YList [YStr "SQUARE"]);
   ("SEED", YInt 0)].

(** experiments/benchmarks/cli/lyap-test.yaml:1-15. *)
Definition doc_lyap_test : document :=
  [("SYSTEM", YList [YStr "x1"; YStr "-x1 - x0"]);
   ("CERTIFICATE", YStr "Lyapunov");
   ("DOMAINS", YMap [("XD", YStr "Sphere([0,0], 1.0)")]);
   ("TIME_DOMAIN", YStr "CONTINUOUS");
   ("VERIFIER", YStr "Z3");
   ("N_DATA", YMap [("XD", YInt 1000)]);
   ("N_VARS", YInt 2);
   ("N_HIDDEN_NEURONS", YList [YInt 5]);
   ("ACTIVATION", YList [YStr "SQUARE"]);
   ("SEED", YInt 0)].

(** experiments/benchmarks/cli/rar-test.yaml:1-24. *)
Definition doc_rar_test : document :=
  [("SYSTEM", YList [YStr "x1 + u0"; YStr "x0-x1"]);
   ("CERTIFICATE", YStr "RAR");
   ("DOMAINS", YMap [("XD", YStr "Sphere([0,0], 1.1)"); ("XI", YStr "Sphere([0,0], 0.1)"); ("XG", YStr "Sphere([0,0], 0.05)"); ("XS", YStr "Sphere([0,0], 1.0)"); ("XF", YStr "Sphere([0,0], 0.075)")]);
   ("TIME_DOMAIN", YStr "CONTINUOUS");
   ("VERIFIER", YStr "DREAL");
   ("N_DATA", YMap [("XD", YInt 1001); ("XI", YInt 1002); ("XU", YInt 1003); ("XG", YInt 1004); ("XF", YInt 1005); ("XNF", YInt 1006)]);
   ("VERBOSE", YBool true);
   ("N_VARS", YInt 2);
   ("N_HIDDEN_NEURONS", YList [YInt 5]);
   ("ACTIVATION", YList [YStr "SQUARE"]);
   ("CTRLAYER", YList [YInt 5; YInt 1]);
   ("CTRLACTIVATION", YList [YStr "LINEAR"]);
   ("SEED", YInt 0)].

(** experiments/benchmarks/cli/roa-test.yaml:1-17. *)
Definition doc_roa_test : document :=
  [("SYSTEM", YList [YStr "x1 + u0"; YStr "x0-x1"]);
   ("CERTIFICATE", YStr "ROA");
   ("DOMAINS", YMap [("XD", YStr "Sphere([0,0], 1.1)"); ("XI", YStr "Sphere([0,0], 0.1)")]);
   ("TIME_DOMAIN", YStr "CONTINUOUS");
   ("VERIFIER", YStr "DREAL");
   ("N_DATA", YMap [("XD", YInt 1000); ("XI", YInt 1000)]);
   ("VERBOSE", YBool true);
   ("N_VARS", YInt 2);
   ("N_HIDDEN_NEURONS", YList [YInt 5]);
   ("ACTIVATION", YList [YStr "SQUARE"]);
   ("CTRLAYER", YList [YInt 5; YInt 1]);
   ("CTRLACTIVATION", YList [YStr "LINEAR"]);
   ("SEED", YInt 0)].

(** experiments/benchmarks/cli/rswa-test.yaml:1-23. *)
Definition doc_rswa_test : document :=
  [("SYSTEM", YList [YStr "x1 + u0"; YStr "x0-x1"]);
   ("CERTIFICATE", YStr "RSWA");
   ("DOMAINS", YMap [("XD", YStr "Sphere([0,0], 1.1)"); ("XI", YStr "Sphere([0,0], 0.1)"); ("XG", YStr "Sphere([0,0], 0.05)"); ("XS", YStr "Sphere([0,0], 1.0)")]);
   ("TIME_DOMAIN", YStr "CONTINUOUS");
   ("VERIFIER", YStr "DREAL");
   ("N_DATA", YMap [("XD", YInt 1001); ("XI", YInt 1002); ("XU", YInt 1003); ("XS", YInt 1004); ("XG", YInt 1005); ("XG_BORDER", YInt 1006)]);
   ("VERBOSE", YBool true);
   ("N_VARS", YInt 2);
   ("N_HIDDEN_NEURONS", YList [YInt 5]);
   ("ACTIVATION", YList [YStr "SQUARE"]);
   ("CTRLAYER", YList [YInt 5; YInt 1]);
   ("CTRLACTIVATION", YList [YStr "LINEAR"]);
   ("SEED", YInt 0)].

(** experiments/benchmarks/cli/rwa-test.yaml:1-20. *)
Definition doc_rwa_test : document :=
  [("SYSTEM", YList [YStr "x1 + u0"; YStr "x0-x1"]);
   ("CERTIFICATE", YStr "RWA");
   ("DOMAINS", YMap [("XD", YStr "Sphere([0,0], 1.1)"); ("XI", YStr "Sphere([0,0], 0.1)"); ("XG", YStr "Sphere([0,0], 0.05)"); ("XS", YStr "Sphere([0,0], 1.0)")]);
   ("TIME_DOMAIN", YStr "CONTINUOUS");
   ("VERIFIER", YStr "DREAL");
   ("N_DATA", YMap [("XD", YInt 1000); ("XI", YInt 1000); ("XU", YInt 1000)]);
   ("VERBOSE", YBool true);
   ("N_VARS", YInt 2);
   ("N_HIDDEN_NEURONS", YList [YInt 5]);
   ("ACTIVATION", YList [YStr "SQUARE"]);
   ("CTRLAYER", YList [YInt 5; YInt 1]);
   ("CTRLACTIVATION", YList [YStr "LINEAR"]);
   ("SEED", YInt 0)].

(** experiments/benchmarks/cli/stable-safe-test.yaml:1-19. *)
Definition doc_stable_safe_test : document :=
  [("SYSTEM", YList [YStr "x1 + u0"; YStr "x0-x1"]);
   ("CERTIFICATE", YStr "STABLESAFE");
   ("DOMAINS", YMap [("XD", YStr "Sphere([0,0], 1.1)"); ("XI", YStr "Sphere([0,0], 0.1)"); ("XU", YStr "Sphere([0.8,0.8], 0.1)")]);
   ("TIME_DOMAIN", YStr "CONTINUOUS");
   ("VERIFIER", YStr "DREAL");
   ("N_DATA", YMap [("XD", YInt 1000); ("XI", YInt 1000); ("XU", YInt 1000)]);
   ("VERBOSE", YBool true);
   ("N_VARS", YInt 2);
   ("N_HIDDEN_NEURONS", YList [YInt 5]);
   ("ACTIVATION", YList [YStr "SQUARE"]);
   ("CTRLAYER", YList [YInt 5; YInt 1]);
   ("CTRLACTIVATION", YList [YStr "LINEAR"]);
   ("SEED", YInt 0)].

(** experiments/benchmarks/cli/verify.yaml:1-16. *)
Definition doc_verify : document :=
  [("SYSTEM", YList [YStr "-x0"; YStr "-x1"]);
   ("CERTIFICATE", YStr "Lyapunov");
   ("CANDIDATE", YList [YStr "x0**2 + x1**2"]);
   ("DOMAINS", YMap [("XD", YStr "Torus([0,0], 1.0, 0.1)")]);
   ("TIME_DOMAIN", YStr "CONTINUOUS");
   ("VERIFIER", YStr "DREAL");
   ("N_DATA", YMap [("XD", YInt 1000)]);
   ("N_VARS", YInt 2);
   ("N_HIDDEN_NEURONS", YList [YInt 5]);
   ("ACTIVATION", YList [YStr "SQUARE"]);
   ("SEED", YInt 0)].

Definition shipped_documents : list (string * document) :=
  [("lyap-test.yaml", doc_root_lyap_test);
   ("experiments/benchmarks/cli/barr-test.yaml", doc_barr_test);
   ("experiments/benchmarks/cli/ctrl_rar_sine.yaml", doc_ctrl_rar_sine);
   ("experiments/benchmarks/cli/learn.yaml", doc_learn);
   ("experiments/benchmarks/cli/lyap-test.yaml", doc_lyap_test);
   ("experiments/benchmarks/cli/rar-test.yaml", doc_rar_test);
   ("experiments/benchmarks/cli/roa-test.yaml", doc_roa_test);
   ("experiments/benchmarks/cli/rswa-test.yaml", doc_rswa_test);
   ("experiments/benchmarks/cli/rwa-test.yaml", doc_rwa_test);
   ("experiments/benchmarks/cli/stable-safe-test.yaml", doc_stable_safe_test);
   ("experiments/benchmarks/cli/verify.yaml", doc_verify)].
