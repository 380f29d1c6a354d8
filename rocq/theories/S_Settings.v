(** Specification: the settings that decide what is searched for and verified, and how much two files may differ. *)
From Coq Require Import String ZArith List.
From Verif Require Import M_Cli S_Cli.
Import ListNotations.
Local Open Scope string_scope.

Definition deciding : list string :=
  ["SYSTEM"; "N_VARS"; "CERTIFICATE"; "DOMAINS"; "TIME_DOMAIN"; "VERIFIER"; "CEGIS_MAX_ITERS"; "N_HIDDEN_NEURONS"; "ACTIVATION";
   "CTRLAYER"; "CTRLACTIVATION"; "N_HIDDEN_NEURONS_ALT"; "ACTIVATION_ALT"; "ROUNDING"; "FACTORS"; "LLO"].
(** The files give these fields the same values, or none. *)
Definition agree (fields : list string) (doc doc' : document) : Prop :=
  forall f v, In f fields -> (gives doc f v <-> gives doc' f v).
(** N_DATA has the same shape in both: a number of samples, or numbers for the same names. *)
Definition same_samples (doc doc' : document) : Prop :=
  (exists z z' : Z, (0 <= z)%Z /\ (0 <= z')%Z /\ gives doc "N_DATA" (YInt z) /\ gives doc' "N_DATA" (YInt z')) \/
  (exists ns : list (string * (Z * Z)), Forall (fun p => (0 <= fst (snd p))%Z /\ (0 <= snd (snd p))%Z) ns /\
     gives doc "N_DATA" (YMap (map (fun p => (fst p, YInt (fst (snd p)))) ns)) /\
     gives doc' "N_DATA" (YMap (map (fun p => (fst p, YInt (snd (snd p)))) ns))).
