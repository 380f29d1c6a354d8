(** Model of the summary of a results file: analysis.py:73-75, 224-325 [ratio], [Analyser].  No proofs in
    this file.

    [None] is an exception.  pandas is modelled where it matters: reading a csv file gives the cells by
    column name, an empty cell is "not a number" and rows with such a key are left out by [pivot_table];
    groups come in the order of their first rows (sort=False).  [show] is the text csv.writer gives to cells
    that are no strings.  Not modelled: the renaming of columns, rounding to two decimals for printing, the
    export. *)
From Coq Require Import List String Ascii Bool Arith ZArith QArith.
From Verif Require Import M_Activations M_Cegis M_Recorder.
Import ListNotations.
Local Open Scope string_scope.

(** analysis.py:73-75 [ratio] of the cells of a group (True/False). *)
Definition ratio (l : list bool) : Z :=
  (100 * Z.of_nat (List.length (filter (fun b => b) l)) / Z.of_nat (List.length l))%Z.
(** pandas: "min", "mean", "max". *)
Definition minimum (x : Q) (l : list Q) : Q := fold_left (fun a b => if Qle_bool a b then a else b) l x.
Definition maximum (x : Q) (l : list Q) : Q := fold_left (fun a b => if Qle_bool b a then a else b) l x.
Definition sum (l : list Q) : Q := fold_left Qplus l 0%Q.
Definition stats (l : list Q) : option (Q * Q * Q) :=
  match l with
  | [] => None
  | x :: l' => Some (minimum x l', sum l / inject_Z (Z.of_nat (List.length l)), maximum x l')%Q
  end.

(** [str.replace]: from left to right; [skip] characters belong to the match before. *)
Fixpoint replace (pattern new : string) (skip : nat) (s : string) : string :=
  match s with
  | EmptyString => EmptyString
  | String c s' =>
      match skip with
      | S k => replace pattern new k s'
      | O => if prefix pattern s then new ++ replace pattern new (String.length pattern - 1) s'
             else String c (replace pattern new 0 s')
      end
  end.
(** 242-244: replace an underscore by a backslash and an underscore. *)
Definition escape (s : string) : string := replace "_" "\_" 0 s.

(** pandas.read_csv: rows as dictionaries; no file: FileNotFoundError; no header: EmptyDataError. *)
Definition frame := list (list (string * value)).
Fixpoint names (h : list value) : option (list string) :=
  match h with
  | [] => Some []
  | VStr s :: h => option_bind (names h) (fun l => Some (s :: l))
  | _ => None
  end.
Definition read_csv (f : file) : option frame :=
  match f with
  | Some (h :: rows) => option_bind (names h) (fun h => Some (map (combine h) rows))
  | _ => None
  end.
(** [row[c]]; KeyError. *)
Fixpoint column (c : string) (row : list (string * value)) : option value :=
  match row with
  | [] => None
  | (c', v) :: row => if String.eqb c' c then Some v else column c row
  end.

Record line := { ln_key : list string; ln_success : Z; ln_total : Q * Q * Q; ln_learner : Q * Q * Q }.

Section Analyser.
  Context (show : value -> string).

  (** A cell as text; [None]: empty. *)
  Definition text (v : value) : option string :=
    match v with
    | VNone => None
    | VStr s => if String.eqb s "" then None else Some s
    | v => Some (show v)
    end.
  Definition cell (c : string) (row : list (string * value)) : option (option string) := option_map text (column c row).
  (** 246-247: [df[c] + ", " + df[alt].fillna("")]. *)
  Definition joined (f : string -> string) (c alt : string) (row : list (string * value)) : option (option string) :=
    option_bind (cell c row) (fun a => option_bind (cell alt row) (fun b =>
    Some (option_map (fun a => f a ++ ", " ++ match b with Some b => f b | None => "" end) a))).
  (** 256-265 with 237-249: the index of a row, one cell per column. *)
  Definition index (row : list (string * value)) : option (list (option string)) :=
    option_bind (cell "latex" row) (fun latex => option_bind (cell "domains" row) (fun domains =>
    option_bind (cell "Benchmark_file" row) (fun model => option_bind (cell "N_s" row) (fun n_s =>
    option_bind (cell "N_u" row) (fun n_u => option_bind (cell "Certificate" row) (fun certificate =>
    option_bind (joined (fun s => s) "Neurons" "Alt_Neurons" row) (fun neurons =>
    option_bind (joined escape "Activations" "Alt_Activations" row) (fun activations =>
    Some [latex; domains; option_map escape model; n_s; n_u;
          option_map (fun s => replace "RSWS" "RSWA" 0 (replace "RWS" "RWA" 0 s)) certificate; neurons; activations])))))))).
  Definition full (l : list (option string)) : option (list string) := all_some l.

  Definition the_bool (v : value) : option bool := match v with VBool b => Some b | _ => None end.
  Definition the_number (v : value) : option Q := match v with VNum q => Some q | _ => None end.
  (** A row that is kept: its key and the three values. *)
  Record kept := { k_key : list string; k_result : bool; k_total : Q; k_learner : Q }.
  Definition keep (row : list (string * value)) : option (option kept) :=
    option_bind (index row) (fun i =>
    option_bind (option_bind (column "Result" row) the_bool) (fun res =>
    option_bind (option_bind (column "Total_Time" row) the_number) (fun total =>
    option_bind (option_bind (column "Learner_Time" row) the_number) (fun learner =>
    Some (option_map (fun key => {| k_key := key; k_result := res; k_total := total; k_learner := learner |}) (full i)))))).
  Fixpoint keep_all (df : frame) : option (list kept) :=
    match df with
    | [] => Some []
    | row :: df => option_bind (keep row) (fun k => option_bind (keep_all df) (fun l =>
        Some match k with Some k => k :: l | None => l end))
    end.

  Definition key_eq (a b : list string) : bool := if list_eq_dec string_dec a b then true else false.
  (** The keys in the order of their first appearance. *)
  Fixpoint first_keys (seen : list (list string)) (l : list kept) : list (list string) :=
    match l with
    | [] => []
    | k :: l => if existsb (key_eq (k_key k)) seen then first_keys seen l
                else k_key k :: first_keys (k_key k :: seen) l
    end.
  Definition summarise (l : list kept) (key : list string) : option line :=
    let group := filter (fun k => key_eq (k_key k) key) l in
    option_bind (stats (map k_total group)) (fun total => option_bind (stats (map k_learner group)) (fun learner =>
    Some {| ln_key := key; ln_success := ratio (map k_result group); ln_total := total; ln_learner := learner |})).
  (** 266-276 [pd.pivot_table(...)]. *)
  Definition table_main (f : file) : option (list line) :=
    option_bind (read_csv f) (fun df => option_bind (keep_all df) (fun l =>
    all_some (map (summarise l) (first_keys [] l)))).
End Analyser.

(** 233-235 [get_benchmarks]. *)
Definition get_benchmarks (f : file) : option (list value) :=
  option_bind (read_csv f) (fun df => option_bind (all_some (map (column "Benchmark_file") df)) (fun l =>
  Some (fold_left (fun seen v => if existsb (fun w => match v, w with VStr a, VStr b => String.eqb a b | _, _ => false end) seen
                                 then seen else (seen ++ [v])%list) l []))).
