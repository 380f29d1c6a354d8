(** Model of the CEGIS loop (fossil/cegis.py).  No proofs in this file.
    The components (learner, translator, verifier, consolidator, sublevel search) are
    arbitrary functions here; [None] stands for an exception, which ends [solve]. *)
From Coq Require Import Reals List Bool Arith ZArith.
From Verif Require Import M_Syntax M_Certificates M_Verifier M_Activations.
Import ListNotations.

(** consts.py:101-112 [CertificateType]. *)
Inductive cert_type :=
| BARRIER | BARRIERALT | LYAPUNOV | ROA | RWA | RSWA | RWS | RSWS | STABLESAFE | RAR | CUSTOM.
Definition cert_eqb (a b : cert_type) : bool :=
  match a, b with
  | BARRIER, BARRIER | BARRIERALT, BARRIERALT | LYAPUNOV, LYAPUNOV | ROA, ROA | RWA, RWA
  | RSWA, RSWA | RWS, RWS | RSWS, RSWS | STABLESAFE, STABLESAFE | RAR, RAR | CUSTOM, CUSTOM => true
  | _, _ => false
  end.

Definition point := list R.
(** The dictionaries [S], [Sdot], [cex]: label -> rows ([] for Python's empty list). *)
Definition dict := list (label * list point).
Definition has_key {A} (l : label) (d : list (label * A)) : bool :=
  match dlookup l d with Some _ => true | None => false end.

(** The components.  [P] is everything that is learned (network(s), controller
    parameters, the ROA level), [C] the symbolic candidate (V, Vdot), possibly a pair
    of them.  Every component may also depend on the iteration (timing, randomness,
    solver timeouts). *)
Record components (P C : Type) := {
  c_type : cert_type;                                     (* config.CERTIFICATE *)
  c_double : bool;                                        (* DoubleCegis, cegis.py:361-563 *)
  c_control : bool;                                       (* config.CTRLAYER is given *)
  c_max_iters : Z;                                        (* config.CEGIS_MAX_ITERS *)
  c_f : P -> point -> point;                              (* self.f on one sample *)
  c_learn : nat -> bool -> P -> dict -> dict -> option P; (* learner.get; is the first learner frozen? *)
  c_translate : nat -> P -> option C;                     (* update_controller; translator.get *)
  c_verify : nat -> P -> C -> option (bool * dict);       (* verifier.get: found, cex *)
  c_trajectory : nat -> bool -> P -> point -> option (list point); (* consolidator.compute_trajectory
                                                             with the first/second network *)
  c_stay : nat -> P -> C -> option bool;                  (* certificate.beta_search *)
  c_estimate_beta : nat -> P -> option unit               (* certificate.estimate_beta *)
}.
Arguments c_type {P C}. Arguments c_double {P C}. Arguments c_control {P C}. Arguments c_max_iters {P C}. Arguments c_f {P C}.
Arguments c_learn {P C}. Arguments c_translate {P C}. Arguments c_verify {P C}.
Arguments c_trajectory {P C}. Arguments c_stay {P C}. Arguments c_estimate_beta {P C}.

Section Cegis.
  Context {P C : Type} (k : components P C).

  (** cegis.py:235-253 [init_state] and its updates. *)
  Record cstate := {
    st_params : P;            (* net, f *)
    st_S : dict;
    st_Sdot : dict;
    st_V : option C;          (* V, V_dot *)
    st_found : bool;
    st_timed_out : bool;      (* verification_timed_out; no component ever sets it *)
    st_cex : dict;
    st_trajectory : list point;
    st_frozen : bool          (* lyap_learner.freeze() has been called *)
  }.

  (** cegis.py:157-161: Sdot = {lab: f(S)}. *)
  Definition init_state (p : P) (S : dict) : cstate :=
    {| st_params := p; st_S := S; st_Sdot := map (fun e => (fst e, map (c_f k p) (snd e))) S;
       st_V := None; st_found := false; st_timed_out := false; st_cex := []; st_trajectory := []; st_frozen := false |}.

  (** cegis.py:483-502 (DoubleCegis): the labels of the second certificate appear among
      the counterexamples ([isinstance(self.certificate, ...)] is the certificate type). *)
  Definition second_certificate (cex : dict) : bool :=
    c_double k &&
    match c_type k with
    | STABLESAFE => has_key XI cex
    | RAR => has_key XG cex
    | _ => false
    end.

  (** consolidator.py:22-30, 96-104 [get]: the last row of the counterexample of the first
      label containing "lie" (only XD = "lie" does). *)
  Fixpoint consolidator_get (it : nat) (second : bool) (p : P) (cex : dict) : option (list point) :=
    match cex with
    | [] => Some []
    | (l, rows) :: cex =>
        match label_eqb l XD, rev rows with
        | true, x :: _ => c_trajectory k it second p x
        | _, _ => consolidator_get it second p cex
        end
    end.

  (** cegis.py:333-346 [add_ces_to_data]. *)
  Fixpoint add_ces_to_data (p : P) (S Sdot cex : dict) : option (dict * dict) :=
    match cex with
    | [] => Some (S, Sdot)
    | (l, []) :: cex => add_ces_to_data p S Sdot cex
    | (l, rows) :: cex =>
        match dlookup l S with
        | None => None (* KeyError *)
        | Some old =>
            let S := dset l (old ++ rows) S in
            let Sdot := dset l (map (c_f k p) (old ++ rows)) Sdot in
            add_ces_to_data p S Sdot cex
        end
    end.

  (** cegis.py:255-276 [process_cex]; 539-550 for DoubleCegis. *)
  Definition add_trajectory (S cex : dict) (t : list point) : option dict :=
    match t with
    | [] => Some cex
    | _ =>
        if has_key XD S then
          match dlookup XD cex with Some rows => Some (dset XD (rows ++ t) cex) | None => None end
        else None (* IndexError *)
    end.
  Definition process_cex (st : cstate) : option cstate :=
    option_bind (if c_double k then Some (st_cex st) else add_trajectory (st_S st) (st_cex st) (st_trajectory st))
      (fun cex => option_bind (add_ces_to_data (st_params st) (st_S st) (st_Sdot st) cex)
        (fun '(S1, Sdot1) =>
          Some {| st_params := st_params st; st_S := S1; st_Sdot := Sdot1; st_V := st_V st;
                  st_found := st_found st; st_timed_out := st_timed_out st; st_cex := cex;
                  st_trajectory := st_trajectory st;
                  st_frozen := st_frozen st |})).

  Definition set_found (b : bool) (st : cstate) : cstate :=
    {| st_params := st_params st; st_S := st_S st; st_Sdot := st_Sdot st; st_V := st_V st;
       st_found := b; st_timed_out := st_timed_out st; st_cex := st_cex st; st_trajectory := st_trajectory st;
                  st_frozen := st_frozen st |}.

  (** cegis.py:291-327 [process_certificate]: returns [stop] and the state. *)
  Definition process_certificate (it : nat) (c : C) (st : cstate) : option (bool * cstate) :=
    option_bind
      (if cert_eqb (c_type k) LYAPUNOV || cert_eqb (c_type k) ROA
       then c_estimate_beta k it (st_params st) else Some tt)
      (fun _ =>
        if cert_eqb (c_type k) RSWS then
          option_bind (c_stay k it (st_params st) c) (fun stay =>
            if stay then Some (true, st)
            else Some ((c_max_iters k =? Z.of_nat it)%Z, set_found false st))
        else Some (true, st)).

  (** cegis.py:172-217 (and 464-525): one pass through the loop body with [iters = it]. *)
  Definition iterate (it : nat) (st : cstate) : option (bool * cstate) :=
    option_bind (c_learn k it (st_frozen st) (st_params st) (st_S st) (st_Sdot st)) (fun p =>
    option_bind (c_translate k it p) (fun c =>
    option_bind (c_verify k it p c) (fun '(found, cex) =>
    let second := second_certificate cex in
    option_bind (consolidator_get it second p cex) (fun t =>
      let st := {| st_params := p; st_S := st_S st; st_Sdot := st_Sdot st; st_V := Some c;
                   st_found := found; st_timed_out := st_timed_out st; st_cex := cex; st_trajectory := t;
                   st_frozen := st_frozen st || (second && negb (c_control k)) |} in
      if found then process_certificate it c st
      else if st_timed_out st then Some (true, st)
      else if (c_max_iters k =? Z.of_nat it)%Z then Some (true, st)
      else option_bind (process_cex st) (fun st => Some (false, st)))))).

  (** cegis.py:156-228 [solve]: the while loop, cut off after [fuel] passes. *)
  Inductive outcome :=
  | Running
  | Raised
  | Returned (iters : nat) (st : cstate).
  Fixpoint loop (fuel it : nat) (st : cstate) : outcome :=
    match fuel with
    | O => Running
    | S fuel =>
        match iterate it st with
        | None => Raised
        | Some (true, st) => Returned (it + 1) st
        | Some (false, st) => loop fuel (it + 1) st
        end
    end.

  (** cegis.py:218-228, 25-36: the returned [Result]. *)
  Record result := {
    r_res : bool; r_certificate : cert_type; r_learned : P; r_symbolic : option C; r_iters : nat; r_N_data : nat
  }.
  Definition make_result (iters : nat) (st : cstate) : result :=
    {| r_res := st_found st; r_certificate := c_type k; r_learned := st_params st; r_symbolic := st_V st;
       r_iters := iters; r_N_data := fold_right plus O (map (fun e => length (snd e)) (st_S st)) |}.

  (** [solve()] returns [r] / raises / is still running after [fuel] iterations. *)
  Definition solve (fuel : nat) (p : P) (S : dict) : option (option result) :=
    match loop fuel 0 (init_state p S) with
    | Running => None
    | Raised => Some None
    | Returned it st => Some (Some (make_result it st))
    end.
End Cegis.
