(** Model of fossil/verifier.py.  No proofs in this file. *)
From Coq Require Import Reals QArith List Bool Arith.
From Verif Require Import M_Syntax M_Certificates.
Import ListNotations.

(** Python dictionaries keyed by labels: insertion ordered, assignment to an
    existing key overwrites in place. *)
Fixpoint dset {A} (l : label) (v : A) (d : list (label * A)) : list (label * A) :=
  match d with
  | [] => [(l, v)]
  | (l', v') :: d' =>
      if label_eqb l' l then (l', v) :: d' else (l', v') :: dset l v d'
  end.

(** verifier.py:63-116: the methods a back-end class supplies.
    [b_solve k f] is the answer to the [k]-th solver call of this run
    ([solve_with_timeout], verifier.py:200-217; the answer may depend on time,
    so it is indexed by the call number);
    [b_model r] is the point read back from a sat answer (219-232). *)
Record backend := {
  b_res : Type;
  b_solve : nat -> fml -> b_res;
  b_is_sat : b_res -> bool;
  b_is_unsat : b_res -> bool;
  b_model : b_res -> list R
}.

Section Verify.
  Context (be : backend).

  (** verifier.py:131-140: the inner loop over one group.  [k] counts solver
      calls; [results] is the dictionary label -> answer ([solvers] has the same
      keys and is represented by the answers). *)
  Fixpoint run_group (k : nat) (g : group) (results : list (label * b_res be))
    : nat * list (label * b_res be) :=
    match g with
    | [] => (k, results)
    | (l, c) :: g' => run_group (S k) g' (dset l (b_solve be k c) results)
    end.

  Definition any_sat (results : list (label * b_res be)) : bool :=
    existsb (fun p => b_is_sat be (snd p)) results.

  (** verifier.py:130-143: the loop over groups with [break]. *)
  Fixpoint run_groups (k : nat) (gs : list group)
      (results : list (label * b_res be)) : nat * list (label * b_res be) :=
    match gs with
    | [] => (k, results)
    | g :: gs' =>
        let '(k', r') := run_group k g results in
        if any_sat r' then (k', r') else run_groups k' gs' r'
    end.

  (** verifier.py:237-251 [randomise_counterex] with [counterexample_n = 20]
      (verifier.py:67); [noise i j] is the [j]-th component of the [i]-th
      [torch.randn].  The exact point is appended last. *)
  Definition counterexample_n : nat := 20.
  Definition perturb (noise : nat -> R) (p : list R) : list R :=
    map (fun jx => (snd jx + 5 * / 10000 * noise (fst jx))%R)
        (combine (seq 0 (length p)) p).
  Definition randomise_counterex (noise : nat -> nat -> R) (p : list R)
    : list (list R) :=
    map (fun i => perturb (noise i) p) (seq 0 counterexample_n) ++ [p].

  Record verdict := {
    v_found : bool;
    v_cex : list (label * list (list R))   (* [] stands for Python's [] *)
  }.

  (** verifier.py:118-166 [Verifier.verify].  [gs] is the list of groups yielded
      by the certificate ([domain_constraints], 171-172).  The generator is
      consumed lazily by Python; since it has no side effects a list is
      equivalent. *)
  Definition verify (noise : label -> nat -> nat -> R) (gs : list group) : verdict :=
    let results := snd (run_groups 0 gs []) in
    if forallb (fun p => b_is_unsat be (snd p)) results
    then {| v_found := true; v_cex := map (fun p => (fst p, [])) results |}
    else {| v_found := false;
            v_cex := map (fun p =>
              (fst p, if b_is_sat be (snd p)
                      then randomise_counterex (noise (fst p)) (b_model be (snd p))
                      else [])) results |}.
End Verify.

(** ** Z3 and CVC5 back-ends: verifier.py:390-429, 433-500.
    An answer is sat (with a model), unsat or unknown. *)
Inductive answer := Sat (m : list R) | Unsat | Unknown.

Definition smt_is_sat (a : answer) : bool :=
  match a with Sat _ => true | _ => false end.
Definition smt_is_unsat (a : answer) : bool :=
  match a with Unsat => true | _ => false end.
Definition smt_model (a : answer) : list R :=
  match a with Sat m => m | _ => [] end.

Definition smt_backend (solve : nat -> fml -> answer) : backend :=
  {| b_res := answer; b_solve := solve; b_is_sat := smt_is_sat;
     b_is_unsat := smt_is_unsat; b_model := smt_model |}.

(** ** dReal back-end: verifier.py:300-358.
    [CheckSatisfiability] returns a box (an interval per variable) or None. *)
Definition box := list (R * R).
Definition mid (i : R * R) : R := ((fst i + snd i) / 2)%R.

(** verifier.py:48-57 [VARS_BOUNDS] = (-1e300, 1e300), [DREAL_SECOND_CHANCE_BOUND] = 1e3;
    verifier.py:282-284 [in_bounds]. *)
Definition huge : R := (10 ^ 300)%R.
Definition Rltb (a b : R) : bool := if Rlt_dec a b then true else false.
Definition in_bounds (a : R) : bool := Rltb (- huge) a && Rltb a huge.

(** verifier.py:333-337 [within_bounds]. *)
Definition dreal_within_bounds (r : option box) : bool :=
  match r with
  | Some b => forallb (fun i => in_bounds (mid i)) b
  | None => false
  end.

(** verifier.py:321-322 [is_sat], 328-331 [is_unsat]. *)
Definition dreal_is_sat (r : option box) : bool :=
  match r with Some _ => true | None => false end.
Definition dreal_is_unsat (r : option box) : bool :=
  match r with None => true | Some _ => negb (dreal_within_bounds r) end.

(** verifier.py:339-351 [_solver_solve]; [check] is dreal.CheckSatisfiability
    ([check k 0 f] / [check k 1 f]: first and second query of the [k]-th call). *)
Definition second_chance (xs : list expr) (f : fml) : fml :=
  fand (f :: map (fun x => fand [FCmp CLt x (ENum 1000); FCmp CGt x (ENum (-1000))]) xs).
Definition dreal_solve (check : nat -> nat -> fml -> option box) (xs : list expr)
    (k : nat) (f : fml) : option box :=
  let res := check k 0%nat f in
  if dreal_is_sat res && negb (dreal_within_bounds res)
  then check k 1%nat (second_chance xs f)
  else res.

(** verifier.py:353-358 [_solver_model]/[_model_result]. *)
Definition dreal_model (r : option box) : list R :=
  match r with Some b => map mid b | None => [] end.

Definition dreal_backend (check : nat -> nat -> fml -> option box) (xs : list expr)
  : backend :=
  {| b_res := option box; b_solve := dreal_solve check xs; b_is_sat := dreal_is_sat;
     b_is_unsat := dreal_is_unsat; b_model := dreal_model |}.
