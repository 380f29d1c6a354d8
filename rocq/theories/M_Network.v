(** Model of the networks of fossil/learner.py and of fossil/translator.py.
    No proofs in this file.
    Simplifications: weights are exact rationals (float32 idealised), numpy's shape
    errors are not represented (networks are built by [LearnerNN.__init__], whose
    shapes always fit), and a layer carries its activation ([net.acts[idx]], 134-135). *)
From Coq Require Import Reals QArith Qround Qreals List Bool Arith ZArith.
From Verif Require Import M_Syntax M_Activations M_Domains.
Import ListNotations.

(** torch.nn.Linear: weight (one row per output) and optional bias; learner.py:66, 75. *)
Record layer := { weight : list (list Q); bias : option (list Q) }.
(** learner.py:52-84: hidden layers with their activations, then the output layer. *)
Record network := { in_size : nat; hidden : list (layer * act); last : layer }.

(** translator.py:176-179, 182-185: the bias, or zeros. *)
Definition bias_or_zeros (l : layer) : list Q :=
  match bias l with Some b => b | None => map (fun _ => 0%Q) (weight l) end.

(** ** Numeric evaluation *)
(** torch.nn.Linear.forward on one row. *)
Definition affine (l : layer) (y : list R) : list R :=
  map2 (fun r b => (Rsum (map2 (fun w v => Q2R w * v) r y) + Q2R b)%R) (weight l) (bias_or_zeros l).
(** learner.py:131-135. *)
Fixpoint hidden_forward (hs : list (layer * act)) (y : list R) : list R :=
  match hs with
  | [] => y
  | (l, a) :: hs => hidden_forward hs (forward a (affine l y))
  end.
(** learner.py:123-138 [forward]. *)
Definition net_forward (net : network) (x : list R) : R :=
  nth 0 (affine (last net) (hidden_forward (hidden net) x)) 0%R.
(** learner.py:21-26, 211-215 [compute_factors]; [quad] is FACTORS == QUADRATIC. *)
Definition factor (quad : bool) (x : list R) : R :=
  if quad then Rsum (map (fun v => (v ^ 2)%R) x) else 1%R.
(** learner.py:187-188: V = NN(x) * F(x). *)
Definition learner_value (quad : bool) (net : network) (x : list R) : R :=
  (net_forward net x * factor quad x)%R.

(** ** Rounding *)
(** numpy's rint: round half to even. *)
Definition rint (q : Q) : Z :=
  let f := Qfloor q in
  match (q - inject_Z f ?= 1 # 2)%Q with
  | Lt => f
  | Gt => (f + 1)%Z
  | Eq => if Z.even f then f else (f + 1)%Z
  end.
(** np.round(q, d) for d >= 0. *)
Definition round_dp (d : nat) (q : Q) : Q :=
  let p := (10 ^ Z.of_nat d)%Z in (inject_Z (rint (q * inject_Z p)) / inject_Z p)%Q.
(** translator.py:112-115, 174-185: a negative ROUNDING means no rounding. *)
Definition round_num (r : Z) (q : Q) : Q :=
  if (r <? 0)%Z then q else round_dp (Z.to_nat r) q.
Definition round_mat (r : Z) (m : list (list Q)) : list (list Q) := map (map (round_num r)) m.

(** ** Symbolic evaluation *)
Definition edot (xs ys : list expr) : expr := esum (map2 (EBin BMul) xs ys).
Definition enum (m : list (list Q)) : list (list expr) := map (map ENum) m.
(** [w @ z] for a column vector z. *)
Definition matvec (A : list (list expr)) (z : list expr) : list expr := map (fun r => edot r z) A.
(** [A @ B] where B has [n] columns. *)
Definition ematmul (n : nat) (A B : list (list expr)) : list (list expr) :=
  map (fun r => map (fun j => edot r (map (fun row => nth j row (ENum 0)) B)) (seq 0 n)) A.
(** np.eye *)
Definition eye (n : nat) : list (list expr) :=
  map (fun i => map (fun j => if (i =? j)%nat then ENum 1 else ENum 0) (seq 0 n)) (seq 0 n).
(** np.diagflat *)
Definition diagflat (d : list expr) : list (list expr) :=
  map (fun i => map (fun j => if (i =? j)%nat then nth i d (ENum 0) else ENum 0) (seq 0 (length d)))
      (seq 0 (length d)).

(** translator.py:174-187: [zhat = w @ z + b] with rounded [w] and [b]. *)
Definition zhat (r : Z) (l : layer) (z : list expr) : list expr :=
  map2 (EBin BAdd) (matvec (enum (round_mat r (weight l))) z)
       (map ENum (match bias l with
                  | Some b => map (round_num r) b
                  | None => map (fun _ => 0%Q) (weight l)
                  end)).

(** translator.py:164-195 [TranslatorCT.network_until_last_layer]. *)
Fixpoint until_last_ct (b : symb) (r : Z) (n : nat) (hs : list (layer * act))
  (z : list expr) (J : list (list expr)) : option (list expr * list (list expr)) :=
  match hs with
  | [] => Some (z, J)
  | (l, a) :: hs =>
      let zh := zhat r l z in
      option_bind (forward_symbolic b a zh) (fun z' =>
      option_bind (derivative_symbolic b a zh) (fun d =>
      until_last_ct b r n hs z'
        (ematmul n (diagflat d) (ematmul n (enum (round_mat r (weight l))) J))))
  end.

(** translator.py:112-120: the output layer; the bias is added unrounded. *)
Definition last_z (r : Z) (l : layer) (z : list expr) : list expr :=
  let y := matvec (enum (round_mat r (weight l))) z in
  match bias l with Some c => map2 (EBin BAdd) y (map ENum c) | None => y end.

(** translator.py:80-89 [compute_factors]. *)
Definition compute_factors (quad : bool) (xs : list expr) : expr * list expr :=
  if quad then (esum (map (fun x => EPow x 2) xs), map (fun x => ENum 2 * x)%E xs)
  else (ENum 1, map (fun _ => ENum 0) xs).

(** translator.py:28-40 [round_arith]: cvc5's simplification ([simp], any), then every
    numeral rounded by [Fraction.__round__(dp)] (a negative [dp] rounds to tens, ...). *)
Definition round_frac (dp : Z) (q : Q) : Q :=
  if (dp <? 0)%Z
  then let p := (10 ^ (- dp))%Z in (inject_Z (rint (q / inject_Z p)) * inject_Z p)%Q
  else round_dp (Z.to_nat dp) q.
Fixpoint round_numerals (dp : Z) (e : expr) : expr :=
  match e with
  | ENum q => ENum (round_frac dp q)
  | EVar i => EVar i
  | EUn u a => EUn u (round_numerals dp a)
  | EBin o a c => EBin o (round_numerals dp a) (round_numerals dp c)
  | EPow a k => EPow (round_numerals dp a) k
  | EIfPos c a d => EIfPos (round_numerals dp c) (round_numerals dp a) (round_numerals dp d)
  end.
Definition cvc5_fix (b : symb) (simp : expr -> expr) (r : Z) (e : expr) : expr :=
  match b with SCVC5 => round_numerals r (simp e) | _ => e end.
Definition fix_head (f : expr -> expr) (l : list expr) : list expr :=
  match l with [] => [] | e :: l => f e :: l end.

(** translator.py:102-145 [TranslatorCT.get_symbolic_formula]: V and Vdot; [None] when
    an activation has no symbolic form for the solver or the output is not scalar. *)
Definition translate_ct (b : symb) (simp : expr -> expr) (r : Z) (quad : bool) (net : network)
  (xs xdot : list expr) : option (expr * expr) :=
  let n := in_size net in
  option_bind (until_last_ct b r n (hidden net) xs (eye n)) (fun '(z, J) =>
  match last_z r (last net) z with
  | [out] =>                                                        (* 122 *)
      let jac := nth 0 (ematmul n (enum (round_mat r (weight (last net)))) J) [] in
      let '(E, dE) := compute_factors quad xs in                    (* 124 *)
      let grad := map2 (EBin BAdd) (map (fun g => g * E)%E jac)     (* 127-129 *)
                       (map (fun d => d * out)%E dE) in
      let grad := fix_head (cvc5_fix b simp r) grad in              (* 131-132 *)
      let out := cvc5_fix b simp r out in                           (* 133 *)
      Some (out * E, edot grad xdot)%E                              (* 136-145 *)
  | _ => None
  end).

(** translator.py:241-266 [TranslatorDT.network_until_last_layer]: with rounding 0 the
    weights are never assigned (UnboundLocalError). *)
Fixpoint until_last_dt (b : symb) (r : Z) (hs : list (layer * act)) (z : list expr)
  : option (list expr) :=
  match hs with
  | [] => Some z
  | (l, a) :: hs =>
      if (r =? 0)%Z then None
      else option_bind (forward_symbolic b a (zhat r l z)) (fun z' => until_last_dt b r hs z')
  end.

(** translator.py:203-239 [TranslatorDT.get_symbolic_formula]: V and the difference. *)
Definition translate_dt (b : symb) (r : Z) (quad : bool) (net : network)
  (xs xdot : list expr) : option (expr * expr) :=
  option_bind (until_last_dt b r (hidden net) xs) (fun z =>
  option_bind (until_last_dt b r (hidden net) xdot) (fun zd =>
  match last_z r (last net) z, last_z r (last net) zd with
  | [out], [outd] =>
      let E := fst (compute_factors quad xs) in
      let V := (out * E)%E in
      let next := match b with
                  | SSYMPY => if quad && negb (length xs =? 1)%nat then outd * E else outd  (* 232-234 *)
                  | _ => outd                                                               (* 237 *)
                  end%E in
      Some (V, next - V)%E
  | _, _ => None
  end)).
