(** Model of controllers and closed loops (fossil/control.py).  No proofs in this file.
    Simplifications: the user's open-loop model is given by one expression per state
    component, in which variable [i < n] is the state component [v[i]] and variable
    [n + j] the input [u[j]] (its [f_torch] and [f_smt] agree); weights are exact
    rationals; torch's shape errors are not represented. *)
From Coq Require Import Reals QArith Qreals List Bool Arith ZArith.
From Verif Require Import M_Syntax M_Activations M_Network.
Import ListNotations.

(** control.py:260-277 [GeneralController.__init__]: [k_layers] are the hidden layers
    followed by the output layer, none of them with a bias. *)
Record controller := { k_acts : list act; k_layers : list layer }.
Definition output_layer (c : controller) : layer :=
  List.last (k_layers c) {| weight := []; bias := None |}.

(** control.py:281-283, 298-302: [zip(self.acts, self.layers)] stops with the shorter. *)
Definition zipped (c : controller) : list (layer * act) := combine (k_layers c) (k_acts c).

(** control.py:279-285 [forward] on one row. *)
Definition ctrl_forward (c : controller) (x : list R) : list R :=
  affine (output_layer c) (hidden_forward (zipped c) x).

(** control.py:294-309 [to_symbolic]: weights rounded to 5 decimals, no bias is added. *)
Definition ctrl_rounding : Z := 5.
Definition rounded_matvec (l : layer) (y : list expr) : list expr :=
  matvec (enum (round_mat ctrl_rounding (weight l))) y.
Fixpoint ctrl_hidden_symbolic (b : symb) (hs : list (layer * act)) (y : list expr) : option (list expr) :=
  match hs with
  | [] => Some y
  | (l, a) :: hs =>
      option_bind (forward_symbolic b a (rounded_matvec l y)) (fun y => ctrl_hidden_symbolic b hs y)
  end.
Definition to_symbolic (b : symb) (c : controller) (x : list expr) : option (list expr) :=
  option_bind (ctrl_hidden_symbolic b (zipped c) x) (fun y => Some (rounded_matvec (output_layer c) y)).

(** Calling the user's Python function on symbolic arguments substitutes them. *)
Fixpoint esubst (sigma : nat -> expr) (e : expr) : expr :=
  match e with
  | ENum q => ENum q
  | EVar i => sigma i
  | EUn u a => EUn u (esubst sigma a)
  | EBin o a b => EBin o (esubst sigma a) (esubst sigma b)
  | EPow a k => EPow (esubst sigma a) k
  | EIfPos c a b => EIfPos (esubst sigma c) (esubst sigma a) (esubst sigma b)
  end.
(** The largest index used plus one. *)
Fixpoint ebound (e : expr) : nat :=
  match e with
  | ENum _ => 0
  | EVar i => S i
  | EUn _ a => ebound a
  | EBin _ a b => Nat.max (ebound a) (ebound b)
  | EPow a _ => ebound a
  | EIfPos c a b => Nat.max (ebound c) (Nat.max (ebound a) (ebound b))
  end.

(** control.py:134-176 [ControllableDynamicalModel.f]: [u[j]] beyond the controller's
    outputs is an IndexError. *)
Definition f_smt (n : nat) (f : list expr) (v u : list expr) : option (list expr) :=
  if forallb (fun e => ebound e <=? n + length u)%nat f
  then Some (map (esubst (fun i => if (i <? n)%nat then nth i v (ENum 0) else nth (i - n) u (ENum 0))) f)
  else None.
Definition f_torch (n : nat) (f : list expr) (v u : list R) : list R :=
  map (eval (fun i => if (i <? n)%nat then nth i v 0%R else nth (i - n) u 0%R)) f.

(** control.py:333-343 [GeneralClosedLoopModel.f_smt] and [f_torch]. *)
Definition closed_smt (b : symb) (n : nat) (f : list expr) (c : controller) : option (list expr) :=
  option_bind (to_symbolic b c (new_vars n)) (fun u => f_smt n f (new_vars n) u).
Definition closed_torch (n : nat) (f : list expr) (c : controller) (v : list R) : list R :=
  f_torch n f v (ctrl_forward c v).
