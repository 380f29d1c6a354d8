(** Model of fossil/main.py [verify]: checking a candidate certificate written by the user.
    No proofs in this file. *)
From Coq Require Import Reals QArith List Bool Arith ZArith.
From Verif Require Import M_Syntax M_Certificates M_Verifier M_Activations M_Network M_Cegis M_Fossil.
Import ListNotations.
Local Open Scope E.

(** Does [e] contain the variable [i]? *)
Fixpoint mentions (i : nat) (e : expr) : bool :=
  match e with
  | ENum _ => false
  | EVar j => (i =? j)%nat
  | EUn _ a => mentions i a
  | EBin _ a b => mentions i a || mentions i b
  | EPow a _ => mentions i a
  | EIfPos c a b => mentions i c || mentions i a || mentions i b
  end.

(** verifier.py:360-370 [VerifierDReal.differentiate]: dReal's [Expression.Differentiate], the
    symbolic rules of calculus; an expression without the variable has derivative 0; [None]
    (RuntimeError) for max and if-then-else containing the variable.  dReal is an external
    library: which of the equivalent forms of a derivative it builds is not modelled. *)
Definition diff_un (u : unop) (a a' : expr) : expr :=
  match u with
  | UNeg => - a'
  | UExp => EUn UExp a * a'
  | ULog => a' / a
  | USin => EUn UCos a * a'
  | UCos => - (EUn USin a * a')
  | UTanh => (ENum 1 - EPow (EUn UTanh a) 2) * a'
  | USinh => EUn UCosh a * a'
  | UCosh => EUn USinh a * a'
  end.
Fixpoint diff (i : nat) (e : expr) : option expr :=
  match e with
  | ENum _ => Some (ENum 0)
  | EVar j => Some (ENum (if (i =? j)%nat then 1 else 0)%Q)
  | EUn u a => option_bind (diff i a) (fun a' => Some (diff_un u a a'))
  | EBin BAdd a b => option_bind (diff i a) (fun a' => option_bind (diff i b) (fun b' => Some (a' + b')))
  | EBin BSub a b => option_bind (diff i a) (fun a' => option_bind (diff i b) (fun b' => Some (a' - b')))
  | EBin BMul a b => option_bind (diff i a) (fun a' => option_bind (diff i b) (fun b' => Some (a' * b + a * b')))
  | EBin BDiv a b => option_bind (diff i a) (fun a' => option_bind (diff i b) (fun b' => Some ((a' * b - a * b') / b ^ 2)))
  | EBin BMax a b => if mentions i a || mentions i b then None else Some (ENum 0)
  | EPow a n => option_bind (diff i a) (fun a' => Some (ENum (Z.of_nat n # 1) * a ^ (n - 1) * a'))
  | EIfPos c a b => if mentions i c || mentions i a || mentions i b then None else Some (ENum 0)
  end.

(** verifier.py:290-299, 372-381 [compute_gradient]. *)
Fixpoint gradient (is_ : list nat) (e : expr) : option (list expr) :=
  match is_ with
  | [] => Some []
  | i :: is_ => option_bind (diff i e) (fun d => option_bind (gradient is_ e) (fun ds => Some (d :: ds)))
  end.

(** The constraints of a candidate that is a single expression.  ROA: [self.beta] does not
    exist before [learn] (certificate.py:334-338, 446, 456: AttributeError); STABLESAFE and RAR
    unpack the candidate into two (get_constraints: TypeError); CUSTOM is not modelled. *)
Definition candidate_constraints {K} (pb : problem K) (C Cdot : expr) : option (list group) :=
  match pb_type pb with
  | ROA => None
  | _ => fossil_constraints pb 0 C Cdot
  end.

(** main.py:131-147 [verify(opts)].  [ctrl] is the (untrained) controller that [Cegis(opts)]
    builds; [candidate] is [opts.CANDIDATE] (cli.py:66-71, 234-236), a function of the variables
    which may raise.  Only the dReal verifier has a method [differentiate]; the time domain is
    not looked at.  The result is the dictionary of [Verifier.verify], or an exception. *)
Definition verify_candidate {K} (pb : problem K) (be : backend) (noise : label -> nat -> nat -> R)
  (ctrl : K) (candidate : list expr -> option expr) : option verdict :=
  option_bind (pb_xdot pb ctrl) (fun xdot =>
  option_bind (candidate (new_vars (pb_n pb))) (fun C =>
  match pb_symb pb with
  | SDREAL =>
      option_bind (gradient (seq 0 (pb_n pb)) C) (fun grad =>
      let Cdot := edot grad xdot in
      option_bind (candidate_constraints pb C Cdot) (fun gs => Some (verify be noise gs)))
  | _ => None
  end)).
