(** Finite-table solvers, used to exhibit concrete runs in examples and
    refutations: such a solver answers [Unsat] exactly on the listed formulas and
    [Unknown] otherwise. *)
From Coq Require Import Reals QArith List Bool Arith.
From Verif Require Import M_Syntax M_Certificates M_Verifier S_Verifier.
Import ListNotations.

Definition Q_syn_dec (a b : Q) : {a = b} + {a <> b}.
Proof. decide equality; [apply Pos.eq_dec | apply Z.eq_dec]. Defined.

Definition expr_dec (a b : expr) : {a = b} + {a <> b}.
Proof.
  decide equality; try apply Q_syn_dec; try apply Nat.eq_dec; decide equality.
Defined.

Definition fml_dec (a b : fml) : {a = b} + {a <> b}.
Proof. decide equality; try apply expr_dec; decide equality. Defined.

Definition table (fs : list fml) (f : fml) : answer :=
  if in_dec fml_dec f fs then Unsat else Unknown.

Lemma table_sound fs :
  (forall f, In f fs -> unsatisfiable f) -> forall f, table fs f = Unsat -> unsatisfiable f.
Proof.
  intros H f. unfold table. destruct (in_dec fml_dec f fs); [intros _; auto|discriminate].
Qed.

Lemma table_hit fs f : In f fs -> table fs f = Unsat.
Proof. intros H. unfold table. destruct (in_dec fml_dec f fs); easy. Qed.
