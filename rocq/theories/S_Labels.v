(** Specification: which sets each certificate needs, written from the README and the
    class documentation, and where samples and symbolic sets come from. *)
From Coq Require Import List.
From Verif Require Import M_Certificates M_Cegis M_Labels.
Import ListNotations.

Definition same_labels (a b : list label) : Prop := forall l, In l a <-> In l b.

(** Symbolic sets. *)
Definition needs_domain (c : cert_type) (l : label) : Prop :=
  match c with
  | LYAPUNOV => l = XD
  | ROA => l = XI
  | BARRIER | BARRIERALT | STABLESAFE => l = XD \/ l = XI \/ l = XU
  | RWS | RWA => l = XD \/ l = XI \/ l = XS \/ l = XS_BORDER \/ l = XG
  | RSWS | RSWA => l = XD \/ l = XI \/ l = XS \/ l = XS_BORDER \/ l = XG \/ l = XG_BORDER
  | RAR => l = XD \/ l = XI \/ l = XS \/ l = XS_BORDER \/ l = XG \/ l = XF \/ l = XNF
  | CUSTOM => False
  end.
(** Sampled sets. *)
Definition needs_data (c : cert_type) (l : label) : Prop :=
  match c with
  | LYAPUNOV => l = XD
  | ROA => l = XD \/ l = XI
  | BARRIER | BARRIERALT | STABLESAFE | RWS | RWA => l = XD \/ l = XI \/ l = XU
  | RSWS | RSWA => l = XD \/ l = XI \/ l = XU \/ l = XS \/ l = XG \/ l = XG_BORDER
  | RAR => l = XD \/ l = XI \/ l = XU \/ l = XG \/ l = XF \/ l = XNF
  | CUSTOM => False
  end.

(** The set a label stands for, in terms of the sets the user named. *)
Inductive meaning := Itself (l : label) | BoundaryOf (l : label) | DomainMinus (l : label).
Definition means (c : cert_type) (l : label) : meaning :=
  match l with
  | XS_BORDER => BoundaryOf XS
  | XG_BORDER => BoundaryOf XG
  | XNF => DomainMinus XF
  | XU => match c with RWS | RWA | RSWS | RSWA | RAR => DomainMinus XS | _ => Itself XU end
  | l => Itself l
  end.

(** Where a sample set comes from, given the sets the user named. *)
Definition source_is {D} (domains : list (label * D)) (n : nat) (m : meaning) (s : source D) : Prop :=
  match m with
  | Itself l => exists d, dlookup l domains = Some d /\ s = Sample d n
  | BoundaryOf l => exists d, dlookup l domains = Some d /\ s = Border d n
  | DomainMinus l => exists d e, dlookup XD domains = Some d /\ dlookup l domains = Some e /\ s = Difference d e n
  end.
(** What a symbolic set is generated from ([DomainMinus] for the symbolic sets is the
    complement: the verifier conjoins the domain separately). *)
Definition symbolic_is {D} (domains : list (label * D)) (m : meaning) (s : symbolic D) : Prop :=
  match m with
  | Itself l => exists d, dlookup l domains = Some d /\ s = SDomain d
  | BoundaryOf l => exists d, dlookup l domains = Some d /\ s = SBoundary d
  | DomainMinus l => exists d, dlookup l domains = Some d /\ s = SComplement d
  end.
(** The sets a user has to name for a certificate on the command line. *)
Definition user_domain (c : cert_type) (l : label) : Prop :=
  match c with
  | LYAPUNOV => l = XD
  | ROA => l = XD \/ l = XI
  | BARRIER | BARRIERALT | STABLESAFE => l = XD \/ l = XI \/ l = XU
  | RWS | RWA | RSWS | RSWA => l = XD \/ l = XI \/ l = XS \/ l = XG
  | RAR => l = XD \/ l = XI \/ l = XS \/ l = XG \/ l = XF
  | CUSTOM => False
  end.
(** Time domains for which a certificate exists. *)
Definition supported (t : time_domain) (c : cert_type) : Prop := t = DISCRETE -> c = LYAPUNOV \/ c = BARRIERALT.
