(** Model of the handling of set labels: [_assert_state] of the certificates
    (fossil/certificate.py), the advertised sets (fossil/consts.py), the domains and data
    built by the command line (fossil/cli.py) and by [SingleCegis.__init__].
    No proofs in this file.
    [D] is the type of domain objects; [None] is an exception.  Parsing of the YAML text
    and of the names (KeyError on an unknown name) is not represented. *)
From Coq Require Import List Bool Arith.
From Verif Require Import M_Certificates M_Verifier M_Activations M_Cegis.
Import ListNotations.


Definition mem (l : label) (s : list label) : bool := existsb (label_eqb l) s.
(** Python's comparison of two sets of labels. *)
Definition set_eqb (a b : list label) : bool := forallb (fun l => mem l b) a && forallb (fun l => mem l a) b.

(** certificate.py:316-321, 486-491, 695-700, 874-879, 1072-1079, 1323-1332, 1446-1454,
    1592-1599: the required labels of the symbolic domains and of the data; [None] for
    CUSTOM (145-152: any). *)
Definition state_domains (c : cert_type) : option (list label) :=
  match c with
  | LYAPUNOV => Some [XD]
  | ROA => Some [XI]
  | BARRIER | BARRIERALT | STABLESAFE => Some [XD; XI; XU]
  | RWS | RWA => Some [XD; XI; XS; XS_BORDER; XG]
  | RSWS | RSWA => Some [XD; XI; XS; XS_BORDER; XG; XG_BORDER]
  | RAR => Some [XD; XI; XS; XS_BORDER; XG; XF; XNF]
  | CUSTOM => None
  end.
Definition state_data (c : cert_type) (actual : list label) : option (list label) :=
  match c with
  | LYAPUNOV => Some [XD]
  | ROA => Some [XD; XI]
  | BARRIER | BARRIERALT | RWS | RWA => Some [XD; XI; XU]
  | RSWS | RSWA => Some [XD; XI; XU; XS; XG; XG_BORDER]
  | STABLESAFE => if mem XR actual then Some [XD; XR; XI; XU] else Some [XD; XI; XU]
  | RAR => Some [XD; XI; XU; XG; XF; XNF]
  | CUSTOM => None
  end.
(** certificate.py:54-60 [_set_assertion]. *)
Definition set_assertion (required : option (list label)) (actual : list label) : bool :=
  match required with Some r => set_eqb r actual | None => true end.
Definition assert_state (c : cert_type) (domains data : list label) : bool :=
  set_assertion (state_domains c) domains && set_assertion (state_data c data) data.

(** cegis.py:101-120 [_initialise_domains]: how each symbolic domain is generated. *)
Inductive symbolic (D : Type) := SDomain (d : D) | SBoundary (d : D) | SComplement (d : D).
Arguments SDomain {D}. Arguments SBoundary {D}. Arguments SComplement {D}.
Definition is_border (l : label) : bool := match l with XG_BORDER | XS_BORDER => true | _ => false end.
Definition initialise_domains {D} (c : cert_type) (domains : list (label * D)) : option (list (label * symbolic D)) :=
  let sym := map (fun e => (fst e, if is_border (fst e) then SBoundary (snd e) else SDomain (snd e))) domains in
  match c with
  | RAR => option_bind (dlookup XF domains) (fun d => Some (dset XNF (SComplement d) sym))
  | _ => Some sym
  end.

Inductive time_domain := CONTINUOUS | DISCRETE.
(** cegis.py:348-358 [_assert_state] with [config.LEARNING_RATE] and
    [config.CEGIS_MAX_TIME_S] positive. *)
Definition time_ok (t : time_domain) (c : cert_type) : bool :=
  match t with
  | CONTINUOUS => true
  | DISCRETE => match c with LYAPUNOV | BARRIERALT => true | _ => false end
  end.
(** Does [Cegis(config)] get past the checks of the sets?  The constructors of the
    certificates read a subset of the required labels. *)
Definition accepted {D T} (t : time_domain) (c : cert_type) (domains : list (label * D)) (data : list (label * T)) : bool :=
  match initialise_domains c domains with
  | Some sym => time_ok t c && assert_state c (map fst sym) (map fst data)
  | None => false
  end.

(** consts.py:115-150 [get_certificate_sets]; unbound variables for CUSTOM. *)
Definition advertised (c : cert_type) : option (list label * list label) :=
  match c with
  | LYAPUNOV => Some ([XD], [XD])
  | BARRIER | BARRIERALT | STABLESAFE => Some ([XD; XI; XU], [XD; XI; XU])
  | ROA => Some ([XD; XI], [XD; XI])
  | RWS | RWA => Some ([XD; XI; XS; XS_BORDER; XG], [XD; XI; XU])
  | RSWS | RSWA => Some ([XD; XI; XS; XS_BORDER; XG; XG_BORDER], [XD; XI; XU; XS; XG; XG_BORDER])
  | RAR => Some ([XD; XI; XS; XS_BORDER; XG; XF], [XD; XI; XU; XG; XF; XNF])
  | CUSTOM => None
  end.
(** consts.py:152-166 [get_required_borders]. *)
Definition required_borders (c : cert_type) : list (label * label) :=
  match c with
  | RWS | RWA | RAR => [(XS, XS_BORDER)]
  | RSWS | RSWA => [(XS, XS_BORDER); (XG, XG_BORDER)]
  | _ => []
  end.

(** ** The command line *)
Section CLI.
  Context {D : Type}.
  (** A data generator: [_generate_data] / [_sample_border] of a domain, or
      [_generate_data] of a difference of two. *)
  Inductive source := Sample (d : D) (n : nat) | Border (d : D) (n : nat) | Difference (d e : D) (n : nat).

  (** cli.py:108-114 [add_borders]. *)
  Fixpoint add_borders_for (bs : list (label * label)) (domains : list (label * D)) : option (list (label * D)) :=
    match bs with
    | [] => Some domains
    | (l, b) :: bs => option_bind (dlookup l domains) (fun d => add_borders_for bs (dset b d domains))
    end.
  Definition add_borders (domains : list (label * D)) (c : cert_type) : option (list (label * D)) :=
    add_borders_for (required_borders c) domains.

  (** The N_DATA field: one number, or a dictionary. *)
  Inductive n_data := Scalar (n : nat) | PerSet (ns : list (label * nat)).

  (** cli.py:117-137 [read_data].  In the scalar branch the keys are strings and
      [borders] holds enum members, so the test for a border is always false; in the
      other branch a name without a domain is skipped. *)
  Fixpoint read_data_dict (ns : list (label * nat)) (domains : list (label * D)) (data : list (label * source))
    : option (list (label * source)) :=
    match ns with
    | [] => Some data
    | (l, n) :: ns =>
        if is_border l
        then option_bind (dlookup l domains) (fun d => read_data_dict ns domains (dset l (Border d n) data))
        else match dlookup l domains with
             | Some d => read_data_dict ns domains (dset l (Sample d n) data)
             | None => read_data_dict ns domains data
             end
    end.
  Definition read_data (nd : n_data) (domains : list (label * D)) : option (list (label * source)) :=
    match nd with
    | Scalar n => Some (map (fun e => (fst e, Sample (snd e) n)) domains)
    | PerSet ns => read_data_dict ns domains []
    end.

  (** [data_config[XU] if isinstance(data_config, dict) else data_config]. *)
  Definition amount (nd : n_data) (l : label) : option nat :=
    match nd with Scalar n => Some n | PerSet ns => dlookup l ns end.
  Definition dremove {A} (l : label) (d : list (label * A)) : list (label * A) :=
    filter (fun p => negb (label_eqb (fst p) l)) d.
  (** cli.py:140-143 [adjust_roa]: KeyError without XD. *)
  Definition adjust_roa (data : list (label * source)) (domains : list (label * D)) :=
    option_bind (dlookup XD domains) (fun _ => Some (data, dremove XD domains)).
  (** cli.py:146-168 [adjust_rwa], [adjust_rswa]. *)
  Definition adjust_rwa (data : list (label * source)) (domains : list (label * D)) (nd : n_data) :=
    option_bind (dlookup XD domains) (fun xd => option_bind (dlookup XS domains) (fun xs =>
    option_bind (amount nd XU) (fun n => Some (dset XU (Difference xd xs n) data, domains)))).
  (** cli.py:171-188 [adjust_rar]. *)
  Definition adjust_rar (data : list (label * source)) (domains : list (label * D)) (nd : n_data) :=
    option_bind (dlookup XD domains) (fun xd => option_bind (dlookup XS domains) (fun xs =>
    option_bind (dlookup XF domains) (fun xf =>
    option_bind (amount nd XU) (fun n => option_bind (amount nd XNF) (fun m =>
      Some (dset XNF (Difference xd xf m) (dset XU (Difference xd xs n) data), domains)))))).
  (** cli.py:191-203. *)
  Definition adjust (data : list (label * source)) (domains : list (label * D)) (c : cert_type) (nd : n_data) :=
    match c with
    | ROA => adjust_roa data domains
    | RWS | RWA | RSWS | RSWA => adjust_rwa data domains nd
    | RAR => adjust_rar data domains nd
    | _ => Some (data, domains)
    end.
  (** cli.py:237-247: DATA and DOMAINS of the configuration. *)
  Definition parse_sets (c : cert_type) (domains : list (label * D)) (nd : n_data)
    : option (list (label * source) * list (label * D)) :=
    option_bind (add_borders domains c) (fun domains =>
    option_bind (read_data nd domains) (fun data => adjust data domains c nd)).
End CLI.
Arguments source : clear implicits.
