(** Model of fossil/certificate.py: the verification conditions
    ([get_constraints]) of every certificate.  No proofs in this file. *)
From Coq Require Import Reals QArith List.
From Verif Require Import M_Syntax.
Import ListNotations.
Local Open Scope E.

(** consts.py:82-92 [DomainNames] / certificate.py:26-35: the set labels. *)
Inductive label :=
| XD        (* "lie" *)
| XI        (* "init" *)
| XU        (* "unsafe" *)
| XS        (* "safe" *)
| XG        (* "goal" *)
| XG_BORDER (* "goal_border" *)
| XS_BORDER (* "safe_border" *)
| XF        (* "final" *)
| XNF       (* "not_final" *)
| XR.       (* "region" *)

Definition label_eqb (a b : label) : bool :=
  match a, b with
  | XD, XD | XI, XI | XU, XU | XS, XS | XG, XG | XG_BORDER, XG_BORDER
  | XS_BORDER, XS_BORDER | XF, XF | XNF, XNF | XR, XR => true
  | _, _ => false
  end.

(** The symbolic domains handed to a certificate: certificate.py:166 etc. read
    [domains[XD]] ...  Python raises KeyError on a missing label; presence is
    checked by [_assert_state] (modelled in M_Labels.v), so the dictionary is a
    total function here. *)
Definition sets := label -> fml.

(** A group of constraints, i.e. one dictionary yielded by [get_constraints]:
    label -> (negated) condition, in insertion order. *)
Definition group := list (label * fml).

Definition E0 : expr := ENum 0.

(** certificate.py:284-305 [Lyapunov.get_constraints].
    [xs] is [verifier.xs]; [llo] is [config.LLO]. *)
Definition lyapunov_constraints (llo : bool) (xs : list expr) (d : sets)
    (V Vdot : expr) : list group :=
  let lyap_negated :=
    if llo then Vdot >= E0 else for_ [V <= E0; Vdot >= E0] in
  let not_origin := FNot (fand (map (fun xi => xi == E0) xs)) in
  let lyap_negated := fand [lyap_negated; not_origin] in
  let lyap_condition := fand [d XD; lyap_negated] in
  [[(XD, lyap_condition)]].

(** certificate.py:454-484 [ROA.get_constraints]; [beta] is [self.beta] set by
    [learn] (float idealised as a rational). *)
Definition roa_constraints (llo : bool) (xs : list expr) (d : sets) (beta : Q)
    (V Vdot : expr) : list group :=
  let beta := (beta * (11 # 10))%Q in
  let B := V <= ENum beta in
  let B_cond := fand [d XI; FNot B] in
  let lyap_negated :=
    if llo then Vdot >= E0 else for_ [V <= E0; Vdot > E0] in
  let sphere := esum (map (fun x => x ^ 2) xs) <= ENum (1 # 10000) in
  let B_less_sphere := fand [B; FNot sphere] in
  let lyap_condition := fand [B_less_sphere; lyap_negated] in
  let roa_condition := for_ [B_cond; lyap_condition] in
  [[(XD, roa_condition)]].

(** certificate.py:646-676 [Barrier.get_constraints]. *)
Definition barrier_constraints (d : sets) (B Bdot : expr) : list group :=
  let lie_constr := fand [B == E0; Bdot >= E0] in
  let initial_constr := fand [B >= E0; d XI] in
  let unsafe_constr := fand [B <= E0; d XU] in
  let lie_constr := fand [lie_constr; d XD] in
  let initial_constr := fand [initial_constr; d XD] in
  let unsafe_constr := fand [unsafe_constr; d XD] in
  [[(XI, initial_constr); (XU, unsafe_constr)];
   [(XD, lie_constr)]].

(** certificate.py:846-872 [BarrierAlt.get_constraints]. *)
Definition barrier_alt_constraints (d : sets) (B Bdot : expr) : list group :=
  let lie_constr := fand [Bdot > E0] in
  let initial_constr := fand [B >= E0; d XI] in
  let unsafe_constr := fand [B <= E0; d XU] in
  let lie_constr := fand [lie_constr; d XD] in
  let initial_constr := fand [initial_constr; d XD] in
  let unsafe_constr := fand [unsafe_constr; d XD] in
  [[(XI, initial_constr); (XU, unsafe_constr)];
   [(XD, lie_constr)]].

(** certificate.py:915, 1129 [self.gamma = 0.01]. *)
Definition gamma : Q := 1 # 100.

(** certificate.py:1041-1070 [RWS.get_constraints]. *)
Definition rws_constraints (d : sets) (C Cdot : expr) : list group :=
  let initial_constr := fand [C > E0; d XI] in
  let unsafe_constr := fand [C <= E0; d XS_BORDER] in
  let A := fand [C <= E0; d XS; FNot (d XG)] in
  let lie_constr := fand [A; Cdot + ENum gamma > E0] in
  let initial_constr := fand [initial_constr; d XD] in
  let unsafe_constr := fand [unsafe_constr; d XD] in
  [[(XI, initial_constr); (XU, unsafe_constr)];
   [(XD, lie_constr)]].

(** certificate.py:1259-1268: the two formulas of [RSWS.stay_in_goal_check]. *)
Definition stay_border_condition (d : sets) (C : expr) (beta : Q) : fml :=
  fand [C <= ENum beta; d XG_BORDER].

Definition stay_lie_condition (d : sets) (C Cdot : expr) (beta : Q) : fml :=
  let B := fand [d XS; C < ENum beta] in
  let XG_less_B := fand [d XG; FNot B] in
  fand [XG_less_B; Cdot + ENum gamma > E0].

(** certificate.py:1431-1444 [SafeROA.get_constraints] (STABLESAFE). *)
Definition safe_roa_constraints (llo : bool) (xs : list expr) (d : sets)
    (beta : Q) (V B Vdot Bdot : expr) : list group :=
  roa_constraints llo xs d beta V Vdot ++ barrier_constraints d B Bdot.

(** certificate.py:679-686 [Barrier._for_goal_final]: XI := XG, XU := XNF. *)
Definition goal_final_sets (d : sets) : sets :=
  fun l => match l with XI => d XG | XU => d XNF | _ => d l end.

(** [cs[new] = cs.pop(old)] moves the entry to the end of the dictionary under
    the new key. *)
Definition dpop (old : label) (g : group) : group :=
  filter (fun p => negb (label_eqb (fst p) old)) g.
Definition dlookup {A} (l : label) (g : list (label * A)) : option A :=
  match find (fun p => label_eqb (fst p) l) g with
  | Some p => Some (snd p)
  | None => None
  end.
Definition drename (new old : label) (g : group) : group :=
  match dlookup old g with
  | Some f => dpop old g ++ [(new, f)]
  | None => g (* KeyError in Python; does not happen below *)
  end.

(** certificate.py:1567-1590 [ReachAvoidRemain.get_constraints]. *)
Definition rar_constraints (d : sets) (V B Vdot Bdot : expr) : list group :=
  let rwa_cs := rws_constraints d V Vdot in
  let barrier_cs := barrier_constraints (goal_final_sets d) B Bdot in
  let b1 := map (fun cs => drename XNF XU (drename XG XI cs)) (firstn 1 barrier_cs) in
  let b2 := map (fun cs => drename XF XD cs) (skipn 1 barrier_cs) in
  rwa_cs ++ (b1 ++ b2).
