(** Specification: what a feed-forward network computes, independently of how fossil
    evaluates it, and when two networks are close. *)
From Coq Require Import Reals QArith Qreals List Bool Arith ZArith.
From Verif Require Import M_Syntax M_Activations M_Network S_Activations S_Domains.
Import ListNotations.
Local Open Scope R_scope.

(** Shapes: every row of a layer has one weight per input, one bias per output. *)
Definition wf_layer (n : nat) (l : layer) : Prop :=
  Forall (fun r => length r = n) (weight l) /\
  (forall b, bias l = Some b -> length b = length (weight l)).
Fixpoint wf_hidden (n : nat) (hs : list (layer * act)) (m : nat) : Prop :=
  match hs with
  | [] => n = m
  | (l, a) :: hs => wf_layer n l /\ act_ok a /\ wf_hidden (length (weight l)) hs m
  end.
(** A network built by the learner: [in_size] inputs, one output. *)
Definition wf_net (net : network) : Prop :=
  exists m, wf_hidden (in_size net) (hidden net) m /\ wf_layer m (last net) /\
            length (weight (last net)) = 1%nat.

(** Neuron [i] of a layer, on inputs given as a function of the position. *)
Definition weight_of (l : layer) (i k : nat) : R := Q2R (nth k (nth i (weight l) []) 0%Q).
Definition bias_of (l : layer) (i : nat) : R :=
  match bias l with Some b => Q2R (nth i b 0%Q) | None => 0 end.
Definition neuron (n : nat) (l : layer) (y : nat -> R) (i : nat) : R :=
  sum_below n (fun k => weight_of l i k * y k) + bias_of l i.

(** The mathematical function computed by the hidden layers / by the network. *)
Fixpoint hidden_value (n : nat) (hs : list (layer * act)) (y : nat -> R) : nat -> R :=
  match hs with
  | [] => y
  | (l, a) :: hs =>
      hidden_value (length (weight l)) hs
        (fun i => act_fun a (length (weight l)) i (neuron n l y i))
  end.
Fixpoint out_width (n : nat) (hs : list (layer * act)) : nat :=
  match hs with [] => n | (l, _) :: hs => out_width (length (weight l)) hs end.
Definition net_value (net : network) (x : nat -> R) : R :=
  neuron (out_width (in_size net) (hidden net)) (last net)
         (hidden_value (in_size net) (hidden net) x) 0.
(** The certificate: network times 1, or times |x|^2. *)
Definition cert_value (quad : bool) (net : network) (x : nat -> R) : R :=
  net_value net x * (if quad then sum_below (in_size net) (fun i => x i * x i) else 1).

(** A property of every pre-activation met when evaluating the network at [x]. *)
Fixpoint hidden_all (P : act -> R -> Prop) (n : nat) (hs : list (layer * act)) (y : nat -> R) : Prop :=
  match hs with
  | [] => True
  | (l, a) :: hs =>
      (forall i, (i < length (weight l))%nat -> P a (neuron n l y i)) /\
      hidden_all P (length (weight l)) hs
        (fun i => act_fun a (length (weight l)) i (neuron n l y i))
  end.
(** No ReLU sits at its kink / no softplus is fed more than 20. *)
Definition kink_free (net : network) (x : nat -> R) : Prop :=
  hidden_all smooth_at (in_size net) (hidden net) x.
Definition softplus_ok (net : network) (x : nat -> R) : Prop :=
  hidden_all softplus_range (in_size net) (hidden net) x.
(** No ReLU at all. *)
Definition smooth_net (net : network) : Prop :=
  Forall (fun la => snd la <> AReLU) (hidden net).

(** Same architecture, every coefficient within [eps]. *)
Definition close_coeffs (eps : R) : list Q -> list Q -> Prop :=
  Forall2 (fun p q => Rabs (Q2R p - Q2R q) <= eps).
Definition close_layer (eps : R) (l l' : layer) : Prop :=
  Forall2 (close_coeffs eps) (weight l) (weight l') /\
  match bias l, bias l' with
  | Some b, Some b' => close_coeffs eps b b'
  | None, None => True
  | _, _ => False
  end.
Definition close_net (eps : R) (net net' : network) : Prop :=
  in_size net = in_size net' /\
  Forall2 (fun la la' => close_layer eps (fst la) (fst la') /\ snd la = snd la') (hidden net) (hidden net') /\
  close_layer eps (last net) (last net').

(** [y] is the multiple of [unit] nearest to [x], the even one if there are two. *)
Definition rounded_to (unit x y : R) : Prop :=
  exists z : Z, y = IZR z * unit /\ Rabs (y - x) <= unit / 2 /\ (Rabs (y - x) = unit / 2 -> Z.even z = true).
