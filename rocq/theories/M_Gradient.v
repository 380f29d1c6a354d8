(** Model of the differentiation done by fossil/learner.py (autograd) and of the
    [get_all] methods built on it.  No proofs in this file.
    Simplifications: exact reals; one sample at a time (the batch is handled row by row);
    autograd is torch's: the vector-Jacobian product of each operation recorded in the
    forward pass, with torch's documented backward formula for each operation. *)
From Coq Require Import Reals QArith Qreals List Bool Arith.
From Verif Require Import M_Syntax M_Activations M_Domains M_Network.
Import ListNotations.
Local Open Scope R_scope.

(** torch's softplus_backward: the derivative is 1 above the threshold 20. *)
Definition torch_softplus_backward (x : R) : R :=
  if Rlt_dec 20 x then 1 else exp x / (exp x + 1).
(** torch's pow_backward for a natural exponent: zero for exponent 0. *)
Definition pow_backward (k : nat) (x : R) : R :=
  match k with O => 0 | S k' => INR k * x ^ k' end.

(** The factor by which torch multiplies the incoming gradient at each position of
    activations.py's [forward]; lines as in [M_Activations.forward]. *)
Definition act_backward (a : act) (xs : list R) : list R :=
  match a with
  | AIdentity => map (fun _ => 1) xs                                   (* 64-65 *)
  | AReLU => map (fun x => if Rlt_dec 0 x then 1 else 0) xs            (* 77-78: threshold_backward *)
  | ASquare => map (pow_backward 2) xs                                 (* 103-104 *)
  | APoly2 =>                                                          (* 116-119 *)
      let h := (length xs / 2)%nat in
      map (fun _ => 1) (firstn h xs) ++ map (pow_backward 2) (skipn h xs)
  | ATanh => map (fun x => 1 - tanh x * tanh x) xs                     (* 135-136: tanh_backward *)
  | ATanhSquared =>                                                    (* 158-159 *)
      map (fun x => pow_backward 2 (tanh x) * (1 - tanh x * tanh x)) xs
  | ASigmoid =>                                                        (* 181-182: sigmoid_backward *)
      map (fun x => (1 - torch_sigmoid x) * torch_sigmoid x) xs
  | ASoftplus | AShiftedSoftplus => map torch_softplus_backward xs     (* 204-205, 223-224 *)
  | AShiftedSoftplusSquare =>                                          (* 242-243 *)
      map (fun x => pow_backward 2 (torch_softplus x - ln 2) * torch_softplus_backward x) xs
  | ACosh => map sinh xs                                               (* 266-267 *)
  | APolyN n => by_part n (fun i x => pow_backward (i + 1) x) xs       (* 289-294 *)
  | AEvenPolyN n => by_part n (fun i x => pow_backward (2 * i) x) xs   (* 317-322 *)
  end.

(** Backward of torch.nn.Linear: [g @ W], one entry per input ([n] inputs). *)
Definition linear_backward (n : nat) (l : layer) (g : list R) : list R :=
  map (fun j => Rsum (map2 (fun c r => c * Q2R (nth j r 0%Q)) g (weight l))) (seq 0 n).

(** learner.py:131-135 backwards: [y] is the input of the layers, [g] the gradient with
    respect to their output. *)
Fixpoint hidden_backward (hs : list (layer * act)) (y g : list R) : list R :=
  match hs with
  | [] => g
  | (l, a) :: hs =>
      let z := affine l y in
      let g := hidden_backward hs (forward a z) g in
      linear_backward (length y) l (map2 Rmult g (act_backward a z))
  end.

(** learner.py:148-168 [compute_net_gradnet]; the slice [:, 0] (137) selects the first
    row of the output layer and [grad_outputs] is 1. *)
Definition net_gradnet (net : network) (x : list R) : R * list R :=
  (net_forward net x,
   hidden_backward (hidden net) x (map Q2R (nth 0 (weight (last net)) []))).

(** learner.py:170-201 [compute_V_gradV], 211-215, 21-26. *)
Definition V_gradV (quad : bool) (nn : R) (grad_nn x : list R) : R * list R :=
  (nn * factor quad x,
   if quad then map2 Rplus (map2 Rmult (map (fun _ => nn) grad_nn) (map (fun v => 2 * v) x))
                           (map (fun g => g * factor quad x) grad_nn)
   else grad_nn).

(** The gradient used by the losses of the reach-while family (certificate.py:1003-1005, 1196-1198, 1512-1514). *)
Definition learner_grad (quad : bool) (net : network) (x : list R) : list R :=
  let '(nn, g) := net_gradnet net x in snd (V_gradV quad nn g x).

(** learner.py:359-371 [compute_dV]. *)
Definition compute_dV (gradV xdot : list R) : R := Rsum (map2 Rmult gradV xdot).

(** learner.py:329-357 [LearnerCT.get_all] (without [circle]). *)
Definition get_all_ct (quad : bool) (net : network) (x xdot : list R) : R * R :=
  let '(nn, g) := net_gradnet net x in
  let '(V, gradV) := V_gradV quad nn g x in
  (V, compute_dV gradV xdot).

(** learner.py:376-405 [LearnerDT.get_all]; the factor is computed (397) and not used. *)
Definition get_all_dt (quad : bool) (net : network) (x xnext : list R) : R * R :=
  let V := net_forward net x in (V, net_forward net xnext - V).
