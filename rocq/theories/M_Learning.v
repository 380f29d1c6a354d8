(** Model of the [learn] and [compute_loss] methods of fossil/certificate.py: how the
    samples are batched, which slices the losses see, the losses and the accuracies.
    No proofs in this file.
    Simplifications: reals instead of floats (Python divides integers with a single
    rounding, so the comparisons with 100 and 99.9 agree for fewer than 10^12 samples);
    [value] and [lie] are the network's value and derivative (LearnerCT: gradient times
    f(x); LearnerDT: difference), arbitrary functions of one sample and its image;
    [None] is an exception.  The optimiser and backpropagation are not modelled. *)
From Coq Require Import Reals List Bool Arith.
From Verif Require Import M_Syntax M_Certificates M_Verifier M_Activations M_Domains M_Network M_Cegis.
Import ListNotations.
Local Open Scope R_scope.

(** ** Batching *)
(** Python's l[i:j]. *)
Definition slice {A} (i j : nat) (l : list A) : list A := firstn (j - i) (skipn i l).
(** torch.cat([S[label] for label in label_order]); KeyError on a missing label. *)
Fixpoint cat (order : list label) (S : dict) : option (list point) :=
  match order with
  | [] => Some []
  | l :: order =>
      option_bind (dlookup l S) (fun rows => option_bind (cat order S) (fun rest => Some (rows ++ rest)))
  end.
(** torch.cat([s for s in S.values()]). *)
Definition cat_values (S : dict) : list point := concat (map snd S).
(** S[label].shape[0]. *)
Definition rows_of (l : label) (S : dict) : option nat := option_map (@length point) (dlookup l S).
(** certificate.py:603-607, 612-613 etc.: the images of the samples. *)
Definition images (f_torch : option (point -> point)) (samples : list point) (from_Sdot : option (list point))
  : option (list point) :=
  match f_torch with Some f => Some (map f samples) | None => from_Sdot end.
(** learner.py:329-357, 376-405 [get_all]: value and derivative of every sample.  The
    length check is an assertion in continuous time; in discrete time the tensors would
    not broadcast. *)
Definition get_all (value : point -> R) (lie : point -> point -> R) (s sdot : list point)
  : option (list R * list R) :=
  if (length s =? length sdot)%nat then Some (map value s, map2 lie s sdot) else None.

Definition guard {A} (b : bool) (x : option A) : option A := if b then x else None.

Section Batches.
  Variables (value : point -> R) (lie : point -> point -> R) (grad : point -> point).
  Variable f_torch : option (point -> point).

  (** certificate.py:248-262 (Lyapunov), 414-428 (ROA): V and Vdot handed to the loss. *)
  Definition lyapunov_batch (S Sdot : dict) : option (list R * list R) :=
    option_bind (dlookup XD S) (fun s =>
    option_bind (images f_torch s (dlookup XD Sdot)) (fun sdot => get_all value lie s sdot)).

  (** certificate.py:597-627 (Barrier), 789-820 (BarrierAlt): B_i, B_u, B_d, Bdot_d. *)
  Definition barrier_batch (S Sdot : dict) : option (list R * list R * list R * list R) :=
    guard (length S =? length Sdot)%nat
    (option_bind (rows_of XD S) (fun i1 => option_bind (rows_of XI S) (fun i2 =>
     option_bind (cat [XD; XI; XU] S) (fun s =>
     option_bind (images f_torch s (cat [XD; XI; XU] Sdot)) (fun sdot =>
     option_bind (get_all value lie s sdot) (fun '(B, Bdot) =>
       Some (slice i1 (i1 + i2) B, skipn (i1 + i2) B, firstn i1 B, firstn i1 Bdot))))))).

  (** certificate.py:987-1018 (RWS): V_i, V_u, V_d, gradV_d, samples_dot_d. *)
  Definition rws_batch (S Sdot : dict)
    : option (list R * list R * list R * list point * list point) :=
    guard (length S =? length Sdot)%nat
    (option_bind (rows_of XD S) (fun i1 => option_bind (rows_of XI S) (fun i2 =>
     option_bind (cat [XD; XI; XU] S) (fun s =>
     option_bind (images f_torch s (cat [XD; XI; XU] Sdot)) (fun sdot =>
       let V := map value s in
       let gradV := map grad s in
       Some (slice i1 (i1 + i2) V, skipn (i1 + i2) V, firstn i1 V, firstn i1 gradV, firstn i1 sdot)))))).

  (** certificate.py:1171-1219 (RSWS): as RWS, and S_dg, V_g, Vdot_g for the goal; the
      product gradV * samples_dot (1212) needs as many images as samples. *)
  Definition rsws_batch (S Sdot : dict)
    : option ((list R * list R * list R * list point * list point) * (list point * list R * list R)) :=
    guard (length S =? length Sdot)%nat
    (option_bind (rows_of XD S) (fun n_d => option_bind (rows_of XI S) (fun n_i =>
     option_bind (rows_of XU S) (fun n_u => option_bind (rows_of XG_BORDER S) (fun n_b =>
     option_bind (rows_of XG S) (fun n_g =>
     let order := [XD; XI; XU; XG_BORDER; XG] in
     option_bind (cat order S) (fun s =>
     option_bind (images f_torch s (cat order Sdot)) (fun sdot =>
     guard (length s =? length sdot)%nat
       (let V := map value s in
        let gradV := map grad s in
        let init0 := n_d in let init1 := (init0 + n_i)%nat in
        let unsafe1 := (init1 + n_u)%nat in
        let border1 := (unsafe1 + n_b)%nat in
        let goal1 := (border1 + n_g)%nat in
        let Vdot := map2 (fun g d => Rsum (map2 Rmult g d)) gradV sdot in
        Some ((slice init0 init1 V, slice init1 unsafe1 V, firstn n_d V, firstn n_d gradV, firstn n_d sdot),
              (slice unsafe1 border1 s, slice border1 goal1 V, slice border1 goal1 Vdot))))))))))).
End Batches.

Section DoubleBatches.
  Variables (value1 value2 : point -> R) (lie1 lie2 : point -> point -> R) (grad1 : point -> point).
  Variable f_torch : option (point -> point).

  (** certificate.py:1364-1405 (SafeROA): V, Vdot for the ROA loss and B_i, B_u, B_d,
      Bdot_d.  The samples are the data in dictionary order (1379 overwrites 1378). *)
  Definition safe_roa_batch (S Sdot : dict)
    : option ((list R * list R) * (list R * list R * list R * list R)) :=
    guard (length S =? length Sdot)%nat
    (option_bind (rows_of XD S) (fun n_d =>
     option_bind (match dlookup XR S with
                  | Some rs => Some (n_d, n_d + length rs)%nat
                  | None => Some (O, n_d)
                  end) (fun '(r0, r1) =>
     option_bind (rows_of XI S) (fun n_i => option_bind (rows_of XU S) (fun n_u =>
     let init1 := (r1 + n_i)%nat in let unsafe1 := (init1 + n_u)%nat in
     let s := cat_values S in
     option_bind (images f_torch s (Some (cat_values Sdot))) (fun sdot =>
     option_bind (get_all value1 lie1 (slice r0 r1 s) (slice r0 r1 sdot)) (fun lyap =>
     option_bind (get_all value2 lie2 s sdot) (fun '(B, Bdot) =>
       Some (lyap, (slice r1 init1 B, slice init1 unsafe1 B, slice 0 n_d B, slice 0 n_d Bdot)))))))))).

  (** certificate.py:1486-1533 (ReachAvoidRemain): V_i, V_u, V_d, gradV_d, samples_dot_d
      for the RWS loss; B_i, B_u, B_d, Bdot_d for the barrier loss.  Without a controller
      the images are in the order of the dictionary [Sdot] (1502). *)
  Definition rar_batch (S Sdot : dict)
    : option ((list R * list R * list R * list point * list point) * (list R * list R * list R * list R)) :=
    guard (length S =? length Sdot)%nat
    (option_bind (rows_of XD S) (fun n_d => option_bind (rows_of XI S) (fun n_i =>
     option_bind (rows_of XU S) (fun n_u => option_bind (rows_of XG S) (fun n_g =>
     option_bind (rows_of XF S) (fun n_f => option_bind (rows_of XNF S) (fun n_nf =>
     let init1 := (n_d + n_i)%nat in let unsafe1 := (init1 + n_u)%nat in
     let goal1 := (unsafe1 + n_g)%nat in let final1 := (goal1 + n_f)%nat in
     let nonfinal1 := (final1 + n_nf)%nat in
     option_bind (cat [XD; XI; XU; XG; XF; XNF] S) (fun s =>
     option_bind (images f_torch s (Some (cat_values Sdot))) (fun sdot =>
     let V := map value1 s in
     let gradV := map grad1 s in
     option_bind (get_all value2 lie2 s sdot) (fun '(B, Bdot) =>
       Some ((slice n_d init1 V, slice init1 unsafe1 V, slice 0 n_d V, slice 0 n_d gradV, slice 0 n_d sdot),
             (slice unsafe1 goal1 B, slice final1 nonfinal1 B, slice unsafe1 nonfinal1 B,
              slice unsafe1 nonfinal1 Bdot)))))))))))).
End DoubleBatches.

(** ** Losses and accuracies *)
Definition count {A} (p : A -> bool) (l : list A) : nat := length (filter p l).
(** [k * 100 / n] on integers: ZeroDivisionError when n = 0. *)
Definition percent (k n : nat) : option R :=
  if (n =? 0)%nat then None else Some (INR (k * 100) / INR n).
(** torch.mean; NaN on an empty tensor, which stays out of the model (0 here). *)
Definition mean (l : list R) : R := Rsum l / INR (length l).
(** torch.relu, torch.nn.LeakyReLU(a), torch.nn.Softplus(beta). *)
Definition relu (v : R) : R := Rmax 0 v.
Definition leaky_relu (a v : R) : R := if Rleb 0 v then v else a * v.
Definition splu (beta v : R) : R := ln (1 + exp (beta * v)) / beta.
(** torch.index_select(l, 0, nonzero(mask)). *)
Fixpoint select {A} (mask : list bool) (l : list A) : list A :=
  match mask, l with
  | b :: mask, x :: l => if b then x :: select mask l else select mask l
  | _, _ => []
  end.

(** certificate.py:197-228 (Lyapunov; [act] is LeakyReLU of a slope taken from the
    batch), 364-395 (ROA; [act] is Softplus); [margin] is 0 in both, so the circle term
    vanishes.  Loss and accuracy. *)
Definition lyapunov_loss (act : R -> R) (llo : bool) (V Vdot : list R) : option (R * R) :=
  let n := length Vdot in
  if (n =? 0)%nat then None
  else if llo
  then Some (mean (map act Vdot), INR (count (fun v => Rleb v 0) Vdot) * 100 / INR n)
  else Some (mean (map act Vdot) + mean (map (fun v => act (- v)) V),
             1 / 2 * (INR (count (fun v => Rleb v 0) Vdot) + INR (count (fun v => Rleb 0 v) V)) * 100 / INR n).

(** certificate.py:514-576 (Barrier): loss, "acc init unsafe", "acc belt". *)
Definition barrier_loss (act : R -> R) (symmetric : bool) (B_i B_u B_d Bdot_d : list R)
  : option (R * R * R) :=
  option_bind (percent (count (fun v => Rleb v 0) B_i + count (fun v => Rleb 0 v) B_u)
                       (length B_u + length B_i)) (fun acc =>
    let loss := mean (map act B_i) + mean (map (fun v => act (- v)) B_u) in
    let belt := map (fun v => if symmetric then Rleb (Rabs v) (1/2) else Rleb 0 v) B_d in
    let dB_belt := select belt Bdot_d in
    match percent (count (fun v => Rleb v 0) dB_belt) (length dB_belt) with
    | None => Some (loss, acc, 0)                                       (* empty belt *)
    | Some p => Some (loss + mean (map act dB_belt), acc, p)
    end).

(** certificate.py:721-768 (BarrierAlt): loss, "acc init unsafe", "acc lie". *)
Definition alt_margin : R := 5/100.
Definition barrier_alt_loss (B_i B_u B_d Bdot_d : list R) : option (R * R * R) :=
  option_bind (percent (count (fun v => Rleb v (- alt_margin)) B_i + count (fun v => Rleb alt_margin v) B_u)
                       (length B_u + length B_i)) (fun acc =>
  option_bind (percent (count (fun v => Rleb v (- alt_margin)) Bdot_d) (length Bdot_d)) (fun lie_acc =>
    Some (mean (map (fun v => splu (1/2) (v + alt_margin)) B_i) +
          mean (map (fun v => splu (1/2) (- v + alt_margin)) B_u) +
          mean (map (fun v => splu (1/2) (v + alt_margin)) Bdot_d), acc, lie_acc))).

(** certificate.py:915, 1129 [self.gamma]. *)
Definition rws_gamma : R := 1/100.
(** certificate.py:927-966 (RWS): loss, "acc init unsafe", "acc lie". *)
Definition rws_loss (V_i V_u V_d : list R) (gradV f : list point) : option (R * R * R) :=
  option_bind (percent (count (fun v => Rleb v 0) V_i + count (fun v => Rleb 0 v) V_u)
                       (length V_i + length V_u)) (fun acc =>
    let Vdot := map2 (fun g d => Rsum (map2 Rmult g d)) gradV f in
    let A_lie := select (map (fun v => Rltb v 0) V_d) Vdot in
    match percent (count (fun v => Rleb v (- rws_gamma)) A_lie) (length A_lie) with
    | None => Some (mean (map (splu 1) V_i), acc, 0)
    | Some p => Some (mean (map (splu 1) V_i) + mean (map (fun v => splu 1 (- v)) V_u) +
                      mean (map (fun v => splu 1 (v + rws_gamma)) A_lie), acc, p)
    end).

(** certificate.py:1131-1150 [compute_beta_loss]. *)
Definition beta_loss (beta : R) (V_g Vdot_g : list R) : R :=
  match select (map (fun v => Rleb v beta) V_g) Vdot_g with
  | [] => 0
  | l => mean (map (fun v => splu 1 (v + rws_gamma)) l)
  end.

(** learner.py:217-233, 235-251: minimum / maximum of the network over samples (torch
    raises on an empty tensor). *)
Definition compute_minimum (value : point -> R) (s : list point) : option R :=
  match map value s with [] => None | v :: l => Some (fold_left Rmin l v) end.
Definition compute_maximum (value : point -> R) (s : list point) : option R :=
  match map value s with [] => None | v :: l => Some (fold_left Rmax l v) end.

(** ** The test made in every training loop *)
Definition is100 (a : R) : bool := if Req_EM_T a 100 then true else false.
Definition ge999 (a : R) : bool := Rleb (999/10) a.
(** certificate.py:273, 436; [t >= 1] is in [learn_loop]. *)
Definition lyapunov_ok (act : R -> R) (llo : bool) (b : list R * list R) : option bool :=
  option_map (fun '(_, acc) => is100 acc) (lyapunov_loss act llo (fst b) (snd b)).
(** certificate.py:632-635. *)
Definition barrier_ok (act : R -> R) (symmetric : bool) (b : list R * list R * list R * list R) : option bool :=
  let '(B_i, B_u, B_d, Bdot_d) := b in
  option_map (fun '(_, acc, belt) => is100 acc && ge999 belt) (barrier_loss act symmetric B_i B_u B_d Bdot_d).
(** certificate.py:832-835. *)
Definition barrier_alt_ok (b : list R * list R * list R * list R) : option bool :=
  let '(B_i, B_u, B_d, Bdot_d) := b in
  option_map (fun '(_, acc, lie) => is100 acc && ge999 lie) (barrier_alt_loss B_i B_u B_d Bdot_d).
(** certificate.py:1027-1030, 1225-1228. *)
Definition rws_ok (b : list R * list R * list R * list point * list point) : option bool :=
  let '(V_i, V_u, V_d, gradV, f) := b in
  option_map (fun '(_, acc, lie) => is100 acc && ge999 lie) (rws_loss V_i V_u V_d gradV f).
(** certificate.py:1548-1556. *)
Definition rar_ok (symmetric : bool)
  (b : (list R * list R * list R * list point * list point) * (list R * list R * list R * list R)) : option bool :=
  let '((V_i, V_u, V_d, gradV, f), (B_i, B_u, B_d, Bdot_d)) := b in
  option_bind (rws_loss V_i V_u V_d gradV f) (fun '(_, acc, lie) =>
  option_bind (barrier_loss (splu 1) symmetric B_i B_u B_d Bdot_d) (fun '(_, goal_final, belt) =>
    Some (is100 acc && Rleb 100 lie && Rleb 100 goal_final && ge999 belt))).

(** certificate.py:445-447, 1425-1427: the level of the ROA certificate, taken from the
    network alone (learner.py:123-138), without the quadratic factor. *)
Definition roa_level (net : network) (S : dict) : option R :=
  option_bind (dlookup XI S) (fun s => compute_maximum (net_forward net) s).
(** certificate.py:1218: the level whose sublevel set the RSWS loss looks at, the minimum of the network over the
    border samples of the goal; it too leaves out the quadratic factor (learner.py:123-138). *)
Definition rsws_level (net : network) (border : list point) : option R := compute_minimum (net_forward net) border.
