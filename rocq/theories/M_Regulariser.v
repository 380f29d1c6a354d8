(** Model of the terms that are added to the loss when a controller is trained
    (fossil/control.py:373-425; certificate.py:267, 1022, 1216, 1539).  No proofs in this file.
    Simplifications: exact reals instead of float32; the gradient of the loss is not
    modelled (the optimiser's step is arbitrary in [M_Learner]). *)
From Coq Require Import Reals List Bool Arith.
From Verif Require Import M_Syntax M_Activations M_Domains M_Network M_Certificates M_Cegis M_Learning.
Import ListNotations.
Local Open Scope R_scope.

(** torch.norm(., p=2) of one row. *)
Definition row_norm (s : point) : R := sqrt (Rsum (map (fun v => v * v) s)).
Definition row_dot (a b : point) : R := Rsum (map2 Rmult a b).

(** torch.nn.CosineSimilarity(dim=1) on one row of either argument: [eps] = 1e-8 bounds the
    norms from below, each of them since torch 1.13 and their product before ([joint]). *)
Definition cos_eps : R := / 100000000.
Definition cosine (joint : bool) (a b : point) : R :=
  row_dot a b / (if joint then Rmax (row_norm a * row_norm b) cos_eps
                 else Rmax (row_norm a) cos_eps * Rmax (row_norm b) cos_eps).

(** control.py:408-411 [cosine_reg(S, Sdot)]. *)
Definition cosine_reg (joint : bool) (s sdot : list point) : R := mean (map2 (cosine joint) sdot s).
(** control.py:414-418. *)
Definition saturated_cosine_reg (joint : bool) (s sdot : list point) : R :=
  mean (map (splu 1) (map2 (cosine joint) sdot s)).
(** control.py:421-425. *)
Definition saturated_cosine_reg2 (joint : bool) (s sdot : list point) : R :=
  mean (map (fun c => relu (c + 1/10)) (map2 (cosine joint) sdot s)).
(** control.py:398-399. *)
Definition ridge_reg (s sdot : list point) : R := mean (map row_norm sdot).
(** control.py:373-376. *)
Definition nonzero_loss1 (s sdot : list point) : R :=
  mean (map2 (fun x d => - (row_norm x * row_norm x) * row_norm d) s sdot).
(** control.py:379-385. *)
Definition nonzero_loss1b (s sdot : list point) : R := mean (map (fun d => relu (- row_norm d + 1/10)) sdot).

(** certificate.py:263-274: the loss that is differentiated in loop [t] of Lyapunov's
    training, and whether training stops there; [s], [sdot] are the samples of XD. *)
Definition lyapunov_iteration (joint : bool) (act : R -> R) (llo control : bool) (s sdot : list point)
  (V Vdot : list R) (t : nat) : option (R * bool) :=
  option_bind (lyapunov_loss act llo V Vdot) (fun '(loss, acc) =>
    let loss := if control then loss + cosine_reg joint s sdot else loss in
    Some (loss, is100 acc && (1 <=? t)%nat)).

(** certificate.py:1016-1037 (RWS): [old] is [condition_old]. *)
Definition rws_iteration (joint : bool) (control : bool) (s_d sdot_d : list point)
  (V_i V_u V_d : list R) (gradV : list point) (old : bool) : option (R * bool) :=
  option_bind (rws_loss V_i V_u V_d gradV sdot_d) (fun '(loss, acc, lie) =>
    let loss := if control then loss + cosine_reg joint s_d sdot_d else loss in
    Some (loss, is100 acc && ge999 lie && old)).

(** certificate.py:1204-1235 (RSWS): the loss at the level [beta] of the goal's samples is added. *)
Definition rsws_iteration (joint : bool) (control : bool) (s_d sdot_d : list point)
  (V_i V_u V_d : list R) (gradV : list point) (beta : R) (V_g Vdot_g : list R) (old : bool) : option (R * bool) :=
  option_bind (rws_loss V_i V_u V_d gradV sdot_d) (fun '(loss, acc, lie) =>
    let loss := if control then loss + cosine_reg joint s_d sdot_d else loss in
    let loss := loss + beta_loss beta V_g Vdot_g in
    Some (loss, is100 acc && ge999 lie && old)).

(** certificate.py:1523-1560 (RAR). *)
Definition rar_iteration (joint : bool) (symmetric control : bool) (s_d sdot_d : list point)
  (V_i V_u V_d : list R) (gradV : list point) (B_i B_u B_d Bdot_d : list R) (old : bool) : option (R * bool) :=
  option_bind (rws_loss V_i V_u V_d gradV sdot_d) (fun '(rws, acc, lie) =>
  option_bind (barrier_loss (splu 1) symmetric B_i B_u B_d Bdot_d) (fun '(b, goal_final, belt) =>
    let loss := rws + b in
    let loss := if control then loss + cosine_reg joint s_d sdot_d else loss in
    Some (loss, is100 acc && Rleb 100 lie && Rleb 100 goal_final && ge999 belt && old))).
