(** Lemmas for C72: what a LYAPUNOV success proves if XD does not contain the origin. *)
From Coquelicot Require Import Coquelicot.
From Coq Require Import Reals QArith Qreals List Bool Arith ZArith Lra Lia.
From Verif Require Import M_Syntax M_Certificates M_Verifier M_BetaSearch M_Activations M_Network M_Learner M_Cegis M_Fossil
  S_Verifier S_Certificates S_Success S_Dynamics S_Domains S_Network S_Learner S_Cegis S_Fossil
  L_Network L_Learner L_Continuity L_Topology L_Success L_Smooth L_Fossil L_Calculus P_Certificates P_Translator P_BetaSearch P_Safety P_Stability P_LLO P_Cegis P_Fossil.
Import ListNotations.
Local Open Scope R_scope.

(** A continuous function is bounded below, and bounded away from 0 where it is positive, on a closed bounded set. *)
Lemma closed_in n rad (D : state -> Prop) : closed_set n D -> forall p, in_box n rad p -> ~ D p -> exists d, 0 < d /\ forall s, close n d p s -> ~ D s.
Proof. intros H p _ N. destruct (H p N) as (d & Hd & K). exists d. auto. Qed.
Lemma compact_below n rad (D : state -> Prop) (h : state -> R) : bounded_by n rad D -> closed_set n D -> (forall p, cont_at n h p) ->
  exists m, forall s, D s -> m <= h s.
Proof.
  intros [R0 B] C Hc. destruct (box_bounded_below n rad D h R0 (closed_in n rad D C) ltac:(auto)) as (m & Hm).
  exists m. intros s Ds. apply Hm; [|exact Ds]. intros i I. now apply B.
Qed.
Lemma compact_positive n rad (D : state -> Prop) (h : state -> R) : bounded_by n rad D -> closed_set n D -> (forall p, cont_at n h p) ->
  (forall s, D s -> 0 < h s) -> exists m, 0 < m /\ forall s, D s -> m <= h s.
Proof.
  intros [R0 B] C Hc Hp. destruct (box_positive_min n rad D h R0 (closed_in n rad D C) ltac:(auto) ltac:(auto)) as (m & M & Hm).
  exists m. split; [exact M|]. intros s Ds. apply Hm; [|exact Ds]. intros i I. now apply B.
Qed.
(** A motion cannot stay long where V decreases. *)
Lemma decrease_leaves n f (D : state -> Prop) V Vdot rad : bounded_by n rad D -> closed_set n D ->
  (forall p, cont_at n V p) -> (forall p, cont_at n Vdot p) -> lie_derivative n f V Vdot -> (forall s, D s -> Vdot s < 0) ->
  exists T0, 0 <= T0 /\ forall x T, 0 <= T -> solves n f x T -> (forall t, 0 <= t <= T -> D (x t)) ->
    T <= T0 /\ forall t, 0 < t <= T -> V (x t) < V (x 0).
Proof.
  intros B C HV Hd L N.
  destruct (compact_below n rad D V B C HV) as (m & Hm).
  destruct (compact_below n rad D (fun s => - V s) B C ltac:(intros p; apply cont_neg, HV)) as (M & HM).
  destruct (compact_positive n rad D (fun s => - Vdot s) B C ltac:(intros p; apply cont_neg, Hd)) as (e & He & Hdec).
  { intros s Ds. specialize (N s Ds). lra. }
  exists (Rmax 0 ((- M - m) / e)). split; [apply Rmax_l|]. intros x T HT Hx HD.
  assert (K : forall t, 0 <= t <= T -> V (x t) <= V (x 0) + - e * (t - 0)).
  { intros t Ht. apply (mvt_bound (fun u => V (x u)) (fun u => Vdot (x u))); [lra| |].
    - intros u Hu. apply L, Hx. lra.
    - intros u Hu. specialize (Hdec (x u) (HD u ltac:(lra))). lra. }
  split.
  - apply Rle_trans with ((- M - m) / e); [|apply Rmax_r].
    apply (Rmult_le_reg_r e); [exact He|]. unfold Rdiv. rewrite Rmult_assoc, Rinv_l, Rmult_1_r by lra.
    specialize (K T ltac:(lra)). pose proof (Hm (x T) (HD T ltac:(lra))). pose proof (HM (x 0) (HD 0 ltac:(lra))). nra.
  - intros t Ht. specialize (K t ltac:(lra)). nra.
Qed.
Lemma decrease_leaves_discrete n F (D : state -> Prop) V dV rad : bounded_by n rad D -> closed_set n D ->
  (forall p, cont_at n V p) -> (forall p, cont_at n dV p) -> step_difference n F V dV -> (forall s, D s -> dV s < 0) ->
  exists N0, forall x N, run n F x -> (forall k, (k <= N)%nat -> D (x k)) ->
    (N <= N0)%nat /\ forall k, (k <= N)%nat -> V (x (Datatypes.S k)) < V (x 0%nat).
Proof.
  intros B C HV Hd L Ng.
  destruct (compact_below n rad D V B C HV) as (m & Hm).
  destruct (compact_below n rad D (fun s => - V s) B C ltac:(intros p; apply cont_neg, HV)) as (M & HM).
  destruct (compact_positive n rad D (fun s => - dV s) B C ltac:(intros p; apply cont_neg, Hd)) as (e & He & Hdec).
  { intros s Ds. specialize (Ng s Ds). lra. }
  destruct (nfloor_ex (Rmax 0 ((- M - m) / e)) (Rmax_l _ _)) as (N0 & _ & HN0).
  exists (Datatypes.S N0). intros x N Hx HD.
  assert (K : forall k, (k <= Datatypes.S N)%nat -> V (x k) <= V (x 0%nat) - e * INR k).
  { induction k as [|k IH]; intros Hk; [cbn; lra|]. rewrite S_INR. specialize (IH ltac:(lia)). specialize (Hdec (x k) (HD k ltac:(lia))).
    cbv beta in Hdec. rewrite (L (x k) (x (Datatypes.S k))) in Hdec by (intros i I; now apply Hx). lra. }
  split.
  - apply INR_le. rewrite S_INR. apply Rle_trans with ((- M - m) / e); [|pose proof (Rmax_r 0 ((- M - m) / e)); lra].
    apply (Rmult_le_reg_r e); [exact He|]. unfold Rdiv. rewrite Rmult_assoc, Rinv_l, Rmult_1_r by lra.
    specialize (K N ltac:(lia)). pose proof (Hm (x N) (HD N ltac:(lia))). pose proof (HM (x 0%nat) (HD 0%nat ltac:(lia))). lra.
  - intros k Hk. specialize (K (Datatypes.S k) ltac:(lia)). rewrite S_INR in K. pose proof (pos_INR k). nra.
Qed.

Section Away.
  Context {K : Type} (pb : problem K) (env : environment K) (random : network).
  Hypothesis Hwp : well_posed pb random.
  Hypothesis Hlaw : lawful pb env.
  Hypothesis Hhon : honest pb env.
  Hypothesis Ht : pb_type pb = LYAPUNOV.
  Hypothesis Haway : forall s, inside (pb_sets pb) XD s -> ~ origin (pb_n pb) s.
  Context (rad : R).
  Hypothesis Hbd : bounded_by (pb_n pb) rad (inside (pb_sets pb) XD).
  Hypothesis Hcl : closed_set (pb_n pb) (inside (pb_sets pb) XD).

  Lemma away_leaves ctrl S fuel r :
    pb_discrete pb = false -> pb_symb pb <> SCVC5 -> smooth_net random ->
    (forall i p, cont_at (pb_n pb) (fun s => closed_loop pb r s i) p) ->
    run_fossil pb env fuel random ctrl S = Some (Some r) -> r_res r = true ->
    exists V Vdot T0, r_symbolic r = Some (V, Vdot) /\ 0 <= T0 /\
      forall x T, 0 <= T -> solves (pb_n pb) (closed_loop pb r) x T -> (forall t, 0 <= t <= T -> inside (pb_sets pb) XD (x t)) ->
        T <= T0 /\ forall t, 0 < t <= T -> sem V (x t) < sem V (x 0).
  Proof.
    intros Hd Hs Hsm Hf Hr Hres. unfold closed_loop in Hf.
    destruct (run_success pb env Hlaw random ctrl S fuel r Hr Hres Hhon) as (it0 & V0 & Vdot0 & gs0 & Hsym & Hsh0 & Ht0 & Hx0 & _).
    destruct (success_ct pb env random Hwp Hlaw Hhon ctrl S fuel r Hd Hs Hsm Hr Hres)
      as (it & V & Vdot & gs & net & In & Wn & Sn & Hsh & En & Htr & Hgs & Hcert & Hlie & Lx & HcV & _ & Hh).
    assert (E : Some (V0, Vdot0) = Some (V, Vdot)).
    { rewrite <- Ht0, <- Htr, En. unfold fossil_translate. rewrite Hx0. cbn [option_bind]. now rewrite Hd. }
    rewrite E in Hsym. exists V, Vdot.
    assert (Hdot : forall p, cont_at (pb_n pb) (sem Vdot) p).
    { intros p. rewrite <- In. apply (translate_ct_dot_cont (pb_symb pb) (e_simp env) (pb_rounding pb) (pb_quad pb) net
        (dynamics pb (l_ctrl (r_learned r))) V Vdot); rewrite ?In; auto. }
    destruct (decrease_leaves (pb_n pb) (closed_loop pb r) (inside (pb_sets pb) XD) (sem V) (sem Vdot) rad Hbd Hcl HcV Hdot Hlie) as (T0 & P0 & HT0).
    - intros s Ds. unfold fossil_constraints in Hgs. rewrite Ht in Hgs. apply P_Activations.Some_eq' in Hgs. subst gs.
      exact (proj2 (certified_lyapunov _ _ _ _ _ Hcert s Ds (Haway s Ds))).
    - exists T0. auto.
  Qed.
  Lemma away_leaves_discrete ctrl S fuel r :
    pb_discrete pb = true -> pb_quad pb = false ->
    (forall i p, cont_at (pb_n pb) (fun s => closed_loop pb r s i) p) ->
    run_fossil pb env fuel random ctrl S = Some (Some r) -> r_res r = true ->
    exists V dV N0, r_symbolic r = Some (V, dV) /\
      forall x N, run (pb_n pb) (closed_loop pb r) x -> (forall k, (k <= N)%nat -> inside (pb_sets pb) XD (x k)) ->
        (N <= N0)%nat /\ forall k, (k <= N)%nat -> sem V (x (Datatypes.S k)) < sem V (x 0%nat).
  Proof.
    intros Hd Hq Hf Hr Hres. unfold closed_loop in Hf.
    destruct (run_success pb env Hlaw random ctrl S fuel r Hr Hres Hhon)
      as (it & V & dV & gs & Hsym & Hsh & Htr & Hxd & Hgs & Hcert & _ & Hh).
    destruct Hwp as (W1 & W2 & W3).
    unfold fossil_constraints in Hgs. rewrite Ht in Hgs. apply P_Activations.Some_eq' in Hgs. subst gs.
    unfold fossil_translate in Htr. rewrite Hxd in Htr. cbn [option_bind] in Htr. rewrite Hd, Hq in Htr.
    set (net := l_net (r_learned r)) in *.
    assert (In : in_size net = pb_n pb) by (destruct Hsh as [E _]; congruence).
    assert (Wn : wf_net net) by now apply (same_shape_wf random).
    assert (Hx : length (dynamics pb (l_ctrl (r_learned r))) = in_size net) by now rewrite (W3 _ _ Hxd), In.
    assert (Htr' := Htr). rewrite <- In in Htr'.
    assert (HV := translate_dt_value _ _ _ _ _ _ Wn Hx Htr').
    assert (Hdiff : step_difference (pb_n pb) (closed_loop pb r) (sem V) (sem dV)).
    { rewrite <- In. now apply (C23_discrete_difference (pb_symb pb) (pb_rounding pb) net). }
    exists V, dV.
    destruct (decrease_leaves_discrete (pb_n pb) (closed_loop pb r) (inside (pb_sets pb) XD) (sem V) (sem dV) rad Hbd Hcl) as (N0 & HN0).
    - intros p. apply (cont_ext _ (net_value (round_net (pb_rounding pb) net))).
      + intros s. symmetry. apply HV.
      + rewrite <- In. now apply net_value_cont.
    - intros p. apply (cont_ext _ (fun s => net_value (round_net (pb_rounding pb) net)
          (fun i => field (dynamics pb (l_ctrl (r_learned r))) s i) + -1 * net_value (round_net (pb_rounding pb) net) s)).
      + intros s. unfold sem. rewrite (proj2 (HV s)). change (fun i => field ?x s i) with (field x s). ring.
      + apply cont_plus; [apply net_value_cont_comp; auto|]. apply cont_mult; [apply cont_const|rewrite <- In; now apply net_value_cont].
    - exact Hdiff.
    - intros s Ds. exact (proj2 (certified_lyapunov _ _ _ _ _ Hcert s Ds (Haway s Ds))).
    - exists N0. auto.
  Qed.
End Away.
