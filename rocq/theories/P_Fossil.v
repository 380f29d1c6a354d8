(** Properties C45-C48: what a successful run of [solve()] means for the system.
    The dynamics are those of the returned result (with the synthesised controller). *)
From Coquelicot Require Import Coquelicot.
From Coq Require Import Reals QArith Qreals List Bool Arith ZArith Lra Lia.
From Verif Require Import M_Syntax M_Certificates M_Verifier M_BetaSearch M_Activations M_Network M_Learner M_Cegis M_Fossil
  S_Verifier S_Certificates S_Success S_Dynamics S_Domains S_Network S_Learner S_Cegis S_Fossil
  L_Network L_Learner L_Continuity L_Topology L_Success L_Smooth L_Fossil P_Certificates P_Translator P_BetaSearch P_Safety P_Stability P_LLO P_Cegis.
Import ListNotations.
Local Open Scope R_scope.

(** The closed loop of a result. *)
Definition closed_loop {K} (pb : problem K) (r : result (P := learned K) (C := expr * expr)) : vfield :=
  field (dynamics pb (l_ctrl (r_learned r))).

Section EndToEnd.
  Context {K : Type} (pb : problem K) (env : environment K) (random : network).
  Hypothesis Hwp : well_posed pb random.
  Hypothesis Hlaw : lawful pb env.
  Hypothesis Hhon : honest pb env.

  Lemma success_ct ctrl S fuel r :
    pb_discrete pb = false -> pb_symb pb <> SCVC5 -> smooth_net random ->
    run_fossil pb env fuel random ctrl S = Some (Some r) -> r_res r = true ->
    exists it V Vdot gs net,
      in_size net = pb_n pb /\ wf_net net /\ smooth_net net /\ same_shape random net /\ net = l_net (r_learned r) /\
      translate_ct (pb_symb pb) (e_simp env) (pb_rounding pb) (pb_quad pb) net (new_vars (pb_n pb))
        (dynamics pb (l_ctrl (r_learned r))) = Some (V, Vdot) /\
      fossil_constraints pb (l_beta (r_learned r)) V Vdot = Some gs /\ certified gs /\
      lie_derivative (pb_n pb) (closed_loop pb r) (sem V) (sem Vdot) /\
      length (dynamics pb (l_ctrl (r_learned r))) = pb_n pb /\
      (forall p, cont_at (pb_n pb) (sem V) p) /\
      (pb_type pb = RSWS -> exists fuel k beta,
         beta_search (e_solver env it) (pb_sets pb) V Vdot fuel k = Some (BetaTrue beta)) /\
      (pb_type pb = LYAPUNOV \/ pb_type pb = ROA -> exists h, h <> [] /\
         Forall (fun ps => optimiser (pb_llo pb) (snd ps)) h /\
         net = train (pb_llo pb) h (init_learner (pb_llo pb) random)).
  Proof.
    intros Hd Hs Hsm Hr Hres.
    destruct (run_success pb env Hlaw random ctrl S fuel r Hr Hres Hhon)
      as (it & V & Vdot & gs & _ & Hsh & Ht & Hx & Hc & Hcert & Hb & Htr).
    destruct Hwp as (W1 & W2 & W3).
    exists it, V, Vdot, gs, (l_net (r_learned r)).
    assert (In : in_size (l_net (r_learned r)) = pb_n pb) by (destruct Hsh as [E _]; congruence).
    assert (Wn : wf_net (l_net (r_learned r))) by now apply (same_shape_wf random).
    assert (Sn : smooth_net (l_net (r_learned r))) by now apply (same_shape_smooth random).
    unfold fossil_translate in Ht. rewrite Hx in Ht. cbn [option_bind] in Ht. rewrite Hd in Ht.
    repeat (split; [solve [auto]|]). split; [|split; [exact (W3 _ _ Hx)|split; [|split; [exact Hb|exact Htr]]]].
    - rewrite <- In in Ht |- *. unfold closed_loop.
      apply (C22_smooth_networks (pb_symb pb) (e_simp env) (pb_rounding pb) (pb_quad pb) (l_net (r_learned r))); auto.
      now rewrite In, (W3 _ _ Hx).
    - rewrite <- In in Ht |- *. intros p.
      now apply (translate_ct_cont (pb_symb pb) (e_simp env) (pb_rounding pb) (pb_quad pb) (l_net (r_learned r))
        (dynamics pb (l_ctrl (r_learned r))) V Vdot).
  Qed.

  (** * C45: LYAPUNOV, continuous time. *)
  Lemma lyapunov_end_to_end ctrl S fuel r rad :
    pb_type pb = LYAPUNOV -> pb_discrete pb = false -> pb_symb pb <> SCVC5 ->
    smooth_net random ->
    pb_quad pb = true \/ zero_preserving random ->
    (pb_llo pb = true -> is_positive_definite random = true) ->
    neighbourhood (pb_n pb) rad (inside (pb_sets pb) XD) ->
    (forall i p, cont_at (pb_n pb) (fun s => closed_loop pb r s i) p) ->
    run_fossil pb env fuel random ctrl S = Some (Some r) -> r_res r = true ->
    stable (pb_n pb) (closed_loop pb r) /\ attractive (pb_n pb) (closed_loop pb r).
  Proof.
    intros Ht Hd Hs Hsm Hz Hpd Hnb Hf Hr Hres. unfold closed_loop in Hf.
    destruct (success_ct ctrl S fuel r Hd Hs Hsm Hr Hres)
      as (it & V & Vdot & gs & net & In & Wn & Sn & Hsh & En & Htr & Hgs & Hcert & Hlie & Lx & HcV & _ & Hh).
    assert (Hdot : forall p, cont_at (pb_n pb) (sem Vdot) p).
    { intros p. rewrite <- In. apply (translate_ct_dot_cont (pb_symb pb) (e_simp env) (pb_rounding pb) (pb_quad pb) net
        (dynamics pb (l_ctrl (r_learned r))) V Vdot); rewrite ?In; auto. }
    assert (H0 : forall s, origin (pb_n pb) s -> sem V s = 0).
    { intros s Ho. unfold sem. rewrite <- In in Htr, Ho.
      rewrite (translate_ct_value _ _ _ _ _ _ _ _ Hs Wn Htr).
      apply cert_value_origin; auto. destruct Hz as [Hz|Hz]; [now left|right].
      now apply (same_shape_zero random). }
    assert (Hcond : lyapunov_conditions false (pb_n pb) (pb_sets pb) (sem V) (sem Vdot)).
    { unfold fossil_constraints in Hgs. rewrite Ht in Hgs. apply P_Activations.Some_eq' in Hgs. subst gs.
      destruct (pb_llo pb) eqn:El; [|now apply certified_lyapunov].
      destruct (Hh (or_introl Ht)) as (h & Hne & Hopt & Eh). rewrite Eh in Htr.
      intros s HsD Hno. destruct Hwp as (W1 & W2 & W3).
      destruct (C26_llo_positivity random h (pb_symb pb) (e_simp env) (pb_rounding pb) (pb_quad pb)
        (dynamics pb (l_ctrl (r_learned r))) V Vdot (pb_sets pb)) with (s := s) as [A B]; auto.
      - now rewrite Lx, W2.
      - now rewrite W2.
      - now rewrite W2.
      - now rewrite W2. }
    destruct (C13_lyapunov_stability (pb_n pb) (closed_loop pb r) (pb_sets pb) V Vdot rad) as (A & B & _); auto.
    apply refuted_certified'. now apply C06_lyapunov_obligations.
  Qed.

  (** LYAPUNOV, discrete time. *)
  Lemma lyapunov_discrete_end_to_end ctrl S fuel r rad :
    pb_type pb = LYAPUNOV -> pb_discrete pb = true -> pb_quad pb = false ->
    zero_preserving random ->
    (pb_llo pb = true -> is_positive_definite random = true) ->
    bounded_by (pb_n pb) rad (inside (pb_sets pb) XD) -> closed_set (pb_n pb) (inside (pb_sets pb) XD) ->
    (forall i p, cont_at (pb_n pb) (fun s => closed_loop pb r s i) p) ->
    (forall s, origin (pb_n pb) s -> forall i, (i < pb_n pb)%nat -> closed_loop pb r s i = 0) ->
    run_fossil pb env fuel random ctrl S = Some (Some r) -> r_res r = true ->
    forall x, run (pb_n pb) (closed_loop pb r) x -> (forall k, inside (pb_sets pb) XD (x k)) ->
      forall e, 0 < e -> exists K0, forall k, (K0 <= k)%nat -> near (pb_n pb) e (x k).
  Proof.
    intros Ht Hd Hq Hz Hpd Hbd Hcl Hf Heq Hr Hres. unfold closed_loop in Hf.
    destruct (run_success pb env Hlaw random ctrl S fuel r Hr Hres Hhon)
      as (it & V & dV & gs & _ & Hsh & Htr & Hxd & Hgs & Hcert & _ & Hh).
    destruct Hwp as (W1 & W2 & W3).
    unfold fossil_constraints in Hgs. rewrite Ht in Hgs. apply P_Activations.Some_eq' in Hgs. subst gs.
    unfold fossil_translate in Htr. rewrite Hxd in Htr. cbn [option_bind] in Htr. rewrite Hd, Hq in Htr.
    set (net := l_net (r_learned r)) in *.
    assert (In : in_size net = pb_n pb) by (destruct Hsh as [E _]; congruence).
    assert (Wn : wf_net net) by now apply (same_shape_wf random).
    assert (Zn : zero_preserving net) by now apply (same_shape_zero random).
    assert (Hx : length (dynamics pb (l_ctrl (r_learned r))) = in_size net) by now rewrite (W3 _ _ Hxd), In.
    assert (Htr' := Htr). rewrite <- In in Htr'.
    assert (HV := translate_dt_value _ _ _ _ _ _ Wn Hx Htr').
    assert (Hdiff : step_difference (pb_n pb) (closed_loop pb r) (sem V) (sem dV)).
    { rewrite <- In. now apply (C23_discrete_difference (pb_symb pb) (pb_rounding pb) net). }
    assert (Hcond : lyapunov_conditions false (pb_n pb) (pb_sets pb) (sem V) (sem dV)).
    { destruct (pb_llo pb) eqn:El; [|now apply certified_lyapunov].
      destruct (Hh (or_introl Ht)) as (h & Hne & Hopt & Eh).
      intros s HsD Hno. assert (Hc' := certified_lyapunov _ _ _ _ _ Hcert s HsD Hno). split; [intros _|apply Hc'].
      rewrite Eh, <- W2 in Htr.
      destruct (C26_llo_positivity_discrete random h (pb_symb pb) (pb_rounding pb)
        (dynamics pb (l_ctrl (r_learned r))) V dV (pb_sets pb)) with (s := s) as [A B]; auto; now rewrite ?(W3 _ _ Hxd), ?W2. }
    apply (C14_lyapunov_discrete_convergence (pb_n pb) (closed_loop pb r) (pb_sets pb) V dV rad); auto.
    - apply refuted_certified'. now apply C06_lyapunov_obligations.
    - intros p. apply (cont_ext _ (net_value (round_net (pb_rounding pb) net))).
      + intros s. symmetry. apply HV.
      + now apply net_value_cont.
    - intros p. apply (cont_ext _ (fun s => net_value (round_net (pb_rounding pb) net)
          (fun i => field (dynamics pb (l_ctrl (r_learned r))) s i) + -1 * net_value (round_net (pb_rounding pb) net) s)).
      + intros s. unfold sem. rewrite (proj2 (HV s)). change (fun i => field ?x s i) with (field x s). ring.
      + apply cont_plus; [apply net_value_cont_comp; auto|]. apply cont_mult; [apply cont_const|now apply net_value_cont].
    - intros s Ho. unfold sem. rewrite (proj1 (HV s)). rewrite <- In in Ho.
      assert (E := cert_value_origin (pb_rounding pb) false net s Wn (or_intror Zn) Ho).
      unfold cert_value in E. lra.
  Qed.

  (** * C46: barrier certificates. *)
  Lemma barrier_end_to_end ctrl S fuel r :
    pb_type pb = BARRIER \/ pb_type pb = BARRIERALT -> pb_discrete pb = false -> pb_symb pb <> SCVC5 ->
    smooth_net random ->
    run_fossil pb env fuel random ctrl S = Some (Some r) -> r_res r = true ->
    forall x T, solves (pb_n pb) (closed_loop pb r) x T ->
      inside (pb_sets pb) XI (x 0) ->
      (forall t, 0 <= t <= T -> inside (pb_sets pb) XD (x t)) ->
      forall t, 0 <= t <= T -> ~ inside (pb_sets pb) XU (x t).
  Proof.
    intros Ht Hd Hs Hsm Hr Hres.
    destruct (success_ct ctrl S fuel r Hd Hs Hsm Hr Hres)
      as (it & V & Vdot & gs & net & In & Wn & Sn & Hsh & En & Htr & Hgs & Hcert & Hlie & Lx & _).
    unfold fossil_constraints in Hgs. destruct Ht as [Ht|Ht]; rewrite Ht in Hgs; apply P_Activations.Some_eq' in Hgs; subst gs.
    - now apply (C15_barrier_safety (pb_n pb) (closed_loop pb r) (pb_sets pb) V Vdot).
    - now apply (C16_barrier_alt_safety_continuous (pb_n pb) (closed_loop pb r) (pb_sets pb) V Vdot).
  Qed.

  Lemma barrier_discrete_end_to_end ctrl S fuel r :
    pb_type pb = BARRIERALT -> pb_discrete pb = true -> pb_symb pb <> SSYMPY ->
    run_fossil pb env fuel random ctrl S = Some (Some r) -> r_res r = true ->
    forall x N, run (pb_n pb) (closed_loop pb r) x ->
      inside (pb_sets pb) XI (x 0%nat) ->
      (forall k, (k <= N)%nat -> inside (pb_sets pb) XD (x k)) ->
      forall k, (k <= N)%nat -> ~ inside (pb_sets pb) XU (x k).
  Proof.
    intros Ht Hd Hq Hr Hres x N Hx Hi HD k Hk Hu.
    destruct (run_success pb env Hlaw random ctrl S fuel r Hr Hres Hhon)
      as (it & V & dV & gs & _ & Hsh & Htr & Hxd & Hgs & Hcert & _).
    destruct Hwp as (W1 & W2 & W3).
    unfold fossil_constraints in Hgs. rewrite Ht in Hgs. apply P_Activations.Some_eq' in Hgs. subst gs.
    unfold fossil_translate in Htr. rewrite Hxd in Htr. cbn [option_bind] in Htr. rewrite Hd in Htr.
    set (net := l_net (r_learned r)) in *.
    assert (In : in_size net = pb_n pb) by (destruct Hsh as [E _]; congruence).
    assert (Wn : wf_net net) by now apply (same_shape_wf random).
    rewrite <- In in Htr.
    assert (HV := translate_dt_quad _ _ _ _ _ _ _ Hq Wn (eq_trans (W3 _ _ Hxd) (eq_sym In)) Htr).
    destruct (certified_barrier_alt _ _ _ Hcert) as (H1 & H2 & H3). unfold sem in *.
    (* B <= 0 is invariant: the bare network is <= B at the next state *)
    assert (Hinv : forall j, (j <= N)%nat -> eval (x j) V <= 0).
    { induction j as [|j IH]; intros Hj; [apply Rlt_le, H1; auto; apply HD; lia|].
      assert (Hj' := IH ltac:(lia)). assert (Hs := H3 (x j) (HD j ltac:(lia))).
      rewrite (proj2 (HV (x j))) in Hs. rewrite (proj1 (HV (x j))) in Hj'.
      rewrite (proj1 (HV (x (Datatypes.S j)))). unfold cert_value at 1.
      assert (E : net_value (round_net (pb_rounding pb) net) (x (Datatypes.S j)) =
                  net_value (round_net (pb_rounding pb) net) (field (dynamics pb (l_ctrl (r_learned r))) (x j))).
      { apply net_value_ext; [now apply wf_round_net|]. intros i Hlt. apply (Hx j i). cbn [in_size round_net] in Hlt. lia. }
      rewrite E. set (a := net_value _ (field _ _)) in *.
      assert (Ha : a <= 0) by lra.
      destruct (pb_quad pb); [|lra].
      assert (Hsq : 0 <= sum_below (in_size (round_net (pb_rounding pb) net)) (fun i => x (Datatypes.S j) i * x (Datatypes.S j) i)).
      { apply sum_squares_nonneg. }
      nra. }
    assert (A := H2 _ (HD k Hk) Hu). assert (B := Hinv k Hk). lra.
  Qed.

  (** * C47: regions of attraction (with LLO, the only case with a sound guarantee). *)
  Lemma roa_end_to_end ctrl S fuel r rad rho :
    pb_type pb = ROA -> pb_llo pb = true -> pb_discrete pb = false -> pb_symb pb <> SCVC5 ->
    smooth_net random ->
    (forall i p, cont_at (pb_n pb) (fun s => closed_loop pb r s i) p) ->
    run_fossil pb env fuel random ctrl S = Some (Some r) -> r_res r = true ->
    forall V Vdot, r_symbolic r = Some (V, Vdot) ->
    bounded_by (pb_n pb) rad (fun s => sem V s <= 11/10 * Q2R (l_beta (r_learned r))) -> 1/100 < rho ->
    exists T, 0 <= T /\ forall x, solves (pb_n pb) (closed_loop pb r) x T -> inside (pb_sets pb) XI (x 0) ->
      exists t, 0 <= t <= T /\ ~ outside_ball (pb_n pb) rho (x t).
  Proof.
    intros Ht Hllo Hd Hs Hsm Hf Hr Hres V0 Vdot0 Hsym Hbd Hrho. unfold closed_loop in Hf.
    destruct (success_ct ctrl S fuel r Hd Hs Hsm Hr Hres)
      as (it & V & Vdot & gs & net & In & Wn & Sn & Hsh & En & Htr & Hgs & Hcert & Hlie & Lx & HcV & _ & Hh).
    destruct (run_success pb env Hlaw random ctrl S fuel r Hr Hres Hhon)
      as (it' & V' & Vdot' & gs' & Hsym' & _ & Ht' & Hx' & _).
    rewrite Hsym' in Hsym. apply P_Activations.Some_eq' in Hsym. apply pair_equal_spec in Hsym. destruct Hsym as [-> ->].
    unfold fossil_translate in Ht'. rewrite Hx' in Ht'. cbn [option_bind] in Ht'. rewrite Hd, <- En in Ht'. rewrite Ht' in Htr.
    apply P_Activations.Some_eq' in Htr. apply pair_equal_spec in Htr. destruct Htr as [-> ->].
    unfold fossil_constraints in Hgs. rewrite Ht, Hllo in Hgs. apply P_Activations.Some_eq' in Hgs. subst gs.
    apply (C19_roa_llo_attraction (pb_n pb) (closed_loop pb r) (pb_sets pb) (l_beta (r_learned r)) V' Vdot' rad rho); auto.
    intros p. rewrite <- In. apply (translate_ct_dot_cont (pb_symb pb) (e_simp env) (pb_rounding pb) (pb_quad pb) net
        (dynamics pb (l_ctrl (r_learned r))) V' Vdot'); rewrite ?In; auto.
  Qed.

  (** * C48: reach-while-stay and reach-and-stay. *)
  Lemma bounded_below (V : state -> R) rad (D : state -> Prop) :
    (forall p, cont_at (pb_n pb) V p) -> bounded_by (pb_n pb) rad D -> exists m, forall s, D s -> m <= V s.
  Proof.
    intros Hc [Hr Hb]. destruct (box_bounded_below (pb_n pb) rad (fun _ => True) V Hr) as [m Hm]; auto.
    - intros p _ H. now elim H.
    - exists m. intros s Hs. apply Hm; auto. intros i Hi. now apply Hb.
  Qed.

  Lemma rws_end_to_end ctrl S fuel r rad :
    pb_type pb = RWS \/ pb_type pb = RWA \/ pb_type pb = RSWS \/ pb_type pb = RSWA ->
    pb_discrete pb = false -> pb_symb pb <> SCVC5 -> smooth_net random ->
    rws_geometry (pb_n pb) (pb_sets pb) -> bounded_by (pb_n pb) rad (inside (pb_sets pb) XS) ->
    run_fossil pb env fuel random ctrl S = Some (Some r) -> r_res r = true ->
    exists T0, forall x T, T0 <= T -> solves (pb_n pb) (closed_loop pb r) x T -> inside (pb_sets pb) XI (x 0) ->
      reach_while_stay (inside (pb_sets pb) XS) (inside (pb_sets pb) XG) x T.
  Proof.
    intros Ht Hd Hs Hsm Hgeo Hbd Hr Hres.
    destruct (success_ct ctrl S fuel r Hd Hs Hsm Hr Hres)
      as (it & V & Vdot & gs & net & In & Wn & Sn & Hsh & En & Htr & Hgs & Hcert & Hlie & Lx & HcV & _).
    assert (E : gs = rws_constraints (pb_sets pb) V Vdot).
    { unfold fossil_constraints in Hgs. destruct Ht as [-> |[-> |[-> | ->]]] in Hgs; now apply P_Activations.Some_eq' in Hgs. }
    subst gs. destruct (bounded_below (sem V) rad _ HcV Hbd) as [m Hm].
    exists (1 - m * 100). intros x T HT Hx Hi.
    apply (C17_rws_reach_while_stay (pb_n pb) (closed_loop pb r) (pb_sets pb) V Vdot m); auto.
    destruct (certified_rws _ _ _ Hcert) as (H1 & _). assert (H0 := H1 _ (proj1 (proj1 Hgeo _ Hi)) Hi). lra.
  Qed.

  Lemma rsws_end_to_end ctrl S fuel r rad :
    pb_type pb = RSWS -> pb_discrete pb = false -> pb_symb pb <> SCVC5 -> smooth_net random ->
    (forall it V Vdot, stay_sound (e_solver env it) (pb_sets pb) V Vdot) ->
    rsws_geometry (pb_n pb) (pb_sets pb) -> bounded_by (pb_n pb) rad (inside (pb_sets pb) XS) ->
    run_fossil pb env fuel random ctrl S = Some (Some r) -> r_res r = true ->
    exists T0, forall x, solves_forever (pb_n pb) (closed_loop pb r) x -> inside (pb_sets pb) XI (x 0) ->
      (forall t, 0 <= t -> inside (pb_sets pb) XS (x t)) /\
      (forall t, T0 <= t -> inside (pb_sets pb) XG (x t)).
  Proof.
    intros Ht Hd Hs Hsm Hstay Hgeo Hbd Hr Hres.
    destruct (success_ct ctrl S fuel r Hd Hs Hsm Hr Hres)
      as (it & V & Vdot & gs & net & In & Wn & Sn & Hsh & En & Htr & Hgs & Hcert & Hlie & Lx & HcV & Hb & _).
    unfold fossil_constraints in Hgs. rewrite Ht in Hgs. apply P_Activations.Some_eq' in Hgs. subst gs.
    destruct (Hb Ht) as (fu & k & beta & Hbeta).
    destruct (bounded_below (sem V) rad _ HcV Hbd) as [m Hm].
    exists (1 - m * 100). intros x Hx Hi.
    destruct (C18_rsws_reach_and_stay (pb_n pb) (closed_loop pb r) (pb_sets pb) V Vdot m (e_solver env it) fu k beta
      Hcert (Hstay it V Vdot) Hbeta Hlie Hgeo Hm x Hx Hi) as [A B]. split; [exact A|].
    intros t Hts. apply (B (1 - m * 100)); auto.
    destruct (certified_rws _ _ _ Hcert) as (H1 & _). assert (H0 := H1 _ (proj1 (proj1 (proj1 Hgeo) _ Hi)) Hi). lra.
  Qed.
End EndToEnd.

(** * The theorems. *)
Theorem C45_lyapunov_success_means_stability :
  forall (K : Type) (pb : problem K) (env : environment K) random ctrl S fuel r rad,
    well_posed pb random -> lawful pb env -> honest pb env ->
    pb_type pb = LYAPUNOV -> pb_discrete pb = false -> pb_symb pb <> SCVC5 ->
    smooth_net random ->
    (* what the code does not ensure: V(0) = 0 and, with LLO, that its warning was not printed *)
    pb_quad pb = true \/ zero_preserving random ->
    (pb_llo pb = true -> is_positive_definite random = true) ->
    neighbourhood (pb_n pb) rad (inside (pb_sets pb) XD) ->
    (forall i p, cont_at (pb_n pb) (fun s => closed_loop pb r s i) p) ->
    run_fossil pb env fuel random ctrl S = Some (Some r) -> r_res r = true ->
    stable (pb_n pb) (closed_loop pb r) /\ attractive (pb_n pb) (closed_loop pb r).
Proof. intros K pb env random ctrl S fuel r rad. intros. eapply lyapunov_end_to_end; eauto. Qed.

Theorem C45_lyapunov_discrete_success_means_convergence :
  forall (K : Type) (pb : problem K) (env : environment K) random ctrl S fuel r rad,
    well_posed pb random -> lawful pb env -> honest pb env ->
    pb_type pb = LYAPUNOV -> pb_discrete pb = true -> pb_quad pb = false ->
    zero_preserving random ->
    (pb_llo pb = true -> is_positive_definite random = true) ->
    bounded_by (pb_n pb) rad (inside (pb_sets pb) XD) -> closed_set (pb_n pb) (inside (pb_sets pb) XD) ->
    (forall i p, cont_at (pb_n pb) (fun s => closed_loop pb r s i) p) ->
    (* the origin is an equilibrium *)
    (forall s, origin (pb_n pb) s -> forall i, (i < pb_n pb)%nat -> closed_loop pb r s i = 0) ->
    run_fossil pb env fuel random ctrl S = Some (Some r) -> r_res r = true ->
    forall x, run (pb_n pb) (closed_loop pb r) x -> (forall k, inside (pb_sets pb) XD (x k)) ->
      forall e, 0 < e -> exists K0, forall k, (K0 <= k)%nat -> near (pb_n pb) e (x k).
Proof. intros K pb env random ctrl S fuel r rad. intros. eapply lyapunov_discrete_end_to_end; eauto. Qed.

Theorem C46_barrier_success_means_safety :
  forall (K : Type) (pb : problem K) (env : environment K) random ctrl S fuel r,
    well_posed pb random -> lawful pb env -> honest pb env ->
    pb_type pb = BARRIER \/ pb_type pb = BARRIERALT -> pb_discrete pb = false -> pb_symb pb <> SCVC5 ->
    smooth_net random ->
    run_fossil pb env fuel random ctrl S = Some (Some r) -> r_res r = true ->
    forall x T, solves (pb_n pb) (closed_loop pb r) x T ->
      inside (pb_sets pb) XI (x 0) ->
      (forall t, 0 <= t <= T -> inside (pb_sets pb) XD (x t)) ->
      forall t, 0 <= t <= T -> ~ inside (pb_sets pb) XU (x t).
Proof. intros K pb env random ctrl S fuel r. intros. eapply barrier_end_to_end; eauto. Qed.

Theorem C46_barrier_success_means_safety_discrete :
  forall (K : Type) (pb : problem K) (env : environment K) random ctrl S fuel r,
    well_posed pb random -> lawful pb env -> honest pb env ->
    pb_type pb = BARRIERALT -> pb_discrete pb = true -> pb_symb pb <> SSYMPY ->
    run_fossil pb env fuel random ctrl S = Some (Some r) -> r_res r = true ->
    forall x N, run (pb_n pb) (closed_loop pb r) x ->
      inside (pb_sets pb) XI (x 0%nat) ->
      (forall k, (k <= N)%nat -> inside (pb_sets pb) XD (x k)) ->
      forall k, (k <= N)%nat -> ~ inside (pb_sets pb) XU (x k).
Proof. intros K pb env random ctrl S fuel r. intros. eapply barrier_discrete_end_to_end; eauto. Qed.

Theorem C47_roa_success_means_attraction :
  forall (K : Type) (pb : problem K) (env : environment K) random ctrl S fuel r rad rho,
    well_posed pb random -> lawful pb env -> honest pb env ->
    pb_type pb = ROA -> pb_llo pb = true -> pb_discrete pb = false -> pb_symb pb <> SCVC5 ->
    smooth_net random ->
    (forall i p, cont_at (pb_n pb) (fun s => closed_loop pb r s i) p) ->
    run_fossil pb env fuel random ctrl S = Some (Some r) -> r_res r = true ->
    (* the certified sublevel set of the returned V is bounded *)
    forall V Vdot, r_symbolic r = Some (V, Vdot) ->
    bounded_by (pb_n pb) rad (fun s => sem V s <= 11/10 * Q2R (l_beta (r_learned r))) -> 1/100 < rho ->
    exists T, 0 <= T /\ forall x, solves (pb_n pb) (closed_loop pb r) x T -> inside (pb_sets pb) XI (x 0) ->
      exists t, 0 <= t <= T /\ ~ outside_ball (pb_n pb) rho (x t).
Proof. intros K pb env random ctrl S fuel r rad rho. intros. eapply roa_end_to_end; eauto. Qed.

Theorem C48_reach_while_stay :
  forall (K : Type) (pb : problem K) (env : environment K) random ctrl S fuel r rad,
    well_posed pb random -> lawful pb env -> honest pb env ->
    pb_type pb = RWS \/ pb_type pb = RWA \/ pb_type pb = RSWS \/ pb_type pb = RSWA ->
    pb_discrete pb = false -> pb_symb pb <> SCVC5 -> smooth_net random ->
    rws_geometry (pb_n pb) (pb_sets pb) -> bounded_by (pb_n pb) rad (inside (pb_sets pb) XS) ->
    run_fossil pb env fuel random ctrl S = Some (Some r) -> r_res r = true ->
    exists T0, forall x T, T0 <= T -> solves (pb_n pb) (closed_loop pb r) x T -> inside (pb_sets pb) XI (x 0) ->
      reach_while_stay (inside (pb_sets pb) XS) (inside (pb_sets pb) XG) x T.
Proof. intros K pb env random ctrl S fuel r rad. intros. eapply rws_end_to_end; eauto. Qed.

Theorem C48_reach_and_stay :
  forall (K : Type) (pb : problem K) (env : environment K) random ctrl S fuel r rad,
    well_posed pb random -> lawful pb env -> honest pb env ->
    pb_type pb = RSWS -> pb_discrete pb = false -> pb_symb pb <> SCVC5 -> smooth_net random ->
    (forall it V Vdot, stay_sound (e_solver env it) (pb_sets pb) V Vdot) ->
    rsws_geometry (pb_n pb) (pb_sets pb) -> bounded_by (pb_n pb) rad (inside (pb_sets pb) XS) ->
    run_fossil pb env fuel random ctrl S = Some (Some r) -> r_res r = true ->
    exists T0, forall x, solves_forever (pb_n pb) (closed_loop pb r) x -> inside (pb_sets pb) XI (x 0) ->
      (forall t, 0 <= t -> inside (pb_sets pb) XS (x t)) /\
      (forall t, T0 <= t -> inside (pb_sets pb) XG (x t)).
Proof. intros K pb env random ctrl S fuel r rad. intros. eapply rsws_end_to_end; eauto. Qed.
