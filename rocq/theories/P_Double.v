(** Properties C52 and C53: what a successful run for STABLESAFE and RAR means, and what
    happens when the search turns to the second certificate. *)
From Coquelicot Require Import Coquelicot.
From Coq Require Import Reals QArith Qreals List Bool Arith ZArith Lra Lia.
From Verif Require Import M_Syntax M_Certificates M_Verifier M_BetaSearch M_Activations M_Network M_Learner M_Cegis M_Fossil M_Double
  S_Verifier S_Certificates S_Success S_Dynamics S_Domains S_Network S_Learner S_Cegis S_Fossil S_Double
  L_Network L_Learner L_Continuity L_Topology L_Success L_Smooth L_Fossil P_Verifier P_Certificates P_Translator P_BetaSearch P_Safety P_Stability P_LLO P_Cegis P_Fossil.
Import ListNotations.
Local Open Scope R_scope.

(** The closed loop of a result. *)
Definition closed_loop2 {K} (pb : problem K) (r : result (P := learned2 K) (C := candidate2)) : vfield :=
  field (dynamics pb (d_ctrl (r_learned r))).

Definition pair_shape (a b : network * network) : Prop := same_shape (fst a) (fst b) /\ same_shape (snd a) (snd b).
Lemma pair_shape_refl a : pair_shape a a.
Proof. split; apply same_shape_refl. Qed.
Lemma pair_shape_trans a b c : pair_shape a b -> pair_shape b c -> pair_shape a c.
Proof. intros [A B] [C D]. split; eapply same_shape_trans; eauto. Qed.

Lemma safe_pair_shape perfect step : (forall t nets, pair_shape nets (step t nets)) ->
  forall loops t nets, pair_shape nets (safe_pair_loop perfect step t loops nets).
Proof.
  intros H. induction loops as [|k IH]; intros t nets; simpl; [apply pair_shape_refl|].
  destruct (_ && _); [apply pair_shape_refl|]. eapply pair_shape_trans; [apply H|apply IH].
Qed.
Lemma rar_pair_shape cond step : (forall t nets, pair_shape nets (step t nets)) ->
  forall loops t old nets, pair_shape nets (rar_pair_loop cond step t loops old nets).
Proof.
  intros H. induction loops as [|k IH]; intros t old nets; simpl; [apply pair_shape_refl|].
  destruct (_ && _); [apply pair_shape_refl|]. eapply pair_shape_trans; [apply H|apply IH].
Qed.
Lemma safe_pair_fst perfect step : (forall t nets, fst (step t nets) = fst nets) ->
  forall loops t nets, fst (safe_pair_loop perfect step t loops nets) = fst nets.
Proof.
  intros H. induction loops as [|k IH]; intros t nets; simpl; [reflexivity|].
  destruct (_ && _); [reflexivity|]. now rewrite IH, H.
Qed.
Lemma rar_pair_fst cond step : (forall t nets, fst (step t nets) = fst nets) ->
  forall loops t old nets, fst (rar_pair_loop cond step t loops old nets) = fst nets.
Proof.
  intros H. induction loops as [|k IH]; intros t old nets; simpl; [reflexivity|].
  destruct (_ && _); [reflexivity|]. now rewrite IH, H.
Qed.

(** The verdict on three groups, two of them with the same label (STABLESAFE). *)
Lemma verify_stablesafe be noise a b c d :
  (forall k f, b_is_sat be (b_solve be k f) = true -> b_is_unsat be (b_solve be k f) = false) ->
  v_found (verify be noise [[(XD, a)]; [(XI, b); (XU, c)]; [(XD, d)]]) = true ->
  b_is_sat be (b_solve be 0 a) = false /\
  b_is_unsat be (b_solve be 1 b) = true /\ b_is_unsat be (b_solve be 2 c) = true /\
  b_is_unsat be (b_solve be 3 d) = true.
Proof.
  intros Hx. unfold verify. cbn.
  destruct (b_is_sat be (b_solve be 0 a)) eqn:Ea; cbn.
  { rewrite (Hx _ _ Ea). intros H; cbn in H; discriminate H. }
  destruct (b_is_sat be (b_solve be 1 b)) eqn:Eb; cbn.
  { rewrite (Hx _ _ Eb). destruct (b_is_unsat be (b_solve be 0 a)); intros H; cbn in H; discriminate H. }
  destruct (b_is_sat be (b_solve be 2 c)) eqn:Ec; cbn.
  { rewrite (Hx _ _ Ec). destruct (b_is_unsat be (b_solve be 0 a)), (b_is_unsat be (b_solve be 1 b)); intros H; cbn in H; discriminate H. }
  replace (snd (if b_is_sat be (b_solve be 3 d) || _ then _ else _)) with [(XD, b_solve be 3 d); (XI, b_solve be 1 b); (XU, b_solve be 2 c)]
    by (destruct (_ || _); reflexivity).
  cbn. destruct (b_is_unsat be (b_solve be 3 d)); [|intros H; cbn in H; discriminate H].
  destruct (b_is_unsat be (b_solve be 1 b)); [|intros H; cbn in H; discriminate H].
  destruct (b_is_unsat be (b_solve be 2 c)); [|intros H; cbn in H; discriminate H]. auto.
Qed.
(** Counterexamples for the second certificate appear only after the first one's check. *)
Lemma cex_stablesafe be noise a b c d :
  has_key XI (v_cex (verify be noise [[(XD, a)]; [(XI, b); (XU, c)]; [(XD, d)]])) = true ->
  b_is_sat be (b_solve be 0 a) = false.
Proof.
  unfold verify. cbn. destruct (b_is_sat be (b_solve be 0 a)) eqn:Ea; auto. cbn.
  destruct (b_is_unsat be (b_solve be 0 a)); intros H; cbn in H; discriminate H.
Qed.
Lemma cex_rar be noise a b c d e f :
  has_key XG (v_cex (verify be noise [[(XI, a); (XU, b)]; [(XD, c)]; [(XG, d); (XNF, e)]; [(XF, f)]])) = true ->
  b_is_sat be (b_solve be 0 a) = false /\ b_is_sat be (b_solve be 1 b) = false /\ b_is_sat be (b_solve be 2 c) = false.
Proof.
  unfold verify. cbn.
  destruct (b_is_sat be (b_solve be 0 a)) eqn:Ea; cbn.
  { destruct (b_is_unsat be (b_solve be 0 a)), (b_is_unsat be (b_solve be 1 b)); intros H; cbn in H; discriminate H. }
  destruct (b_is_sat be (b_solve be 1 b)) eqn:Eb; cbn.
  { destruct (b_is_unsat be (b_solve be 0 a)), (b_is_unsat be (b_solve be 1 b)); intros H; cbn in H; discriminate H. }
  destruct (b_is_sat be (b_solve be 2 c)) eqn:Ec; cbn; [|auto].
  destruct (b_is_unsat be (b_solve be 0 a)), (b_is_unsat be (b_solve be 1 b)), (b_is_unsat be (b_solve be 2 c)); intros H; cbn in H; discriminate H.
Qed.

(** What [iterate] does to the frozen flag. *)
Lemma iterate_frozen {P C} (k : components P C) it st st' : iterate k it st = Some (false, st') ->
  exists p c cex, c_learn k it (st_frozen st) (st_params st) (st_S st) (st_Sdot st) = Some p /\
    c_translate k it p = Some c /\ st_params st' = p /\
    (exists found, c_verify k it p c = Some (found, cex)) /\
    st_frozen st' = st_frozen st || (second_certificate k cex && negb (c_control k)).
Proof.
  unfold iterate. intros H.
  destruct (c_learn k it (st_frozen st) (st_params st) (st_S st) (st_Sdot st)) as [p|] eqn:E1; cbn [option_bind] in H; [|discriminate].
  destruct (c_translate k it p) as [c|] eqn:E2; cbn [option_bind] in H; [|discriminate].
  destruct (c_verify k it p c) as [[found cex]|] eqn:E3; cbn [option_bind] in H; [|discriminate].
  destruct (consolidator_get k it (second_certificate k cex) p cex) as [t|]; cbn [option_bind] in H; [|discriminate].
  exists p, c, cex. split; [reflexivity|]. split; [assumption|].
  destruct found.
  - unfold process_certificate in H.
    destruct (if cert_eqb (c_type k) LYAPUNOV || cert_eqb (c_type k) ROA then _ else _); cbn [option_bind] in H; [|discriminate].
    destruct (cert_eqb (c_type k) RSWS).
    + destruct (c_stay k it _ c) as [[|]|]; cbn [option_bind] in H; try discriminate. injection H as _ <-. cbn. eauto.
    + injection H as H _. discriminate.
  - cbn [st_timed_out] in H. destruct (st_timed_out st); [discriminate|].
    destruct (_ =? _)%Z; [discriminate|].
    unfold process_cex in H. destruct (if c_double k then _ else _) as [cex'|]; cbn [option_bind] in H; [|discriminate].
    destruct (add_ces_to_data _ _ _ _ _) as [[S1 S2]|]; cbn [option_bind] in H; [|discriminate].
    injection H as <-. cbn. eauto.
Qed.

Section Runs2.
  Context {K : Type} (pb : problem K) (env : environment2 K) (random1 random2 : network).
  Hypothesis Hwp : well_posed2 pb random1 random2.
  Hypothesis Hlaw : lawful2 env.

  Lemma learn_pair_shape frozen it p S Sdot :
    pair_shape (d_lyap p, d_barr p) (learn_pair pb env frozen it p S Sdot).
  Proof.
    assert (H : forall t nets, pair_shape nets (freeze_step frozen (e2_step env it p S Sdot) t nets)).
    { intros t nets. unfold freeze_step. destruct (Hlaw it p S Sdot t nets) as [A B].
      destruct frozen; split; auto. apply same_shape_refl. }
    unfold learn_pair. destruct (pb_type pb); first [apply rar_pair_shape | apply safe_pair_shape]; auto.
  Qed.
  Lemma learn_pair_frozen it p S Sdot : fst (learn_pair pb env true it p S Sdot) = d_lyap p.
  Proof.
    unfold learn_pair. destruct (pb_type pb);
      rewrite ?safe_pair_fst, ?rar_pair_fst by reflexivity; reflexivity.
  Qed.

  Lemma visited2_shape ctrl S it st :
    visited (double pb env) (initial2 pb random1 random2 ctrl) S it st ->
    pair_shape (random1, random2) (d_lyap (st_params st), d_barr (st_params st)).
  Proof.
    induction 1 as [|it st st' Hv IH Hi].
    - split; cbn [fst snd st_params init_state d_lyap d_barr initial2]; apply init_shape.
    - apply iterate_inv in Hi. destruct Hi as (q & c & found & cex & t & H1 & _ & _ & _ & Hp & _).
      rewrite Hp. cbn [c_learn double] in H1. unfold double_learn in H1.
      apply P_Activations.Some_eq' in H1. subst q. cbn [d_lyap d_barr].
      eapply pair_shape_trans; [exact IH|].
      assert (L := learn_pair_shape (st_frozen st) it (st_params st) (st_S st) (st_Sdot st)).
      split; apply L.
  Qed.

  Lemma run2_success ctrl S fuel r : honest2 pb env -> pb_symb pb <> SCVC5 -> smooth_net random1 -> smooth_net random2 ->
    run_double pb env fuel random1 random2 ctrl S = Some (Some r) -> r_res r = true ->
    exists it V Vdot B Bdot gs noise,
      r_symbolic r = Some ((V, Vdot), (B, Bdot)) /\
      double_constraints pb (d_beta (r_learned r)) ((V, Vdot), (B, Bdot)) = Some gs /\
      trustworthy (e2_solver env it) gs /\ v_found (verify (e2_solver env it) noise gs) = true /\
      lie_derivative (pb_n pb) (closed_loop2 pb r) (sem V) (sem Vdot) /\
      lie_derivative (pb_n pb) (closed_loop2 pb r) (sem B) (sem Bdot) /\
      (forall p, cont_at (pb_n pb) (sem V) p) /\
      ((forall i p, cont_at (pb_n pb) (fun s => closed_loop2 pb r s i) p) -> forall p, cont_at (pb_n pb) (sem Vdot) p).
  Proof.
    intros Hh Hs Sm1 Sm2 Hr Hres. unfold run_double in Hr. destruct (pb_discrete pb); [discriminate|].
    destruct (C32_result_was_verified _ _ _ _ _ _ _ Hr Hres)
      as (it & [[V Vdot] [B Bdot]] & cex & _ & E1 & E2 & E3 & _ & st & Hv & E5).
    cbn [c_translate c_verify c_learn double] in *. unfold double_learn in E5. apply P_Activations.Some_eq' in E5.
    assert (Hsh : pair_shape (random1, random2) (d_lyap (r_learned r), d_barr (r_learned r))).
    { rewrite E5. cbn [d_lyap d_barr]. eapply pair_shape_trans; [apply (visited2_shape _ _ _ _ Hv)|].
      assert (L := learn_pair_shape (st_frozen st) it (st_params st) (st_S st) (st_Sdot st)). split; apply L. }
    destruct Hsh as [Sh1 Sh2]. cbn [fst snd] in Sh1, Sh2. clear E5.
    unfold double_translate in E2.
    destruct (pb_xdot pb (d_ctrl (r_learned r))) as [xdot|] eqn:Ex; cbn [option_bind] in E2; [|discriminate].
    destruct (translate_ct _ _ _ _ (d_lyap (r_learned r)) _ xdot) as [v|] eqn:Ev; cbn [option_bind] in E2; [|discriminate].
    destruct (translate_ct _ _ _ _ (d_barr (r_learned r)) _ xdot) as [b|] eqn:Eb; cbn [option_bind] in E2; [|discriminate].
    apply P_Activations.Some_eq' in E2. apply pair_equal_spec in E2. destruct E2 as [<- <-].
    unfold double_verify in E3.
    destruct (double_constraints pb (d_beta (r_learned r)) ((V, Vdot), (B, Bdot))) as [gs|] eqn:Eg; cbn [option_bind] in E3; [|discriminate].
    apply P_Activations.Some_eq' in E3. apply pair_equal_spec in E3. destruct E3 as [E3 _].
    destruct Hwp as [(W1 & W2 & W3) (U1 & U2 & U3)].
    assert (I1 : in_size (d_lyap (r_learned r)) = pb_n pb) by (destruct Sh1 as [E _]; congruence).
    assert (I2 : in_size (d_barr (r_learned r)) = pb_n pb) by (destruct Sh2 as [E _]; congruence).
    assert (Wl : wf_net (d_lyap (r_learned r))) by now apply (same_shape_wf random1).
    assert (Wb : wf_net (d_barr (r_learned r))) by now apply (same_shape_wf random2).
    assert (Sl : smooth_net (d_lyap (r_learned r))) by now apply (same_shape_smooth random1).
    assert (Sb : smooth_net (d_barr (r_learned r))) by now apply (same_shape_smooth random2).
    assert (Lx := W3 _ _ Ex).
    assert (Ecl : closed_loop2 pb r = field xdot) by (unfold closed_loop2, dynamics; now rewrite Ex).
    exists it, V, Vdot, B, Bdot, gs, (e2_noise env it).
    split; [exact E1|]. split; [exact Eg|]. split; [now apply (Hh it _ _ _ Eg)|]. split; [now symmetry|].
    rewrite Ecl.
    split; [|split; [|split]].
    - rewrite <- I1 in Ev |- *.
      apply (C22_smooth_networks (pb_symb pb) (e2_simp env) (pb_rounding pb) false (d_lyap (r_learned r))); auto. congruence.
    - rewrite <- I2 in Eb |- *.
      apply (C22_smooth_networks (pb_symb pb) (e2_simp env) (pb_rounding pb) false (d_barr (r_learned r))); auto. congruence.
    - rewrite <- I1 in Ev |- *. intros p.
      now apply (translate_ct_cont (pb_symb pb) (e2_simp env) (pb_rounding pb) false (d_lyap (r_learned r)) xdot V Vdot).
    - intros Hf p. rewrite <- I1 in Ev, Hf |- *.
      apply (translate_ct_dot_cont (pb_symb pb) (e2_simp env) (pb_rounding pb) false (d_lyap (r_learned r)) xdot V Vdot); auto.
  Qed.

  (** * RAR *)
  Lemma rar_end_to_end ctrl S fuel r rad :
    honest2 pb env -> pb_type pb = RAR -> pb_symb pb <> SCVC5 -> smooth_net random1 -> smooth_net random2 ->
    rws_geometry (pb_n pb) (pb_sets pb) -> bounded_by (pb_n pb) rad (inside (pb_sets pb) XS) ->
    (forall s, inside (pb_sets pb) XD s -> inside (pb_sets pb) XF s \/ inside (pb_sets pb) XNF s) ->
    run_double pb env fuel random1 random2 ctrl S = Some (Some r) -> r_res r = true ->
    exists T0, forall x T, solves (pb_n pb) (closed_loop2 pb r) x T -> inside (pb_sets pb) XI (x 0) ->
      (T0 <= T -> reach_while_stay (inside (pb_sets pb) XS) (inside (pb_sets pb) XG) x T) /\
      (forall a, 0 <= a <= T -> inside (pb_sets pb) XG (x a) ->
         (forall t, a <= t <= T -> inside (pb_sets pb) XD (x t)) ->
         forall t, a <= t <= T -> inside (pb_sets pb) XF (x t) /\ ~ inside (pb_sets pb) XNF (x t)).
  Proof.
    intros Hh Ht Hs Sm1 Sm2 Hgeo Hbd Hcov Hr Hres.
    destruct (run2_success ctrl S fuel r Hh Hs Sm1 Sm2 Hr Hres)
      as (it & V & Vdot & B & Bdot & gs & noise & _ & Hgs & Htw & Hf & HlV & HlB & HcV & _).
    unfold double_constraints in Hgs. rewrite Ht in Hgs. apply P_Activations.Some_eq' in Hgs. subst gs.
    assert (Hc : certified (rar_constraints (pb_sets pb) V B Vdot Bdot)) by (exists (e2_solver env it), noise; auto).
    destruct (bounded_below pb (sem V) rad _ HcV Hbd) as [m Hm].
    exists (1 - m * 100). intros x T Hx Hi.
    destruct (C20_rar_reach_avoid_remain (pb_n pb) (closed_loop2 pb r) (pb_sets pb) V B Vdot Bdot m Hc HlV HlB Hgeo Hm x T Hx Hi) as [A1 A2].
    split.
    - intros HT. apply A1. destruct (certified_rar _ _ _ _ _ Hc) as ((H1 & _) & _).
      assert (H0 := H1 _ (proj1 (proj1 Hgeo _ Hi)) Hi). lra.
    - intros a Ha HG HD. now apply A2.
  Qed.

  (** * STABLESAFE *)
  Lemma stablesafe_conditions it beta V Vdot B Bdot noise :
    let gs := safe_roa_constraints (pb_llo pb) (new_vars (pb_n pb)) (pb_sets pb) beta V B Vdot Bdot in
    trustworthy (e2_solver env it) gs -> v_found (verify (e2_solver env it) noise gs) = true ->
    refuted (barrier_constraints (pb_sets pb) B Bdot) /\
    (decisive env -> refuted (roa_constraints (pb_llo pb) (new_vars (pb_n pb)) (pb_sets pb) beta V Vdot)).
  Proof.
    intros gs [Hu Hx] Hf. unfold gs in *.
    assert (Hf' := Hf). unfold safe_roa_constraints, roa_constraints, barrier_constraints in Hf'. cbn [app] in Hf'.
    apply verify_stablesafe in Hf'; [|exact Hx]. destruct Hf' as (H0 & H1 & H2 & H3).
    split.
    - intros g l f Hg Hl. unfold barrier_constraints in Hg. cbn in Hg.
      destruct Hg as [<-|[<-|[]]]; cbn in Hl.
      + destruct Hl as [E|[E|[]]]; injection E as <- <-.
        * eapply Hu; [right; left; reflexivity|left; reflexivity|exact H1].
        * eapply Hu; [right; left; reflexivity|right; left; reflexivity|exact H2].
      + destruct Hl as [E|[]]; injection E as <- <-.
        eapply Hu; [right; right; left; reflexivity|left; reflexivity|exact H3].
    - intros Hd g l f Hg Hl. unfold roa_constraints in Hg. cbn in Hg. destruct Hg as [<-|[]].
      destruct Hl as [E|[]]; injection E as <- <-.
      eapply Hu; [left; reflexivity|left; reflexivity|]. apply Hd. exact H0.
  Qed.

  Lemma stablesafe_safe ctrl S fuel r :
    honest2 pb env -> pb_type pb = STABLESAFE -> pb_symb pb <> SCVC5 -> smooth_net random1 -> smooth_net random2 ->
    run_double pb env fuel random1 random2 ctrl S = Some (Some r) -> r_res r = true ->
    forall x T, solves (pb_n pb) (closed_loop2 pb r) x T -> inside (pb_sets pb) XI (x 0) ->
      (forall t, 0 <= t <= T -> inside (pb_sets pb) XD (x t)) ->
      forall t, 0 <= t <= T -> ~ inside (pb_sets pb) XU (x t).
  Proof.
    intros Hh Ht Hs Sm1 Sm2 Hr Hres.
    destruct (run2_success ctrl S fuel r Hh Hs Sm1 Sm2 Hr Hres)
      as (it & V & Vdot & B & Bdot & gs & noise & _ & Hgs & Htw & Hf & HlV & HlB & _).
    unfold double_constraints in Hgs. rewrite Ht in Hgs. apply P_Activations.Some_eq' in Hgs. subst gs.
    destruct (stablesafe_conditions it _ V Vdot B Bdot noise Htw Hf) as [Hb _].
    apply (C15_barrier_safety (pb_n pb) (closed_loop2 pb r) (pb_sets pb) B Bdot); auto.
    apply refuted_certified; auto. apply (C01_certificate_labels_distinct false [] (pb_sets pb) 0 B B Bdot Bdot).
  Qed.

  Lemma stablesafe_attraction ctrl S fuel r rad rho :
    honest2 pb env -> decisive env -> pb_type pb = STABLESAFE -> pb_llo pb = true -> pb_symb pb <> SCVC5 ->
    smooth_net random1 -> smooth_net random2 ->
    (forall i p, cont_at (pb_n pb) (fun s => closed_loop2 pb r s i) p) ->
    run_double pb env fuel random1 random2 ctrl S = Some (Some r) -> r_res r = true ->
    forall V Vdot B Bdot, r_symbolic r = Some ((V, Vdot), (B, Bdot)) ->
    bounded_by (pb_n pb) rad (fun s => sem V s <= 11/10 * Q2R (d_beta (r_learned r))) -> 1/100 < rho ->
    exists T, 0 <= T /\ forall x, solves (pb_n pb) (closed_loop2 pb r) x T -> inside (pb_sets pb) XI (x 0) ->
      exists t, 0 <= t <= T /\ ~ outside_ball (pb_n pb) rho (x t).
  Proof.
    intros Hh Hd Ht Hllo Hs Sm1 Sm2 Hcf Hr Hres V' Vdot' B' Bdot' Hsym Hbd Hrho.
    destruct (run2_success ctrl S fuel r Hh Hs Sm1 Sm2 Hr Hres)
      as (it & V & Vdot & B & Bdot & gs & noise & Es & Hgs & Htw & Hf & HlV & HlB & HcV & HcVd).
    rewrite Es in Hsym. apply P_Activations.Some_eq' in Hsym. apply pair_equal_spec in Hsym. destruct Hsym as [E1 _].
    apply pair_equal_spec in E1. destruct E1 as [-> ->].
    unfold double_constraints in Hgs. rewrite Ht in Hgs. apply P_Activations.Some_eq' in Hgs. subst gs.
    destruct (stablesafe_conditions it _ V Vdot B Bdot noise Htw Hf) as [_ Hroa]. specialize (Hroa Hd).
    rewrite Hllo in Hroa.
    apply (C19_roa_llo_attraction (pb_n pb) (closed_loop2 pb r) (pb_sets pb) (d_beta (r_learned r)) V Vdot rad rho); auto.
    apply refuted_certified; auto. apply (C01_certificate_labels_distinct true _ (pb_sets pb) _ V V Vdot Vdot).
  Qed.

  (** * Freezing *)
  Lemma frozen_no_control ctrl S it st :
    visited (double pb env) (initial2 pb random1 random2 ctrl) S it st -> st_frozen st = true ->
    pb_control pb = false /\ (pb_type pb = RAR \/ pb_type pb = STABLESAFE).
  Proof.
    induction 1 as [|it st st' Hv IH Hi]; [discriminate|].
    apply iterate_frozen in Hi. destruct Hi as (q & c & cex & _ & _ & _ & _ & Ef).
    rewrite Ef. intros H. apply orb_prop in H. destruct H as [H|H]; [now apply IH|].
    apply andb_prop in H. destruct H as [H1 H2]. cbn in H2. split; [now apply negb_true_iff|].
    unfold second_certificate in H1. cbn in H1. destruct (pb_type pb); try discriminate; auto.
  Qed.

  Definition first_translation (p : learned2 K) (V Vdot : expr) : Prop :=
    translate_ct (pb_symb pb) (e2_simp env) (pb_rounding pb) false (d_lyap p) (new_vars (pb_n pb))
      (dynamics pb (d_ctrl p)) = Some (V, Vdot).

  Lemma frozen_settled ctrl S it st : honest2 pb env -> decisive env ->
    visited (double pb env) (initial2 pb random1 random2 ctrl) S it st -> st_frozen st = true ->
    exists V Vdot, first_translation (st_params st) V Vdot /\
      (pb_type pb = RAR -> refuted (rws_constraints (pb_sets pb) V Vdot)) /\
      (pb_type pb = STABLESAFE -> exists beta, refuted (roa_constraints (pb_llo pb) (new_vars (pb_n pb)) (pb_sets pb) beta V Vdot)).
  Proof.
    intros Hh Hd. induction 1 as [|it st st' Hv IH Hi]; [discriminate|]. intros Hfr.
    assert (Hnc := proj1 (frozen_no_control ctrl S (it + 1) st' (visited_next _ _ _ _ _ _ Hv Hi) Hfr)).
    apply iterate_frozen in Hi. destruct Hi as (q & [[V Vdot] [B Bdot]] & cex & E1 & E2 & Ep & [found E3] & Ef).
    cbn [c_learn double] in E1. cbn [c_translate double] in E2. cbn [c_verify double] in E3.
    rewrite Ep. unfold double_learn in E1. apply P_Activations.Some_eq' in E1.
    destruct (st_frozen st) eqn:Es.
    - specialize (IH eq_refl). destruct IH as (V' & Vdot' & Ht & H1 & H2).
      exists V', Vdot'. split; [|split; assumption]. unfold first_translation in *.
      rewrite E1. cbn [d_lyap d_ctrl]. rewrite learn_pair_frozen, Hnc. exact Ht.
    - cbn [orb] in Ef. rewrite Ef in Hfr. apply andb_prop in Hfr. destruct Hfr as [Hsec _].
      exists V, Vdot.
      unfold double_translate in E2. unfold first_translation, dynamics.
      destruct (pb_xdot pb (d_ctrl q)) as [xdot|]; cbn [option_bind] in E2; [|discriminate].
      destruct (translate_ct _ _ _ _ (d_lyap q) _ xdot) as [v|] eqn:Ev; cbn [option_bind] in E2; [|discriminate].
      destruct (translate_ct _ _ _ _ (d_barr q) _ xdot) as [b|] eqn:Eb; cbn [option_bind] in E2; [|discriminate].
      apply P_Activations.Some_eq' in E2. apply pair_equal_spec in E2. destruct E2 as [<- <-].
      split; [reflexivity|].
      unfold double_verify in E3.
      destruct (double_constraints pb (d_beta q) ((V, Vdot), (B, Bdot))) as [gs|] eqn:Eg; cbn [option_bind] in E3; [|discriminate].
      apply P_Activations.Some_eq' in E3. apply pair_equal_spec in E3. destruct E3 as [_ ->].
      destruct (Hh it _ _ _ Eg) as [Hu _].
      unfold second_certificate in Hsec. cbn [c_double c_type double andb] in Hsec.
      unfold double_constraints in Eg.
      split; intros Ht; rewrite Ht in *; apply P_Activations.Some_eq' in Eg; subst gs.
      + unfold rar_constraints in Hsec. cbn -[verify has_key] in Hsec.
        apply cex_rar in Hsec. destruct Hsec as (H0 & H1 & H2).
        apply Hd in H0. apply Hd in H1. apply Hd in H2.
        intros g l f Hg Hl. cbn in Hg. destruct Hg as [<-|[<-|[]]]; cbn in Hl.
        * destruct Hl as [E|[E|[]]]; injection E as <- <-.
          -- eapply Hu; [left; reflexivity|left; reflexivity|exact H0].
          -- eapply Hu; [left; reflexivity|right; left; reflexivity|exact H1].
        * destruct Hl as [E|[]]; injection E as <- <-.
          eapply Hu; [right; left; reflexivity|left; reflexivity|exact H2].
      + exists (d_beta q). unfold safe_roa_constraints, roa_constraints, barrier_constraints in Hsec. cbn [app] in Hsec.
        apply cex_stablesafe in Hsec. apply Hd in Hsec.
        intros g l f Hg Hl. unfold roa_constraints in Hg. cbn in Hg. destruct Hg as [<-|[]]. destruct Hl as [E|[]]; injection E as <- <-.
        eapply Hu; [left; reflexivity|left; reflexivity|exact Hsec].
  Qed.

  Lemma visited_unique {P C} (k : components P C) p S it st it' st' :
    visited k p S it st -> visited k p S it' st' -> it = it' -> st = st'.
  Proof.
    intros H. revert it' st'. induction H as [|it st s Hv IH Hi]; intros it' st' H' E; destruct H' as [|it' st2 s' Hv' Hi']; try lia.
    - reflexivity.
    - assert (E' : it = it') by lia. subst it'. assert (Es := IH _ _ Hv' eq_refl). subst st2. congruence.
  Qed.
  Lemma iterate_params b it st st' : iterate (double pb env) it st = Some (b, st') ->
    Some (st_params st') = double_learn pb env it (st_frozen st) (st_params st) (st_S st) (st_Sdot st).
  Proof.
    intros Hi. apply iterate_inv in Hi. destruct Hi as (q & c & found & cex & t & H1 & _ & _ & _ & Hp & _).
    rewrite Hp. now symmetry.
  Qed.
  Lemma frozen_forever ctrl S it st : visited (double pb env) (initial2 pb random1 random2 ctrl) S it st -> st_frozen st = true ->
    forall it' st', visited (double pb env) (initial2 pb random1 random2 ctrl) S it' st' -> (it <= it')%nat ->
      st_frozen st' = true /\ d_lyap (st_params st') = d_lyap (st_params st) /\ d_ctrl (st_params st') = d_ctrl (st_params st).
  Proof.
    intros Hv Hf it' st'. induction 1 as [|it' st1 st2 Hv' IH Hi]; intros Hle.
    - assert (st = init_state (double pb env) (initial2 pb random1 random2 ctrl) S); [|subst st; auto].
      apply (visited_unique _ _ _ _ _ _ _ Hv (visited_first _ _ _)). lia.
    - destruct (Nat.eq_dec it (it' + 1)) as [E|E].
      + assert (st = st2); [|subst st2; auto]. apply (visited_unique _ _ _ _ _ _ _ Hv (visited_next _ _ _ _ _ _ Hv' Hi) E).
      + destruct IH as (F1 & F2 & F3); [lia|].
        assert (Hnc := proj1 (frozen_no_control ctrl S it st Hv Hf)).
        assert (Ep := iterate_params _ _ _ _ Hi). rewrite F1 in Ep. unfold double_learn in Ep. injection Ep as Ep.
        apply iterate_frozen in Hi. destruct Hi as (q & c & cex & _ & _ & _ & _ & Ef).
        rewrite Ef, F1, Ep. cbn [d_lyap d_ctrl]. rewrite learn_pair_frozen, Hnc. auto.
  Qed.
  (** ... and so in the result. *)
  Lemma frozen_result ctrl S it st fuel r :
    visited (double pb env) (initial2 pb random1 random2 ctrl) S it st -> st_frozen st = true ->
    run_double pb env fuel random1 random2 ctrl S = Some (Some r) -> (it < r_iters r)%nat ->
    d_lyap (r_learned r) = d_lyap (st_params st) /\ d_ctrl (r_learned r) = d_ctrl (st_params st).
  Proof.
    intros Hv Hf Hr Hit. unfold run_double in Hr. destruct (pb_discrete pb); [discriminate|]. unfold solve in Hr.
    destruct (loop (double pb env) fuel 0 _) as [| |itr st'] eqn:E; try discriminate. injection Hr as <-.
    destruct (loop_visited (double pb env) _ _ _ _ _ _ _ (visited_first _ _ _) E) as (it' & st1 & Hv' & Hi & -> & _).
    cbn [r_iters r_learned make_result] in *.
    destruct (frozen_forever ctrl S it st Hv Hf it' st1 Hv') as (F1 & F2 & F3); [lia|].
    assert (Hnc := proj1 (frozen_no_control ctrl S it st Hv Hf)).
    assert (Ep := iterate_params _ _ _ _ Hi). rewrite F1 in Ep. unfold double_learn in Ep. injection Ep as Ep.
    rewrite Ep. cbn [d_lyap d_ctrl]. rewrite learn_pair_frozen, Hnc. auto.
  Qed.
End Runs2.

(** * C52 *)
Theorem C52_rar_success_means_reach_avoid_remain :
  forall (K : Type) (pb : problem K) (env : environment2 K) random1 random2 ctrl S fuel r rad,
    well_posed2 pb random1 random2 -> lawful2 env -> honest2 pb env ->
    pb_type pb = RAR -> pb_symb pb <> SCVC5 -> smooth_net random1 -> smooth_net random2 ->
    rws_geometry (pb_n pb) (pb_sets pb) -> bounded_by (pb_n pb) rad (inside (pb_sets pb) XS) ->
    (* XNF is the complement of XF, as the code expects *)
    (forall s, inside (pb_sets pb) XD s -> inside (pb_sets pb) XF s \/ inside (pb_sets pb) XNF s) ->
    run_double pb env fuel random1 random2 ctrl S = Some (Some r) -> r_res r = true ->
    exists T0, forall x T, solves (pb_n pb) (closed_loop2 pb r) x T -> inside (pb_sets pb) XI (x 0) ->
      (T0 <= T -> reach_while_stay (inside (pb_sets pb) XS) (inside (pb_sets pb) XG) x T) /\
      (forall a, 0 <= a <= T -> inside (pb_sets pb) XG (x a) ->
         (forall t, a <= t <= T -> inside (pb_sets pb) XD (x t)) ->
         forall t, a <= t <= T -> inside (pb_sets pb) XF (x t) /\ ~ inside (pb_sets pb) XNF (x t)).
Proof. intros K pb env random1 random2 ctrl S fuel r rad. intros. eapply rar_end_to_end; eauto. Qed.

Theorem C52_stablesafe_success_means_safety :
  forall (K : Type) (pb : problem K) (env : environment2 K) random1 random2 ctrl S fuel r,
    well_posed2 pb random1 random2 -> lawful2 env -> honest2 pb env ->
    pb_type pb = STABLESAFE -> pb_symb pb <> SCVC5 -> smooth_net random1 -> smooth_net random2 ->
    run_double pb env fuel random1 random2 ctrl S = Some (Some r) -> r_res r = true ->
    forall x T, solves (pb_n pb) (closed_loop2 pb r) x T -> inside (pb_sets pb) XI (x 0) ->
      (forall t, 0 <= t <= T -> inside (pb_sets pb) XD (x t)) ->
      forall t, 0 <= t <= T -> ~ inside (pb_sets pb) XU (x t).
Proof. intros K pb env random1 random2 ctrl S fuel r. intros. eapply stablesafe_safe; eauto. Qed.

(** The stability half needs more: a solver that never answers "unknown" (the answer is
    overwritten by the barrier's, see [C01_stablesafe_refuted]) and LLO. *)
Theorem C52_stablesafe_success_means_attraction :
  forall (K : Type) (pb : problem K) (env : environment2 K) random1 random2 ctrl S fuel r rad rho,
    well_posed2 pb random1 random2 -> lawful2 env -> honest2 pb env -> decisive env ->
    pb_type pb = STABLESAFE -> pb_llo pb = true -> pb_symb pb <> SCVC5 -> smooth_net random1 -> smooth_net random2 ->
    (forall i p, cont_at (pb_n pb) (fun s => closed_loop2 pb r s i) p) ->
    run_double pb env fuel random1 random2 ctrl S = Some (Some r) -> r_res r = true ->
    forall V Vdot B Bdot, r_symbolic r = Some ((V, Vdot), (B, Bdot)) ->
    bounded_by (pb_n pb) rad (fun s => sem V s <= 11/10 * Q2R (d_beta (r_learned r))) -> 1/100 < rho ->
    exists T, 0 <= T /\ forall x, solves (pb_n pb) (closed_loop2 pb r) x T -> inside (pb_sets pb) XI (x 0) ->
      exists t, 0 <= t <= T /\ ~ outside_ball (pb_n pb) rho (x t).
Proof. intros K pb env random1 random2 ctrl S fuel r rad rho. intros. eapply stablesafe_attraction; eauto. Qed.

(** * C53: when the search turns to the second certificate, the first one is settled ... *)
Theorem C53_frozen_certificate_is_valid :
  forall (K : Type) (pb : problem K) (env : environment2 K) random1 random2 ctrl S it st,
    honest2 pb env -> decisive env ->
    visited (double pb env) (initial2 pb random1 random2 ctrl) S it st -> st_frozen st = true ->
    exists V Vdot,
      (* the certificate function given by the first network *)
      translate_ct (pb_symb pb) (e2_simp env) (pb_rounding pb) false (d_lyap (st_params st)) (new_vars (pb_n pb))
        (dynamics pb (d_ctrl (st_params st))) = Some (V, Vdot) /\
      (pb_type pb = RAR -> rws_conditions (pb_sets pb) (sem V) (sem Vdot)) /\
      (pb_type pb = STABLESAFE -> exists beta, roa_conditions (pb_llo pb) (pb_n pb) (pb_sets pb) (11/10 * Q2R beta) (sem V) (sem Vdot)).
Proof.
  intros K pb env random1 random2 ctrl S it st Hh Hd Hv Hf.
  destruct (frozen_settled pb env random1 random2 ctrl S it st Hh Hd Hv Hf) as (V & Vdot & Ht & H1 & H2).
  exists V, Vdot. split; [exact Ht|]. split.
  - intros E. now apply C10_rws_obligations, H1.
  - intros E. destruct (H2 E) as [beta Hb]. exists beta. now apply C07_roa_obligations.
Qed.

(** ... and is never touched again, up to and including the result. *)
Theorem C53_frozen_network_never_changes :
  forall (K : Type) (pb : problem K) (env : environment2 K) random1 random2 ctrl S it st,
    visited (double pb env) (initial2 pb random1 random2 ctrl) S it st -> st_frozen st = true ->
    (forall it' st', visited (double pb env) (initial2 pb random1 random2 ctrl) S it' st' -> (it <= it')%nat ->
       st_frozen st' = true /\ d_lyap (st_params st') = d_lyap (st_params st) /\ d_ctrl (st_params st') = d_ctrl (st_params st)) /\
    (forall fuel r, run_double pb env fuel random1 random2 ctrl S = Some (Some r) -> (it < r_iters r)%nat ->
       d_lyap (r_learned r) = d_lyap (st_params st) /\ d_ctrl (r_learned r) = d_ctrl (st_params st)).
Proof.
  intros K pb env random1 random2 ctrl S it st Hv Hf. split.
  - now apply frozen_forever.
  - intros fuel r. now apply frozen_result.
Qed.
