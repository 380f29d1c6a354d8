(** C63: which components a configuration gets, and what VERIFIER = NONE means. *)
From Coquelicot Require Import Coquelicot.
From Coq Require Import Reals QArith List Bool Arith ZArith Lia Lra.
From Verif Require Import M_Syntax M_Certificates M_Verifier M_Activations M_Network M_Learner M_Cegis M_Labels M_Fossil M_Double
  M_Cli M_Dispatch S_Dynamics S_Certificates S_Success S_Network S_Learner S_Fossil L_Learner L_Demo P_Stability P_TranslatorBugs P_Fossil P_FossilExamples.
Import ListNotations.
Local Open Scope nat_scope.

(** * The classes *)
(** The learner and the translator are those of the configured time domain, the solver is the named one,
    the certificate the named one; certificates of two functions get [DoubleCegis].  Refused are exactly
    MARABOU, a discrete-time configuration of another certificate than LYAPUNOV or BARRIERALT, and CUSTOM
    without a class. *)
Definition discrete_learner (l : learner_class) : Prop := l = LearnerDT \/ l = CtrlLearnerDT.
Definition control_learner (l : learner_class) : Prop := l = CtrlLearnerCT \/ l = CtrlLearnerDT.
Definition two_functions (ty : cert_type) : Prop := ty = STABLESAFE \/ ty = RAR.
Definition solver_of (w : verifier_class) : verifier_type :=
  match w with
  | VerifierDReal => VDREAL | VerifierZ3 => VZ3 | VerifierCVC5 => VCVC5 | VerifierMarabou => VMARABOU | VerifierNone => VNONE
  end.
(** The certificate class of each name; RWA and RSWA are the classes of RWS and RSWS. *)
Definition certifies (w : certificate_class) : list cert_type :=
  match w with
  | Lyapunov => [LYAPUNOV] | ROACert => [ROA] | Barrier => [BARRIER] | BarrierAlt => [BARRIERALT] | RWSCert => [RWS; RWA]
  | RSWSCert => [RSWS; RSWA] | SafeROA => [STABLESAFE] | ReachAvoidRemain => [RAR] | UserCertificate => [CUSTOM]
  end.
Theorem C63_components : forall ty custom time v ctrl,
  ((exists b, build ty custom time v ctrl = Some b) <->
   v <> VMARABOU /\ (time = DISCRETE -> ty = LYAPUNOV \/ ty = BARRIERALT) /\ (ty = CUSTOM -> custom = true)) /\
  (forall b, build ty custom time v ctrl = Some b ->
    (discrete_learner (b_learner b) <-> time = DISCRETE) /\
    (control_learner (b_learner b) <-> ctrl = true) /\
    (b_translator b = TranslatorDT <-> time = DISCRETE) /\
    (b_translator b = TranslatorCTDouble <-> two_functions ty) /\
    (b_translator b = TranslatorCT <-> time = CONTINUOUS /\ ~ two_functions ty) /\
    (b_cegis b = DoubleCegis <-> two_functions ty) /\
    solver_of (b_verifier b) = v /\
    In ty (certifies (b_certificate b))).
Proof.
  intros ty custom time v ctrl.
  unfold discrete_learner, control_learner, two_functions. split.
  - split.
    + intros [b H].
      destruct ty, time, v, custom; cbn in H; try discriminate H;
        (refine (conj _ (conj _ _)); [discriminate|intros E; try discriminate E; tauto|intros E; try discriminate E; reflexivity]).
    + intros (H1 & H2 & H3). destruct v; try (now contradict H1); destruct time, ty;
        try (destruct (H2 eq_refl) as [E|E]; discriminate E); try (rewrite (H3 eq_refl)); cbn; eexists; reflexivity.
  - intros b H.
    destruct ty, time, v, ctrl, custom; cbn in H; try discriminate H;
      injection H as <-; cbn; intuition congruence.
Qed.
(** Marabou only translates maps: each solver gets the translator of the time domain, or an exception. *)
Theorem C63_translator : forall time v,
  (get_translator_type time v = None <-> v = VMARABOU /\ time = CONTINUOUS) /\
  forall t, get_translator_type time v = Some t ->
    (t = TranslatorCT <-> time = CONTINUOUS) /\ (t = MarabouTranslator <-> v = VMARABOU) /\ t <> TranslatorCTDouble.
Proof.
  intros time v. split.
  - destruct time, v; cbn; split; intros H; try discriminate H; try tauto; destruct H; discriminate.
  - intros t H. destruct time, v; cbn in H; try discriminate H; injection H as <-; intuition congruence.
Qed.
(** The command line parses the equations with the parser whose terms the chosen solver understands
    (parser.py:254-425, verifier.py:301-645: the library of the terms each class builds). *)
Definition parser_terms (p : parser_class) : symb :=
  match p with DrealParser => SDREAL | Z3Parser => SZ3 | CVC5Parser => SCVC5 | SympyParser => SSYMPY end.
Definition solver_terms (w : verifier_class) : option symb :=
  match w with
  | VerifierDReal => Some SDREAL | VerifierZ3 => Some SZ3 | VerifierCVC5 => Some SCVC5
  | VerifierNone => Some SSYMPY | VerifierMarabou => None
  end.
Theorem C63_parser : forall ty custom time v ctrl b, build ty custom time v ctrl = Some b ->
  exists p, get_parser_from_verifier v = Some p /\ solver_terms (b_verifier b) = Some (parser_terms p).
Proof.
  intros ty custom time v ctrl b H.
  destruct ty, time, v, custom; cbn in H; try discriminate H; injection H as <-; eexists; split; reflexivity.
Qed.

(** * VERIFIER = NONE *)
Section None.
  Context {P C : Type} (k : components P C).
  Definition first_Sdot (p : P) (S : dict) : dict := map (fun e => (fst e, map (c_f k p) (snd e))) S.
  Lemma none_solve : forall fuel p S,
    solve (without_verifier k) (Datatypes.S fuel) p S =
    match c_learn k 0 false p S (first_Sdot p S) with
    | None => Some None
    | Some p' =>
      match c_translate k 0 p' with
      | None => Some None
      | Some c =>
        match (if cert_eqb (c_type k) LYAPUNOV || cert_eqb (c_type k) ROA then c_estimate_beta k 0 p' else Some tt) with
        | None => Some None
        | Some _ =>
          if cert_eqb (c_type k) RSWS then Some None
          else Some (Some {| r_res := true; r_certificate := c_type k; r_learned := p'; r_symbolic := Some c; r_iters := 1;
                             r_N_data := fold_right Nat.add 0 (map (fun e => length (snd e)) S) |})
        end
      end
    end.
  Proof.
    intros fuel p S. unfold solve. cbn [loop]. unfold M_Cegis.iterate, init_state. cbn [st_frozen st_params st_S st_Sdot without_verifier c_learn c_translate c_verify c_f].
    fold (first_Sdot p S).
    destruct (c_learn k 0 false p S (first_Sdot p S)) as [p'|]; [|reflexivity]. cbn [option_bind].
    destruct (c_translate k 0 p') as [c|]; [|reflexivity]. cbn [option_bind consolidator_get].
    unfold process_certificate. cbn [c_type without_verifier c_estimate_beta st_params c_stay].
    destruct (if cert_eqb (c_type k) LYAPUNOV || cert_eqb (c_type k) ROA then c_estimate_beta k 0 p' else Some tt) as [[]|]; [|reflexivity].
    cbn [option_bind]. destruct (cert_eqb (c_type k) RSWS); reflexivity.
  Qed.
End None.

(** With NONE nothing is checked: the result is the network of the first training call, reported as found
    after one iteration, whatever the sets and the conditions of the certificate are. *)
Theorem C63_none_is_not_checked : forall K (pb : problem K) env fuel random ctrl S r,
  run_fossil_none pb env (Datatypes.S fuel) random ctrl S = Some (Some r) ->
  r_res r = true /\ r_iters r = 1 /\ pb_type pb <> RSWS /\
  exists Sdot, fossil_learn pb env 0 false (initial pb random ctrl) S Sdot = Some (r_learned r) /\
    fossil_translate pb env 0 (r_learned r) = r_symbolic r /\ r_symbolic r <> None.
Proof.
  intros K pb env fuel random ctrl S r H. unfold run_fossil_none in H. rewrite none_solve in H.
  cbn [c_type fossil c_learn c_translate c_estimate_beta] in H.
  destruct (fossil_learn pb env 0 false (initial pb random ctrl) S _) as [p'|] eqn:E1; [|discriminate].
  destruct (fossil_translate pb env 0 p') as [c|] eqn:E2; [|discriminate].
  destruct (if cert_eqb (pb_type pb) LYAPUNOV || cert_eqb (pb_type pb) ROA then e_estimate_beta env 0 p' else Some tt); [|discriminate].
  destruct (cert_eqb (pb_type pb) RSWS) eqn:E3; [discriminate|]. injection H as <-. cbn.
  split; [reflexivity|]. split; [reflexivity|]. split; [intros E; rewrite E in E3; discriminate E3|].
  eexists. split; [exact E1|]. split; [exact E2|discriminate].
Qed.
Theorem C63_none_accepts : forall K (pb : problem K) env fuel random ctrl S,
  pb_type pb <> RSWS ->
  (forall p, pb_xdot pb (l_ctrl p) <> None -> fossil_translate pb env 0 p <> None) ->
  (forall c, pb_xdot pb c <> None) -> (forall p, e_estimate_beta env 0 p <> None) ->
  exists r, run_fossil_none pb env (Datatypes.S fuel) random ctrl S = Some (Some r) /\ r_res r = true.
Proof.
  intros K pb env fuel random ctrl S HR Ht Hx Hb. unfold run_fossil_none. rewrite none_solve.
  cbn [c_type fossil c_learn c_translate c_estimate_beta].
  destruct (fossil_learn pb env 0 false (initial pb random ctrl) S _) as [p'|] eqn:E1; [|discriminate E1].
  specialize (Ht p' (Hx _)). destruct (fossil_translate pb env 0 p') as [c|]; [|now contradict Ht].
  assert (A : exists u, (if cert_eqb (pb_type pb) LYAPUNOV || cert_eqb (pb_type pb) ROA then e_estimate_beta env 0 p' else Some tt) = Some u).
  { destruct (_ || _); [|now exists tt]. specialize (Hb p'). destruct (e_estimate_beta env 0 p'); [eauto|now contradict Hb]. }
  destruct A as [u ->]. destruct (cert_eqb (pb_type pb) RSWS) eqn:E; [|eexists; split; reflexivity].
  destruct (pb_type pb); try discriminate E. now contradict HR.
Qed.
(** The certificates of two functions. *)
Theorem C63_none_double : forall K (pb : problem K) env fuel random1 random2 ctrl S r, two_functions (pb_type pb) ->
  run_double_none pb env (Datatypes.S fuel) random1 random2 ctrl S = Some (Some r) ->
  r_res r = true /\ r_iters r = 1 /\ double_translate pb env 0 (r_learned r) = r_symbolic r.
Proof.
  intros K pb env fuel random1 random2 ctrl S r Hty H. unfold run_double_none in H.
  destruct (pb_discrete pb); [discriminate|]. rewrite none_solve in H.
  cbn [c_type double c_learn c_translate c_estimate_beta] in H.
  destruct (double_learn pb env 0 false (initial2 pb random1 random2 ctrl) S _) as [p'|] eqn:E1; [|discriminate].
  destruct (double_translate pb env 0 p') as [c|] eqn:E2; [|discriminate].
  destruct Hty as [E|E]; rewrite E in H; cbn [cert_eqb orb] in H; injection H as <-; cbn; auto.
Qed.
(** RSWS cannot be combined with NONE. *)
Theorem C63_none_rsws_raises : forall K (pb : problem K) env fuel random ctrl S, pb_type pb = RSWS ->
  run_fossil_none pb env (Datatypes.S fuel) random ctrl S = Some None.
Proof.
  intros K pb env fuel random ctrl S H. unfold run_fossil_none. rewrite none_solve.
  cbn [c_type fossil c_learn c_translate c_estimate_beta]. rewrite H. cbn [cert_eqb orb].
  destruct (fossil_learn _ _ _ _ _ _ _); [|reflexivity]. destruct (fossil_translate _ _ _ _); reflexivity.
Qed.

(** So "found" proves nothing there: x' = x is reported to have a Lyapunov function. *)
Theorem C63_none_success_unstable :
  exists env r, let pb := demo_pb LYAPUNOV false false false 3 hill_sets [EVar 0] in
    well_posed pb (sq_net None) /\ lawful pb env /\ neighbourhood 1 1 (inside hill_sets XD) /\
    run_fossil_none pb env 1 (sq_net None) tt [] = Some (Some r) /\ r_res r = true /\
    ~ stable 1 (closed_loop pb r).
Proof.
  set (pb := demo_pb LYAPUNOV false false false 3 hill_sets [EVar 0]).
  destruct C13_unstable_system_certified_by_network as (_ & _ & _ & _ & HN & HS).
  set (env := demo_env (K := unit) (fun _ _ => Unknown) 0 0%Q).
  assert (R : exists r, run_fossil_none pb env 1 (sq_net None) tt [] = Some (Some r) /\ r_res r = true).
  { unfold run_fossil_none. rewrite none_solve. cbn [c_type fossil c_learn].
    rewrite (demo_learn pb (fun _ _ => Unknown) 0 0%Q 0 false (initial pb (sq_net None) tt)) by reflexivity.
    eexists. split; reflexivity. }
  destruct R as (r & R1 & R2). exists env, r. cbn zeta.
  split; [apply demo_wp; auto; apply sq_wf; discriminate|]. split; [apply demo_lawful|]. split; [exact HN|].
  split; [exact R1|]. split; [exact R2|].
  exact HS.
Qed.
(** The hypotheses of [C63_none_accepts] hold there. *)
Example C63_none_accepts_example :
  exists env r, run_fossil_none (demo_pb LYAPUNOV false false false 3 hill_sets [EVar 0]) env 7 (sq_net None) tt [(XD, [[1%R]])] = Some (Some r) /\
    r_res r = true.
Proof.
  exists (demo_env (K := unit) (fun _ _ => Unknown) 0 0%Q). unfold run_fossil_none. rewrite none_solve. cbn [c_type fossil c_learn].
  rewrite (demo_learn (demo_pb LYAPUNOV false false false 3 hill_sets [EVar 0]) (fun _ _ => Unknown) 0 0%Q 0 false
             (initial (demo_pb LYAPUNOV false false false 3 hill_sets [EVar 0]) (sq_net None) tt)) by reflexivity.
  eexists. split; reflexivity.
Qed.
Example C63_components_example :
  build RAR false CONTINUOUS VDREAL true =
    Some {| b_cegis := DoubleCegis; b_certificate := ReachAvoidRemain; b_learner := CtrlLearnerCT;
            b_verifier := VerifierDReal; b_translator := TranslatorCTDouble |} /\
  build LYAPUNOV false DISCRETE VMARABOU false = None.
Proof. split; reflexivity. Qed.
