(** Property C73, continued: the Lyapunov, ROA and verification files. *)
From Coquelicot Require Import Coquelicot.
From Coq Require Import String Ascii Reals QArith Qreals Bool Arith ZArith Decimal Lra Lia List.
From Verif Require Import M_Syntax M_Certificates M_Verifier M_Activations M_Domains M_Network M_Learner M_Cegis M_Labels M_Fossil M_Double
  M_Control M_Parser M_Lexer M_Variables M_DomainParser M_Cli M_Config M_Verify M_ConfigVerify M_Documents S_Verifier S_Certificates S_Network S_Domains S_Dynamics S_Fossil S_Double S_Success
  S_Parser S_Lexer S_Variables S_DomainParser S_Control S_Cli S_Config S_Documents L_Network L_Demo P_Verifier P_Certificates P_Parser P_TranslatorBugs P_Cli L_Session P_Config P_ConfigDouble P_ConfigExamples L_Texts L_Documents P_Documents.
Import ListNotations.
Local Close Scope Q_scope.
Local Open Scope string_scope.
Local Open Scope list_scope.
Local Open Scope R_scope.

(** lyap-test.yaml (in both directories): the returned network V, its weights rounded to three decimals, is a Lyapunov function of
    x' = y, y' = - y - x in the unit disc. *)
Theorem C73_lyapunov : forall doc r, In doc [doc_root_lyap_test; doc_lyap_test] -> succeeds doc r ->
  let V := net_value (round_net 3 (l_net (r_learned r))) in
  (forall s, s 0%nat = 0 -> s 1%nat = 0 -> V s = 0) /\
  (forall s, disc 0 0 1 s -> ~ (s 0%nat = 0 /\ s 1%nat = 0) -> 0 < V s) /\
  (forall x t, moves (fun s => s 1%nat) (fun s => - s 1%nat - s 0%nat) x t -> disc 0 0 1 (x t) -> ~ (x t 0%nat = 0 /\ x t 1%nat = 0) ->
     exists d, d < 0 /\ is_derive (fun u => V (x u)) t d).
Proof.
  intros doc r Hd (numpy & f1 & f2 & rand & randc & pb & net & ctrl & env & S & fuel & Hs & L & K & H & Hr & Hres) V.
  assert (Ed : doc = doc_lyap_test) by (destruct Hd as [<-|[<-|[]]]; reflexivity). subst doc. clear Hd.
  assert (Nd : NoDup (map fst doc_lyap_test)) by doc_nodup.
  destruct (session_type _ _ _ _ _ _ _ _ _ Nd Hs LYAPUNOV CONTINUOUS) as [Ty Td]; [doc_asks "Lyapunov" "CONTINUOUS"|].
  assert (En : pb_n pb = 2%nat) by (apply (session_n _ _ _ _ _ _ _ _ _ Nd Hs); doc_has).
  assert (Cv : pb_symb pb <> SCVC5) by (apply (session_symb _ _ _ _ _ _ _ _ _ Nd Hs); doc_not_cvc5).
  assert (Hq : pb_quad pb = false /\ pb_rounding pb = 3%Z /\ pb_llo pb = false).
  { destruct (session_parts _ _ _ _ _ _ _ _ _ Hs) as [P]. destruct P. vm_compute in s_read. injection s_read as <-.
    rewrite s_quad, s_llo. split; [reflexivity|]. split; [|reflexivity].
    assert (E3 : Some 3%Z = Some (pb_rounding pb)) by (rewrite <- s_rounding; vm_compute; reflexivity). now injection E3. }
  destruct Hq as (Eq & Er & El).
  pose proof (session_well_posed _ _ _ _ _ _ _ _ _ Nd Hs) as Wp.
  destruct (session_net _ _ _ _ _ _ _ _ _ Nd Hs) as (_ & _ & Sm & Zp).
  assert (Sm' : smooth_net net) by (apply Sm; doc_avoids).
  assert (Zp' : zero_preserving net) by (apply Zp; [now left|doc_avoids]).
  destruct (P_Fossil.success_ct pb env net Wp L H ctrl S fuel r Td Cv Sm' Hr Hres)
    as (it & W & Wdot & gs & net' & In & Wn & _ & Hsh & Enet & Htr & Hgs & Hcert & Hlie & _).
  subst net'. unfold fossil_constraints in Hgs. rewrite Ty in Hgs. apply P_Activations.Some_eq' in Hgs. subst gs.
  apply P_Stability.certified_lyapunov in Hcert. rewrite En, El in Hcert.
  assert (Zn : zero_preserving (l_net (r_learned r))) by now apply (L_Fossil.same_shape_zero net).
  assert (EV : forall s, sem W s = V s).
  { intros s. unfold sem, V. rewrite <- In, Er, Eq in Htr. rewrite (P_Translator.translate_ct_value _ _ _ _ _ _ _ _ Cv Wn Htr).
    unfold cert_value. ring. }
  assert (ED : forall s, inside (pb_sets pb) XD s <-> disc 0 0 1 s).
  { intros s. rewrite <- see_1. apply (session_set _ _ _ _ _ _ _ _ _ Nd Hs XD); [|reflexivity|congruence|congruence].
    rewrite En. doc_declare "Sphere([0,0], 1.0)". }
  assert (Or : forall s, origin 2 s <-> s 0%nat = 0 /\ s 1%nat = 0).
  { intros s. split; [intros Ho; split; apply Ho; lia|]. intros [A B] [|[|k]] Hk; auto. lia. }
  refine (conj _ (conj _ _)).
  - intros s A B. unfold V. replace (net_value _ s) with (cert_value false (round_net 3 (l_net (r_learned r))) s) by (unfold cert_value; ring).
    apply L_Smooth.cert_value_origin; auto. rewrite In, En. now apply Or.
  - intros s A B. rewrite <- EV. apply Hcert; [now apply ED|now rewrite Or|reflexivity].
  - intros x t Hx A B. exists (sem Wdot (x t)). split; [apply Hcert; [now apply ED|now rewrite Or]|].
    apply (is_derive_ext (fun u => sem W (x u))); [intros u; apply EV|]. apply Hlie. rewrite En. intros j Hj.
    assert (F := C59_field numpy f1 f2 rand randc doc_lyap_test pb net ctrl env S fuel r math 2 spring_trees None Nd Hs math_usual).
    cbv zeta in F. rewrite F; auto.
    + destruct j as [|[|j]]; [apply Hx|apply Hx|lia].
    + doc_has.
    + doc_equations ["x1"; "-x1 - x0"] spring_written.
    + constructor. intros v G. exfalso. cbn in G. repeat (destruct G as [G|G]; [discriminate|]). exact G.
Qed.

(** The constraints of verify.yaml. *)
Definition file_groups (numpy : interp) (rand randc : nat -> nat -> nat -> Q) (doc : document) : option (list group) :=
  option_bind (option_bind (read_config doc) (fun c => option_bind (get_verifier_type c) library_of)) (fun '(lib, _) =>
  option_bind (option_bind (candidate_text doc) (parse_text 300 300)) (fun e =>
  option_bind (session_of numpy 300 300 rand randc doc) (fun '(pb, _, ctrl) =>
  option_bind (pb_xdot pb ctrl) (fun xdot =>
  option_bind (candidate_expr lib (leftover (pb_n pb)) e (new_vars (pb_n pb))) (fun C =>
  match pb_symb pb with
  | SDREAL => option_bind (gradient (seq 0 (pb_n pb)) C) (fun grad => candidate_constraints pb C (edot grad xdot))
  | _ => None
  end))))).
Lemma file_groups_verify numpy rand randc doc be noise gs : file_groups numpy rand randc doc = Some gs ->
  verify_file numpy 300 300 rand randc doc be noise = Some (verify be noise gs).
Proof.
  unfold file_groups, verify_file, verify_candidate. intros H.
  apply L_Config.bind_some in H. destruct H as ([lib b] & -> & H). cbn [option_bind].
  apply L_Config.bind_some in H. destruct H as (e & -> & H). cbn [option_bind].
  apply L_Config.bind_some in H. destruct H as ([[pb net] ctrl] & -> & H). cbn [option_bind].
  apply L_Config.bind_some in H. destruct H as (xdot & -> & H). cbn [option_bind].
  apply L_Config.bind_some in H. destruct H as (C & -> & H). cbn [option_bind].
  destruct (pb_symb pb); try discriminate.
  apply L_Config.bind_some in H. destruct H as (grad & -> & H). cbn [option_bind]. now rewrite H.
Qed.
Lemma verify_yaml_groups numpy rand randc : exists f, file_groups numpy rand randc doc_verify = Some [[(XD, f)]] /\ forall s, ~ holds s f.
Proof.
  eexists. split; [vm_compute; reflexivity|]. intros s Hs. cbn -[Q2R] in Hs. unfold Q2R in Hs. cbn [Qnum Qden] in Hs.
  destruct Hs as ((H1 & _) & (H2 & _) & _).
  assert (K : 1/100 <= s 0%nat * s 0%nat + s 1%nat * s 1%nat) by lra. destruct H2 as [H2|[H2|[]]]; lra.
Qed.
(** verify.yaml: the candidate is never rejected with a counterexample if the solver only answers "sat" to what can be met, and it is
    accepted by a solver that recognises what cannot be met. *)
Theorem C73_verify : forall numpy rand randc be noise,
  exists v, verify_file numpy 300 300 rand randc doc_verify be noise = Some v /\
    ((forall k f, b_is_sat be (b_solve be k f) = true -> exists s, holds s f) -> Forall (fun e => snd e = []) (v_cex v)) /\
    ((forall k f, (forall s, ~ holds s f) -> b_is_unsat be (b_solve be k f) = true) -> v_found v = true).
Proof.
  intros numpy rand randc be noise. destruct (verify_yaml_groups numpy rand randc) as (f & E & U).
  eexists. split; [apply file_groups_verify; exact E|].
  assert (R : verify be noise [[(XD, f)]] =
    if b_is_unsat be (b_solve be 0 f) then {| v_found := true; v_cex := [(XD, [])] |}
    else {| v_found := false; v_cex := [(XD, if b_is_sat be (b_solve be 0 f) then randomise_counterex (noise XD) (b_model be (b_solve be 0 f)) else [])] |}).
  { unfold verify. cbn. destruct (b_is_sat be (b_solve be 0 f)) eqn:A; cbn; destruct (b_is_unsat be (b_solve be 0 f)); cbn; rewrite ?A; reflexivity. }
  rewrite R. split.
  - intros Hs. assert (N : b_is_sat be (b_solve be 0 f) = false).
    { destruct (b_is_sat be (b_solve be 0 f)) eqn:A; [|reflexivity]. destruct (Hs _ _ A) as [s K]. now elim (U s). }
    rewrite N. destruct (b_is_unsat be (b_solve be 0 f)); repeat constructor.
  - intros Hu. now rewrite (Hu 0%nat f U).
Qed.

(** ** roa-test.yaml
    LLO is off, so the derivative need not be negative (see C19): the file can succeed with a feedback under which every state circles
    the origin for ever.  The feedback is u = x - 3 y and the function (x - y)^2 + y^2. *)
Definition roa_rand (k row col : nat) : Q :=
  match k, row, col with O, 1%nat, O => 1 | O, 1%nat, 1%nat => -1 | O, 2%nat, 1%nat => 1 | O, _, _ => 0 | _, _, _ => 1 end.
Definition roa_randc (k row col : nat) : Q :=
  match k, row, col with O, 1%nat, O => 1 | O, 1%nat, 1%nat => -3 | S _, 1%nat, O => 1 | _, _, _ => 0 end.
Definition roa_net : network :=
  {| in_size := 2; hidden := [({| weight := [[1; -1]; [0; 1]; [0; 0]; [0; 0]; [0; 0]]%Q; bias := None |}, ASquare)];
     last := {| weight := [[1; 1; 1; 1; 1]]%Q; bias := None |} |}.
Definition roa_ctrl : controller :=
  {| k_acts := [AIdentity]; k_layers := [{| weight := [[1; -3]; [0; 0]; [0; 0]; [0; 0]; [0; 0]]%Q; bias := None |}; {| weight := [[1; 0; 0; 0; 0]]%Q; bias := None |}] |}.
Lemma roa_fed s : fed_back roa_ctrl s 0 = s 0%nat - 3 * s 1%nat.
Proof.
  unfold fed_back, feedback, neuron, weight_of, bias_of. cbn -[Q2R round_dp]. unfold neuron, weight_of, bias_of. cbn -[Q2R round_dp].
  change (round_dp 5 0) with (0 # 100000)%Q. change (round_dp 5 1) with (100000 # 100000)%Q. change (round_dp 5 (-3)) with (-300000 # 100000)%Q.
  unfold Q2R. cbn [Qnum Qden]. lra.
Qed.
Definition roa_summary (x : problem controller * network * controller) :=
  let '(pb, net, ctrl) := x in
  (net, ctrl, pb_sets pb XI, pb_xdot pb ctrl, (pb_type pb, pb_n pb, pb_llo pb, pb_quad pb, pb_discrete pb, pb_symb pb, pb_rounding pb)).
Definition roa_xdot : list expr := Eval vm_compute in
  match session_of math 300 300 roa_rand roa_randc doc_roa_test with
  | Some (pb, _, ctrl) => match pb_xdot pb ctrl with Some xdot => xdot | None => [] end
  | None => []
  end.
Definition roa_xi : fml := FCmp CLe (EBin BAdd (EBin BAdd (ENum 0) (EPow (EBin BSub (EVar 0) (ENum 0)) 2)) (EPow (EBin BSub (EVar 1) (ENum 0)) 2)) (ENum (1 # 100)).
Lemma roa_session : exists pb, session_of math 300 300 roa_rand roa_randc doc_roa_test = Some (pb, roa_net, roa_ctrl) /\
  pb_sets pb XI = roa_xi /\ pb_xdot pb roa_ctrl = Some roa_xdot /\
  pb_type pb = ROA /\ pb_n pb = 2%nat /\ pb_llo pb = false /\ pb_quad pb = false /\ pb_discrete pb = false /\ pb_symb pb = SDREAL /\ pb_rounding pb = 3%Z.
Proof.
  destruct (session_get (session_of math 300 300 roa_rand roa_randc doc_roa_test) roa_summary
    (roa_net, roa_ctrl, roa_xi, Some roa_xdot, (ROA, 2%nat, false, false, false, SDREAL, 3%Z)))
    as (pb & net & ctrl & E1 & E2); [vm_compute; reflexivity|].
  unfold roa_summary in E2. injection E2 as -> -> H. exists pb. split; [exact E1|]. intuition congruence.
Qed.
Lemma roa_xi_disc s : holds s roa_xi <-> disc 0 0 (1/10) s.
Proof. unfold roa_xi, disc. cbn -[Q2R]. unfold Q2R. cbn [Qnum Qden]. split; intros; lra. Qed.
(** The orbit: x = a (cos t + sin t), y = a sin t. *)
Definition orbit (t : R) : state := fun j => match j with O => / 10 * (cos t + sin t) | _ => / 10 * sin t end.
Theorem C73_attraction_refuted : exists r x, succeeds doc_roa_test r /\
  (forall T, plant (l_ctrl (r_learned r)) x T) /\ disc 0 0 (1/10) (x 0) /\ forall t, ~ disc 0 0 (6/100) (x t).
Proof.
  destruct roa_session as (pb & Es & EI & Ex & Ty & En & El & Eq & Edt & Esy & Er).
  set (b := (1 # 10)%Q).
  set (V := fst (match fossil_translate pb (demo_env (fun _ _ => Unknown) 0 b) 0 (demo_learned pb roa_net roa_ctrl b) with Some p => p | None => (ENum 0, ENum 0) end)).
  set (W := snd (match fossil_translate pb (demo_env (fun _ _ => Unknown) 0 b) 0 (demo_learned pb roa_net roa_ctrl b) with Some p => p | None => (ENum 0, ENum 0) end)).
  assert (Et : forall e, fossil_translate pb (demo_env e 0 b) 0 (demo_learned pb roa_net roa_ctrl b) = Some (V, W)).
  { intros e. unfold V, W, fossil_translate, demo_learned. cbn [l_ctrl l_net]. rewrite Ex, Edt, Esy, Er, Eq, En, El. reflexivity. }
  assert (EV : forall s, eval s V = (s 0%nat - s 1%nat) ^ 2 + s 1%nat ^ 2).
  { intros s. unfold V, fossil_translate, demo_learned. cbn [l_ctrl l_net]. rewrite Ex, Edt, Esy, Er, Eq, En, El.
    cbn -[Q2R round_num]. q2r. field. }
  assert (EW : forall s, eval s W = 0).
  { intros s. unfold W, fossil_translate, demo_learned. cbn [l_ctrl l_net]. rewrite Ex, Edt, Esy, Er, Eq, En, El.
    cbn -[Q2R round_num]. q2r. field. }
  destruct (demo_success_ctrl pb b roa_net roa_ctrl V W (roa_constraints false (new_vars 2) (pb_sets pb) b V W)) as (env & H1 & H2 & H2' & H3).
  - rewrite El. reflexivity.
  - exact Et.
  - unfold fossil_constraints. now rewrite Ty, El, En.
  - apply (C01_certificate_labels_distinct false (new_vars 2) (pb_sets pb) b V V W W).
  - apply C07_roa_obligations. unfold roa_conditions, sem, inside. rewrite EI. replace (Q2R b) with (1/10) by (unfold b, Q2R; cbn; lra). split.
    + intros s Hs. rewrite EV. apply roa_xi_disc in Hs. unfold disc in Hs. assert (P1 := pow2_ge_0 (s 0%nat + s 1%nat)). assert (P2 := pow2_ge_0 (s 0%nat)). nra.
    + intros s _ Hn. rewrite EV, EW. split; [|lra]. unfold sqnorm in Hn. cbn in Hn.
      assert (P1 := pow2_ge_0 (s 0%nat - s 1%nat)). assert (P2 := pow2_ge_0 (s 1%nat)). assert (P3 := pow2_ge_0 (s 0%nat - 2 * s 1%nat)).
      assert (P4 : s 0%nat * s 0%nat + s 1%nat * s 1%nat <= 3 * ((s 0%nat - s 1%nat) ^ 2 + s 1%nat ^ 2)) by nra. nra.
  - rewrite Ty. discriminate.
  - exists (demo_result pb roa_net roa_ctrl b V W), orbit. refine (conj _ (conj _ (conj _ _))).
    + exists math, 300%nat, 300%nat, roa_rand, roa_randc, pb, roa_net, roa_ctrl, env, [], 1%nat. split; [exact Es|]. split; [exact H1|].
      split; [intros n m it p S Sdot Hw; now rewrite H2'|]. split; [exact H2|]. split; [exact H3|reflexivity].
    + intros T t Ht. cbn [r_learned demo_result]. change (l_ctrl (demo_learned pb roa_net roa_ctrl b)) with roa_ctrl. unfold moves. rewrite roa_fed. unfold orbit.
      split; auto_derive; auto; ring.
    + unfold disc, orbit. rewrite cos_0, sin_0. lra.
    + intros t. unfold disc, orbit. intros H. assert (K := sin2_cos2 t). unfold Rsqr in K.
      assert (P1 := pow2_ge_0 (64/100 * cos t + sin t)). assert (P2 := pow2_ge_0 (sin t)).
      set (c := cos t) in *. set (d := sin t) in *. assert (P3 : 64/100 * (c * c) + 2 * (c * d) + 164/100 * (d * d) <= 0) by nra.
      assert (P4 : d * d <= 0) by nra. assert (d = 0) by nra. subst d. replace (sin t) with 0 in * by lra. nra.
Qed.
