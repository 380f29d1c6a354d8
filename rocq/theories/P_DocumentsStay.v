(** Property C73, rswa-test.yaml: RSWA skips the search for the level of staying, so a success does not keep motions in the goal. *)
From Coquelicot Require Import Coquelicot.
From Coq Require Import String Ascii Reals QArith Qreals Bool Arith ZArith Decimal Lra Lia List.
From Verif Require Import M_Syntax M_Certificates M_Verifier M_Activations M_Domains M_Network M_Learner M_Cegis M_Labels M_Fossil M_Double
  M_Control M_Parser M_Lexer M_Variables M_DomainParser M_Cli M_Config M_Verify M_ConfigVerify M_Documents S_Verifier S_Certificates S_Network S_Domains S_Dynamics S_Fossil S_Double S_Success
  S_Parser S_Lexer S_Variables S_DomainParser S_Control S_Cli S_Config S_Documents L_Network L_Demo P_Verifier P_Certificates P_Parser P_TranslatorBugs P_Cli L_Session P_Config P_ConfigDouble P_ConfigExamples P_DoubleExamples P_ConfigDoubleExamples L_Texts L_Documents P_Documents P_DocumentsMore P_DocumentsExamples.
Import ListNotations.
Local Close Scope Q_scope.
Local Open Scope string_scope.
Local Open Scope list_scope.
Local Open Scope R_scope.


(** The feedback u = - y - x/50 and the function 1000 x^2 + 1000 (y - x)^2 - 100. *)
Definition slow_rand (k row col : nat) : Q :=
  match k, row, col with O, 1%nat, O => 1 | O, 2%nat, O => -1 | O, 2%nat, 1%nat => 1 | 1%nat, 1%nat, _ => 1000 | 1%nat, O, _ => -100 | _, _, _ => 0 end.
Definition slow_randc (k row col : nat) : Q :=
  match k, row, col with O, 1%nat, O => (-1 # 50) | O, 1%nat, 1%nat => -1 | S _, 1%nat, O => 1 | _, _, _ => 0 end.
Definition slow_net : network := Eval vm_compute in match session_of math 300 300 slow_rand slow_randc doc_rswa_test with Some (_, net, _) => net | None => down_net end.
Definition slow_ctrl : controller := Eval vm_compute in match session_of math 300 300 slow_rand slow_randc doc_rswa_test with Some (_, _, c) => c | None => down_ctrl end.
Definition slow_xdot : list expr := Eval vm_compute in match d_sum slow_rand slow_randc doc_rswa_test with Some (_, _, _, Some e, _) => e | _ => [] end.
Lemma slow_session : exists pb, session_of math 300 300 slow_rand slow_randc doc_rswa_test = Some (pb, slow_net, slow_ctrl) /\
  map (pb_sets pb) [XD; XI; XU; XS; XS_BORDER; XG] = [e_disc 0 0 (121#100); e_disc 0 0 (1#100); FFalse; e_disc 0 0 (100#100); e_circle (100#100); e_disc 0 0 (25#10000)] /\
  pb_xdot pb slow_ctrl = Some slow_xdot /\ pb_type pb = RSWA /\ pb_n pb = 2%nat /\ pb_llo pb = false /\ pb_quad pb = false /\ pb_discrete pb = false /\
  pb_symb pb = SDREAL /\ pb_rounding pb = 3%Z.
Proof.
  assert (E : option_map doc_summary (session_of math 300 300 slow_rand slow_randc doc_rswa_test) =
    Some (slow_net, slow_ctrl, [e_disc 0 0 (121#100); e_disc 0 0 (1#100); FFalse; e_disc 0 0 (100#100); e_circle (100#100); e_disc 0 0 (25#10000)],
      Some slow_xdot, (RSWA, 2%nat, false, false, false, SDREAL, 3%Z))) by (vm_compute; reflexivity).
  destruct (session_of _ _ _ _ _ doc_rswa_test) as [[[pb net] ctrl]|]; [|discriminate E]. cbn [option_map doc_summary] in E.
  injection E as -> -> Z1 Z2 Z3 Z4 Z5 Z6 H2 H3 H4 H5 H6 H7 H8 H9. exists pb. split; [reflexivity|]. split; [|intuition congruence].
  cbn [map]. now rewrite Z1, Z2, Z3, Z4, Z5, Z6.
Qed.
Lemma slow_fed s : fed_back slow_ctrl s 0 = - s 1%nat - s 0%nat / 50.
Proof.
  unfold fed_back, feedback, neuron, weight_of, bias_of. cbn -[Q2R round_dp]. unfold neuron, weight_of, bias_of. cbn -[Q2R round_dp].
  change (round_dp 5 0) with (0 # 100000)%Q. change (round_dp 5 1) with (100000 # 100000)%Q. change (round_dp 5 (-1)) with (-100000 # 100000)%Q.
  change (round_dp 5 (-1 # 50)) with (-2000 # 100000)%Q.
  unfold Q2R. cbn [Qnum Qden]. lra.
Qed.
(** A motion from the initial disc. *)
Definition through (t : R) : state :=
  fun j => match j with O => 441/10000 * exp (- (t / 50)) | _ => 45/1000 * exp (- (t / 50)) - 134/1000 * exp (- t) end.
Lemma exp_bounds : 343/1000 <= exp (- (1)) <= 39/100.
Proof.
  assert (A : exp (1/8) ^ 8 = exp 1) by (cbn [pow]; rewrite Rmult_1_r; rewrite <- !exp_plus; f_equal; lra).
  assert (B : exp (- (1/8)) ^ 8 = exp (- (1))) by (cbn [pow]; rewrite Rmult_1_r; rewrite <- !exp_plus; f_equal; lra).
  assert (A1 : 9/8 <= exp (1/8)) by (left; replace (9/8) with (1 + 1/8) by lra; apply exp_ineq1; lra).
  assert (B1 : 7/8 <= exp (- (1/8))) by (left; replace (7/8) with (1 + - (1/8)) by lra; apply exp_ineq1; lra).
  assert (A2 : (9/8) ^ 8 <= exp (1/8) ^ 8) by (apply pow_incr; lra).
  assert (B2 : (7/8) ^ 8 <= exp (- (1/8)) ^ 8) by (apply pow_incr; lra).
  rewrite A in A2. rewrite B in B2. split; [lra|].
  rewrite exp_Ropp. assert (P := exp_pos 1). apply Rmult_le_reg_r with (exp 1); [lra|]. rewrite Rinv_l by lra. lra.
Qed.
Theorem C73_stay_refuted : exists r x, succeeds doc_rswa_test r /\
  (forall T, plant (l_ctrl (r_learned r)) x T) /\ disc 0 0 (1/10) (x 0) /\ disc 0 0 (5/100) (x 1) /\ ~ disc 0 0 (5/100) (x 4).
Proof.
  destruct slow_session as (pb & Es & EZ & Ex & Ty & En & El & Eq & Edt & Esy & Er). injection EZ as ED EI _ ES ESB EG.
  set (b := 0%Q).
  set (V := fst (match fossil_translate pb (demo_env (fun _ _ => Unknown) 0 b) 0 (demo_learned pb slow_net slow_ctrl b) with Some p => p | None => (ENum 0, ENum 0) end)).
  set (W := snd (match fossil_translate pb (demo_env (fun _ _ => Unknown) 0 b) 0 (demo_learned pb slow_net slow_ctrl b) with Some p => p | None => (ENum 0, ENum 0) end)).
  assert (Et : forall e, fossil_translate pb (demo_env e 0 b) 0 (demo_learned pb slow_net slow_ctrl b) = Some (V, W)).
  { intros e. unfold V, W, fossil_translate, demo_learned. cbn [l_ctrl l_net]. rewrite Ex, Edt, Esy, Er, Eq, En, El. reflexivity. }
  assert (EV : forall s, eval s V = 1000 * s 0%nat ^ 2 + 1000 * (s 1%nat - s 0%nat) ^ 2 - 100).
  { intros s. unfold V, fossil_translate, demo_learned. cbn [l_ctrl l_net]. rewrite Ex, Edt, Esy, Er, Eq, En, El.
    cbn -[Q2R round_num]. q2r. field. }
  assert (EW : forall s, eval s W = - 40 * s 0%nat ^ 2 + 2000 * (s 1%nat - s 0%nat) * (s 0%nat - s 1%nat + s 0%nat / 50)).
  { intros s. unfold W, fossil_translate, demo_learned. cbn [l_ctrl l_net]. rewrite Ex, Edt, Esy, Er, Eq, En, El.
    cbn -[Q2R round_num]. q2r. field. }
  destruct (demo_success_ctrl pb b slow_net slow_ctrl V W (rws_constraints (pb_sets pb) V W)) as (env & H1 & H2 & H2' & H3).
  - rewrite El. reflexivity.
  - exact Et.
  - unfold fossil_constraints. now rewrite Ty.
  - apply (C01_certificate_labels_distinct false (new_vars 2) (pb_sets pb) b V V W W).
  - apply C10_rws_obligations. unfold rws_conditions, sem, inside. rewrite ED, EI, ES, ESB, EG. refine (conj _ (conj _ _)); intros s HD H.
    + rewrite EV. apply disc_value in H. num H. assert (P := pow2_ge_0 (s 0%nat + s 1%nat)). nra.
    + rewrite EV. apply circle_value in H. num H. assert (P := pow2_ge_0 (2 * s 0%nat - s 1%nat)).
      assert (Q : s 0%nat ^ 2 + s 1%nat ^ 2 <= 3 * (s 0%nat ^ 2 + (s 1%nat - s 0%nat) ^ 2)) by (assert (P' := pow2_ge_0 (3 * s 1%nat - 4 * s 0%nat)); nra). lra.
    + intros _. rewrite EW. rewrite disc_value in H. num H. apply Rnot_le_lt in H.
      set (x := s 0%nat) in *. set (y := s 1%nat) in *. set (w := y - x). replace y with (x + w) in * by (unfold w; ring). clearbody w.
      assert (P1 : x ^ 2 + (x + w) ^ 2 <= 3 * x ^ 2 + 2 * w ^ 2) by (assert (P := pow2_ge_0 (x - w)); nra).
      replace (x + w - x) with w by ring. replace (x - (x + w) + x / 50) with (- w + x / 50) by field. assert (P := pow2_ge_0 (x - w)). nra.
  - rewrite Ty. discriminate.
  - exists (demo_result pb slow_net slow_ctrl b V W), through. refine (conj _ (conj _ (conj _ (conj _ _)))).
    + exists math, 300%nat, 300%nat, slow_rand, slow_randc, pb, slow_net, slow_ctrl, env, [], 1%nat. split; [exact Es|]. split; [exact H1|].
      split; [intros n m it p S Sdot Hw; now rewrite H2'|]. split; [exact H2|]. split; [exact H3|reflexivity].
    + intros T t Ht. cbn [r_learned demo_result]. change (l_ctrl (demo_learned pb slow_net slow_ctrl b)) with slow_ctrl. unfold moves. rewrite slow_fed. unfold through.
      split; auto_derive; auto; unfold Rdiv; set (e1 := exp _); try set (e2 := exp _); field.
    + unfold disc, through. replace (- (0 / 50)) with 0 by field. replace (- 0) with 0 by ring. rewrite exp_0. lra.
    + assert (E1 := exp_bounds). assert (E2 : 49/50 <= exp (- (1/50))) by (left; replace (49/50) with (1 + - (1/50)) by lra; apply exp_ineq1; lra).
      assert (E3 : exp (- (1/50)) <= 1) by (assert (X := exp_increasing (- (1/50)) 0); rewrite exp_0 in X; lra).
      unfold disc, through. set (a := exp (- (1/50))) in *. set (c := exp (- (1))) in *. nra.
    + assert (E1 := exp_bounds). assert (E2 : 23/25 <= exp (- (4/50))) by (left; replace (23/25) with (1 + - (4/50)) by lra; apply exp_ineq1; lra).
      assert (E4 : exp (- (4)) <= 24/1000).
      { replace (exp (- (4))) with (exp (- (1)) ^ 4) by (cbn [pow]; rewrite Rmult_1_r, <- !exp_plus; f_equal; lra).
        apply Rle_trans with ((39/100) ^ 4); [apply pow_incr; split; [left; apply exp_pos|lra]|lra]. }
      assert (E5 := exp_pos (- (4))).
      unfold disc, through. set (a := exp (- (4/50))) in *. set (c := exp (- (4))) in *. intros K.
      assert (K1 : 405/10000 <= 441/10000 * a) by lra. assert (K2 : 38/1000 <= 45/1000 * a - 134/1000 * c) by lra. nra.
Qed.
