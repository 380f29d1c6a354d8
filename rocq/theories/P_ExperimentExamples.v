(** C72: a successful search of experiments/benchmarks/rwa/rwa_1.py, and a motion of its system from XI. *)
From Coquelicot Require Import Coquelicot.
From Coq Require Import String Reals QArith Qreals Bool Arith ZArith Lra Lia List.
From Verif Require Import M_Syntax M_Certificates M_Verifier M_BetaSearch M_Activations M_Domains M_Network M_Learner M_Cegis M_Labels M_Fossil
  M_Control M_Parser M_Cli M_Config M_Model M_Benchmarks M_Experiment M_Scripts S_Verifier S_Activations S_Network S_Learner S_Cegis S_Fossil S_Dynamics S_Certificates S_Success S_Domains
  S_Control S_Model S_Experiment L_Success L_Demo L_Domains P_Verifier P_Certificates P_Safety P_Fossil P_TranslatorBugs P_Config P_ConfigExamples P_Experiment.
Import ListNotations.
Local Open Scope list_scope.
Local Open Scope R_scope.

(** V = 4 x^2 + 3 y^2 + (x + y)^2 - 3. *)
Definition rwa_rand (k row col : nat) : Q :=
  match k, row, col with
  | O, 1%nat, O | O, 2%nat, 1%nat | O, 3%nat, O | O, 3%nat, 1%nat => 1
  | 1%nat, O, O => -3
  | 1%nat, 1%nat, O => 4
  | 1%nat, 1%nat, 1%nat => 3
  | 1%nat, 1%nat, 2%nat => 1
  | _, _, _ => 0
  end.
Definition rwa_net : network :=
  {| in_size := 2; hidden := [({| weight := [[1; 0]; [0; 1]; [1; 1]; [0; 0]]%Q; bias := Some [0; 0; 0; 0]%Q |}, ASquare)];
     last := {| weight := [[4; 3; 1; 0]]%Q; bias := Some [-3]%Q |} |}.
Definition no_ctrl : controller := {| k_acts := []; k_layers := [] |}.
Definition rwa_summary (x : problem controller * network * controller) :=
  let '(pb, net, ctrl) := x in
  (net, ctrl, map (pb_sets pb) [XD; XI; XS; XS_BORDER; XG], pb_xdot pb ctrl,
   (pb_type pb, pb_n pb, pb_llo pb, pb_quad pb, pb_discrete pb, pb_symb pb, pb_rounding pb)).
Definition box (q : Q) : fset := Rect [(- q)%Q; (- q)%Q] [q; q].
Definition rwa_xdot : list expr :=
  Eval vm_compute in match script_xdot Linear1LQR false SDREAL 2 no_ctrl with Some l => l | None => [] end.
Lemma rwa_session : exists pb, script_session rwa_rand rwa_rand script_rwa_1 = Some (pb, rwa_net, no_ctrl) /\
  pb_sets pb XD = generate_domain (box (3 # 2)) (new_vars 2) /\ pb_sets pb XI = generate_domain (box (1 # 2)) (new_vars 2) /\
  pb_sets pb XS = generate_domain (box 1) (new_vars 2) /\ Some (pb_sets pb XS_BORDER) = generate_boundary (box 1) (new_vars 2) /\
  pb_sets pb XG = generate_domain (box (1 # 10)) (new_vars 2) /\ pb_xdot pb no_ctrl = Some rwa_xdot /\
  pb_type pb = RWS /\ pb_n pb = 2%nat /\ pb_llo pb = false /\ pb_quad pb = false /\ pb_discrete pb = false /\ pb_symb pb = SDREAL /\ pb_rounding pb = 3%Z.
Proof.
  destruct (session_get (script_session rwa_rand rwa_rand script_rwa_1) rwa_summary
    (rwa_net, no_ctrl, [generate_domain (box (3 # 2)) (new_vars 2); generate_domain (box (1 # 2)) (new_vars 2); generate_domain (box 1) (new_vars 2);
      match generate_boundary (box 1) (new_vars 2) with Some f => f | None => FFalse end; generate_domain (box (1 # 10)) (new_vars 2)],
     Some rwa_xdot, (RWS, 2%nat, false, false, false, SDREAL, 3%Z)))
    as (pb & net & ctrl & E1 & E2); [vm_compute; reflexivity|].
  unfold rwa_summary in E2. cbn [map] in E2. injection E2 as -> -> H1 H2 H3 H4 H5 H6 H7 H8 H9 H10 H11 H12 H13. exists pb.
  repeat (split; [first [assumption | rewrite H4; reflexivity]|]). assumption.
Qed.
Lemma box_holds2 q s : holds s (generate_domain (box q) (new_vars 2)) <-> - Q2R q <= s 0%nat <= Q2R q /\ - Q2R q <= s 1%nat <= Q2R q.
Proof. cbn -[Q2R]. rewrite Q2R_opp. tauto. Qed.
Lemma box_member q s : member 2 (box q) s <-> - Q2R q <= s 0%nat <= Q2R q /\ - Q2R q <= s 1%nat <= Q2R q.
Proof.
  unfold box. cbn [member]. unfold qn. split.
  - intros H. pose proof (H 0%nat ltac:(cbn; lia)) as A. pose proof (H 1%nat ltac:(cbn; lia)) as B. cbn [nth] in A, B. rewrite Q2R_opp in A, B. tauto.
  - intros [A B] i Hi. cbn in Hi. destruct i as [|[|i]]; [| |lia]; cbn [nth]; rewrite Q2R_opp; assumption.
Qed.
Lemma border_holds2 f s : Some f = generate_boundary (box 1) (new_vars 2) -> holds s f ->
  (s 0%nat = 1 \/ s 0%nat = -1 \/ s 1%nat = 1 \/ s 1%nat = -1).
Proof. intros [= ->]. cbn. unfold Q2R. cbn. intros H. decompose [and or] H; try tauto; lra. Qed.

Definition freq : R := sqrt (957024 / 1000000).
Lemma freq_sq : freq * freq = 957024 / 1000000.
Proof. apply sqrt_sqrt. lra. Qed.
Definition swing (t : R) (i : nat) : R :=
  match i with
  | O => 1 / 2 * (exp (- (676 / 1000) * t) * sin (freq * t))
  | _ => 1 / 2 * (exp (- (676 / 1000) * t) * (freq * cos (freq * t) - 676 / 1000 * sin (freq * t)))
  end.
Lemma swing_solves k : solves_forever 2 (script_field script_rwa_1 k) swing.
Proof.
  intros t Ht j Hj. pose proof freq_sq as F. destruct j as [|[|j]]; [| |lia]; unfold script_field; cbn -[Q2R pow swing]; unfold swing.
  - auto_derive; [auto|]. field.
  - replace (Q2R (207 # 500)) with (414 / 1000) by (unfold Q2R; cbn; lra).
    replace (Q2R (169 # 125)) with (1352 / 1000) by (unfold Q2R; cbn; lra).
    auto_derive; [auto|]. set (E := exp _). set (s := sin _). set (c := cos _).
    match goal with |- ?L = ?R => enough (D : L - R = - (1 / 2) * E * s * (freq * freq - 957024 / 1000000)) end.
    { rewrite F in D. lra. }
    field.
Qed.

Example C72_reach_example : exists pb env r,
  In script_rwa_1 rwa_scripts /\ script_session rwa_rand rwa_rand script_rwa_1 = Some (pb, rwa_net, no_ctrl) /\
  lawful pb env /\ keeps_controller env /\ honest pb env /\
  run_fossil pb env 1 rwa_net no_ctrl [] = Some (Some r) /\ r_res r = true /\
  solves_forever 2 (script_field script_rwa_1 (l_ctrl (r_learned r))) swing /\
  given_set script_rwa_1 XI (swing 0) /\ ~ given_set script_rwa_1 XG (swing 0).
Proof.
  destruct rwa_session as (pb & Es & ED & EI & ES & EB & EG & Ex & Ty & En & El & Eq & Edt & Esy & Er).
  set (V := fst (match fossil_translate pb (demo_env (fun _ _ => Unknown) 0 0) 0 (demo_learned pb rwa_net no_ctrl 0) with Some p => p | None => (ENum 0, ENum 0) end)).
  set (W := snd (match fossil_translate pb (demo_env (fun _ _ => Unknown) 0 0) 0 (demo_learned pb rwa_net no_ctrl 0) with Some p => p | None => (ENum 0, ENum 0) end)).
  assert (Et : forall e, fossil_translate pb (demo_env e 0 0) 0 (demo_learned pb rwa_net no_ctrl 0) = Some (V, W)).
  { intros e. unfold V, W, fossil_translate, demo_learned. cbn [l_ctrl l_net]. rewrite Ex, Edt, Esy, Er, Eq, En, El. reflexivity. }
  assert (EV : forall s, eval s V = 5 * s 0%nat ^ 2 + 4 * s 1%nat ^ 2 + 2 * s 0%nat * s 1%nat - 3).
  { intros s. unfold V, fossil_translate, demo_learned. cbn [l_ctrl l_net]. rewrite Ex, Edt, Esy, Er, Eq, En, El.
    cbn -[Q2R round_num]. q2r. field. }
  assert (EW : forall s, eval s W = - (2828 / 1000) * s 0%nat ^ 2 - 4016 / 1000 * (s 0%nat * s 1%nat) - 8816 / 1000 * s 1%nat ^ 2).
  { intros s. unfold W, fossil_translate, demo_learned. cbn [l_ctrl l_net]. rewrite Ex, Edt, Esy, Er, Eq, En, El.
    cbn -[Q2R round_num]. q2r. field. }
  assert (Lie : forall x y, 1 / 10 < x \/ x < - (1 / 10) \/ 1 / 10 < y \/ y < - (1 / 10) ->
    - (2828 / 1000) * x ^ 2 - 4016 / 1000 * (x * y) - 8816 / 1000 * y ^ 2 <= - (1 / 100)).
  { intros x y H. assert (1 / 100 <= x ^ 2 \/ 1 / 100 <= y ^ 2) by (destruct H as [H|[H|[H|H]]]; [left|left|right|right]; nra).
    pose proof (pow2_ge_0 (x + 2 * y)). pose proof (pow2_ge_0 (2 * x + 5 * y)). pose proof (pow2_ge_0 x). pose proof (pow2_ge_0 y). nra. }
  destruct (demo_success_ctrl pb 0 rwa_net no_ctrl V W (rws_constraints (pb_sets pb) V W)) as (env & H1 & H2 & H2' & H3).
  - rewrite El. reflexivity.
  - exact Et.
  - unfold fossil_constraints. now rewrite Ty.
  - apply (C01_certificate_labels_distinct false (new_vars 2) (pb_sets pb) 0 V V W W).
  - apply C10_rws_obligations. unfold rws_conditions, sem, inside. rewrite ED, EI, ES, EG.
    split; [|split].
    + intros s _ H. rewrite EV. apply box_holds2 in H. unfold Q2R in H. cbn in H. destruct H as [A B].
      assert (s 0%nat ^ 2 <= 1 / 4) by nra. assert (s 1%nat ^ 2 <= 1 / 4) by nra. pose proof (pow2_ge_0 (s 0%nat - s 1%nat)). nra.
    + intros s _ H. rewrite EV. apply (border_holds2 _ _ EB) in H.
      pose proof (pow2_ge_0 (4 * s 1%nat + 1)). pose proof (pow2_ge_0 (4 * s 1%nat - 1)). pose proof (pow2_ge_0 (5 * s 0%nat + 1)). pose proof (pow2_ge_0 (5 * s 0%nat - 1)).
      destruct H as [-> |[-> |[-> | ->]]]; nra.
    + intros s _ H _. rewrite EW. apply Lie. rewrite box_holds2 in H. unfold Q2R in H. cbn in H.
      destruct (Rlt_le_dec (1/10) (s 0%nat)); [tauto|]. destruct (Rlt_le_dec (s 0%nat) (-(1/10))); [tauto|].
      destruct (Rlt_le_dec (1/10) (s 1%nat)); [tauto|]. destruct (Rlt_le_dec (s 1%nat) (-(1/10))); [tauto|]. exfalso. apply H. lra.
  - rewrite Ty. discriminate.
  - exists pb, env, (demo_result pb rwa_net no_ctrl 0 V W). split; [cbn; tauto|]. split; [exact Es|]. split; [exact H1|].
    split; [intros n m it p S Sdot Hw; now rewrite H2'|]. split; [exact H2|]. split; [exact H3|]. split; [reflexivity|].
    split; [apply swing_solves|].
    assert (F : 9 / 10 <= freq <= 1).
    { pose proof freq_sq. assert (0 <= freq) by apply sqrt_pos. split; nra. }
    assert (S0 : swing 0 0%nat = 0) by (unfold swing; rewrite !Rmult_0_r, sin_0; ring).
    assert (S1 : swing 0 1%nat = freq / 2) by (unfold swing; rewrite !Rmult_0_r, sin_0, cos_0, exp_0; field).
    split.
    + exists (Shipped (box (1 # 2))). split; [cbn; tauto|]. apply box_member. rewrite S0, S1. unfold Q2R. cbn. lra.
    + intros (X & Hin & M). cbn in Hin. destruct Hin as [E|[E|[E|[E|[E|[]]]]]]; try discriminate. injection E as <-.
      apply (box_member (1 # 10)) in M. rewrite S1 in M. unfold Q2R in M. cbn in M. lra.
Qed.
