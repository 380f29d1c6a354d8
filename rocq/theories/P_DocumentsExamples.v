(** Property C73, examples: the shipped files can succeed. *)
From Coquelicot Require Import Coquelicot.
From Coq Require Import String Ascii Reals QArith Qreals Bool Arith ZArith Decimal Lra Lia List.
From Verif Require Import M_Syntax M_Certificates M_Verifier M_Activations M_Domains M_Network M_Learner M_Cegis M_Labels M_Fossil M_Double
  M_Control M_Parser M_Lexer M_Variables M_DomainParser M_Cli M_Config M_Verify M_ConfigVerify M_Documents S_Verifier S_Certificates S_Network S_Domains S_Dynamics S_Fossil S_Double S_Success
  S_Parser S_Lexer S_Variables S_DomainParser S_Control S_Cli S_Config S_Documents L_Network L_Demo P_Verifier P_Certificates P_Parser P_TranslatorBugs P_Cli L_Session P_Config P_ConfigDouble P_ConfigExamples P_DoubleExamples P_ConfigDoubleExamples L_Texts L_Documents P_Documents P_DocumentsMore.
Import ListNotations.
Local Close Scope Q_scope.
Local Open Scope string_scope.
Local Open Scope list_scope.
Local Open Scope R_scope.

(** The feedback u = -3 x - y and the function 10 x^2 + 10 y^2 - 5. *)
Definition down_rand (k row col : nat) : Q :=
  match k, row, col with O, 1%nat, O => 1 | O, 2%nat, 1%nat => 1 | 1%nat, 1%nat, _ => 10 | 1%nat, O, _ => -5 | _, _, _ => 0 end.
Definition down_randc (k row col : nat) : Q :=
  match k, row, col with O, 1%nat, O => -3 | O, 1%nat, 1%nat => -1 | S _, 1%nat, O => 1 | _, _, _ => 0 end.
Definition down_net : network :=
  {| in_size := 2; hidden := [({| weight := [[1; 0]; [0; 1]; [0; 0]; [0; 0]; [0; 0]]%Q; bias := Some [0; 0; 0; 0; 0]%Q |}, ASquare)];
     last := {| weight := [[10; 10; 10; 10; 10]]%Q; bias := Some [-5]%Q |} |}.
Definition down_ctrl : controller :=
  {| k_acts := [AIdentity]; k_layers := [{| weight := [[-3; -1]; [0; 0]; [0; 0]; [0; 0]; [0; 0]]%Q; bias := None |}; {| weight := [[1; 0; 0; 0; 0]]%Q; bias := None |}] |}.
Definition doc_summary (x : problem controller * network * controller) :=
  let '(pb, net, ctrl) := x in
  (net, ctrl, map (pb_sets pb) [XD; XI; XU; XS; XS_BORDER; XG], pb_xdot pb ctrl,
   (pb_type pb, pb_n pb, pb_llo pb, pb_quad pb, pb_discrete pb, pb_symb pb, pb_rounding pb)).
Definition d_sum rand randc doc := option_map doc_summary (session_of math 300 300 rand randc doc).
Local Open Scope E.
Definition e_disc (a b : Q) (r : Q) : fml := ENum 0 + (EVar 0 - ENum a) ^ 2 + (EVar 1 - ENum b) ^ 2 <= ENum r.
Definition e_circle (r : Q) : fml := ENum 0 + (EVar 0 - ENum 0) ^ 2 + (EVar 1 - ENum 0) ^ 2 == ENum r.
Local Close Scope E.
Definition down_xdot : list expr := Eval vm_compute in match d_sum down_rand down_randc doc_barr_test with Some (_, _, _, Some e, _) => e | _ => [] end.
Lemma disc_value a b r s : holds s (e_disc a b r) <-> (s 0%nat - Q2R a) ^ 2 + (s 1%nat - Q2R b) ^ 2 <= Q2R r.
Proof. unfold e_disc. cbn -[Q2R]. rewrite RMicromega.Q2R_0. split; intros; lra. Qed.
Lemma circle_value r s : holds s (e_circle r) <-> (s 0%nat) ^ 2 + (s 1%nat) ^ 2 = Q2R r.
Proof. unfold e_circle. cbn -[Q2R]. rewrite RMicromega.Q2R_0. split; intros; lra. Qed.

(** The candidate of a problem with this network and system. *)
Lemma down_candidate pb : pb_xdot pb down_ctrl = Some down_xdot -> pb_discrete pb = false -> pb_symb pb = SDREAL -> pb_rounding pb = 3%Z -> pb_quad pb = false ->
  pb_n pb = 2%nat -> pb_llo pb = false -> forall b,
  exists V W, (forall e, fossil_translate pb (demo_env e 0 b) 0 (demo_learned pb down_net down_ctrl b) = Some (V, W)) /\
    (forall s, eval s V = 10 * (s 0%nat ^ 2 + s 1%nat ^ 2) - 5) /\
    (forall s, eval s W = 20 * (- 3 * s 0%nat ^ 2 + s 0%nat * s 1%nat - s 1%nat ^ 2)).
Proof.
  intros Ex Edt Esy Er Eq En El b.
  set (V := fst (match fossil_translate pb (demo_env (fun _ _ => Unknown) 0 b) 0 (demo_learned pb down_net down_ctrl b) with Some p => p | None => (ENum 0, ENum 0) end)).
  set (W := snd (match fossil_translate pb (demo_env (fun _ _ => Unknown) 0 b) 0 (demo_learned pb down_net down_ctrl b) with Some p => p | None => (ENum 0, ENum 0) end)).
  exists V, W. refine (conj _ (conj _ _)).
  - intros e. unfold V, W, fossil_translate, demo_learned. cbn [l_ctrl l_net]. rewrite Ex, Edt, Esy, Er, Eq, En, El. reflexivity.
  - intros s. unfold V, fossil_translate, demo_learned. cbn [l_ctrl l_net]. rewrite Ex, Edt, Esy, Er, Eq, En, El.
    cbn -[Q2R round_num]. q2r. field.
  - intros s. unfold W, fossil_translate, demo_learned. cbn [l_ctrl l_net]. rewrite Ex, Edt, Esy, Er, Eq, En, El.
    cbn -[Q2R round_num]. q2r. field.
Qed.
Lemma down_succeeds doc pb : session_of math 300 300 down_rand down_randc doc = Some (pb, down_net, down_ctrl) ->
  pb_type pb <> RSWS ->
  pb_xdot pb down_ctrl = Some down_xdot -> pb_discrete pb = false -> pb_symb pb = SDREAL -> pb_rounding pb = 3%Z -> pb_quad pb = false ->
  pb_n pb = 2%nat -> pb_llo pb = false ->
  (forall V W, (forall s, eval s V = 10 * (s 0%nat ^ 2 + s 1%nat ^ 2) - 5) ->
     (forall s, eval s W = 20 * (- 3 * s 0%nat ^ 2 + s 0%nat * s 1%nat - s 1%nat ^ 2)) ->
     exists gs, fossil_constraints pb 0 V W = Some gs /\ distinct_labels gs /\ refuted gs) ->
  exists r, succeeds doc r.
Proof.
  intros Es Ty Ex Edt Esy Er Eq En El HC.
  destruct (down_candidate pb Ex Edt Esy Er Eq En El 0) as (V & W & Et & EV & EW).
  destruct (HC V W EV EW) as (gs & Eg & Dg & Rg).
  destruct (demo_success_ctrl pb 0 down_net down_ctrl V W gs) as (env & H1 & H2 & H2' & H3); auto.
  { rewrite El. reflexivity. }
  exists (demo_result pb down_net down_ctrl 0 V W), math, 300%nat, 300%nat, down_rand, down_randc, pb, down_net, down_ctrl, env, [], 1%nat.
  split; [exact Es|]. split; [exact H1|].
  split; [intros n m it p S Sdot Hw; now rewrite H2'|]. split; [exact H2|]. split; [exact H3|reflexivity].
Qed.

Lemma down_session doc ty zs : is_some (session_of math 300 300 down_rand down_randc doc) = true ->
  d_sum down_rand down_randc doc = Some (down_net, down_ctrl, zs, Some down_xdot, (ty, 2%nat, false, false, false, SDREAL, 3%Z)) ->
  exists pb, session_of math 300 300 down_rand down_randc doc = Some (pb, down_net, down_ctrl) /\
    map (pb_sets pb) [XD; XI; XU; XS; XS_BORDER; XG] = zs /\ pb_xdot pb down_ctrl = Some down_xdot /\
    pb_type pb = ty /\ pb_n pb = 2%nat /\ pb_llo pb = false /\ pb_quad pb = false /\ pb_discrete pb = false /\ pb_symb pb = SDREAL /\ pb_rounding pb = 3%Z.
Proof.
  unfold d_sum. destruct (session_of _ _ _ _ _ doc) as [[[pb net] ctrl]|]; [|discriminate]. intros _ H. cbn [option_map doc_summary] in H.
  injection H as -> -> H1 H2 H3 H4 H5 H6 H7 H8 H9. exists pb. split; [reflexivity|]. split; [|intuition congruence]. rewrite <- H1. reflexivity.
Qed.
Example ex_barr : exists r, succeeds doc_barr_test r.
Proof.
  destruct (down_session doc_barr_test BARRIER [e_disc 0 0 (121#100); e_disc 0 0 (1#100); e_disc (8#10) (8#10) (1#100); FFalse; FFalse; FFalse])
    as (pb & Es & EZ & Ex & Ty & En & El & Eq & Edt & Esy & Er); [vm_compute; reflexivity|vm_compute; reflexivity|].
  refine (down_succeeds _ pb Es _ Ex Edt Esy Er Eq En El _); [rewrite Ty; discriminate|]. clear Es. intros V W EV EW. injection EZ as ED EI EU _ _ _.
  unfold fossil_constraints. rewrite Ty. eexists. split; [reflexivity|].
  split; [apply (C01_certificate_labels_distinct false (new_vars 2) (pb_sets pb) 0 V V W W)|].
  apply C08_barrier_obligations. unfold barrier_conditions, sem, inside. rewrite ED, EI, EU. refine (conj _ (conj _ _)); intros s HD H.
  - rewrite EV. apply disc_value in H. unfold Q2R in H. cbn [Qnum Qden] in H. nra.
  - rewrite EV. apply disc_value in H. unfold Q2R in H. cbn [Qnum Qden] in H.
    assert (P1 := pow2_ge_0 (s 0%nat - 8/10)). assert (P2 := pow2_ge_0 (s 1%nat - 8/10)).
    assert (Q1 : 7/10 <= s 0%nat) by nra. assert (Q2 : 7/10 <= s 1%nat) by nra. nra.
  - rewrite EV in H. rewrite EW. assert (P := pow2_ge_0 (s 0%nat - s 1%nat)). nra.
Qed.
Lemma down_rws (pb : problem controller) : map (pb_sets pb) [XD; XI; XU; XS; XS_BORDER; XG] = [e_disc 0 0 (121#100); e_disc 0 0 (1#100); FFalse; e_disc 0 0 (100#100); e_circle (100#100); e_disc 0 0 (25#10000)] ->
  forall V W, (forall s, eval s V = 10 * (s 0%nat ^ 2 + s 1%nat ^ 2) - 5) ->
     (forall s, eval s W = 20 * (- 3 * s 0%nat ^ 2 + s 0%nat * s 1%nat - s 1%nat ^ 2)) -> refuted (rws_constraints (pb_sets pb) V W).
Proof.
  intros EZ V W EV EW. injection EZ as ED EI _ ES ESB EG.
  apply C10_rws_obligations. unfold rws_conditions, sem, inside. rewrite ED, EI, ES, ESB, EG. refine (conj _ (conj _ _)); intros s HD H.
  - rewrite EV. apply disc_value in H. unfold Q2R in H. cbn [Qnum Qden] in H. nra.
  - rewrite EV. apply circle_value in H. unfold Q2R in H. cbn [Qnum Qden] in H. nra.
  - intros _. rewrite EW. rewrite disc_value in H. unfold Q2R in H. cbn [Qnum Qden] in H. apply Rnot_le_lt in H. assert (P := pow2_ge_0 (s 0%nat - s 1%nat)). nra.
Qed.
Example ex_rwa : Forall (fun doc => exists r, succeeds doc r) [doc_rwa_test; doc_rswa_test].
Proof.
  assert (HH : forall doc ty, In ty [RWA; RSWA] -> is_some (session_of math 300 300 down_rand down_randc doc) = true ->
    d_sum down_rand down_randc doc = Some (down_net, down_ctrl, [e_disc 0 0 (121#100); e_disc 0 0 (1#100); FFalse; e_disc 0 0 (100#100); e_circle (100#100); e_disc 0 0 (25#10000)],
      Some down_xdot, (ty, 2%nat, false, false, false, SDREAL, 3%Z)) -> exists r, succeeds doc r).
  { intros doc ty I A B. destruct (down_session doc ty _ A B) as (pb & Es & EZ & Ex & Ty & En & El & Eq & Edt & Esy & Er).
    refine (down_succeeds _ pb Es _ Ex Edt Esy Er Eq En El _); [rewrite Ty; destruct I as [<-|[<-|[]]]; discriminate|]. clear Es. intros V W EV EW.
    exists (rws_constraints (pb_sets pb) V W). split; [unfold fossil_constraints; rewrite Ty; destruct I as [<-|[<-|[]]]; reflexivity|].
    split; [apply (C01_certificate_labels_distinct false (new_vars 2) (pb_sets pb) 0 V V W W)|]. now apply down_rws. }
  constructor; [|constructor; [|constructor]].
  - apply (HH _ RWA); [now left|vm_compute; reflexivity|vm_compute; reflexivity].
  - apply (HH _ RSWA); [right; now left|vm_compute; reflexivity|vm_compute; reflexivity].
Qed.

(** lyap-test.yaml: (x + y/2)^2 + x^2/2 + 3 y^2/4. *)
Definition bowl_rand (k row col : nat) : Q :=
  match k, row, col with
  | O, 1%nat, O => 1 | O, 1%nat, 1%nat => (1#2) | O, 2%nat, O => 1 | O, 3%nat, 1%nat => 1
  | 1%nat, 1%nat, O => 1 | 1%nat, 1%nat, 1%nat => (1#2) | 1%nat, 1%nat, 2%nat => (3#4) | _, _, _ => 0 end.
Definition bowl_net : network := Eval vm_compute in match session_of math 300 300 bowl_rand down_randc doc_lyap_test with Some (_, net, _) => net | None => down_net end.
Definition no_ctrl : controller := Eval vm_compute in match session_of math 300 300 bowl_rand down_randc doc_lyap_test with Some (_, _, c) => c | None => down_ctrl end.
Definition bowl_xdot : list expr := Eval vm_compute in match d_sum bowl_rand down_randc doc_lyap_test with Some (_, _, _, Some e, _) => e | _ => [] end.
Lemma bowl_session : exists pb, session_of math 300 300 bowl_rand down_randc doc_lyap_test = Some (pb, bowl_net, no_ctrl) /\
  pb_xdot pb no_ctrl = Some bowl_xdot /\ pb_type pb = LYAPUNOV /\ pb_n pb = 2%nat /\ pb_llo pb = false /\ pb_quad pb = false /\ pb_discrete pb = false /\
  pb_symb pb = SZ3 /\ pb_rounding pb = 3%Z.
Proof.
  assert (E : option_map (fun x => let '(net, ctrl, _, xdot, rest) := doc_summary x in (net, ctrl, xdot, rest))
    (session_of math 300 300 bowl_rand down_randc doc_lyap_test) =
    Some (bowl_net, no_ctrl, Some bowl_xdot, (LYAPUNOV, 2%nat, false, false, false, SZ3, 3%Z))) by (vm_compute; reflexivity).
  destruct (session_of _ _ _ _ _ doc_lyap_test) as [[[pb net] ctrl]|]; [|discriminate E]. cbn [option_map doc_summary] in E.
  injection E as -> -> H1 H2 H3 H4 H5 H6 H7 H8. exists pb. split; [reflexivity|]. intuition congruence.
Qed.
Example ex_lyap : Forall (fun doc => exists r, succeeds doc r) [doc_root_lyap_test; doc_lyap_test].
Proof.
  assert (HH : exists r, succeeds doc_lyap_test r); [|constructor; [exact HH|constructor; [exact HH|constructor]]].
  destruct bowl_session as (pb & Es & Ex & Ty & En & El & Eq & Edt & Esy & Er).
  set (V := fst (match fossil_translate pb (demo_env (fun _ _ => Unknown) 0 0) 0 (demo_learned pb bowl_net no_ctrl 0) with Some p => p | None => (ENum 0, ENum 0) end)).
  set (W := snd (match fossil_translate pb (demo_env (fun _ _ => Unknown) 0 0) 0 (demo_learned pb bowl_net no_ctrl 0) with Some p => p | None => (ENum 0, ENum 0) end)).
  assert (Et : forall e, fossil_translate pb (demo_env e 0 0) 0 (demo_learned pb bowl_net no_ctrl 0) = Some (V, W)).
  { intros e. unfold V, W, fossil_translate, demo_learned. cbn [l_ctrl l_net]. rewrite Ex, Edt, Esy, Er, Eq, En, El. reflexivity. }
  assert (EV : forall s, eval s V = (s 0%nat + s 1%nat / 2) ^ 2 + s 0%nat ^ 2 / 2 + 3/4 * s 1%nat ^ 2).
  { intros s. unfold V, fossil_translate, demo_learned. cbn [l_ctrl l_net]. rewrite Ex, Edt, Esy, Er, Eq, En, El.
    cbn -[Q2R round_num]. q2r. field. }
  assert (EW : forall s, eval s W = - (s 0%nat ^ 2 + s 1%nat ^ 2)).
  { intros s. unfold W, fossil_translate, demo_learned. cbn [l_ctrl l_net]. rewrite Ex, Edt, Esy, Er, Eq, En, El.
    cbn -[Q2R round_num]. q2r. field. }
  destruct (demo_success_ctrl pb 0 bowl_net no_ctrl V W (lyapunov_constraints false (new_vars 2) (pb_sets pb) V W)) as (env & H1 & H2 & H2' & H3).
  - rewrite El. reflexivity.
  - exact Et.
  - unfold fossil_constraints. now rewrite Ty, El, En.
  - apply (C01_certificate_labels_distinct false (new_vars 2) (pb_sets pb) 0 V V W W).
  - apply C06_lyapunov_obligations. intros s _ Ho. unfold sem. rewrite EV, EW.
    assert (P0 := pow2_ge_0 (s 0%nat)). assert (P1 := pow2_ge_0 (s 1%nat)). assert (P2 := pow2_ge_0 (s 0%nat + s 1%nat / 2)).
    assert (P : 0 < s 0%nat ^ 2 + s 1%nat ^ 2).
    { apply Rnot_le_lt. intros K. apply Ho. assert (A : s 0%nat ^ 2 = 0) by lra. assert (B : s 1%nat ^ 2 = 0) by lra.
      intros [|[|k]] Hk; [nra|nra|lia]. }
    split; [intros _; lra|lra].
  - rewrite Ty. discriminate.
  - exists (demo_result pb bowl_net no_ctrl 0 V W), math, 300%nat, 300%nat, bowl_rand, down_randc, pb, bowl_net, no_ctrl, env, [], 1%nat.
    split; [exact Es|]. split; [exact H1|].
    split; [intros n m it p S Sdot Hw; now rewrite H2'|]. split; [exact H2|]. split; [exact H3|reflexivity].
Qed.

(** rar-test.yaml and stable-safe-test.yaml: the same feedback; the second functions are 1000 x^2 + 1000 y^2 - 4 and 10 x^2 + 10 y^2 - 5. *)
Definition rar_rand (k row col : nat) : Q :=
  match k, row, col with O, 1%nat, O => 1 | O, 2%nat, 1%nat => 1 | 1%nat, 1%nat, _ => 1000 | 1%nat, O, _ => -4 | _, _, _ => 0 end.
Definition doc_summary2 (x : problem controller * network * network * controller) :=
  let '(pb, net, net2, ctrl) := x in
  (net, net2, ctrl, map (pb_sets pb) [XD; XI; XU; XS; XS_BORDER; XG; XF; XNF], pb_xdot pb ctrl,
   (pb_type pb, pb_n pb, pb_llo pb, pb_quad pb, pb_discrete pb, pb_symb pb, pb_rounding pb)).
Definition nets rand2 doc := match session2_of math 300 300 down_rand rand2 down_randc doc with Some (_, n1, n2, _) => (n1, n2) | None => (down_net, down_net) end.
Definition rar_nets := Eval vm_compute in nets rar_rand doc_rar_test.
Definition ss_nets := Eval vm_compute in nets down_rand doc_stable_safe_test.
Lemma double_session doc rand2 ty zs n1 n2 :
  option_map doc_summary2 (session2_of math 300 300 down_rand rand2 down_randc doc) =
    Some (n1, n2, down_ctrl, zs, Some down_xdot, (ty, 2%nat, false, false, false, SDREAL, 3%Z)) ->
  exists pb, session2_of math 300 300 down_rand rand2 down_randc doc = Some (pb, n1, n2, down_ctrl) /\
    map (pb_sets pb) [XD; XI; XU; XS; XS_BORDER; XG; XF; XNF] = zs /\ pb_xdot pb down_ctrl = Some down_xdot /\
    pb_type pb = ty /\ pb_n pb = 2%nat /\ pb_llo pb = false /\ pb_quad pb = false /\ pb_discrete pb = false /\ pb_symb pb = SDREAL /\ pb_rounding pb = 3%Z.
Proof.
  destruct (session2_of _ _ _ _ _ _ doc) as [[[[pb net] net2] ctrl]|]; [|discriminate]. intros H. cbn [option_map doc_summary2] in H.
  injection H as -> -> -> H1 H2 H3 H4 H5 H6 H7 H8 H9. exists pb. split; [reflexivity|]. split; [|intuition congruence]. rewrite <- H1. reflexivity.
Qed.
Definition pair2 (pb : problem controller) n1 n2 b : candidate2 :=
  match double_translate pb (demo2_env (fun _ _ => Unknown) b) 0 (demo2_learned pb n1 n2 down_ctrl b) with Some c => c | None => ((ENum 0, ENum 0), (ENum 0, ENum 0)) end.
Lemma double_succeeds doc rand2 pb n1 n2 b gs :
  session2_of math 300 300 down_rand rand2 down_randc doc = Some (pb, n1, n2, down_ctrl) ->
  pb_type pb = RAR \/ pb_type pb = STABLESAFE -> pb_discrete pb = false ->
  (forall e, double_translate pb (demo2_env e b) 0 (demo2_learned pb n1 n2 down_ctrl b) = Some (pair2 pb n1 n2 b)) ->
  double_constraints pb b (pair2 pb n1 n2 b) = Some gs -> refuted gs -> exists r, succeeds2 doc r.
Proof.
  intros Es Ty Di Et Eg Rg.
  destruct (demo2_success_ctrl pb b n1 n2 down_ctrl (pair2 pb n1 n2 b) gs Ty Di Et Eg Rg) as (env & H1 & H2 & H3 & H3' & H4).
  exists (demo2_result pb n1 n2 down_ctrl b (pair2 pb n1 n2 b)), math, 300%nat, 300%nat, down_rand, rand2, down_randc, pb, n1, n2, down_ctrl, env, [], 1%nat.
  split; [exact Es|]. split; [exact H1|].
  split; [intros n m it p S Sdot Hw; now rewrite H3'|]. split; [exact H2|]. split; [exact H4|reflexivity].
Qed.
Ltac num H := unfold Q2R in H; cbn [Qnum Qden] in H.
Example ex_rar : exists r, succeeds2 doc_rar_test r.
Proof.
  destruct (double_session doc_rar_test rar_rand RAR
    [e_disc 0 0 (121#100); e_disc 0 0 (1#100); FFalse; e_disc 0 0 (100#100); e_circle (100#100); e_disc 0 0 (25#10000); e_disc 0 0 (5625#1000000); FNot (e_disc 0 0 (5625#1000000))]
    (fst rar_nets) (snd rar_nets)) as (pb & Es & EZ & Ex & Ty & En & El & Eq & Edt & Esy & Er); [vm_compute; reflexivity|].
  injection EZ as ED EI EU ES ESB EG EF ENF.
  set (c := pair2 pb (fst rar_nets) (snd rar_nets) 0).
  refine (double_succeeds _ _ pb _ _ 0 (rar_constraints (pb_sets pb) (fst (fst c)) (fst (snd c)) (snd (fst c)) (snd (snd c))) Es _ Edt _ _ _); clear Es.
  - now left.
  - intros e. unfold pair2, double_translate, demo2_learned. cbn [d_ctrl d_lyap d_barr]. rewrite ?Ex, ?Edt, ?Esy, ?Er, ?Eq, ?En, ?El. reflexivity.
  - unfold double_constraints. rewrite Ty. fold c. now destruct c as [[? ?] [? ?]].
  - assert (EV : forall s, eval s (fst (fst c)) = 10 * (s 0%nat ^ 2 + s 1%nat ^ 2) - 5).
    { intros s. unfold c, pair2, double_translate, demo2_learned. cbn [d_ctrl d_lyap d_barr]. rewrite ?Ex, ?Edt, ?Esy, ?Er, ?Eq, ?En, ?El. cbn -[Q2R round_num]. q2r. field. }
    assert (EW : forall s, eval s (snd (fst c)) = 20 * (- 3 * s 0%nat ^ 2 + s 0%nat * s 1%nat - s 1%nat ^ 2)).
    { intros s. unfold c, pair2, double_translate, demo2_learned. cbn [d_ctrl d_lyap d_barr]. rewrite ?Ex, ?Edt, ?Esy, ?Er, ?Eq, ?En, ?El. cbn -[Q2R round_num]. q2r. field. }
    assert (EB : forall s, eval s (fst (snd c)) = 1000 * (s 0%nat ^ 2 + s 1%nat ^ 2) - 4).
    { intros s. unfold c, pair2, double_translate, demo2_learned. cbn [d_ctrl d_lyap d_barr]. rewrite ?Ex, ?Edt, ?Esy, ?Er, ?Eq, ?En, ?El. cbn -[Q2R round_num]. q2r. field. }
    assert (EC : forall s, eval s (snd (snd c)) = 2000 * (- 3 * s 0%nat ^ 2 + s 0%nat * s 1%nat - s 1%nat ^ 2)).
    { intros s. unfold c, pair2, double_translate, demo2_learned. cbn [d_ctrl d_lyap d_barr]. rewrite ?Ex, ?Edt, ?Esy, ?Er, ?Eq, ?En, ?El. cbn -[Q2R round_num]. q2r. field. }
    apply C12_rar_obligations. split.
    + apply C10_rws_obligations. apply down_rws; auto. cbn [map]. now rewrite ED, EI, EU, ES, ESB, EG.
    + unfold barrier_conditions, sem, inside. rewrite ED, EG, ENF. refine (conj _ (conj _ _)); intros s HD H.
      * rewrite EB. apply disc_value in H. num H. nra.
      * rewrite EB. cbn [holds] in H. rewrite disc_value in H. num H. apply Rnot_le_lt in H. nra.
      * rewrite EB in H. rewrite EC. assert (P := pow2_ge_0 (s 0%nat - s 1%nat)). nra.
Qed.
Example ex_stable_safe : exists r, succeeds2 doc_stable_safe_test r.
Proof.
  destruct (double_session doc_stable_safe_test down_rand STABLESAFE
    [e_disc 0 0 (121#100); e_disc 0 0 (1#100); e_disc (8#10) (8#10) (1#100); FFalse; FFalse; FFalse; FFalse; FFalse]
    (fst ss_nets) (snd ss_nets)) as (pb & Es & EZ & Ex & Ty & En & El & Eq & Edt & Esy & Er); [vm_compute; reflexivity|].
  injection EZ as ED EI EU _ _ _ _ _.
  set (b := (1 # 10)%Q). set (c := pair2 pb (fst ss_nets) (snd ss_nets) b).
  refine (double_succeeds _ _ pb _ _ b (safe_roa_constraints false (new_vars 2) (pb_sets pb) b (fst (fst c)) (fst (snd c)) (snd (fst c)) (snd (snd c))) Es _ Edt _ _ _); clear Es.
  - now right.
  - intros e. unfold pair2, double_translate, demo2_learned. cbn [d_ctrl d_lyap d_barr]. rewrite ?Ex, ?Edt, ?Esy, ?Er, ?Eq, ?En, ?El. reflexivity.
  - unfold double_constraints. rewrite Ty, El, En. fold c. now destruct c as [[? ?] [? ?]].
  - assert (EV : forall s, eval s (fst (fst c)) = 10 * (s 0%nat ^ 2 + s 1%nat ^ 2)).
    { intros s. unfold c, pair2, double_translate, demo2_learned. cbn [d_ctrl d_lyap d_barr]. rewrite ?Ex, ?Edt, ?Esy, ?Er, ?Eq, ?En, ?El. cbn -[Q2R round_num]. q2r. field. }
    assert (EW : forall s, eval s (snd (fst c)) = 20 * (- 3 * s 0%nat ^ 2 + s 0%nat * s 1%nat - s 1%nat ^ 2)).
    { intros s. unfold c, pair2, double_translate, demo2_learned. cbn [d_ctrl d_lyap d_barr]. rewrite ?Ex, ?Edt, ?Esy, ?Er, ?Eq, ?En, ?El. cbn -[Q2R round_num]. q2r. field. }
    assert (EB : forall s, eval s (fst (snd c)) = 10 * (s 0%nat ^ 2 + s 1%nat ^ 2) - 5).
    { intros s. unfold c, pair2, double_translate, demo2_learned. cbn [d_ctrl d_lyap d_barr]. rewrite ?Ex, ?Edt, ?Esy, ?Er, ?Eq, ?En, ?El. cbn -[Q2R round_num]. q2r. field. }
    assert (EC : forall s, eval s (snd (snd c)) = 20 * (- 3 * s 0%nat ^ 2 + s 0%nat * s 1%nat - s 1%nat ^ 2)).
    { intros s. unfold c, pair2, double_translate, demo2_learned. cbn [d_ctrl d_lyap d_barr]. rewrite ?Ex, ?Edt, ?Esy, ?Er, ?Eq, ?En, ?El. cbn -[Q2R round_num]. q2r. field. }
    apply C12_stablesafe_obligations. split.
    + unfold roa_conditions, sem, inside. rewrite EI. replace (Q2R b) with (1/10) by (unfold b, Q2R; cbn; lra). split.
      * intros s Hs. rewrite EV. apply disc_value in Hs. num Hs. nra.
      * intros s _ Hn. rewrite EV, EW. unfold sqnorm in Hn. cbn in Hn. assert (P := pow2_ge_0 (s 0%nat - s 1%nat)). nra.
    + unfold barrier_conditions, sem, inside. rewrite ED, EI, EU. refine (conj _ (conj _ _)); intros s HD H.
      * rewrite EB. apply disc_value in H. num H. nra.
      * rewrite EB. apply disc_value in H. num H.
        assert (P1 := pow2_ge_0 (s 0%nat - 8/10)). assert (P2 := pow2_ge_0 (s 1%nat - 8/10)).
        assert (Q1 : 7/10 <= s 0%nat) by nra. assert (Q2 : 7/10 <= s 1%nat) by nra. nra.
      * rewrite EB in H. rewrite EC. assert (P := pow2_ge_0 (s 0%nat - s 1%nat)). nra.
Qed.
