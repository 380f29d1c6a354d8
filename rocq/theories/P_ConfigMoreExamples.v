(** C59: configuration files that meet every hypothesis, for discrete time, RWS and ROA. *)
From Coquelicot Require Import Coquelicot.
From Coq Require Import String Ascii Reals QArith Qreals Bool Arith ZArith Decimal Lra Lia List.
From Verif Require Import M_Syntax M_Certificates M_Verifier M_BetaSearch M_Activations M_Domains M_Network M_Learner M_Cegis M_Labels M_Fossil
  M_Control M_Parser M_Lexer M_Variables M_DomainParser M_Cli M_Config S_Verifier S_Activations S_Network S_Learner S_Cegis S_Fossil S_Dynamics S_Certificates S_Success S_Domains
  S_Parser S_Lexer S_Variables S_DomainParser S_Control S_Cli S_Config L_Success L_Demo L_Table P_Verifier P_BetaSearch P_Certificates P_Safety P_Stability P_Fossil P_TranslatorBugs P_Cli L_Session L_Regions P_Config P_ConfigExamples.
Import ListNotations.
Local Open Scope string_scope.
Local Open Scope list_scope.
Local Open Scope R_scope.

(** As [ex_doc], with the time domain and further lines. *)
Definition more_doc (cert time : string) (sections : list (string * yaml)) (data : list string) (rest : list (string * yaml)) : document :=
  [("N_VARS", YInt 1); ("SYSTEM", YList [YStr "x0 + u0"]); ("CERTIFICATE", YStr cert); ("TIME_DOMAIN", YStr time);
   ("DOMAINS", YMap sections); ("N_DATA", YMap (map (fun l => (l, YInt 100)) data));
   ("N_HIDDEN_NEURONS", YList [YInt 1]); ("ACTIVATION", YList [YStr "Square"]);
   ("CTRLAYER", YList [YInt 1; YInt 1]); ("CTRLACTIVATION", YList [YStr "LINEAR"])] ++ rest.
Definition halve_doc (cert : string) (sections : list (string * yaml)) : document := more_doc cert "Discrete" sections (map fst sections) [].
Definition ex_tree : tree := CBin OAdd (CVar VX (D0 Nil)) (CVar VU (D0 Nil)).
(** u = - x / 2 *)
Definition half_randc (k row col : nat) : Q := match k with O => 1 | _ => -1 # 2 end.
Definition half_ctrl : controller :=
  {| k_acts := [AIdentity]; k_layers := [{| weight := [[1]]%Q; bias := None |}; {| weight := [[-1 # 2]]%Q; bias := None |}] |}.
Definition half_xdot : list expr :=
  [EBin BAdd (EVar 0) (EBin BAdd (ENum 0) (EBin BMul (ENum (round_dp 5 (-1 # 2))) (EBin BAdd (ENum 0) (EBin BMul (ENum (round_dp 5 1)) (EVar 0)))))].

Definition plain (rest : list (string * yaml)) : Prop := rest = [] \/ rest = [("LLO", YBool true)].
Ltac lines H := cbn in H; repeat (destruct H as [H|H]; [try discriminate|]); try easy.

Lemma more_equations cert time d data rest : equations (more_doc cert time d data rest) [ex_tree].
Proof.
  destruct (ex_equations cert d) as (texts & _ & H). exists ["x0 + u0"]. split; [cbn; auto|].
  split; [|constructor; [|constructor]].
  - constructor; [|constructor]. unfold written. cbn [S_Parser.text app list_ascii_of_string].
    apply (spaced_cons [] _ ["x"%char; "0"%char]); [constructor|apply (tt_state (D0 Nil))|].
    apply (spaced_cons [" "%char] _ ["+"%char]); [constructor; [now left|constructor]|constructor|].
    apply (spaced_cons [" "%char] _ ["u"%char; "0"%char] _ []); [constructor; [now left|constructor]|apply (tt_input (D0 Nil))|].
    apply (spaced_nil []). constructor.
  - split; [repeat constructor|cbn; auto].
Qed.
Lemma more_inputs cert time d data rest : plain rest -> inputs_of (more_doc cert time d data rest) [ex_tree] (Some 1%nat).
Proof.
  intros P. apply (some_inputs _ _ [1%nat] 1%nat ["LINEAR"]); [cbn; auto 20|cbn; auto 20|reflexivity|lia| |].
  - intros d' H. destruct P as [-> | ->]; cbn in H.
    + destruct H as [H|[H|[]]]; [discriminate|]. injection H as <-. exists 0%nat. split; [lia|reflexivity].
    + destruct H as [H|[H|[]]]; [discriminate|]. injection H as <-. exists 0%nat. split; [lia|reflexivity].
  - intros s _ _. cbn. repeat constructor. cbn. tauto.
Qed.
Lemma more_nodup cert time d data rest : plain rest -> NoDup (map fst (more_doc cert time d data rest)).
Proof. intros [-> | ->]; repeat (constructor; [cbn; intuition discriminate|]); constructor. Qed.
Lemma more_asks cert ct time td d data rest : upper cert = certificate_name ct -> spelled time (time_name td) -> asks (more_doc cert time d data rest) ct td.
Proof.
  intros H Ht. exists cert, time. split; [cbn; auto|]. split; [apply spelled_upper; [apply certificate_capital|exact H]|].
  split; [cbn; auto|]. exact Ht.
Qed.
Lemma more_declares cert time d data rest l v g n : In (label_name l, YStr v) d -> NoDup (map fst d) ->
  region_text (list_ascii_of_string v) g -> proper n g -> declares (more_doc cert time d data rest) n l g.
Proof. intros H1 H2 H3 H4. exists d, v. split; [cbn; tauto|]. auto. Qed.
Lemma more_not_cvc5 cert time d data rest : plain rest -> not_cvc5 (more_doc cert time d data rest).
Proof. intros [-> | ->] s H; exfalso; lines H. Qed.
Lemma more_avoids cert time d data rest names : plain rest ->
  (forall w, In w names -> upper "Square" <> w /\ Forall capital (list_ascii_of_string w)) -> avoids (more_doc cert time d data rest) names.
Proof.
  intros P N v H. assert (E : v = YList [YStr "Square"]).
  { destruct P as [-> | ->]; cbn in H; repeat (destruct H as [H|H]; [try discriminate|]); try easy; now injection H as <-. }
  exists ["Square"]. split; [exact E|]. intros s w [<-|[]] Hw Sp. destruct (N w Hw) as [N1 N2].
  apply N1. now apply (spelled_upper _ _ N2).
Qed.
Lemma more_avoids_relu cert time d data rest : plain rest -> avoids (more_doc cert time d data rest) relu_names.
Proof. intros P. apply more_avoids; [exact P|]. intros w H. repeat (destruct H as [<-|H]; [split; [discriminate|capitals]|]). destruct H. Qed.
Lemma more_avoids_offset cert time d data rest : plain rest -> avoids (more_doc cert time d data rest) offset_names.
Proof. intros P. apply more_avoids; [exact P|]. intros w H. repeat (destruct H as [<-|H]; [split; [discriminate|capitals]|]). destruct H. Qed.
Lemma spelled_continuous : spelled "Continuous" (time_name CONTINUOUS).
Proof. apply spelled_upper; [apply (time_capital CONTINUOUS)|reflexivity]. Qed.
Lemma spelled_discrete : spelled "Discrete" (time_name DISCRETE).
Proof. apply spelled_upper; [apply (time_capital DISCRETE)|reflexivity]. Qed.

(** The closed loop halves the state. *)
Lemma half_loop s : system_field math 1 [ex_tree] (feedback_law 1 (Some 1%nat) half_ctrl) s 0%nat = s 0%nat / 2.
Proof.
  unfold system_field, feedback_law, feedback, neuron, weight_of, bias_of, ex_tree. cbn -[Q2R round_dp]. unfold neuron, weight_of, bias_of. cbn -[Q2R round_dp].
  replace (Q2R (round_dp 5 1)) with 1 by (unfold Q2R; vm_compute (round_dp 5 1); cbn; lra).
  replace (Q2R (round_dp 5 (-1 # 2))) with (- / 2) by (unfold Q2R; vm_compute (round_dp 5 (-1 # 2)); cbn; lra). lra.
Qed.
Lemma half_runs : run 1 (system_field math 1 [ex_tree] (feedback_law 1 (Some 1%nat) half_ctrl)) (fun k _ => / 2 ^ k).
Proof.
  intros k j Hj. replace j with 0%nat by lia. rewrite half_loop. cbn [pow]. rewrite Rinv_mult_distr; [lra|lra|apply pow_nonzero; lra].
Qed.
Lemma half_pow_le k : 0 < / 2 ^ k <= 1.
Proof.
  assert (1 <= 2 ^ k) by (apply pow_R1_Rle; lra). split; [apply Rinv_0_lt_compat; lra|].
  rewrite <- Rinv_1. apply Rinv_le_contravar; lra.
Qed.

(** ** Safety in discrete time *)
Definition alt_doc : document := halve_doc "BarrierAlt"
  [("XD", YStr "Sphere([0], 3)"); ("XI", YStr "Sphere([0], 1)"); ("XU", YStr "Rectangle([2], [3])")].
Lemma alt_session : exists pb, session_of math 100 100 ex_rand half_randc alt_doc = Some (pb, bar_net, half_ctrl) /\
  pb_sets pb XD = ball_fml 9 /\ pb_sets pb XI = ball_fml 1 /\ pb_sets pb XU = box_fml 2 3 /\ pb_xdot pb half_ctrl = Some half_xdot /\
  pb_type pb = BARRIERALT /\ pb_n pb = 1%nat /\ pb_llo pb = false /\ pb_quad pb = false /\ pb_discrete pb = true /\ pb_symb pb = SZ3 /\ pb_rounding pb = 3%Z.
Proof.
  destruct (session_get (session_of math 100 100 ex_rand half_randc alt_doc) summary
    (bar_net, half_ctrl, (ball_fml 9, ball_fml 1, box_fml 2 3), Some half_xdot, (BARRIERALT, 1%nat, false, false, true, SZ3, 3%Z)))
    as (pb & net & ctrl & E1 & E2); [vm_compute; reflexivity|].
  unfold summary in E2. injection E2 as -> -> H. exists pb. split; [exact E1|]. intuition congruence.
Qed.
Lemma alt_nodup : NoDup (map fst [("XD", YStr "Sphere([0], 3)"); ("XI", YStr "Sphere([0], 1)"); ("XU", YStr "Rectangle([2], [3])")]).
Proof. repeat (constructor; [cbn; intuition discriminate|]). constructor. Qed.

Example C59_safety_discrete_example : exists pb env r gd gi gu,
  NoDup (map fst alt_doc) /\ session_of math 100 100 ex_rand half_randc alt_doc = Some (pb, bar_net, half_ctrl) /\
  usual math /\ dimension alt_doc 1 /\ equations alt_doc [ex_tree] /\ inputs_of alt_doc [ex_tree] (Some 1%nat) /\
  lawful pb env /\ keeps_controller env /\ honest pb env /\
  run_fossil pb env 1 bar_net half_ctrl [] = Some (Some r) /\ r_res r = true /\ asks alt_doc BARRIERALT DISCRETE /\
  declares alt_doc 1 XI gi /\ declares alt_doc 1 XU gu /\ declares alt_doc 1 XD gd /\
  exists x, run 1 (system_field math 1 [ex_tree] (feedback_law 1 (Some 1%nat) (l_ctrl (r_learned r)))) x /\
    in_region gi (x 0%nat) /\ (forall k, in_region gd (x k)) /\ exists s, in_region gd s /\ in_region gu s.
Proof.
  destruct alt_session as (pb & Es & ED & EI & EU & Ex & Ty & En & El & Eq & Edt & Esy & Er).
  set (V := fst (match fossil_translate pb (demo_env (fun _ _ => Unknown) 0 0) 0 (demo_learned pb bar_net half_ctrl 0) with Some p => p | None => (ENum 0, ENum 0) end)).
  set (W := snd (match fossil_translate pb (demo_env (fun _ _ => Unknown) 0 0) 0 (demo_learned pb bar_net half_ctrl 0) with Some p => p | None => (ENum 0, ENum 0) end)).
  assert (Et : forall e, fossil_translate pb (demo_env e 0 0) 0 (demo_learned pb bar_net half_ctrl 0) = Some (V, W)).
  { intros e. unfold V, W, fossil_translate, demo_learned. cbn [l_ctrl l_net]. rewrite Ex, Edt, Esy, Er, Eq, En, El. reflexivity. }
  assert (EV : forall s, eval s V = s 0%nat ^ 2 - 2).
  { intros s. unfold V, fossil_translate, demo_learned. cbn [l_ctrl l_net]. rewrite Ex, Edt, Esy, Er, Eq, En, El.
    cbn -[Q2R round_num]. q2r. field. }
  assert (EW : forall s, eval s W = - (3 / 4) * s 0%nat ^ 2).
  { intros s. unfold W, fossil_translate, demo_learned. cbn [l_ctrl l_net]. rewrite Ex, Edt, Esy, Er, Eq, En, El.
    cbn -[Q2R round_num]. q2r. field. }
  destruct (demo_success_ctrl pb 0 bar_net half_ctrl V W (barrier_alt_constraints (pb_sets pb) V W)) as (env & H1 & H2 & H2' & H3).
  - rewrite El. reflexivity.
  - exact Et.
  - unfold fossil_constraints. now rewrite Ty.
  - apply (C01_certificate_labels_distinct false (new_vars 1) (pb_sets pb) 0 V V W W).
  - apply C09_barrier_alt_obligations. unfold barrier_alt_conditions, sem, inside. rewrite ED, EI, EU.
    repeat split; intros s HD; [intros H|intros H|]; rewrite ?EW, ?EV; rewrite ?ball_holds, ?box_holds in *; q2r_in HD; try q2r_in H; nra.
  - rewrite Ty. discriminate.
  - exists pb, env, (demo_result pb bar_net half_ctrl 0 V W), (zero_to three), (zero_to one), (Box [two] [three]).
    split; [apply more_nodup; now left|]. split; [exact Es|]. split; [apply math_usual|]. split; [cbn; auto|].
    split; [apply more_equations|]. split; [apply more_inputs; now left|]. split; [exact H1|].
    split; [intros n m it p S Sdot Hw; now rewrite H2'|]. split; [exact H2|]. split; [exact H3|]. split; [reflexivity|].
    split; [apply more_asks; [reflexivity|apply spelled_discrete]|].
    split; [|split; [|split]].
    + eapply more_declares; [cbn; eauto|exact alt_nodup|apply (ball_text "0" "1"); cbn; lia|split; [reflexivity|fold one; rewrite one_1; lra]].
    + eapply more_declares; [cbn; eauto|exact alt_nodup|apply (box_text "2" "3"); cbn; lia|split; reflexivity].
    + eapply more_declares; [cbn; eauto|exact alt_nodup|apply (ball_text "0" "3"); cbn; lia|split; [reflexivity|fold three; rewrite three_3; lra]].
    + exists (fun k _ => / 2 ^ k). split; [exact half_runs|]. rewrite one_1, two_2, three_3.
      split; [apply in_ball; [lra|]; pose proof (half_pow_le 0); lra|]. split.
      * intros k. apply in_ball; [lra|]. pose proof (half_pow_le k). lra.
      * exists (fun _ => 2). split; [apply in_ball; lra|]. intros [|k] Hk; cbn in *; [lra|lia].
Qed.

(** ** Convergence in discrete time *)
Definition disc_doc : document := halve_doc "Lyapunov" [("XD", YStr "Sphere([0], 3)")].
Lemma disc_session : exists pb, session_of math 100 100 ex_rand half_randc disc_doc = Some (pb, lya_net, half_ctrl) /\
  pb_sets pb XD = ball_fml 9 /\ pb_xdot pb half_ctrl = Some half_xdot /\
  pb_type pb = LYAPUNOV /\ pb_n pb = 1%nat /\ pb_llo pb = false /\ pb_quad pb = false /\ pb_discrete pb = true /\ pb_symb pb = SZ3 /\ pb_rounding pb = 3%Z.
Proof.
  destruct (session_get (session_of math 100 100 ex_rand half_randc disc_doc) summary
    (lya_net, half_ctrl, (ball_fml 9, FFalse, FFalse), Some half_xdot, (LYAPUNOV, 1%nat, false, false, true, SZ3, 3%Z)))
    as (pb & net & ctrl & E1 & E2); [vm_compute; reflexivity|].
  unfold summary in E2. injection E2 as -> -> H. exists pb. split; [exact E1|]. intuition congruence.
Qed.
Example C59_convergence_example : exists pb env r gd,
  NoDup (map fst disc_doc) /\ session_of math 100 100 ex_rand half_randc disc_doc = Some (pb, lya_net, half_ctrl) /\
  usual math /\ dimension disc_doc 1 /\ equations disc_doc [ex_tree] /\ inputs_of disc_doc [ex_tree] (Some 1%nat) /\
  lawful pb env /\ keeps_controller env /\ honest pb env /\
  run_fossil pb env 1 lya_net half_ctrl [] = Some (Some r) /\ r_res r = true /\
  asks disc_doc LYAPUNOV DISCRETE /\ avoids disc_doc offset_names /\
  (forall s, gives disc_doc "FACTORS" (YStr s) -> ~ spelled s "QUADRATIC") /\ (forall v, gives disc_doc "LLO" v -> v = YBool false) /\
  declares disc_doc 1 XD gd /\ Forall everywhere [ex_tree] /\
  let loop := system_field math 1 [ex_tree] (feedback_law 1 (Some 1%nat) (l_ctrl (r_learned r))) in
  (forall s, origin 1 s -> forall j, (j < 1)%nat -> loop s j = 0) /\
  exists x, run 1 loop x /\ (forall k, in_region gd (x k)) /\ forall k, ~ origin 1 (x k).
Proof.
  destruct disc_session as (pb & Es & ED & Ex & Ty & En & El & Eq & Edt & Esy & Er).
  set (V := fst (match fossil_translate pb (demo_env (fun _ _ => Unknown) 0 0) 0 (demo_learned pb lya_net half_ctrl 0) with Some p => p | None => (ENum 0, ENum 0) end)).
  set (W := snd (match fossil_translate pb (demo_env (fun _ _ => Unknown) 0 0) 0 (demo_learned pb lya_net half_ctrl 0) with Some p => p | None => (ENum 0, ENum 0) end)).
  assert (Et : forall e, fossil_translate pb (demo_env e 0 0) 0 (demo_learned pb lya_net half_ctrl 0) = Some (V, W)).
  { intros e. unfold V, W, fossil_translate, demo_learned. cbn [l_ctrl l_net]. rewrite Ex, Edt, Esy, Er, Eq, En, El. reflexivity. }
  assert (EV : forall s, eval s V = s 0%nat ^ 2).
  { intros s. unfold V, fossil_translate, demo_learned. cbn [l_ctrl l_net]. rewrite Ex, Edt, Esy, Er, Eq, En, El.
    cbn -[Q2R round_num]. q2r. field. }
  assert (EW : forall s, eval s W = - (3 / 4) * s 0%nat ^ 2).
  { intros s. unfold W, fossil_translate, demo_learned. cbn [l_ctrl l_net]. rewrite Ex, Edt, Esy, Er, Eq, En, El.
    cbn -[Q2R round_num]. q2r. field. }
  destruct (demo_success_ctrl pb 0 lya_net half_ctrl V W (lyapunov_constraints false (new_vars 1) (pb_sets pb) V W)) as (env & H1 & H2 & H2' & H3).
  - rewrite El. reflexivity.
  - exact Et.
  - unfold fossil_constraints. now rewrite Ty, El, En.
  - apply (C01_certificate_labels_distinct false (new_vars 1) (pb_sets pb) 0 V V W W).
  - apply C06_lyapunov_obligations. intros s Hs Ho. unfold sem. rewrite EV, EW.
    assert (0 < s 0%nat ^ 2).
    { apply pow2_gt_0. intros E. apply Ho. intros k Hk. replace k with 0%nat by lia. exact E. }
    split; [intros _|]; lra.
  - rewrite Ty. discriminate.
  - exists pb, env, (demo_result pb lya_net half_ctrl 0 V W), (zero_to three).
    split; [apply more_nodup; now left|]. split; [exact Es|]. split; [apply math_usual|]. split; [cbn; auto|].
    split; [apply more_equations|]. split; [apply more_inputs; now left|]. split; [exact H1|].
    split; [intros n m it p S Sdot Hw; now rewrite H2'|]. split; [exact H2|]. split; [exact H3|]. split; [reflexivity|].
    split; [apply more_asks; [reflexivity|apply spelled_discrete]|]. split; [apply more_avoids_offset; now left|].
    split; [intros v H; exfalso; lines H|]. split; [intros v H; exfalso; lines H|].
    split.
    { eapply more_declares; [cbn; eauto| |apply (ball_text "0" "3"); cbn; lia|split; [reflexivity|fold three; rewrite three_3; lra]].
      repeat constructor. cbn. tauto. }
    split; [repeat constructor|]. cbn zeta. cbn [r_learned demo_result l_ctrl demo_learned]. split.
    + intros s Ho j Hj. replace j with 0%nat by lia. rewrite half_loop, (Ho 0%nat) by lia. lra.
    + exists (fun k _ => / 2 ^ k). split; [exact half_runs|]. rewrite three_3. split.
      * intros k. apply in_ball; [lra|]. pose proof (half_pow_le k). lra.
      * intros k Ho. specialize (Ho 0%nat ltac:(lia)). cbn beta in Ho. pose proof (half_pow_le k). lra.
Qed.

(** ** Reaching a goal *)
Definition reach_sections : list (string * yaml) :=
  [("XD", YStr "Sphere([0], 4)"); ("XI", YStr "Sphere([0], 2)"); ("XS", YStr "Sphere([0], 3)"); ("XG", YStr "Sphere([0], 1)")].
Definition reach_doc : document := more_doc "RWS" "Continuous" reach_sections ["XD"; "XI"; "XU"] [].
Definition stay_doc : document := more_doc "RSWS" "Continuous" reach_sections ["XD"; "XI"; "XU"; "XS"; "XG"; "XG_BORDER"] [].
(** The network 100000 (x^2 - 5): the search for the level succeeds at its first guess. *)
Definition big_rand (k row col : nat) : Q := match k, row with O, O => 0 | O, _ => 1 | _, O => -500000 # 1 | _, _ => 100000 end.
Definition big_net : network :=
  {| in_size := 1; hidden := [({| weight := [[1]]%Q; bias := Some [0]%Q |}, ASquare)];
     last := {| weight := [[100000]]%Q; bias := Some [-500000 # 1]%Q |} |}.
Definition sphere_fml (q : Q) : fml := FCmp CEq (EBin BAdd (ENum 0) (EPow (EBin BSub (EVar 0) (ENum 0)) 2)) (ENum q).
Lemma sphere_holds q s : holds s (sphere_fml q) <-> s 0%nat ^ 2 = Q2R q.
Proof. unfold sphere_fml. cbn -[Q2R]. rewrite ?Q2R_0. split; intros H; nra. Qed.
Definition first_guess : Q := ((1000 + -1000000) / 2)%Q.
Lemma first_guess_value : Q2R first_guess = -499500.
Proof. unfold first_guess, Q2R. cbn. lra. Qed.
Definition reach_parts (x : problem controller * network * controller) :=
  let '(pb, net, ctrl) := x in
  (net, ctrl, map (pb_sets pb) [XD; XI; XS; XG; XS_BORDER], pb_xdot pb ctrl,
   (pb_type pb, pb_n pb, pb_llo pb, pb_quad pb, pb_discrete pb, pb_symb pb, pb_rounding pb)).

Lemma reach_runs pb : pb_sets pb XD = ball_fml 16 -> pb_sets pb XI = ball_fml 4 -> pb_sets pb XS = ball_fml 9 -> pb_sets pb XG = ball_fml 1 ->
  pb_sets pb XS_BORDER = sphere_fml 9 -> pb_xdot pb ex_ctrl = Some ex_xdot -> pb_n pb = 1%nat -> pb_llo pb = false -> pb_quad pb = false ->
  pb_discrete pb = false -> pb_symb pb = SZ3 -> pb_rounding pb = 3%Z ->
  pb_type pb = RWS \/ (pb_type pb = RSWS /\ pb_sets pb XG_BORDER = sphere_fml 1) ->
  exists env r, lawful pb env /\ keeps_controller env /\ honest pb env /\
    run_fossil pb env 1 big_net ex_ctrl [] = Some (Some r) /\ r_res r = true /\ l_ctrl (r_learned r) = ex_ctrl /\
    (pb_type pb = RSWS -> forall it V Vdot, stay_sound (e_solver env it) (pb_sets pb) V Vdot).
Proof.
  intros ED EI ES EG EB Ex En El Eq Edt Esy Er Ty.
  set (V := fst (match fossil_translate pb (demo_env (fun _ _ => Unknown) 0 0) 0 (demo_learned pb big_net ex_ctrl 0) with Some p => p | None => (ENum 0, ENum 0) end)).
  set (W := snd (match fossil_translate pb (demo_env (fun _ _ => Unknown) 0 0) 0 (demo_learned pb big_net ex_ctrl 0) with Some p => p | None => (ENum 0, ENum 0) end)).
  assert (Et : forall e f, fossil_translate pb (demo_env e f 0) 0 (demo_learned pb big_net ex_ctrl 0) = Some (V, W)).
  { intros e f. unfold V, W, fossil_translate, demo_learned. cbn [l_ctrl l_net]. rewrite Ex, Edt, Esy, Er, Eq, En, El. reflexivity. }
  assert (EV : forall s, eval s V = 100000 * (s 0%nat ^ 2 - 5)).
  { intros s. unfold V, fossil_translate, demo_learned. cbn [l_ctrl l_net]. rewrite Ex, Edt, Esy, Er, Eq, En, El.
    cbn -[Q2R round_num]. q2r. field. }
  assert (EW : forall s, eval s W = - 200000 * s 0%nat ^ 2).
  { intros s. unfold W, fossil_translate, demo_learned. cbn [l_ctrl l_net]. rewrite Ex, Edt, Esy, Er, Eq, En, El.
    cbn -[Q2R round_num]. q2r. field. }
  clearbody V W.
  assert (Hr : refuted (rws_constraints (pb_sets pb) V W)).
  { apply C10_rws_obligations. unfold rws_conditions, sem, inside. rewrite ED, EI, ES, EG, EB. split; [|split].
    - intros s _ H. rewrite EV. rewrite ball_holds in H. q2r_in H. lra.
    - intros s _ H. rewrite EV. rewrite sphere_holds in H. q2r_in H. lra.
    - intros s _ H _. rewrite EW. rewrite ball_holds in H. q2r_in H. lra. }
  assert (Hg : fossil_constraints pb 0 V W = Some (rws_constraints (pb_sets pb) V W)).
  { unfold fossil_constraints. destruct Ty as [-> | [-> _]]; reflexivity. }
  assert (Hd : distinct_labels (rws_constraints (pb_sets pb) V W)) by apply (C01_certificate_labels_distinct false (new_vars 1) (pb_sets pb) 0 V V W W).
  set (known := map snd (concat (rws_constraints (pb_sets pb) V W)) ++
    (match pb_type pb with RSWS => [stay_border_condition (pb_sets pb) V first_guess; stay_lie_condition (pb_sets pb) V W first_guess] | _ => [] end)).
  assert (Hu : unsat_sound (fun _ => table known)).
  { intros k. apply table_sound. intros f Hf. unfold known in Hf. apply in_app_iff in Hf. destruct Hf as [Hf|Hf].
    - apply in_map_iff in Hf. destruct Hf as ([l f'] & <- & Hf). apply in_concat in Hf. destruct Hf as (g & Hg' & Hf). exact (Hr g l _ Hg' Hf).
    - destruct Ty as [Ty | [Ty EGB]]; rewrite Ty in Hf; [destruct Hf|].
      assert (H : stay_conditions (pb_sets pb) (Q2R first_guess) (sem V) (sem W)).
      { unfold stay_conditions, sem, inside. rewrite first_guess_value, ES, EG, EGB. split.
        - intros s H. rewrite EV. rewrite sphere_holds in H. q2r_in H. lra.
        - intros s H K. rewrite EW. rewrite EV in K. rewrite !ball_holds in *. q2r_in H. q2r_in K.
          destruct (Rlt_le_dec (100000 * (s 0%nat ^ 2 - 5)) (-499500)) as [L|L]; [|lra]. exfalso. apply K. split; [lra|exact L]. }
      apply stay_conditions_iff in H. destruct H as [H K], Hf as [<-|[<-|[]]]; assumption. }
  exists (demo_env (fun _ => table known) 1 0), (demo_result pb big_net ex_ctrl 0 V W).
  split; [apply demo_lawful|]. split; [intros n m it p S Sdot Hw; exact Hw|]. split; [now apply demo_honest|]. split; [|split; [reflexivity|split; [reflexivity|]]].
  - apply (demo_run pb _ 1 0 big_net ex_ctrl V W (rws_constraints (pb_sets pb) V W)); auto.
    + rewrite El. reflexivity.
    + intros k f Hf. apply table_hit. unfold known. apply in_app_iff. now left.
    + intros E. exists first_guess. unfold beta_search, beta_loop. cbv zeta. fold first_guess.
      unfold stay_in_goal_check. cbn [b_solve smt_backend].
      rewrite !table_hit by (unfold known; rewrite E; apply in_app_iff; right; cbn; auto). reflexivity.
  - intros _ it V' W'. apply backend_sound_stay. cbn [e_solver demo_env]. now apply smt_backend_sound.
Qed.

Lemma reach_session : exists pb, session_of math 100 100 big_rand ex_randc reach_doc = Some (pb, big_net, ex_ctrl) /\
  pb_type pb = RWS /\ exists env r, lawful pb env /\ keeps_controller env /\ honest pb env /\
    run_fossil pb env 1 big_net ex_ctrl [] = Some (Some r) /\ r_res r = true /\ l_ctrl (r_learned r) = ex_ctrl.
Proof.
  destruct (session_get (session_of math 100 100 big_rand ex_randc reach_doc) reach_parts
    (big_net, ex_ctrl, [ball_fml 16; ball_fml 4; ball_fml 9; ball_fml 1; sphere_fml 9], Some ex_xdot, (RWS, 1%nat, false, false, false, SZ3, 3%Z)))
    as (pb & net & ctrl & E1 & E2); [vm_compute; reflexivity|].
  unfold reach_parts in E2. injection E2 as -> -> H1 H2 H3 H4 H5 H6 H7 H8 H9 H10 H11 H12 H13. exists pb. split; [exact E1|]. split; [assumption|].
  destruct (reach_runs pb) as (env & r & K); auto. exists env, r. tauto.
Qed.
Lemma stay_session : exists pb, session_of math 100 100 big_rand ex_randc stay_doc = Some (pb, big_net, ex_ctrl) /\
  pb_type pb = RSWS /\ exists env r, lawful pb env /\ keeps_controller env /\ honest pb env /\
    run_fossil pb env 1 big_net ex_ctrl [] = Some (Some r) /\ r_res r = true /\ l_ctrl (r_learned r) = ex_ctrl /\
    forall it V Vdot, stay_sound (e_solver env it) (pb_sets pb) V Vdot.
Proof.
  destruct (session_get (session_of math 100 100 big_rand ex_randc stay_doc) (fun x => (reach_parts x, pb_sets (fst (fst x)) XG_BORDER))
    (big_net, ex_ctrl, [ball_fml 16; ball_fml 4; ball_fml 9; ball_fml 1; sphere_fml 9], Some ex_xdot, (RSWS, 1%nat, false, false, false, SZ3, 3%Z), sphere_fml 1))
    as (pb & net & ctrl & E1 & E2); [vm_compute; reflexivity|].
  unfold reach_parts in E2. cbn [fst] in E2. injection E2 as -> -> H1 H2 H3 H4 H5 H6 H7 H8 H9 H10 H11 H12 H13 H14. exists pb. split; [exact E1|]. split; [assumption|].
  destruct (reach_runs pb) as (env & r & K); auto. exists env, r. tauto.
Qed.
Definition four : R := 1 * (digit_value "4" * 1 + 0).
Lemma four_4 : four = 4. Proof. unfold four, digit_value. change (nat_of_ascii "4" - 48)%nat with 4%nat. cbn [INR]. lra. Qed.
Lemma reach_declares cert time data : let doc := more_doc cert time reach_sections data [] in
  declares doc 1 XI (zero_to two) /\ declares doc 1 XS (zero_to three) /\ declares doc 1 XG (zero_to one) /\ declares doc 1 XD (zero_to four).
Proof.
  cbv zeta. assert (Nd : NoDup (map fst reach_sections)) by (repeat (constructor; [cbn; intuition discriminate|]); constructor).
  split; [|split; [|split]].
  - eapply more_declares; [cbn; eauto|exact Nd|apply (ball_text "0" "2"); cbn; lia|split; [reflexivity|fold two; rewrite two_2; lra]].
  - eapply more_declares; [cbn; eauto|exact Nd|apply (ball_text "0" "3"); cbn; lia|split; [reflexivity|fold three; rewrite three_3; lra]].
  - eapply more_declares; [cbn; eauto|exact Nd|apply (ball_text "0" "1"); cbn; lia|split; [reflexivity|fold one; rewrite one_1; lra]].
  - eapply more_declares; [cbn; eauto|exact Nd|apply (ball_text "0" "4"); cbn; lia|split; [reflexivity|fold four; rewrite four_4; lra]].
Qed.
Lemma reach_nested : (forall x, in_region (zero_to two) x -> in_region (zero_to three) x) /\
  (forall x, in_region (zero_to three) x -> in_region (zero_to four) x) /\ (forall x, in_region (zero_to one) x -> in_region (zero_to three) x).
Proof. rewrite one_1, two_2, three_3, four_4. repeat split; intros x H; apply in_ball in H; try lra; apply in_ball; lra. Qed.
Lemma reach_motion : exists x, solves_forever 1 (system_field math 1 [ex_tree] (feedback_law 1 (Some 1%nat) ex_ctrl)) x /\
  in_region (zero_to two) (x 0) /\ ~ in_region (zero_to one) (x 0).
Proof.
  exists (fun t _ => 2 * exp (- t)). rewrite two_2, one_1. split; [|split].
  - intros t Ht j Hj. replace j with 0%nat by lia. unfold ex_tree. rewrite ex_loop. auto_derive; auto; ring.
  - apply in_ball; [lra|]. rewrite Ropp_0, exp_0. lra.
  - intros H. apply in_ball in H; [|lra]. rewrite Ropp_0, exp_0 in H. lra.
Qed.

Example C59_reach_while_stay_example : exists pb env r gi gs gg gd,
  NoDup (map fst reach_doc) /\ session_of math 100 100 big_rand ex_randc reach_doc = Some (pb, big_net, ex_ctrl) /\
  usual math /\ dimension reach_doc 1 /\ equations reach_doc [ex_tree] /\ inputs_of reach_doc [ex_tree] (Some 1%nat) /\
  lawful pb env /\ keeps_controller env /\ honest pb env /\
  run_fossil pb env 1 big_net ex_ctrl [] = Some (Some r) /\ r_res r = true /\
  asks reach_doc RWS CONTINUOUS /\ not_cvc5 reach_doc /\ avoids reach_doc relu_names /\
  (declares reach_doc 1 XI gi /\ declares reach_doc 1 XS gs /\ declares reach_doc 1 XG gg /\ declares reach_doc 1 XD gd) /\
  (forall x, in_region gi x -> in_region gs x) /\ (forall x, in_region gs x -> in_region gd x) /\
  exists x, solves_forever 1 (system_field math 1 [ex_tree] (feedback_law 1 (Some 1%nat) (l_ctrl (r_learned r)))) x /\
    in_region gi (x 0) /\ ~ in_region gg (x 0).
Proof.
  destruct reach_session as (pb & Es & Ty & env & r & H1 & H2 & H3 & H4 & H5 & H6).
  destruct reach_nested as (N1 & N2 & N3).
  exists pb, env, r, (zero_to two), (zero_to three), (zero_to one), (zero_to four).
  split; [apply more_nodup; now left|]. split; [exact Es|]. split; [apply math_usual|]. split; [cbn; auto|].
  split; [apply more_equations|]. split; [apply more_inputs; now left|]. repeat (split; [assumption|]).
  split; [apply more_asks; [reflexivity|apply spelled_continuous]|]. split; [apply more_not_cvc5; now left|].
  split; [apply more_avoids_relu; now left|]. split; [apply reach_declares|]. split; [exact N1|]. split; [exact N2|].
  rewrite H6. apply reach_motion.
Qed.
Example C59_reach_and_stay_example : exists pb env r gi gs gg gd,
  NoDup (map fst stay_doc) /\ session_of math 100 100 big_rand ex_randc stay_doc = Some (pb, big_net, ex_ctrl) /\
  usual math /\ dimension stay_doc 1 /\ equations stay_doc [ex_tree] /\ inputs_of stay_doc [ex_tree] (Some 1%nat) /\
  lawful pb env /\ keeps_controller env /\ honest pb env /\
  run_fossil pb env 1 big_net ex_ctrl [] = Some (Some r) /\ r_res r = true /\
  asks stay_doc RSWS CONTINUOUS /\ not_cvc5 stay_doc /\ avoids stay_doc relu_names /\
  (forall it V Vdot, stay_sound (e_solver env it) (pb_sets pb) V Vdot) /\
  (declares stay_doc 1 XI gi /\ declares stay_doc 1 XS gs /\ declares stay_doc 1 XG gg /\ declares stay_doc 1 XD gd) /\
  (forall x, in_region gi x -> in_region gs x) /\ (forall x, in_region gs x -> in_region gd x) /\
  (forall x, in_region gg x -> in_region gs x) /\
  exists x, solves_forever 1 (system_field math 1 [ex_tree] (feedback_law 1 (Some 1%nat) (l_ctrl (r_learned r)))) x /\
    in_region gi (x 0) /\ ~ in_region gg (x 0).
Proof.
  destruct stay_session as (pb & Es & Ty & env & r & H1 & H2 & H3 & H4 & H5 & H6 & H7).
  destruct reach_nested as (N1 & N2 & N3).
  exists pb, env, r, (zero_to two), (zero_to three), (zero_to one), (zero_to four).
  split; [apply more_nodup; now left|]. split; [exact Es|]. split; [apply math_usual|]. split; [cbn; auto|].
  split; [apply more_equations|]. split; [apply more_inputs; now left|]. repeat (split; [assumption|]).
  split; [apply more_asks; [reflexivity|apply spelled_continuous]|]. split; [apply more_not_cvc5; now left|].
  split; [apply more_avoids_relu; now left|]. split; [exact H7|]. split; [apply reach_declares|]. split; [exact N1|]. split; [exact N2|]. split; [exact N3|].
  rewrite H6. apply reach_motion.
Qed.

(** ** Attraction *)
Definition roa_doc : document := more_doc "ROA" "Continuous" [("XD", YStr "Sphere([0], 3)"); ("XI", YStr "Sphere([0], 1)")] ["XD"; "XI"] [("LLO", YBool true)].
Lemma roa_session : exists pb, session_of math 100 100 ex_rand ex_randc roa_doc = Some (pb, lya_net, ex_ctrl) /\
  pb_sets pb XI = ball_fml 1 /\ pb_xdot pb ex_ctrl = Some ex_xdot /\
  pb_type pb = ROA /\ pb_n pb = 1%nat /\ pb_llo pb = true /\ pb_quad pb = false /\ pb_discrete pb = false /\ pb_symb pb = SZ3 /\ pb_rounding pb = 3%Z.
Proof.
  destruct (session_get (session_of math 100 100 ex_rand ex_randc roa_doc) (fun x => let '(pb, net, ctrl) := x in
      (net, ctrl, pb_sets pb XI, pb_xdot pb ctrl, (pb_type pb, pb_n pb, pb_llo pb, pb_quad pb, pb_discrete pb, pb_symb pb, pb_rounding pb)))
    (lya_net, ex_ctrl, ball_fml 1, Some ex_xdot, (ROA, 1%nat, true, false, false, SZ3, 3%Z)))
    as (pb & net & ctrl & E1 & E2); [vm_compute; reflexivity|].
  injection E2 as -> -> H. exists pb. split; [exact E1|]. intuition congruence.
Qed.
Example C59_attraction_example : exists pb env r gi V Vdot rad,
  NoDup (map fst roa_doc) /\ session_of math 100 100 ex_rand ex_randc roa_doc = Some (pb, lya_net, ex_ctrl) /\
  usual math /\ dimension roa_doc 1 /\ equations roa_doc [ex_tree] /\ inputs_of roa_doc [ex_tree] (Some 1%nat) /\
  lawful pb env /\ keeps_controller env /\ honest pb env /\
  run_fossil pb env 1 lya_net ex_ctrl [] = Some (Some r) /\ r_res r = true /\
  asks roa_doc ROA CONTINUOUS /\ not_cvc5 roa_doc /\ avoids roa_doc relu_names /\ gives roa_doc "LLO" (YBool true) /\
  declares roa_doc 1 XI gi /\ Forall everywhere [ex_tree] /\ r_symbolic r = Some (V, Vdot) /\
  bounded_by 1 rad (fun s => sem V s <= 11/10 * Q2R (l_beta (r_learned r))) /\
  exists x, solves_forever 1 (system_field math 1 [ex_tree] (feedback_law 1 (Some 1%nat) (l_ctrl (r_learned r)))) x /\
    in_region gi (x 0) /\ outside_ball 1 (1/2) (x 0).
Proof.
  destruct roa_session as (pb & Es & EI & Ex & Ty & En & El & Eq & Edt & Esy & Er).
  set (V := fst (match fossil_translate pb (demo_env (fun _ _ => Unknown) 0 1) 0 (demo_learned pb lya_net ex_ctrl 1) with Some p => p | None => (ENum 0, ENum 0) end)).
  set (W := snd (match fossil_translate pb (demo_env (fun _ _ => Unknown) 0 1) 0 (demo_learned pb lya_net ex_ctrl 1) with Some p => p | None => (ENum 0, ENum 0) end)).
  assert (Et : forall e, fossil_translate pb (demo_env e 0 1) 0 (demo_learned pb lya_net ex_ctrl 1) = Some (V, W)).
  { intros e. unfold V, W, fossil_translate, demo_learned. cbn [l_ctrl l_net]. rewrite Ex, Edt, Esy, Er, Eq, En, El. reflexivity. }
  assert (EV : forall s, eval s V = s 0%nat ^ 2).
  { intros s. unfold V, fossil_translate, demo_learned. cbn [l_ctrl l_net]. rewrite Ex, Edt, Esy, Er, Eq, En, El.
    cbn -[Q2R round_num]. q2r. field. }
  assert (EW : forall s, eval s W = - 2 * s 0%nat ^ 2).
  { intros s. unfold W, fossil_translate, demo_learned. cbn [l_ctrl l_net]. rewrite Ex, Edt, Esy, Er, Eq, En, El.
    cbn -[Q2R round_num]. q2r. field. }
  clearbody V W.
  destruct (demo_success_ctrl pb 1 lya_net ex_ctrl V W (roa_constraints true (new_vars 1) (pb_sets pb) 1 V W)) as (env & H1 & H2 & H2' & H3).
  - rewrite El. reflexivity.
  - exact Et.
  - unfold fossil_constraints. now rewrite Ty, El, En.
  - apply (C01_certificate_labels_distinct true (new_vars 1) (pb_sets pb) 1 V V W W).
  - apply C07_roa_obligations. unfold roa_conditions, sem, inside. rewrite EI. split.
    + intros s H. rewrite EV. rewrite ball_holds in H. q2r_in H. q2r. lra.
    + intros s _ H. rewrite EW. cbn [sqnorm] in H. nra.
  - rewrite Ty. discriminate.
  - exists pb, env, (demo_result pb lya_net ex_ctrl 1 V W), (zero_to one), V, W, 2.
    split; [apply more_nodup; now right|]. split; [exact Es|]. split; [apply math_usual|]. split; [cbn; auto|].
    split; [apply more_equations|]. split; [apply more_inputs; now right|]. split; [exact H1|].
    split; [intros n m it p S Sdot Hw; now rewrite H2'|]. split; [exact H2|]. split; [exact H3|]. split; [reflexivity|].
    split; [apply more_asks; [reflexivity|apply spelled_continuous]|]. split; [apply more_not_cvc5; now right|].
    split; [apply more_avoids_relu; now right|]. split; [cbn; auto 20|]. split.
    { eapply more_declares; [cbn; eauto| |apply (ball_text "0" "1"); cbn; lia|split; [reflexivity|fold one; rewrite one_1; lra]].
      repeat (constructor; [cbn; intuition discriminate|]). constructor. }
    split; [repeat constructor|]. split; [reflexivity|]. cbn [r_learned demo_result demo_learned l_beta l_ctrl]. split.
    + split; [lra|]. intros s H i Hi. replace i with 0%nat by lia. unfold sem in H. rewrite EV in H. q2r_in H. nra.
    + exists (fun t _ => exp (- t)). split; [exact ex_solution|]. rewrite one_1, Ropp_0, exp_0. split; [apply in_ball; lra|].
      unfold outside_ball. cbn [sqnorm]. lra.
Qed.
