(** C59 for two certificates: configuration files that meet every hypothesis. *)
From Coquelicot Require Import Coquelicot.
From Coq Require Import String Ascii Reals QArith Qreals Bool Arith ZArith Decimal Lra Lia List.
From Verif Require Import M_Syntax M_Certificates M_Verifier M_BetaSearch M_Activations M_Domains M_Network M_Learner M_Cegis M_Labels M_Fossil M_Double
  M_Control M_Parser M_Lexer M_Variables M_DomainParser M_Cli M_Config S_Verifier S_Activations S_Network S_Learner S_Cegis S_Fossil S_Double S_Dynamics S_Certificates S_Success S_Domains
  S_Parser S_Lexer S_Variables S_DomainParser S_Control S_Cli S_Config L_Table L_Success L_Demo P_Verifier P_Examples P_Certificates P_Safety P_Stability P_Fossil P_FossilExamples P_TranslatorBugs P_Cli L_Session L_Regions P_Config
  P_ConfigExamples P_Double P_DoubleExamples P_ConfigDouble.
Import ListNotations.
Local Open Scope string_scope.
Local Open Scope list_scope.
Local Open Scope R_scope.

Definition ex2_doc (cert : string) (llo : bool) (sections : list (string * yaml)) (names : list string) : document :=
  [("N_VARS", YInt 1); ("SYSTEM", YList [YStr "x0 + u0"]); ("CERTIFICATE", YStr cert); ("TIME_DOMAIN", YStr "Continuous");
   ("DOMAINS", YMap sections); ("N_DATA", YMap (map (fun s => (s, YInt 100)) names));
   ("N_HIDDEN_NEURONS", YList [YInt 1]); ("ACTIVATION", YList [YStr "Square"]);
   ("N_HIDDEN_NEURONS_ALT", YList [YInt 1]); ("ACTIVATION_ALT", YList [YStr "Square"]); ("LLO", YBool llo);
   ("CTRLAYER", YList [YInt 1; YInt 1]); ("CTRLACTIVATION", YList [YStr "LINEAR"])].
Definition ss_doc : document := ex2_doc "StableSafe" true
  [("XD", YStr "Sphere([0], 3)"); ("XI", YStr "Sphere([0], 1)"); ("XU", YStr "Rectangle([2], [3])")] ["XD"; "XI"; "XU"].
Definition rar_doc : document := ex2_doc "RAR" false
  [("XD", YStr "Sphere([0], 4)"); ("XI", YStr "Sphere([0], 2)"); ("XS", YStr "Sphere([0], 3)"); ("XG", YStr "Sphere([0], 1)"); ("XF", YStr "Sphere([0], 2)")] ["XD"; "XI"; "XU"; "XG"; "XF"; "XNF"].
Definition ex_rand5 (k row col : nat) : Q := match k, row with O, O => 0 | _, O => -5 | _, _ => 1 end.
Definition summary2 (x : problem controller * network * network * controller) :=
  let '(pb, net, net2, ctrl) := x in
  (net, net2, ctrl, (pb_sets pb XD, pb_sets pb XI, pb_sets pb XU, pb_sets pb XS, pb_sets pb XS_BORDER, pb_sets pb XG, pb_sets pb XF, pb_sets pb XNF),
   pb_xdot pb ctrl,
   (pb_type pb, pb_n pb, pb_llo pb, pb_quad pb, pb_discrete pb, pb_symb pb, pb_rounding pb)).
Definition five_net : network :=
  {| in_size := 1; hidden := [({| weight := [[1]]%Q; bias := Some [0]%Q |}, ASquare)]; last := {| weight := [[1]]%Q; bias := Some [-5]%Q |} |}.
Definition circle_fml (q : Q) : fml := FCmp CEq (EBin BAdd (ENum 0) (EPow (EBin BSub (EVar 0) (ENum 0)) 2)) (ENum q).
Lemma circle_holds q s : holds s (circle_fml q) <-> s 0%nat ^ 2 = Q2R q.
Proof. unfold circle_fml. cbn -[Q2R]. rewrite ?Q2R_0. split; intros H; nra. Qed.
Lemma session2_get {A B C D E} (o : option (A * B * C * D)) (f : A * B * C * D -> E) d :
  option_map f o = Some d -> exists pb net net2 ctrl, o = Some (pb, net, net2, ctrl) /\ f (pb, net, net2, ctrl) = d.
Proof. destruct o as [[[[pb net] net2] ctrl]|]; [|discriminate]. intros [= <-]. eauto 10. Qed.

Definition ex2_tree : tree := CBin OAdd (CVar VX (D0 Nil)) (CVar VU (D0 Nil)).
Lemma ex2_equations cert l d a : equations (ex2_doc cert l d a) [ex2_tree].
Proof.
  destruct (ex_equations cert d) as (lines & G & H). exists lines. split; [|exact H].
  cbn in G |- *. intuition congruence.
Qed.
Lemma ex2_inputs cert l d a : inputs_of (ex2_doc cert l d a) [ex2_tree] (Some 1%nat).
Proof.
  apply (some_inputs _ _ [1%nat] 1%nat ["LINEAR"]); [cbn; auto 20|cbn; auto 20|reflexivity|lia| |].
  - intros d' H. cbn in H. destruct H as [H|[H|[]]]; [discriminate|]. injection H as <-. exists 0%nat. split; [lia|reflexivity].
  - intros s _ _. cbn. repeat constructor. cbn. tauto.
Qed.
Lemma ex2_nodup cert l d a : NoDup (map fst (ex2_doc cert l d a)).
Proof. repeat (constructor; [cbn; intuition discriminate|]). constructor. Qed.
Lemma ex2_asks cert ct l d a : upper cert = certificate_name ct -> asks (ex2_doc cert l d a) ct CONTINUOUS.
Proof.
  intros H. exists cert, "Continuous". split; [cbn; auto|]. split; [apply spelled_upper; [apply certificate_capital|exact H]|].
  split; [cbn; auto|]. apply spelled_upper; [apply (time_capital CONTINUOUS)|reflexivity].
Qed.
Lemma ex2_declares cert llo d a l v g n : In (label_name l, YStr v) d -> NoDup (map fst d) ->
  region_text (list_ascii_of_string v) g -> proper n g -> declares (ex2_doc cert llo d a) n l g.
Proof. intros H1 H2 H3 H4. exists d, v. split; [cbn; tauto|]. auto. Qed.
Lemma ex2_not_cvc5 cert l d a : not_cvc5 (ex2_doc cert l d a).
Proof. intros s H. exfalso. cbn in H. repeat (destruct H as [H|H]; [discriminate|]). exact H. Qed.
Lemma ex2_avoids cert l d a field : field = "ACTIVATION" \/ field = "ACTIVATION_ALT" -> avoids_in (ex2_doc cert l d a) field relu_names.
Proof.
  intros F v H. assert (v = YList [YStr "Square"]) as ->.
  { destruct F; subst field; cbn in H; repeat (destruct H as [H|H]; [try discriminate; try (injection H as <-; reflexivity)|]); easy. }
  exists ["Square"]. split; [reflexivity|]. intros s w [<-|[]] Hw Sp.
  repeat (destruct Hw as [<-|Hw]; [apply spelled_upper in Sp; [discriminate Sp|capitals]|]). destruct Hw.
Qed.

Lemma ss_session : exists pb, session2_of math 100 100 ex_rand ex_rand ex_randc ss_doc = Some (pb, lya_net, bar_net, ex_ctrl) /\
  pb_sets pb XD = ball_fml 9 /\ pb_sets pb XI = ball_fml 1 /\ pb_sets pb XU = box_fml 2 3 /\ pb_xdot pb ex_ctrl = Some ex_xdot /\
  pb_type pb = STABLESAFE /\ pb_n pb = 1%nat /\ pb_llo pb = true /\ pb_quad pb = false /\ pb_discrete pb = false /\ pb_symb pb = SZ3 /\ pb_rounding pb = 3%Z.
Proof.
  destruct (session2_get (session2_of math 100 100 ex_rand ex_rand ex_randc ss_doc) summary2
    (lya_net, bar_net, ex_ctrl, (ball_fml 9, ball_fml 1, box_fml 2 3, FFalse, FFalse, FFalse, FFalse, FFalse), Some ex_xdot,
     (STABLESAFE, 1%nat, true, false, false, SZ3, 3%Z)))
    as (pb & net & net2 & ctrl & E1 & E2); [vm_compute; reflexivity|].
  unfold summary2 in E2. injection E2 as -> -> -> H. exists pb. split; [exact E1|]. intuition congruence.
Qed.
Lemma rar_session : exists pb, session2_of math 100 100 ex_rand5 ex_rand ex_randc rar_doc = Some (pb, five_net, bar_net, ex_ctrl) /\
  pb_sets pb XD = ball_fml 16 /\ pb_sets pb XI = ball_fml 4 /\ pb_sets pb XS = ball_fml 9 /\ pb_sets pb XS_BORDER = circle_fml 9 /\
  pb_sets pb XG = ball_fml 1 /\ pb_sets pb XF = ball_fml 4 /\ pb_sets pb XNF = FNot (ball_fml 4) /\ pb_xdot pb ex_ctrl = Some ex_xdot /\
  pb_type pb = RAR /\ pb_n pb = 1%nat /\ pb_llo pb = false /\ pb_quad pb = false /\ pb_discrete pb = false /\ pb_symb pb = SZ3 /\ pb_rounding pb = 3%Z.
Proof.
  destruct (session2_get (session2_of math 100 100 ex_rand5 ex_rand ex_randc rar_doc) summary2
    (five_net, bar_net, ex_ctrl, (ball_fml 16, ball_fml 4, FFalse, ball_fml 9, circle_fml 9, ball_fml 1, ball_fml 4, FNot (ball_fml 4)), Some ex_xdot,
     (RAR, 1%nat, false, false, false, SZ3, 3%Z)))
    as (pb & net & net2 & ctrl & E1 & E2); [vm_compute; reflexivity|].
  unfold summary2 in E2. injection E2 as -> -> -> H. exists pb. split; [exact E1|]. intuition congruence.
Qed.

Lemma demo2_success_ctrl {K} (pb : problem K) b n1 n2 ctrl c gs :
  pb_type pb = RAR \/ pb_type pb = STABLESAFE -> pb_discrete pb = false ->
  (forall e, double_translate pb (demo2_env e b) 0 (demo2_learned pb n1 n2 ctrl b) = Some c) ->
  double_constraints pb b c = Some gs -> refuted gs ->
  exists env, lawful2 env /\ honest2 pb env /\ decisive env /\ (forall it p S Sdot, e2_ctrl env it p S Sdot = d_ctrl p) /\
    run_double pb env 1 n1 n2 ctrl [] = Some (Some (demo2_result pb n1 n2 ctrl b c)).
Proof.
  intros Hty Hdi Ht Hg Hr.
  exists (demo2_env (fun _ => refuter (map snd (concat gs))) b). split; [apply demo2_lawful|]. split; [|split; [|split]].
  - apply demo2_honest. apply refuter_sound. intros f Hf.
    apply in_map_iff in Hf. destruct Hf as ([l f'] & <- & Hf). apply in_concat in Hf. destruct Hf as (g & Hg' & Hf).
    exact (Hr g l _ Hg' Hf).
  - intros it k f. cbn. unfold refuter. now destruct (in_dec fml_dec f _).
  - reflexivity.
  - apply (demo2_run pb _ b n1 n2 ctrl c gs); auto. intros k f Hf. now apply refuter_hit.
Qed.

Definition demo2_pair' (pb : problem controller) (n1 n2 : network) (b : Q) : candidate2 :=
  match double_translate pb (demo2_env (fun _ _ => Unknown) b) 0 (demo2_learned pb n1 n2 ex_ctrl b) with
  | Some c => c | None => ((ENum 0, ENum 0), (ENum 0, ENum 0)) end.

Example C59_stable_safe_example : exists pb env r gd gi gu V Vdot B Bdot,
  NoDup (map fst ss_doc) /\ session2_of math 100 100 ex_rand ex_rand ex_randc ss_doc = Some (pb, lya_net, bar_net, ex_ctrl) /\
  usual math /\ dimension ss_doc 1 /\ equations ss_doc [ex2_tree] /\ inputs_of ss_doc [ex2_tree] (Some 1%nat) /\
  lawful2 env /\ keeps_controller2 env /\ honest2 pb env /\
  run_double pb env 1 lya_net bar_net ex_ctrl [] = Some (Some r) /\ r_res r = true /\
  asks ss_doc STABLESAFE CONTINUOUS /\ not_cvc5 ss_doc /\ avoids ss_doc relu_names /\ avoids_alt ss_doc relu_names /\
  decisive env /\ gives ss_doc "LLO" (YBool true) /\
  declares ss_doc 1 XI gi /\ declares ss_doc 1 XU gu /\ declares ss_doc 1 XD gd /\ Forall everywhere [ex2_tree] /\
  r_symbolic r = Some ((V, Vdot), (B, Bdot)) /\
  bounded_by 1 2 (fun s => sem V s <= 11/10 * Q2R (d_beta (r_learned r))) /\
  exists x, solves_forever 1 (system_field math 1 [ex2_tree] (feedback_law 1 (Some 1%nat) (d_ctrl (r_learned r)))) x /\
    in_region gi (x 0) /\ (forall t, 0 <= t -> in_region gd (x t)) /\ exists s, in_region gd s /\ in_region gu s.
Proof.
  destruct ss_session as (pb & Es & ED & EI & EU & Ex & Ty & En & El & Eq & Edt & Esy & Er).
  set (c := demo2_pair' pb lya_net bar_net 1).
  assert (Et : forall e, double_translate pb (demo2_env e 1) 0 (demo2_learned pb lya_net bar_net ex_ctrl 1) = Some c).
  { intros e. unfold c, demo2_pair', double_translate, demo2_learned. cbn [d_ctrl d_lyap d_barr]. rewrite ?Ex, ?Esy, ?Er, ?Eq, ?En, ?El. reflexivity. }
  assert (EV : forall s, eval s (fst (fst c)) = s 0%nat ^ 2).
  { intros s. unfold c, demo2_pair', double_translate, demo2_learned. cbn [d_ctrl d_lyap d_barr]. rewrite ?Ex, ?Esy, ?Er, ?Eq, ?En, ?El.
    cbn -[Q2R round_num]. q2r. field. }
  assert (EW : forall s, eval s (snd (fst c)) = - 2 * s 0%nat ^ 2).
  { intros s. unfold c, demo2_pair', double_translate, demo2_learned. cbn [d_ctrl d_lyap d_barr]. rewrite ?Ex, ?Esy, ?Er, ?Eq, ?En, ?El.
    cbn -[Q2R round_num]. q2r. field. }
  assert (EB : forall s, eval s (fst (snd c)) = s 0%nat ^ 2 - 2).
  { intros s. unfold c, demo2_pair', double_translate, demo2_learned. cbn [d_ctrl d_lyap d_barr]. rewrite ?Ex, ?Esy, ?Er, ?Eq, ?En, ?El.
    cbn -[Q2R round_num]. q2r. field. }
  assert (EC : forall s, eval s (snd (snd c)) = - 2 * s 0%nat ^ 2).
  { intros s. unfold c, demo2_pair', double_translate, demo2_learned. cbn [d_ctrl d_lyap d_barr]. rewrite ?Ex, ?Esy, ?Er, ?Eq, ?En, ?El.
    cbn -[Q2R round_num]. q2r. field. }
  assert (E1 : Q2R 1 = 1) by (unfold Q2R; simpl; lra).
  destruct (demo2_success_ctrl pb 1 lya_net bar_net ex_ctrl c
     (safe_roa_constraints true (new_vars 1) (pb_sets pb) 1 (fst (fst c)) (fst (snd c)) (snd (fst c)) (snd (snd c)))) as (env & H1 & H2 & H3 & H3' & H4).
  - now right.
  - exact Edt.
  - exact Et.
  - unfold double_constraints. rewrite Ty, El, En. now destruct c as [[? ?] [? ?]].
  - apply C12_stablesafe_obligations. split.
    + unfold roa_conditions, sem, inside. rewrite EI. split.
      * intros s HI. rewrite EV, E1. rewrite ball_holds in HI. q2r_in HI. lra.
      * intros s HL Ho. rewrite EW. unfold sqnorm in Ho. simpl in Ho |- *. nra.
    + unfold barrier_conditions, sem, inside. rewrite ED, EI, EU.
      repeat split; intros s HD H; rewrite ?EC; rewrite EB in *; rewrite ?ball_holds, ?box_holds in *; q2r_in HD; try q2r_in H; nra.
  - exists pb, env, (demo2_result pb lya_net bar_net ex_ctrl 1 c), (zero_to three), (zero_to one), (Box [two] [three]),
      (fst (fst c)), (snd (fst c)), (fst (snd c)), (snd (snd c)).
    split; [apply ex2_nodup|]. split; [exact Es|]. split; [apply math_usual|]. split; [cbn; auto|].
    split; [apply ex2_equations|]. split; [apply ex2_inputs|]. split; [exact H1|].
    split; [intros n m it p S Sdot Hw; now rewrite H3'|]. split; [exact H2|]. split; [exact H4|]. split; [reflexivity|].
    split; [now apply ex2_asks|]. split; [apply ex2_not_cvc5|]. split; [apply ex2_avoids; auto|]. split; [apply ex2_avoids; auto|].
    split; [exact H3|]. split; [cbn; auto 20|].
    assert (N3 : NoDup ["XD"; "XI"; "XU"]) by (repeat (constructor; [cbn; intuition discriminate|]); constructor).
    split; [|split; [|split; [|split; [|split; [|split]]]]].
    + eapply ex2_declares; [cbn; eauto|exact N3|apply (ball_text "0" "1"); cbn; lia|split; [reflexivity|fold one; rewrite one_1; lra]].
    + eapply ex2_declares; [cbn; eauto|exact N3|apply (box_text "2" "3"); cbn; lia|].
      split; [reflexivity|reflexivity].
    + eapply ex2_declares; [cbn; eauto|exact N3|apply (ball_text "0" "3"); cbn; lia|split; [reflexivity|fold three; rewrite three_3; lra]].
    + repeat constructor.
    + cbn [r_symbolic demo2_result]. now destruct c as [[? ?] [? ?]].
    + split; [lra|]. intros s Hs i Hi. replace i with 0%nat by lia. unfold sem in Hs. rewrite EV in Hs.
      cbn [r_learned demo2_result demo2_learned d_beta] in Hs. rewrite E1 in Hs. split; nra.
    + exists (fun t _ => exp (- t)). split; [exact ex_solution|].
      rewrite one_1, three_3. split; [apply in_ball; [lra|]; rewrite Ropp_0, exp_0; lra|]. split.
      * intros t Ht. apply in_ball; [lra|]. assert (0 < exp (- t)) by apply exp_pos.
        assert (exp (- t) <= 1); [|lra]. rewrite <- exp_0. destruct (Req_dec t 0) as [-> |]; [rewrite Ropp_0; lra|]. left. apply exp_increasing. lra.
      * exists (fun _ => 2). split; [apply in_ball; lra|]. rewrite two_2. intros k Hk. cbn in Hk. replace k with 0%nat by lia. cbn. lra.
Qed.

Definition four : R := 1 * (digit_value "4" * 1 + 0).
Lemma four_4 : four = 4. Proof. unfold four, digit_value. change (nat_of_ascii "4" - 48)%nat with 4%nat. cbn [INR]. lra. Qed.
Example C59_reach_avoid_remain_example : exists pb env r gi gs gg gf gd,
  NoDup (map fst rar_doc) /\ session2_of math 100 100 ex_rand5 ex_rand ex_randc rar_doc = Some (pb, five_net, bar_net, ex_ctrl) /\
  usual math /\ dimension rar_doc 1 /\ equations rar_doc [ex2_tree] /\ inputs_of rar_doc [ex2_tree] (Some 1%nat) /\
  lawful2 env /\ keeps_controller2 env /\ honest2 pb env /\
  run_double pb env 1 five_net bar_net ex_ctrl [] = Some (Some r) /\ r_res r = true /\
  asks rar_doc RAR CONTINUOUS /\ not_cvc5 rar_doc /\ avoids rar_doc relu_names /\ avoids_alt rar_doc relu_names /\
  declares rar_doc 1 XI gi /\ declares rar_doc 1 XS gs /\ declares rar_doc 1 XG gg /\ declares rar_doc 1 XF gf /\ declares rar_doc 1 XD gd /\
  (forall x, in_region gi x -> in_region gs x) /\ (forall x, in_region gs x -> in_region gd x) /\
  exists x, solves_forever 1 (system_field math 1 [ex2_tree] (feedback_law 1 (Some 1%nat) (d_ctrl (r_learned r)))) x /\
    in_region gi (x 0) /\ ~ in_region gg (x 0).
Proof.
  destruct rar_session as (pb & Es & ED & EI & ES & ESB & EG & EF & ENF & Ex & Ty & En & El & Eq & Edt & Esy & Er).
  set (c := demo2_pair' pb five_net bar_net 0).
  assert (Et : forall e, double_translate pb (demo2_env e 0) 0 (demo2_learned pb five_net bar_net ex_ctrl 0) = Some c).
  { intros e. unfold c, demo2_pair', double_translate, demo2_learned. cbn [d_ctrl d_lyap d_barr]. rewrite ?Ex, ?Esy, ?Er, ?Eq, ?En, ?El. reflexivity. }
  assert (EV : forall s, eval s (fst (fst c)) = s 0%nat ^ 2 - 5).
  { intros s. unfold c, demo2_pair', double_translate, demo2_learned. cbn [d_ctrl d_lyap d_barr]. rewrite ?Ex, ?Esy, ?Er, ?Eq, ?En, ?El.
    cbn -[Q2R round_num]. q2r. field. }
  assert (EW : forall s, eval s (snd (fst c)) = - 2 * s 0%nat ^ 2).
  { intros s. unfold c, demo2_pair', double_translate, demo2_learned. cbn [d_ctrl d_lyap d_barr]. rewrite ?Ex, ?Esy, ?Er, ?Eq, ?En, ?El.
    cbn -[Q2R round_num]. q2r. field. }
  assert (EB : forall s, eval s (fst (snd c)) = s 0%nat ^ 2 - 2).
  { intros s. unfold c, demo2_pair', double_translate, demo2_learned. cbn [d_ctrl d_lyap d_barr]. rewrite ?Ex, ?Esy, ?Er, ?Eq, ?En, ?El.
    cbn -[Q2R round_num]. q2r. field. }
  assert (EC : forall s, eval s (snd (snd c)) = - 2 * s 0%nat ^ 2).
  { intros s. unfold c, demo2_pair', double_translate, demo2_learned. cbn [d_ctrl d_lyap d_barr]. rewrite ?Ex, ?Esy, ?Er, ?Eq, ?En, ?El.
    cbn -[Q2R round_num]. q2r. field. }
  assert (E1 : Q2R 1 = 1) by (unfold Q2R; simpl; lra).
  assert (E4 : Q2R 4 = 4) by (unfold Q2R; simpl; lra).
  assert (E9 : Q2R 9 = 9) by (unfold Q2R; simpl; lra).
  destruct (demo2_success_ctrl pb 0 five_net bar_net ex_ctrl c
     (rar_constraints (pb_sets pb) (fst (fst c)) (fst (snd c)) (snd (fst c)) (snd (snd c)))) as (env & H1 & H2 & H3 & H3' & H4).
  - now left.
  - exact Edt.
  - exact Et.
  - unfold double_constraints. rewrite Ty. now destruct c as [[? ?] [? ?]].
  - apply C12_rar_obligations. unfold rws_conditions, barrier_conditions, sem, inside. rewrite ED, EI, ES, ESB, EG, ENF. split; [split; [|split]|split; [|split]].
    + intros s HD HI. rewrite EV. rewrite ball_holds, E4 in HI. lra.
    + intros s HD HI. rewrite EV. rewrite circle_holds, E9 in HI. lra.
    + intros s HS HG HC. rewrite EW. rewrite ball_holds, E1 in HG. lra.
    + intros s HD HI. rewrite EB. rewrite ball_holds, E1 in HI. lra.
    + intros s HD HI. rewrite EB. cbn [holds] in HI. rewrite ball_holds, E4 in HI. lra.
    + intros s HD HI. rewrite EB in HI. rewrite EC. lra.
  - exists pb, env, (demo2_result pb five_net bar_net ex_ctrl 0 c), (zero_to two), (zero_to three), (zero_to one), (zero_to two), (zero_to four).
    split; [apply ex2_nodup|]. split; [exact Es|]. split; [apply math_usual|]. split; [cbn; auto|].
    split; [apply ex2_equations|]. split; [apply ex2_inputs|]. split; [exact H1|].
    split; [intros n m it p S Sdot Hw; now rewrite H3'|]. split; [exact H2|]. split; [exact H4|]. split; [reflexivity|].
    split; [now apply ex2_asks|]. split; [apply ex2_not_cvc5|]. split; [apply ex2_avoids; auto|]. split; [apply ex2_avoids; auto|].
    assert (N3 : NoDup ["XD"; "XI"; "XS"; "XG"; "XF"]) by (repeat (constructor; [cbn; intuition discriminate|]); constructor).
    split; [eapply ex2_declares; [cbn; eauto|exact N3|apply (ball_text "0" "2"); cbn; lia|split; [reflexivity|fold two; rewrite two_2; lra]]|].
    split; [eapply ex2_declares; [cbn; eauto|exact N3|apply (ball_text "0" "3"); cbn; lia|split; [reflexivity|fold three; rewrite three_3; lra]]|].
    split; [eapply ex2_declares; [cbn; eauto|exact N3|apply (ball_text "0" "1"); cbn; lia|split; [reflexivity|fold one; rewrite one_1; lra]]|].
    split; [eapply ex2_declares; [cbn; eauto 10|exact N3|apply (ball_text "0" "2"); cbn; lia|split; [reflexivity|fold two; rewrite two_2; lra]]|].
    split; [eapply ex2_declares; [cbn; eauto|exact N3|apply (ball_text "0" "4"); cbn; lia|split; [reflexivity|fold four; rewrite four_4; lra]]|].
    rewrite ?one_1, ?two_2, ?three_3, ?four_4.
    split; [intros x; rewrite !in_ball by lra; lra|]. split; [intros x; rewrite !in_ball by lra; lra|].
    exists (fun t _ => 2 * exp (- t)). split; [|rewrite !in_ball by lra; rewrite Ropp_0, exp_0; lra].
    intros t Ht j Hj. replace j with 0%nat by lia. cbv beta. unfold ex2_tree.
    cbn [d_ctrl r_learned demo2_result demo2_learned]. rewrite ex_loop. auto_derive; auto; ring.
Qed.
