(** C59: configuration files that meet every hypothesis, and the README's choice of XD. *)
From Coquelicot Require Import Coquelicot.
From Coq Require Import String Ascii Reals QArith Qreals Bool Arith ZArith Decimal Lra Lia List.
From Verif Require Import M_Syntax M_Certificates M_Verifier M_BetaSearch M_Activations M_Domains M_Network M_Learner M_Cegis M_Labels M_Fossil
  M_Control M_Parser M_Lexer M_Variables M_DomainParser M_Cli M_Config S_Verifier S_Activations S_Network S_Learner S_Cegis S_Fossil S_Dynamics S_Certificates S_Success S_Domains
  S_Parser S_Lexer S_Variables S_DomainParser S_Control S_Cli S_Config L_Success L_Demo P_Verifier P_Certificates P_Safety P_Stability P_Fossil P_TranslatorBugs P_Cli L_Session L_Regions P_Config.
Import ListNotations.
Local Open Scope string_scope.
Local Open Scope list_scope.
Local Open Scope R_scope.

(** x' = x + u with a network feedback. *)
Definition ex_doc (cert : string) (sections : list (string * yaml)) : document :=
  [("N_VARS", YInt 1); ("SYSTEM", YList [YStr "x0 + u0"]); ("CERTIFICATE", YStr cert); ("TIME_DOMAIN", YStr "Continuous");
   ("DOMAINS", YMap sections); ("N_DATA", YMap (map (fun p => (fst p, YInt 100)) sections));
   ("N_HIDDEN_NEURONS", YList [YInt 1]); ("ACTIVATION", YList [YStr "Square"]);
   ("CTRLAYER", YList [YInt 1; YInt 1]); ("CTRLACTIVATION", YList [YStr "LINEAR"])].
Definition barrier_doc : document := ex_doc "Barrier"
  [("XD", YStr "Sphere([0], 3)"); ("XI", YStr "Sphere([0], 1)"); ("XU", YStr "Rectangle([2], [3])")].
Definition lyapunov_doc : document := ex_doc "Lyapunov" [("XD", YStr "Sphere([0], 3)")].
(** The networks: x^2 - 2 (x^2 without biases) and u = -2 x. *)
Definition ex_rand (k row col : nat) : Q := match k, row with O, O => 0 | _, O => -2 | _, _ => 1 end.
Definition ex_randc (k row col : nat) : Q := match k with O => 1 | _ => -2 end.

Definition math : interp :=
  {| i_var := fun _ _ => 0; i_pow := fun x y => x ^ Z.to_nat (Int_part y);
     i_fun := fun f => match f with FSin => sin | FCos => cos | FExp => exp | FLog => ln | FTanh => tanh | FSqrt => sqrt end |}.
Lemma math_usual : usual math.
Proof.
  repeat split. intros x k. cbn. rewrite Int_part_INR, Nat2Z.id. reflexivity.
Qed.

Definition got {A B C} (o : option (A * B * C)) : Prop := match o with Some _ => True | None => False end.
Lemma session_get {A B C D} (o : option (A * B * C)) (f : A * B * C -> D) d :
  option_map f o = Some d -> exists pb net ctrl, o = Some (pb, net, ctrl) /\ f (pb, net, ctrl) = d.
Proof. destruct o as [[[pb net] ctrl]|]; [|discriminate]. intros [= <-]. eauto. Qed.

Definition summary (x : problem controller * network * controller) :=
  let '(pb, net, ctrl) := x in
  (net, ctrl, (pb_sets pb XD, pb_sets pb XI, pb_sets pb XU), pb_xdot pb ctrl,
   (pb_type pb, pb_n pb, pb_llo pb, pb_quad pb, pb_discrete pb, pb_symb pb, pb_rounding pb)).
Definition ex_ctrl : controller :=
  {| k_acts := [AIdentity]; k_layers := [{| weight := [[1]]%Q; bias := None |}; {| weight := [[-2]]%Q; bias := None |}] |}.
Definition ball_fml (q : Q) : fml := FCmp CLe (EBin BAdd (ENum 0) (EPow (EBin BSub (EVar 0) (ENum 0)) 2)) (ENum q).
Definition bar_net : network :=
  {| in_size := 1; hidden := [({| weight := [[1]]%Q; bias := Some [0]%Q |}, ASquare)]; last := {| weight := [[1]]%Q; bias := Some [-2]%Q |} |}.

Definition lya_net : network :=
  {| in_size := 1; hidden := [({| weight := [[1]]%Q; bias := None |}, ASquare)]; last := {| weight := [[1]]%Q; bias := None |} |}.
Definition box_fml (a b : Q) : fml :=
  FAnd (FAnd (FCmp CLe (ENum a) (EVar 0)) FTrue) (FAnd (FAnd (FCmp CLe (EVar 0) (ENum b)) FTrue) FTrue).

(** ** The text of the file *)
Lemma ex_equations cert d : equations (ex_doc cert d) [CBin OAdd (CVar VX (D0 Nil)) (CVar VU (D0 Nil))].
Proof.
  exists ["x0 + u0"]. split; [cbn; auto|]. split; [|constructor; [|constructor]].
  - constructor; [|constructor]. unfold written. cbn [S_Parser.text app list_ascii_of_string].
    apply (spaced_cons [] _ ["x"%char; "0"%char]); [constructor|apply (tt_state (D0 Nil))|].
    apply (spaced_cons [" "%char] _ ["+"%char]); [constructor; [now left|constructor]|constructor|].
    apply (spaced_cons [" "%char] _ ["u"%char; "0"%char] _ []); [constructor; [now left|constructor]|apply (tt_input (D0 Nil))|].
    apply (spaced_nil []). constructor.
  - split; [repeat constructor|cbn; auto].
Qed.
Lemma ex_inputs cert d : inputs_of (ex_doc cert d) [CBin OAdd (CVar VX (D0 Nil)) (CVar VU (D0 Nil))] (Some 1%nat).
Proof.
  apply (some_inputs _ _ [1%nat] 1%nat ["LINEAR"]); [cbn; auto 20|cbn; auto 20|reflexivity|lia| |].
  - intros d' H. cbn in H. destruct H as [H|[H|[]]]; [discriminate|]. injection H as <-. exists 0%nat. split; [lia|reflexivity].
  - intros s _ _. cbn. repeat constructor. cbn. tauto.
Qed.
Lemma ex_nodup cert d : NoDup (map fst (ex_doc cert d)).
Proof. repeat (constructor; [cbn; intuition discriminate|]). constructor. Qed.
Lemma ex_asks cert ct d : upper cert = certificate_name ct -> asks (ex_doc cert d) ct CONTINUOUS.
Proof.
  intros H. exists cert, "Continuous". split; [cbn; auto|]. split; [apply spelled_upper; [apply certificate_capital|exact H]|].
  split; [cbn; auto|]. apply spelled_upper; [apply (time_capital CONTINUOUS)|reflexivity].
Qed.
Lemma digit_one c : (48 <= nat_of_ascii c <= 57)%nat -> number_text [c] (1 * (digit_value c * 1 + 0)).
Proof. intros H. apply (integer_text [] 1 [c]); [constructor|]. split; [discriminate|]. constructor; auto. Qed.
Lemma ball_text (c r : ascii) : (48 <= nat_of_ascii c <= 57)%nat -> (48 <= nat_of_ascii r <= 57)%nat ->
  region_text (list_ascii_of_string ("Sphere([" ++ String c ("], " ++ String r ")"))) (Ball [1 * (digit_value c * 1 + 0)] (1 * (digit_value r * 1 + 0))).
Proof.
  intros Hc Hr. eapply (sphere_text ("["%char :: c :: ["]"%char]) _ (" "%char :: [r])).
  - exists [], [c], []. repeat split; try constructor. refine (one_number [] [c] _ [] _ (digit_one c Hc) _); constructor.
  - refine (one_number [" "%char] [r] _ [] _ (digit_one r Hr) _); [constructor; [now left|constructor]|constructor].
  - exists [], [], []. repeat split; constructor.
Qed.
Lemma box_text (l h : ascii) : (48 <= nat_of_ascii l <= 57)%nat -> (48 <= nat_of_ascii h <= 57)%nat ->
  region_text (list_ascii_of_string ("Rectangle([" ++ String l ("], [" ++ String h "])"))) (Box [1 * (digit_value l * 1 + 0)] [1 * (digit_value h * 1 + 0)]).
Proof.
  intros Hl Hh. eapply (rectangle_text ("["%char :: l :: ["]"%char]) _ (" "%char :: "["%char :: h :: ["]"%char])).
  - exists [], [l], []. repeat split; try constructor. refine (one_number [] [l] _ [] _ (digit_one l Hl) _); constructor.
  - exists [" "%char], [h], []. repeat split; try (constructor; [now left|constructor]); try constructor.
    refine (one_number [] [h] _ [] _ (digit_one h Hh) _); constructor.
  - exists [], [], []. repeat split; constructor.
Qed.

Definition zero_to (r : R) : region := Ball [1 * (digit_value "0" * 1 + 0)] r.
Definition three : R := 1 * (digit_value "3" * 1 + 0).
Definition one : R := 1 * (digit_value "1" * 1 + 0).
Definition two : R := 1 * (digit_value "2" * 1 + 0).
Lemma three_3 : three = 3. Proof. unfold three, digit_value. change (nat_of_ascii "3" - 48)%nat with 3%nat. cbn [INR]. lra. Qed.
Lemma one_1 : one = 1. Proof. unfold one, digit_value. change (nat_of_ascii "1" - 48)%nat with 1%nat. cbn [INR]. lra. Qed.
Lemma two_2 : two = 2. Proof. unfold two, digit_value. change (nat_of_ascii "2" - 48)%nat with 2%nat. cbn [INR]. lra. Qed.
Lemma zero_0 : 1 * (digit_value "0" * 1 + 0) = 0. Proof. unfold digit_value. change (nat_of_ascii "0" - 48)%nat with 0%nat. cbn [INR]. lra. Qed.
Lemma in_ball r s : 0 <= r -> (in_region (zero_to r) s <-> - r <= s 0%nat <= r).
Proof.
  intros Hr. unfold zero_to. rewrite zero_0. cbn [in_region]. unfold distance. cbn [length sum_below nth].
  replace (0 + (s 0%nat - 0) ^ 2) with (Rsqr (s 0%nat)) by (unfold Rsqr; ring). rewrite sqrt_Rsqr_abs. apply Rabs_le_between.
Qed.
Lemma ex_declares cert d l v g n : In (label_name l, YStr v) d -> NoDup (map fst d) ->
  region_text (list_ascii_of_string v) g -> proper n g -> declares (ex_doc cert d) n l g.
Proof. intros H1 H2 H3 H4. exists d, v. split; [cbn; tauto|]. auto. Qed.
Lemma ex_not_cvc5 cert d : not_cvc5 (ex_doc cert d).
Proof. intros s H. exfalso. cbn in H. repeat (destruct H as [H|H]; [discriminate|]). exact H. Qed.
Lemma ex_avoids cert d names : (forall w, In w names -> upper "Square" <> w /\ Forall capital (list_ascii_of_string w)) -> avoids (ex_doc cert d) names.
Proof.
  intros N v H. cbn in H. repeat (destruct H as [H|H]; [try discriminate|]); try easy. injection H as <-.
  exists ["Square"]. split; [reflexivity|]. intros s w [<-|[]] Hw Sp. destruct (N w Hw) as [N1 N2].
  apply N1. now apply (spelled_upper _ _ N2).
Qed.
Lemma ex_avoids_relu cert d : avoids (ex_doc cert d) relu_names.
Proof. apply ex_avoids. intros w H. repeat (destruct H as [<-|H]; [split; [discriminate|capitals]|]). destruct H. Qed.
Lemma ex_avoids_offset cert d : avoids (ex_doc cert d) offset_names.
Proof. apply ex_avoids. intros w H. repeat (destruct H as [<-|H]; [split; [discriminate|capitals]|]). destruct H. Qed.

(** ** Safety *)
Definition ex_xdot : list expr :=
  [EBin BAdd (EVar 0) (EBin BAdd (ENum 0) (EBin BMul (ENum (round_dp 5 (-2))) (EBin BAdd (ENum 0) (EBin BMul (ENum (round_dp 5 1)) (EVar 0)))))].
Lemma ex_loop s : system_field math 1 [CBin OAdd (CVar VX (D0 Nil)) (CVar VU (D0 Nil))] (feedback_law 1 (Some 1%nat) ex_ctrl) s 0%nat = - s 0%nat.
Proof.
  unfold system_field, feedback_law, feedback, neuron, weight_of, bias_of. cbn -[Q2R round_dp]. unfold neuron, weight_of, bias_of. cbn -[Q2R round_dp].
  replace (Q2R (round_dp 5 1)) with 1 by (unfold Q2R; vm_compute (round_dp 5 1); cbn; lra).
  replace (Q2R (round_dp 5 (-2))) with (-2) by (unfold Q2R; vm_compute (round_dp 5 (-2)); cbn; lra). lra.
Qed.
Lemma barrier_session : exists pb, session_of math 100 100 ex_rand ex_randc barrier_doc = Some (pb, bar_net, ex_ctrl) /\
  pb_sets pb XD = ball_fml 9 /\ pb_sets pb XI = ball_fml 1 /\ pb_sets pb XU = box_fml 2 3 /\ pb_xdot pb ex_ctrl = Some ex_xdot /\
  pb_type pb = BARRIER /\ pb_n pb = 1%nat /\ pb_llo pb = false /\ pb_quad pb = false /\ pb_discrete pb = false /\ pb_symb pb = SZ3 /\ pb_rounding pb = 3%Z.
Proof.
  destruct (session_get (session_of math 100 100 ex_rand ex_randc barrier_doc) summary
    (bar_net, ex_ctrl, (ball_fml 9, ball_fml 1, box_fml 2 3), Some ex_xdot, (BARRIER, 1%nat, false, false, false, SZ3, 3%Z)))
    as (pb & net & ctrl & E1 & E2); [vm_compute; reflexivity|].
  unfold summary in E2. injection E2 as -> -> H. exists pb. split; [exact E1|]. intuition congruence.
Qed.
Lemma lyapunov_session : exists pb, session_of math 100 100 ex_rand ex_randc lyapunov_doc = Some (pb, lya_net, ex_ctrl) /\
  pb_sets pb XD = ball_fml 9 /\ pb_xdot pb ex_ctrl = Some ex_xdot /\
  pb_type pb = LYAPUNOV /\ pb_n pb = 1%nat /\ pb_llo pb = false /\ pb_quad pb = false /\ pb_discrete pb = false /\ pb_symb pb = SZ3 /\ pb_rounding pb = 3%Z.
Proof.
  destruct (session_get (session_of math 100 100 ex_rand ex_randc lyapunov_doc) summary
    (lya_net, ex_ctrl, (ball_fml 9, FFalse, FFalse), Some ex_xdot, (LYAPUNOV, 1%nat, false, false, false, SZ3, 3%Z)))
    as (pb & net & ctrl & E1 & E2); [vm_compute; reflexivity|].
  unfold summary in E2. injection E2 as -> -> H. exists pb. split; [exact E1|]. intuition congruence.
Qed.

Lemma ball_holds q s : holds s (ball_fml q) <-> s 0%nat ^ 2 <= Q2R q.
Proof. unfold ball_fml. cbn -[Q2R]. rewrite ?Q2R_0. split; intros H; nra. Qed.
Lemma box_holds a b s : holds s (box_fml a b) <-> Q2R a <= s 0%nat <= Q2R b.
Proof. unfold box_fml. cbn -[Q2R]. tauto. Qed.
Lemma ex_solution : solves_forever 1 (system_field math 1 [CBin OAdd (CVar VX (D0 Nil)) (CVar VU (D0 Nil))] (feedback_law 1 (Some 1%nat) ex_ctrl))
  (fun t _ => exp (- t)).
Proof.
  intros t Ht j Hj. replace j with 0%nat by lia. rewrite ex_loop. auto_derive; auto; ring.
Qed.

Example C59_safety_example : exists pb env r gd gi gu,
  NoDup (map fst barrier_doc) /\ session_of math 100 100 ex_rand ex_randc barrier_doc = Some (pb, bar_net, ex_ctrl) /\
  usual math /\ dimension barrier_doc 1 /\ equations barrier_doc [CBin OAdd (CVar VX (D0 Nil)) (CVar VU (D0 Nil))] /\
  inputs_of barrier_doc [CBin OAdd (CVar VX (D0 Nil)) (CVar VU (D0 Nil))] (Some 1%nat) /\
  lawful pb env /\ keeps_controller env /\ honest pb env /\
  run_fossil pb env 1 bar_net ex_ctrl [] = Some (Some r) /\ r_res r = true /\
  asks barrier_doc BARRIER CONTINUOUS /\ not_cvc5 barrier_doc /\ avoids barrier_doc relu_names /\
  declares barrier_doc 1 XI gi /\ declares barrier_doc 1 XU gu /\ declares barrier_doc 1 XD gd /\
  exists x, solves_forever 1 (system_field math 1 [CBin OAdd (CVar VX (D0 Nil)) (CVar VU (D0 Nil))] (feedback_law 1 (Some 1%nat) (l_ctrl (r_learned r)))) x /\
    in_region gi (x 0) /\ (forall t, 0 <= t -> in_region gd (x t)) /\ exists s, in_region gd s /\ in_region gu s.
Proof.
  destruct barrier_session as (pb & Es & ED & EI & EU & Ex & Ty & En & El & Eq & Edt & Esy & Er).
  set (V := fst (match fossil_translate pb (demo_env (fun _ _ => Unknown) 0 0) 0 (demo_learned pb bar_net ex_ctrl 0) with Some p => p | None => (ENum 0, ENum 0) end)).
  set (W := snd (match fossil_translate pb (demo_env (fun _ _ => Unknown) 0 0) 0 (demo_learned pb bar_net ex_ctrl 0) with Some p => p | None => (ENum 0, ENum 0) end)).
  assert (Et : forall e, fossil_translate pb (demo_env e 0 0) 0 (demo_learned pb bar_net ex_ctrl 0) = Some (V, W)).
  { intros e. unfold V, W, fossil_translate, demo_learned. cbn [l_ctrl l_net]. rewrite Ex, Edt, Esy, Er, Eq, En, El. reflexivity. }
  assert (EV : forall s, eval s V = s 0%nat ^ 2 - 2).
  { intros s. unfold V, fossil_translate, demo_learned. cbn [l_ctrl l_net]. rewrite Ex, Edt, Esy, Er, Eq, En, El.
    cbn -[Q2R round_num]. q2r. field. }
  assert (EW : forall s, eval s W = - 2 * s 0%nat ^ 2).
  { intros s. unfold W, fossil_translate, demo_learned. cbn [l_ctrl l_net]. rewrite Ex, Edt, Esy, Er, Eq, En, El.
    cbn -[Q2R round_num]. q2r. field. }
  destruct (demo_success_ctrl pb 0 bar_net ex_ctrl V W (barrier_constraints (pb_sets pb) V W)) as (env & H1 & H2 & H2' & H3).
  - rewrite El. reflexivity.
  - exact Et.
  - unfold fossil_constraints. now rewrite Ty.
  - apply (C01_certificate_labels_distinct false (new_vars 1) (pb_sets pb) 0 V V W W).
  - apply C08_barrier_obligations. unfold barrier_conditions, sem, inside. rewrite ED, EI, EU.
    repeat split; intros s HD H; rewrite ?EW; rewrite EV in *; rewrite ?ball_holds, ?box_holds in *; q2r_in HD; try q2r_in H; nra.
  - rewrite Ty. discriminate.
  - exists pb, env, (demo_result pb bar_net ex_ctrl 0 V W), (zero_to three), (zero_to one), (Box [two] [three]).
    split; [apply ex_nodup|]. split; [exact Es|]. split; [apply math_usual|]. split; [cbn; auto|].
    split; [apply ex_equations|]. split; [apply ex_inputs|]. split; [exact H1|].
    split; [intros n m it p S Sdot Hw; now rewrite H2'|]. split; [exact H2|]. split; [exact H3|]. split; [reflexivity|].
    split; [now apply ex_asks|]. split; [apply ex_not_cvc5|]. split; [apply ex_avoids_relu|].
    assert (Nd : NoDup (map fst [("XD", YStr "Sphere([0], 3)"); ("XI", YStr "Sphere([0], 1)"); ("XU", YStr "Rectangle([2], [3])")])).
    { repeat (constructor; [cbn; intuition discriminate|]). constructor. }
    split; [|split; [|split]].
    + eapply ex_declares; [cbn; eauto|exact Nd|apply (ball_text "0" "1"); cbn; lia|split; [reflexivity|fold one; rewrite one_1; lra]].
    + eapply ex_declares; [cbn; eauto|exact Nd|apply (box_text "2" "3"); cbn; lia|split; reflexivity].
    + eapply ex_declares; [cbn; eauto|exact Nd|apply (ball_text "0" "3"); cbn; lia|split; [reflexivity|fold three; rewrite three_3; lra]].
    + exists (fun t _ => exp (- t)). split; [exact ex_solution|]. rewrite one_1, two_2, three_3.
      split; [apply in_ball; [lra|]; rewrite Ropp_0, exp_0; lra|]. split.
      * intros t Ht. apply in_ball; [lra|]. assert (E := exp_pos (- t)). assert (exp (- t) <= 1); [|lra].
        rewrite <- exp_0. destruct (Req_dec t 0) as [-> |]; [rewrite Ropp_0; lra|]. apply Rlt_le, exp_increasing. lra.
      * exists (fun _ => 2). split; [apply in_ball; lra|]. intros [|k] Hk; cbn in *; [lra|lia].
Qed.

Example C59_stability_example : exists pb env r gd rad,
  NoDup (map fst lyapunov_doc) /\ session_of math 100 100 ex_rand ex_randc lyapunov_doc = Some (pb, lya_net, ex_ctrl) /\
  usual math /\ dimension lyapunov_doc 1 /\ equations lyapunov_doc [CBin OAdd (CVar VX (D0 Nil)) (CVar VU (D0 Nil))] /\
  inputs_of lyapunov_doc [CBin OAdd (CVar VX (D0 Nil)) (CVar VU (D0 Nil))] (Some 1%nat) /\
  lawful pb env /\ keeps_controller env /\ honest pb env /\
  run_fossil pb env 1 lya_net ex_ctrl [] = Some (Some r) /\ r_res r = true /\
  asks lyapunov_doc LYAPUNOV CONTINUOUS /\ not_cvc5 lyapunov_doc /\ avoids lyapunov_doc relu_names /\
  avoids lyapunov_doc offset_names /\ (forall v, gives lyapunov_doc "LLO" v -> v = YBool false) /\
  declares lyapunov_doc 1 XD gd /\ neighbourhood 1 rad (in_region gd) /\
  Forall everywhere [CBin OAdd (CVar VX (D0 Nil)) (CVar VU (D0 Nil))].
Proof.
  destruct lyapunov_session as (pb & Es & ED & Ex & Ty & En & El & Eq & Edt & Esy & Er).
  set (V := fst (match fossil_translate pb (demo_env (fun _ _ => Unknown) 0 0) 0 (demo_learned pb lya_net ex_ctrl 0) with Some p => p | None => (ENum 0, ENum 0) end)).
  set (W := snd (match fossil_translate pb (demo_env (fun _ _ => Unknown) 0 0) 0 (demo_learned pb lya_net ex_ctrl 0) with Some p => p | None => (ENum 0, ENum 0) end)).
  assert (Et : forall e, fossil_translate pb (demo_env e 0 0) 0 (demo_learned pb lya_net ex_ctrl 0) = Some (V, W)).
  { intros e. unfold V, W, fossil_translate, demo_learned. cbn [l_ctrl l_net]. rewrite Ex, Edt, Esy, Er, Eq, En, El. reflexivity. }
  assert (EV : forall s, eval s V = s 0%nat ^ 2).
  { intros s. unfold V, fossil_translate, demo_learned. cbn [l_ctrl l_net]. rewrite Ex, Edt, Esy, Er, Eq, En, El.
    cbn -[Q2R round_num]. q2r. field. }
  assert (EW : forall s, eval s W = - 2 * s 0%nat ^ 2).
  { intros s. unfold W, fossil_translate, demo_learned. cbn [l_ctrl l_net]. rewrite Ex, Edt, Esy, Er, Eq, En, El.
    cbn -[Q2R round_num]. q2r. field. }
  destruct (demo_success_ctrl pb 0 lya_net ex_ctrl V W (lyapunov_constraints false (new_vars 1) (pb_sets pb) V W)) as (env & H1 & H2 & H2' & H3).
  - rewrite El. reflexivity.
  - exact Et.
  - unfold fossil_constraints. now rewrite Ty, El, En.
  - apply (C01_certificate_labels_distinct false (new_vars 1) (pb_sets pb) 0 V V W W).
  - apply C06_lyapunov_obligations. intros s Hs Ho. unfold sem. rewrite EV, EW.
    assert (0 < s 0%nat ^ 2).
    { apply pow2_gt_0. intros E. apply Ho. intros k Hk. replace k with 0%nat by lia. exact E. }
    split; [intros _|]; lra.
  - rewrite Ty. discriminate.
  - exists pb, env, (demo_result pb lya_net ex_ctrl 0 V W), (zero_to three), 3.
    split; [apply ex_nodup|]. split; [exact Es|]. split; [apply math_usual|]. split; [cbn; auto|].
    split; [apply ex_equations|]. split; [apply ex_inputs|]. split; [exact H1|].
    split; [intros n m it p S Sdot Hw; now rewrite H2'|]. split; [exact H2|]. split; [exact H3|]. split; [reflexivity|].
    split; [now apply ex_asks|]. split; [apply ex_not_cvc5|]. split; [apply ex_avoids_relu|]. split; [apply ex_avoids_offset|].
    split; [intros v H; exfalso; cbn in H; repeat (destruct H as [H|H]; [discriminate|]); exact H|].
    split; [|split].
    + eapply ex_declares; [cbn; eauto| |apply (ball_text "0" "3"); cbn; lia|split; [reflexivity|fold three; rewrite three_3; lra]].
      repeat constructor. cbn. tauto.
    + split; [lra|]. intros s Hs. rewrite three_3. apply in_ball; [lra|]. specialize (Hs 0%nat ltac:(lia)). apply Rabs_def2 in Hs. lra.
    + repeat constructor.
Qed.

(** ** The README's XD: a torus around the origin
    A hole around the origin hides an unstable equilibrium: x' = 0.01 x - x^3 tends to 0.1, inside the hole. *)
Definition hole_doc : document :=
  [("N_VARS", YInt 1); ("SYSTEM", YList [YStr "0.01*x0 - x0**3"]); ("CERTIFICATE", YStr "Lyapunov"); ("TIME_DOMAIN", YStr "Continuous");
   ("DOMAINS", YMap [("XD", YStr "Torus([0], 1, 0.2)")]); ("N_DATA", YMap [("XD", YInt 100)]);
   ("N_HIDDEN_NEURONS", YList [YInt 1]); ("ACTIVATION", YList [YStr "Square"])].
Definition hole_tree : tree :=
  CBin OSub (CBin OMul (CNum (1 # 100)) (CVar VX (D0 Nil))) (CBin OPow (CVar VX (D0 Nil)) (CNum 3)).
Definition hole_ctrl : controller := {| k_acts := []; k_layers := [] |}.
Definition hole_fml : fml :=
  FAnd (FCmp CLe (ENum (4 # 100)) (EBin BAdd (ENum 0) (EPow (EBin BSub (EVar 0) (ENum 0)) 2)))
       (FAnd (FCmp CLe (EBin BAdd (ENum 0) (EPow (EBin BSub (EVar 0) (ENum 0)) 2)) (ENum 1)) FTrue).
Lemma hole_session : exists pb, session_of math 100 100 ex_rand ex_randc hole_doc = Some (pb, lya_net, hole_ctrl) /\
  pb_sets pb XD = hole_fml /\ pb_xdot pb hole_ctrl = Some [EBin BSub (EBin BMul (ENum (1 # 100)) (EVar 0)) (EPow (EVar 0) 3)] /\
  pb_type pb = LYAPUNOV /\ pb_n pb = 1%nat /\ pb_llo pb = false /\ pb_quad pb = false /\ pb_discrete pb = false /\ pb_symb pb = SZ3 /\ pb_rounding pb = 3%Z.
Proof.
  destruct (session_get (session_of math 100 100 ex_rand ex_randc hole_doc) summary
    (lya_net, hole_ctrl, (hole_fml, FFalse, FFalse), Some [EBin BSub (EBin BMul (ENum (1 # 100)) (EVar 0)) (EPow (EVar 0) 3)],
     (LYAPUNOV, 1%nat, false, false, false, SZ3, 3%Z)))
    as (pb & net & ctrl & E1 & E2); [vm_compute; reflexivity|].
  unfold summary in E2. injection E2 as -> -> H. exists pb. split; [exact E1|]. intuition congruence.
Qed.
Lemma hole_equations : equations hole_doc [hole_tree].
Proof.
  exists ["0.01*x0 - x0**3"]. split; [cbn; auto|]. split; [|constructor; [|constructor]].
  - constructor; [|constructor]. unfold written. cbn [hole_tree S_Parser.text app list_ascii_of_string].
    assert (N1 : numeral ["0"%char]) by (split; [discriminate|repeat constructor; cbn; lia]).
    assert (N2 : numeral ["0"%char; "1"%char]) by (split; [discriminate|repeat constructor; cbn; lia]).
    assert (N3 : numeral ["3"%char]) by (split; [discriminate|repeat constructor; cbn; lia]).
    apply (spaced_cons [] _ ["0"%char; "."%char; "0"%char; "1"%char]); [constructor| |].
    { apply (tt_decimal _ ["0"%char] ["0"%char; "1"%char]); auto. cbn [whole fraction length].
      unfold digit_value. change (nat_of_ascii "0" - 48)%nat with 0%nat. change (nat_of_ascii "1" - 48)%nat with 1%nat. cbn [INR].
      unfold Q2R. cbn. lra. }
    apply (spaced_cons [] _ ["*"%char]); [constructor|constructor|].
    apply (spaced_cons [] _ ["x"%char; "0"%char]); [constructor|apply (tt_state (D0 Nil))|].
    apply (spaced_cons [" "%char] _ ["-"%char]); [constructor; [now left|constructor]|constructor|].
    apply (spaced_cons [" "%char] _ ["x"%char; "0"%char]); [constructor; [now left|constructor]|apply (tt_state (D0 Nil))|].
    apply (spaced_cons [] _ ["*"%char; "*"%char]); [constructor|constructor|].
    apply (spaced_cons [] _ ["3"%char] _ []); [constructor| |apply (spaced_nil []); constructor].
    apply tt_integer; [exact N3|]. cbn [whole length]. unfold digit_value. change (nat_of_ascii "3" - 48)%nat with 3%nat. cbn [INR].
    unfold Q2R. cbn. lra.
  - split; [|cbn; tauto]. unfold hole_tree. apply std_sub.
    + apply std_sum. apply std_mul; [apply std_product, std_factor, std_power, std_num|apply std_factor, std_power, std_var].
    + apply std_product, std_factor, std_pow; [apply std_var|apply std_factor, std_power, std_num].
Qed.
Lemma hole_field s : system_field math 1 [hole_tree] (feedback_law 1 None hole_ctrl) s 0%nat = /100 * s 0%nat - s 0%nat ^ 3.
Proof.
  unfold system_field. cbn -[Q2R pow Int_part]. replace (Q2R 3) with (INR 3) by (unfold Q2R; cbn; lra).
  rewrite Int_part_INR, Nat2Z.id. replace (Q2R (1 # 100)) with (/100) by (unfold Q2R; cbn; lra). reflexivity.
Qed.
(** x(t) = 0.1 / sqrt (1 + c exp (-t/50)) *)
Definition hole_x (c t : R) : R := /10 / sqrt (1 + c * exp (- t / 50)).
Lemma hole_solves c : 0 <= c -> solves_forever 1 (system_field math 1 [hole_tree] (feedback_law 1 None hole_ctrl)) (fun t _ => hole_x c t).
Proof.
  intros Hc t Ht j Hj. replace j with 0%nat by lia. rewrite hole_field. unfold hole_x.
  assert (E := exp_pos (- t / 50)). assert (P : 0 < 1 + c * exp (- t / 50)) by nra.
  assert (Sp := sqrt_lt_R0 _ P). assert (Sq := sqrt_sqrt _ (Rlt_le _ _ P)).
  auto_derive; [repeat split; auto; lra|].
  change (- t * / 50) with (- t / 50). set (e := exp (- t / 50)) in *. set (q := sqrt (1 + c * e)) in *.
  replace (c * (- (1) * / 50 * e)) with (- / 50 * (q * q - 1)) by (rewrite Sq; ring). field. lra.
Qed.
Lemma hole_unstable : ~ stable 1 (system_field math 1 [hole_tree] (feedback_law 1 None hole_ctrl)).
Proof.
  intros H. destruct (H (/20) ltac:(lra)) as (d & Hd & K).
  set (c := Rmax 1 (/ (d * d))). assert (C1 : 1 <= c) by apply Rmax_l. assert (C2 : / (d * d) <= c) by apply Rmax_r.
  set (T := 50 * ln c). assert (HT : 0 <= T).
  { unfold T. destruct (Req_dec c 1) as [-> |]; [rewrite ln_1; lra|]. assert (0 < ln c); [|lra]. rewrite <- ln_1. apply ln_increasing; lra. }
  specialize (K (fun t _ => hole_x c t) T HT).
  assert (Hs : solves 1 (system_field math 1 [hole_tree] (feedback_law 1 None hole_ctrl)) (fun t _ => hole_x c t) T).
  { intros t Ht. apply hole_solves; [lra|apply Ht]. }
  specialize (K Hs). assert (N : near 1 (/20) ((fun t _ => hole_x c t) T)).
  - apply (K); [|lra]. intros j _. unfold hole_x. rewrite Ropp_0. unfold Rdiv at 2. rewrite Rmult_0_l, exp_0, Rmult_1_r.
    assert (P : 0 < 1 + c) by lra. assert (Sp := sqrt_lt_R0 _ P).
    assert (D2 : 0 < d * d) by nra.
    assert (L : / d < sqrt (1 + c)).
    { rewrite <- (sqrt_square (/ d)) by (left; now apply Rinv_0_lt_compat). apply sqrt_lt_1_alt. split; [left; apply Rmult_lt_0_compat; now apply Rinv_0_lt_compat|].
      rewrite <- Rinv_mult_distr by lra. lra. }
    assert (I := Rinv_0_lt_compat _ Sp).
    assert (L2 : / sqrt (1 + c) < d).
    { rewrite <- (Rinv_involutive d) by lra. apply Rinv_lt_contravar; [|exact L]. apply Rmult_lt_0_compat; [now apply Rinv_0_lt_compat|exact Sp]. }
    rewrite Rabs_right; unfold Rdiv; nra.
  - specialize (N 0%nat ltac:(lia)). cbn beta in N. unfold hole_x, T in N.
    replace (- (50 * ln c) / 50) with (- ln c) in N by field. rewrite exp_Ropp, exp_ln in N by lra. rewrite Rinv_r in N by lra.
    apply Rabs_def2 in N. destruct N as [N _]. assert (Sp : 0 < sqrt (1 + 1)) by (apply sqrt_lt_R0; lra).
    assert (Sq : sqrt (1 + 1) * sqrt (1 + 1) = 1 + 1) by (apply sqrt_sqrt; lra).
    assert (S2 : sqrt (1 + 1) < 2) by nra. 
    assert (/ 10 = / 10 / sqrt (1 + 1) * sqrt (1 + 1)) by (field; lra). nra.
Qed.
Lemma hole_text : region_text (list_ascii_of_string "Torus([0], 1, 0.2)")
  (Shell [1 * (digit_value "0" * 1 + 0)] one (1 * ((digit_value "0" * 1 + 0) + (digit_value "2" + 0) / 10))).
Proof.
  eapply (torus_text (list_ascii_of_string "[0]") _ (list_ascii_of_string " 1") _ (list_ascii_of_string " 0.2")).
  - exists [], ["0"%char], []. repeat split; try constructor. refine (one_number [] ["0"%char] _ [] _ (digit_one "0" _) _); cbn; try constructor; lia.
  - refine (one_number [" "%char] ["1"%char] _ [] _ (digit_one "1" _) _); [constructor; [now left|constructor]|cbn; lia|constructor].
  - refine (one_number [" "%char] (list_ascii_of_string "0.2") _ [] _ _ _); [constructor; [now left|constructor]| |constructor].
    apply (decimal_text [] 1 ["0"%char] ["2"%char]); [constructor| |]; (split; [discriminate|repeat constructor; cbn; lia]).
  - exists [], [], []. repeat split; constructor.
Qed.
Theorem C59_hole : exists pb env r gd,
  NoDup (map fst hole_doc) /\ session_of math 100 100 ex_rand ex_randc hole_doc = Some (pb, lya_net, hole_ctrl) /\
  usual math /\ dimension hole_doc 1 /\ equations hole_doc [hole_tree] /\ inputs_of hole_doc [hole_tree] None /\
  lawful pb env /\ keeps_controller env /\ honest pb env /\
  run_fossil pb env 1 lya_net hole_ctrl [] = Some (Some r) /\ r_res r = true /\
  asks hole_doc LYAPUNOV CONTINUOUS /\ not_cvc5 hole_doc /\ avoids hole_doc relu_names /\ avoids hole_doc offset_names /\
  (forall v, gives hole_doc "LLO" v -> v = YBool false) /\
  (* only [neighbourhood] fails *)
  declares hole_doc 1 XD gd /\ (forall s, in_region gd s <-> 2/10 <= Rabs (s 0%nat) <= 1) /\ Forall everywhere [hole_tree] /\
  ~ stable 1 (system_field math 1 [hole_tree] (feedback_law 1 None (l_ctrl (r_learned r)))).
Proof.
  destruct hole_session as (pb & Es & ED & Ex & Ty & En & El & Eq & Edt & Esy & Er).
  set (V := fst (match fossil_translate pb (demo_env (fun _ _ => Unknown) 0 0) 0 (demo_learned pb lya_net hole_ctrl 0) with Some p => p | None => (ENum 0, ENum 0) end)).
  set (W := snd (match fossil_translate pb (demo_env (fun _ _ => Unknown) 0 0) 0 (demo_learned pb lya_net hole_ctrl 0) with Some p => p | None => (ENum 0, ENum 0) end)).
  assert (Et : forall e, fossil_translate pb (demo_env e 0 0) 0 (demo_learned pb lya_net hole_ctrl 0) = Some (V, W)).
  { intros e. unfold V, W, fossil_translate, demo_learned. cbn [l_ctrl l_net]. rewrite Ex, Edt, Esy, Er, Eq, En, El. reflexivity. }
  assert (EV : forall s, eval s V = s 0%nat ^ 2).
  { intros s. unfold V, fossil_translate, demo_learned. cbn [l_ctrl l_net]. rewrite Ex, Edt, Esy, Er, Eq, En, El.
    cbn -[Q2R round_num]. q2r. field. }
  assert (EW : forall s, eval s W = 2 * s 0%nat ^ 2 * (/ 100 - s 0%nat ^ 2)).
  { intros s. unfold W, fossil_translate, demo_learned. cbn [l_ctrl l_net]. rewrite Ex, Edt, Esy, Er, Eq, En, El.
    cbn -[Q2R round_num]. q2r. field. }
  destruct (demo_success_ctrl pb 0 lya_net hole_ctrl V W (lyapunov_constraints false (new_vars 1) (pb_sets pb) V W)) as (env & H1 & H2 & H2' & H3).
  - rewrite El. reflexivity.
  - exact Et.
  - unfold fossil_constraints. now rewrite Ty, El, En.
  - apply (C01_certificate_labels_distinct false (new_vars 1) (pb_sets pb) 0 V V W W).
  - apply C06_lyapunov_obligations. intros s Hs Ho. unfold sem. rewrite EV, EW.
    unfold inside in Hs. rewrite ED in Hs. unfold hole_fml in Hs. cbn -[Q2R pow] in Hs. rewrite ?Q2R_0, ?Q2R_1 in Hs.
    destruct Hs as [Hs _]. replace (Q2R (4 # 100)) with (4 / 100) in Hs by (unfold Q2R; cbn; lra).
    replace (0 + (s 0%nat - 0) ^ 2) with (s 0%nat ^ 2) in Hs by ring.
    split; [intros _|]; nra.
  - rewrite Ty. discriminate.
  - exists pb, env, (demo_result pb lya_net hole_ctrl 0 V W), (Shell [1 * (digit_value "0" * 1 + 0)] one (1 * ((digit_value "0" * 1 + 0) + (digit_value "2" + 0) / 10))).
    split; [repeat (constructor; [cbn; intuition discriminate|]); constructor|]. split; [exact Es|]. split; [apply math_usual|]. split; [cbn; auto|].
    split; [apply hole_equations|]. split; [apply no_inputs; intros v H; exfalso; cbn in H; repeat (destruct H as [H|H]; [discriminate|]); exact H|].
    split; [exact H1|].
    split; [intros n m it p S Sdot Hw; now rewrite H2'|]. split; [exact H2|]. split; [exact H3|]. split; [reflexivity|].
    assert (Av : forall names, (forall w, In w names -> upper "Square" <> w /\ Forall capital (list_ascii_of_string w)) -> avoids hole_doc names).
    { intros names N v H. cbn in H. repeat (destruct H as [H|H]; [try discriminate|]); try easy. injection H as <-.
      exists ["Square"]. split; [reflexivity|]. intros s w [<-|[]] Hw Sp. destruct (N w Hw) as [N1 N2].
      apply N1. now apply (spelled_upper _ _ N2). }
    split.
    { exists "Lyapunov", "Continuous". split; [cbn; auto|]. split; [apply spelled_upper; [apply (certificate_capital LYAPUNOV)|reflexivity]|].
      split; [cbn; auto|]. apply spelled_upper; [apply (time_capital CONTINUOUS)|reflexivity]. }
    split; [intros s H; exfalso; cbn in H; repeat (destruct H as [H|H]; [discriminate|]); exact H|].
    split; [apply Av; intros w H; repeat (destruct H as [<-|H]; [split; [discriminate|capitals]|]); destruct H|].
    split; [apply Av; intros w H; repeat (destruct H as [<-|H]; [split; [discriminate|capitals]|]); destruct H|].
    split; [intros v H; exfalso; cbn in H; repeat (destruct H as [H|H]; [discriminate|]); exact H|].
    assert (D2 : 1 * ((digit_value "0" * 1 + 0) + (digit_value "2" + 0) / 10) = 2/10).
    { unfold digit_value. change (nat_of_ascii "0" - 48)%nat with 0%nat. change (nat_of_ascii "2" - 48)%nat with 2%nat. cbn [INR]. lra. }
    split; [|split; [|split]].
    + exists [("XD", YStr "Torus([0], 1, 0.2)")], "Torus([0], 1, 0.2)". split; [cbn; tauto|]. split; [repeat constructor; cbn; tauto|].
      split; [now left|]. split; [apply hole_text|]. split; [reflexivity|]. rewrite D2, one_1. lra.
    + intros s. rewrite D2, one_1, zero_0. cbn [in_region]. unfold distance. cbn [length sum_below nth].
      replace (0 + (s 0%nat - 0) ^ 2) with (Rsqr (s 0%nat)) by (unfold Rsqr; ring). rewrite sqrt_Rsqr_abs. reflexivity.
    + constructor; [|constructor]. cbn. split; [auto|]. split; [exact I|]. now exists 3%nat.
    + exact hole_unstable.
Qed.
