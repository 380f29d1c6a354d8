(** C78 for a file: all hypotheses are met by a run of two iterations. *)
From Coquelicot Require Import Coquelicot.
From Coq Require Import String Ascii Reals QArith Qreals Bool Arith ZArith Decimal Lra Lia List.
From Verif Require Import M_Syntax M_Certificates M_Verifier M_Activations M_Domains M_Network M_Learner M_Cegis M_Labels M_Fossil M_Double M_Learning M_Gradient
  M_Control M_Parser M_Lexer M_Variables M_DomainParser M_Cli M_Config S_Activations S_Network S_Learner S_Cegis S_Fossil S_Double S_Loops S_Domains S_Learning
  S_Parser S_Lexer S_Variables S_DomainParser S_Control S_Cli S_Config S_Labels S_Start S_Progress S_Terminates
  L_Holds L_Learner L_Demo P_Cli P_ConfigExamples P_StartExamples P_Activations P_Cegis P_TranslatorBugs P_Learning P_Gradient P_Progress P_TerminatesExamples P_TerminatesDocument.
Import ListNotations.
Local Close Scope Q_scope.
Local Open Scope string_scope.
Local Open Scope list_scope.
Local Open Scope nat_scope.

(** x' = -x, two ReLU neurons, no rounding and no limit on the iterations. *)
Definition relu_doc : document :=
  [("N_VARS", YInt 1); ("SYSTEM", YList [YStr "-x0"]); ("CERTIFICATE", YStr "Lyapunov"); ("TIME_DOMAIN", YStr "Continuous");
   ("DOMAINS", YMap [("XD", YStr "Sphere([0], 3)")]); ("N_DATA", YMap [("XD", YInt 100)]);
   ("N_HIDDEN_NEURONS", YList [YInt 2]); ("ACTIVATION", YList [YStr "ReLU"]); ("ROUNDING", YInt (-1)); ("CEGIS_MAX_ITERS", YInt (-1))].
Definition relu_tree : tree := CNeg (CVar VX (D0 Nil)).
Lemma relu_spelled : spelled "ReLU" (activation_name RELU). Proof. apply spelled_upper; [apply activation_capital|reflexivity]. Qed.
Lemma relu_documented : documented relu_doc LYAPUNOV CONTINUOUS VZ3 1 [relu_tree] None (-1) (-1).
Proof.
  constructor.
  - repeat (constructor; [cbn; intuition discriminate|]). constructor.
  - intros f y G _. unfold gives in G. cbn in G. repeat (destruct G as [G|G]; [injection G as <- <-|]); try destruct G; try plain_field.
    + eexists. apply means_certificate with (c := LYAPUNOV). apply spelled_upper; [apply certificate_capital|reflexivity].
    + eexists. apply means_time with (t := CONTINUOUS). apply continuous_spelled.
    + eexists. apply (means_activations "ACTIVATION" ["ReLU"] [RELU]); [cbn; tauto|]. constructor; [apply relu_spelled|constructor].
  - exists "Lyapunov", "Continuous". split; [cbn; auto|]. split; [apply spelled_upper; [apply certificate_capital|reflexivity]|].
    split; [cbn; auto|]. apply continuous_spelled.
  - discriminate.
  - discriminate.
  - split; [now left|]. right. split; [intros y H; absent|reflexivity].
  - cbn. auto.
  - exists ["-x0"]. split; [cbn; auto|]. split; [|constructor; [|constructor]].
    + constructor; [|constructor]. unfold written. cbn [S_Parser.text app list_ascii_of_string relu_tree].
      apply (spaced_cons [] _ ["-"%char]); [constructor|constructor|].
      apply (spaced_cons [] _ ["x"%char; "0"%char] _ []); [constructor|apply (tt_state (D0 Nil))|]. apply (spaced_nil []). constructor.
    + split; [repeat constructor|cbn; split; [discriminate|exact I]].
  - reflexivity.
  - constructor; [|constructor]. cbn. repeat split; auto; discriminate.
  - intros d. cbn. split.
    + intros [H|[]]. injection H as <-. exists 0. split; [lia|reflexivity].
    + intros (j & Hj & ->). replace j with 0 by lia. now left.
  - constructor; [intros y H; absent|]. intros d. cbn. intros [H|[]]. discriminate.
  - eapply written_sets; [cbn; auto 20|repeat (constructor; [cbn; intuition discriminate|]); constructor| |].
    + constructor; [set_ball XD|constructor].
    + every_label.
  - left. exists [(XD, 100)]. split; [cbn; auto 20|]. split; [repeat (constructor; [cbn; intuition discriminate|]); constructor|].
    intros l. cbn. intuition congruence.
  - exists [2], [RELU]. split; [discriminate|]. split; [repeat constructor|]. split; [reflexivity|]. split; [repeat constructor|].
    split; [left; cbn; auto 20|]. left. exists ["ReLU"]. split; [cbn; auto 20|]. constructor; [apply relu_spelled|constructor].
  - left. cbn. auto 20.
  - left. cbn. auto 20.
  - split; [lia|]. intros f y F G. cbn in F. destruct F as [<-|[<-|[<-|[]]]]; absent.
  - intros f y F G. cbn in F. destruct F as [<-|[<-|[<-|[]]]]; absent.
  - intros f F y G. cbn in F. destruct F as [<-|[<-|[<-|[<-|[]]]]]; absent.
Qed.

(** V = ReLU(w x) + ReLU(b x): with w = b = 1, 0 at negative states; the solver answers -1/2.  Then b = -1, V = |x|. *)
Definition twin (b : Q) : network :=
  {| in_size := 1; hidden := [({| weight := [[1]; [b]]%Q; bias := None |}, AReLU)]; last := {| weight := [[1; 1]]%Q; bias := None |} |}.
Definition no_controller : controller := {| k_acts := []; k_layers := [] |}.
Definition flip_rows (w : list (list Q)) : list (list Q) := match w with a :: b :: w => a :: map Qopp b :: w | _ => w end.
Definition flip (net : network) : network :=
  {| in_size := in_size net; hidden := map (fun la => ({| weight := flip_rows (weight (fst la)); bias := bias (fst la) |}, snd la)) (hidden net); last := last net |}.
Definition relu_env (pb : problem controller) : environment controller :=
  {| e_perfect := fun _ _ S Sdot _ net =>
       match option_bind (lyapunov_batch (value_at pb net) (derivative_at pb net) None S Sdot) (lyapunov_ok (fun v => v) false) with
       | Some b => b | None => false end;
     e_step := fun it _ _ _ _ net => if (it =? 0)%nat then net else flip net;
     e_ctrl := fun _ p _ _ => l_ctrl p; e_beta := fun _ _ _ _ => 0%Q; e_simp := fun e => e;
     e_solver := fun it => smt_backend (fun _ _ => if (it =? 0)%nat then Sat half else Unsat); e_noise := fun _ _ _ _ => 0%R;
     e_stay_fuel := fun _ => 0; e_stay_calls := fun _ => 0;
     e_trajectory := fun _ _ _ _ => Some []; e_estimate_beta := fun _ _ => Some tt |}.
Lemma flip_shape net : same_shape net (flip net).
Proof.
  split; [reflexivity|]. split; [|split; reflexivity]. cbn [flip hidden]. rewrite map_map. apply map_ext. intros [l a]. cbn. f_equal. f_equal.
  destruct (weight l) as [|w1 [|w2 w]]; [reflexivity|reflexivity|]. cbn. now rewrite map_length.
Qed.

Section Run.
  Context (pb : problem controller).
  Context (xdot : list expr).
  Hypothesis Sys : without_controller pb xdot.
  Hypothesis Exd : xdot = [EUn UNeg (EVar 0)].
  Hypothesis Esets : pb_sets pb XD = ball_fml 9.
  Hypothesis Etype : pb_type pb = LYAPUNOV.
  Hypothesis En : pb_n pb = 1.
  Hypothesis Ello : pb_llo pb = false.
  Hypothesis Equad : pb_quad pb = false.
  Hypothesis Edis : pb_discrete pb = false.
  Hypothesis Esymb : pb_symb pb = SZ3.
  Hypothesis Emax : pb_max_iters pb = (-1)%Z.
  Hypothesis Ero : pb_rounding pb = (-1)%Z.

  Let env := relu_env pb.
  Let start := initial pb (twin 1) no_controller.
  Let f := pb_f pb no_controller.
  Lemma f_at a : pb_f pb no_controller [a] = [(- a)%R].
  Proof. destruct Sys as (_ & _ & _ & H). rewrite H by now rewrite En. rewrite Exd. reflexivity. Qed.
  Lemma twin_at b a : value_at pb (twin b) [a] = (Rmax 0 a + Rmax 0 (Q2R b * a))%R.
  Proof.
    unfold value_at. rewrite Edis, Equad. unfold learner_value. cbn -[Q2R Rmax]. unfold Rsum. cbn -[Q2R Rmax]. q2r.
    replace (1 / 1 * a + 0 + 0 / 1)%R with a by field. replace (Q2R b * a + 0 + 0 / 1)%R with (Q2R b * a)%R by field. field.
  Qed.
  Lemma relu_tests : tests pb env.
  Proof.
    intros it p S Sdot t net H. cbn [e_perfect env relu_env] in H. unfold training_test. rewrite Etype. exists (fun v => v).
    destruct (lyapunov_batch _ _ _ _ _) as [b|]; cbn [option_bind] in H; [|discriminate]. exists b. split; [reflexivity|].
    rewrite Ello. destruct (lyapunov_ok _ _ _) as [b'|]; [now subst b'|discriminate].
  Qed.
  Lemma relu_lawful : lawful pb env.
  Proof.
    intros it p S Sdot t net. cbn [e_step env relu_env]. destruct (it =? 0)%nat; (split; [|intros H; reflexivity]).
    - apply same_shape_refl.
    - apply flip_shape.
  Qed.
  Lemma lie_at b a : derivative_at pb (twin b) [a] [(- a)%R] =
    (((if Rlt_dec 0 a then 1 else 0) + (if Rlt_dec 0 (Q2R b * a) then Q2R b else 0)) * - a)%R.
  Proof.
    unfold derivative_at. rewrite Edis, Equad. cbn -[Q2R Rlt_dec]. unfold Rsum. cbn -[Q2R Rlt_dec].
    assert (Q1 : Q2R 1 = 1%R) by (q2r; lra). assert (Q0 : Q2R 0 = 0%R) by (q2r; lra). rewrite Q1, Q0.
    replace (1 * a + 0 + 0)%R with a by ring. replace (Q2R b * a + 0 + 0)%R with (Q2R b * a)%R by ring.
    destruct (Rlt_dec 0 a), (Rlt_dec 0 (Q2R b * a)); ring.
  Qed.
  Lemma one_first : value_at pb (twin 1) [1%R] = 2%R /\ derivative_at pb (twin 1) [1%R] [(- (1))%R] = (-2)%R.
  Proof.
    rewrite twin_at, lie_at. assert (Q1 : Q2R 1 = 1%R) by (q2r; lra). rewrite Q1.
    rewrite !Rmax_right by lra. destruct (Rlt_dec 0 1), (Rlt_dec 0 (1 * 1)); lra.
  Qed.
  Lemma one_second : value_at pb (twin (-1)) [1%R] = 1%R /\ derivative_at pb (twin (-1)) [1%R] [(- (1))%R] = (-1)%R.
  Proof.
    rewrite twin_at, lie_at. assert (Q1 : Q2R (-1) = (-1)%R) by (q2r; lra). rewrite Q1.
    rewrite (Rmax_right 0 1) by lra. rewrite (Rmax_left 0 (-1 * 1)) by lra. destruct (Rlt_dec 0 1), (Rlt_dec 0 (-1 * 1)); lra.
  Qed.
  Lemma half_second : value_at pb (twin (-1)) half = (1/2)%R /\ derivative_at pb (twin (-1)) half [(- - (1/2))%R] = (- (1/2))%R.
  Proof.
    unfold half. rewrite twin_at, lie_at. assert (Q1 : Q2R (-1) = (-1)%R) by (q2r; lra). rewrite Q1.
    rewrite (Rmax_left 0 (- (1/2))) by lra. rewrite (Rmax_right 0 (-1 * - (1/2))) by lra. destruct (Rlt_dec 0 (- (1/2))), (Rlt_dec 0 (-1 * - (1/2))); lra.
  Qed.
  Let images (d : list point) : list point := map f d.
  Lemma relu_perfect it p t b sd : sd <> [] -> (forall x, In x sd -> (derivative_at pb (twin b) x (f x) <= 0 /\ 0 <= value_at pb (twin b) x)%R) ->
    e_perfect env it p [(XD, sd)] [(XD, images sd)] t (twin b) = true.
  Proof.
    intros Hne Hb. cbn [e_perfect env relu_env].
    set (S := [(XD, sd)]). set (Sdot := [(XD, _)]).
    assert (Him : images_of f None S Sdot) by (right; split; reflexivity).
    assert (Hd : dlookup XD S = Some sd) by reflexivity.
    rewrite (C40_lyapunov_roa _ _ _ None S Sdot sd Him Hd). cbn [option_bind].
    rewrite (proj2 (C41_lyapunov_roa_samples (fun v => v) false (value_at pb (twin b)) (derivative_at pb (twin b))
      f None S Sdot sd _ Him Hd Hne (C40_lyapunov_roa _ _ _ None S Sdot sd Him Hd))); [reflexivity|].
    intros x Hx. destruct (Hb x Hx) as [A B]. split; [exact A|intros _; exact B].
  Qed.
  Lemma perfect0 p t : e_perfect env 0 p one_sample [(XD, images [[1%R]])] t (twin 1) = true.
  Proof. apply (relu_perfect 0 p t 1 [[1%R]]); [discriminate|]. intros x [<-|[]]. unfold f. rewrite f_at. destruct one_first as [-> ->]. lra. Qed.
  Lemma perfect1 p t : e_perfect env 1 p [(XD, samples1)] [(XD, images samples1)] t (twin (-1)) = true.
  Proof.
    apply relu_perfect; [discriminate|]. intros x [<-|Hx].
    - unfold f. rewrite f_at. destruct one_second as [-> ->]. lra.
    - apply repeat_spec in Hx. subst x. unfold f, half at 2. rewrite f_at. destruct half_second as [-> ->]. lra.
  Qed.
  Definition first_learned : learned controller := {| l_net := twin 1; l_ctrl := no_controller; l_beta := 0 |}.
  Definition second_learned : learned controller := {| l_net := twin (-1); l_ctrl := no_controller; l_beta := 0 |}.
  Definition pair_of (net : network) : expr * expr :=
    match translate_ct SZ3 (fun e => e) (-1) false net (new_vars 1) [EUn UNeg (EVar 0)] with Some c => c | None => (ENum 0, ENum 0) end.
  Lemma start_net : l_net start = twin 1.
  Proof. unfold start, initial. rewrite Ello. reflexivity. Qed.
  Lemma relu_learn0 S Sdot : fossil_learn pb env 0 false start S Sdot = Some first_learned.
  Proof.
    unfold fossil_learn. f_equal. rewrite start_net. cbn [l_ctrl e_ctrl e_beta env relu_env start initial]. unfold first_learned. f_equal. unfold learn_network.
    rewrite Etype, Ello. unfold learn. change (take_abs false (twin 1)) with false.
    change (e_step _ 0 start S Sdot) with (fun (_ : nat) (n : network) => n). apply learn_loop_id.
  Qed.
  Lemma relu_translate it p : pair_of (l_net p) <> (ENum 0, ENum 0) -> fossil_translate pb env it p = Some (pair_of (l_net p)).
  Proof.
    intros H. unfold fossil_translate. destruct Sys as (_ & Hx & _). rewrite Hx, Edis, Esymb, Equad, Ero, En, Exd. cbn [option_bind env relu_env e_simp].
    unfold pair_of in *. destruct (translate_ct _ _ _ _ _ _ _); [reflexivity|congruence].
  Qed.
  Lemma relu_translate0 : fossil_translate pb env 0 first_learned = Some (pair_of (twin 1)).
  Proof. apply (relu_translate 0 first_learned). discriminate. Qed.
  Lemma relu_translate1 : fossil_translate pb env 1 second_learned = Some (pair_of (twin (-1))).
  Proof. apply (relu_translate 1 second_learned). discriminate. Qed.
  Lemma relu_verify0 : fossil_verify pb env 0 first_learned (pair_of (twin 1)) = Some (false, [(XD, repeat half 21)]).
  Proof. rewrite <- half_noise. unfold fossil_verify, fossil_constraints. rewrite Etype, Ello. reflexivity. Qed.
  Lemma relu_verify1 : exists cex, fossil_verify pb env 1 second_learned (pair_of (twin (-1))) = Some (true, cex).
  Proof. unfold fossil_verify, fossil_constraints. rewrite Etype, Ello. eexists. reflexivity. Qed.
  Lemma relu_iterate0 : exists st, M_Cegis.iterate (fossil pb env) 0 (init_state (fossil pb env) start one_sample) = Some (false, st) /\
    st_S st = [(XD, samples1)] /\ st_Sdot st = [(XD, images samples1)] /\ st_params st = first_learned /\ st_frozen st = false.
  Proof.
    unfold M_Cegis.iterate. cbn [c_learn c_translate c_verify fossil init_state st_params st_S st_Sdot st_frozen]. rewrite relu_learn0. cbn [option_bind].
    rewrite relu_translate0. cbn [option_bind]. rewrite relu_verify0. cbn [option_bind c_max_iters fossil]. rewrite Emax.
    eexists. split; [reflexivity|]. repeat split.
  Qed.
  Lemma relu_learn1 : fossil_learn pb env 1 false first_learned [(XD, samples1)] [(XD, images samples1)] = Some second_learned.
  Proof.
    unfold fossil_learn. f_equal. cbn [l_ctrl e_ctrl e_beta env relu_env first_learned l_net]. unfold second_learned. f_equal.
    set (test := e_perfect _ _ _ _ _). set (step := e_step _ _ _ _ _).
    destruct (P_Loops.C60_lyapunov_roa controller pb test step (twin 1) (or_introl Etype)) as (k & _ & E & Hno & Hdone). cbn zeta in *.
    assert (Ea : take_abs (pb_llo pb) (twin 1) = false) by now rewrite Ello. rewrite Ea in *.
    assert (E1 : after step (twin 1) 1 = twin (-1)) by reflexivity.
    assert (D1 : test 1 (after step (twin 1) 1) = true) by (rewrite E1; apply perfect1).
    assert (k = 1).
    { destruct (Nat.lt_trichotomy k 1) as [L|[L|L]]; [|exact L|].
      - destruct (Hdone ltac:(lia)) as [G _]. lia.
      - exfalso. apply (Hno 1 L). split; [lia|exact D1]. }
    subst k. exact (eq_trans E E1).
  Qed.
  Lemma relu_visited1 st : visited (fossil pb env) start one_sample 1 st ->
    st_S st = [(XD, samples1)] /\ st_Sdot st = [(XD, images samples1)] /\ st_params st = first_learned /\ st_frozen st = false.
  Proof.
    intros H. destruct relu_iterate0 as (st1 & E & R). rewrite (visited_fun _ _ _ 1 st st1 H (visited_next _ _ _ 0 _ _ (visited_first _ _ _) E)). exact R.
  Qed.
  Lemma relu_stops st : visited (fossil pb env) start one_sample 1 st -> exists st', M_Cegis.iterate (fossil pb env) 1 st = Some (true, st') /\ st_found st' = true.
  Proof.
    intros H. destruct (relu_visited1 st H) as (E1 & E2 & E3 & E4). unfold M_Cegis.iterate. rewrite E1, E2, E3, E4. cbn [c_learn c_translate c_verify fossil].
    rewrite relu_learn1. cbn [option_bind]. rewrite relu_translate1. cbn [option_bind].
    unfold fossil_verify, fossil_constraints. rewrite Etype, Ello. cbn -[pair_of]. unfold process_certificate. cbn [c_type fossil]. rewrite Etype. eexists. split; reflexivity.
  Qed.
  Lemma relu_below it st : visited (fossil pb env) start one_sample it st -> it = 0 \/ it = 1.
  Proof.
    intros H. destruct (Nat.le_gt_cases it 1) as [|L]; [lia|]. exfalso.
    destruct (P_Complete.visited_below _ _ _ _ _ H 1 L) as (s1 & s2 & V1 & I1). destruct (relu_stops s1 V1) as (s3 & E & _). rewrite E in I1. discriminate.
  Qed.
  Lemma relu_trained it st p c : trained pb env start one_sample it st p c ->
    (it = 0 /\ st = init_state (fossil pb env) start one_sample /\ p = first_learned /\ c = pair_of (twin 1)) \/
    (it = 1 /\ st_S st = [(XD, samples1)] /\ st_Sdot st = [(XD, images samples1)] /\ p = second_learned /\ c = pair_of (twin (-1))).
  Proof.
    intros (Hv & Hl & Ht). destruct (relu_below it st Hv) as [-> | ->].
    - left. assert (E : st = init_state (fossil pb env) start one_sample) by (apply (visited_fun _ _ _ 0 _ _ Hv (visited_first _ _ _))). subst st.
      cbn [c_learn fossil init_state st_params st_S st_Sdot st_frozen] in Hl. rewrite relu_learn0 in Hl. injection Hl as <-.
      cbn [c_translate fossil] in Ht. rewrite relu_translate0 in Ht. injection Ht as <-. auto.
    - right. destruct (relu_visited1 st Hv) as (E1 & E2 & E3 & E4). rewrite E1, E2, E3, E4 in Hl. cbn [c_learn fossil] in Hl. rewrite relu_learn1 in Hl. injection Hl as <-.
      cbn [c_translate fossil] in Ht. rewrite relu_translate1 in Ht. injection Ht as <-. auto.
  Qed.
  Lemma pair_first : eval (state_of half) (fst (pair_of (twin 1))) = 0%R /\ eval (state_of half) (snd (pair_of (twin 1))) = 0%R.
  Proof.
    match goal with |- context [pair_of ?a] => let v := eval vm_compute in (pair_of a) in change (pair_of a) with v end.
    split; cbn -[Q2R]; q2r; rewrite ?Rmax_left by lra; repeat match goal with |- context [Rlt_dec ?a ?b] => destruct (Rlt_dec a b) end; lra.
  Qed.
  Lemma pair_second : (eval (state_of half) (fst (pair_of (twin (-1)))) = 1/2 /\ eval (state_of half) (snd (pair_of (twin (-1)))) = - (1/2))%R.
  Proof.
    match goal with |- context [pair_of ?a] => let v := eval vm_compute in (pair_of a) in change (pair_of a) with v end.
    split; cbn -[Q2R]; q2r; rewrite ?Rmax_left, ?Rmax_right by lra; repeat match goal with |- context [Rlt_dec ?a ?b] => destruct (Rlt_dec a b) end; lra.
  Qed.
  Lemma relu_answers : answers_from pb env start one_sample pool1.
  Proof.
    intros it st p c gs g l fm n Ht Eg Hg Hl. destruct (relu_trained it st p c Ht) as [(-> & _ & -> & ->)|(-> & _ & _ & -> & ->)]; [right|left; reflexivity].
    unfold fossil_constraints in Eg. rewrite Etype, Ello, En in Eg. injection Eg as <-. destruct Hg as [<-|[]]. destruct Hl as [Hl|[]]. injection Hl as <- <-. split; [reflexivity|]. split; [|rewrite En; split; [reflexivity|now left]].
    change (holds (state_of half) (fand [pb_sets pb XD; fand [for_ [FCmp CLe (fst (pair_of (twin 1))) E0; FCmp CGe (snd (pair_of (twin 1))) E0]; FNot (fand (map (fun xi => FCmp CEq xi E0) (new_vars 1)))]])).
    destruct pair_first as [E1 E2]. assert (Z0 : eval (state_of half) E0 = 0%R) by (cbn; apply Q2R_0).
    cbn [holds cmp_holds fand for_ fold_right map new_vars seq]. rewrite E1, E2, Z0, Esets. split; [|repeat split].
    - apply ball_holds. cbn -[Q2R]. q2r. lra.
    - left. lra.
    - intros [H1 _]. cbn in H1. lra.
  Qed.
  Lemma relu_trains : trains pb env start xdot one_sample pool1.
  Proof.
    intros it st p c Ht. destruct (relu_trained it st p c Ht) as [(-> & -> & -> & ->)|(-> & E1 & E2 & -> & ->)].
    - split; [|split; [intros H; now rewrite Etype in H|]].
      + exists 0. cbn [init_state st_S st_Sdot st_params l_net first_learned]. apply perfect0.
      + intros l x [[= <- <-]|[]] [Hx|[]]. exfalso. unfold half in Hx. injection Hx as Hx. lra.
    - split; [|split; [intros H; now rewrite Etype in H|]].
      + exists 0. rewrite E1, E2. apply perfect1.
      + intros l x [[= <- <-]|[]] _. split; [cbn; tauto|]. split; [now rewrite Edis|].
        destruct pair_second as [-> ->]. split; [unfold excused; rewrite Etype, Ello; intros [H|[_ H]]; lra|]. unfold left_out. rewrite Etype. tauto.
  Qed.
End Run.

(** The session of the file, and its run: two iterations, which is the bound of C78_document; the first candidate is refuted. *)
Example C78_document_example : exists pb net ctrl xdot,
  session_of math 100 100 (fun _ _ _ => 1%Q) (fun _ _ _ => 1%Q) relu_doc = Some (pb, net, ctrl) /\
  (forall s, eval s (nth 0 xdot (ENum 0)) = system_field math 1 [relu_tree] (fun _ => []) s 0) /\
  lawful pb (relu_env pb) /\ keeps_controller 1 None ctrl (relu_env pb) /\ environment_returns (relu_env pb) /\
  sampled LYAPUNOV one_sample /\ NoDup (keys one_sample) /\ tests pb (relu_env pb) /\
  answers_from pb (relu_env pb) (initial pb net ctrl) one_sample pool1 /\ trains pb (relu_env pb) (initial pb net ctrl) xdot one_sample pool1 /\
  exists r, run_fossil pb (relu_env pb) (length pool1 + 1) net ctrl one_sample = Some (Some r) /\ r_res r = true /\ r_iters r = length pool1 + 1.
Proof.
  destruct (session_get (session_of math 100 100 (fun _ _ _ => 1%Q) (fun _ _ _ => 1%Q) relu_doc) (fun x => (summary x, pb_max_iters (fst (fst x))))
    (twin 1, no_controller, (ball_fml 9, FFalse, FFalse), Some [EUn UNeg (EVar 0)], (LYAPUNOV, 1, false, false, false, SZ3, (-1)%Z), (-1)%Z))
    as (pb & net & ctrl & E1 & E2); [vm_compute; reflexivity|].
  unfold summary in E2. cbn [fst] in E2. injection E2 as -> -> Es _ _ Ex Et En El Eq Ed Eb Er Em.
  destruct (session_system _ _ _ _ _ _ _ _ _ _ _ _ _ _ _ _ _ relu_documented ltac:(lia) math_usual E1 En Ex eq_refl) as [Sys Fld].
  exists pb, (twin 1), no_controller, [EUn UNeg (EVar 0)]. split; [exact E1|]. split; [intros s; apply Fld; lia|].
  split; [exact (relu_lawful pb)|]. split; [intros it p S Sdot Hl; exact Hl|]. split; [split; discriminate|].
  split; [intros l; cbn; intuition congruence|]. split; [repeat constructor; intros []|]. split; [eapply relu_tests; eassumption|].
  split; [eapply relu_answers; try eassumption; reflexivity|]. split; [eapply relu_trains; try eassumption; reflexivity|].
  destruct (relu_iterate0 pb [EUn UNeg (EVar 0)]) as (st & E & _); try assumption; try reflexivity.
  destruct (relu_stops pb [EUn UNeg (EVar 0)] Sys eq_refl) with (st := st) as (st' & E' & F); try assumption.
  { exact (visited_next _ _ _ 0 _ _ (visited_first _ _ _) E). }
  unfold run_fossil, solve. change (length pool1 + 1) with 2. cbn [loop]. rewrite E. change (0 + 1) with 1. rewrite E'. eexists. split; [reflexivity|]. split; [exact F|reflexivity].
Qed.
