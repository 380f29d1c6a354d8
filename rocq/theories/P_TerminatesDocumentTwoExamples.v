(** C78 for a file with two functions (StableSafe): all hypotheses are met by a run of two iterations. *)
From Coquelicot Require Import Coquelicot.
From Coq Require Import String Ascii Reals QArith Qreals Bool Arith ZArith Decimal Lra Lia List.
From Verif Require Import M_Syntax M_Certificates M_Verifier M_Activations M_Domains M_Network M_Learner M_Cegis M_Labels M_Fossil M_Double M_Learning M_Gradient
  M_Control M_Parser M_Lexer M_Variables M_DomainParser M_Cli M_Config S_Activations S_Network S_Learner S_Cegis S_Fossil S_Double S_Loops S_Domains S_Learning
  S_Parser S_Lexer S_Variables S_DomainParser S_Control S_Cli S_Config S_Labels S_Start S_Progress S_Terminates S_ProgressTwo
  L_Holds L_Learner L_Demo P_Cli P_ConfigExamples P_StartExamples P_Activations P_Cegis P_TranslatorBugs P_Learning P_Gradient P_DoubleExamples P_ConfigDoubleExamples P_Progress L_Verifier L_Table P_TerminatesExamples L_Table
  P_TerminatesTwoExamples P_TerminatesDocument P_TerminatesDocumentExamples.
Import ListNotations.
Local Close Scope Q_scope.
Local Open Scope string_scope.
Local Open Scope list_scope.
Local Open Scope nat_scope.

(** x' = -x with XD = [-3, 3], XI = [-1, 1] and XU = [2, 3], no rounding and no limit on the iterations. *)
Definition duo_doc : document :=
  [("N_VARS", YInt 1); ("SYSTEM", YList [YStr "-x0"]); ("CERTIFICATE", YStr "StableSafe"); ("TIME_DOMAIN", YStr "Continuous");
   ("DOMAINS", YMap [("XD", YStr "Sphere([0], 3)"); ("XI", YStr "Sphere([0], 1)"); ("XU", YStr "Rectangle([2], [3])")]);
   ("N_DATA", YMap [("XD", YInt 100); ("XI", YInt 100); ("XU", YInt 100)]); ("LLO", YBool true);
   ("N_HIDDEN_NEURONS", YList [YInt 1]); ("ACTIVATION", YList [YStr "Square"]);
   ("N_HIDDEN_NEURONS_ALT", YList [YInt 1]); ("ACTIVATION_ALT", YList [YStr "Square"]); ("ROUNDING", YInt (-1)); ("CEGIS_MAX_ITERS", YInt (-1))].
Lemma duo_documented : documented duo_doc STABLESAFE CONTINUOUS VZ3 1 [relu_tree] None (-1) (-1).
Proof.
  constructor.
  - repeat (constructor; [cbn; intuition discriminate|]). constructor.
  - intros f y G _. unfold gives in G. cbn in G. repeat (destruct G as [G|G]; [injection G as <- <-|]); try destruct G; try plain_field.
    + eexists. apply means_certificate with (c := STABLESAFE). apply spelled_upper; [apply certificate_capital|reflexivity].
    + eexists. apply means_time with (t := CONTINUOUS). apply continuous_spelled.
    + eexists. apply (means_activations "ACTIVATION" ["Square"] [SQUARE]); [cbn; tauto|]. constructor; [apply square_spelled|constructor].
    + eexists. apply (means_activations "ACTIVATION_ALT" ["Square"] [SQUARE]); [cbn; tauto|]. constructor; [apply square_spelled|constructor].
  - exists "StableSafe", "Continuous". split; [cbn; auto|]. split; [apply spelled_upper; [apply certificate_capital|reflexivity]|].
    split; [cbn; auto|]. apply continuous_spelled.
  - discriminate.
  - discriminate.
  - split; [now left|]. right. split; [intros y H; absent|reflexivity].
  - cbn. auto.
  - exists ["-x0"]. split; [cbn; auto|]. split; [|constructor; [|constructor]].
    + constructor; [|constructor]. unfold written. cbn [S_Parser.text app list_ascii_of_string relu_tree].
      apply (spaced_cons [] _ ["-"%char]); [constructor|constructor|].
      apply (spaced_cons [] _ ["x"%char; "0"%char] _ []); [constructor|apply (tt_state (D0 Nil))|]. apply (spaced_nil []). constructor.
    + split; [repeat constructor|cbn; split; [discriminate|exact I]].
  - reflexivity.
  - constructor; [|constructor]. cbn. repeat split; auto; discriminate.
  - intros d. cbn. split.
    + intros [H|[]]. injection H as <-. exists 0. split; [lia|reflexivity].
    + intros (j & Hj & ->). replace j with 0 by lia. now left.
  - constructor; [intros y H; absent|]. intros d. cbn. intros [H|[]]. discriminate.
  - eapply written_sets; [cbn; auto 20|repeat (constructor; [cbn; intuition discriminate|]); constructor| |].
    + constructor; [set_ball XD|]. constructor; [set_ball XI|]. constructor; [set_box XU|constructor].
    + every_label.
  - left. exists [(XD, 100); (XI, 100); (XU, 100)]. split; [cbn; auto 20|]. split; [repeat (constructor; [cbn; intuition discriminate|]); constructor|].
    intros l. cbn. intuition congruence.
  - exists [1], [SQUARE]. split; [discriminate|]. split; [repeat constructor|]. split; [reflexivity|]. split; [repeat constructor|].
    split; [left; cbn; auto 20|]. left. exists ["Square"]. split; [cbn; auto 20|]. constructor; [apply square_spelled|constructor].
  - left. cbn. auto 20.
  - left. cbn. auto 20.
  - split; [lia|]. intros f y F G. cbn in F. destruct F as [<-|[<-|[<-|[]]]]; absent.
  - intros f y F G. cbn in F. destruct F as [<-|[<-|[<-|[]]]]; absent.
  - intros f F y G. cbn in F. destruct F as [<-|[<-|[<-|[<-|[]]]]]; absent.
Qed.
Lemma duo_layers : layers duo_doc VZ3 "N_HIDDEN_NEURONS_ALT" "ACTIVATION_ALT".
Proof.
  exists [1], [SQUARE]. split; [discriminate|]. split; [repeat constructor|]. split; [reflexivity|]. split; [repeat constructor|].
  split; [left; cbn; auto 20|]. left. exists ["Square"]. split; [cbn; auto 20|]. constructor; [apply square_spelled|constructor].
Qed.
Lemma duo_factors s : gives duo_doc "FACTORS" (YStr s) -> ~ spelled s "QUADRATIC".
Proof. absent. Qed.

(** V = x^2 and B = x^2 + b, with b = 0 at first; the solver rejects it at 1/4, where B > 0 although 1/4 is initial.
    Then the optimiser lowers b to -1/2. *)
Definition barb (b : Q) : network :=
  {| in_size := 1; hidden := [({| weight := [[1]]%Q; bias := Some [0]%Q |}, ASquare)]; last := {| weight := [[1]]%Q; bias := Some [b]%Q |} |}.
Definition duo_rand (k row col : nat) : Q := match row with O => 0%Q | _ => 1%Q end.
Definition duo_at (b : Q) : learned2 controller := {| d_lyap := lya_net; d_barr := barb b; d_ctrl := no_controller; d_beta := 1%Q |}.
Definition duo_cand (b : Q) : candidate2 := (pair_of lya_net, pair_of (barb b)).
Definition duo_query : fml :=
  fand [fand [FCmp CGe (fst (snd (duo_cand 0))) E0; ball_fml 1]; ball_fml 9].
Definition duo_test (pb : problem controller) (S Sdot : dict) (nets : network * network) : option bool :=
  let v1 := value_at pb (fst nets) in let v2 := value_at pb (snd nets) in
  let l1 := derivative_at pb (fst nets) in let l2 := derivative_at pb (snd nets) in
  option_bind (safe_roa_batch v1 v2 l1 l2 None S Sdot) (fun b =>
    option_bind (lyapunov_ok (fun v => v) true (fst b)) (fun b1 => option_bind (barrier_ok (fun v => v) false (snd b)) (fun b2 => Some (b1 && b2)))).
Definition duo_solver (it : nat) : backend := smt_backend (fun _ f => if (it =? 0)%nat then (if fml_dec f duo_query then Sat quarter else Unsat) else Unsat).
Definition duo_env (pb : problem controller) : environment2 controller :=
  {| e2_perfect := fun _ _ S Sdot _ nets => match duo_test pb S Sdot nets with Some b => b | None => false end;
     e2_step := fun it _ _ _ _ nets => if (it =? 0)%nat then nets else (fst nets, lower (snd nets));
     e2_ctrl := fun _ p _ _ => d_ctrl p; e2_beta := fun _ _ _ _ => 1%Q; e2_simp := fun e => e;
     e2_solver := duo_solver;
     e2_noise := fun _ _ _ _ => 0%R;
     e2_trajectory := fun _ _ _ _ => Some [] |}.
Definition duo_data : dict := [(XD, [[1%R]]); (XI, [[0%R]]); (XU, [[3%R]])].
Definition duo_data1 : dict := [(XD, [[1%R]]); (XI, [0%R] :: repeat quarter 21); (XU, [[3%R]])].
Definition duo_pool : list (label * point) := [(XI, quarter)].
Definition duo_cex : dict := [(XD, []); (XI, repeat quarter 21); (XU, [])].
Lemma after_lower (step : nat -> network * network -> network * network) n1 k : (forall t nets, step t nets = (fst nets, lower (snd nets))) -> 1 <= k ->
  forall b, after step (n1, barb b) k = (n1, barb (-1#2)).
Proof.
  intros H Hk. destruct k as [|k]; [lia|]. clear Hk. intros b. induction k as [|k IH].
  - cbn. now rewrite H.
  - cbn [after] in *. rewrite IH, H. reflexivity.
Qed.

Section Duo.
  Context (pb : problem controller).
  Context (xdot : list expr).
  Hypothesis Sys : without_controller pb xdot.
  Hypothesis Exd : xdot = [EUn UNeg (EVar 0)].
  Hypothesis EsD : pb_sets pb XD = ball_fml 9.
  Hypothesis EsI : pb_sets pb XI = ball_fml 1.
  Hypothesis EsU : pb_sets pb XU = box_fml 2 3.
  Hypothesis Etype : pb_type pb = STABLESAFE.
  Hypothesis En : pb_n pb = 1.
  Hypothesis Ello : pb_llo pb = true.
  Hypothesis Equad : pb_quad pb = false.
  Hypothesis Edis : pb_discrete pb = false.
  Hypothesis Esymb : pb_symb pb = SZ3.
  Hypothesis Emax : pb_max_iters pb = (-1)%Z.
  Hypothesis Ero : pb_rounding pb = (-1)%Z.

  Let env := duo_env pb.
  Let start := initial2 pb lya_net (barb 0) no_controller.
  Let f := pb_f pb no_controller.
  Let image (d : list point) : list point := map f d.
  Let dimage (S : dict) : dict := map (fun e => (fst e, image (snd e))) S.
  Lemma duo_f a : pb_f pb no_controller [a] = [(- a)%R].
  Proof. destruct Sys as (_ & _ & _ & H). rewrite H by now rewrite En. rewrite Exd. reflexivity. Qed.
  Lemma lya_at a : value_at pb lya_net [a] = (a * a)%R /\ derivative_at pb lya_net [a] (f [a]) = (- 2 * a * a)%R.
  Proof.
    unfold f. rewrite duo_f. split; [unfold value_at, learner_value|unfold derivative_at]; rewrite Edis, Equad; cbn -[Q2R]; unfold Rsum; cbn -[Q2R]; q2r; lra.
  Qed.
  Lemma bar_at b a : value_at pb (barb b) [a] = (a * a + Q2R b)%R /\ derivative_at pb (barb b) [a] (f [a]) = (- 2 * a * a)%R.
  Proof.
    unfold f. rewrite duo_f. split; [unfold value_at, learner_value|unfold derivative_at]; rewrite Edis, Equad; cbn -[Q2R]; unfold Rsum; cbn -[Q2R]; q2r; lra.
  Qed.
  Lemma duo_tests : tests2 pb env.
  Proof.
    intros it p S Sdot t nets H. cbn [e2_perfect env duo_env] in H. unfold training_test2. rewrite Etype, Ello.
    unfold duo_test in H. exists (fun v => v), (fun v => v), false. destruct (safe_roa_batch _ _ _ _ _ _ _) as [b|]; cbn [option_bind] in H; [|discriminate].
    exists b. split; [reflexivity|]. destruct (lyapunov_ok _ _ _) as [b1|]; cbn [option_bind] in H; [|discriminate].
    destruct (barrier_ok _ _ _) as [b2|]; cbn [option_bind] in H; [|discriminate]. apply andb_true_iff in H. destruct H as [-> ->]. now split.
  Qed.
  Lemma duo_lawful : lawful2 env.
  Proof.
    intros it p S Sdot t nets. cbn [e2_step env duo_env]. destruct (it =? 0)%nat; cbn [fst snd]; split; try apply same_shape_refl. apply lower_shape.
  Qed.
  Lemma duo_passes it p t b (sd si su : list point) : sd <> [] -> si <> [] ->
    (forall x, In x sd -> exists a, x = [a] /\ (0 <= a * a + Q2R b)%R) ->
    (forall x, In x si -> exists a, x = [a] /\ (a * a + Q2R b <= 0)%R) ->
    (forall x, In x su -> exists a, x = [a] /\ (0 <= a * a + Q2R b)%R) ->
    let S := [(XD, sd); (XI, si); (XU, su)] in
    e2_perfect env it p S (dimage S) t (lya_net, barb b) = true.
  Proof.
    intros Nd Ni Hd Hi Hu. cbn zeta. set (S := [(XD, sd); (XI, si); (XU, su)]). cbn [e2_perfect env duo_env]. unfold duo_test. cbn [fst snd].
    assert (Him : images_of f None S (dimage S)) by (right; split; reflexivity).
    assert (T0 := proj1 (C40_stablesafe_in_order (value_at pb lya_net) (value_at pb (barb b)) (derivative_at pb lya_net) (derivative_at pb (barb b)) f None (dimage S) sd [] si su) Him).
    cbn zeta in T0. change [(XD, sd); (XI, si); (XU, su)] with S in T0. rewrite T0. clear T0.
    cbn [option_bind fst snd].
    assert (Him1 : images_of f None [(XD, sd)] [(XD, map f sd)]) by (right; split; reflexivity).
    rewrite (proj2 (C41_lyapunov_roa_samples (fun v => v) true (value_at pb lya_net) (derivative_at pb lya_net) f None _ _ sd _ Him1 eq_refl Nd
              (C40_lyapunov_roa _ _ f None _ _ sd Him1 eq_refl))).
    2:{ intros x Hx. destruct (Hd x Hx) as (a & -> & _). destruct (lya_at a) as [_ ->]. split; [nra|discriminate]. }
    cbn [option_bind].
    destruct (C41_barrier (fun v => v) false (map (value_at pb (barb b)) si) (map (value_at pb (barb b)) su) (map (value_at pb (barb b)) sd)
       (map (fun x => derivative_at pb (barb b) x (f x)) sd) (or_introl (map_nonempty _ _ Ni))) as (ok & n & bad & E & N1 & N2 & K).
    rewrite E. cbn [option_bind]. cbn [andb]. apply K. split; [|split; [|split]].
    - apply map_Forall. intros x Hx. destruct (Hi x Hx) as (a & -> & H). now destruct (bar_at b a) as [-> _].
    - apply map_Forall. intros x Hx. destruct (Hu x Hx) as (a & -> & H). now destruct (bar_at b a) as [-> _].
    - apply (counted _ _ _ _ N1). destruct sd as [|x sd]; [contradiction|]. exists 0. cbn [map]. eexists. eexists. split; [reflexivity|]. split; [reflexivity|].
      destruct (Hd x (or_introl eq_refl)) as (a & -> & H). unfold in_belt. now destruct (bar_at b a) as [-> _].
    - rewrite (not_counted _ _ _ _ N2); [lia|]. apply same_place_of. intros x Hx [_ H]. destruct (Hd x Hx) as (a & -> & _).
      destruct (bar_at b a) as [_ Ed]. rewrite Ed in H. nra.
  Qed.
  Lemma duo_passes0 it p t : e2_perfect env it p duo_data (dimage duo_data) t (lya_net, barb 0) = true.
  Proof.
    apply duo_passes; try discriminate; intros x [<-|[]]; (eexists; split; [reflexivity|]); q2r; lra.
  Qed.
  Lemma duo_passes1 it p t : e2_perfect env it p duo_data1 (dimage duo_data1) t (lya_net, barb (-1#2)) = true.
  Proof.
    apply duo_passes; try discriminate.
    - intros x [<-|[]]. eexists. split; [reflexivity|]. q2r. lra.
    - intros x Hx. now apply (quarter_in _ x 21).
    - intros x [<-|[]]. eexists. split; [reflexivity|]. q2r. lra.
  Qed.
  Lemma duo_start : d_lyap start = lya_net /\ d_barr start = barb 0.
  Proof. unfold start, initial2. rewrite Ello. split; reflexivity. Qed.
  Lemma duo_learn0 S Sdot : double_learn pb env 0 false start S Sdot = Some (duo_at 0).
  Proof.
    unfold double_learn, learn_pair. rewrite Etype. destruct duo_start as [-> ->].
    change (e2_step env 0 _ S Sdot) with (fun (_ : nat) (n : network * network) => n). rewrite safe_pair_id. now destruct (pb_control pb).
  Qed.
  Lemma duo_learn1 frozen S Sdot : double_learn pb env 1 frozen (duo_at 0) S Sdot = Some (duo_at (-1#2)).
  Proof.
    unfold double_learn.
    assert (E : learn_pair pb env frozen 1 (duo_at 0) S Sdot = (lya_net, barb (-1#2))).
    { destruct (P_Loops.C60_stablesafe controller pb env frozen 1 (duo_at 0) S Sdot Etype) as (k & Hk & E & _ & D).
      cbn zeta in *. rewrite E. apply after_lower; [intros t nets; now destruct frozen|].
      destruct (Nat.eq_dec k 1000) as [->|]; [lia|]. destruct (D ltac:(lia)). lia. }
    rewrite E. now destruct (pb_control pb).
  Qed.
  Lemma duo_translate it b : pair_of (barb b) <> (ENum 0, ENum 0) -> double_translate pb env it (duo_at b) = Some (duo_cand b).
  Proof.
    intros H. unfold double_translate. destruct Sys as (_ & Hx & _). rewrite Hx, Esymb, Ero, En, Exd. cbn [option_bind env duo_env e2_simp duo_at d_lyap d_barr].
    unfold duo_cand. unfold pair_of in *. change (translate_ct SZ3 (fun e => e) (-1) false lya_net (new_vars 1) [EUn UNeg (EVar 0)]) with (Some (pair_of lya_net)).
    cbn [option_bind]. destruct (translate_ct SZ3 (fun e => e) (-1) false (barb b) (new_vars 1) [EUn UNeg (EVar 0)]); [reflexivity|congruence].
  Qed.
  Lemma duo_translate0 it : double_translate pb env it (duo_at 0) = Some (duo_cand 0).
  Proof. apply duo_translate. discriminate. Qed.
  Lemma duo_translate1 it : double_translate pb env it (duo_at (-1#2)) = Some (duo_cand (-1#2)).
  Proof. apply duo_translate. discriminate. Qed.
  (** The queries as closed formulas. *)
  Definition duo_sets : sets := fun l => match l with XD => ball_fml 9 | XI => ball_fml 1 | XU => box_fml 2 3 | _ => FTrue end.
  Definition duo_groups (b : Q) : list group :=
    safe_roa_constraints true (new_vars 1) duo_sets 1 (fst (pair_of lya_net)) (fst (pair_of (barb b))) (snd (pair_of lya_net)) (snd (pair_of (barb b))).
  Lemma duo_constraints b : double_constraints pb 1 (duo_cand b) = Some (duo_groups b).
  Proof.
    unfold double_constraints, duo_cand, duo_groups. destruct (pair_of lya_net) as [V Vdot], (pair_of (barb b)) as [B Bdot]. rewrite Etype, Ello, En. cbn [fst snd].
    unfold safe_roa_constraints, roa_constraints, barrier_constraints. rewrite EsD, EsI, EsU. reflexivity.
  Qed.
  Lemma duo_verify0 : double_verify pb env 0 (duo_at 0) (duo_cand 0) = Some (false, duo_cex).
  Proof.
    unfold double_verify. cbn [d_beta duo_at]. rewrite duo_constraints. cbn [option_bind]. unfold duo_cex. rewrite <- quarter_noise. vm_compute. reflexivity.
  Qed.
  Lemma duo_iterate0 : exists st, M_Cegis.iterate (double pb env) 0 (init_state (double pb env) start duo_data) = Some (false, st) /\
    st_S st = duo_data1 /\ st_Sdot st = dimage duo_data1 /\ st_params st = duo_at 0.
  Proof.
    unfold M_Cegis.iterate. cbn [c_learn c_translate c_verify double init_state st_params st_S st_Sdot st_frozen]. rewrite duo_learn0. cbn [option_bind].
    rewrite duo_translate0. cbn [option_bind]. rewrite duo_verify0. cbn [option_bind c_max_iters double]. rewrite Emax.
    eexists. split; [reflexivity|]. repeat split.
  Qed.
  Lemma duo_visited1 st : visited (double pb env) start duo_data 1 st ->
    st_S st = duo_data1 /\ st_Sdot st = dimage duo_data1 /\ st_params st = duo_at 0.
  Proof.
    intros H. destruct duo_iterate0 as (st1 & E & R). rewrite (visited_fun _ _ _ 1 st st1 H (visited_next _ _ _ 0 _ _ (visited_first _ _ _) E)). exact R.
  Qed.
  Lemma duo_verify1 it c0 : it = 1 -> c0 = duo_cand (-1#2) -> double_verify pb env it (duo_at (-1#2)) c0 = Some (true, [(XD, []); (XI, []); (XU, [])]).
  Proof.
    intros -> ->. unfold double_verify. cbn [d_beta duo_at]. rewrite duo_constraints. cbn [option_bind]. vm_compute. reflexivity.
  Qed.
  Lemma duo_stops st : visited (double pb env) start duo_data 1 st -> exists st', M_Cegis.iterate (double pb env) 1 st = Some (true, st') /\ st_found st' = true.
  Proof.
    intros H. destruct (duo_visited1 st H) as (E1 & E2 & E3). unfold M_Cegis.iterate. rewrite E1, E2, E3. cbn [c_learn c_translate c_verify double].
    rewrite duo_learn1. cbn [option_bind]. rewrite duo_translate1. cbn [option_bind]. rewrite (duo_verify1 1 _ eq_refl eq_refl). cbn [option_bind].
    unfold process_certificate. cbn [c_type double]. rewrite Etype. eexists. split; reflexivity.
  Qed.
  Lemma duo_below it st : visited (double pb env) start duo_data it st -> it = 0 \/ it = 1.
  Proof.
    intros H. destruct (Nat.le_gt_cases it 1) as [|L]; [lia|]. exfalso.
    destruct (P_Complete.visited_below _ _ _ _ _ H 1 L) as (s1 & s2 & V1 & I1). destruct (duo_stops s1 V1) as (s3 & E & _). rewrite E in I1. discriminate.
  Qed.
  Lemma duo_trained it st p c : trained2 pb env start duo_data it st p c ->
    (it = 0 /\ st = init_state (double pb env) start duo_data /\ p = duo_at 0 /\ c = duo_cand 0) \/
    (it = 1 /\ st_S st = duo_data1 /\ st_Sdot st = dimage duo_data1 /\ p = duo_at (-1#2) /\ c = duo_cand (-1#2)).
  Proof.
    intros (Hv & Hl & Ht). destruct (duo_below it st Hv) as [-> | ->].
    - left. assert (E : st = init_state (double pb env) start duo_data) by (apply (visited_fun _ _ _ 0 _ _ Hv (visited_first _ _ _))). subst st.
      cbn [c_learn double init_state st_params st_S st_Sdot st_frozen] in Hl. rewrite duo_learn0 in Hl. injection Hl as <-.
      cbn [c_translate double] in Ht. rewrite duo_translate0 in Ht. apply Some_eq' in Ht. subst c. auto.
    - right. destruct (duo_visited1 st Hv) as (E1 & E2 & E3). rewrite E1, E2, E3 in Hl. cbn [c_learn double] in Hl. rewrite duo_learn1 in Hl. injection Hl as <-.
      cbn [c_translate double] in Ht. rewrite duo_translate1 in Ht. apply Some_eq' in Ht. subst c. auto.
  Qed.
  Lemma duo_name l g h : In g (duo_groups 0) -> In (l, h) g -> h = duo_query -> l = XI.
  Proof.
    intros Hg Hl Hf.
    assert (A : forallb (fun g => forallb (fun lf => if fml_dec (snd lf) duo_query then label_eqb (fst lf) XI else true) g) (duo_groups 0) = true) by (vm_compute; reflexivity).
    rewrite forallb_forall in A. specialize (A g Hg). rewrite forallb_forall in A. specialize (A _ Hl). cbn [fst snd] in A.
    destruct (fml_dec h duo_query); [now apply label_eqb_spec|contradiction].
  Qed.
  Lemma duo_values b x : b = 0%Q \/ b = (-1#2)%Q -> let c := duo_cand b in let s := state_of [x] in
    eval s (fst (fst c)) = (x * x)%R /\ eval s (snd (fst c)) = (- 2 * x * x)%R /\
    eval s (fst (snd c)) = (x * x + Q2R b)%R /\ eval s (snd (snd c)) = (- 2 * x * x)%R.
  Proof.
    intros [-> | ->]; cbn zeta.
    all: match goal with |- context [duo_cand ?a] => let v := eval vm_compute in (duo_cand a) in change (duo_cand a) with v end.
    all: repeat split; cbn -[Q2R]; q2r; lra.
  Qed.
  Lemma duo_query_holds : holds (state_of quarter) duo_query.
  Proof.
    assert (Z0 : eval (state_of quarter) E0 = 0%R) by (cbn; apply Q2R_0).
    destruct (duo_values 0 (1/4)%R (or_introl eq_refl)) as (_ & _ & EB & _). fold quarter in EB.
    unfold duo_query. cbn [holds fand cmp_holds fold_right]. rewrite EB, Z0. rewrite !ball_holds. unfold quarter. cbn [state_of nth]. repeat split; q2r; lra.
  Qed.
  Lemma duo_answers : answers_from2 pb env start duo_data duo_pool.
  Proof.
    intros it st p c gs g l h n Ht Eg Hg Hl. destruct (duo_trained it st p c Ht) as [(-> & _ & -> & ->)|(-> & _ & _ & -> & ->)]; [|left; reflexivity].
    cbn [d_beta duo_at] in Eg. rewrite duo_constraints in Eg. apply Some_eq' in Eg. subst gs.
    cbn zeta. cbn [e2_solver env duo_env]. unfold duo_solver. cbn [Nat.eqb]. destruct (fml_dec h duo_query) as [E|N]; [right|left].
    - split; [with_strategy opaque [duo_query] cbn; now destruct (fml_dec h duo_query)|].
      assert (M : b_model (smt_backend (fun (_ : nat) f => if fml_dec f duo_query then Sat quarter else Unsat))
                    (b_solve (smt_backend (fun (_ : nat) f => if fml_dec f duo_query then Sat quarter else Unsat)) n h) = quarter).
      { with_strategy opaque [duo_query] cbn. now destruct (fml_dec h duo_query). }
      rewrite M. split; [subst h; apply duo_query_holds|]. split; [now rewrite En|]. rewrite (duo_name l g h Hg Hl E). now left.
    - with_strategy opaque [duo_query] cbn. now destruct (fml_dec h duo_query).
  Qed.
  Lemma duo_trains : trains2 pb env start xdot duo_data duo_pool.
  Proof.
    split; [rewrite Etype; split; cbn; congruence|]. intros it st p c Ht. destruct (duo_trained it st p c Ht) as [(-> & -> & -> & ->)|(-> & E1 & E2 & -> & ->)].
    - split.
      + exists 0. cbn [init_state st_S st_Sdot st_params d_lyap d_barr duo_at]. exact (duo_passes0 0 start 0).
      + intros l x [[= <- <-]|[]] Hx. exfalso. assert (Hx' : In quarter [[0%R]]) by exact Hx.
        destruct Hx' as [Hx'|[]]. injection Hx' as Hx'. lra.
    - split.
      + exists 0. rewrite E1, E2. apply duo_passes1.
      + intros l x [[= <- <-]|[]] _. split; [cbn; tauto|]. split; [cbn; tauto|]. split.
        { unfold left_out2. rewrite Etype. intros (_ & _ & C & _). discriminate C. }
        unfold quarter. destruct (duo_values (-1#2) (1/4)%R (or_intror eq_refl)) as (-> & -> & -> & ->). unfold excused2. rewrite Etype.
        q2r. lra.
  Qed.
End Duo.

Lemma session2_first numpy f1 f2 rand rand2 randc doc pb net net2 ctrl :
  session2_of numpy f1 f2 rand rand2 randc doc = Some (pb, net, net2, ctrl) -> session_of numpy f1 f2 rand randc doc = Some (pb, net, ctrl).
Proof.
  unfold session2_of. destruct (session_of numpy f1 f2 rand randc doc) as [[[pb' net'] ctrl']|]; cbn [option_bind]; [|discriminate]. intros E.
  destruct (pb_type pb'); try discriminate E; (destruct (read_config doc) as [c|]; cbn [option_bind] in E; [|discriminate E]);
    (destruct (learner_alt_of rand2 c (pb_n pb')); cbn [option_bind] in E; [|discriminate E]);
    exact (f_equal (option_map (fun x => (fst (fst (fst x)), snd (fst (fst x)), snd x))) E).
Qed.
(** The session of the file, and its run: two iterations, which is the bound of C78_document_two. *)
Example C78_document_two_example : exists pb net net2 ctrl xdot,
  session2_of math 100 100 duo_rand duo_rand (fun _ _ _ => 1%Q) duo_doc = Some (pb, net, net2, ctrl) /\
  (forall s, eval s (nth 0 xdot (ENum 0)) = system_field math 1 [relu_tree] (fun _ => []) s 0) /\
  lawful2 (duo_env pb) /\ keeps_controller2 1 None ctrl (duo_env pb) /\ (forall it b p x, e2_trajectory (duo_env pb) it b p x <> None) /\
  sampled STABLESAFE duo_data /\ in_order STABLESAFE duo_data /\ tests2 pb (duo_env pb) /\
  answers_from2 pb (duo_env pb) (initial2 pb net net2 ctrl) duo_data duo_pool /\ trains2 pb (duo_env pb) (initial2 pb net net2 ctrl) xdot duo_data duo_pool /\
  exists r, run_double pb (duo_env pb) (length duo_pool + 1) net net2 ctrl duo_data = Some (Some r) /\ r_res r = true /\ r_iters r = length duo_pool + 1.
Proof.
  destruct (session2_get (session2_of math 100 100 duo_rand duo_rand (fun _ _ _ => 1%Q) duo_doc) (fun x => (summary2 x, pb_max_iters (fst (fst (fst x)))))
    (lya_net, barb 0, no_controller, (ball_fml 9, ball_fml 1, box_fml 2 3, FFalse, FFalse, FFalse, FFalse, FFalse), Some [EUn UNeg (EVar 0)],
     (STABLESAFE, 1, true, false, false, SZ3, (-1)%Z), (-1)%Z))
    as (pb & net & net2 & ctrl & E1 & E2); [vm_compute; reflexivity|].
  unfold summary2 in E2. cbn [fst] in E2. injection E2 as -> -> -> EsD EsI EsU _ _ _ _ _ Ex Et En El Eq Ed Eb Er Em.
  assert (E3 : session_of math 100 100 duo_rand (fun _ _ _ => 1%Q) duo_doc = Some (pb, lya_net, no_controller)) by exact (session2_first _ _ _ _ _ _ _ _ _ _ _ E1).
  destruct (session_system _ _ _ _ _ _ _ _ _ _ _ _ _ _ _ _ _ duo_documented ltac:(lia) math_usual E3 En Ex eq_refl) as [Sys Fld].
  exists pb, lya_net, (barb 0), no_controller, [EUn UNeg (EVar 0)]. split; [exact E1|]. split; [intros s; apply Fld; lia|].
  split; [exact (duo_lawful pb)|]. split; [intros it p S Sdot Hl; exact Hl|]. split; [discriminate|].
  split; [intros l; cbn; intuition congruence|]. split; [reflexivity|]. split; [eapply duo_tests; eassumption|].
  split; [eapply duo_answers; try eassumption; reflexivity|]. split; [eapply duo_trains; try eassumption; reflexivity|].
  destruct (duo_iterate0 pb [EUn UNeg (EVar 0)]) as (st & E & _); try assumption; try reflexivity.
  destruct (duo_stops pb [EUn UNeg (EVar 0)] Sys eq_refl) with (st := st) as (st' & E' & F); try assumption.
  { exact (visited_next _ _ _ 0 _ _ (visited_first _ _ _) E). }
  unfold run_double, solve. rewrite Ed. change (length duo_pool + 1) with 2. cbn [loop]. rewrite E. change (0 + 1) with 1. rewrite E'. eexists. split; [reflexivity|]. split; [exact F|reflexivity].
Qed.
