(** Property C67: the example class against the built-in one, complete runs, and a class that repeats a key. *)
From Coquelicot Require Import Coquelicot.
From Coq Require Import Reals QArith Qreals List Bool Arith ZArith Lra Lia.
From Verif Require Import M_Syntax M_Certificates M_Verifier M_BetaSearch M_Activations M_Network M_Learner M_Cegis M_Fossil M_Custom
  S_Verifier S_Certificates S_Success S_Dynamics S_Domains S_Network S_Learner S_Cegis S_Fossil S_Custom
  L_Holds L_Verifier L_Table L_Network L_Learner L_Continuity L_Topology L_Success L_Smooth L_Fossil L_Demo
  P_Verifier P_Certificates P_Translator P_TranslatorBugs P_Safety P_Stability P_LLO P_Control P_Cegis P_Fossil P_Examples P_FossilExamples P_Custom.
Import ListNotations.
Local Open Scope nat_scope.

Section Same.
  Context {K : Type} (pb : problem K) (perfect : nat -> custom_learned fml K -> dict -> dict -> nat -> network -> bool)
    (step : nat -> custom_learned fml K -> dict -> dict -> nat -> network -> network) (tc : nat -> custom_learned fml K -> dict -> dict -> K)
    (env : custom_environment fml K) (env' : environment K).
  Let d := pb_sets pb XD.
  Let cls := custom_lyapunov false perfect step tc.
  Let k := custom_components pb cls env.
  Let k' := fossil pb env'.
  Hypothesis Hsame : same_surroundings d perfect step tc env env'.
  Hypothesis Hty : pb_type pb = LYAPUNOV.
  Hypothesis Hllo : pb_llo pb = false.
  Hypothesis Hdisc : pb_discrete pb = false.

  Definition mst (st : @cstate (learned K) (expr * expr)) : @cstate (custom_learned fml K) (expr * expr) :=
    {| st_params := as_custom d (st_params st); st_S := st_S st; st_Sdot := st_Sdot st; st_V := st_V st; st_found := st_found st;
       st_timed_out := st_timed_out st; st_cex := st_cex st; st_trajectory := st_trajectory st; st_frozen := st_frozen st |}.

  Lemma same_learn it p S Sdot : In XD (keys S) ->
    cu_learn cls it (as_custom d p) S Sdot = option_map (as_custom d) (fossil_learn pb env' it false p S Sdot).
  Proof.
    intros Hk. destruct Hsame as (H1 & H2 & H3 & _). unfold cls. cbn [cu_learn custom_lyapunov]. unfold custom_lyapunov_learn.
    apply dlookup_keys in Hk. destruct (dlookup XD S); [|contradiction]. unfold fossil_learn. cbn [option_map]. f_equal.
    unfold as_custom at 5. cbn [l_net l_ctrl]. rewrite H3. f_equal. unfold learn_network. rewrite Hty, Hllo, H1, H2. reflexivity.
  Qed.
  Lemma same_translate it p : custom_translate pb env it (as_custom d p) = fossil_translate pb env' it p.
  Proof. destruct Hsame as (_ & _ & _ & H & _). unfold custom_translate, fossil_translate. cbn [as_custom u_ctrl u_net]. now rewrite Hdisc, H. Qed.
  Lemma same_verify it p c : custom_verify pb cls env it (as_custom d p) c = fossil_verify pb env' it p c.
  Proof.
    destruct Hsame as (_ & _ & _ & _ & H1 & H2 & _). unfold custom_verify, fossil_verify, fossil_constraints. rewrite Hty, Hllo, H1, H2. reflexivity.
  Qed.
  Lemma same_consolidator it b p cex : consolidator_get k it b (as_custom d p) cex = consolidator_get k' it b p cex.
  Proof.
    destruct Hsame as (_ & _ & _ & _ & _ & _ & H & _). induction cex as [|[l rows] cex IH]; [reflexivity|]. cbn [consolidator_get].
    rewrite IH. destruct (label_eqb l XD); [|reflexivity]. destruct (rev rows); [reflexivity|]. symmetry. apply H.
  Qed.
  Lemma same_add p cex : forall S Sdot, add_ces_to_data k (as_custom d p) S Sdot cex = add_ces_to_data k' p S Sdot cex.
  Proof.
    induction cex as [|[l [|x r]] cex IH]; intros S Sdot; cbn [add_ces_to_data]; [reflexivity|apply IH|].
    destruct (dlookup l S); [|reflexivity]. rewrite IH. reflexivity.
  Qed.
  Lemma same_iterate it st : In XD (keys (st_S st)) ->
    iterate k it (mst st) = option_map (fun bs => (fst bs, mst (snd bs))) (iterate k' it st).
  Proof.
    intros Hk. unfold iterate. change (c_learn k it (st_frozen (mst st)) (st_params (mst st)) (st_S (mst st)) (st_Sdot (mst st)))
      with (cu_learn cls it (as_custom d (st_params st)) (st_S st) (st_Sdot st)).
    rewrite same_learn by exact Hk.
    change (c_learn k' it (st_frozen st) (st_params st) (st_S st) (st_Sdot st)) with (fossil_learn pb env' it false (st_params st) (st_S st) (st_Sdot st)).
    destruct (fossil_learn pb env' it false (st_params st) (st_S st) (st_Sdot st)) as [p|]; [|reflexivity]. cbn [option_map option_bind].
    change (c_translate k it (as_custom d p)) with (custom_translate pb env it (as_custom d p)). rewrite same_translate.
    change (c_translate k' it p) with (fossil_translate pb env' it p).
    destruct (fossil_translate pb env' it p) as [c|]; [|reflexivity]. cbn [option_bind].
    change (c_verify k it (as_custom d p) c) with (custom_verify pb cls env it (as_custom d p) c). rewrite same_verify.
    change (c_verify k' it p c) with (fossil_verify pb env' it p c).
    destruct (fossil_verify pb env' it p c) as [[found cex]|]; [|reflexivity]. cbn [option_bind].
    change (second_certificate k cex) with false. change (second_certificate k' cex) with false. rewrite same_consolidator.
    destruct (consolidator_get k' it false p cex) as [t|]; [|reflexivity]. cbn [option_bind].
    destruct found.
    - unfold process_certificate. change (c_type k) with CUSTOM. change (c_type k') with (pb_type pb). rewrite Hty. cbn [cert_eqb orb option_bind].
      change (c_estimate_beta k') with (e_estimate_beta env').
      destruct Hsame as (_ & _ & _ & _ & _ & _ & _ & H). rewrite H. reflexivity.
    - cbn [st_timed_out mst]. destruct (st_timed_out st); [reflexivity|]. change (c_max_iters k) with (c_max_iters k').
      destruct (_ =? _)%Z; [reflexivity|]. unfold process_cex. change (c_double k) with false. change (c_double k') with false.
      cbn [st_S st_Sdot st_params st_cex st_trajectory mst]. destruct (add_trajectory (st_S st) cex t) as [cex'|]; [|reflexivity]. cbn [option_bind].
      rewrite same_add. destruct (add_ces_to_data k' p (st_S st) (st_Sdot st) cex') as [[S1 Sd1]|]; reflexivity.
  Qed.
  Lemma same_loop fuel p S : In XD (keys S) -> forall it st, visited k' p S it st ->
    loop k fuel it (mst st) = match loop k' fuel it st with Running => Running | M_Cegis.Raised => M_Cegis.Raised | Returned i s => Returned i (mst s) end.
  Proof.
    intros Hk. induction fuel as [|fuel IH]; intros it st Hv; [reflexivity|]. cbn [loop].
    rewrite same_iterate by now rewrite (visited_keys _ _ _ _ _ Hv).
    destruct (iterate k' it st) as [[[|] st']|] eqn:E; cbn [option_map fst snd]; try reflexivity.
    apply IH. now apply (visited_next _ _ _ it st).
  Qed.
End Same.

(** Without LLO, and around the same learning and solving, the example class and LYAPUNOV run alike: they return in
    the same iteration, with the same verdict, network, controller, candidate and amount of data. *)
Theorem C67_same_as_builtin :
  forall (K : Type) (pb : problem K) perfect step train_ctrl (env : custom_environment fml K) (env' : environment K) random ctrl S fuel,
    pb_type pb = LYAPUNOV -> pb_llo pb = false -> pb_discrete pb = false -> In XD (keys S) ->
    same_surroundings (pb_sets pb XD) perfect step train_ctrl env env' ->
    match run_custom pb (custom_lyapunov false perfect step train_ctrl) env fuel random ctrl S, run_fossil pb env' fuel random ctrl S with
    | None, None | Some None, Some None => True
    | Some (Some r), Some (Some r') =>
        r_res r = r_res r' /\ r_iters r = r_iters r' /\ r_symbolic r = r_symbolic r' /\ r_N_data r = r_N_data r' /\
        u_net (r_learned r) = l_net (r_learned r') /\ u_ctrl (r_learned r) = l_ctrl (r_learned r')
    | _, _ => False
    end.
Proof.
  intros K pb perfect step tc env env' random ctrl S fuel Ht Hl Hd Hk Hs.
  unfold run_custom, run_fossil, solve. rewrite Hd. cbn [cu_init custom_lyapunov].
  change (init_state (custom_components pb (custom_lyapunov false perfect step tc) env)
            {| u_net := init_learner (pb_llo pb) random; u_ctrl := ctrl; u_self := pb_sets pb XD |} S)
    with (mst pb (init_state (fossil pb env') (initial pb random ctrl) S)).
  rewrite (same_loop pb perfect step tc env env' Hs Ht Hl Hd fuel (initial pb random ctrl) S Hk 0 _ (visited_first _ _ _)).
  destruct (loop (fossil pb env') fuel 0 _) as [| |it st]; auto. cbn. auto 10.
Qed.

(** ** Complete runs *)
Local Open Scope R_scope.
Definition custom_env {T} (solver : fml -> answer) : custom_environment T unit :=
  {| ue_simp := fun e => e; ue_solver := fun _ => smt_backend (fun _ => solver); ue_noise := fun _ _ _ _ => 0;
     ue_trajectory := fun _ _ _ _ => None |}.
Definition idle_perfect : nat -> custom_learned fml unit -> dict -> dict -> nat -> network -> bool := fun _ _ _ _ _ _ => true.
Definition idle_step : nat -> custom_learned fml unit -> dict -> dict -> nat -> network -> network := fun _ _ _ _ _ net => net.
Definition idle_ctrl : nat -> custom_learned fml unit -> dict -> dict -> unit := fun _ _ _ _ => tt.
Definition xd_data : dict := [(XD, [[1]; [-2]])].

(** The hypotheses of C67_success and C67_example_class_stability: x' = -x, V = x^2 on [-4, 4]. *)
Example C67_example :
  exists env r, let pb := demo_pb CUSTOM false false false 3 ex_sets minus_x in
    let cls := custom_lyapunov false idle_perfect idle_step idle_ctrl in
    well_posed pb (sq_net None) /\ smooth_net (sq_net None) /\ keeps_architecture cls /\ honest_custom pb cls env /\
    (forall it p S Sdot, optimiser false (idle_step it p S Sdot)) /\ zero_preserving (sq_net None) /\
    (forall self V Vdot, keys_once (cu_constraints cls self (new_vars 1) V Vdot)) /\
    neighbourhood 1 4 (inside ex_sets XD) /\ (forall i p, cont_at 1 (fun s => custom_closed_loop pb r s i) p) /\
    run_custom pb cls env 1 (sq_net None) tt xd_data = Some (Some r) /\ r_res r = true.
Proof.
  set (pb := demo_pb CUSTOM false false false 3 ex_sets minus_x).
  set (cls := custom_lyapunov false idle_perfect idle_step idle_ctrl).
  set (p := {| u_net := sq_net None; u_ctrl := tt; u_self := ex_sets XD |} : custom_learned fml unit).
  set (VW := match custom_translate pb (custom_env (T := fml) (fun _ => Unknown)) 0 p with Some c => c | None => (ENum 0, ENum 0) end).
  assert (EV : forall s, eval s (fst VW) = s 0%nat ^ 2). { intros s. cbn -[Q2R round_num]. q2r. field. }
  assert (EW : forall s, eval s (snd VW) = - 2 * s 0%nat ^ 2). { intros s. cbn -[Q2R round_num]. q2r. field. }
  set (gs := lyapunov_constraints false (new_vars 1) ex_sets (fst VW) (snd VW)).
  assert (R : refuted gs).
  { apply C06_lyapunov_obligations. intros s Hs Ho. apply ex_not_origin in Ho. unfold sem. rewrite EV, EW. simpl. split; [intros _|]; lra. }
  set (env := custom_env (T := fml) (table (map snd (concat gs)))).
  assert (U : forall f, table (map snd (concat gs)) f = Unsat -> unsatisfiable f).
  { apply table_sound. intros f Hf. cbn [gs lyapunov_constraints concat app map snd] in Hf. destruct Hf as [<-|[]]. apply (R _ XD _ (or_introl eq_refl)). now left. }
  assert (Hr : exists r, run_custom pb cls env 1 (sq_net None) tt xd_data = Some (Some r) /\ r_res r = true /\ r_iters r = 1%nat /\ r_learned r = p).
  { refine (custom_first pb cls env 0 (sq_net None) tt xd_data (ex_sets XD) p VW (Some (true, [(XD, [])])) eq_refl eq_refl _ _ _ _).
    - cbn [cu_learn cls custom_lyapunov]. unfold custom_lyapunov_learn. cbn [xd_data dlookup find fst label_eqb snd]. unfold p. f_equal; f_equal; try apply learn_loop_id.
    - reflexivity.
    - unfold custom_verify, verify_yielded. cbn [cu_constraints cls custom_lyapunov custom_lyapunov_constraints before_raise andb u_self p].
      change [[(XD, _)]] with gs. unfold verify, gs, lyapunov_constraints. cbn [run_groups run_group dset snd ue_solver env custom_env smt_backend b_solve].
      rewrite table_hit by (now left). reflexivity.
    - repeat constructor. }
  destruct Hr as (r & Hr & Hres & _ & Hp). exists env, r.
  assert (Hopt : forall it p S Sdot, optimiser false (idle_step it p S Sdot)) by (intros it q S Sdot t net; split; [apply same_shape_refl|reflexivity]).
  split; [apply demo_wp; auto; apply sq_wf; discriminate|]. split; [apply sq_smooth|].
  split; [now apply custom_lyapunov_keeps|]. split; [intros it self V Vdot; now apply smt_trustworthy; intros k f; apply U|].
  split; [exact Hopt|]. split; [repeat constructor|].
  split; [intros self V Vdot; unfold keys_once; cbn; repeat constructor; intros []|]. split; [apply C13_example|].
  split; [exact (minus_x_cont tt)|]. split; [exact Hr|exact Hres].
Qed.

(** ** A class that uses one key for two conditions *)
(** Positivity and decrease as two groups, both under XD. *)
Definition split_constraints (domain : fml) (xs : list expr) (V Vdot : expr) : yielded :=
  let not_origin := FNot (fand (map (fun xi => FCmp CEq xi E0) xs)) in
  Groups [Some [(XD, fand [domain; fand [FCmp CLe V E0; not_origin]])];
          Some [(XD, fand [domain; fand [FCmp CGe Vdot E0; not_origin]])]].
Definition split_lyapunov : custom fml unit :=
  {| cu_init := fun d => Some (d XD); cu_learn := custom_lyapunov_learn false idle_perfect idle_step idle_ctrl;
     cu_constraints := split_constraints |}.
Definition lyapunov_function (n : nat) (D : fml) (V Vdot : state -> R) : Prop :=
  forall s, holds s D -> ~ origin n s -> 0 < V s /\ Vdot s < 0.

Lemma not_origin_holds n s : ~ origin n s -> holds s (FNot (fand (map (fun xi => FCmp CEq xi E0) (new_vars n)))).
Proof.
  intros H X. apply H. apply holds_fand in X. intros i Hi. rewrite Forall_forall in X.
  assert (E : holds s (FCmp CEq (EVar i) E0)). { apply X. apply in_map_iff. exists (EVar i). split; [reflexivity|]. unfold new_vars. apply in_map, in_seq. lia. }
  cbn in E. rewrite E. unfold Q2R; cbn; ring.
Qed.
Lemma split_expresses n : expresses split_lyapunov n (lyapunov_function n).
Proof.
  intros D V Vdot H s Hs Ho. assert (Hn := not_origin_holds n s Ho).
  assert (Z0 : eval s E0 = 0) by (cbn; unfold Q2R; cbn; ring).
  split.
  - destruct (Rle_lt_dec (eval s V) 0) as [L|L]; [exfalso|exact L].
    refine (H XD _ s (ex_intro _ _ (conj (or_introl eq_refl) (or_introl eq_refl))) _).
    repeat (apply holds_fand; constructor); auto. cbn [holds cmp_holds]. rewrite Z0. exact L.
  - destruct (Rlt_le_dec (eval s Vdot) 0) as [L|L]; [exact L|exfalso].
    refine (H XD _ s (ex_intro _ _ (conj (or_intror (or_introl eq_refl)) (or_introl eq_refl))) _).
    repeat (apply holds_fand; constructor); auto. cbn [holds cmp_holds]. rewrite Z0. now apply Rle_ge.
Qed.

(** V = -x^2 and x' = x: V decreases and is not positive.  The solver gives up on the first condition and refutes
    the second; the second answer is stored under the same key. *)
Definition minus_sq_net : network :=
  {| in_size := 1; hidden := [({| weight := [[1]]%Q; bias := None |}, ASquare)]; last := {| weight := [[-1]]%Q; bias := None |} |}.

Theorem C67_repeated_key_refuted :
  exists (env : custom_environment fml unit) r, let pb := demo_pb CUSTOM false false false 3 ex_sets [EVar 0] in
    well_posed pb minus_sq_net /\ smooth_net minus_sq_net /\ zero_preserving minus_sq_net /\
    keeps_architecture split_lyapunov /\ honest_custom pb split_lyapunov env /\
    expresses split_lyapunov 1 (lyapunov_function 1) /\
    run_custom pb split_lyapunov env 1 minus_sq_net tt xd_data = Some (Some r) /\ r_res r = true /\
    (exists V Vdot, r_symbolic r = Some (V, Vdot) /\ ~ lyapunov_function 1 (ex_sets XD) (sem V) (sem Vdot)) /\
    ~ stable 1 (custom_closed_loop pb r).
Proof.
  set (pb := demo_pb CUSTOM false false false 3 ex_sets [EVar 0]).
  set (p := {| u_net := minus_sq_net; u_ctrl := tt; u_self := ex_sets XD |} : custom_learned fml unit).
  set (VW := match custom_translate pb (custom_env (T := fml) (fun _ => Unknown)) 0 p with Some c => c | None => (ENum 0, ENum 0) end).
  assert (EV : forall s, eval s (fst VW) = - s 0%nat ^ 2). { intros s. cbn -[Q2R round_num]. q2r. field. }
  assert (EW : forall s, eval s (snd VW) = - 2 * s 0%nat ^ 2). { intros s. cbn -[Q2R round_num]. q2r. field. }
  set (no := FNot (fand (map (fun xi => FCmp CEq xi E0) (new_vars 1)))).
  set (f1 := fand [ex_sets XD; fand [FCmp CLe (fst VW) E0; no]]). set (f2 := fand [ex_sets XD; fand [FCmp CGe (snd VW) E0; no]]).
  assert (Z0 : forall s, eval s E0 = 0) by (intros s; cbn; unfold Q2R; cbn; ring).
  assert (U2 : unsatisfiable f2).
  { intros s H. apply holds_fand in H. apply Forall_cons_iff in H. destruct H as [_ H]. apply Forall_cons_iff in H. destruct H as [H _].
    apply holds_fand in H. apply Forall_cons_iff in H. destruct H as [H1 H]. apply Forall_cons_iff in H. destruct H as [H2 _].
    cbn [holds cmp_holds] in H1. rewrite EW, Z0 in H1. apply H2. apply holds_fand. repeat constructor. cbn [holds cmp_holds]. rewrite Z0. cbn [eval]. nra. }
  assert (N12 : f1 <> f2). { unfold f1, f2. intros E. vm_compute in E. discriminate. }
  set (env := custom_env (T := fml) (table [f2])).
  assert (U : forall f, table [f2] f = Unsat -> unsatisfiable f). { apply table_sound. intros f [<-|[]]. exact U2. }
  assert (Hr : exists r, run_custom pb split_lyapunov env 1 minus_sq_net tt xd_data = Some (Some r) /\ r_res r = true /\ r_symbolic r = Some VW /\ r_learned r = p).
  { unfold run_custom. cbn [pb demo_pb pb_discrete cu_init split_lyapunov pb_sets]. unfold solve. cbn [loop]. unfold iterate.
    cbn [c_learn c_translate c_verify custom_components init_state st_params st_S st_Sdot].
    replace (cu_learn split_lyapunov 0 _ xd_data _) with (Some p).
    2: { cbn [cu_learn split_lyapunov]. unfold custom_lyapunov_learn. cbn [xd_data dlookup find fst label_eqb snd]. unfold p. f_equal; f_equal; try (symmetry; apply learn_loop_id). }
    cbn [option_bind]. change (custom_translate pb env 0 p) with (Some VW). cbn [option_bind].
    replace (custom_verify pb split_lyapunov env 0 p VW) with (Some (true, [(XD, [])]) : option (bool * dict)).
    2: { unfold custom_verify, verify_yielded. cbn [cu_constraints split_lyapunov split_constraints before_raise andb u_self p].
         change (fand [ex_sets XD; fand [FCmp CLe (fst VW) E0; FNot (fand (map (fun xi : expr => FCmp CEq xi E0) (new_vars (pb_n pb))))]]) with f1.
         change (fand [ex_sets XD; fand [FCmp CGe (snd VW) E0; FNot (fand (map (fun xi : expr => FCmp CEq xi E0) (new_vars (pb_n pb))))]]) with f2.
         unfold verify. cbn [run_groups run_group dset snd ue_solver env custom_env smt_backend b_solve label_eqb].
         assert (E1 : table [f2] f1 = Unknown). { unfold table. destruct (in_dec fml_dec f1 [f2]) as [[E|[]]|]; [symmetry in E; contradiction|reflexivity]. }
         rewrite E1, table_hit by (now left). reflexivity. }
    cbn [option_bind]. rewrite consolidator_empty by repeat constructor. cbn [option_bind]. unfold process_certificate.
    cbn [c_type custom_components cert_eqb orb option_bind]. eexists. split; [reflexivity|]. cbn [make_result r_res r_learned r_symbolic st_found st_params st_V]. auto. }
  destruct Hr as (r & Hr & Hres & Hsym & Hp). exists env, r.
  split; [apply demo_wp; auto; exists 1%nat; repeat split; repeat constructor; discriminate|].
  split; [repeat constructor; discriminate|]. split; [repeat constructor|].
  split. { exact (custom_lyapunov_keeps false idle_perfect idle_step idle_ctrl (fun it q S Sdot t net => conj (same_shape_refl net) (fun _ => eq_refl))). }
  split; [intros it self V Vdot; apply smt_trustworthy; intros k f; apply U|]. split; [apply split_expresses|].
  split; [exact Hr|]. split; [exact Hres|]. split.
  - exists (fst VW), (snd VW). split; [rewrite Hsym; now destruct VW|]. intros H.
    destruct (H (fun _ => 1)) as [A _].
    + assert (X : inside ex_sets XD (fun _ => 1)) by (exnum; lra). exact X.
    + intros O. specialize (O 0%nat ltac:(lia)). cbn beta in O. lra.
    + unfold sem in A. rewrite EV in A. lra.
  - apply (linear_growth_unstable 1); [lra|]. intros s. unfold custom_closed_loop. rewrite Hp. cbn. ring.
Qed.

(** The hypotheses of C67_grouping: conditions in two groups under one key, decided by a solver; the second one has
    a solution, and the class is rejected. *)
Definition sometimes : fml := FCmp CGe (EVar 0) (ENum 3).
Definition never : fml := FCmp CLt (EBin BMul (EVar 0) (EVar 0)) E0.
Definition knows_both : backend := smt_backend (fun _ f => if in_dec fml_dec f [never] then Unsat else Sat [3]).
Example C67_grouping_example :
  let y := Groups (map Some [[(XD, never)]; [(XD, sometimes); (XI, never)]]) in
  decides knows_both y /\ Forall (fun g => NoDup (map fst g)) [[(XD, never)]; [(XD, sometimes); (XI, never)]] /\
  ~ keys_once y /\ asks y XD never /\ asks y XD sometimes /\
  exists cex, verify_yielded knows_both (fun _ _ _ => 0) y = Some (false, cex).
Proof.
  intros y.
  assert (Un : unsatisfiable never). { intros s H. cbn in H. unfold Q2R in H; cbn in H. nra. }
  assert (Us : ~ unsatisfiable sometimes). { intros H. apply (H (fun _ => 3)). cbn. unfold Q2R; cbn. lra. }
  assert (Dn : forall k, b_solve knows_both k never = Unsat). { intros k. cbn. destruct (fml_dec never never); [reflexivity|contradiction]. }
  assert (Ds : forall k, b_solve knows_both k sometimes = Sat [3]). { intros k. cbn. destruct (fml_dec never sometimes) as [E|E]; [discriminate|reflexivity]. }
  split; [|split; [|split; [|split; [|split]]]].
  - intros k l f (g & Hg & Hf). cbn in Hg.
    assert (C : f = never \/ f = sometimes).
    { destruct Hg as [<-|[<-|[]]]; cbn in Hf; [destruct Hf as [E|[]]|destruct Hf as [E|[E|[]]]]; apply pair_equal_spec in E; destruct E as [_ <-]; auto. }
    destruct C as [-> | ->]; [rewrite Dn|rewrite Ds]; cbn; split; split; intros; try discriminate; try contradiction; auto.
  - repeat constructor; cbn; intuition discriminate.
  - unfold keys_once. cbn. intros H. inversion H as [|? ? N _]. apply N. now left.
  - exists [(XD, never)]. split; now left.
  - exists [(XD, sometimes); (XI, never)]. split; [right|]; now left.
  - eexists. unfold y, verify_yielded. cbn [map before_raise andb]. unfold verify. cbn [run_groups run_group dset label_eqb].
    rewrite !Dn. cbn [any_sat existsb snd b_is_sat knows_both smt_backend smt_is_sat orb]. change (b_solve knows_both 1 sometimes) with (b_solve knows_both 1 sometimes).
    cbn [run_groups run_group dset label_eqb]. rewrite ?Ds, ?Dn. reflexivity.
Qed.
