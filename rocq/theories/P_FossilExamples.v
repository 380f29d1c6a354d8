(** Complete runs of [solve()]: instances meeting every hypothesis of C45-C48, and runs
    that report success although the advertised property fails (C49). *)
From Coquelicot Require Import Coquelicot.
From Coq Require Import Reals QArith Qreals List Bool Arith ZArith Lra Lia.
From Verif Require Import M_Syntax M_Certificates M_Verifier M_BetaSearch M_Domains M_Activations M_Network M_Learner M_Cegis M_Fossil
  S_Verifier S_Certificates S_Success S_Dynamics S_Domains S_Network S_Learner S_Cegis S_Fossil
  L_Holds L_Table L_Calculus L_Domains L_Network L_Learner L_Success L_Continuity L_Demo
  P_Verifier P_Certificates P_BetaSearch P_Safety P_Stability P_Domains P_Examples P_Translator P_TranslatorBugs P_Fossil.
Import ListNotations.
Local Open Scope R_scope.

Definition demo_pb (ty : cert_type) (llo quad disc : bool) (rounding : Z) (d : sets) (xdot : list expr) : problem unit :=
  {| pb_type := ty; pb_n := 1; pb_llo := llo; pb_quad := quad; pb_discrete := disc; pb_rounding := rounding;
     pb_max_iters := 10; pb_control := false; pb_symb := SZ3; pb_sets := d; pb_xdot := fun _ => Some xdot;
     pb_f := fun _ p => p |}.

(** V = x^2 - c *)
Definition sq_net (c : option (list Q)) : network :=
  {| in_size := 1; hidden := [({| weight := [[1]]%Q; bias := None |}, ASquare)];
     last := {| weight := [[1]]%Q; bias := c |} |}.
Definition minus_x : list expr := [EUn UNeg (EVar 0)].
Definition half_x : list expr := [EBin BMul (ENum (1#2)) (EVar 0)].

Lemma sq_wf c : (forall l, c = Some l -> length l = 1%nat) -> wf_net (sq_net c).
Proof.
  intros H. exists 1%nat. simpl. unfold wf_layer. simpl. repeat split; auto; repeat constructor; try discriminate.
  all: intros b E; rewrite (H b E); reflexivity.
Qed.
Lemma sq_smooth c : smooth_net (sq_net c).
Proof. repeat constructor; discriminate. Qed.
Lemma demo_wp ty llo quad disc r d xdot net :
  wf_net net -> in_size net = 1%nat -> length xdot = 1%nat ->
  well_posed (demo_pb ty llo quad disc r d xdot) net.
Proof. intros H1 H2 H3. split; [exact H1|]. split; [exact H2|]. intros k x [= <-]. exact H3. Qed.
Lemma minus_x_cont (k : unit) i p : cont_at 1 (fun s => field minus_x s i) p.
Proof.
  unfold field, minus_x. destruct i as [|[|i]]; apply ex_cont; simpl; repeat split; auto; lia.
Qed.

(** The hypotheses of C45 (without LLO). *)
Example C45_example :
  exists env r, let pb := demo_pb LYAPUNOV false false false 3 ex_sets minus_x in
    well_posed pb (sq_net None) /\ lawful pb env /\ honest pb env /\
    smooth_net (sq_net None) /\ zero_preserving (sq_net None) /\
    neighbourhood 1 4 (inside ex_sets XD) /\
    (forall i p, cont_at 1 (fun s => closed_loop pb r s i) p) /\
    run_fossil pb env 1 (sq_net None) tt [] = Some (Some r) /\ r_res r = true.
Proof.
  set (pb := demo_pb LYAPUNOV false false false 3 ex_sets minus_x).
  set (VW := match fossil_translate pb (demo_env (fun _ _ => Unknown) 0 0) 0 (demo_learned pb (sq_net None) tt 0) with
             | Some p => p | None => (ENum 0, ENum 0) end).
  assert (EV : forall s, eval s (fst VW) = s 0%nat ^ 2). { intros s. cbn -[Q2R round_num]. q2r. field. }
  assert (EW : forall s, eval s (snd VW) = - 2 * s 0%nat ^ 2). { intros s. cbn -[Q2R round_num]. q2r. field. }
  destruct (demo_success pb 0 (sq_net None) tt (fst VW) (snd VW)
              (lyapunov_constraints false (new_vars 1) ex_sets (fst VW) (snd VW))) as (env & H1 & H2 & H3).
  - reflexivity.
  - reflexivity.
  - reflexivity.
  - apply (C01_certificate_labels_distinct false (new_vars 1) ex_sets 0 (fst VW) (fst VW) (snd VW) (snd VW)).
  - apply C06_lyapunov_obligations. intros s Hs Ho. apply ex_not_origin in Ho. unfold sem. rewrite EV, EW. simpl.
    split; [intros _|]; lra.
  - discriminate.
  - exists env, (demo_result pb (sq_net None) tt 0 (fst VW) (snd VW)).
    split; [apply demo_wp; auto; apply sq_wf; discriminate|]. split; [exact H1|]. split; [exact H2|].
    split; [apply sq_smooth|]. split; [repeat constructor|]. split; [apply C13_example|].
    split; [exact (minus_x_cont tt)|]. split; [exact H3|reflexivity].
Qed.

(** Candidate of a demo problem. *)
Definition demo_pair (pb : problem unit) (net : network) (b : Q) : expr * expr :=
  match fossil_translate pb (demo_env (fun _ _ => Unknown) 0 b) 0 (demo_learned pb net tt b) with
  | Some p => p | None => (ENum 0, ENum 0) end.

(** C45, discrete time: x(k+1) = x(k)/2. *)
Lemma ex_dom_bounded : bounded_by 1 4 (inside ex_sets XD).
Proof. split; [lra|]. intros s Hs i Hi. replace i with 0%nat by lia. exnum. lra. Qed.
Lemma half_x_cont (k : unit) i p : cont_at 1 (fun s => field half_x s i) p.
Proof. unfold field, half_x. destruct i as [|[|i]]; apply ex_cont; simpl; repeat split; auto; lia. Qed.

Example C45_discrete_example :
  exists env r, let pb := demo_pb LYAPUNOV false false true 3 ex_sets half_x in
    well_posed pb (sq_net None) /\ lawful pb env /\ honest pb env /\ zero_preserving (sq_net None) /\
    bounded_by 1 4 (inside ex_sets XD) /\ closed_set 1 (inside ex_sets XD) /\
    (forall i p, cont_at 1 (fun s => closed_loop pb r s i) p) /\
    (forall s, origin 1 s -> forall i, (i < 1)%nat -> closed_loop pb r s i = 0) /\
    run_fossil pb env 1 (sq_net None) tt [] = Some (Some r) /\ r_res r = true /\
    run 1 (closed_loop pb r) ex_run /\ (forall k, inside ex_sets XD (ex_run k)).
Proof.
  set (pb := demo_pb LYAPUNOV false false true 3 ex_sets half_x). set (VW := demo_pair pb (sq_net None) 0).
  assert (EV : forall s, eval s (fst VW) = s 0%nat ^ 2). { intros s. cbn -[Q2R round_num]. q2r. field. }
  assert (EW : forall s, eval s (snd VW) = - (3/4) * s 0%nat ^ 2). { intros s. cbn -[Q2R round_num]. q2r. field. }
  destruct (demo_success pb 0 (sq_net None) tt (fst VW) (snd VW)
              (lyapunov_constraints false (new_vars 1) ex_sets (fst VW) (snd VW))) as (env & H1 & H2 & H3);
    try reflexivity; try discriminate.
  - apply (C01_certificate_labels_distinct false (new_vars 1) ex_sets 0 (fst VW) (fst VW) (snd VW) (snd VW)).
  - apply C06_lyapunov_obligations. intros s Hs Ho. apply ex_not_origin in Ho. unfold sem. rewrite EV, EW. simpl.
    split; [intros _|]; lra.
  - exists env, (demo_result pb (sq_net None) tt 0 (fst VW) (snd VW)).
    destruct C14_example as (_ & _ & _ & _ & _ & _ & B & C & _ & D).
    split; [apply demo_wp; auto; apply sq_wf; discriminate|]. split; [exact H1|]. split; [exact H2|].
    split; [repeat constructor|]. split; [exact B|]. split; [exact C|]. split; [exact (half_x_cont tt)|].
    split; [|split; [exact H3|split; [reflexivity|split]]].
    + intros s Ho i Hi. replace i with 0%nat by lia. unfold closed_loop, field. cbn -[Q2R]. rewrite (Ho 0%nat) by lia. ring.
    + intros k i Hi. replace i with 0%nat by lia. unfold closed_loop, field, ex_run. cbn -[Q2R]. q2r. field.
    + intros k. apply D.
Qed.

(** C46: barriers for x' = -x and for x(k+1) = x(k)/2 (with the quadratic factor). *)
Example C46_example :
  exists env r, let pb := demo_pb BARRIER false false false 3 ex_sets minus_x in
    well_posed pb (sq_net (Some [-4]%Q)) /\ lawful pb env /\ honest pb env /\ smooth_net (sq_net (Some [-4]%Q)) /\
    run_fossil pb env 1 (sq_net (Some [-4]%Q)) tt [] = Some (Some r) /\ r_res r = true /\
    solves_forever 1 (closed_loop pb r) ex_x /\ inside ex_sets XI (ex_x 0) /\
    (forall t, 0 <= t -> inside ex_sets XD (ex_x t)) /\ (exists s, inside ex_sets XD s /\ inside ex_sets XU s).
Proof.
  set (net := sq_net (Some [-4]%Q)).
  set (pb := demo_pb BARRIER false false false 3 ex_sets minus_x). set (VW := demo_pair pb net 0).
  assert (EV : forall s, eval s (fst VW) = s 0%nat ^ 2 - 4). { intros s. cbn -[Q2R round_num]. q2r. field. }
  assert (EW : forall s, eval s (snd VW) = - 2 * s 0%nat ^ 2). { intros s. cbn -[Q2R round_num]. q2r. field. }
  destruct (demo_success pb 0 net tt (fst VW) (snd VW) (barrier_constraints ex_sets (fst VW) (snd VW))) as (env & H1 & H2 & H3);
    try reflexivity; try discriminate.
  - apply (C01_certificate_labels_distinct false (new_vars 1) ex_sets 0 (fst VW) (fst VW) (snd VW) (snd VW)).
  - apply C08_barrier_obligations. unfold barrier_conditions, sem.
    repeat split; intros s HD H; rewrite ?EW; rewrite EV in *; exnum; simpl in *; nra.
  - exists env, (demo_result pb net tt 0 (fst VW) (snd VW)).
    destruct C15_example as (_ & _ & _ & B & C & D).
    split; [apply demo_wp; auto; apply sq_wf; now intros l [= <-]|]. split; [exact H1|]. split; [exact H2|].
    split; [apply sq_smooth|]. split; [exact H3|]. split; [reflexivity|]. split; [|auto].
    intros t Ht i Hi. assert (E := ex_solves t Ht i Hi). replace i with 0%nat in * by lia. exact E.
Qed.

Example C46_discrete_example :
  exists env r, let pb := demo_pb BARRIERALT false false true 3 ex_sets half_x in
    well_posed pb (sq_net (Some [-4]%Q)) /\ lawful pb env /\ honest pb env /\
    run_fossil pb env 1 (sq_net (Some [-4]%Q)) tt [] = Some (Some r) /\ r_res r = true /\
    run 1 (closed_loop pb r) ex_run /\ inside ex_sets XI (ex_run 0) /\ (forall k, inside ex_sets XD (ex_run k)).
Proof.
  set (net := sq_net (Some [-4]%Q)).
  set (pb := demo_pb BARRIERALT false false true 3 ex_sets half_x). set (VW := demo_pair pb net 0).
  assert (EV : forall s, eval s (fst VW) = s 0%nat ^ 2 - 4). { intros s. cbn -[Q2R round_num]. q2r. field. }
  assert (EW : forall s, eval s (snd VW) = - (3/4) * s 0%nat ^ 2). { intros s. cbn -[Q2R round_num]. q2r. field. }
  destruct (demo_success pb 0 net tt (fst VW) (snd VW) (barrier_alt_constraints ex_sets (fst VW) (snd VW))) as (env & H1 & H2 & H3);
    try reflexivity; try discriminate.
  - apply (C01_certificate_labels_distinct false (new_vars 1) ex_sets 0 (fst VW) (fst VW) (snd VW) (snd VW)).
  - apply C09_barrier_alt_obligations. unfold barrier_alt_conditions, sem. split; [|split].
    + intros s HD H. rewrite EV. exnum. simpl. nra.
    + intros s HD H. rewrite EV. exnum. simpl. nra.
    + intros s HD. rewrite EW. simpl. nra.
  - exists env, (demo_result pb net tt 0 (fst VW) (snd VW)).
    destruct C16_example as (_ & _ & _ & _ & C & D).
    split; [apply demo_wp; auto; apply sq_wf; now intros l [= <-]|]. split; [exact H1|]. split; [exact H2|].
    split; [exact H3|]. split; [reflexivity|]. split; [|auto].
    intros k i Hi. replace i with 0%nat by lia. unfold closed_loop, field, ex_run. cbn -[Q2R]. q2r. field.
Qed.

(** C47: ROA with LLO; the random output weight -3 is replaced by 1. *)
Definition roa_net : network :=
  {| in_size := 1; hidden := [({| weight := [[1]]%Q; bias := None |}, ASquare)];
     last := {| weight := [[-3]]%Q; bias := None |} |}.
Example C47_example :
  exists env r V Vdot, let pb := demo_pb ROA true false false 3 ex_sets minus_x in
    well_posed pb roa_net /\ lawful pb env /\ honest pb env /\ smooth_net roa_net /\
    (forall i p, cont_at 1 (fun s => closed_loop pb r s i) p) /\
    run_fossil pb env 1 roa_net tt [] = Some (Some r) /\ r_res r = true /\
    r_symbolic r = Some (V, Vdot) /\
    bounded_by 1 2 (fun s => sem V s <= 11/10 * Q2R (l_beta (r_learned r))) /\
    solves_forever 1 (closed_loop pb r) ex_x /\ inside ex_sets XI (ex_x 0).
Proof.
  set (pb := demo_pb ROA true false false 3 ex_sets minus_x). set (VW := demo_pair pb roa_net 1).
  assert (EV : forall s, eval s (fst VW) = s 0%nat ^ 2). { intros s. cbn -[Q2R round_num]. q2r. field. }
  assert (EW : forall s, eval s (snd VW) = - 2 * s 0%nat ^ 2). { intros s. cbn -[Q2R round_num]. q2r. field. }
  destruct (demo_success pb 1 roa_net tt (fst VW) (snd VW) (roa_constraints true (new_vars 1) ex_sets 1 (fst VW) (snd VW)))
    as (env & H1 & H2 & H3); try reflexivity; try discriminate.
  - apply (C01_certificate_labels_distinct true (new_vars 1) ex_sets 1 (fst VW) (fst VW) (snd VW) (snd VW)).
  - apply C07_roa_obligations. unfold roa_conditions, sem. split.
    + intros s Hs. rewrite EV. exnum. simpl. nra.
    + intros s Hs Hn. rewrite ?EV, ?EW in *. exnum. simpl in *. nra.
  - exists env, (demo_result pb roa_net tt 1 (fst VW) (snd VW)), (fst VW), (snd VW).
    destruct C19_example as (_ & _ & _ & _ & _ & B & _).
    split; [apply demo_wp; auto; exists 1%nat; simpl; unfold wf_layer; simpl; repeat split; auto; repeat constructor; discriminate|].
    split; [exact H1|]. split; [exact H2|].
    split; [repeat constructor; discriminate|]. split; [exact (minus_x_cont tt)|].
    split; [exact H3|]. split; [reflexivity|]. split; [reflexivity|]. split; [|split; [|exact B]].
    + split; [lra|]. intros s Hs i Hi. replace i with 0%nat by lia. unfold sem in Hs. rewrite EV in Hs.
      cbn [demo_result r_learned demo_learned l_beta] in Hs. q2r_in Hs. simpl in Hs. split; nra.
    + intros t Ht i Hi. assert (E := ex_solves t Ht i Hi). replace i with 0%nat in * by lia. exact E.
Qed.

(** C48: RSWS with C = x^2 - 3.  The solver knows the verified conditions and the stay
    queries met by the search; every other query is answered "sat". *)
Definition refuter (fs : list fml) (f : fml) : answer := if in_dec fml_dec f fs then Unsat else Sat [].
Lemma refuter_sound fs : (forall f, In f fs -> unsatisfiable f) -> unsat_sound (fun _ => refuter fs).
Proof. intros H k f. unfold refuter. destruct (in_dec fml_dec f fs); [intros _; auto|discriminate]. Qed.
Lemma refuter_hit fs f : In f fs -> refuter fs f = Unsat.
Proof. intros H. unfold refuter. destruct (in_dec fml_dec f fs); easy. Qed.

(** The guesses of the search when beta is admissible between -2.9 and -2.75. *)
Fixpoint guesses (fuel : nat) (lo up : Q) : list Q :=
  match fuel with
  | O => []
  | S fuel => let g := ((up + lo) / 2)%Q in
      g :: (if Qle_bool g (-29#10) then guesses fuel g up
            else if Qle_bool (-11#4) g then guesses fuel lo g else [])
  end.
Definition rs_net : network := sq_net (Some [-3]%Q).
Definition rs_pb : problem unit := demo_pb RSWS false false false 3 ex_sets minus_x.
Definition rs_pair : expr * expr := demo_pair rs_pb rs_net 0.
Definition rs_guesses : list Q := guesses 40 (-1000000) 1000.
Definition rs_border : list fml :=
  map (fun b => stay_border_condition ex_sets (fst rs_pair) b) (filter (fun b => negb (Qle_bool (-11#4) b)) rs_guesses).
Definition rs_lie : list fml :=
  map (fun b => stay_lie_condition ex_sets (fst rs_pair) (snd rs_pair) b) (filter (fun b => negb (Qle_bool b (-29#10))) rs_guesses).
Definition rs_known : list fml :=
  map snd (concat (rws_constraints ex_sets (fst rs_pair) (snd rs_pair))) ++ rs_border ++ rs_lie.

Lemma rs_V s : eval s (fst rs_pair) = s 0%nat ^ 2 - 3.
Proof. cbn -[Q2R round_num]. q2r. field. Qed.
Lemma rs_W s : eval s (snd rs_pair) = - 2 * s 0%nat ^ 2.
Proof. cbn -[Q2R round_num]. q2r. field. Qed.
Lemma rs_refuted : refuted (rws_constraints ex_sets (fst rs_pair) (snd rs_pair)).
Proof.
  apply C10_rws_obligations. unfold rws_conditions, sem. split; [|split].
  - intros s HD HI. rewrite rs_V. exnum. simpl. nra.
  - intros s HD HI. rewrite rs_V. exnum. simpl. destruct HI as [[-> | ->] _]; lra.
  - intros s HS HG HC. rewrite rs_V in HC. rewrite rs_W. exnum. simpl in *. destruct (Rlt_le_dec (s 0%nat) (-1/2)); nra.
Qed.
Lemma rs_translate e fu : fossil_translate rs_pb (demo_env e fu 0) 0 (demo_learned rs_pb rs_net tt 0) = Some (fst rs_pair, snd rs_pair).
Proof. reflexivity. Qed.
Opaque rs_pair.
Lemma stay_border_unsat V b :
  (forall s, eval s V = s 0%nat ^ 2 - 3) -> Qle_bool (-11#4) b = false -> unsatisfiable (stay_border_condition ex_sets V b).
Proof.
  intros EV E.
  assert (Hlt : Q2R b < Q2R (-11#4)).
  { apply Qlt_Rlt. apply Qnot_le_lt. intros Hle. apply Qle_bool_iff in Hle. congruence. }
  q2r_in Hlt. intros s (H1 & H2 & _). change (holds s (iv_ends (-1#2) (1#2))) in H2.
  cbn [holds cmp_holds eval] in H1. rewrite EV in H1. exnum. destruct H2 as [[E0|E0] _]; rewrite E0 in H1; simpl in H1; lra.
Qed.
Lemma stay_lie_unsat V W b :
  (forall s, eval s V = s 0%nat ^ 2 - 3) -> (forall s, eval s W = - 2 * s 0%nat ^ 2) -> Qle_bool b (-29#10) = false ->
  unsatisfiable (stay_lie_condition ex_sets V W b).
Proof.
  intros EV EW E.
  assert (Hlt : Q2R (-29#10) < Q2R b).
  { apply Qlt_Rlt. apply Qnot_le_lt. intros Hle. apply Qle_bool_iff in Hle. congruence. }
  q2r_in Hlt. intros s ((H1 & H2 & _) & H3 & _).
  change (holds s (iv_fml (-1#2) (1#2))) in H1.
  change (~ (holds s (iv_fml (-2) 2) /\ eval s V < Q2R b /\ True)) in H2.
  change (eval s W + Q2R gamma > Q2R 0) in H3.
  rewrite EV in H2. rewrite EW, Q2R_gamma in H3. exnum. simpl in *.
  assert (1/10 <= s 0%nat * s 0%nat); [|nra].
  apply Rnot_lt_le. intros Hl. apply H2. repeat split; nra.
Qed.
Lemma known_sound V W gs :
  (forall s, eval s V = s 0%nat ^ 2 - 3) -> (forall s, eval s W = - 2 * s 0%nat ^ 2) ->
  refuted (rws_constraints ex_sets V W) ->
  unsat_sound (fun _ => refuter (map snd (concat (rws_constraints ex_sets V W)) ++
    map (fun b => stay_border_condition ex_sets V b) (filter (fun b => negb (Qle_bool (-11#4) b)) gs) ++
    map (fun b => stay_lie_condition ex_sets V W b) (filter (fun b => negb (Qle_bool b (-29#10))) gs))).
Proof.
  intros EV EW Hr. apply refuter_sound. intros f Hf. rewrite !in_app_iff in Hf. destruct Hf as [Hf|[Hf|Hf]].
  - apply in_map_iff in Hf. destruct Hf as ([l f'] & <- & Hf). apply in_concat in Hf. destruct Hf as (g & Hg & Hf).
    exact (Hr g l _ Hg Hf).
  - apply in_map_iff in Hf. destruct Hf as (b & <- & Hb). apply filter_In in Hb. destruct Hb as [_ Hb].
    apply stay_border_unsat; auto. now apply negb_true_iff.
  - apply in_map_iff in Hf. destruct Hf as (b & <- & Hb). apply filter_In in Hb. destruct Hb as [_ Hb].
    apply stay_lie_unsat; auto. now apply negb_true_iff.
Qed.
Lemma rs_sound : unsat_sound (fun _ => refuter rs_known).
Proof. exact (known_sound (fst rs_pair) (snd rs_pair) rs_guesses rs_V rs_W rs_refuted). Qed.

Example C48_example :
  exists env r, let pb := rs_pb in
    well_posed pb rs_net /\ lawful pb env /\ honest pb env /\ smooth_net rs_net /\
    (forall it V Vdot, stay_sound (e_solver env it) ex_sets V Vdot) /\
    rsws_geometry 1 ex_sets /\ bounded_by 1 2 (inside ex_sets XS) /\
    run_fossil pb env 1 rs_net tt [] = Some (Some r) /\ r_res r = true /\
    solves_forever 1 (closed_loop pb r) ex_x /\ inside ex_sets XI (ex_x 0).
Proof.
  exists (demo_env (fun _ => refuter rs_known) 40 0), (demo_result rs_pb rs_net tt 0 (fst rs_pair) (snd rs_pair)).
  split; [apply demo_wp; auto; apply sq_wf; now intros l [= <-]|].
  split; [apply demo_lawful|]. split; [apply demo_honest, rs_sound|]. split; [apply sq_smooth|].
  split; [intros it V Vdot; apply backend_sound_stay, smt_backend_sound, rs_sound|].
  split; [apply C18_example|]. split; [|split; [|split; [reflexivity|split]]].
  - split; [lra|]. intros s Hs i Hi. replace i with 0%nat by lia. exnum. lra.
  - apply (demo_run rs_pb (fun _ => refuter rs_known) 40 0 rs_net tt (fst rs_pair) (snd rs_pair)
             (rws_constraints ex_sets (fst rs_pair) (snd rs_pair))).
    + reflexivity.
    + apply rs_translate.
    + reflexivity.
    + apply (C01_certificate_labels_distinct false (new_vars 1) ex_sets 0 (fst rs_pair) (fst rs_pair) (snd rs_pair) (snd rs_pair)).
    + intros k f Hf. apply refuter_hit. unfold rs_known. apply in_app_iff. now left.
    + intros _. eexists. vm_compute. reflexivity.
  - intros t Ht i Hi. assert (E := ex_solves t Ht i Hi). replace i with 0%nat in * by lia. exact E.
  - exnum. rewrite ex_start. lra.
Qed.

(** * C49: runs that report success although the advertised property fails.  Everything
    else is as good as it can be: an honest solver, a lawful optimiser, exact arithmetic. *)
(** EVEN_POLY activations contain a constant, so V(0) need not be 0: x' = x is reported
    to have a Lyapunov function. *)
Theorem C49_lyapunov_success_unstable :
  exists env r, let pb := demo_pb LYAPUNOV false false false 3 hill_sets [EVar 0] in
    well_posed pb hill_net /\ lawful pb env /\ honest pb env /\ smooth_net hill_net /\
    neighbourhood 1 1 (inside hill_sets XD) /\
    run_fossil pb env 1 hill_net tt [] = Some (Some r) /\ r_res r = true /\
    ~ stable 1 (closed_loop pb r).
Proof.
  destruct C13_unstable_system_certified_by_network as (_ & W & Ht & Hc & HN & HS).
  set (pb := demo_pb LYAPUNOV false false false 3 hill_sets [EVar 0]).
  destruct (demo_success pb 0 hill_net tt (fst hill_pair) (snd hill_pair)
              (lyapunov_constraints false (new_vars 1) hill_sets (fst hill_pair) (snd hill_pair)))
    as (env & H1 & H2 & H3); try reflexivity; try discriminate.
  - apply (C01_certificate_labels_distinct false (new_vars 1) hill_sets 0
             (fst hill_pair) (fst hill_pair) (snd hill_pair) (snd hill_pair)).
  - apply certified_refuted; [|exact Hc].
    apply (C01_certificate_labels_distinct false (new_vars 1) hill_sets 0
             (fst hill_pair) (fst hill_pair) (snd hill_pair) (snd hill_pair)).
  - exists env, (demo_result pb hill_net tt 0 (fst hill_pair) (snd hill_pair)).
    split; [apply demo_wp; auto|]. split; [exact H1|]. split; [exact H2|].
    split; [repeat constructor; discriminate|]. split; [exact HN|]. split; [exact H3|]. split; [reflexivity|exact HS].
Qed.

(** ReLU networks: the symbolic gradient at a kink is not a gradient; an unsafe system is
    reported safe. *)
Theorem C49_barrier_success_unsafe_relu :
  exists env r x, let pb := demo_pb BARRIER false false false 3 kink_sets [ENum 1] in
    well_posed pb kink_net /\ lawful pb env /\ honest pb env /\
    run_fossil pb env 1 kink_net tt [] = Some (Some r) /\ r_res r = true /\
    solves_forever 1 (closed_loop pb r) x /\ inside kink_sets XI (x 0) /\
    (forall t, 0 <= t <= 2 -> inside kink_sets XD (x t)) /\ inside kink_sets XU (x 2).
Proof.
  destruct C22_relu_kink_unsound as (Ht & Hc & x & Hx).
  set (pb := demo_pb BARRIER false false false 3 kink_sets [ENum 1]).
  destruct (demo_success pb 0 kink_net tt (fst kink_pair) (snd kink_pair)
              (barrier_constraints kink_sets (fst kink_pair) (snd kink_pair)))
    as (env & H1 & H2 & H3); try reflexivity; try discriminate.
  - apply (C01_certificate_labels_distinct false (new_vars 1) kink_sets 0
             (fst kink_pair) (fst kink_pair) (snd kink_pair) (snd kink_pair)).
  - apply certified_refuted; [|exact Hc].
    apply (C01_certificate_labels_distinct false (new_vars 1) kink_sets 0
             (fst kink_pair) (fst kink_pair) (snd kink_pair) (snd kink_pair)).
  - exists env, (demo_result pb kink_net tt 0 (fst kink_pair) (snd kink_pair)), x.
    split; [apply demo_wp; auto; exact kink_wf|]. split; [exact H1|]. split; [exact H2|].
    split; [exact H3|]. split; [reflexivity|exact Hx].
Qed.

(** RSWA is reported successful without the check that makes RSWS work: the trajectory
    reaches the goal, leaves it and then leaves the safe set.  C = (x-1)^2 - 0.81, x' = 1. *)
Definition rswa_net : network :=
  {| in_size := 1; hidden := [({| weight := [[1]]%Q; bias := Some [-1]%Q |}, ASquare)];
     last := {| weight := [[1]]%Q; bias := Some [-81#100]%Q |} |}.
Definition rswa_sets : sets := fun l =>
  match l with
  | XD => iv_fml (-5) 5
  | XI => iv_fml (1#5) (2#5)
  | XS => iv_fml 0 (5#2)
  | XS_BORDER => iv_ends 0 (5#2)
  | XG => iv_fml (9#10) 2
  | XG_BORDER => iv_ends (9#10) 2
  | _ => FTrue
  end.
Definition rswa_pb : problem unit := demo_pb RSWA false false false 3 rswa_sets [ENum 1].
Definition rswa_pair : expr * expr := demo_pair rswa_pb rswa_net 0.
Theorem C49_rswa_success_leaves_goal :
  exists env r x,
    well_posed rswa_pb rswa_net /\ lawful rswa_pb env /\ honest rswa_pb env /\ smooth_net rswa_net /\
    rsws_geometry 1 rswa_sets /\
    run_fossil rswa_pb env 1 rswa_net tt [] = Some (Some r) /\ r_res r = true /\
    solves_forever 1 (closed_loop rswa_pb r) x /\ inside rswa_sets XI (x 0) /\ inside rswa_sets XG (x 1) /\
    (forall t, 2 <= t -> ~ inside rswa_sets XG (x t)) /\ (forall t, 3 <= t -> ~ inside rswa_sets XS (x t)).
Proof.
  assert (EV : forall s, eval s (fst rswa_pair) = (s 0%nat - 1) ^ 2 - 81/100). { intros s. cbn -[Q2R round_num]. q2r. field. }
  assert (EW : forall s, eval s (snd rswa_pair) = 2 * (s 0%nat - 1)). { intros s. cbn -[Q2R round_num]. q2r. field. }
  assert (Hd : distinct_labels (rws_constraints rswa_sets (fst rswa_pair) (snd rswa_pair))).
  { apply (C01_certificate_labels_distinct false (new_vars 1) rswa_sets 0
             (fst rswa_pair) (fst rswa_pair) (snd rswa_pair) (snd rswa_pair)). }
  destruct (demo_success rswa_pb 0 rswa_net tt (fst rswa_pair) (snd rswa_pair)
              (rws_constraints rswa_sets (fst rswa_pair) (snd rswa_pair)))
    as (env & H1 & H2 & H3); try reflexivity; try discriminate; auto.
  - apply C10_rws_obligations. unfold rws_conditions, sem, inside, rswa_sets. split; [|split].
    + intros s _ HI. rewrite iv_holds in HI. q2r_in HI. rewrite EV. simpl. nra.
    + intros s _ HB. rewrite iv_ends_holds in HB. q2r_in HB. rewrite EV. destruct HB as [[-> | ->] _]; simpl; lra.
    + intros s HS HG HC. rewrite iv_holds in *. rewrite EV in HC. rewrite EW. q2r_in HS.
      assert (HG' : ~ (9/10 <= s 0%nat <= 2)).
      { intros H. apply HG. q2r. lra. }
      simpl in HC. destruct (Rlt_le_dec (s 0%nat) (9/10)); nra.
  - exists env, (demo_result rswa_pb rswa_net tt 0 (fst rswa_pair) (snd rswa_pair)), (fun t _ => 3/10 + t).
    split.
    { apply demo_wp; auto. exists 1%nat. simpl. unfold wf_layer. simpl. repeat split; auto; repeat constructor.
      all: intros b E; injection E as <-; reflexivity. }
    split; [exact H1|]. split; [exact H2|]. split; [repeat constructor; discriminate|].
    split; [|split; [exact H3|split; [reflexivity|split; [|split; [|split; [|split]]]]]].
    + split; [split; [|split]|split].
      * intros s Hs. unfold inside, rswa_sets in *. rewrite !iv_holds in *. q2r_in Hs. q2r. lra.
      * intros s Hs. unfold inside, rswa_sets in *. rewrite !iv_holds, ?iv_ends_holds in *. q2r_in Hs. q2r. lra.
      * apply (iv_fence 0 (5#2)).
      * intros s Hs. unfold inside, rswa_sets in *. rewrite !iv_holds in *. q2r_in Hs. q2r. lra.
      * apply (iv_fence (9#10) 2).
    + intros t Ht i Hi. replace i with 0%nat by lia. unfold closed_loop, field. cbn -[Q2R]. rewrite Q2R_1. auto_derive; auto; ring.
    + unfold inside, rswa_sets. rewrite iv_holds. q2r. lra.
    + unfold inside, rswa_sets. rewrite iv_holds. q2r. lra.
    + intros t Ht. unfold inside, rswa_sets. rewrite iv_holds. q2r. lra.
    + intros t Ht. unfold inside, rswa_sets. rewrite iv_holds. q2r. lra.
Qed.

(** Discrete time with the quadratic factor: the returned "Lyapunov function" grows
    sixteen-fold at every step of x(k+1) = 2 x(k). *)
Theorem C49_discrete_success_grows :
  exists env r V dV, let pb := demo_pb LYAPUNOV false true true (-1) dt_sets [EBin BMul (ENum 2) (EVar 0)] in
    well_posed pb dt_net /\ lawful pb env /\ honest pb env /\ zero_preserving dt_net /\
    run_fossil pb env 1 dt_net tt [] = Some (Some r) /\ r_res r = true /\ r_symbolic r = Some (V, dV) /\
    forall x, run 1 (closed_loop pb r) x -> forall k, sem V (x (Datatypes.S k)) = 16 * sem V (x k).
Proof.
  destruct C23_quadratic_factor_refuted as (_ & Hc & _ & Hg).
  set (pb := demo_pb LYAPUNOV false true true (-1) dt_sets [EBin BMul (ENum 2) (EVar 0)]).
  assert (Hd : distinct_labels (lyapunov_constraints false (new_vars 1) dt_sets (fst dt_pair) (snd dt_pair))).
  { apply (C01_certificate_labels_distinct false (new_vars 1) dt_sets 0
             (fst dt_pair) (fst dt_pair) (snd dt_pair) (snd dt_pair)). }
  destruct (demo_success pb 0 dt_net tt (fst dt_pair) (snd dt_pair)
              (lyapunov_constraints false (new_vars 1) dt_sets (fst dt_pair) (snd dt_pair)))
    as (env & H1 & H2 & H3); try reflexivity; try discriminate; auto.
  - now apply certified_refuted.
  - exists env, (demo_result pb dt_net tt 0 (fst dt_pair) (snd dt_pair)), (fst dt_pair), (snd dt_pair).
    split; [apply demo_wp; auto; exists 1%nat; simpl; unfold wf_layer; simpl; repeat split; auto; repeat constructor; discriminate|].
    split; [exact H1|]. split; [exact H2|]. split; [repeat constructor|].
    split; [exact H3|]. split; [reflexivity|]. split; [reflexivity|exact Hg].
Qed.
