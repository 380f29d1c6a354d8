(** Complete runs for STABLESAFE and RAR: instances meeting every hypothesis of C52 and
    C53, and a run in which an undecided certificate is frozen. *)
From Coquelicot Require Import Coquelicot.
From Coq Require Import Reals QArith Qreals List Bool Arith ZArith Lra Lia.
From Verif Require Import M_Syntax M_Certificates M_Verifier M_BetaSearch M_Domains M_Activations M_Network M_Learner M_Cegis M_Fossil M_Double
  S_Verifier S_Certificates S_Success S_Dynamics S_Domains S_Network S_Learner S_Cegis S_Fossil S_Double
  L_Holds L_Table L_Calculus L_Domains L_Network L_Learner L_Success L_Continuity L_Demo
  P_Verifier P_Certificates P_BetaSearch P_Safety P_Stability P_Domains P_Examples P_Translator P_TranslatorBugs P_LLO P_Fossil P_FossilExamples P_Double.
Import ListNotations.
Local Open Scope R_scope.

Definition demo2_env {K : Type} (solver : nat -> fml -> answer) (beta : Q) : environment2 K :=
  {| e2_perfect := fun _ _ _ _ _ _ => true; e2_step := fun _ _ _ _ _ nets => nets;
     e2_ctrl := fun _ p _ _ => d_ctrl p; e2_beta := fun _ _ _ _ => beta; e2_simp := fun e => e;
     e2_solver := fun _ => smt_backend solver; e2_noise := fun _ _ _ _ => 0;
     e2_trajectory := fun _ _ _ _ => None |}.
Lemma demo2_lawful {K} solver b : lawful2 (K := K) (demo2_env solver b).
Proof. intros it p S Sdot t nets. split; apply same_shape_refl. Qed.
Lemma demo2_honest {K} (pb : problem K) solver b : unsat_sound solver -> honest2 pb (demo2_env solver b).
Proof. intros H it beta c gs _. now apply smt_trustworthy. Qed.

Lemma freeze_id frozen t (nets : network * network) : freeze_step frozen (fun _ n => n) t nets = nets.
Proof. unfold freeze_step. destruct frozen; [|reflexivity]. now destruct nets. Qed.
Lemma safe_pair_id perfect frozen loops : forall t nets,
  safe_pair_loop perfect (freeze_step frozen (fun _ n => n)) t loops nets = nets.
Proof. induction loops as [|k IH]; intros t nets; simpl; [reflexivity|]. destruct (_ && _); rewrite ?freeze_id; auto. Qed.
Lemma rar_pair_id cond frozen loops : forall t old nets,
  rar_pair_loop cond (freeze_step frozen (fun _ n => n)) t loops old nets = nets.
Proof. induction loops as [|k IH]; intros t old nets; simpl; [reflexivity|]. destruct (_ && _); rewrite ?freeze_id; auto. Qed.

Definition demo2_learned {K} (pb : problem K) (n1 n2 : network) (ctrl : K) (b : Q) : learned2 K :=
  {| d_lyap := init_learner (pb_llo pb) n1; d_barr := init_learner false n2; d_ctrl := ctrl; d_beta := b |}.
Lemma demo2_learn {K} (pb : problem K) solver b it frozen p S Sdot :
  double_learn pb (demo2_env solver b) it frozen p S Sdot =
  Some {| d_lyap := d_lyap p; d_barr := d_barr p; d_ctrl := d_ctrl p; d_beta := b |}.
Proof.
  unfold double_learn, learn_pair. cbn [e2_step e2_perfect e2_ctrl e2_beta demo2_env].
  assert (E : (if pb_control pb then d_ctrl p else d_ctrl p) = d_ctrl p) by now destruct (pb_control pb).
  rewrite E. destruct (pb_type pb); rewrite ?safe_pair_id, ?rar_pair_id; reflexivity.
Qed.

(** A solver that refutes every condition makes [verify] succeed, repeated labels or not. *)
Lemma verify_all_unsat solver noise gs :
  (forall k f, In f (map snd (concat gs)) -> solver k f = Unsat) -> v_found (verify (smt_backend solver) noise gs) = true.
Proof.
  intros H. set (be := smt_backend solver).
  assert (HG : forall g k r, (forall k f, In f (map snd g) -> solver k f = Unsat) ->
            Forall (fun p => snd p = Unsat) r -> Forall (fun p => snd p = Unsat) (snd (run_group be k g r))).
  { induction g as [|[l c] g IH]; intros k r Hg Hr; simpl; auto. apply IH.
    - intros k' f Hf. apply Hg. now right.
    - apply (dset_forall (fun a => a = Unsat)); auto. apply Hg. now left. }
  assert (HS : forall k r, Forall (fun p => snd p = Unsat) r -> Forall (fun p => snd p = Unsat) (snd (run_groups be k gs r))).
  { induction gs as [|g gs IH]; intros k r Hr; simpl; auto.
    assert (Hr' := HG g k r). destruct (run_group be k g r) as [k' r'].
    cbn [snd] in Hr'. assert (Hr1 : Forall (fun p => snd p = Unsat) r').
    { apply Hr'; auto. intros k1 f Hf. apply H. simpl. rewrite map_app. apply in_or_app. now left. }
    destruct (any_sat be r'); auto. apply IH; auto. intros k1 f Hf. apply H. simpl. rewrite map_app. apply in_or_app. now right. }
  unfold verify. specialize (HS 0%nat [] (Forall_nil _)).
  replace (forallb _ _) with true; auto. symmetry. apply forallb_forall. intros p Hp.
  rewrite Forall_forall in HS. specialize (HS p Hp). destruct p as [l a]. simpl in *. now subst a.
Qed.

Definition demo2_result {K} (pb : problem K) n1 n2 (ctrl : K) b (c : candidate2) : result (P := learned2 K) (C := candidate2) :=
  {| r_res := true; r_certificate := pb_type pb; r_learned := demo2_learned pb n1 n2 ctrl b;
     r_symbolic := Some c; r_iters := 1; r_N_data := 0 |}.
Lemma demo2_run {K} (pb : problem K) solver b n1 n2 ctrl c gs :
  pb_type pb = RAR \/ pb_type pb = STABLESAFE -> pb_discrete pb = false ->
  double_translate pb (demo2_env solver b) 0 (demo2_learned pb n1 n2 ctrl b) = Some c ->
  double_constraints pb b c = Some gs ->
  (forall k f, In f (map snd (concat gs)) -> solver k f = Unsat) ->
  run_double pb (demo2_env solver b) 1 n1 n2 ctrl [] = Some (Some (demo2_result pb n1 n2 ctrl b c)).
Proof.
  intros Hty Hdi Ht Hg Hs.
  assert (Hf := verify_all_unsat solver (e2_noise (demo2_env (K := K) solver b) 0) gs Hs).
  assert (Hc := verify_found_cex _ _ _ Hf).
  unfold run_double, solve. rewrite Hdi. cbn [loop]. unfold iterate.
  cbn [c_learn c_translate c_verify double init_state st_params st_S st_Sdot].
  rewrite demo2_learn. cbn [option_bind initial2 d_lyap d_barr d_ctrl].
  fold (demo2_learned pb n1 n2 ctrl b). rewrite Ht. cbn [option_bind].
  unfold double_verify. cbn [e2_solver demo2_env demo2_learned d_beta]. rewrite Hg. cbn [option_bind].
  rewrite Hf, consolidator_empty by exact Hc. cbn [option_bind].
  unfold process_certificate. cbn [c_type double]. destruct Hty as [Hty|Hty]; rewrite Hty; cbn [cert_eqb orb option_bind];
    unfold make_result, demo2_result; cbn; now rewrite Hty.
Qed.
(** Any pair of networks whose candidate meets the conditions is returned by some run,
    with a solver that decides everything. *)
Lemma demo2_success {K} (pb : problem K) b n1 n2 ctrl c gs :
  pb_type pb = RAR \/ pb_type pb = STABLESAFE -> pb_discrete pb = false ->
  (forall e, double_translate pb (demo2_env e b) 0 (demo2_learned pb n1 n2 ctrl b) = Some c) ->
  double_constraints pb b c = Some gs -> refuted gs ->
  exists env, lawful2 env /\ honest2 pb env /\ decisive env /\
    run_double pb env 1 n1 n2 ctrl [] = Some (Some (demo2_result pb n1 n2 ctrl b c)).
Proof.
  intros Hty Hdi Ht Hg Hr.
  exists (demo2_env (fun _ => refuter (map snd (concat gs))) b). split; [apply demo2_lawful|]. split; [|split].
  - apply demo2_honest. apply refuter_sound. intros f Hf.
    apply in_map_iff in Hf. destruct Hf as ([l f'] & <- & Hf). apply in_concat in Hf. destruct Hf as (g & Hg' & Hf).
    exact (Hr g l _ Hg' Hf).
  - intros it k f. cbn. unfold refuter. now destruct (in_dec fml_dec f _).
  - apply (demo2_run pb _ b n1 n2 ctrl c gs); auto. intros k f Hf. now apply refuter_hit.
Qed.

Definition demo2_pair (pb : problem unit) (n1 n2 : network) (b : Q) : candidate2 :=
  match double_translate pb (demo2_env (fun _ _ => Unknown) b) 0 (demo2_learned pb n1 n2 tt b) with
  | Some c => c | None => ((ENum 0, ENum 0), (ENum 0, ENum 0)) end.

(** C52, RAR: V = x^2 - 3, B = x^2 - 1/2 for x' = -x. *)
Definition rar_n1 : network := sq_net (Some [-3]%Q).
Definition rar_n2 : network := sq_net (Some [-1#2]%Q).
Definition rar_pb : problem unit := demo_pb RAR false false false 3 ex_sets minus_x.
Lemma minus_x_solves : solves_forever 1 (field minus_x) ex_x.
Proof. intros t Ht i Hi. assert (E := ex_solves t Ht i Hi). replace i with 0%nat in * by lia. exact E. Qed.

Example C52_rar_example :
  exists env r,
    well_posed2 rar_pb rar_n1 rar_n2 /\ lawful2 env /\ honest2 rar_pb env /\ smooth_net rar_n1 /\ smooth_net rar_n2 /\
    rws_geometry 1 ex_sets /\ bounded_by 1 2 (inside ex_sets XS) /\
    (forall s, inside ex_sets XD s -> inside ex_sets XF s \/ inside ex_sets XNF s) /\
    run_double rar_pb env 1 rar_n1 rar_n2 tt [] = Some (Some r) /\ r_res r = true /\
    solves_forever 1 (closed_loop2 rar_pb r) ex_x /\ inside ex_sets XI (ex_x 0).
Proof.
  set (c := demo2_pair rar_pb rar_n1 rar_n2 0).
  assert (EV : forall s, eval s (fst (fst c)) = s 0%nat ^ 2 - 3). { intros s. cbn -[Q2R round_num]. q2r. field. }
  assert (EW : forall s, eval s (snd (fst c)) = - 2 * s 0%nat ^ 2). { intros s. cbn -[Q2R round_num]. q2r. field. }
  assert (EB : forall s, eval s (fst (snd c)) = s 0%nat ^ 2 - 1/2). { intros s. cbn -[Q2R round_num]. q2r. field. }
  assert (EC : forall s, eval s (snd (snd c)) = - 2 * s 0%nat ^ 2). { intros s. cbn -[Q2R round_num]. q2r. field. }
  destruct (demo2_success rar_pb 0 rar_n1 rar_n2 tt c
     (rar_constraints ex_sets (fst (fst c)) (fst (snd c)) (snd (fst c)) (snd (snd c)))) as (env & H1 & H2 & H3 & H4);
    try reflexivity; [now left| |].
  - apply C12_rar_obligations. unfold rws_conditions, barrier_conditions, sem. split; [split; [|split]|split; [|split]].
    + intros s HD HI. rewrite EV. exnum. simpl. nra.
    + intros s HD HI. rewrite EV. exnum. simpl. destruct HI as [[-> | ->] _]; lra.
    + intros s HS HG HC. rewrite EV in HC. rewrite EW. exnum. simpl in *. destruct (Rlt_le_dec (s 0%nat) (-1/2)); nra.
    + intros s HD HI. rewrite EB. exnum. simpl. nra.
    + intros s HD HI. rewrite EB. exnum. simpl. destruct (Rlt_le_dec (s 0%nat) (-1)); nra.
    + intros s HD HI. rewrite EB in HI. rewrite EC. simpl in *. lra.
  - exists env, (demo2_result rar_pb rar_n1 rar_n2 tt 0 c).
    destruct C20_example as (_ & _ & _ & A & _ & B & _ & _ & C).
    split; [split; apply demo_wp; auto; apply sq_wf; now intros l [= <-]|]. split; [exact H1|]. split; [exact H2|].
    split; [apply sq_smooth|]. split; [apply sq_smooth|]. split; [exact A|].
    split; [split; [lra|]; intros s Hs i Hi; replace i with 0%nat by lia; exnum; lra|].
    split; [exact C|]. split; [exact H4|]. split; [reflexivity|]. split; [exact minus_x_solves|exact B].
Qed.

(** C52, STABLESAFE with LLO: V = x^2 below level 1.1, B = x^2 - 4. *)
Definition ss_pb : problem unit := demo_pb STABLESAFE true false false 3 ex_sets minus_x.
Definition ss_n2 : network := sq_net (Some [-4]%Q).
Example C52_stablesafe_example :
  exists env r V Vdot B Bdot,
    well_posed2 ss_pb roa_net ss_n2 /\ lawful2 env /\ honest2 ss_pb env /\ decisive env /\
    smooth_net roa_net /\ smooth_net ss_n2 /\
    (forall i p, cont_at 1 (fun s => closed_loop2 ss_pb r s i) p) /\
    run_double ss_pb env 1 roa_net ss_n2 tt [] = Some (Some r) /\ r_res r = true /\
    r_symbolic r = Some ((V, Vdot), (B, Bdot)) /\
    bounded_by 1 2 (fun s => sem V s <= 11/10 * Q2R (d_beta (r_learned r))) /\
    solves_forever 1 (closed_loop2 ss_pb r) ex_x /\ inside ex_sets XI (ex_x 0) /\
    (forall t, 0 <= t -> inside ex_sets XD (ex_x t)) /\ (exists s, inside ex_sets XD s /\ inside ex_sets XU s).
Proof.
  set (c := demo2_pair ss_pb roa_net ss_n2 1).
  assert (EV : forall s, eval s (fst (fst c)) = s 0%nat ^ 2). { intros s. cbn -[Q2R round_num]. q2r. field. }
  assert (EW : forall s, eval s (snd (fst c)) = - 2 * s 0%nat ^ 2). { intros s. cbn -[Q2R round_num]. q2r. field. }
  assert (EB : forall s, eval s (fst (snd c)) = s 0%nat ^ 2 - 4). { intros s. cbn -[Q2R round_num]. q2r. field. }
  assert (EC : forall s, eval s (snd (snd c)) = - 2 * s 0%nat ^ 2). { intros s. cbn -[Q2R round_num]. q2r. field. }
  assert (E1 : Q2R 1 = 1) by (unfold Q2R; simpl; lra).
  destruct (demo2_success ss_pb 1 roa_net ss_n2 tt c
     (safe_roa_constraints true (new_vars 1) ex_sets 1 (fst (fst c)) (fst (snd c)) (snd (fst c)) (snd (snd c)))) as (env & H1 & H2 & H3 & H4);
    try reflexivity; [now right| |].
  - apply C12_stablesafe_obligations. split.
    + unfold roa_conditions, sem. split.
      * intros s HI. rewrite EV, E1. exnum. simpl. nra.
      * intros s HL Ho. rewrite EW. unfold sqnorm in Ho. simpl in Ho |- *. nra.
    + unfold barrier_conditions, sem. repeat split; intros s HD H; rewrite ?EC; rewrite EB in *; exnum; simpl in *; nra.
  - exists env, (demo2_result ss_pb roa_net ss_n2 tt 1 c), (fst (fst c)), (snd (fst c)), (fst (snd c)), (snd (snd c)).
    destruct C15_example as (_ & _ & _ & B & C & D).
    split; [split; apply demo_wp; auto; [exists 1%nat; simpl; unfold wf_layer; simpl; repeat split; auto; repeat constructor; discriminate|apply sq_wf; now intros l [= <-]]|].
    split; [exact H1|]. split; [exact H2|]. split; [exact H3|].
    split; [repeat constructor; discriminate|]. split; [apply sq_smooth|]. split; [exact (minus_x_cont tt)|].
    split; [exact H4|]. split; [reflexivity|]. split; [reflexivity|].
    split; [|split; [exact minus_x_solves|auto]].
    split; [lra|]. intros s Hs i Hi. replace i with 0%nat by lia. unfold sem in Hs. rewrite EV in Hs.
    cbn [r_learned demo2_result demo2_learned d_beta] in Hs. rewrite E1 in Hs. split; nra.
Qed.

(** ** Freezing *)
(** The solver does not find counterexamples to the first three conditions and finds one
    ([x = 5]) to every later one. *)
Definition turn (ans : fml -> answer) (k : nat) (f : fml) : answer := if (k <? 3)%nat then ans f else Sat [5].
Definition rar_data : dict := [(XD, []); (XI, []); (XU, []); (XG, []); (XF, []); (XNF, [])].

Lemma turn_iterate (ans : fml -> answer) n1 n2 c :
  (forall e, double_translate rar_pb (demo2_env e 0) 0 (demo2_learned rar_pb n1 n2 tt 0) = Some c) ->
  (forall g f l, In g (rws_constraints ex_sets (fst (fst c)) (snd (fst c))) -> In (l, f) g -> smt_is_sat (ans f) = false) ->
  exists st', visited (double rar_pb (demo2_env (turn ans) 0)) (initial2 rar_pb n1 n2 tt) rar_data 1 st' /\
    st_frozen st' = true /\ st_params st' = demo2_learned rar_pb n1 n2 tt 0.
Proof.
  intros Ht Ha. destruct c as [[V Vdot] [B Bdot]]. cbn [fst snd] in Ha.
  assert (Hi : exists st', iterate (double rar_pb (demo2_env (turn ans) 0)) 0
    (init_state (double rar_pb (demo2_env (turn ans) 0)) (initial2 rar_pb n1 n2 tt) rar_data) = Some (false, st') /\
    st_frozen st' = true /\ st_params st' = demo2_learned rar_pb n1 n2 tt 0).
  { unfold iterate. cbn [c_learn c_translate c_verify double init_state st_params st_S st_Sdot].
    rewrite demo2_learn. cbn [option_bind initial2 d_lyap d_barr d_ctrl].
    fold (demo2_learned rar_pb n1 n2 tt 0). rewrite Ht. cbn [option_bind].
    unfold double_verify. cbn [e2_solver demo2_env demo2_learned d_beta double_constraints pb_type rar_pb demo_pb option_bind].
    unfold verify. unfold rar_constraints. cbn -[randomise_counterex fand turn].
    unfold rws_constraints in Ha. cbn -[fand] in Ha.
    unfold turn. cbn -[randomise_counterex fand].
    set (a1 := ans _). set (a2 := ans _). set (a3 := ans _).
    assert (N1 : smt_is_sat a1 = false) by (eapply Ha; [left; reflexivity|left; reflexivity]).
    assert (N2 : smt_is_sat a2 = false) by (eapply Ha; [left; reflexivity|right; left; reflexivity]).
    assert (N3 : smt_is_sat a3 = false) by (eapply Ha; [right; left; reflexivity|left; reflexivity]).
    do 5 (rewrite ?N1, ?N2, ?N3, ?andb_false_r; cbn -[randomise_counterex]).
    eexists. split; [reflexivity|]. split; reflexivity. }
  destruct Hi as (st' & Hi & H). exists st'. split; [|exact H].
  change 1%nat with (0 + 1)%nat. eapply visited_next; [apply visited_first|exact Hi].
Qed.

(** C53: V = x^2 - 3 is settled and frozen while B = x^2 - 3 is still wrong. *)
Example C53_example :
  exists env st, honest2 rar_pb env /\ decisive env /\ lawful2 env /\
    visited (double rar_pb env) (initial2 rar_pb rar_n1 rar_n1 tt) rar_data 1 st /\ st_frozen st = true.
Proof.
  set (c := demo2_pair rar_pb rar_n1 rar_n1 0).
  set (gs := rws_constraints ex_sets (fst (fst c)) (snd (fst c))).
  assert (EV : forall s, eval s (fst (fst c)) = s 0%nat ^ 2 - 3). { intros s. cbn -[Q2R round_num]. q2r. field. }
  assert (EW : forall s, eval s (snd (fst c)) = - 2 * s 0%nat ^ 2). { intros s. cbn -[Q2R round_num]. q2r. field. }
  assert (Hr : refuted gs).
  { apply C10_rws_obligations. unfold rws_conditions, sem. split; [|split].
    + intros s HD HI. rewrite EV. exnum. simpl. nra.
    + intros s HD HI. rewrite EV. exnum. simpl. destruct HI as [[-> | ->] _]; lra.
    + intros s HS HG HC. rewrite EV in HC. rewrite EW. exnum. simpl in *. destruct (Rlt_le_dec (s 0%nat) (-1/2)); nra. }
  destruct (turn_iterate (refuter (map snd (concat gs))) rar_n1 rar_n1 c) as (st & H1 & H2 & _).
  - reflexivity.
  - intros g f l Hg Hl. rewrite refuter_hit; [reflexivity|]. apply in_map_iff. exists (l, f). split; auto.
    apply in_concat. now exists g.
  - exists (demo2_env (turn (refuter (map snd (concat gs)))) 0), st.
    split; [|split; [|split; [apply demo2_lawful|auto]]].
    + apply demo2_honest. intros k f. unfold turn. destruct (k <? 3)%nat; [|discriminate].
      intros Ek. refine (refuter_sound _ _ k f Ek). intros f' Hf.
      apply in_map_iff in Hf. destruct Hf as ([l f''] & <- & Hf). apply in_concat in Hf. destruct Hf as (g & Hg' & Hf).
      exact (Hr g l _ Hg' Hf).
    + intros it k f. cbn. unfold turn. destruct (k <? 3)%nat; [|discriminate]. unfold refuter. now destruct (in_dec fml_dec f _).
Qed.

(** Violation: when the solver answers "unknown" (a timeout) on the first certificate, the
    search turns to the second one all the same ("so the RWS function in RAR is correct",
    cegis.py:476) and freezes a first network that is wrong. *)
Definition bad_n1 : network := sq_net (Some [3]%Q).
Theorem C53_undecided_certificate_frozen_refuted :
  exists env st, honest2 rar_pb env /\ lawful2 env /\
    visited (double rar_pb env) (initial2 rar_pb bad_n1 rar_n1 tt) rar_data 1 st /\ st_frozen st = true /\
    exists V Vdot,
      translate_ct SZ3 (e2_simp env) 3 false (d_lyap (st_params st)) (new_vars 1) minus_x = Some (V, Vdot) /\
      (* V > 0 on the whole initial set *)
      inside ex_sets XI (fun _ => 0) /\ (forall s, 0 < sem V s) /\
      ~ rws_conditions ex_sets (sem V) (sem Vdot).
Proof.
  set (c := demo2_pair rar_pb bad_n1 rar_n1 0).
  assert (EV : forall s, eval s (fst (fst c)) = s 0%nat ^ 2 + 3). { intros s. cbn -[Q2R round_num]. q2r. field. }
  destruct (turn_iterate (fun _ => Unknown) bad_n1 rar_n1 c) as (st & H1 & H2 & H3).
  - reflexivity.
  - reflexivity.
  - exists (demo2_env (turn (fun _ => Unknown)) 0), st.
    split; [|split; [apply demo2_lawful|split; [exact H1|split; [exact H2|]]]].
    + apply demo2_honest. intros k f. unfold turn. destruct (k <? 3)%nat; discriminate.
    + exists (fst (fst c)), (snd (fst c)). rewrite H3. split; [reflexivity|].
      assert (H0 : inside ex_sets XI (fun _ => 0)) by (exnum; lra).
      assert (Hp : forall s, 0 < sem (fst (fst c)) s) by (intros s; unfold sem; rewrite EV; simpl; nra).
      split; [exact H0|]. split; [exact Hp|].
      intros (A & _). specialize (A (fun _ => 0)). assert (HD : inside ex_sets XD (fun _ => 0)) by (exnum; lra).
      specialize (A HD H0). specialize (Hp (fun _ => 0)). lra.
Qed.
