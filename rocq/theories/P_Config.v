(** C59: from the text of a configuration file to the guarantee.
    [session_of numpy f1 f2 rand randc doc] is what the program builds from the file; a run of it
    that reports success means that the system written in the file, with the feedback of the returned
    controller, has the property asked for, on the sets written in the file. *)
From Coquelicot Require Import Coquelicot.
From Coq Require Import String Ascii Reals QArith Qreals Bool Arith ZArith Decimal Lra Lia List.
From Verif Require Import M_Syntax M_Certificates M_Verifier M_BetaSearch M_Activations M_Domains M_Network M_Learner M_Cegis M_Labels M_Fossil
  M_Control M_Parser M_Lexer M_Variables M_DomainParser M_Cli M_Config S_Verifier S_Activations S_Network S_Learner S_Cegis S_Fossil S_Dynamics S_Certificates S_Success S_Domains
  S_Parser S_Lexer S_Variables S_DomainParser S_Control S_Cli S_Config L_Fossil P_BetaSearch P_Certificates P_Safety P_Stability P_Cegis P_Translator P_Control P_Fossil L_Config L_Session L_Regions.
Import ListNotations.
Local Open Scope string_scope.
Local Open Scope list_scope.
Local Open Scope R_scope.

Lemma trained_controller {K} (W : K -> Prop) (pb : problem K) env random ctrl S fuel r :
  W ctrl -> (forall it p S Sdot, W (l_ctrl p) -> W (e_ctrl env it p S Sdot)) ->
  run_fossil pb env fuel random ctrl S = Some (Some r) -> r_res r = true -> W (l_ctrl (r_learned r)).
Proof.
  intros Hw Hpres Hr Hres.
  assert (Hvis : forall it st, visited (fossil pb env) (initial pb random ctrl) S it st -> W (l_ctrl (st_params st))).
  { induction 1 as [|it st st' Hv IH Hi']; [exact Hw|].
    apply iterate_inv in Hi'. destruct Hi' as (q & c & found & cex & t & H1 & _ & _ & _ & Hp & _).
    rewrite Hp. cbn [c_learn fossil] in H1. unfold fossil_learn in H1. apply P_Activations.Some_eq' in H1. subst q. now apply Hpres. }
  destruct (C32_result_was_verified _ _ _ _ _ _ _ Hr Hres) as (it & VV & cex & _ & _ & _ & _ & _ & st & Hv & E5).
  cbn [c_learn fossil] in E5. unfold fossil_learn in E5. apply P_Activations.Some_eq' in E5. rewrite E5. cbn [l_ctrl].
  apply Hpres. now apply Hvis in Hv.
Qed.

(** Fields that agree on the first [n] components. *)
Definition same_field (n : nat) (f g : vfield) : Prop := forall s j, (j < n)%nat -> f s j = g s j.
Lemma follows_same n f g x t : same_field n f g -> follows n f x t -> follows n g x t.
Proof. intros E H j Hj. rewrite <- (E (x t) j Hj). now apply H. Qed.
Lemma solves_same n f g x T : same_field n f g -> solves n f x T -> solves n g x T.
Proof. intros E H t Ht. eapply follows_same; eauto. Qed.
Lemma forever_same n f g x : same_field n f g -> solves_forever n f x -> solves_forever n g x.
Proof. intros E H t Ht. eapply follows_same; eauto. Qed.
Lemma run_same n f g x : same_field n f g -> run n f x -> run n g x.
Proof. intros E H k j Hj. rewrite <- (E (x k) j Hj). now apply H. Qed.
Lemma same_sym n f g : same_field n f g -> same_field n g f.
Proof. intros E s j Hj. symmetry. auto. Qed.
Lemma stable_same n f g : same_field n f g -> stable n f -> stable n g.
Proof.
  intros E H e He. destruct (H e He) as (d & Hd & K). exists d. split; [exact Hd|]. intros x T HT Hx. apply K; [exact HT|].
  eapply solves_same; [|exact Hx]. now apply same_sym.
Qed.
Lemma attractive_same n f g : same_field n f g -> attractive n f -> attractive n g.
Proof.
  intros E (d & Hd & K). exists d. split; [exact Hd|]. intros x Hx. apply K.
  eapply forever_same; [|exact Hx]. now apply same_sym.
Qed.

(** The controller's shape survives training. *)
Definition keeps_controller (env : environment controller) : Prop :=
  forall n m it p S Sdot, wf_controller n m (l_ctrl p) -> wf_controller n m (e_ctrl env it p S Sdot).

Section Guarantees.
  Context (numpy : interp) (f1 f2 : nat) (rand randc : nat -> nat -> nat -> Q) (doc : document).
  Context (pb : problem controller) (net : network) (ctrl : controller).
  Context (env : environment controller) (S : dict) (fuel : nat) (r : result (P := learned controller) (C := expr * expr)).
  Context (i : interp) (n : nat) (trees : list tree) (om : option nat).
  Hypothesis Hdoc : NoDup (map fst doc).
  Hypothesis Hs : session_of numpy f1 f2 rand randc doc = Some (pb, net, ctrl).
  Hypothesis Hi : usual i.
  Hypothesis Hn : dimension doc n.
  Hypothesis Heq : equations doc trees.
  Hypothesis Hin : inputs_of doc trees om.
  Hypothesis Hlaw : lawful pb env.
  Hypothesis Hhon : honest pb env.
  Hypothesis Hkeep : keeps_controller env.
  Hypothesis Hrun : run_fossil pb env fuel net ctrl S = Some (Some r).
  Hypothesis Hres : r_res r = true.

  Definition loop : vfield := system_field i n trees (feedback_law n om (l_ctrl (r_learned r))).
  Lemma loop_same : same_field n (closed_loop pb r) loop.
  Proof.
    pose proof (session_n _ _ _ _ _ _ _ _ _ Hdoc Hs n Hn) as En. intros s j Hj.
    destruct (run_success pb env Hlaw net ctrl S fuel r Hrun Hres Hhon) as (it & V & Vdot & gs & _ & _ & _ & Hd & _).
    unfold closed_loop, loop. rewrite <- En in Hj |- *.
    apply (session_dynamics _ _ _ _ _ _ _ _ _ Hdoc Hs trees om i Hi Heq Hin _ _ Hd); auto.
    intros m Em. refine (trained_controller (wf_controller (pb_n pb) m) pb env net ctrl S fuel r _ _ Hrun Hres).
    - now apply (session_outputs _ _ _ _ _ _ _ _ _ Hdoc Hs trees om Hin).
    - intros it0 p S0 Sdot. apply Hkeep.
  Qed.
  Lemma loop_cont : (forall j p, (j < n)%nat -> cont_at n (fun s => loop s j) p) ->
    forall j p, cont_at n (fun s => closed_loop pb r s j) p.
  Proof.
    intros H j p. destruct (le_lt_dec n j) as [L|L].
    - destruct (run_success pb env Hlaw net ctrl S fuel r Hrun Hres Hhon) as (it & V & Vdot & gs & _ & _ & _ & Hd & _).
      apply (session_length _ _ _ _ _ _ _ _ _ Hs) in Hd. rewrite (session_n _ _ _ _ _ _ _ _ _ Hdoc Hs n Hn) in Hd.
      intros e He. exists 1. split; [lra|]. intros s _. unfold closed_loop, field. rewrite nth_overflow by lia.
      cbn. rewrite Rminus_eq_0, Rabs_R0. exact He.
    - intros e He. destruct (H j p L e He) as (d & Hd & K). exists d. split; [exact Hd|]. intros s Hs'.
      rewrite !(loop_same _ j L). now apply K.
  Qed.

  Lemma file_safety gi gu gd : asks doc BARRIER CONTINUOUS \/ asks doc BARRIERALT CONTINUOUS -> not_cvc5 doc -> avoids doc relu_names ->
    declares doc n XI gi -> declares doc n XU gu -> declares doc n XD gd ->
    forall x T, solves n loop x T -> in_region gi (x 0) -> (forall t, 0 <= t <= T -> in_region gd (x t)) ->
      forall t, 0 <= t <= T -> ~ in_region gu (x t).
  Proof.
    intros Ha Hc Hr Di Du Dd x T Hx H0 HD t Ht.
    pose proof (session_n _ _ _ _ _ _ _ _ _ Hdoc Hs n Hn) as En. rewrite <- En in Di, Du, Dd.
    assert (Ty : (pb_type pb = BARRIER \/ pb_type pb = BARRIERALT) /\ pb_discrete pb = false).
    { destruct Ha as [Ha|Ha]; apply (session_type _ _ _ _ _ _ _ _ _ Hdoc Hs) in Ha; tauto. }
    destruct Ty as [Ty Td].
    assert (N1 : pb_type pb <> RAR) by (destruct Ty; congruence).
    assert (N2 : forall l, pb_type pb = ROA -> l <> XD) by (intros l E; destruct Ty; congruence).
    rewrite <- (session_set _ _ _ _ _ _ _ _ _ Hdoc Hs XU gu Du eq_refl N1 (N2 XU)).
    refine (C46_barrier_success_means_safety controller pb env net ctrl S fuel r _ Hlaw Hhon Ty Td _ _ Hrun Hres x T _ _ _ t Ht).
    - exact (session_well_posed _ _ _ _ _ _ _ _ _ Hdoc Hs).
    - exact (proj2 (session_symb _ _ _ _ _ _ _ _ _ Hdoc Hs) Hc).
    - exact (proj1 (proj2 (proj2 (session_net _ _ _ _ _ _ _ _ _ Hdoc Hs))) Hr).
    - rewrite En. eapply solves_same; [apply same_sym, loop_same|exact Hx].
    - now rewrite (session_set _ _ _ _ _ _ _ _ _ Hdoc Hs XI gi Di eq_refl N1 (N2 XI)).
    - intros u Hu. rewrite (session_set _ _ _ _ _ _ _ _ _ Hdoc Hs XD gd Dd eq_refl N1 (N2 XD)). now apply HD.
  Qed.
  Lemma file_safety_discrete gi gu gd : asks doc BARRIERALT DISCRETE ->
    declares doc n XI gi -> declares doc n XU gu -> declares doc n XD gd ->
    forall x N, run n loop x -> in_region gi (x 0%nat) -> (forall k, (k <= N)%nat -> in_region gd (x k)) ->
      forall k, (k <= N)%nat -> ~ in_region gu (x k).
  Proof.
    intros Ha Di Du Dd x N Hx H0 HD k Hk.
    pose proof (session_n _ _ _ _ _ _ _ _ _ Hdoc Hs n Hn) as En. rewrite <- En in Di, Du, Dd.
    apply (session_type _ _ _ _ _ _ _ _ _ Hdoc Hs) in Ha. destruct Ha as [Ty Td].
    assert (N1 : pb_type pb <> RAR) by congruence.
    assert (N2 : forall l, pb_type pb = ROA -> l <> XD) by (intros l E; congruence).
    rewrite <- (session_set _ _ _ _ _ _ _ _ _ Hdoc Hs XU gu Du eq_refl N1 (N2 XU)).
    refine (C46_barrier_success_means_safety_discrete controller pb env net ctrl S fuel r _ Hlaw Hhon Ty Td _ Hrun Hres x N _ _ _ k Hk).
    - exact (session_well_posed _ _ _ _ _ _ _ _ _ Hdoc Hs).
    - exact (proj1 (session_symb _ _ _ _ _ _ _ _ _ Hdoc Hs)).
    - rewrite En. eapply run_same; [apply same_sym, loop_same|exact Hx].
    - now rewrite (session_set _ _ _ _ _ _ _ _ _ Hdoc Hs XI gi Di eq_refl N1 (N2 XI)).
    - intros u Hu. rewrite (session_set _ _ _ _ _ _ _ _ _ Hdoc Hs XD gd Dd eq_refl N1 (N2 XD)). now apply HD.
  Qed.
  Lemma file_stability gd rad : asks doc LYAPUNOV CONTINUOUS -> not_cvc5 doc -> avoids doc relu_names ->
    (exists s, gives doc "FACTORS" (YStr s) /\ spelled s "QUADRATIC") \/ avoids doc offset_names ->
    (forall v, gives doc "LLO" v -> v = YBool false) \/ is_positive_definite net = true ->
    declares doc n XD gd -> neighbourhood n rad (in_region gd) ->
    (forall j p, (j < n)%nat -> cont_at n (fun s => loop s j) p) ->
    stable n loop /\ attractive n loop.
  Proof.
    intros Ha Hc Hr Hz Hl Dd Hnb Hf.
    pose proof (session_n _ _ _ _ _ _ _ _ _ Hdoc Hs n Hn) as En.
    apply (session_type _ _ _ _ _ _ _ _ _ Hdoc Hs) in Ha. destruct Ha as [Ty Td].
    assert (K : stable (pb_n pb) (closed_loop pb r) /\ attractive (pb_n pb) (closed_loop pb r)).
    { refine (C45_lyapunov_success_means_stability controller pb env net ctrl S fuel r rad _ Hlaw Hhon Ty Td _ _ _ _ _ _ Hrun Hres).
      - exact (session_well_posed _ _ _ _ _ _ _ _ _ Hdoc Hs).
      - exact (proj2 (session_symb _ _ _ _ _ _ _ _ _ Hdoc Hs) Hc).
      - exact (proj1 (proj2 (proj2 (session_net _ _ _ _ _ _ _ _ _ Hdoc Hs))) Hr).
      - destruct Hz as [(s & G & Sp)|Hz]; [left; eapply session_quad; eauto|right].
        exact (proj2 (proj2 (proj2 (session_net _ _ _ _ _ _ _ _ _ Hdoc Hs))) (or_introl Ty) Hz).
      - intros L. destruct Hl as [Hl|Hl]; [|exact Hl]. exfalso.
        rewrite (session_llo _ _ _ _ _ _ _ _ _ Hdoc Hs false Hl) in L by discriminate. discriminate.
      - rewrite En. destruct Hnb as [Hrad Hnb]. split; [exact Hrad|]. intros s Hns. rewrite <- En in Dd.
        rewrite (session_set _ _ _ _ _ _ _ _ _ Hdoc Hs XD gd Dd eq_refl); [now apply Hnb|congruence|congruence].
      - rewrite En. now apply loop_cont. }
    rewrite En in K. split; [eapply stable_same|eapply attractive_same]; try apply loop_same; apply K.
  Qed.
  Lemma file_reach ty gi gs gg gd rad : In ty [RWS; RWA; RSWS; RSWA] -> asks doc ty CONTINUOUS -> not_cvc5 doc -> avoids doc relu_names ->
    declares doc n XI gi -> declares doc n XS gs -> declares doc n XG gg -> declares doc n XD gd ->
    (forall x, in_region gi x -> in_region gs x) -> (forall x, in_region gs x -> in_region gd x) ->
    bounded_by n rad (in_region gs) ->
    exists T0, forall x T, T0 <= T -> solves n loop x T -> in_region gi (x 0) ->
      reach_while_stay (in_region gs) (in_region gg) x T.
  Proof.
    intros Hty Ha Hc Hr Di Ds Dg Dd His Hsd Hb.
    pose proof (session_n _ _ _ _ _ _ _ _ _ Hdoc Hs n Hn) as En. rewrite <- En in Di, Ds, Dg, Dd.
    apply (session_type _ _ _ _ _ _ _ _ _ Hdoc Hs) in Ha. destruct Ha as [Ty Td].
    assert (Ty' : pb_type pb = RWS \/ pb_type pb = RWA \/ pb_type pb = RSWS \/ pb_type pb = RSWA) by (cbn in Hty; intuition congruence).
    assert (N1 : pb_type pb <> RAR) by (intros E; rewrite E in Ty'; intuition discriminate).
    assert (N2 : forall l, pb_type pb = ROA -> l <> XD) by (intros l E; rewrite E in Ty'; intuition discriminate).
    pose proof (session_set _ _ _ _ _ _ _ _ _ Hdoc Hs XI gi Di eq_refl N1 (N2 XI)) as EI.
    pose proof (session_set _ _ _ _ _ _ _ _ _ Hdoc Hs XS gs Ds eq_refl N1 (N2 XS)) as ES.
    pose proof (session_set _ _ _ _ _ _ _ _ _ Hdoc Hs XG gg Dg eq_refl N1 (N2 XG)) as EG.
    pose proof (session_set _ _ _ _ _ _ _ _ _ Hdoc Hs XD gd Dd eq_refl N1 (N2 XD)) as ED.
    destruct (session_border _ _ _ _ _ _ _ _ _ Hdoc Hs XS XS_BORDER gs Ds) as [F1 F2];
      [destruct Ty' as [-> | [-> | [-> | ->]]]; cbn; auto|exact N1|reflexivity|].
    destruct (C48_reach_while_stay controller pb env net ctrl S fuel r rad) as (T0 & H); auto.
    - exact (session_well_posed _ _ _ _ _ _ _ _ _ Hdoc Hs).
    - exact (proj2 (session_symb _ _ _ _ _ _ _ _ _ Hdoc Hs) Hc).
    - exact (proj1 (proj2 (proj2 (session_net _ _ _ _ _ _ _ _ _ Hdoc Hs))) Hr).
    - repeat split; auto; [rewrite ED|rewrite ES|]; rewrite ?EI in *; auto. intros s Hb'. rewrite ED. auto.
    - rewrite En. destruct Hb as [B1 B2]. split; [exact B1|]. intros s. rewrite ES. apply B2.
    - exists T0. intros x T HT Hx H0. specialize (H x T HT). rewrite En in H.
      destruct H as [(t & Ht & G) Hst].
      + eapply solves_same; [apply same_sym, loop_same|exact Hx].
      + now rewrite EI.
      + split; [exists t; split; [exact Ht|now rewrite <- EG]|]. intros u Hu Hv. rewrite <- ES. apply Hst; [exact Hu|].
        intros v Hv'. rewrite EG. now apply Hv.
  Qed.
  Lemma file_reach_stay gi gs gg gd rad : asks doc RSWS CONTINUOUS -> not_cvc5 doc -> avoids doc relu_names ->
    (forall it V Vdot, stay_sound (e_solver env it) (pb_sets pb) V Vdot) ->
    declares doc n XI gi -> declares doc n XS gs -> declares doc n XG gg -> declares doc n XD gd ->
    (forall x, in_region gi x -> in_region gs x) -> (forall x, in_region gs x -> in_region gd x) ->
    (forall x, in_region gg x -> in_region gs x) -> bounded_by n rad (in_region gs) ->
    exists T0, forall x, solves_forever n loop x -> in_region gi (x 0) ->
      (forall t, 0 <= t -> in_region gs (x t)) /\ (forall t, T0 <= t -> in_region gg (x t)).
  Proof.
    intros Ha Hc Hr Hst Di Ds Dg Dd His Hsd Hgs Hb.
    pose proof (session_n _ _ _ _ _ _ _ _ _ Hdoc Hs n Hn) as En. rewrite <- En in Di, Ds, Dg, Dd.
    apply (session_type _ _ _ _ _ _ _ _ _ Hdoc Hs) in Ha. destruct Ha as [Ty Td].
    assert (N1 : pb_type pb <> RAR) by congruence.
    assert (N2 : forall l, pb_type pb = ROA -> l <> XD) by (intros l E; congruence).
    pose proof (session_set _ _ _ _ _ _ _ _ _ Hdoc Hs XI gi Di eq_refl N1 (N2 XI)) as EI.
    pose proof (session_set _ _ _ _ _ _ _ _ _ Hdoc Hs XS gs Ds eq_refl N1 (N2 XS)) as ES.
    pose proof (session_set _ _ _ _ _ _ _ _ _ Hdoc Hs XG gg Dg eq_refl N1 (N2 XG)) as EG.
    pose proof (session_set _ _ _ _ _ _ _ _ _ Hdoc Hs XD gd Dd eq_refl N1 (N2 XD)) as ED.
    destruct (session_border _ _ _ _ _ _ _ _ _ Hdoc Hs XS XS_BORDER gs Ds) as [F1 F2]; [rewrite Ty; cbn; auto|exact N1|reflexivity|].
    destruct (session_border _ _ _ _ _ _ _ _ _ Hdoc Hs XG XG_BORDER gg Dg) as [F3 F4]; [rewrite Ty; cbn; auto|exact N1|reflexivity|].
    destruct (C48_reach_and_stay controller pb env net ctrl S fuel r rad) as (T0 & H); auto.
    - exact (session_well_posed _ _ _ _ _ _ _ _ _ Hdoc Hs).
    - exact (proj2 (session_symb _ _ _ _ _ _ _ _ _ Hdoc Hs) Hc).
    - exact (proj1 (proj2 (proj2 (session_net _ _ _ _ _ _ _ _ _ Hdoc Hs))) Hr).
    - split; [|split; [intros s; rewrite EG, ES; auto|exact F3]].
      repeat split; auto; [rewrite ED|rewrite ES|]; rewrite ?EI in *; auto. intros s Hb'. rewrite ED. auto.
    - rewrite En. destruct Hb as [B1 B2]. split; [exact B1|]. intros s. rewrite ES. apply B2.
    - exists T0. intros x Hx H0. destruct (H x) as [H1 H2].
      + rewrite En. eapply forever_same; [apply same_sym, loop_same|exact Hx].
      + now rewrite EI.
      + split; intros t Ht; [rewrite <- ES; auto|rewrite <- EG; auto].
  Qed.
  Lemma file_attraction gi rad rho : asks doc ROA CONTINUOUS -> not_cvc5 doc -> avoids doc relu_names ->
    gives doc "LLO" (YBool true) -> declares doc n XI gi ->
    (forall j p, (j < n)%nat -> cont_at n (fun s => loop s j) p) ->
    forall V Vdot, r_symbolic r = Some (V, Vdot) ->
    bounded_by n rad (fun s => sem V s <= 11/10 * Q2R (l_beta (r_learned r))) -> 1/100 < rho ->
    exists T, 0 <= T /\ forall x, solves n loop x T -> in_region gi (x 0) ->
      exists t, 0 <= t <= T /\ ~ outside_ball n rho (x t).
  Proof.
    intros Ha Hc Hr Hl Di Hf V Vdot HV Hb Hrho.
    pose proof (session_n _ _ _ _ _ _ _ _ _ Hdoc Hs n Hn) as En. rewrite <- En in Di.
    apply (session_type _ _ _ _ _ _ _ _ _ Hdoc Hs) in Ha. destruct Ha as [Ty Td].
    assert (N1 : pb_type pb <> RAR) by congruence.
    pose proof (session_set _ _ _ _ _ _ _ _ _ Hdoc Hs XI gi Di eq_refl N1 ltac:(discriminate)) as EI.
    destruct (C47_roa_success_means_attraction controller pb env net ctrl S fuel r rad rho) with (V := V) (Vdot := Vdot) as (T & HT & H); auto.
    - exact (session_well_posed _ _ _ _ _ _ _ _ _ Hdoc Hs).
    - apply (session_llo _ _ _ _ _ _ _ _ _ Hdoc Hs); [|intros _; eauto]. intros v Hv.
      clear - Hdoc Hl Hv. apply (P_Cli.assoc_nodup _ _ _ Hdoc) in Hl, Hv. congruence.
    - exact (proj2 (session_symb _ _ _ _ _ _ _ _ _ Hdoc Hs) Hc).
    - exact (proj1 (proj2 (proj2 (session_net _ _ _ _ _ _ _ _ _ Hdoc Hs))) Hr).
    - rewrite En. now apply loop_cont.
    - now rewrite En.
    - exists T. split; [exact HT|]. intros x Hx H0. destruct (H x) as (t & Ht & K).
      + rewrite En. eapply solves_same; [apply same_sym, loop_same|exact Hx].
      + now rewrite EI.
      + exists t. split; [exact Ht|]. now rewrite <- En.
  Qed.
  Lemma file_convergence gd rad : asks doc LYAPUNOV DISCRETE -> avoids doc offset_names ->
    (forall s, gives doc "FACTORS" (YStr s) -> ~ spelled s "QUADRATIC") ->
    (forall v, gives doc "LLO" v -> v = YBool false) \/ is_positive_definite net = true ->
    declares doc n XD gd -> bounded_by n rad (in_region gd) -> closed_set n (in_region gd) ->
    (forall j p, (j < n)%nat -> cont_at n (fun s => loop s j) p) ->
    (forall s, origin n s -> forall j, (j < n)%nat -> loop s j = 0) ->
    forall x, run n loop x -> (forall k, in_region gd (x k)) ->
      forall e, 0 < e -> exists K0, forall k, (K0 <= k)%nat -> near n e (x k).
  Proof.
    intros Ha Hz Hq Hl Dd Hb Hc Hf Ho x Hx HD.
    pose proof (session_n _ _ _ _ _ _ _ _ _ Hdoc Hs n Hn) as En. rewrite <- En in Dd.
    apply (session_type _ _ _ _ _ _ _ _ _ Hdoc Hs) in Ha. destruct Ha as [Ty Td].
    assert (ED : forall s, inside (pb_sets pb) XD s <-> in_region gd s).
    { intros s. apply (session_set _ _ _ _ _ _ _ _ _ Hdoc Hs XD gd Dd eq_refl); congruence. }
    rewrite <- En.
    refine (C45_lyapunov_discrete_success_means_convergence controller pb env net ctrl S fuel r rad _ Hlaw Hhon Ty Td _ _ _ _ _ _ _ Hrun Hres x _ _).
    - exact (session_well_posed _ _ _ _ _ _ _ _ _ Hdoc Hs).
    - now apply (session_no_quad _ _ _ _ _ _ _ _ _ Hdoc Hs).
    - exact (proj2 (proj2 (proj2 (session_net _ _ _ _ _ _ _ _ _ Hdoc Hs))) (or_introl Ty) Hz).
    - intros L. destruct Hl as [Hl|Hl]; [|exact Hl]. exfalso.
      rewrite (session_llo _ _ _ _ _ _ _ _ _ Hdoc Hs false Hl) in L by discriminate. discriminate.
    - rewrite En. destruct Hb as [B1 B2]. split; [exact B1|]. intros s Hs'. apply B2. now apply ED.
    - rewrite En. intros p Hp. destruct (Hc p) as (d & Hd & K); [now rewrite <- ED|]. exists d. split; [exact Hd|].
      intros q Hq'. rewrite ED. now apply K.
    - rewrite En. now apply loop_cont.
    - rewrite En. intros s Hs' j Hj. rewrite (loop_same s j Hj). now apply Ho.
    - rewrite En. eapply run_same; [apply same_sym, loop_same|exact Hx].
    - intros k. apply ED, HD.
  Qed.
End Guarantees.

(** The system the program reasons about is the one written in the file, with the feedback of the returned controller. *)
Theorem C59_field :
  forall (numpy : interp) (f1 f2 : nat) (rand randc : nat -> nat -> nat -> Q) (doc : document)
    (pb : problem controller) (net : network) (ctrl : controller) (env : environment controller) (S : dict) (fuel : nat) r
    (i : interp) (n : nat) (trees : list tree) (om : option nat),
    (* the file is read *)
    NoDup (map fst doc) -> session_of numpy f1 f2 rand randc doc = Some (pb, net, ctrl) ->
    (* the system written in it *)
    usual i -> dimension doc n -> equations doc trees -> inputs_of doc trees om ->
    (* the optimisers keep the shape of the networks; the solver's "unsat" is right *)
    lawful pb env -> keeps_controller env -> honest pb env ->
    run_fossil pb env fuel net ctrl S = Some (Some r) -> r_res r = true ->
    let loop := system_field i n trees (feedback_law n om (l_ctrl (r_learned r))) in
    forall s j, (j < n)%nat -> closed_loop pb r s j = loop s j.
Proof.
  intros numpy f1 f2 rand randc doc pb net ctrl env S fuel r i n trees om H1 H2 H3 H4 H5 H6 H7 H8 H9 H10 H11 lp.
  exact (loop_same numpy f1 f2 rand randc doc pb net ctrl env S fuel r i n trees om H1 H2 H3 H4 H5 H6 H7 H9 H8 H10 H11).
Qed.

(** It is continuous when nothing is divided except by numbers (any controller: every activation is continuous). *)
Theorem C59_continuous : forall i n trees om k, usual i -> Forall everywhere trees ->
  forall j p, cont_at n (fun s => system_field i n trees (feedback_law n om k) s j) p.
Proof. intros i n trees om k Hi Ht j p. now apply system_cont. Qed.

(** BARRIER, BARRIERALT *)
Theorem C59_safety :
  forall (numpy : interp) (f1 f2 : nat) (rand randc : nat -> nat -> nat -> Q) (doc : document)
    (pb : problem controller) (net : network) (ctrl : controller) (env : environment controller) (S : dict) (fuel : nat) r
    (i : interp) (n : nat) (trees : list tree) (om : option nat),
    (* the file is read *)
    NoDup (map fst doc) -> session_of numpy f1 f2 rand randc doc = Some (pb, net, ctrl) ->
    (* the system written in it *)
    usual i -> dimension doc n -> equations doc trees -> inputs_of doc trees om ->
    (* the optimisers keep the shape of the networks; the solver's "unsat" is right *)
    lawful pb env -> keeps_controller env -> honest pb env ->
    run_fossil pb env fuel net ctrl S = Some (Some r) -> r_res r = true ->
    let loop := system_field i n trees (feedback_law n om (l_ctrl (r_learned r))) in
    asks doc BARRIER CONTINUOUS \/ asks doc BARRIERALT CONTINUOUS -> not_cvc5 doc -> avoids doc relu_names ->
    forall gi gu gd, declares doc n XI gi -> declares doc n XU gu -> declares doc n XD gd ->
    forall x T, solves n loop x T -> in_region gi (x 0) -> (forall t, 0 <= t <= T -> in_region gd (x t)) ->
      forall t, 0 <= t <= T -> ~ in_region gu (x t).
Proof.
  intros numpy f1 f2 rand randc doc pb net ctrl env S fuel r i n trees om H1 H2 H3 H4 H5 H6 H7 H8 H9 H10 H11 lp.
  intros A B C gi gu gd D1 D2 D3. exact (file_safety numpy f1 f2 rand randc doc pb net ctrl env S fuel r i n trees om H1 H2 H3 H4 H5 H6 H7 H9 H8 H10 H11 gi gu gd A B C D1 D2 D3).
Qed.

(** BARRIERALT in discrete time *)
Theorem C59_safety_discrete :
  forall (numpy : interp) (f1 f2 : nat) (rand randc : nat -> nat -> nat -> Q) (doc : document)
    (pb : problem controller) (net : network) (ctrl : controller) (env : environment controller) (S : dict) (fuel : nat) r
    (i : interp) (n : nat) (trees : list tree) (om : option nat),
    (* the file is read *)
    NoDup (map fst doc) -> session_of numpy f1 f2 rand randc doc = Some (pb, net, ctrl) ->
    (* the system written in it *)
    usual i -> dimension doc n -> equations doc trees -> inputs_of doc trees om ->
    (* the optimisers keep the shape of the networks; the solver's "unsat" is right *)
    lawful pb env -> keeps_controller env -> honest pb env ->
    run_fossil pb env fuel net ctrl S = Some (Some r) -> r_res r = true ->
    let loop := system_field i n trees (feedback_law n om (l_ctrl (r_learned r))) in
    asks doc BARRIERALT DISCRETE ->
    forall gi gu gd, declares doc n XI gi -> declares doc n XU gu -> declares doc n XD gd ->
    forall x N, run n loop x -> in_region gi (x 0%nat) -> (forall k, (k <= N)%nat -> in_region gd (x k)) ->
      forall k, (k <= N)%nat -> ~ in_region gu (x k).
Proof.
  intros numpy f1 f2 rand randc doc pb net ctrl env S fuel r i n trees om H1 H2 H3 H4 H5 H6 H7 H8 H9 H10 H11 lp.
  intros A gi gu gd D1 D2 D3. exact (file_safety_discrete numpy f1 f2 rand randc doc pb net ctrl env S fuel r i n trees om H1 H2 H3 H4 H5 H6 H7 H9 H8 H10 H11 gi gu gd A D1 D2 D3).
Qed.

(** LYAPUNOV; XD must contain a ball around the origin (the README's example, a torus, does not: see C59_hole). *)
Theorem C59_stability :
  forall (numpy : interp) (f1 f2 : nat) (rand randc : nat -> nat -> nat -> Q) (doc : document)
    (pb : problem controller) (net : network) (ctrl : controller) (env : environment controller) (S : dict) (fuel : nat) r
    (i : interp) (n : nat) (trees : list tree) (om : option nat),
    (* the file is read *)
    NoDup (map fst doc) -> session_of numpy f1 f2 rand randc doc = Some (pb, net, ctrl) ->
    (* the system written in it *)
    usual i -> dimension doc n -> equations doc trees -> inputs_of doc trees om ->
    (* the optimisers keep the shape of the networks; the solver's "unsat" is right *)
    lawful pb env -> keeps_controller env -> honest pb env ->
    run_fossil pb env fuel net ctrl S = Some (Some r) -> r_res r = true ->
    let loop := system_field i n trees (feedback_law n om (l_ctrl (r_learned r))) in
    asks doc LYAPUNOV CONTINUOUS -> not_cvc5 doc -> avoids doc relu_names ->
    (exists s, gives doc "FACTORS" (YStr s) /\ spelled s "QUADRATIC") \/ avoids doc offset_names ->
    (forall v, gives doc "LLO" v -> v = YBool false) \/ is_positive_definite net = true ->
    forall gd rad, declares doc n XD gd -> neighbourhood n rad (in_region gd) -> Forall everywhere trees ->
    stable n loop /\ attractive n loop.
Proof.
  intros numpy f1 f2 rand randc doc pb net ctrl env S fuel r i n trees om H1 H2 H3 H4 H5 H6 H7 H8 H9 H10 H11 lp.
  intros A B C D E gd rad D1 N W. apply (file_stability numpy f1 f2 rand randc doc pb net ctrl env S fuel r i n trees om H1 H2 H3 H4 H5 H6 H7 H9 H8 H10 H11 gd rad A B C D E D1 N). intros j p _. now apply system_cont.
Qed.

(** LYAPUNOV in discrete time *)
Theorem C59_convergence :
  forall (numpy : interp) (f1 f2 : nat) (rand randc : nat -> nat -> nat -> Q) (doc : document)
    (pb : problem controller) (net : network) (ctrl : controller) (env : environment controller) (S : dict) (fuel : nat) r
    (i : interp) (n : nat) (trees : list tree) (om : option nat),
    (* the file is read *)
    NoDup (map fst doc) -> session_of numpy f1 f2 rand randc doc = Some (pb, net, ctrl) ->
    (* the system written in it *)
    usual i -> dimension doc n -> equations doc trees -> inputs_of doc trees om ->
    (* the optimisers keep the shape of the networks; the solver's "unsat" is right *)
    lawful pb env -> keeps_controller env -> honest pb env ->
    run_fossil pb env fuel net ctrl S = Some (Some r) -> r_res r = true ->
    let loop := system_field i n trees (feedback_law n om (l_ctrl (r_learned r))) in
    asks doc LYAPUNOV DISCRETE -> avoids doc offset_names ->
    (forall s, gives doc "FACTORS" (YStr s) -> ~ spelled s "QUADRATIC") ->
    (forall v, gives doc "LLO" v -> v = YBool false) \/ is_positive_definite net = true ->
    forall gd, declares doc n XD gd -> Forall everywhere trees ->
    (* the origin is an equilibrium *)
    (forall s, origin n s -> forall j, (j < n)%nat -> loop s j = 0) ->
    forall x, run n loop x -> (forall k, in_region gd (x k)) ->
      forall e, 0 < e -> exists K0, forall k, (K0 <= k)%nat -> near n e (x k).
Proof.
  intros numpy f1 f2 rand randc doc pb net ctrl env S fuel r i n trees om H1 H2 H3 H4 H5 H6 H7 H8 H9 H10 H11 lp.
  intros A B C D gd D1 W O. assert (P : proper n gd) by (destruct D1 as (d & v & _ & _ & _ & _ & P); exact P).
  destruct (region_bounded n gd P) as (rad & Hb).
  apply (file_convergence numpy f1 f2 rand randc doc pb net ctrl env S fuel r i n trees om H1 H2 H3 H4 H5 H6 H7 H9 H8 H10 H11 gd rad A B C D D1 Hb (region_closed n gd P)); [|exact O]. intros j p _. now apply system_cont.
Qed.

(** RWS, RWA, RSWS, RSWA: a time after which every trajectory has reached the goal without leaving the safe set before. *)
Theorem C59_reach_while_stay :
  forall (numpy : interp) (f1 f2 : nat) (rand randc : nat -> nat -> nat -> Q) (doc : document)
    (pb : problem controller) (net : network) (ctrl : controller) (env : environment controller) (S : dict) (fuel : nat) r
    (i : interp) (n : nat) (trees : list tree) (om : option nat),
    (* the file is read *)
    NoDup (map fst doc) -> session_of numpy f1 f2 rand randc doc = Some (pb, net, ctrl) ->
    (* the system written in it *)
    usual i -> dimension doc n -> equations doc trees -> inputs_of doc trees om ->
    (* the optimisers keep the shape of the networks; the solver's "unsat" is right *)
    lawful pb env -> keeps_controller env -> honest pb env ->
    run_fossil pb env fuel net ctrl S = Some (Some r) -> r_res r = true ->
    let loop := system_field i n trees (feedback_law n om (l_ctrl (r_learned r))) in
    forall ty gi gs gg gd, In ty [RWS; RWA; RSWS; RSWA] -> asks doc ty CONTINUOUS -> not_cvc5 doc -> avoids doc relu_names ->
    declares doc n XI gi -> declares doc n XS gs -> declares doc n XG gg -> declares doc n XD gd ->
    (forall x, in_region gi x -> in_region gs x) -> (forall x, in_region gs x -> in_region gd x) ->
    exists T0, forall x T, T0 <= T -> solves n loop x T -> in_region gi (x 0) ->
      reach_while_stay (in_region gs) (in_region gg) x T.
Proof.
  intros numpy f1 f2 rand randc doc pb net ctrl env S fuel r i n trees om H1 H2 H3 H4 H5 H6 H7 H8 H9 H10 H11 lp.
  intros ty gi gs gg gd I A B C D1 D2 D3 D4 E1 E2. assert (P : proper n gs) by (destruct D2 as (d & v & _ & _ & _ & _ & P); exact P).
  destruct (region_bounded n gs P) as (rad & Hb).
  exact (file_reach numpy f1 f2 rand randc doc pb net ctrl env S fuel r i n trees om H1 H2 H3 H4 H5 H6 H7 H9 H8 H10 H11 ty gi gs gg gd rad I A B C D1 D2 D3 D4 E1 E2 Hb).
Qed.

(** RSWS: the trajectories also stay in the safe set for ever and, from some time on, in the goal. *)
Theorem C59_reach_and_stay :
  forall (numpy : interp) (f1 f2 : nat) (rand randc : nat -> nat -> nat -> Q) (doc : document)
    (pb : problem controller) (net : network) (ctrl : controller) (env : environment controller) (S : dict) (fuel : nat) r
    (i : interp) (n : nat) (trees : list tree) (om : option nat),
    (* the file is read *)
    NoDup (map fst doc) -> session_of numpy f1 f2 rand randc doc = Some (pb, net, ctrl) ->
    (* the system written in it *)
    usual i -> dimension doc n -> equations doc trees -> inputs_of doc trees om ->
    (* the optimisers keep the shape of the networks; the solver's "unsat" is right *)
    lawful pb env -> keeps_controller env -> honest pb env ->
    run_fossil pb env fuel net ctrl S = Some (Some r) -> r_res r = true ->
    let loop := system_field i n trees (feedback_law n om (l_ctrl (r_learned r))) in
    asks doc RSWS CONTINUOUS -> not_cvc5 doc -> avoids doc relu_names ->
    (* the solver's "unsat" is also right in the search for the last level *)
    (forall it V Vdot, stay_sound (e_solver env it) (pb_sets pb) V Vdot) ->
    forall gi gs gg gd, declares doc n XI gi -> declares doc n XS gs -> declares doc n XG gg -> declares doc n XD gd ->
    (forall x, in_region gi x -> in_region gs x) -> (forall x, in_region gs x -> in_region gd x) ->
    (forall x, in_region gg x -> in_region gs x) ->
    exists T0, forall x, solves_forever n loop x -> in_region gi (x 0) ->
      (forall t, 0 <= t -> in_region gs (x t)) /\ (forall t, T0 <= t -> in_region gg (x t)).
Proof.
  intros numpy f1 f2 rand randc doc pb net ctrl env S fuel r i n trees om H1 H2 H3 H4 H5 H6 H7 H8 H9 H10 H11 lp.
  intros A B C St gi gs gg gd D1 D2 D3 D4 E1 E2 E3. assert (P : proper n gs) by (destruct D2 as (d & v & _ & _ & _ & _ & P); exact P).
  destruct (region_bounded n gs P) as (rad & Hb).
  exact (file_reach_stay numpy f1 f2 rand randc doc pb net ctrl env S fuel r i n trees om H1 H2 H3 H4 H5 H6 H7 H9 H8 H10 H11 gi gs gg gd rad A B C St D1 D2 D3 D4 E1 E2 E3 Hb).
Qed.

(** ROA with LLO: every trajectory from XI comes close to the origin, if the level set of the returned function is bounded. *)
Theorem C59_attraction :
  forall (numpy : interp) (f1 f2 : nat) (rand randc : nat -> nat -> nat -> Q) (doc : document)
    (pb : problem controller) (net : network) (ctrl : controller) (env : environment controller) (S : dict) (fuel : nat) r
    (i : interp) (n : nat) (trees : list tree) (om : option nat),
    (* the file is read *)
    NoDup (map fst doc) -> session_of numpy f1 f2 rand randc doc = Some (pb, net, ctrl) ->
    (* the system written in it *)
    usual i -> dimension doc n -> equations doc trees -> inputs_of doc trees om ->
    (* the optimisers keep the shape of the networks; the solver's "unsat" is right *)
    lawful pb env -> keeps_controller env -> honest pb env ->
    run_fossil pb env fuel net ctrl S = Some (Some r) -> r_res r = true ->
    let loop := system_field i n trees (feedback_law n om (l_ctrl (r_learned r))) in
    asks doc ROA CONTINUOUS -> not_cvc5 doc -> avoids doc relu_names -> gives doc "LLO" (YBool true) ->
    forall gi, declares doc n XI gi -> Forall everywhere trees ->
    forall V Vdot rad rho, r_symbolic r = Some (V, Vdot) ->
    bounded_by n rad (fun s => sem V s <= 11/10 * Q2R (l_beta (r_learned r))) -> 1/100 < rho ->
    exists T, 0 <= T /\ forall x, solves n loop x T -> in_region gi (x 0) ->
      exists t, 0 <= t <= T /\ ~ outside_ball n rho (x t).
Proof.
  intros numpy f1 f2 rand randc doc pb net ctrl env S fuel r i n trees om H1 H2 H3 H4 H5 H6 H7 H8 H9 H10 H11 lp.
  intros A B C L gi D1 W V Vdot rad rho E Hb Hr. refine (file_attraction numpy f1 f2 rand randc doc pb net ctrl env S fuel r i n trees om H1 H2 H3 H4 H5 H6 H7 H9 H8 H10 H11 gi rad rho A B C L D1 _ V Vdot E Hb Hr).
  intros j p _. now apply system_cont.
Qed.
