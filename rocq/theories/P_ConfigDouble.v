(** C59 for the certificates with two functions (STABLESAFE, RAR): from the text of a
    configuration file to the guarantee. *)
From Coquelicot Require Import Coquelicot.
From Coq Require Import String Ascii Reals QArith Qreals Bool Arith ZArith Decimal Lra Lia List.
From Verif Require Import M_Syntax M_Certificates M_Verifier M_BetaSearch M_Activations M_Domains M_Network M_Learner M_Cegis M_Labels M_Fossil M_Double
  M_Control M_Parser M_Lexer M_Variables M_DomainParser M_Cli M_Config S_Verifier S_Activations S_Network S_Learner S_Cegis S_Fossil S_Double S_Dynamics S_Certificates S_Success S_Domains
  S_Parser S_Lexer S_Variables S_DomainParser S_Control S_Cli S_Config L_Fossil P_BetaSearch P_Certificates P_Safety P_Stability P_Cegis P_Translator P_Control P_Fossil P_Double L_Config L_Session L_Regions P_Config.
Import ListNotations.
Local Open Scope string_scope.
Local Open Scope list_scope.
Local Open Scope R_scope.

(** The controller's shape survives training. *)
Definition keeps_controller2 (env : environment2 controller) : Prop :=
  forall n m it p S Sdot, wf_controller n m (d_ctrl p) -> wf_controller n m (e2_ctrl env it p S Sdot).

Lemma session2_parts numpy f1 f2 rand rand2 randc doc pb net net2 ctrl :
  session2_of numpy f1 f2 rand rand2 randc doc = Some (pb, net, net2, ctrl) ->
  session_of numpy f1 f2 rand randc doc = Some (pb, net, ctrl) /\ (pb_type pb = STABLESAFE \/ pb_type pb = RAR) /\
  exists c, read_config doc = Some c /\ learner_alt_of rand2 c (pb_n pb) = Some net2.
Proof.
  intros E. unfold session2_of in E. apply bind_some in E. destruct E as ([[pb' net'] ctrl'] & Es & E).
  assert (T : pb_type pb' = STABLESAFE \/ pb_type pb' = RAR) by (destruct (pb_type pb'); try discriminate; auto).
  assert (E' : option_bind (read_config doc) (fun c => option_bind (learner_alt_of rand2 c (pb_n pb')) (fun net2 => Some (pb', net', net2, ctrl'))) = Some (pb, net, net2, ctrl))
    by (destruct T as [T|T]; rewrite T in E; exact E).
  apply bind_some in E'. destruct E' as (c & Ec & E'). apply bind_some in E'. destruct E' as (n2 & En & E').
  injection E' as <- <- <- <-. eauto.
Qed.

Lemma trained_controller2 {K} (W : K -> Prop) (pb : problem K) env random1 random2 ctrl S fuel r :
  W ctrl -> (forall it p S Sdot, W (d_ctrl p) -> W (e2_ctrl env it p S Sdot)) ->
  run_double pb env fuel random1 random2 ctrl S = Some (Some r) -> r_res r = true -> W (d_ctrl (r_learned r)).
Proof.
  intros Hw Hpres Hr Hres. unfold run_double in Hr. destruct (pb_discrete pb); [discriminate|].
  assert (Hstep : forall it f p S Sdot q, double_learn pb env it f p S Sdot = Some q -> W (d_ctrl p) -> W (d_ctrl q)).
  { intros it f p S0 Sdot q H Hp. unfold double_learn in H. apply P_Activations.Some_eq' in H. subst q. cbn [d_ctrl].
    destruct (pb_control pb); auto. }
  assert (Hvis : forall it st, visited (double pb env) (initial2 pb random1 random2 ctrl) S it st -> W (d_ctrl (st_params st))).
  { induction 1 as [|it st st' Hv IH Hi']; [exact Hw|].
    apply iterate_inv in Hi'. destruct Hi' as (q & c & found & cex & t & H1 & _ & _ & _ & Hp & _).
    rewrite Hp. exact (Hstep _ _ _ _ _ _ H1 IH). }
  destruct (C32_result_was_verified _ _ _ _ _ _ _ Hr Hres) as (it & VV & cex & _ & _ & _ & _ & _ & st & Hv & E5).
  exact (Hstep _ _ _ _ _ _ E5 (Hvis _ _ Hv)).
Qed.

Section Guarantees2.
  Context (numpy : interp) (f1 f2 : nat) (rand rand2 randc : nat -> nat -> nat -> Q) (doc : document).
  Context (pb : problem controller) (net net2 : network) (ctrl : controller).
  Context (env : environment2 controller) (S : dict) (fuel : nat) (r : result (P := learned2 controller) (C := candidate2)).
  Context (i : interp) (n : nat) (trees : list tree) (om : option nat).
  Hypothesis Hdoc : NoDup (map fst doc).
  Hypothesis Hs2 : session2_of numpy f1 f2 rand rand2 randc doc = Some (pb, net, net2, ctrl).
  Hypothesis Hi : usual i.
  Hypothesis Hn : dimension doc n.
  Hypothesis Heq : equations doc trees.
  Hypothesis Hin : inputs_of doc trees om.
  Hypothesis Hlaw : lawful2 env.
  Hypothesis Hhon : honest2 pb env.
  Hypothesis Hkeep : keeps_controller2 env.
  Hypothesis Hrun : run_double pb env fuel net net2 ctrl S = Some (Some r).
  Hypothesis Hres : r_res r = true.
  Hypothesis Hcvc : not_cvc5 doc.
  Hypothesis Hav : avoids doc relu_names.
  Hypothesis Hav2 : avoids_alt doc relu_names.

  Definition loop2 : vfield := system_field i n trees (feedback_law n om (d_ctrl (r_learned r))).
  Lemma Hs : session_of numpy f1 f2 rand randc doc = Some (pb, net, ctrl).
  Proof. exact (proj1 (session2_parts _ _ _ _ _ _ _ _ _ _ _ Hs2)). Qed.
  Lemma file2_posed : well_posed2 pb net net2 /\ pb_symb pb <> SCVC5 /\ smooth_net net /\ smooth_net net2.
  Proof.
    pose proof (session_well_posed _ _ _ _ _ _ _ _ _ Hdoc Hs) as W.
    destruct (session2_parts _ _ _ _ _ _ _ _ _ _ _ Hs2) as (_ & _ & c & Ec & En).
    destruct (learner_from_facts _ _ _ _ _ _ _ _ Hdoc Ec (or_intror eq_refl) En) as (A & B & C & _).
    split; [split; [exact W|split; [exact A|split; [exact B|apply W]]]|].
    split; [exact (proj2 (session_symb _ _ _ _ _ _ _ _ _ Hdoc Hs) Hcvc)|].
    split; [exact (proj1 (proj2 (proj2 (session_net _ _ _ _ _ _ _ _ _ Hdoc Hs))) Hav)|now apply C].
  Qed.
  Lemma loop2_xdot : exists xdot, pb_xdot pb (d_ctrl (r_learned r)) = Some xdot.
  Proof.
    pose proof Hrun as Hr. unfold run_double in Hr. destruct (pb_discrete pb); [discriminate|].
    destruct (C32_result_was_verified _ _ _ _ _ _ _ Hr Hres) as (it & VV & cex & _ & _ & E2 & _).
    cbn [c_translate double] in E2. unfold double_translate in E2.
    destruct (pb_xdot pb (d_ctrl (r_learned r))) as [xdot|]; [eauto|discriminate].
  Qed.
  Lemma loop2_same : same_field n (closed_loop2 pb r) loop2.
  Proof.
    pose proof (session_n _ _ _ _ _ _ _ _ _ Hdoc Hs n Hn) as En. intros s j Hj.
    destruct loop2_xdot as (xdot & Ex).
    unfold closed_loop2, loop2, dynamics. rewrite Ex. rewrite <- En in Hj |- *.
    apply (session_dynamics _ _ _ _ _ _ _ _ _ Hdoc Hs trees om i Hi Heq Hin _ _ Ex); auto.
    intros m Em. refine (trained_controller2 (wf_controller (pb_n pb) m) pb env net net2 ctrl S fuel r _ _ Hrun Hres).
    - now apply (session_outputs _ _ _ _ _ _ _ _ _ Hdoc Hs trees om Hin).
    - intros it0 p S0 Sdot. apply Hkeep.
  Qed.
  Lemma loop2_cont : (forall j p, (j < n)%nat -> cont_at n (fun s => loop2 s j) p) ->
    forall j p, cont_at n (fun s => closed_loop2 pb r s j) p.
  Proof.
    intros H j p. destruct (le_lt_dec n j) as [L|L].
    - destruct loop2_xdot as (xdot & Ex). pose proof Ex as Hd.
      apply (session_length _ _ _ _ _ _ _ _ _ Hs) in Hd. rewrite (session_n _ _ _ _ _ _ _ _ _ Hdoc Hs n Hn) in Hd.
      intros e He. exists 1. split; [lra|]. intros s _. unfold closed_loop2, dynamics, field. rewrite Ex, nth_overflow by lia.
      cbn. rewrite Rminus_eq_0, Rabs_R0. exact He.
    - intros e He. destruct (H j p L e He) as (d & Hd & K). exists d. split; [exact Hd|]. intros s Hs'.
      rewrite !(loop2_same _ j L). now apply K.
  Qed.

  Lemma file2_safety gi gu gd : asks doc STABLESAFE CONTINUOUS ->
    declares doc n XI gi -> declares doc n XU gu -> declares doc n XD gd ->
    forall x T, solves n loop2 x T -> in_region gi (x 0) -> (forall t, 0 <= t <= T -> in_region gd (x t)) ->
      forall t, 0 <= t <= T -> ~ in_region gu (x t).
  Proof.
    intros Ha Di Du Dd x T Hx H0 HD t Ht.
    pose proof (session_n _ _ _ _ _ _ _ _ _ Hdoc Hs n Hn) as En. rewrite <- En in Di, Du, Dd.
    apply (session_type _ _ _ _ _ _ _ _ _ Hdoc Hs) in Ha. destruct Ha as [Ty Td].
    assert (N1 : pb_type pb <> RAR) by congruence.
    assert (N2 : forall l, pb_type pb = ROA -> l <> XD) by (intros l E; congruence).
    rewrite <- (session_set _ _ _ _ _ _ _ _ _ Hdoc Hs XU gu Du eq_refl N1 (N2 XU)).
    destruct file2_posed as (P1 & P2 & P3 & P4).
    refine (C52_stablesafe_success_means_safety controller pb env net net2 ctrl S fuel r P1 Hlaw Hhon Ty P2 P3 P4 Hrun Hres x T _ _ _ t Ht).
    - rewrite En. eapply solves_same; [apply same_sym, loop2_same|exact Hx].
    - now rewrite (session_set _ _ _ _ _ _ _ _ _ Hdoc Hs XI gi Di eq_refl N1 (N2 XI)).
    - intros u Hu. rewrite (session_set _ _ _ _ _ _ _ _ _ Hdoc Hs XD gd Dd eq_refl N1 (N2 XD)). now apply HD.
  Qed.
  Lemma file2_attraction gi rad rho : decisive env -> asks doc STABLESAFE CONTINUOUS -> gives doc "LLO" (YBool true) ->
    declares doc n XI gi -> (forall j p, (j < n)%nat -> cont_at n (fun s => loop2 s j) p) ->
    forall V Vdot B Bdot, r_symbolic r = Some ((V, Vdot), (B, Bdot)) ->
    bounded_by n rad (fun s => sem V s <= 11/10 * Q2R (d_beta (r_learned r))) -> 1/100 < rho ->
    exists T, 0 <= T /\ forall x, solves n loop2 x T -> in_region gi (x 0) ->
      exists t, 0 <= t <= T /\ ~ outside_ball n rho (x t).
  Proof.
    intros Hde Ha Hl Di Hf V Vdot B Bdot HV Hb Hrho.
    pose proof (session_n _ _ _ _ _ _ _ _ _ Hdoc Hs n Hn) as En. rewrite <- En in Di.
    apply (session_type _ _ _ _ _ _ _ _ _ Hdoc Hs) in Ha. destruct Ha as [Ty Td].
    assert (N1 : pb_type pb <> RAR) by congruence.
    pose proof (session_set _ _ _ _ _ _ _ _ _ Hdoc Hs XI gi Di eq_refl N1 ltac:(discriminate)) as EI.
    destruct file2_posed as (P1 & P2 & P3 & P4).
    destruct (C52_stablesafe_success_means_attraction controller pb env net net2 ctrl S fuel r rad rho)
      with (V := V) (Vdot := Vdot) (B := B) (Bdot := Bdot) as (T & HT & H); auto.
    - apply (session_llo _ _ _ _ _ _ _ _ _ Hdoc Hs); [|intros _; eauto]. intros v Hv.
      clear - Hdoc Hl Hv. apply (P_Cli.assoc_nodup _ _ _ Hdoc) in Hl, Hv. congruence.
    - rewrite En. now apply loop2_cont.
    - now rewrite En.
    - exists T. split; [exact HT|]. intros x Hx H0. destruct (H x) as (t & Ht & K).
      + rewrite En. eapply solves_same; [apply same_sym, loop2_same|exact Hx].
      + now rewrite EI.
      + exists t. split; [exact Ht|]. now rewrite <- En.
  Qed.
  Lemma file2_remain gi gs gg gf gd rad : asks doc RAR CONTINUOUS ->
    declares doc n XI gi -> declares doc n XS gs -> declares doc n XG gg -> declares doc n XF gf -> declares doc n XD gd ->
    (forall x, in_region gi x -> in_region gs x) -> (forall x, in_region gs x -> in_region gd x) ->
    bounded_by n rad (in_region gs) ->
    exists T0, forall x T, solves n loop2 x T -> in_region gi (x 0) ->
      (T0 <= T -> reach_while_stay (in_region gs) (in_region gg) x T) /\
      (forall a, 0 <= a <= T -> in_region gg (x a) -> (forall t, a <= t <= T -> in_region gd (x t)) ->
         forall t, a <= t <= T -> in_region gf (x t)).
  Proof.
    intros Ha Di Ds Dg Df Dd His Hsd Hb.
    pose proof (session_n _ _ _ _ _ _ _ _ _ Hdoc Hs n Hn) as En. rewrite <- En in Di, Ds, Dg, Df, Dd.
    apply (session_type _ _ _ _ _ _ _ _ _ Hdoc Hs) in Ha. destruct Ha as [Ty Td].
    pose proof (session_set_rar _ _ _ _ _ _ _ _ _ Hdoc Hs XI gi Di eq_refl Ty ltac:(discriminate)) as EI.
    pose proof (session_set_rar _ _ _ _ _ _ _ _ _ Hdoc Hs XS gs Ds eq_refl Ty ltac:(discriminate)) as ES.
    pose proof (session_set_rar _ _ _ _ _ _ _ _ _ Hdoc Hs XG gg Dg eq_refl Ty ltac:(discriminate)) as EG.
    pose proof (session_set_rar _ _ _ _ _ _ _ _ _ Hdoc Hs XF gf Df eq_refl Ty ltac:(discriminate)) as EF.
    pose proof (session_set_rar _ _ _ _ _ _ _ _ _ Hdoc Hs XD gd Dd eq_refl Ty ltac:(discriminate)) as ED.
    pose proof (session_complement_rar _ _ _ _ _ _ _ _ _ Hdoc Hs gf Df Ty) as EN.
    destruct (session_border_rar _ _ _ _ _ _ _ _ _ Hdoc Hs gs Ds Ty) as [F1 F2].
    destruct file2_posed as (P1 & P2 & P3 & P4).
    destruct (C52_rar_success_means_reach_avoid_remain controller pb env net net2 ctrl S fuel r rad) as (T0 & H); auto.
    - repeat split; auto; [rewrite ED|rewrite ES|]; rewrite ?EI in *; auto. intros s Hb'. rewrite ED. auto.
    - rewrite En. destruct Hb as [B1 B2]. split; [exact B1|]. intros s. rewrite ES. apply B2.
    - intros s _. rewrite EF, EN. destruct (Classical_Prop.classic (in_region gf s)); auto.
    - exists T0. intros x T Hx H0. destruct (H x T) as [A1 A2].
      + rewrite En. eapply solves_same; [apply same_sym, loop2_same|exact Hx].
      + now rewrite EI.
      + split.
        * intros HT. destruct (A1 HT) as [(t & Ht & G) Hst]. split; [exists t; split; [exact Ht|now rewrite <- EG]|].
          intros u Hu Hv. rewrite <- ES. apply Hst; [exact Hu|]. intros v Hv'. rewrite EG. now apply Hv.
        * intros a Ha Hg HD t Ht. rewrite <- EF. refine (proj1 (A2 a Ha _ _ t Ht)); [now rewrite EG|].
          intros u Hu. rewrite ED. now apply HD.
  Qed.
End Guarantees2.

(** STABLESAFE: the unsafe set is avoided. *)
Theorem C59_stable_safe :
  forall (numpy : interp) (f1 f2 : nat) (rand rand2 randc : nat -> nat -> nat -> Q) (doc : document)
    (pb : problem controller) (net net2 : network) (ctrl : controller) (env : environment2 controller) (S : dict) (fuel : nat) r
    (i : interp) (n : nat) (trees : list tree) (om : option nat),
    (* the file is read *)
    NoDup (map fst doc) -> session2_of numpy f1 f2 rand rand2 randc doc = Some (pb, net, net2, ctrl) ->
    (* the system written in it *)
    usual i -> dimension doc n -> equations doc trees -> inputs_of doc trees om ->
    (* the optimisers keep the shape of the networks; the solver's "unsat" is right *)
    lawful2 env -> keeps_controller2 env -> honest2 pb env ->
    run_double pb env fuel net net2 ctrl S = Some (Some r) -> r_res r = true ->
    let loop := system_field i n trees (feedback_law n om (d_ctrl (r_learned r))) in
    asks doc STABLESAFE CONTINUOUS -> not_cvc5 doc -> avoids doc relu_names -> avoids_alt doc relu_names ->
    forall gi gu gd, declares doc n XI gi -> declares doc n XU gu -> declares doc n XD gd ->
    forall x T, solves n loop x T -> in_region gi (x 0) -> (forall t, 0 <= t <= T -> in_region gd (x t)) ->
      forall t, 0 <= t <= T -> ~ in_region gu (x t).
Proof.
  intros numpy f1 f2 rand rand2 randc doc pb net net2 ctrl env S fuel r i n trees om H1 H2 H3 H4 H5 H6 H7 H8 H9 H10 H11 lp.
  intros A B C D gi gu gd.
  exact (file2_safety numpy f1 f2 rand rand2 randc doc pb net net2 ctrl env S fuel r i n trees om H1 H2 H3 H4 H5 H6 H7 H9 H8 H10 H11 B C D gi gu gd A).
Qed.

(** STABLESAFE with LLO: every trajectory from XI comes close to the origin, if the level set of the returned function is bounded
    and the solver always decides. *)
Theorem C59_stable_safe_attraction :
  forall (numpy : interp) (f1 f2 : nat) (rand rand2 randc : nat -> nat -> nat -> Q) (doc : document)
    (pb : problem controller) (net net2 : network) (ctrl : controller) (env : environment2 controller) (S : dict) (fuel : nat) r
    (i : interp) (n : nat) (trees : list tree) (om : option nat),
    (* the file is read *)
    NoDup (map fst doc) -> session2_of numpy f1 f2 rand rand2 randc doc = Some (pb, net, net2, ctrl) ->
    (* the system written in it *)
    usual i -> dimension doc n -> equations doc trees -> inputs_of doc trees om ->
    (* the optimisers keep the shape of the networks; the solver's "unsat" is right *)
    lawful2 env -> keeps_controller2 env -> honest2 pb env ->
    run_double pb env fuel net net2 ctrl S = Some (Some r) -> r_res r = true ->
    let loop := system_field i n trees (feedback_law n om (d_ctrl (r_learned r))) in
    asks doc STABLESAFE CONTINUOUS -> not_cvc5 doc -> avoids doc relu_names -> avoids_alt doc relu_names ->
    decisive env -> gives doc "LLO" (YBool true) ->
    forall gi, declares doc n XI gi -> Forall everywhere trees ->
    forall V Vdot B Bdot rad rho, r_symbolic r = Some ((V, Vdot), (B, Bdot)) ->
    bounded_by n rad (fun s => sem V s <= 11/10 * Q2R (d_beta (r_learned r))) -> 1/100 < rho ->
    exists T, 0 <= T /\ forall x, solves n loop x T -> in_region gi (x 0) ->
      exists t, 0 <= t <= T /\ ~ outside_ball n rho (x t).
Proof.
  intros numpy f1 f2 rand rand2 randc doc pb net net2 ctrl env S fuel r i n trees om H1 H2 H3 H4 H5 H6 H7 H8 H9 H10 H11 lp.
  intros A B C D De L gi Di W V Vdot Bf Bdot rad rho E Hb Hr.
  refine (file2_attraction numpy f1 f2 rand rand2 randc doc pb net net2 ctrl env S fuel r i n trees om H1 H2 H3 H4 H5 H6 H7 H9 H8 H10 H11 B C D gi rad rho De A L Di _ V Vdot Bf Bdot E Hb Hr).
  intros j p _. now apply system_cont.
Qed.

(** RAR: a time after which every trajectory has reached the goal without leaving the safe set before;
    and once in the goal, a trajectory stays in the final set as long as it stays in the domain. *)
Theorem C59_reach_avoid_remain :
  forall (numpy : interp) (f1 f2 : nat) (rand rand2 randc : nat -> nat -> nat -> Q) (doc : document)
    (pb : problem controller) (net net2 : network) (ctrl : controller) (env : environment2 controller) (S : dict) (fuel : nat) r
    (i : interp) (n : nat) (trees : list tree) (om : option nat),
    (* the file is read *)
    NoDup (map fst doc) -> session2_of numpy f1 f2 rand rand2 randc doc = Some (pb, net, net2, ctrl) ->
    (* the system written in it *)
    usual i -> dimension doc n -> equations doc trees -> inputs_of doc trees om ->
    (* the optimisers keep the shape of the networks; the solver's "unsat" is right *)
    lawful2 env -> keeps_controller2 env -> honest2 pb env ->
    run_double pb env fuel net net2 ctrl S = Some (Some r) -> r_res r = true ->
    let loop := system_field i n trees (feedback_law n om (d_ctrl (r_learned r))) in
    asks doc RAR CONTINUOUS -> not_cvc5 doc -> avoids doc relu_names -> avoids_alt doc relu_names ->
    forall gi gs gg gf gd, declares doc n XI gi -> declares doc n XS gs -> declares doc n XG gg -> declares doc n XF gf -> declares doc n XD gd ->
    (forall x, in_region gi x -> in_region gs x) -> (forall x, in_region gs x -> in_region gd x) ->
    exists T0, forall x T, solves n loop x T -> in_region gi (x 0) ->
      (T0 <= T -> reach_while_stay (in_region gs) (in_region gg) x T) /\
      (forall a, 0 <= a <= T -> in_region gg (x a) -> (forall t, a <= t <= T -> in_region gd (x t)) ->
         forall t, a <= t <= T -> in_region gf (x t)).
Proof.
  intros numpy f1 f2 rand rand2 randc doc pb net net2 ctrl env S fuel r i n trees om H1 H2 H3 H4 H5 H6 H7 H8 H9 H10 H11 lp.
  intros A B C D gi gs gg gf gd D1 D2 D3 D4 D5 E1 E2. assert (P : proper n gs) by (destruct D2 as (d & v & _ & _ & _ & _ & P); exact P).
  destruct (region_bounded n gs P) as (rad & Hb).
  exact (file2_remain numpy f1 f2 rand rand2 randc doc pb net net2 ctrl env S fuel r i n trees om H1 H2 H3 H4 H5 H6 H7 H9 H8 H10 H11 B C D gi gs gg gf gd rad A D1 D2 D3 D4 D5 E1 E2 Hb).
Qed.
