(** C61: from a configuration file with a CANDIDATE to the guarantee.  With a CANDIDATE the program
    only checks it ([verify_file]); "found" means that the system written in the file has the property
    asked for, on the sets written in the file. *)
From Coquelicot Require Import Coquelicot.
From Coq Require Import String Ascii Reals QArith Qreals Bool Arith ZArith Decimal Lra Lia List.
From Verif Require Import M_Syntax M_Certificates M_Verifier M_BetaSearch M_Activations M_Domains M_Network M_Learner M_Cegis M_Labels M_Fossil
  M_Control M_Parser M_Lexer M_Variables M_DomainParser M_Cli M_Config M_Verify M_ConfigVerify
  S_Verifier S_Activations S_Network S_Learner S_Cegis S_Fossil S_Dynamics S_Certificates S_Success S_Domains
  S_Parser S_Lexer S_Variables S_DomainParser S_Control S_Cli S_Config S_Verify S_ConfigVerify
  L_Topology L_Continuity L_Fossil P_Certificates P_Safety P_Stability P_Variables P_Verify P_Cli P_Translator P_Fossil L_Config L_Session L_Regions P_Config L_ConfigVerify.
Import ListNotations.
Local Open Scope string_scope.
Local Open Scope list_scope.
Local Open Scope R_scope.

Lemma candidate_line doc t s : NoDup (map fst doc) -> candidate doc t -> candidate_text doc = Some s ->
  written t s /\ std Sum t /\ no_minus_power t.
Proof.
  intros N (line & G & W) E. unfold candidate_text in E. rewrite (assoc_nodup "CANDIDATE" doc _ N G) in E.
  cbn in E. injection E as <-. exact W.
Qed.

Section Guarantees.
  Context (numpy : interp) (f1 f2 : nat) (rand randc : nat -> nat -> nat -> Q) (doc : document).
  Context (pb : problem controller) (net : network) (ctrl : controller).
  Context (be : backend) (noise : label -> nat -> nat -> R) (v : verdict).
  Context (i : interp) (n : nat) (trees : list tree) (om : option nat) (t : tree).
  Hypothesis Hdoc : NoDup (map fst doc).
  Hypothesis Hs : session_of numpy f1 f2 rand randc doc = Some (pb, net, ctrl).
  Hypothesis Hi : usual i.
  Hypothesis Hn : dimension doc n.
  Hypothesis Heq : equations doc trees.
  Hypothesis Hin : inputs_of doc trees om.
  Hypothesis Hcand : candidate doc t.
  Hypothesis Hstate : of_state n t.
  Hypothesis Hev : everywhere t.
  Hypothesis Hsolver : forall gs, trustworthy be gs.
  Hypothesis Hver : verify_file numpy f1 f2 rand randc doc be noise = Some v.
  Hypothesis Hfound : v_found v = true.

  Definition vloop : vfield := system_field i n trees (feedback_law n om ctrl).
  Lemma file_accepted : exists C xdot, accepted pb C xdot /\ elementary n C /\ (forall s, sem C s = written_value i n t s) /\
    same_field n (field xdot) vloop /\ length xdot = n.
  Proof.
    pose proof (session_n _ _ _ _ _ _ _ _ _ Hdoc Hs n Hn) as En.
    unfold verify_file in Hver. apply bind_some in Hver. destruct Hver as ([lib b] & El & E).
    apply bind_some in El. destruct El as (c & _ & El). apply bind_some in El. destruct El as (vt & _ & El).
    assert (Hlib : lib <> LibSympy) by (intros ->; destruct vt; discriminate).
    apply bind_some in E. destruct E as (e & Ee & E). apply bind_some in Ee. destruct Ee as (line & Et & Ee).
    rewrite Hs in E. cbn [option_bind] in E. destruct (candidate_line doc t line Hdoc Hcand Et) as (W & St & Nm).
    pose proof E as E0. unfold verify_candidate in E0. apply bind_some in E0. destruct E0 as (xdot & Ex & E0).
    apply bind_some in E0. destruct E0 as (C & EC & _). rewrite En in EC. exists C, xdot.
    pose proof (session_length _ _ _ _ _ _ _ _ _ Hs _ _ Ex) as Lx.
    split; [|split; [|split; [|split; [|congruence]]]].
    - exists be, noise, ctrl, (candidate_expr lib (leftover (pb_n pb)) e), v. split; [intros Cdot gs _; apply Hsolver|].
      refine (conj Ex (conj Lx (conj _ (conj E Hfound)))). rewrite En. exact EC.
    - eapply (candidate_elementary lib f1 f2 n t line e C); eauto.
    - intros s. eapply (candidate_value lib f1 f2 n t line e C i); eauto.
    - intros s j Hj. unfold vloop. rewrite <- En in Hj |- *.
      apply (session_dynamics _ _ _ _ _ _ _ _ _ Hdoc Hs trees om i Hi Heq Hin _ _ Ex); auto.
      intros m Em. now apply (session_outputs _ _ _ _ _ _ _ _ _ Hdoc Hs trees om Hin).
  Qed.

  Lemma verified_safety td gi gu gd : asks doc BARRIER td \/ asks doc BARRIERALT td ->
    declares doc n XI gi -> declares doc n XU gu -> declares doc n XD gd ->
    forall x T, solves n vloop x T -> in_region gi (x 0) -> (forall u, 0 <= u <= T -> in_region gd (x u)) ->
      forall u, 0 <= u <= T -> ~ in_region gu (x u).
  Proof.
    intros Ha Di Du Dd x T Hx H0 HD u Hu.
    pose proof (session_n _ _ _ _ _ _ _ _ _ Hdoc Hs n Hn) as En.
    destruct file_accepted as (C & xdot & Acc & El & _ & Sf & _). rewrite <- En in Di, Du, Dd.
    assert (Ty : pb_type pb = BARRIER \/ pb_type pb = BARRIERALT).
    { destruct Ha as [Ha|Ha]; apply (session_type _ _ _ _ _ _ _ _ _ Hdoc Hs) in Ha; tauto. }
    assert (N1 : pb_type pb <> RAR) by (destruct Ty; congruence).
    assert (N2 : forall l, pb_type pb = ROA -> l <> XD) by (intros l E; destruct Ty; congruence).
    rewrite <- (session_set _ _ _ _ _ _ _ _ _ Hdoc Hs XU gu Du eq_refl N1 (N2 XU)).
    refine (C54_barrier_candidate_safe controller pb C xdot Ty Acc _ x T _ _ _ u Hu); rewrite ?En; auto.
    - eapply solves_same; [apply same_sym, Sf|exact Hx].
    - now rewrite (session_set _ _ _ _ _ _ _ _ _ Hdoc Hs XI gi Di eq_refl N1 (N2 XI)).
    - intros w Hw. rewrite (session_set _ _ _ _ _ _ _ _ _ Hdoc Hs XD gd Dd eq_refl N1 (N2 XD)). now apply HD.
  Qed.
  Lemma verified_stability td gd rad : asks doc LYAPUNOV td -> (forall y, gives doc "LLO" y -> y = YBool false) ->
    declares doc n XD gd -> neighbourhood n rad (in_region gd) ->
    (forall s, origin n s -> written_value i n t s = 0) ->
    stable n vloop /\ (Forall everywhere trees -> attractive n vloop).
  Proof.
    intros Ha Hl Dd Hnb H0. pose proof (session_n _ _ _ _ _ _ _ _ _ Hdoc Hs n Hn) as En.
    destruct file_accepted as (C & xdot & Acc & El & Val & Sf & Lx).
    apply (session_type _ _ _ _ _ _ _ _ _ Hdoc Hs) in Ha. destruct Ha as [Ty _].
    destruct (C54_lyapunov_candidate_stable controller pb C xdot rad Ty) as [S1 S2]; rewrite ?En; auto.
    - apply (session_llo _ _ _ _ _ _ _ _ _ Hdoc Hs false Hl). discriminate.
    - intros s Ho. rewrite Val. now apply H0.
    - destruct Hnb as [Hrad Hnb]. split; [exact Hrad|]. intros s Hns. rewrite <- En in Dd.
      rewrite (session_set _ _ _ _ _ _ _ _ _ Hdoc Hs XD gd Dd eq_refl); [now apply Hnb|congruence|congruence].
    - rewrite En in S1, S2. split; [eapply stable_same; eauto|]. intros Ht. eapply attractive_same; [exact Sf|]. apply S2.
      intros j p. destruct (le_lt_dec n j) as [L|L].
      + intros e He. exists 1. split; [lra|]. intros s _. unfold field. rewrite nth_overflow by lia.
        cbn. rewrite Rminus_eq_0, Rabs_R0. exact He.
      + apply (cont_ext n (fun s => vloop s j)); [intros s; symmetry; now apply Sf|]. now apply system_cont.
  Qed.
  Lemma verified_reach td ty gi gs gg gd : In ty [RWS; RWA; RSWS; RSWA] -> asks doc ty td ->
    declares doc n XI gi -> declares doc n XS gs -> declares doc n XG gg -> declares doc n XD gd ->
    (forall x, in_region gi x -> in_region gs x) -> (forall x, in_region gs x -> in_region gd x) ->
    exists T0, forall x T, T0 <= T -> solves n vloop x T -> in_region gi (x 0) ->
      reach_while_stay (in_region gs) (in_region gg) x T.
  Proof.
    intros Hty Ha Di Ds Dg Dd His Hsd.
    pose proof (session_n _ _ _ _ _ _ _ _ _ Hdoc Hs n Hn) as En.
    assert (P : proper n gs) by (destruct Ds as (d & y & _ & _ & _ & _ & P); exact P).
    destruct (region_bounded n gs P) as (rad & Hb).
    destruct file_accepted as (C & xdot & Acc & El & Val & Sf & Lx). rewrite <- En in Di, Ds, Dg, Dd.
    apply (session_type _ _ _ _ _ _ _ _ _ Hdoc Hs) in Ha. destruct Ha as [Ty Td]. subst ty.
    assert (Ty' : pb_type pb = RWS \/ pb_type pb = RWA \/ pb_type pb = RSWS \/ pb_type pb = RSWA) by (cbn in Hty; intuition congruence).
    assert (N1 : pb_type pb <> RAR) by (intros E; rewrite E in Ty'; intuition discriminate).
    assert (N2 : forall l, pb_type pb = ROA -> l <> XD) by (intros l E; rewrite E in Ty'; intuition discriminate).
    pose proof (session_set _ _ _ _ _ _ _ _ _ Hdoc Hs XI gi Di eq_refl N1 (N2 XI)) as EI.
    pose proof (session_set _ _ _ _ _ _ _ _ _ Hdoc Hs XS gs Ds eq_refl N1 (N2 XS)) as ES.
    pose proof (session_set _ _ _ _ _ _ _ _ _ Hdoc Hs XG gg Dg eq_refl N1 (N2 XG)) as EG.
    pose proof (session_set _ _ _ _ _ _ _ _ _ Hdoc Hs XD gd Dd eq_refl N1 (N2 XD)) as ED.
    destruct (session_border _ _ _ _ _ _ _ _ _ Hdoc Hs XS XS_BORDER gs Ds) as [F1 F2];
      [destruct Ty' as [-> | [-> | [-> | ->]]]; cbn; auto|exact N1|reflexivity|].
    assert (Geo : rws_geometry (pb_n pb) (pb_sets pb)).
    { repeat split; auto; [rewrite ED|rewrite ES|]; rewrite ?EI in *; auto. intros s Hb'. rewrite ED. auto. }
    assert (El' : elementary (pb_n pb) C) by now rewrite En.
    assert (HcC : forall p, cont_at n (sem C) p).
    { intros p. apply (cont_ext n (fun s => value (component i (map s (seq 0 n)) (feedback_law n None ctrl s)) t)).
      - intros s. rewrite Val. reflexivity.
      - now apply value_cont. }
    assert (exists m, forall s, in_region gs s -> m <= sem C s) as (m & Hm).
    { destruct Hb as [Hr Hb]. destruct (box_bounded_below n rad (fun _ => True) (sem C) Hr) as [m Hm]; auto.
      - intros p _ H. now elim H.
      - exists m. intros s Hss. apply Hm; auto. intros j Hj. now apply Hb. }
    assert (Hm' : forall s, inside (pb_sets pb) XS s -> m <= sem C s) by (intros s H; apply Hm; now rewrite <- ES).
    destruct (accepted_inv pb C xdot Acc El') as (Cdot & gs' & Ec & Hcert & _).
    assert (E : gs' = rws_constraints (pb_sets pb) C Cdot).
    { unfold candidate_constraints, fossil_constraints in Ec. destruct Ty' as [Ty'|[Ty'|[Ty'|Ty']]]; rewrite Ty' in Ec; now injection Ec. }
    subst gs'. destruct (certified_rws _ _ _ Hcert) as (H1 & _).
    exists (1 - m * 100). intros x T HT Hx Hx0.
    assert (K : reach_while_stay (inside (pb_sets pb) XS) (inside (pb_sets pb) XG) x T).
    { refine (C54_reach_while_stay_candidate controller pb C xdot m Hty Acc El' Geo Hm' x T _ _ _).
      - rewrite En. eapply solves_same; [apply same_sym, Sf|exact Hx].
      - now rewrite EI.
      - assert (Hx0' : inside (pb_sets pb) XI (x 0)) by now rewrite EI.
        assert (H0 := H1 _ (proj1 (proj1 Geo _ Hx0')) Hx0'). lra. }
    destruct K as [(u & Hu & G) Hst]. split; [exists u; split; [exact Hu|now rewrite <- EG]|].
    intros u' Hu' Hv'. rewrite <- ES. apply Hst; [exact Hu'|]. intros w Hw. rewrite EG. now apply Hv'.
  Qed.
End Guarantees.

(** * C61 *)
(** BARRIER, BARRIERALT.  The time domain of the file is not looked at: the guarantee is for trajectories in continuous time. *)
Theorem C61_safety :
  forall (numpy : interp) (f1 f2 : nat) (rand randc : nat -> nat -> nat -> Q) (doc : document)
    (pb : problem controller) (net : network) (ctrl : controller) (be : backend) noise v
    (i : interp) (n : nat) (trees : list tree) (om : option nat) (t : tree),
    (* the file is read *)
    NoDup (map fst doc) -> session_of numpy f1 f2 rand randc doc = Some (pb, net, ctrl) ->
    (* the system and the candidate written in it *)
    usual i -> dimension doc n -> equations doc trees -> inputs_of doc trees om ->
    candidate doc t -> of_state n t -> everywhere t ->
    (* the solver's "unsat" is right; the candidate is accepted *)
    (forall gs, trustworthy be gs) ->
    verify_file numpy f1 f2 rand randc doc be noise = Some v -> v_found v = true ->
    (* with CTRLAYER, the feedback of the network as it is before training *)
    let loop := system_field i n trees (feedback_law n om ctrl) in
    forall time gi gu gd, asks doc BARRIER time \/ asks doc BARRIERALT time ->
    declares doc n XI gi -> declares doc n XU gu -> declares doc n XD gd ->
    forall x T, solves n loop x T -> in_region gi (x 0) -> (forall u, 0 <= u <= T -> in_region gd (x u)) ->
      forall u, 0 <= u <= T -> ~ in_region gu (x u).
Proof.
  intros numpy f1 f2 rand randc doc pb net ctrl be noise v i n trees om t H1 H2 H3 H4 H5 H6 H7 H8 H9 H10 H11 H12 lp.
  exact (verified_safety numpy f1 f2 rand randc doc pb net ctrl be noise v i n trees om t H1 H2 H3 H4 H5 H6 H7 H8 H9 H10 H11 H12).
Qed.

(** LYAPUNOV without LLO, for a candidate that is zero at the origin. *)
Theorem C61_stability :
  forall (numpy : interp) (f1 f2 : nat) (rand randc : nat -> nat -> nat -> Q) (doc : document)
    (pb : problem controller) (net : network) (ctrl : controller) (be : backend) noise v
    (i : interp) (n : nat) (trees : list tree) (om : option nat) (t : tree),
    (* the file is read *)
    NoDup (map fst doc) -> session_of numpy f1 f2 rand randc doc = Some (pb, net, ctrl) ->
    (* the system and the candidate written in it *)
    usual i -> dimension doc n -> equations doc trees -> inputs_of doc trees om ->
    candidate doc t -> of_state n t -> everywhere t ->
    (* the solver's "unsat" is right; the candidate is accepted *)
    (forall gs, trustworthy be gs) ->
    verify_file numpy f1 f2 rand randc doc be noise = Some v -> v_found v = true ->
    (* with CTRLAYER, the feedback of the network as it is before training *)
    let loop := system_field i n trees (feedback_law n om ctrl) in
    forall time gd rad, asks doc LYAPUNOV time -> (forall y, gives doc "LLO" y -> y = YBool false) ->
    declares doc n XD gd -> neighbourhood n rad (in_region gd) ->
    (forall s, origin n s -> written_value i n t s = 0) ->
    stable n loop /\ (Forall everywhere trees -> attractive n loop).
Proof.
  intros numpy f1 f2 rand randc doc pb net ctrl be noise v i n trees om t H1 H2 H3 H4 H5 H6 H7 H8 H9 H10 H11 H12 lp.
  exact (verified_stability numpy f1 f2 rand randc doc pb net ctrl be noise v i n trees om t H1 H2 H3 H4 H5 H6 H7 H8 H9 H10 H11 H12).
Qed.

(** RWS, RWA, RSWS, RSWA: a time after which every trajectory has reached the goal without leaving the safe set before. *)
Theorem C61_reach_while_stay :
  forall (numpy : interp) (f1 f2 : nat) (rand randc : nat -> nat -> nat -> Q) (doc : document)
    (pb : problem controller) (net : network) (ctrl : controller) (be : backend) noise v
    (i : interp) (n : nat) (trees : list tree) (om : option nat) (t : tree),
    (* the file is read *)
    NoDup (map fst doc) -> session_of numpy f1 f2 rand randc doc = Some (pb, net, ctrl) ->
    (* the system and the candidate written in it *)
    usual i -> dimension doc n -> equations doc trees -> inputs_of doc trees om ->
    candidate doc t -> of_state n t -> everywhere t ->
    (* the solver's "unsat" is right; the candidate is accepted *)
    (forall gs, trustworthy be gs) ->
    verify_file numpy f1 f2 rand randc doc be noise = Some v -> v_found v = true ->
    (* with CTRLAYER, the feedback of the network as it is before training *)
    let loop := system_field i n trees (feedback_law n om ctrl) in
    forall time ty gi gs gg gd, In ty [RWS; RWA; RSWS; RSWA] -> asks doc ty time ->
    declares doc n XI gi -> declares doc n XS gs -> declares doc n XG gg -> declares doc n XD gd ->
    (forall x, in_region gi x -> in_region gs x) -> (forall x, in_region gs x -> in_region gd x) ->
    exists T0, forall x T, T0 <= T -> solves n loop x T -> in_region gi (x 0) ->
      reach_while_stay (in_region gs) (in_region gg) x T.
Proof.
  intros numpy f1 f2 rand randc doc pb net ctrl be noise v i n trees om t H1 H2 H3 H4 H5 H6 H7 H8 H9 H10 H11 H12 lp.
  exact (verified_reach numpy f1 f2 rand randc doc pb net ctrl be noise v i n trees om t H1 H2 H3 H4 H5 H6 H7 H8 H9 H10 H11 H12).
Qed.

(** No verdict: a candidate that does not mention every state variable, a verifier other than dReal, a ROA, STABLESAFE or RAR certificate. *)
Theorem C61_unmentioned_variable :
  forall (numpy : interp) (f1 f2 : nat) (rand randc : nat -> nat -> nat -> Q) (doc : document) (be : backend) noise
    (n : nat) (t : tree) (j : nat),
    NoDup (map fst doc) -> dimension doc n -> candidate doc t ->
    (j < n)%nat -> ~ In (VX, Nat.to_uint j) (variables t) ->
    verify_file numpy f1 f2 rand randc doc be noise = None.
Proof.
  intros numpy f1 f2 rand randc doc be noise n t j Hdoc Hn Hc Hj Hv.
  destruct (verify_file numpy f1 f2 rand randc doc be noise) as [v|] eqn:E; [exfalso|reflexivity].
  unfold verify_file in E. apply bind_some in E. destruct E as ([lib b] & El & E).
  apply bind_some in El. destruct El as (c & _ & El). apply bind_some in El. destruct El as (vt & _ & El).
  assert (Hlib : lib <> LibSympy) by (intros ->; destruct vt; discriminate).
  apply bind_some in E. destruct E as (e & Ee & E). apply bind_some in Ee. destruct Ee as (line & Et & Ee).
  apply bind_some in E. destruct E as ([[pb net] ctrl] & Hs & E).
  destruct (candidate_line doc t line Hdoc Hc Et) as (W & St & Nm).
  unfold verify_candidate in E. apply bind_some in E. destruct E as (xdot & Ex & E). apply bind_some in E. destruct E as (C & EC & _).
  rewrite (session_n _ _ _ _ _ _ _ _ _ Hdoc Hs n Hn) in EC.
  pose proof (candidate_variables lib f1 f2 n t line e C Hlib W St Nm Ee EC) as V.
  destruct (candidate_parts lib n e C EC) as (en & E1 & _ & _).
  apply (state_some _ _ _ E1 j); [unfold new_vars; now rewrite map_length, seq_length|].
  destruct (symbolic_spec lib zeros (fun _ => 0) zeros eq_refl eq_refl e start) as [-> _].
  apply assign_get. split; [reflexivity|]. rewrite V. exact Hv.
Qed.
Theorem C61_no_verdict :
  forall (numpy : interp) (f1 f2 : nat) (rand randc : nat -> nat -> nat -> Q) (doc : document) (be : backend) noise,
    NoDup (map fst doc) ->
    (forall s, gives doc "VERIFIER" (YStr s) -> ~ spelled s "DREAL") \/
    (exists ty time, In ty [ROA; STABLESAFE; RAR] /\ asks doc ty time) ->
    verify_file numpy f1 f2 rand randc doc be noise = None.
Proof.
  intros numpy f1 f2 rand randc doc be noise Hdoc H.
  destruct (verify_file numpy f1 f2 rand randc doc be noise) as [v|] eqn:E; [exfalso|reflexivity].
  unfold verify_file in E. apply bind_some in E. destruct E as ([lib b] & El & E).
  apply bind_some in E. destruct E as (e & Ee & E). apply bind_some in E. destruct E as ([[pb net] ctrl] & Hs & E).
  rewrite C54_other_candidates_raise in E; [discriminate|]. destruct H as [H|(ty & time & Hty & Ha)].
  - left. intros K. destruct (session_parts _ _ _ _ _ _ _ _ _ Hs) as [P].
    pose proof (s_library _ _ _ _ _ _ _ _ _ P) as L. pose proof (s_getv _ _ _ _ _ _ _ _ _ P) as Gv. pose proof (s_read _ _ _ _ _ _ _ _ _ P) as Rd.
    rewrite K in L. destruct (s_v _ _ _ _ _ _ _ _ _ P) eqn:Ev; try discriminate.
    destruct (session_verifier doc Hdoc VDREAL) as [[K' _]|(s & G & Sp)]; [eauto|discriminate|]. now apply (H s).
  - right. apply (session_type _ _ _ _ _ _ _ _ _ Hdoc Hs) in Ha. destruct Ha as [-> _]. exact Hty.
Qed.
