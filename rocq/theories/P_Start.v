(** C75: a configuration file written as documented starts, and the run returns a result. *)
From Coquelicot Require Import Coquelicot.
From Coq Require Import String Ascii Reals QArith Qreals Bool Arith ZArith Decimal Lra Lia Permutation List.
From Verif Require Import M_Syntax M_Certificates M_Verifier M_Activations M_Domains M_Network M_Learner M_Cegis M_Labels M_Fossil M_Double
  M_Control M_Parser M_Lexer M_Variables M_DomainParser M_Cli M_Config S_Activations S_Network S_Learner S_Cegis S_Fossil S_Double S_Domains
  S_Parser S_Lexer S_Variables S_DomainParser S_Control S_Cli S_Config S_Labels S_Start
  L_Parser L_Network L_Learner L_Fossil P_Parser P_Lexer P_Variables P_DomainParser P_Domains P_Activations P_Labels P_Cegis P_Double L_Verifier P_Cli
  L_Config L_Session P_Control L_Start.
Import ListNotations.
Local Open Scope string_scope.
Local Open Scope list_scope.
Local Open Scope nat_scope.

(** ** The translation is defined *)
Lemma derivative_defined b a xs : translatable b a -> derivative_symbolic b a xs <> None.
Proof. intros T E. apply C24_defined_together in E. now apply (T xs). Qed.
Lemma until_ct_defined b r n hs : forall z J, Forall (fun la => translatable b (snd la)) hs -> exists zJ, until_last_ct b r n hs z J = Some zJ.
Proof.
  induction hs as [|[l a] hs IH]; intros z J H; [eexists; reflexivity|]. apply Forall_cons_iff in H. destruct H as [H1 H2]. cbn [snd] in H1.
  cbn [until_last_ct]. pose proof (H1 (zhat r l z)) as A. pose proof (derivative_defined b a (zhat r l z) H1) as B.
  destruct (forward_symbolic b a (zhat r l z)); [|congruence]. cbn [option_bind].
  destruct (derivative_symbolic b a (zhat r l z)); [|congruence]. cbn [option_bind]. auto.
Qed.
Lemma until_dt_defined b r hs : r <> 0%Z -> forall z, Forall (fun la => translatable b (snd la)) hs -> exists z', until_last_dt b r hs z = Some z'.
Proof.
  intros Hr. induction hs as [|[l a] hs IH]; intros z H; [eexists; reflexivity|]. apply Forall_cons_iff in H. destruct H as [H1 H2]. cbn [snd] in H1.
  cbn [until_last_dt]. destruct (Z.eqb_spec r 0); [congruence|]. pose proof (H1 (zhat r l z)) as A.
  destruct (forward_symbolic b a (zhat r l z)); [|congruence]. cbn [option_bind]. auto.
Qed.
Lemma last_one net r z : wf_net net -> exists out, last_z r (last net) z = [out].
Proof.
  intros (m & _ & W & L). unfold last_z, matvec, enum, round_mat. destruct (M_Network.weight (last net)) as [|w [|]] eqn:E; cbn in L; try lia.
  cbn. destruct (bias (last net)) as [c|] eqn:Eb; [|eexists; reflexivity].
  destruct W as [_ W]. specialize (W c Eb). rewrite E in W. destruct c as [|c [|]]; cbn in W; try lia. eexists; reflexivity.
Qed.
Lemma ct_defined b simp r quad net xs xdot : wf_net net -> Forall (fun la => translatable b (snd la)) (hidden net) ->
  exists c, translate_ct b simp r quad net xs xdot = Some c.
Proof.
  intros W T. unfold translate_ct. destruct (until_ct_defined b r (in_size net) (hidden net) xs (eye (in_size net)) T) as ([z J] & ->).
  cbn [option_bind]. destruct (last_one net r z W) as (out & ->). destruct (compute_factors quad xs). eexists; reflexivity.
Qed.
Lemma dt_defined b r quad net xs xdot : r <> 0%Z -> wf_net net -> Forall (fun la => translatable b (snd la)) (hidden net) ->
  exists c, translate_dt b r quad net xs xdot = Some c.
Proof.
  intros Hr W T. unfold translate_dt. destruct (until_dt_defined b r (hidden net) Hr xs T) as (z & ->). cbn [option_bind].
  destruct (until_dt_defined b r (hidden net) Hr xdot T) as (zd & ->). cbn [option_bind].
  destruct (last_one net r z W) as (out & ->). destruct (last_one net r zd W) as (outd & ->). eexists; reflexivity.
Qed.
Lemma same_shape_translatable b x y : same_shape x y -> Forall (fun la => translatable b (snd la)) (hidden x) ->
  Forall (fun la => translatable b (snd la)) (hidden y).
Proof.
  intros (_ & E & _) H. apply (f_equal (map snd)) in E. rewrite !map_map in E. cbn [snd] in E.
  assert (M : forall hs, Forall (fun la : layer * act => translatable b (snd la)) hs <-> Forall (translatable b) (map snd hs)).
  { intros hs. rewrite Forall_map. reflexivity. }
  apply M. apply M in H. change (map snd (hidden x) = map snd (hidden y)) in E. now rewrite <- E.
Qed.

(** ** One pass of the loop *)
Section Pass.
  Context (ty : cert_type) (time : time_domain) (v : verifier_type) (n : nat) (outputs : option nat) (rounding iters : Z).
  Context (pb : problem controller) (net : network) (ctrl : controller).
  Hypothesis St : started ty time v n outputs rounding iters pb net ctrl.

  Lemma like_trans_acts k : like n outputs ctrl k -> Forall (translatable (symb_of v)) (k_acts k).
  Proof. intros [E _]. rewrite E. apply (st_ctrl _ _ _ _ _ _ _ _ _ _ St). Qed.

  Section Single.
    Context (env : environment controller) (S : dict).
    Hypothesis Hlaw : lawful pb env.
    Hypothesis Hk : keeps_controller n outputs ctrl env.

    Lemma visited_like it st : visited (fossil pb env) (initial pb net ctrl) S it st -> like n outputs ctrl (l_ctrl (st_params st)).
    Proof.
      induction 1 as [|it st st' Hv IH Hi].
      - apply (st_ctrl _ _ _ _ _ _ _ _ _ _ St).
      - apply iterate_inv in Hi. destruct Hi as (q & c & found & cex & t & H1 & _ & _ & _ & Hp & _).
        rewrite Hp. cbn [c_learn fossil] in H1. unfold fossil_learn in H1. apply P_Activations.Some_eq' in H1. subst q. cbn [l_ctrl].
        now apply Hk.
    Qed.
    Lemma single_passes_any it st : (time = DISCRETE -> rounding <> 0%Z) ->
      ty <> STABLESAFE -> ty <> RAR -> ty <> CUSTOM -> environment_returns env ->
      (ty = RSWS -> forall it p c, fossil_stay pb env it p c <> None) ->
      visited (fossil pb env) (initial pb net ctrl) S it st -> pass_returns (fossil pb env) it st.
    Proof.
      intros Hr N1 N2 N3 [R1 R2] Hst Hv.
      pose proof (visited_like it st Hv) as Lk. pose proof (visited_shape pb env Hlaw _ _ _ _ _ Hv) as Sh.
      set (q := {| l_net := learn_network pb (e_perfect env it (st_params st) (st_S st) (st_Sdot st))
                     (e_step env it (st_params st) (st_S st) (st_Sdot st)) (l_net (st_params st));
                   l_ctrl := e_ctrl env it (st_params st) (st_S st) (st_Sdot st);
                   l_beta := e_beta env it (st_params st) (st_S st) (st_Sdot st) |}).
      assert (Sq : same_shape net (l_net q)).
      { eapply same_shape_trans; [exact Sh|]. cbn [l_net q]. apply (learn_network_shape pb env Hlaw). }
      assert (Lq : like n outputs ctrl (l_ctrl q)) by (cbn [q l_ctrl]; now apply Hk).
      destruct (st_net _ _ _ _ _ _ _ _ _ _ St) as (Wn & _ & Tn).
      pose proof (same_shape_wf net (l_net q) Sq Wn) as Wq. pose proof (same_shape_translatable _ _ _ Sq Tn) as Tq.
      destruct (st_xdot _ _ _ _ _ _ _ _ _ _ St (l_ctrl q) Lq) as (xdot & Ex & _).
      assert (T : exists c, fossil_translate pb env it q = Some c).
      { unfold fossil_translate. rewrite Ex. cbn [option_bind]. rewrite (st_discrete _ _ _ _ _ _ _ _ _ _ St), (st_symb _ _ _ _ _ _ _ _ _ _ St),
          (st_rounding _ _ _ _ _ _ _ _ _ _ St). destruct time; [now apply ct_defined|apply dt_defined; auto]. }
      destruct T as (c & Ec). exists q, c. split; [reflexivity|]. split; [exact Ec|].
      cbn [c_verify fossil c_trajectory c_type c_stay c_estimate_beta].
      split; [|split; [intros; apply R1|split; [intros E; apply Hst; now rewrite <- (st_type _ _ _ _ _ _ _ _ _ _ St)|intros _; apply R2]]].
      unfold fossil_verify, fossil_constraints. rewrite (st_type _ _ _ _ _ _ _ _ _ _ St). destruct ty; try congruence; cbn; discriminate.
    Qed.
    Lemma single_passes it st : (0 <= iters)%Z -> (time = DISCRETE -> rounding <> 0%Z) ->
      ty <> STABLESAFE -> ty <> RAR -> ty <> CUSTOM -> environment_returns env ->
      (ty = RSWS -> forall it p c, fossil_stay pb env it p c <> None) ->
      visited (fossil pb env) (initial pb net ctrl) S it st -> pass_returns (fossil pb env) it st.
    Proof. intros _. apply single_passes_any. Qed.
  End Single.

  Section Two.
    Context (env : environment2 controller) (S : dict) (net2 : network).
    Hypothesis Hlaw : lawful2 env.
    Hypothesis Hk : keeps_controller2 n outputs ctrl env.
    Hypothesis Hnet2 : wf_net net2 /\ Forall (fun la => translatable (symb_of v) (snd la)) (hidden net2).

    Lemma visited2_like it st : visited (double pb env) (initial2 pb net net2 ctrl) S it st -> like n outputs ctrl (d_ctrl (st_params st)).
    Proof.
      induction 1 as [|it st st' Hv IH Hi].
      - apply (st_ctrl _ _ _ _ _ _ _ _ _ _ St).
      - apply iterate_inv in Hi. destruct Hi as (q & c & found & cex & t & H1 & _ & _ & _ & Hp & _).
        rewrite Hp. cbn [c_learn double] in H1. unfold double_learn in H1. apply P_Activations.Some_eq' in H1. subst q. cbn [d_ctrl].
        destruct (pb_control pb); [now apply Hk|exact IH].
    Qed.
    Lemma two_passes it st : ty = STABLESAFE \/ ty = RAR -> (forall it b p x, e2_trajectory env it b p x <> None) ->
      visited (double pb env) (initial2 pb net net2 ctrl) S it st -> pass_returns (double pb env) it st.
    Proof.
      intros Hty R Hv.
      pose proof (visited2_like it st Hv) as Lk. pose proof (visited2_shape pb env net net2 Hlaw _ _ _ _ Hv) as Sh.
      destruct (double_learn pb env it (st_frozen st) (st_params st) (st_S st) (st_Sdot st)) as [q|] eqn:Eq; [|discriminate].
      assert (Sq : pair_shape (net, net2) (d_lyap q, d_barr q)).
      { eapply pair_shape_trans; [exact Sh|]. unfold double_learn in Eq. apply P_Activations.Some_eq' in Eq. subst q. cbn [d_lyap d_barr].
        pose proof (learn_pair_shape pb env Hlaw (st_frozen st) it (st_params st) (st_S st) (st_Sdot st)) as L. split; apply L. }
      assert (Lq : like n outputs ctrl (d_ctrl q)).
      { unfold double_learn in Eq. apply P_Activations.Some_eq' in Eq. subst q. cbn [d_ctrl]. destruct (pb_control pb); [now apply Hk|exact Lk]. }
      destruct (st_net _ _ _ _ _ _ _ _ _ _ St) as (Wn & _ & Tn). destruct Sq as [S1 S2]. cbn [fst snd] in S1, S2. destruct Hnet2 as [Wn2 Tn2].
      pose proof (same_shape_wf _ _ S1 Wn) as W1. pose proof (same_shape_translatable _ _ _ S1 Tn) as T1.
      pose proof (same_shape_wf _ _ S2 Wn2) as W2. pose proof (same_shape_translatable _ _ _ S2 Tn2) as T2.
      destruct (st_xdot _ _ _ _ _ _ _ _ _ _ St (d_ctrl q) Lq) as (xdot & Ex & _).
      assert (T : exists c, double_translate pb env it q = Some c).
      { unfold double_translate. rewrite Ex. cbn [option_bind]. rewrite (st_symb _ _ _ _ _ _ _ _ _ _ St).
        destruct (ct_defined (symb_of v) (e2_simp env) (pb_rounding pb) false (d_lyap q) (new_vars (pb_n pb)) xdot W1 T1) as (c1 & ->). cbn [option_bind].
        destruct (ct_defined (symb_of v) (e2_simp env) (pb_rounding pb) false (d_barr q) (new_vars (pb_n pb)) xdot W2 T2) as (c2 & ->). cbn [option_bind].
        eexists; reflexivity. }
      destruct T as (c & Ec). exists q, c. split; [exact Eq|]. split; [exact Ec|].
      cbn [c_verify double c_trajectory c_type c_stay c_estimate_beta]. rewrite (st_type _ _ _ _ _ _ _ _ _ _ St).
      split; [|split; [intros; apply R|split; [intros ->; destruct Hty; discriminate|intros [-> | ->]; destruct Hty; discriminate]]].
      unfold double_verify, double_constraints. rewrite (st_type _ _ _ _ _ _ _ _ _ _ St). destruct c as [[V Vd] [B Bd]].
      destruct Hty as [-> | ->]; cbn; discriminate.
    Qed.
  End Two.
End Pass.

(** The counterexamples of the certificates with two functions have data. *)
Lemma double_labels K (pb : problem K) (env : environment2 K) (S : dict) : sampled (pb_type pb) S -> cex_labels_ok (double pb env) S.
Proof.
  intros Hs it p c found cex E. cbn [c_verify double] in E. unfold double_verify in E.
  destruct (double_constraints pb (d_beta p) c) as [gs|] eqn:Eg; [|discriminate]. cbn [option_bind] in E.
  set (v := verify _ _ _) in E. assert (Ev : v_cex v = cex) by congruence. subst v.
  destruct (run_groups (e2_solver env it) 0 gs []) as [k' res] eqn:Er.
  destruct (run_groups_labels _ _ _ _ _ _ Er (NoDup_nil _)) as [A B].
  assert (Ek : keys cex = keys res).
  { rewrite <- Ev. unfold verify. rewrite Er. cbn [snd]. destruct (forallb _ res); cbn [v_cex]; unfold keys; now rewrite map_map. }
  rewrite Ek. split; auto. intros l Hl.
  assert (Hk : In l (keys cex)).
  { apply dlookup_keys. intros F. apply Hl. unfold rows. now rewrite F. }
  rewrite Ek in Hk. apply B in Hk. destruct Hk as [[]|Hk]. apply Hs.
  destruct c as [[V Vd] [W Wd]].
  eapply (C39_condition_labels_have_data (pb_llo pb) (new_vars (pb_n pb)) (pb_sets pb) (d_beta p) V W Vd Wd); [|exact Hk].
  unfold double_constraints in Eg. destruct (pb_type pb); try discriminate Eg; injection Eg as <-; reflexivity.
Qed.
Lemma single_labels K (pb : problem K) (env : environment K) (S : dict) : sampled (pb_type pb) S -> cex_labels_ok (fossil pb env) S.
Proof.
  intros Hs it p c found cex E. cbn [c_verify fossil] in E. unfold fossil_verify in E.
  destruct (fossil_constraints pb (l_beta p) (fst c) (snd c)) as [gs|] eqn:Eg; [|discriminate]. cbn [option_bind] in E.
  set (v := verify _ _ _) in E. assert (Ev : v_cex v = cex) by congruence. subst v.
  destruct (run_groups (e_solver env it) 0 gs []) as [k' res] eqn:Er.
  destruct (run_groups_labels _ _ _ _ _ _ Er (NoDup_nil _)) as [A B].
  assert (Ek : keys cex = keys res).
  { rewrite <- Ev. unfold verify. rewrite Er. cbn [snd]. destruct (forallb _ res); cbn [v_cex]; unfold keys; now rewrite map_map. }
  rewrite Ek. split; auto. intros l Hl.
  assert (Hk : In l (keys cex)).
  { apply dlookup_keys. intros F. apply Hl. unfold rows. now rewrite F. }
  rewrite Ek in Hk. apply B in Hk. destruct Hk as [[]|Hk]. apply Hs.
  eapply (C39_condition_labels_have_data (pb_llo pb) (new_vars (pb_n pb)) (pb_sets pb) (l_beta p) (fst c) (fst c) (snd c) (snd c)); [|exact Hk].
  unfold fossil_constraints in Eg. destruct (pb_type pb); try discriminate Eg; injection Eg as <-; reflexivity.
Qed.

(** * C75: a file written as documented starts: with enough steps for the parser there is a session, whose dynamics
    exist, with one entry per variable, for every controller with the architecture asked for. *)
Theorem C75_starts :
  forall doc ty time v n trees outputs rounding iters, documented doc ty time v n trees outputs rounding iters ->
    exists F, forall numpy rand randc f1 f2, F <= f1 -> F <= f2 -> exists pb net ctrl,
      session_of numpy f1 f2 rand randc doc = Some (pb, net, ctrl) /\
      (ty = STABLESAFE \/ ty = RAR -> layers doc v "N_HIDDEN_NEURONS_ALT" "ACTIVATION_ALT" -> forall rand2, exists net2,
         session2_of numpy f1 f2 rand rand2 randc doc = Some (pb, net, net2, ctrl)) /\
      forall k, like n outputs ctrl k ->
        (exists xdot, pb_xdot pb k = Some xdot /\ length xdot = n) /\ forall p, length p = n -> length (pb_f pb k p) = n.
Proof.
  intros doc ty time v n trees outputs rounding iters H. destruct (documented_started _ _ _ _ _ _ _ _ _ H) as (F & G).
  exists F. intros numpy rand randc f1 f2 L1 L2. destruct (G numpy rand randc f1 f2 L1 L2) as (pb & net & ctrl & E & St).
  exists pb, net, ctrl. split; [exact E|]. split.
  - intros Hty La rand2. destruct (documented_reads _ _ _ _ _ _ _ _ _ H) as (c & Hc).
    destruct (learner_read doc c (d_fields _ _ _ _ _ _ _ _ _ H) Hc v rand2 _ _ true n La (proj1 (d_solver _ _ _ _ _ _ _ _ _ H)) (or_intror eq_refl))
      as (net2 & En & _). exists net2.
    unfold session2_of. rewrite E. cbn [option_bind]. rewrite (st_type _ _ _ _ _ _ _ _ _ _ St), (st_n _ _ _ _ _ _ _ _ _ _ St).
    unfold learner_alt_of. destruct Hty as [-> | ->]; rewrite Hc; cbn [option_bind]; rewrite En; reflexivity.
  - intros k Hk. split; [now apply (st_xdot _ _ _ _ _ _ _ _ _ _ St)|]. intros p. now apply (st_f _ _ _ _ _ _ _ _ _ _ St).
Qed.

(** And the run returns a result (success or not) within its budget of iterations, whatever the optimiser does to the
    weights and whatever the solver answers, as long as the parts outside the model return. *)
Theorem C75_returns :
  forall doc ty time v n trees outputs rounding iters, documented doc ty time v n trees outputs rounding iters ->
    ty <> STABLESAFE -> ty <> RAR -> (0 <= iters)%Z -> (time = DISCRETE -> rounding <> 0%Z) ->
    exists F, forall numpy rand randc f1 f2, F <= f1 -> F <= f2 -> exists pb net ctrl,
      session_of numpy f1 f2 rand randc doc = Some (pb, net, ctrl) /\
      forall env S, lawful pb env -> keeps_controller n outputs ctrl env -> environment_returns env ->
        (ty = RSWS -> forall it p c, fossil_stay pb env it p c <> None) -> sampled ty S ->
        exists r, run_fossil pb env (Z.to_nat iters + 1) net ctrl S = Some (Some r).
Proof.
  intros doc ty time v n trees outputs rounding iters H N1 N2 Hi Hr. destruct (documented_started _ _ _ _ _ _ _ _ _ H) as (F & G).
  exists F. intros numpy rand randc f1 f2 L1 L2. destruct (G numpy rand randc f1 f2 L1 L2) as (pb & net & ctrl & E & St).
  exists pb, net, ctrl. split; [exact E|]. intros env S Hl Hk Hret Hst HS. unfold run_fossil.
  pose proof (st_iters _ _ _ _ _ _ _ _ _ _ St) as Ei. rewrite <- Ei. change (pb_max_iters pb) with (c_max_iters (fossil pb env)). apply passes_return.
  - cbn [c_max_iters fossil]. now rewrite Ei.
  - apply single_labels. now rewrite (st_type _ _ _ _ _ _ _ _ _ _ St).
  - intros it st. apply (single_passes _ _ _ _ _ _ _ _ _ _ St env S Hl Hk it st Hi Hr N1 N2 (d_type _ _ _ _ _ _ _ _ _ H) Hret Hst).
Qed.
Theorem C75_returns_two :
  forall doc ty time v n trees outputs rounding iters, documented doc ty time v n trees outputs rounding iters ->
    ty = STABLESAFE \/ ty = RAR -> layers doc v "N_HIDDEN_NEURONS_ALT" "ACTIVATION_ALT" -> (0 <= iters)%Z ->
    exists F, forall numpy rand rand2 randc f1 f2, F <= f1 -> F <= f2 -> exists pb net net2 ctrl,
      session2_of numpy f1 f2 rand rand2 randc doc = Some (pb, net, net2, ctrl) /\
      forall env S, lawful2 env -> keeps_controller2 n outputs ctrl env -> (forall it b p x, e2_trajectory env it b p x <> None) ->
        sampled ty S ->
        exists r, run_double pb env (Z.to_nat iters + 1) net net2 ctrl S = Some (Some r).
Proof.
  intros doc ty time v n trees outputs rounding iters H Hty La Hi. destruct (documented_started _ _ _ _ _ _ _ _ _ H) as (F & G).
  exists F. intros numpy rand rand2 randc f1 f2 L1 L2. destruct (G numpy rand randc f1 f2 L1 L2) as (pb & net & ctrl & E & St).
  destruct (documented_reads _ _ _ _ _ _ _ _ _ H) as (c & Hc).
  destruct (learner_read doc c (d_fields _ _ _ _ _ _ _ _ _ H) Hc v rand2 _ _ true n La (proj1 (d_solver _ _ _ _ _ _ _ _ _ H)) (or_intror eq_refl))
    as (net2 & En & Tn & Wn & _).
  exists pb, net, net2, ctrl. split.
  - unfold session2_of. rewrite E. cbn [option_bind]. rewrite (st_type _ _ _ _ _ _ _ _ _ _ St), (st_n _ _ _ _ _ _ _ _ _ _ St).
    unfold learner_alt_of. destruct Hty as [-> | ->]; rewrite Hc; cbn [option_bind]; rewrite En; reflexivity.
  - intros env S Hl Hk Hret HS. unfold run_double.
    rewrite (st_discrete _ _ _ _ _ _ _ _ _ _ St).
    assert (Ec : time = CONTINUOUS).
    { pose proof (d_time _ _ _ _ _ _ _ _ _ H) as T. destruct time; [reflexivity|]. destruct (T eq_refl) as [-> | ->]; destruct Hty; discriminate. }
    rewrite Ec. pose proof (st_iters _ _ _ _ _ _ _ _ _ _ St) as Ei. rewrite <- Ei. change (pb_max_iters pb) with (c_max_iters (double pb env)). apply passes_return.
    + cbn [c_max_iters double]. now rewrite Ei.
    + apply double_labels. now rewrite (st_type _ _ _ _ _ _ _ _ _ _ St).
    + intros it st. apply (two_passes _ _ _ _ _ _ _ _ _ _ St env S net2 Hl Hk (conj Wn Tn) it st Hty Hret).
Qed.

(** * Files that do not start: [Cegis(parse_yaml_to_cegis_config(file))] raises. *)
Lemma lines_same trees lines es f1 f2 : Forall2 written trees lines -> Forall (fun t => std Sum t /\ no_minus_power t) trees ->
  readable_lines trees -> map_opt (parse_text f1 f2) lines = Some es -> Forall2 parses trees es.
Proof.
  intros W S R E. destruct (lines_read LibSMT trees lines ltac:(discriminate) W S) as (F & es' & P & E').
  { eapply Forall_impl; [|exact R]. cbv beta. tauto. }
  specialize (E' (Nat.max F f1) (Nat.max F f2) ltac:(lia) ltac:(lia)).
  assert (M : forall lines es, map_opt (parse_text f1 f2) lines = Some es -> map_opt (parse_text (Nat.max F f1) (Nat.max F f2)) lines = Some es).
  { clear. induction lines as [|l lines IH]; cbn [map_opt]; intros es E; [exact E|].
    destruct (parse_text f1 f2 l) as [a|] eqn:Ea; [|discriminate]. rewrite (parse_more _ _ _ _ _ _ (Nat.le_max_r F f1) (Nat.le_max_r F f2) Ea).
    destruct (map_opt (parse_text f1 f2) lines) as [r|]; [|discriminate]. now rewrite (IH r eq_refl). }
  apply M in E. assert (es' = es) by congruence. now subst es'.
Qed.
Lemma scalar_borders (domains : list (label * fset)) k data final time ty : In ty [RWS; RWA; RSWS; RSWA; RAR] ->
  parse_sets ty domains (Scalar k) = Some (data, final) -> M_Labels.accepted time ty final data = true -> False.
Proof.
  intros T E A. unfold parse_sets, add_borders in E. apply bind_some in E. destruct E as (d1 & E1 & E). cbn [read_data option_bind] in E.
  assert (B : dlookup XS_BORDER d1 <> None).
  { destruct T as [<- |[<- |[<- |[<- |[<- |[]]]]]]; cbn [required_borders add_borders_for] in E1;
      repeat (apply bind_some in E1; let x := fresh in let Ex := fresh "E" in destruct E1 as (x & Ex & E1)); injection E1 as <-;
      rewrite ?dlookup_dset; cbn; discriminate. }
  assert (K : dlookup XS_BORDER data <> None).
  { assert (Hk : dlookup XS_BORDER (map (fun e : label * fset => (fst e, Sample (snd e) k)) d1) <> None).
    { rewrite dlookup_scalar. destruct (dlookup XS_BORDER d1); [discriminate|congruence]. }
    destruct T as [<- |[<- |[<- |[<- |[<- |[]]]]]]; cbn [adjust] in E; unfold adjust_rwa, adjust_rar in E;
      repeat (apply bind_some in E; let x := fresh in let Ex := fresh "E" in destruct E as (x & Ex & E)); injection E as <- <-;
      rewrite ?dlookup_dset; cbn [label_eqb]; exact Hk. }
  unfold M_Labels.accepted in A. destruct (initialise_domains ty final); [|discriminate]. apply andb_true_iff in A. destruct A as [_ A].
  assert (Hc : ty <> CUSTOM) by (intros ->; cbn in T; intuition discriminate).
  apply C39_check_is_exact in A; [|exact Hc]. destruct A as [_ A]. apply dlookup_keys in K.
  destruct T as [<- |[<- |[<- |[<- |[<- |[]]]]]]; destruct A as [A|[A _]]; try discriminate A; apply A in K; cbn in K; intuition discriminate.
Qed.
Lemma strip_number t : no_functions t -> variables t = [] -> is_number (strip t) = true.
Proof.
  induction t as [q|k d|f t IH|t IH|t IH|o a IHa b IHb]; cbn; intros N V; try discriminate; auto; try contradiction.
  apply app_eq_nil in V. destruct V, N. now rewrite IHa, IHb.
Qed.
Lemma session_lines numpy f1 f2 rand randc doc pb net ctrl trees : NoDup (map fst doc) -> equations doc trees -> readable_lines trees ->
  forall P : parts numpy f1 f2 rand randc doc pb net ctrl, Forall2 parses trees (s_es _ _ _ _ _ _ _ _ _ P).
Proof.
  intros Hdoc (lines & G & W & Hs) R P. destruct P. cbn [L_Session.s_es]. unfold read_system in s_system.
  rewrite (assoc_nodup "SYSTEM" doc _ Hdoc G) in s_system. cbn [option_bind iterate] in s_system. rewrite strings_read in s_system.
  cbn [option_bind] in s_system. now apply (lines_same trees lines s_es f1 f2).
Qed.
Theorem C75_refused :
  forall doc, NoDup (map fst doc) -> unusable doc -> forall numpy f1 f2 rand randc, session_of numpy f1 f2 rand randc doc = None.
Proof.
  intros doc Hdoc U numpy f1 f2 rand randc.
  destruct (session_of numpy f1 f2 rand randc doc) as [[[pb net] ctrl]|] eqn:Hs; [exfalso|reflexivity].
  destruct (session_parts _ _ _ _ _ _ _ _ _ Hs) as [P].
  destruct U as [M|ty time z Ha Ht G|ty Ha N1 N2|n lines Hn G L|trees t He R It V|trees d He R Iv Hc|trees sizes He R Iv G|m G|sizes ss Gs Ga L].
  - destruct P. rewrite (proj2 (proj2 (proj2 (C58_amounts doc Hdoc))) M) in s_readamounts. discriminate.
  - destruct (session_type _ _ _ _ _ _ _ _ _ Hdoc Hs ty time Ha) as [Ety _].
    destruct P. destruct (Z.ltb_spec z 0) as [Hz|Hz].
    { rewrite (proj1 (proj2 (proj2 (C58_amounts doc Hdoc))) z G Hz) in s_readamounts. discriminate. }
    rewrite <- (Z2Nat.id z Hz) in G. rewrite (proj1 (C58_amounts doc Hdoc) _ G) in s_readamounts.
    apply P_Activations.Some_eq' in s_readamounts. subst s_amounts. rewrite Ety in *.
    apply (scalar_borders _ _ _ _ _ _ Ht s_sets s_accepted).
  - destruct (session_type _ _ _ _ _ _ _ _ _ Hdoc Hs ty DISCRETE Ha) as [Ety Ed].
    destruct P. rewrite s_discrete in Ed. destruct s_time; [discriminate|]. unfold M_Labels.accepted in s_accepted.
    destruct (initialise_domains (pb_type pb) s_final); [|discriminate]. apply andb_true_iff in s_accepted. destruct s_accepted as [A _].
    rewrite Ety in A. destruct ty; try discriminate; congruence.
  - pose proof (session_n _ _ _ _ _ _ _ _ _ Hdoc Hs n Hn) as En. destruct P. rewrite En in s_ok. unfold system_ok in s_ok.
    rewrite !andb_true_iff in s_ok. destruct s_ok as [[[_ O] _] _]. apply Nat.eqb_eq in O. apply L.
    unfold read_system in s_system. rewrite (assoc_nodup "SYSTEM" doc _ Hdoc G) in s_system. cbn [option_bind iterate] in s_system.
    rewrite strings_read in s_system. cbn [option_bind] in s_system. apply map_opt_Forall2, Forall2_len in s_system. congruence.
  - pose proof (session_lines _ _ _ _ _ _ _ _ _ trees Hdoc He R P) as Pr. destruct P. cbn [L_Session.s_es] in Pr. unfold system_ok in s_ok.
    rewrite !andb_true_iff in s_ok. destruct s_ok as [[[O _] _] _]. apply negb_true_iff in O.
    assert (X : existsb is_number s_es = true); [|congruence]. clear -Pr It V R. unfold readable_lines in R.
    induction Pr as [|t' a ts es (t2 & -> & V2 & _ & N2) Pr IH]; [destruct It|]. apply Forall_cons_iff in R. destruct R as [[_ R1] R2].
    cbn [existsb]. destruct It as [-> |It]; [|rewrite IH by auto; apply orb_true_r].
    rewrite strip_number; [reflexivity|now apply N2|]. rewrite strip_variables in V2. congruence.
  - pose proof (session_lines _ _ _ _ _ _ _ _ _ trees Hdoc He R P) as Pr. destruct P. cbn [L_Session.s_es] in Pr.
    assert (Eo : s_outputs = None).
    { unfold get_outputs in s_getout. destruct (given_or_not doc "CTRLAYER") as [[y G]|G].
      - rewrite (raw_given doc s_c Hdoc s_read "CTRLAYER" y G) in s_getout; [|cbn; tauto|not_listed]. rewrite (Hc y G) in s_getout. congruence.
      - rewrite (raw_missing doc s_c Hdoc s_read _ G) in s_getout. cbn in s_getout. congruence. }
    rewrite Eo in s_ok. unfold system_ok in s_ok. rewrite !andb_true_iff in s_ok. destruct s_ok as [_ O]. apply Nat.eqb_eq, length_zero_iff_nil in O.
    assert (In d (symbols VU s_es)); [|rewrite O in H; destruct H]. apply in_symbols. unfold mentions. now rewrite (lines_variables _ _ Pr).
  - pose proof (session_lines _ _ _ _ _ _ _ _ _ trees Hdoc He R P) as Pr. destruct P. cbn [L_Session.s_es] in Pr.
    assert (E : get_raw s_c "CTRLAYER" = Some (numbers sizes)) by (apply (raw_given doc s_c Hdoc s_read _ _ G); [cbn; tauto|not_listed]).
    unfold get_outputs in s_getout. rewrite E in s_getout. unfold numbers in s_getout. destruct sizes as [|k sizes]; [discriminate|].
    cbn [map] in s_getout. apply map_some in s_getout. destruct s_getout as (m & _ & ->).
    unfold system_ok in s_ok. rewrite !andb_true_iff in s_ok. destruct s_ok as [_ [[O O2] _]]. apply Nat.eqb_eq in O. apply Nat.ltb_lt in O2.
    destruct (symbols VU s_es) as [|d l] eqn:Es; [cbn in O; lia|]. apply (Iv d). rewrite <- (lines_variables _ _ Pr).
    apply (proj1 (in_symbols VU s_es d)). rewrite Es. now left.
  - destruct P. unfold controller_of in s_ctrl.
    assert (E : get_raw s_c "CTRLAYER" = Some (numbers [m])) by (apply (raw_given doc s_c Hdoc s_read _ _ G); [cbn; tauto|not_listed]).
    rewrite E in s_ctrl. unfold get_sizes in s_ctrl. rewrite E in s_ctrl. unfold numbers in s_ctrl. rewrite sizes_read in s_ctrl.
    cbn [option_bind] in s_ctrl. destruct (get_activations s_c "CTRLACTIVATION"); discriminate.
  - destruct P. unfold learner_of, learner_from in s_net.
    assert (E : get_raw s_c "N_HIDDEN_NEURONS" = Some (numbers sizes)) by (apply (raw_given doc s_c Hdoc s_read _ _ Gs); [cbn; tauto|not_listed]).
    unfold get_sizes in s_net. rewrite E in s_net. unfold numbers in s_net. rewrite sizes_read in s_net. cbn [option_bind] in s_net.
    apply bind_some in s_net. destruct s_net as (acts & Eact & s_net). unfold get_activations in Eact.
    destruct (getattr s_c "ACTIVATION") as [[| | | | |l]|] eqn:Eg; try discriminate.
    assert (M : S_Cli.means "ACTIVATION" (words ss) (Activations l)) by (apply (config_value doc s_c); auto; [cbn; tauto|intros _; unfold words; eauto]).
    assert (Ll : length l = length ss).
    { inversion M as [| | | |f ss' l' Hf F2 E1 E2 E3|f v' Hn]; subst.
      apply Forall2_len in F2. apply (f_equal (@length yaml)) in E2. rewrite !map_length in E2. lia. }
    apply map_opt_Forall2, Forall2_len in Eact. destruct (Nat.ltb_spec (length acts) (length sizes)); [discriminate|lia].
Qed.
