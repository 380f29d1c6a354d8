(** Lemmas for C75: texts and settings as documented are read. *)
From Coquelicot Require Import Coquelicot.
From Coq Require Import String Ascii Reals QArith Qreals Bool Arith ZArith Decimal Lra Lia Permutation List.
From Verif Require Import M_Syntax M_Certificates M_Verifier M_Activations M_Domains M_Network M_Learner M_Cegis M_Labels M_Fossil
  M_Control M_Parser M_Lexer M_Variables M_DomainParser M_Cli M_Config S_Activations S_Network S_Learner S_Cegis S_Fossil S_Domains
  S_Parser S_Lexer S_Variables S_DomainParser S_Control S_Cli S_Config S_Labels S_Start
  L_Parser L_Network L_Learner P_Parser P_Lexer P_Variables P_DomainParser P_Domains P_Activations P_Labels P_Cegis L_Verifier P_Cli L_Config L_Session P_Control.
Import ListNotations.
Local Open Scope string_scope.
Local Open Scope list_scope.
Local Open Scope nat_scope.

(** ** Expressions *)
Lemma tree_eq_natural t t' : tree_eq t t' -> natural_powers t -> natural_powers t'.
Proof.
  induction 1 as [q q' E|k d|f a b E IH|a b E IH|a b E IH|o a b a' b' E1 IH1 E2 IH2]; cbn [natural_powers]; try tauto.
  destruct o; try tauto. intros [T (q & k & -> & Hq)]. split; [auto|]. inversion E2; subst. eexists _, k. split; [reflexivity|]. congruence.
Qed.
Lemma parse_more f1 f2 g1 g2 s a : f1 <= g1 -> f2 <= g2 -> parse_text f1 f2 s = Some a -> parse_text g1 g2 s = Some a.
Proof.
  intros L1 L2 E. unfold parse_text in *. destruct (tokens s) as [ts|]; [|discriminate]. cbn [option_bind] in *.
  unfold parse_expression in *. destruct (run f1 (Level top) ts) as [l r| |] eqn:Er; try discriminate.
  rewrite (run_more f1 g1) by (auto; rewrite Er; discriminate). rewrite Er. destruct r; [|discriminate].
  now apply (convert_more f2).
Qed.
Definition parses (t : tree) (a : ast) : Prop :=
  exists t2, a = strip t2 /\ M_Variables.vars a = variables t /\ (natural_powers t -> natural_powers t2) /\ (no_functions t -> no_functions t2).
Lemma line_read lib t s : lib <> LibSympy -> written t s -> std Sum t -> no_minus_power t -> no_double_paren t ->
  (lib = LibSMT -> no_functions t) ->
  exists F a, parses t a /\ forall f1 f2, F <= f1 -> F <= f2 -> parse_text f1 f2 s = Some a.
Proof.
  intros L W Hs Hn Hd Hf. destruct (C37_characters_accepted lib zeros t s W Hs Hn Hd Hf) as (f1 & f2 & a & E & Ev).
  exists (Nat.max f1 f2), a. split.
  - pose proof (parsed_variables lib zeros t s f1 f2 a _ L W Hs Hn E Ev) as V.
    destruct (written_tokens t s W) as (t' & Et & T).
    unfold parse_text in E. rewrite Et in E. cbn [option_bind] in E.
    destruct (std_fos Sum t' (tree_eq_std _ _ Hs _ T) (tree_eq_minus _ _ T Hn)) as (t2 & Fo & Sm & _).
    destruct Sm as (Tx & _ & _ & _ & Tf & _ & Tn). rewrite <- Tx in E.
    destruct (accepted_both lib zeros t2 f1 f2 a _ Fo (fun e => False_ind _ (L e)) E Ev) as [_ X].
    exists t2. split; [exact X|]. split; [exact V|]. split.
    + intros N. apply Tn. now apply (tree_eq_natural t).
    + intros N. apply Tf. now apply (tree_eq_functions t).
  - intros g1 g2 L1 L2. apply (parse_more f1 f2); [lia|lia|exact E].
Qed.
Lemma lines_read lib trees lines : lib <> LibSympy -> Forall2 written trees lines -> Forall (fun t => std Sum t /\ no_minus_power t) trees ->
  Forall (fun t => no_double_paren t /\ (lib = LibSMT -> no_functions t)) trees ->
  exists F es, Forall2 parses trees es /\ forall f1 f2, F <= f1 -> F <= f2 -> map_opt (parse_text f1 f2) lines = Some es.
Proof.
  intros L W. induction W as [|t s ts ss W Ws IH]; intros Hs Hd.
  - exists 0, []. split; [constructor|reflexivity].
  - apply Forall_cons_iff in Hs, Hd. destruct Hs as [[S1 S2] Hs], Hd as [[D1 D2] Hd].
    destruct (IH Hs Hd) as (F & es & P & E). destruct (line_read lib t s L W S1 S2 D1 D2) as (F' & a & Pa & Ea).
    exists (Nat.max F F'), (a :: es). split; [now constructor|]. intros f1 f2 L1 L2. cbn [map_opt].
    rewrite Ea by lia. cbn [option_bind]. now rewrite E by lia.
Qed.
Lemma lines_variables trees es : Forall2 parses trees es -> flat_map M_Variables.vars es = flat_map variables trees.
Proof. induction 1 as [|t a ts es (t2 & _ & V & _) H IH]; cbn; congruence. Qed.

Lemma number_no_vars a : is_number a = true -> M_Variables.vars a = [].
Proof.
  induction a as [q|k d|a IH|o a b IHa IHb|f args IH] using ast_induct; cbn; intros E; try discriminate; auto.
  apply andb_true_iff in E. destruct E as [Ea Eb]. now rewrite IHa, IHb.
Qed.
Lemma lines_not_numbers trees es : Forall2 parses trees es -> Forall (fun t => variables t <> []) trees -> existsb is_number es = false.
Proof.
  induction 1 as [|t a ts es (t2 & _ & V & _) H IH]; intros N; [reflexivity|].
  apply Forall_cons_iff in N. destruct N as [N1 N2]. cbn. rewrite IH by exact N2.
  destruct (is_number a) eqn:E; [|reflexivity]. apply number_no_vars in E. congruence.
Qed.

(** ** Solver terms and numbers are defined *)
Lemma natural_complete q k : Q2R q = INR k -> natural q = Some k.
Proof.
  intros H. assert (E : (q == inject_Z (Z.of_nat k))%Q).
  { apply eqR_Qeq. rewrite H, INR_IZR_INZ. unfold Q2R. cbn. field. }
  unfold natural. rewrite (Qred_complete _ _ E). unfold inject_Z. unfold Qred. cbn [Qnum Qden].
  destruct (Z.ggcd (Z.of_nat k) 1) as [g [aa bb]] eqn:G.
  pose proof (Z.ggcd_gcd (Z.of_nat k) 1) as G1. pose proof (Z.ggcd_correct_divisors (Z.of_nat k) 1) as G2.
  rewrite G in G1, G2. cbn [fst] in G1. rewrite Z.gcd_1_r in G1. subst g. destruct G2 as [Ga Gb].
  rewrite Z.mul_1_l in Ga, Gb. subst aa bb. cbn [snd Qden Qnum Z.to_pos].
  destruct (Z.leb_spec 0 (Z.of_nat k)); [|lia]. now rewrite Nat2Z.id.
Qed.
Lemma term_total lib env : lib <> LibSympy -> forall t s, natural_powers t -> (lib = LibSMT -> no_functions t) ->
  exists e, term lib env (fst (M_Variables.symbolic lib (strip t) s)) = Some e.
Proof.
  intros L. induction t as [q|k d|f t IH|t IH|t IH|o a IHa b IHb]; intros s Hn Hf; cbn [strip].
  - eexists. reflexivity.
  - cbn [M_Variables.symbolic]. destruct (make_var lib s k d) as [x s1]. eexists. reflexivity.
  - cbn [M_Variables.symbolic]. destruct lib; [|congruence|destruct (Hf eq_refl)]. cbn [natural_powers] in Hn. destruct Hn as [Nf Hn].
    destruct (IH s Hn ltac:(discriminate)) as (e & E). destruct (M_Variables.symbolic LibDReal (strip t) s) as [y s1]. cbn [fst term] in *.
    destruct f; try congruence; cbn [function_of option_bind]; rewrite E; eexists; reflexivity.
  - now apply (IH s).
  - cbn [M_Variables.symbolic]. destruct (IH s Hn Hf) as (e & E). destruct (M_Variables.symbolic lib (strip t) s) as [y s1].
    cbn [fst term] in *. rewrite E. eexists. reflexivity.
  - cbn [M_Variables.symbolic]. cbn [no_functions] in Hf.
    assert (Ha : natural_powers a) by (destruct o; apply Hn).
    destruct (IHa s Ha (fun e => proj1 (Hf e))) as (e & E). destruct (M_Variables.symbolic lib (strip a) s) as [y s1].
    destruct o; cbn [natural_powers] in Hn.
    1-4: destruct (IHb s1 (proj2 Hn) (fun e => proj2 (Hf e))) as (e' & E'); destruct (M_Variables.symbolic lib (strip b) s1) as [z s2];
      cbn [fst term] in *; rewrite E, E'; eexists; reflexivity.
    destruct Hn as [_ (q & k & -> & Hq)]. cbn [strip M_Variables.symbolic fst term constant option_bind] in *.
    rewrite E, (natural_complete q k Hq). eexists. reflexivity.
Qed.
Lemma terms_total lib env trees es : lib <> LibSympy -> Forall2 parses trees es ->
  Forall (fun t => natural_powers t /\ (lib = LibSMT -> no_functions t)) trees ->
  forall s, exists l, map_opt (term lib env) (fst (symbolic_system lib es s)) = Some l.
Proof.
  intros L P. induction P as [|t a ts es (t2 & -> & _ & N & Fn) P IH]; intros H s; [eexists; reflexivity|].
  apply Forall_cons_iff in H. destruct H as [[H1 H2] H]. cbn [symbolic_system].
  destruct (term_total lib env L t2 s (N H1) (fun e => Fn (H2 e))) as (e & E).
  destruct (M_Variables.symbolic lib (strip t2) s) as [y s1]. destruct (IH H s1) as (l & El).
  destruct (symbolic_system lib es s1) as [r s2]. cbn [fst map_opt] in *. rewrite E, El. eexists. reflexivity.
Qed.
Lemma strip_aval i t : exists x, aval LibSympy i (strip t) = Some x.
Proof.
  induction t as [q|k d|f t IH|t IH|t IH|o a IHa b IHb]; cbn [strip aval].
  - eexists; reflexivity.
  - eexists; reflexivity.
  - destruct IH as (x & ->). cbn [option_bind]. destruct f; eexists; reflexivity.
  - exact IH.
  - destruct IH as (x & ->). eexists; reflexivity.
  - destruct IHa as (x & ->), IHb as (y & ->). eexists; reflexivity.
Qed.

Section Rhs.
  Context (lib : library) (trees : list tree) (es : list ast) (n : nat).
  Hypothesis Hlib : lib <> LibSympy.
  Hypothesis Hp : Forall2 parses trees es.
  Hypothesis Hr : Forall (fun t => no_double_paren t /\ natural_powers t /\ variables t <> [] /\ (lib = LibSMT -> no_functions t)) trees.
  Hypothesis Hn : length trees = n.
  Hypothesis HX : forall d, In (VX, d) (flat_map variables trees) <-> exists j, j < n /\ d = Nat.to_uint j.

  Lemma rhs_states : exactly es VX n.
  Proof. intros d. unfold mentions. rewrite (lines_variables _ _ Hp). apply HX. Qed.
  Lemma rhs_not_numbers : existsb is_number es = false.
  Proof. apply (lines_not_numbers trees); auto. eapply Forall_impl; [|exact Hr]. intros t H. apply H. Qed.
  Lemma rhs_length : length es = n.
  Proof. apply Forall2_len in Hp. congruence. Qed.
  Definition inputs_match (outputs : option nat) : Prop :=
    match outputs with
    | None => forall d, ~ In (VU, d) (flat_map variables trees)
    | Some m => 0 < m /\ forall d, In (VU, d) (flat_map variables trees) <-> exists j, j < m /\ d = Nat.to_uint j
    end.
  Lemma rhs_inputs outputs : inputs_match outputs -> length (symbols VU es) = match outputs with None => 0 | Some m => m end.
  Proof.
    intros H. destruct outputs as [m|]; cbn in H.
    - apply symbols_length. intros d. unfold mentions. rewrite (lines_variables _ _ Hp). apply H.
    - destruct (symbols VU es) as [|d l] eqn:E; [reflexivity|exfalso].
      apply (H d). rewrite <- (lines_variables _ _ Hp). apply (proj1 (in_symbols VU es d)). rewrite E. now left.
  Qed.
  Lemma rhs_ok outputs : inputs_match outputs -> system_ok lib n es outputs = true.
  Proof.
    intros H. unfold system_ok. rewrite rhs_not_numbers, rhs_length, (symbols_length _ _ _ rhs_states), !Nat.eqb_refl. cbn [negb andb].
    pose proof (rhs_inputs outputs H) as E. destruct outputs as [m|]; [|now rewrite E].
    rewrite E, Nat.eqb_refl. destruct H as [Hm H]. cbn [andb]. replace (0 <? m) with true by (symmetry; now apply Nat.ltb_lt). cbn [andb].
    unfold controllable_ok. pose proof (system_final lib es) as Sf. destruct (symbolic_system lib es start) as [a s]. cbn [snd] in Sf. subst s.
    pose proof (final_inv lib es) as I.
    assert (Lu : length (p_us (final lib es)) = m).
    { rewrite <- E. rewrite <- (final_names lib). unfold inames. rewrite (Permutation_length (sort_perm _)). now rewrite map_length. }
    assert (Lx : length (p_xs (final lib es)) = n).
    { rewrite <- (map_length fst). rewrite <- (symbols_length _ _ _ rhs_states). apply Permutation_length, NoDup_Permutation.
      - apply (inv_xs _ _ I).
      - apply symbols_nodup.
      - intros d. now rewrite final_keys_x, in_symbols. }
    rewrite Lu, Lx, rhs_length, Nat.eqb_refl, andb_true_r. now apply Nat.ltb_lt.
  Qed.
  Lemma rhs_defined outputs free v u : inputs_match outputs -> length v = n ->
    match outputs with None => u = None | Some m => exists u', u = Some u' /\ length u' = m end ->
    exists xdot, smt_rhs lib free es v u = Some xdot.
  Proof.
    intros H Lv Hu. unfold smt_rhs. rewrite rhs_not_numbers.
    pose proof (fun env => terms_total lib env trees es Hlib Hp
      ltac:(eapply Forall_impl; [|exact Hr]; cbv beta; intros t X; split; apply X) start) as T.
    pose proof (system_final lib es) as Sf. destruct (symbolic_system lib es start) as [a s]. cbn [snd fst] in Sf, T. subst s.
    destruct (state_total lib es v) as (en & En); [rewrite Lv; apply rhs_states|].
    pose proof (rhs_inputs outputs H) as E. destruct outputs as [m|].
    - destruct Hu as (u' & -> & Lu). destruct (p_us (final lib es)) as [|x l] eqn:Ep.
      + exfalso. apply final_none in Ep. rewrite Ep in E. cbn in E. destruct H as [H _]. lia.
      + rewrite En. cbn [option_bind]. destruct (input_total lib es u') as (eu & Eu); [lia|]. rewrite Eu. cbn [option_bind]. apply T.
    - subst u. apply length_zero_iff_nil in E. apply (final_none lib) in E. rewrite E, En. cbn [option_bind]. apply T.
  Qed.
  Lemma numbers_defined outputs numpy v u : inputs_match outputs -> length v = n ->
    match outputs with None => u = None | Some m => exists u', u = Some u' /\ length u' = m end ->
    exists y, M_Variables.f_torch numpy es v u = Some y /\ length y = n.
  Proof.
    intros H Lv Hu.
    assert (T : forall i, exists y, map_opt (aval LibSympy i) es = Some y /\ length y = n).
    { intros i. rewrite <- rhs_length. clear -Hp. induction Hp as [|t a ts l (t2 & -> & _) P IH]; [now exists []|].
      destruct (IH P) as (y & Ey & Ly). destruct (strip_aval i t2) as (x & Ex). exists (x :: y). cbn [map_opt]. rewrite Ex, Ey. cbn. auto. }
    unfold M_Variables.f_torch. rewrite rhs_not_numbers, (symbols_length _ _ _ rhs_states), Lv, Nat.eqb_refl.
    pose proof (rhs_inputs outputs H) as E. destruct outputs as [m|].
    - destruct Hu as (u' & -> & Lu). destruct (symbols VU es) as [|x l] eqn:Es; [destruct H; cbn in E; lia|].
      rewrite Lu, E, Nat.eqb_refl. apply T.
    - subst u. apply length_zero_iff_nil in E. rewrite E. apply T.
  Qed.
End Rhs.

(** ** Settings *)
Ltac not_listed := let Hl := fresh "Hl" in intros Hl; repeat (destruct Hl as [Hl|Hl]; [discriminate|]); destruct Hl.
Lemma as_nat_of k : as_nat (YInt (Z.of_nat k)) = Some k.
Proof. cbn. destruct (Z.leb_spec 0 (Z.of_nat k)); [|lia]. now rewrite Nat2Z.id. Qed.
Lemma sizes_read l : map_opt as_nat (map (fun k => YInt (Z.of_nat k)) l) = Some l.
Proof. induction l as [|k l IH]; [reflexivity|]. cbn [map map_opt]. rewrite as_nat_of. cbn [option_bind]. now rewrite IH. Qed.
Lemma available_some v a : available v a -> exists k, activation_fcn a = Some k.
Proof. destruct a; cbn; intros H; try (eexists; reflexivity). destruct H. Qed.
Lemma availables_some v l : Forall (available v) l -> exists ks, map_opt activation_fcn l = Some ks.
Proof.
  intros H. apply map_opt_some. intros a Ha. rewrite Forall_forall in H. destruct (available_some v a (H a Ha)) as (k & ->). discriminate.
Qed.
Definition symb_of (v : verifier_type) : symb := match v with VZ3 => SZ3 | VCVC5 => SCVC5 | _ => SDREAL end.
Definition lib_of (v : verifier_type) : library := match v with VDREAL => LibDReal | _ => LibSMT end.
(** The activation can be translated. *)
Definition translatable (b : symb) (a : act) : Prop := forall xs, forward_symbolic b a xs <> None.
Lemma available_translatable v a k : v = VZ3 \/ v = VDREAL \/ v = VCVC5 -> available v a -> activation_fcn a = Some k -> translatable (symb_of v) k.
Proof.
  intros [-> | [-> | ->]]; destruct a; cbn; intros H E; try discriminate; try (injection E as <-); try contradiction; try congruence;
    intros xs; cbn; discriminate.
Qed.
Lemma availables_translatable v l ks : v = VZ3 \/ v = VDREAL \/ v = VCVC5 -> Forall (available v) l -> map_opt activation_fcn l = Some ks ->
  Forall (translatable (symb_of v)) ks.
Proof.
  intros Hv H E. apply map_opt_Forall2 in E. induction E as [|a k l ks E F IH]; [constructor|].
  apply Forall_cons_iff in H. destruct H as [H1 H2]. constructor; [now apply (available_translatable v a)|auto].
Qed.

Section Settings.
  Context (doc : document) (c : config).
  Hypothesis Hdoc : NoDup (map fst doc).
  Hypothesis Hc : read_config doc = Some c.
  Lemma raw_given f y : gives doc f y -> In f settings -> ~ In f choice_fields -> get_raw c f = Some y.
  Proof. intros G I N. unfold get_raw. rewrite (config_given doc c f y (Raw y) Hdoc Hc G); [reflexivity|now constructor|exact I]. Qed.
  Lemma raw_missing f : missing doc f -> get_raw c f = get_raw default_config f.
  Proof. intros M. unfold get_raw. now rewrite (config_default doc c f Hdoc Hc M). Qed.
  Lemma integer_read f d z : integer_field doc f d z -> In f settings -> ~ In f choice_fields -> get_int default_config f = Some d ->
    get_int c f = Some z.
  Proof.
    intros [G|[M ->]] I N D; unfold get_int in *.
    - now rewrite (raw_given f _ G I N).
    - now rewrite (raw_missing f M).
  Qed.
  Lemma activations_read f ss acts : In f activation_fields -> gives doc f (words ss) -> activations_written ss acts ->
    getattr c f = Some (Activations acts).
  Proof.
    intros I G W. apply (config_given doc c f _ _ Hdoc Hc G); [now apply means_activations|]. clear -I. cbn in *. tauto.
  Qed.
  Lemma learner_read v rand neurons activations b n : layers doc v neurons activations -> v = VZ3 \/ v = VDREAL \/ v = VCVC5 ->
    (neurons, activations) = ("N_HIDDEN_NEURONS", "ACTIVATION") \/ (neurons, activations) = ("N_HIDDEN_NEURONS_ALT", "ACTIVATION_ALT") ->
    exists net, learner_from rand c neurons activations b n = Some net /\ Forall (fun la => translatable (symb_of v) (snd la)) (hidden net) /\
      wf_net net /\ in_size net = n.
  Proof.
    intros (sizes & acts & _ & _ & L & Av & Hs & Ha) Hv F. destruct (availables_some v acts Av) as (ks & Ek).
    assert (Lk : length ks = length acts). { apply map_opt_Forall2, Forall2_len in Ek. congruence. }
    assert (Es : get_sizes c neurons = Some sizes).
    { unfold get_sizes. destruct Hs as [G|[M ->]].
      - rewrite (raw_given neurons _ G); [apply sizes_read| |]; destruct F as [F|F]; injection F as -> ->; try (cbn; tauto); not_listed.
      - rewrite (raw_missing neurons M). destruct F as [F|F]; injection F as -> ->; reflexivity. }
    assert (Ea : get_activations c activations = Some ks).
    { unfold get_activations. destruct Ha as [(ss & G & W)|[M ->]].
      - rewrite (activations_read activations ss acts); auto. destruct F as [F|F]; injection F as -> ->; cbn; tauto.
      - rewrite (config_default doc c _ Hdoc Hc M). destruct F as [F|F]; injection F as -> ->; exact Ek. }
    unfold learner_from. rewrite Es, Ea. cbn [option_bind].
    destruct (Nat.ltb_spec (length ks) (length sizes)); [lia|]. destruct (Nat.ltb_spec (length sizes) (length ks)); [lia|]. cbn [andb].
    eexists. split; [reflexivity|]. cbn [hidden]. split; [|split; [|reflexivity]].
    - pose proof (availables_translatable v acts ks Hv Av Ek) as T. rewrite Forall_forall in *. intros [l a] I. cbn [snd].
      apply T. eapply in_combine_r; eauto.
    - exists (List.last sizes n). cbn [hidden in_size last]. destruct (linear_wf (rand (length sizes)) (List.last sizes n) 1 b) as [W1 W2].
      split; [|split; [exact W1|exact W2]]. apply linears_wf; [lia|]. eapply activations_ok; eauto.
  Qed.
  Lemma controller_read v randc trees outputs n : driven doc v trees outputs -> v = VZ3 \/ v = VDREAL \/ v = VCVC5 ->
    get_outputs c = Some outputs /\ inputs_match trees outputs /\
    exists ctrl, controller_of randc c n = Some ctrl /\ Forall (translatable (symb_of v)) (k_acts ctrl) /\
      match outputs with None => True | Some m => wf_controller n m ctrl end.
  Proof.
    intros D Hv. destruct D as [Hn Hu|sizes m acts ss Gl Ns _ Hm Ga W La Av Hu].
    - assert (E : get_raw c "CTRLAYER" = Some YNull).
      { destruct (given_or_not doc "CTRLAYER") as [[y G]|G].
        - rewrite (Hn y G) in G. apply raw_given; [exact G|cbn; tauto|not_listed].
        - rewrite (raw_missing _ G). reflexivity. }
      unfold get_outputs, controller_of. rewrite E. split; [reflexivity|]. split; [exact Hu|].
      eexists. split; [reflexivity|]. split; [constructor|exact I].
    - assert (E : get_raw c "CTRLAYER" = Some (numbers (sizes ++ [m]))) by (apply raw_given; [exact Gl|cbn; tauto|not_listed]).
      assert (Eo : get_outputs c = Some (Some m)).
      { unfold get_outputs. rewrite E. unfold numbers. destruct sizes as [|k sizes]; [congruence|]. cbn [app map].
        rewrite map_app. cbn [map]. rewrite last_last, as_nat_of. reflexivity. }
      split; [exact Eo|]. split; [split; [exact Hm|exact Hu]|].
      destruct (availables_some v acts Av) as (ks & Ek).
      assert (Lk : length ks = length acts). { apply map_opt_Forall2, Forall2_len in Ek. congruence. }
      unfold controller_of. rewrite E. unfold get_sizes. rewrite E. unfold numbers. rewrite sizes_read. cbn [option_bind].
      unfold get_activations. rewrite (activations_read "CTRLACTIVATION" ss acts); [|cbn; tauto|exact Ga|exact W]. rewrite Ek. cbn [option_bind].
      rewrite app_length. cbn [length]. destruct sizes as [|k sizes]; [congruence|]. cbn [length].
      destruct (Nat.leb_spec (S (length sizes) + 1) 1); [lia|].
      eexists. split; [reflexivity|]. cbn [k_acts]. split; [now apply (availables_translatable v acts)|].
      rewrite linears_snoc. destruct (linear_wf (randc (0 + length (k :: sizes))) (List.last (k :: sizes) n) m false) as [W1 W2].
      exists (linears randc 0 n (k :: sizes) false), (linear (randc (0 + length (k :: sizes))) (List.last (k :: sizes) n) m false), (List.last (k :: sizes) n).
      cbn [k_layers k_acts]. split; [reflexivity|]. split; [rewrite linears_length; cbn [length] in *; lia|]. split.
      + apply Forall_app. split; [apply linears_bias|]. constructor; [reflexivity|constructor].
      + split; [|split; [exact W1|exact W2]]. apply linears_wf; [cbn [length] in *; lia|]. eapply activations_ok; eauto.
  Qed.
End Settings.

(** ** Sets *)
Definition fine (n : nat) (D : fset) : Prop := fits n D /\ has_boundary D.
Lemma dset_all {D} (P : D -> Prop) l v (d : list (label * D)) : (forall m x, In (m, x) d -> P x) -> P v ->
  forall m x, In (m, x) (dset l v d) -> P x.
Proof.
  induction d as [|[k y] d IH]; cbn; intros H Hv m x.
  - intros [E|[]]. injection E as <- <-. exact Hv.
  - destruct (label_eqb k l); cbn; intros [E|I]; eauto; try (injection E as <- <-); eauto.
Qed.
Lemma dlookup_all {D} (P : D -> Prop) l v (d : list (label * D)) : (forall m x, In (m, x) d -> P x) -> dlookup l d = Some v -> P v.
Proof.
  intros H E. unfold dlookup in E. destruct (find _ d) as [[k y]|] eqn:F; [|discriminate]. cbn in E. injection E as <-.
  apply find_some in F. destruct F as [F _]. eapply H; eauto.
Qed.
Lemma borders_all {D} (P : D -> Prop) bs : forall (d d' : list (label * D)), (forall m x, In (m, x) d -> P x) ->
  add_borders_for bs d = Some d' -> forall m x, In (m, x) d' -> P x.
Proof.
  induction bs as [|[l b] bs IH]; cbn; intros d d' H E; [injection E as <-; exact H|].
  apply bind_some in E. destruct E as (v & Ev & E). eapply IH; [|exact E]. apply dset_all; [exact H|]. eapply dlookup_all; eauto.
Qed.
Lemma sets_all {D} (P : D -> Prop) ty (d : list (label * D)) nd data d' : (forall m x, In (m, x) d -> P x) ->
  parse_sets ty d nd = Some (data, d') -> forall m x, In (m, x) d' -> P x.
Proof.
  intros H E. unfold parse_sets in E. apply bind_some in E. destruct E as (d1 & E1 & E).
  apply bind_some in E. destruct E as (data1 & _ & E). pose proof (borders_all P _ _ _ H E1) as H1.
  destruct ty; cbn in E; unfold adjust_roa, adjust_rwa, adjust_rar in E;
    repeat (apply bind_some in E; let x := fresh in let Ex := fresh in destruct E as (x & Ex & E));
    injection E as <- <-; try exact H1.
  intros m x I. unfold dremove in I. apply filter_In in I. destruct I as [I _]. eauto.
Qed.
Lemma formulas_defined n ty (d : list (label * fset)) : (forall m x, In (m, x) d -> fine n x) -> (ty = RAR -> dlookup XF d <> None) ->
  exists fs, option_bind (initialise_domains ty d) (formulas n) = Some fs.
Proof.
  intros H Hr.
  assert (G : forall sym, (forall m x, In (m, x) sym -> formula n x <> None) -> exists fs, formulas n sym = Some fs).
  { intros sym Hs. unfold formulas. apply map_opt_some. intros [l x] I. cbn [fst snd]. specialize (Hs l x I). destruct (formula n x); cbn; congruence. }
  assert (S0 : forall m x, In (m, x) (map (fun e => (fst e, if is_border (fst e) then SBoundary (snd e) else SDomain (snd e))) d) ->
    formula n x <> None).
  { intros m x I. apply in_map_iff in I. destruct I as ([l D] & E & I). cbn in E. injection E as <- <-.
    destruct (H _ _ I) as [F B]. destruct (is_border l); cbn; [|discriminate].
    destruct (C30_boundary_covers D n (fun _ => 0%R) F B) as (b & -> & _). discriminate. }
  unfold initialise_domains. destruct ty; cbn [option_bind]; try (now apply G).
  destruct (dlookup XF d) as [f|] eqn:Ef; [|exfalso; now apply Hr]. cbn [option_bind]. apply G. apply dset_all; [exact S0|]. cbn. discriminate.
Qed.
Lemma advertised_user ty : ty <> CUSTOM -> exists doms dats, advertised ty = Some (doms, dats) /\
  (forall l, needs_data ty l <-> In l dats) /\ (forall l, user_domain ty l <-> In l doms /\ is_border l = false).
Proof.
  intros H. destruct ty; try congruence; do 2 eexists; (split; [reflexivity|]); split; intros l; cbn [needs_data user_domain In];
    destruct l; cbn [is_border]; intuition congruence.
Qed.
Lemma section_read d : (forall key y, In (key, y) d -> exists value, y = YStr value) ->
  exists sec, map_opt (fun p : string * yaml => option_map (pair (fst p)) (as_string (snd p))) d = Some sec /\
    map fst sec = map fst d /\ forall key value, In (key, value) sec <-> In (key, YStr value) d.
Proof.
  induction d as [|[k y] d IH]; cbn [map_opt]; intros H.
  - exists []. repeat split; intros [].
  - destruct (H k y (or_introl eq_refl)) as (v & ->). destruct IH as (sec & E & K & I); [intros; apply (H key); now right|].
    cbn [fst snd as_string option_map]. rewrite E. exists ((k, v) :: sec). split; [reflexivity|]. split; [cbn; now rewrite K|].
    intros key value. cbn. rewrite I. split; (intros [X|X]; [left; congruence|now right]).
Qed.
Lemma dlookup_in {A} l (v : A) d : dlookup l d = Some v -> In (l, v) d.
Proof.
  intros E. unfold dlookup in E. destruct (find _ d) as [[k y]|] eqn:F; [|discriminate]. cbn in E. injection E as <-.
  apply find_some in F. destruct F as [F Q]. cbn in Q. apply label_eqb_spec in Q. now subst k.
Qed.
Lemma read_domains_nodup sec : forall r, NoDup (map fst sec) -> read_domains sec = Some r -> NoDup (map fst r).
Proof.
  assert (K : forall sec r, read_domains sec = Some r -> map (fun p => label_name (fst p)) r = map fst sec).
  { clear sec. induction sec as [|[k v] sec IH]; cbn [read_domains]; intros r E; [injection E as <-; reflexivity|].
    apply bind_some in E. destruct E as (l & El & E). apply bind_some in E. destruct E as (D & _ & E).
    apply bind_some in E. destruct E as (r' & Er & E). injection E as <-. cbn. rewrite (IH _ Er).
    now rewrite <- (label_of_name_some _ _ El). }
  intros r N E. apply K in E. rewrite <- E in N. rewrite <- (map_map fst label_name) in N. now apply NoDup_map_inv in N.
Qed.
Lemma sets_read doc ty time n : NoDup (map fst doc) -> sets_written doc ty n -> amounts_written doc ty -> ty <> CUSTOM -> supported time ty ->
  exists domains amounts data final fs,
    option_bind (read_section doc) read_domains = Some domains /\ read_amounts doc = Some amounts /\
    parse_sets ty domains amounts = Some (data, final) /\ M_Labels.accepted time ty final data = true /\
    option_bind (initialise_domains ty final) (formulas n) = Some fs.
Proof.
  intros Hdoc (d & G & Nd & Hin & Hall) Ha Hty Hsup.
  destruct (section_read d) as (sec & Es & Ks & Is).
  { intros key y I. destruct (Hin key y I) as (l & value & g & _ & _ & -> & _). eauto. }
  destruct (C56_domains_section sec) as (domains & Ed & Hd).
  { now rewrite Ks. }
  { intros key value I. apply Is in I. destruct (Hin _ _ I) as (l & v' & g & _ & -> & E & T & P). injection E as <-. split; [eauto|].
    destruct (set_text_reads n _ g T P) as (D & ED & _). rewrite string_of_list_ascii_of_string in ED. congruence. }
  assert (Fine : forall m x, dlookup m domains = Some x -> fine n x).
  { intros m x E. apply Hd in E. destruct E as (value & I & Ep). apply Is in I.
    destruct (Hin _ _ I) as (l & v' & g & _ & _ & E & T & P). injection E as <-.
    destruct (set_text_reads n _ g T P) as (D & ED & R). rewrite string_of_list_ascii_of_string in ED. assert (D = x) by congruence. subst D.
    exact (reads_fits n g x R P). }
  assert (Ndom : NoDup (map fst domains)) by exact (read_domains_nodup sec domains ltac:(rewrite Ks; exact Nd) Ed).
  assert (Fine' : forall m x, In (m, x) domains -> fine n x).
  { intros m x I. apply (Fine m). clear -I Ndom. induction domains as [|[k y] r IH]; [destruct I|]. inversion Ndom; subst. unfold dlookup. cbn.
    destruct (label_eqb k m) eqn:Q.
    - apply label_eqb_spec in Q. subst k. destruct I as [I|I]; [injection I as <-; reflexivity|]. exfalso. apply H1. apply in_map_iff. now exists (m, x).
    - destruct I as [I|I]; [injection I as -> ->; exfalso; assert (label_eqb m m = true) by (apply label_eqb_spec; reflexivity); congruence|]. now apply IH. }
  assert (Keys : forall l, In l (keys domains) <-> user_domain ty l).
  { intros l. split.
    - intros I. destruct (lookup_some l domains I) as (D & E). apply Hd in E. destruct E as (value & I' & _). apply Is in I'.
      destruct (Hin _ _ I') as (l' & _ & _ & U & E & _). apply (f_equal label_of_name) in E. rewrite !label_of_name_name in E. congruence.
    - intros U. specialize (Hall l U). apply in_map_iff in Hall. destruct Hall as ([k y] & E & I). cbn in E. subst k.
      destruct (Hin _ _ I) as (l' & value & g & _ & _ & -> & T & P). destruct (set_text_reads n _ g T P) as (D & ED & _).
      rewrite string_of_list_ascii_of_string in ED.
      assert (L : dlookup l domains = Some D) by (apply Hd; exists value; split; [now apply Is|exact ED]).
      apply dlookup_keys. congruence. }
  destruct (advertised_user ty Hty) as (doms & dats & Ead & Hdat & Hdom).
  assert (K1 : forall l, In l (keys domains) -> In l doms) by (intros l I; apply Keys, Hdom in I; tauto).
  assert (K2 : forall l, In l doms -> is_border l = false -> In l (keys domains)) by (intros l I B; apply Keys, Hdom; tauto).
  assert (S : exists amounts data final, read_amounts doc = Some amounts /\
     parse_sets ty domains amounts = Some (data, final) /\ M_Labels.accepted time ty final data = true).
  { destruct (C58_amounts doc Hdoc) as (A1 & A2 & _). destruct Ha as [(ns & Ga & Na & Hna)|(k & Ga & T)].
    - destruct (C39_command_line fset time ty doms dats domains ns Ead Hsup K1 K2 Na) as (data & final & sym & Ep & _ & Ea & _).
      { intros l. rewrite <- Hdat. apply Hna. }
      exists (PerSet ns), data, final. split; [now apply A2|]. tauto.
    - destruct (C39_scalar_n_data fset ty time doms dats domains k Ead Hsup K1 K2) as (data & final & Ep & Ea).
      exists (Scalar k), data, final. split; [now apply A1|]. split; [exact Ep|]. apply Ea.
      intros (l & I & B). clear -Ead T I B. destruct T as [<- |[<- |[<- |[<- |[<- |[]]]]]]; injection Ead as <- <-;
        cbn in I; repeat (destruct I as [<-|I]; [discriminate B|]); destruct I. }
  destruct S as (amounts & data & final & Eam & Ep & Eac).
  destruct (formulas_defined n ty final) as (fs & Ef).
  { exact (sets_all (fine n) ty domains amounts data final Fine' Ep). }
  { intros ->. rewrite (sets_keep _ _ _ _ _ Ep XF eq_refl ltac:(discriminate)). apply dlookup_keys, Keys. cbn. tauto. }
  exists domains, amounts, data, final, fs. unfold read_section. rewrite (assoc_nodup _ _ _ Hdoc G). cbn [option_bind]. rewrite Es.
  cbn [option_bind]. auto.
Qed.

(** ** The controller *)
Lemma ctrl_hidden_defined b hs : forall y, Forall (fun la => translatable b (snd la)) hs -> exists z, ctrl_hidden_symbolic b hs y = Some z.
Proof.
  induction hs as [|[l a] hs IH]; intros y H; [eexists; reflexivity|]. apply Forall_cons_iff in H. destruct H as [H1 H2].
  cbn [ctrl_hidden_symbolic]. cbn [snd] in H1. specialize (H1 (rounded_matvec l y)).
  destruct (forward_symbolic b a (rounded_matvec l y)); [|congruence]. cbn [option_bind]. auto.
Qed.
Lemma to_symbolic_defined b c x : Forall (translatable b) (k_acts c) -> exists u, to_symbolic b c x = Some u.
Proof.
  intros H. unfold to_symbolic. destruct (ctrl_hidden_defined b (zipped c) x) as (z & ->).
  - unfold zipped. rewrite Forall_forall in *. intros [l a] I. cbn [snd]. apply H. eapply in_combine_r; eauto.
  - eexists; reflexivity.
Qed.
Lemma ctrl_forward_length n m c p : wf_controller n m c -> length (ctrl_forward c p) = m.
Proof.
  intros (hs & o & k & E & _ & _ & _ & W & L). unfold ctrl_forward, output_layer. rewrite E, last_last. rewrite (affine_length k) by exact W. exact L.
Qed.

(** ** The session *)
(** What a session has. *)
Record started (ty : cert_type) (time : time_domain) (v : verifier_type) (n : nat) (outputs : option nat) (rounding iters : Z)
    (pb : problem controller) (net : network) (ctrl : controller) : Prop := {
  st_type : pb_type pb = ty;
  st_n : pb_n pb = n;
  st_discrete : pb_discrete pb = match time with DISCRETE => true | CONTINUOUS => false end;
  st_symb : pb_symb pb = symb_of v;
  st_rounding : pb_rounding pb = rounding;
  st_iters : pb_max_iters pb = iters;
  st_control : pb_control pb = match outputs with None => false | Some _ => true end;
  st_net : wf_net net /\ in_size net = n /\ Forall (fun la => translatable (symb_of v) (snd la)) (hidden net);
  st_ctrl : Forall (translatable (symb_of v)) (k_acts ctrl) /\ like n outputs ctrl ctrl;
  st_xdot : forall k, like n outputs ctrl k -> exists xdot, pb_xdot pb k = Some xdot /\ length xdot = n;
  st_f : forall k p, like n outputs ctrl k -> length p = n -> length (pb_f pb k p) = n }.

Lemma strings_read lines : map_opt as_string (map YStr lines) = Some lines.
Proof. induction lines as [|l lines IH]; [reflexivity|]. cbn [map map_opt as_string option_bind]. now rewrite IH. Qed.
Lemma solver_read doc c v : NoDup (map fst doc) -> read_config doc = Some c -> solver doc v ->
  get_verifier_type c = Some v /\ library_of v = Some (lib_of v, symb_of v) /\ lib_of v <> LibSympy /\ (lib_of v = LibSMT -> v <> VDREAL).
Proof.
  intros Hdoc Hc [Hv H]. split.
  - unfold get_verifier_type. destruct H as [(s & G & Sp)|[M ->]].
    + rewrite (config_given doc c "VERIFIER" _ (Verifier v) Hdoc Hc G); [reflexivity|now constructor|cbn; tauto].
    + rewrite (config_default doc c _ Hdoc Hc M). reflexivity.
  - destruct Hv as [-> |[-> | ->]]; repeat split; discriminate.
Qed.
Lemma documented_reads doc ty time v n trees outputs rounding iters : documented doc ty time v n trees outputs rounding iters ->
  exists c, read_config doc = Some c.
Proof.
  intros H. destruct H as [d_fields0 d_values0 d_asks0 d_type0 d_time0 d_solver0 d_dimension0 d_equations0 d_count0 d_readable0 d_states0 d_inputs0 d_sets0 d_amounts0 d_network0 d_rounding0 d_iters0 _ _ _]. apply C58_accepted; [|exact d_values0].
  destruct d_asks0 as (s1 & s2 & G1 & _ & G2 & _). destruct d_equations0 as (lines & G3 & _). destruct d_sets0 as (d & G4 & _).
  intros f [<- |[<- |[<- |[<- |[]]]]]; eauto.
Qed.
Lemma documented_started doc ty time v n trees outputs rounding iters : documented doc ty time v n trees outputs rounding iters ->
  exists F, forall numpy rand randc f1 f2, F <= f1 -> F <= f2 -> exists pb net ctrl,
    session_of numpy f1 f2 rand randc doc = Some (pb, net, ctrl) /\
    started ty time v n outputs rounding iters pb net ctrl.
Proof.
  intros H. destruct (documented_reads _ _ _ _ _ _ _ _ _ H) as (c & Hc). destruct H as [d_fields0 d_values0 d_asks0 d_type0 d_time0 d_solver0 d_dimension0 d_equations0 d_count0 d_readable0 d_states0 d_inputs0 d_sets0 d_amounts0 d_network0 d_rounding0 d_iters0 _ _ _].
  destruct (solver_read doc c v d_fields0 Hc d_solver0) as (Ev & El & Hl & Hv).
  destruct d_equations0 as (lines & Gl & W & St).
  destruct (lines_read (lib_of v) trees lines Hl W St) as (F & es & P & Es).
  { eapply Forall_impl; [|exact d_readable0]. cbv beta. intros t (X & _ & _ & Y). split; [exact X|]. intros L. apply Y. now apply Hv. }
  assert (Hr : Forall (fun t => no_double_paren t /\ natural_powers t /\ variables t <> [] /\ (lib_of v = LibSMT -> no_functions t)) trees).
  { eapply Forall_impl; [|exact d_readable0]. cbv beta. intros t (X & X2 & X3 & Y). repeat split; auto. }
  exists F. intros numpy rand randc f1 f2 L1 L2.
  assert (Vs : v = VZ3 \/ v = VDREAL \/ v = VCVC5) by apply d_solver0.
  destruct (controller_read doc c d_fields0 Hc v randc trees outputs n d_inputs0 Vs) as (Eo & Im & ctrl & Ec & Tc & Wc).
  destruct (learner_read doc c d_fields0 Hc v rand _ _ (certificate_bias ty) n d_network0 Vs (or_introl eq_refl)) as (net & En & Tn & Wn & Inn).
  destruct (sets_read doc ty time n d_fields0 d_sets0 d_amounts0 d_type0 d_time0) as (domains & amounts & data & final & fs & R1 & R2 & R3 & R4 & R5).
  assert (Ety : get_certificate_type c = Some ty /\ get_time c = Some time).
  { destruct d_asks0 as (s1 & s2 & G1 & Sp1 & G2 & Sp2). unfold get_certificate_type, get_time. split.
    - rewrite (config_given doc c "CERTIFICATE" _ (Certificate ty) d_fields0 Hc G1); [reflexivity|now constructor|cbn; tauto].
    - rewrite (config_given doc c "TIME_DOMAIN" _ (Time time) d_fields0 Hc G2); [reflexivity|now constructor|cbn; tauto]. }
  destruct Ety as [Ety Eti].
  assert (Edim : option_bind (get_raw c "N_VARS") as_nat = Some n).
  { rewrite (raw_given doc c d_fields0 Hc "N_VARS" _ d_dimension0); [apply as_nat_of|cbn; tauto|not_listed]. }
  assert (Ero : get_int c "ROUNDING" = Some rounding).
  { apply (integer_read doc c d_fields0 Hc _ _ _ d_rounding0); [cbn; tauto|not_listed|reflexivity]. }
  assert (Eit : get_int c "CEGIS_MAX_ITERS" = Some iters).
  { apply (integer_read doc c d_fields0 Hc _ _ _ d_iters0); [cbn; tauto|not_listed|reflexivity]. }
  assert (Esys : option_bind (read_system doc) (map_opt (parse_text f1 f2)) = Some es).
  { unfold read_system. rewrite (assoc_nodup _ _ _ d_fields0 Gl). cbn [option_bind iterate]. rewrite strings_read. cbn [option_bind]. now apply Es. }
  pose proof (rhs_ok (lib_of v) trees es n P Hr d_count0 d_states0 outputs Im) as Ok.
  unfold session_of. rewrite Hc. cbn [option_bind]. rewrite Ety, Eti. cbn [option_bind]. rewrite Ev. cbn [option_bind]. rewrite El. cbn [option_bind].
  rewrite Edim. cbn [option_bind]. rewrite Eo. cbn [option_bind]. rewrite Ero, Eit. cbn [option_bind]. rewrite Esys. cbn [option_bind].
  rewrite Ok. cbn [negb]. rewrite R1. cbn [option_bind]. rewrite R2. cbn [option_bind]. rewrite R3. cbn [option_bind]. rewrite R4. cbn [negb].
  rewrite R5. cbn [option_bind]. unfold learner_of. rewrite En. cbn [option_bind]. rewrite Ec. cbn [option_bind].
  do 3 eexists. split; [reflexivity|]. split; try reflexivity; cbn.
  - auto.
  - split; [exact Tc|]. split; [reflexivity|]. destruct outputs; auto.
  - intros k [Ka Wk]. destruct outputs as [m|]; cbn [xdot_of].
    + destruct (to_symbolic_defined (symb_of v) k (new_vars n)) as (u & Eu); [rewrite Ka; exact Tc|]. rewrite Eu. cbn [option_bind].
      destruct (rhs_defined (lib_of v) trees es n Hl P Hr d_count0 d_states0 (Some m) (leftover n) (new_vars n) (Some u) Im) as (xdot & Ex).
      * apply new_vars_length.
      * exists u. split; [reflexivity|]. exact (proj1 (to_symbolic_value _ _ _ _ _ Wk Eu)).
      * exists xdot. split; [exact Ex|]. rewrite (smt_rhs_length _ _ _ _ _ _ Ex). apply Forall2_len in P. congruence.
    + destruct (rhs_defined (lib_of v) trees es n Hl P Hr d_count0 d_states0 None (leftover n) (new_vars n) None Im) as (xdot & Ex).
      * apply new_vars_length.
      * reflexivity.
      * exists xdot. split; [exact Ex|]. rewrite (smt_rhs_length _ _ _ _ _ _ Ex). apply Forall2_len in P. congruence.
  - intros k p [Ka Wk] Lp. unfold torch_of.
    destruct (numbers_defined (lib_of v) trees es n P Hr d_count0 d_states0 outputs numpy p
      (match outputs with None => None | Some _ => Some (ctrl_forward k p) end) Im Lp) as (y & -> & Ly); [|exact Ly].
    destruct outputs as [m|]; [|reflexivity]. eexists. split; [reflexivity|]. exact (ctrl_forward_length n m k p Wk).
Qed.
