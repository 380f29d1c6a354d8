(** Lemmas for C59: the problem of a configuration file. *)
From Coquelicot Require Import Coquelicot.
From Coq Require Import String Ascii Reals QArith Qreals Bool Arith ZArith Decimal Lra Lia List.
From Verif Require Import M_Syntax M_Certificates M_Verifier M_Activations M_Domains M_Network M_Learner M_Cegis M_Labels M_Fossil
  M_Control M_Parser M_Lexer M_Variables M_DomainParser M_Cli M_Config S_Activations S_Network S_Fossil S_Dynamics S_Certificates S_Domains
  S_Parser S_Lexer S_Variables S_DomainParser S_Control S_Cli S_Config P_Domains P_DomainParser P_Cli P_Cegis P_Labels P_Translator P_Control L_Verifier L_Config.
Import ListNotations.
Local Open Scope string_scope.
Local Open Scope list_scope.
Local Open Scope R_scope.

(** ** Settings *)
Lemma config_given doc c f v a : NoDup (map fst doc) -> read_config doc = Some c -> gives doc f v -> means f v a ->
  In f settings -> getattr c f = Some a.
Proof.
  intros N R G M F. unfold read_config in R. destruct (forallb _ _); [|discriminate].
  rewrite (read_fields_get doc default_config c N R f). apply settings_has, hasattr_get in F.
  destruct (getattr default_config f) as [d|]; [|contradiction].
  rewrite (assoc_nodup f doc v N G). now apply convert_complete.
Qed.
Lemma config_default doc c f : NoDup (map fst doc) -> read_config doc = Some c -> (forall v, ~ gives doc f v) ->
  getattr c f = getattr default_config f.
Proof.
  intros N R G. unfold read_config in R. destruct (forallb _ _); [|discriminate].
  rewrite (read_fields_get doc default_config c N R f). destruct (getattr default_config f) as [d|]; [|reflexivity].
  destruct (assoc f doc) as [v|] eqn:E; [|reflexivity]. elim (G v). now apply assoc_in.
Qed.
Lemma given_or_not (doc : document) f : (exists v, gives doc f v) \/ forall v, ~ gives doc f v.
Proof.
  destruct (assoc f doc) as [v|] eqn:E.
  - left. exists v. now apply assoc_in.
  - right. intros v H. apply assoc_none in E. apply E. now apply (in_map fst) in H.
Qed.
Lemma config_value doc c f v a : NoDup (map fst doc) -> read_config doc = Some c -> gives doc f v -> In f settings ->
  getattr c f = Some a -> (In f activation_fields -> exists l, v = YList l) -> means f v a.
Proof.
  intros N R G F E A. unfold read_config in R. destruct (forallb _ _); [|discriminate].
  rewrite (read_fields_get doc default_config c N R f) in E. apply settings_has, hasattr_get in F.
  destruct (getattr default_config f) as [d|]; [|contradiction].
  rewrite (assoc_nodup f doc v N G) in E. now apply convert_sound.
Qed.

(** ** Sets *)
Lemma read_domains_lookup section : forall r l value, NoDup (map fst section) -> read_domains section = Some r ->
  In (label_name l, value) section -> dlookup l r = parse_domain value.
Proof.
  induction section as [|[key v] s IH]; intros r l value N E H; [destruct H|]. cbn [read_domains] in E.
  apply bind_some in E. destruct E as (l0 & El & E). apply bind_some in E. destruct E as (D & ED & E).
  apply bind_some in E. destruct E as (r0 & Er & E). injection E as <-. inversion N as [|k ks Nk Ns]; subst.
  apply label_of_name_some in El. subst key. unfold dlookup. cbn [find fst].
  destruct H as [H|H].
  - injection H as H <-.
    assert (l0 = l) as ->. { pose proof (label_of_name_name l0) as K. rewrite H, label_of_name_name in K. congruence. }
    rewrite label_eqb_refl. cbn. congruence.
  - destruct (label_eqb l0 l) eqn:Q.
    + apply label_eqb_spec in Q. subst l0. elim Nk. now apply (in_map fst) in H.
    + now apply IH.
Qed.
Lemma section_strings d : forall sec, map_opt (fun p : string * yaml => option_map (pair (fst p)) (as_string (snd p))) d = Some sec ->
  map fst sec = map fst d /\ forall k v, In (k, YStr v) d -> In (k, v) sec.
Proof.
  induction d as [|[k y] d IH]; cbn; intros sec E; [injection E as <-; auto|].
  destruct y; cbn in E; try discriminate. apply bind_some in E. destruct E as (r & Er & E). injection E as <-.
  destruct (IH r Er) as [I1 I2]. cbn. split; [congruence|]. intros k' v [H|H]; [left; congruence|right; auto].
Qed.
Lemma formulas_lookup n sym : forall fs l x, formulas n sym = Some fs -> dlookup l sym = Some x ->
  formula n x = Some (lookup_set fs l).
Proof.
  unfold lookup_set, formulas, dlookup. induction sym as [|[k y] sym IH]; cbn; intros fs l x E H; [discriminate|].
  destruct (formula n y) as [f|] eqn:Ef; cbn in E; [|discriminate].
  apply bind_some in E. destruct E as (r & Er & E). injection E as <-. cbn [find fst].
  destruct (label_eqb k l); cbn in H |- *; [congruence|]. now apply IH.
Qed.
Lemma add_borders_keep {D} bs : forall (d d' : list (label * D)) l, add_borders_for bs d = Some d' ->
  (forall b, In b bs -> is_border (snd b) = true) -> is_border l = false -> dlookup l d' = dlookup l d.
Proof.
  induction bs as [|[x b] bs IH]; cbn; intros d d' l E H Hl; [congruence|].
  apply bind_some in E. destruct E as (v & Ev & E). rewrite (IH _ _ _ E) by auto. rewrite dlookup_dset.
  destruct (label_eqb b l) eqn:Q; [|reflexivity]. apply label_eqb_spec in Q. subst b.
  specialize (H (x, l) (or_introl eq_refl)). cbn in H. congruence.
Qed.
Lemma borders_are ty b : In b (required_borders ty) -> is_border (snd b) = true.
Proof. destruct ty; cbn; intros H; repeat (destruct H as [<-|H]; [reflexivity|]); destruct H. Qed.
Lemma adjust_domains {D} data (d : list (label * D)) ty nd data' d' : adjust data d ty nd = Some (data', d') ->
  forall l, (ty = ROA -> l <> XD) -> dlookup l d' = dlookup l d.
Proof.
  intros E l Hl. destruct ty; cbn in E;
    unfold adjust_roa, adjust_rwa, adjust_rar in E;
    repeat (apply bind_some in E; let x := fresh in let Ex := fresh in destruct E as (x & Ex & E));
    try (injection E as <- <-; reflexivity).
  injection E as <- <-. rewrite dlookup_dremove. destruct (label_eqb XD l) eqn:Q; [|reflexivity].
  apply label_eqb_spec in Q. subst l. now elim (Hl eq_refl).
Qed.
Lemma sets_keep {D} ty (d : list (label * D)) nd data d' : parse_sets ty d nd = Some (data, d') ->
  forall l, is_border l = false -> (ty = ROA -> l <> XD) -> dlookup l d' = dlookup l d.
Proof.
  intros E l Hl Hr. unfold parse_sets in E. apply bind_some in E. destruct E as (d1 & E1 & E).
  apply bind_some in E. destruct E as (data1 & _ & E). rewrite (adjust_domains _ _ _ _ _ _ E l Hr).
  unfold add_borders in E1. now apply (add_borders_keep _ _ _ _ E1 (borders_are ty)).
Qed.
Lemma sets_border {D} ty (d : list (label * D)) nd data d' l b : parse_sets ty d nd = Some (data, d') ->
  In (l, b) (required_borders ty) -> dlookup b d' = dlookup l d.
Proof.
  intros E Hb. unfold parse_sets in E. apply bind_some in E. destruct E as (d1 & E1 & E).
  apply bind_some in E. destruct E as (data1 & _ & E).
  assert (Hx : b <> XD) by (intros ->; pose proof (borders_are ty _ Hb); discriminate).
  rewrite (adjust_domains _ _ _ _ _ _ E b (fun _ => Hx)). clear E Hx.
  unfold add_borders in E1.
  destruct ty; cbn in Hb, E1; try contradiction;
    repeat (apply bind_some in E1; let x := fresh in let Ex := fresh "E" in destruct E1 as (x & Ex & E1));
    injection E1 as <-; repeat (destruct Hb as [Hb|Hb]; [injection Hb as <- <-|]); try contradiction;
    rewrite ?dlookup_dset in *; cbn in *; congruence.
Qed.

(** ** Networks *)
Lemma linear_wf rand n m b : wf_layer n (linear rand n m b) /\ length (weight (linear rand n m b)) = m.
Proof.
  unfold linear, wf_layer. cbn [weight bias]. rewrite map_length, seq_length. repeat split.
  - apply Forall_forall. intros r H. apply in_map_iff in H. destruct H as (i & <- & _). now rewrite map_length, seq_length.
  - intros x H. destruct b; [|discriminate]. injection H as <-. now rewrite map_length, seq_length.
Qed.
Lemma linears_length rand sizes b : forall k n, length (linears rand k n sizes b) = length sizes.
Proof. induction sizes; intros; cbn; auto. Qed.
Lemma linears_bias rand sizes : forall k n, Forall (fun l => bias l = None) (linears rand k n sizes false).
Proof. induction sizes; intros; cbn; constructor; auto. Qed.
Lemma last_cons_default {A} (l : list A) : forall x d, List.last (x :: l) d = List.last l x.
Proof. induction l as [|y l IH]; intros x d; [reflexivity|]. change (List.last (x :: y :: l) d) with (List.last (y :: l) d). now rewrite !IH. Qed.
Lemma linears_wf rand b sizes : forall acts k n, (length sizes <= length acts)%nat -> Forall act_ok acts ->
  wf_hidden n (combine (linears rand k n sizes b) acts) (List.last sizes n).
Proof.
  induction sizes as [|m sizes IH]; intros [|a acts] k n L F; try (cbn in L; lia); try reflexivity.
  cbn [linears combine wf_hidden]. apply Forall_cons_iff in F. destruct F as [Fa F]. cbn in L. apply le_S_n in L.
  destruct (linear_wf (rand k) n m b) as [W E]. rewrite E, last_cons_default. auto.
Qed.
Lemma linears_snoc rand b sizes m : forall k n, linears rand k n (sizes ++ [m]) b =
  linears rand k n sizes b ++ [linear (rand (k + length sizes)%nat) (List.last sizes n) m b].
Proof.
  induction sizes as [|x sizes IH]; intros k n; cbn [app linears length].
  - now rewrite Nat.add_0_r.
  - rewrite IH, last_cons_default. cbn [app]. now rewrite <- Nat.add_succ_comm.
Qed.
Lemma activation_ok t a : activation_fcn t = Some a -> act_ok a.
Proof. destruct t; cbn; intros H; try discriminate; injection H as <-; cbn; auto; lia. Qed.
Lemma activations_ok l acts : map_opt activation_fcn l = Some acts -> Forall act_ok acts.
Proof.
  intros H. apply map_opt_Forall2 in H. induction H; constructor; auto. now apply activation_ok in H.
Qed.
Lemma Forall2_in_r {A B} (P : A -> B -> Prop) l m b : Forall2 P l m -> In b m -> exists a, In a l /\ P a b.
Proof.
  induction 1 as [|x y l m Hp H IH]; intros []; [subst; exists x; cbn; auto|].
  destruct (IH H0) as (a & Ha & K). exists a. cbn. auto.
Qed.

(** The activations of a network come from the names in the file. *)
Lemma activation_source doc c acts a names field : NoDup (map fst doc) -> read_config doc = Some c -> avoids_in doc field names ->
  field = "ACTIVATION" \/ field = "ACTIVATION_ALT" ->
  get_activations c field = Some acts -> In a acts ->
  exists t, activation_fcn t = Some a /\ (t = SQUARE \/ ~ In (activation_name t) names).
Proof.
  intros N R Av Hf G Ha. unfold get_activations in G. destruct (getattr c field) as [[| | | | |l]|] eqn:E; try discriminate.
  apply map_opt_Forall2 in G. destruct (Forall2_in_r _ _ _ _ G Ha) as (t & Ht & Et). exists t. split; [exact Et|].
  destruct (given_or_not doc field) as [[v Gv]|Gn].
  - right. destruct (Av v Gv) as (ss & -> & Hs).
    assert (M : means field (YList (map YStr ss)) (Activations l)).
    { eapply config_value; eauto; destruct Hf as [-> | ->]; cbn; tauto. }
    inversion M as [| | | |f ss' l' Hf' F2 E1 E2 E3|f v' Hn]; subst.
    assert (ss' = ss) as ->.
    { apply (f_equal (map (fun y => match y with YStr s => s | _ => "" end))) in E2. rewrite !map_map, !map_id in E2. exact E2. }
    destruct (Forall2_in_r _ _ _ _ F2 Ht) as (s & Hin & Hsp). intros Hx. now apply (Hs s (activation_name t)).
  - left. rewrite (config_default doc c field N R Gn) in E. destruct Hf as [-> | ->]; cbn in E; injection E as <-;
      (destruct Ht as [<-|[]]; reflexivity).
Qed.
Lemma learner_from_facts rand doc c neurons field b n net : NoDup (map fst doc) -> read_config doc = Some c ->
  field = "ACTIVATION" \/ field = "ACTIVATION_ALT" ->
  learner_from rand c neurons field b n = Some net ->
  wf_net net /\ in_size net = n /\ (avoids_in doc field relu_names -> smooth_net net) /\
  (b = false -> avoids_in doc field offset_names -> zero_preserving net).
Proof.
  intros N R Hfd E. unfold learner_from in E. apply bind_some in E. destruct E as (sizes & _ & E).
  apply bind_some in E. destruct E as (acts & Ga & E). destruct (length acts <? length sizes)%nat eqn:L; [discriminate|].
  apply Nat.ltb_ge in L. destruct (_ && _); [discriminate|]. injection E as <-. cbn [in_size]. repeat split.
  - exists (List.last sizes n). cbn [in_size hidden last].
    assert (Forall act_ok acts).
    { unfold get_activations in Ga. destruct (getattr c field) as [[| | | | |l]|]; try discriminate. now apply activations_ok in Ga. }
    split; [now apply linears_wf|]. apply linear_wf.
  - intros Av. unfold smooth_net. cbn [hidden]. apply Forall_forall. intros [l a] H. apply in_combine_r in H.
    destruct (activation_source doc c acts a relu_names field N R Av Hfd Ga H) as (t & Et & Ht). cbn [snd]. intros ->.
    destruct t; cbn in Et; try discriminate; destruct Ht as [Ht|Ht]; try discriminate; apply Ht; cbn; auto.
  - cbn [hidden]. apply Forall_forall. intros [l a] Hin. cbn [fst snd]. split.
    + apply in_combine_l in Hin. subst b.
      pose proof (linears_bias rand sizes 0 n) as F; rewrite Forall_forall in F; now apply F.
    + apply in_combine_r in Hin. destruct (activation_source doc c acts a offset_names field N R H0 Hfd Ga Hin) as (t & Et & Ht).
      destruct t; cbn in Et; try discriminate; injection Et as <-; try reflexivity;
        (destruct Ht as [Ht|Ht]; [discriminate|]; elim Ht; cbn; auto 9).
  - subst b. reflexivity.
Qed.
Lemma learner_facts rand doc c ty n net : NoDup (map fst doc) -> read_config doc = Some c ->
  learner_of rand c ty n = Some net ->
  wf_net net /\ in_size net = n /\ (avoids doc relu_names -> smooth_net net) /\
  (ty = LYAPUNOV \/ ty = ROA -> avoids doc offset_names -> zero_preserving net).
Proof.
  intros N R E. destruct (learner_from_facts _ _ _ _ _ _ _ _ N R (or_introl eq_refl) E) as (A & B & C & D).
  repeat split; auto; try apply B; destruct H as [-> | ->]; now apply D.
Qed.

(** ** The session *)
Record parts (numpy : interp) (f1 f2 : nat) (rand randc : nat -> nat -> nat -> Q) (doc : document)
    (pb : problem controller) (net : network) (ctrl : controller) := {
  s_c : config; s_lib : library; s_outputs : option nat; s_es : list ast;
  s_domains : list (label * fset); s_amounts : n_data; s_data : list (label * M_Labels.source fset);
  s_final : list (label * fset); s_time : time_domain; s_v : verifier_type;
  s_read : read_config doc = Some s_c;
  s_type : get_certificate_type s_c = Some (pb_type pb);
  s_gettime : get_time s_c = Some s_time;
  s_discrete : pb_discrete pb = match s_time with DISCRETE => true | CONTINUOUS => false end;
  s_getv : get_verifier_type s_c = Some s_v;
  s_library : library_of s_v = Some (s_lib, pb_symb pb);
  s_n : option_bind (get_raw s_c "N_VARS") as_nat = Some (pb_n pb);
  s_getout : get_outputs s_c = Some s_outputs;
  s_system : option_bind (read_system doc) (map_opt (parse_text f1 f2)) = Some s_es;
  s_ok : system_ok s_lib (pb_n pb) s_es s_outputs = true;
  s_section : option_bind (read_section doc) read_domains = Some s_domains;
  s_sets : parse_sets (pb_type pb) s_domains s_amounts = Some (s_data, s_final);
  s_formulas : exists fs, option_bind (initialise_domains (pb_type pb) s_final) (formulas (pb_n pb)) = Some fs /\ pb_sets pb = lookup_set fs;
  s_net : learner_of rand s_c (pb_type pb) (pb_n pb) = Some net;
  s_ctrl : controller_of randc s_c (pb_n pb) = Some ctrl;
  s_xdot : pb_xdot pb = xdot_of s_lib (pb_symb pb) (pb_n pb) s_es s_outputs;
  s_quad : pb_quad pb = get_quad s_c;
  s_readamounts : read_amounts doc = Some s_amounts;
  s_accepted : accepted s_time (pb_type pb) s_final s_data = true;
  s_rounding : get_int s_c "ROUNDING" = Some (pb_rounding pb);
  s_iters : get_int s_c "CEGIS_MAX_ITERS" = Some (pb_max_iters pb);
  s_control : pb_control pb = match s_outputs with None => false | Some _ => true end;
  s_f : pb_f pb = torch_of numpy s_es s_outputs;
  s_llo : pb_llo pb = match get_raw s_c "LLO" with Some y => truthy y | None => true end }.

Lemma session_parts numpy f1 f2 rand randc doc pb net ctrl :
  session_of numpy f1 f2 rand randc doc = Some (pb, net, ctrl) -> inhabited (parts numpy f1 f2 rand randc doc pb net ctrl).
Proof.
  intros E. unfold session_of in E.
  apply bind_some in E. destruct E as (c & Ec & E). apply bind_some in E. destruct E as (ty & Ety & E).
  apply bind_some in E. destruct E as (time & Et & E). apply bind_some in E. destruct E as ([lib b] & El & E).
  apply bind_some in El. destruct El as (v & Ev & El).
  apply bind_some in E. destruct E as (n & En & E). apply bind_some in E. destruct E as (outputs & Eo & E).
  apply bind_some in E. destruct E as (ro & Ero & E). apply bind_some in E. destruct E as (it & Eit & E).
  apply bind_some in E. destruct E as (es & Ees & E).
  destruct (system_ok lib n es outputs) eqn:Ok; [|discriminate]. cbn [negb] in E.
  apply bind_some in E. destruct E as (domains & Ed & E). apply bind_some in E. destruct E as (amounts & Eam & E).
  apply bind_some in E. destruct E as ([data domains'] & Ep & E).
  destruct (accepted time ty domains' data) eqn:Eacc; [|discriminate]. cbn [negb] in E.
  apply bind_some in E. destruct E as (fs & Ef & E). apply bind_some in E. destruct E as (net' & Enet & E).
  apply bind_some in E. destruct E as (k & Ek & E). injection E as <- <- <-.
  constructor. econstructor; cbn; eauto.
Qed.

Section Session.
  Context (numpy : interp) (f1 f2 : nat) (rand randc : nat -> nat -> nat -> Q) (doc : document).
  Context (pb : problem controller) (net : network) (ctrl : controller).
  Hypothesis Hdoc : NoDup (map fst doc).
  Hypothesis Hs : session_of numpy f1 f2 rand randc doc = Some (pb, net, ctrl).

  Lemma session_type ty t : asks doc ty t -> pb_type pb = ty /\ pb_discrete pb = match t with DISCRETE => true | CONTINUOUS => false end.
  Proof.
    intros (s1 & s2 & G1 & S1 & G2 & S2). destruct (session_parts _ _ _ _ _ _ _ _ _ Hs) as [P]. destruct P.
    split.
    - unfold get_certificate_type in s_type0.
      rewrite (config_given doc s_c0 "CERTIFICATE" (YStr s1) (Certificate ty)) in s_type0; auto; [congruence|now constructor|cbn; tauto].
    - unfold get_time in s_gettime0.
      rewrite (config_given doc s_c0 "TIME_DOMAIN" (YStr s2) (Time t)) in s_gettime0; auto; [injection s_gettime0 as <-; exact s_discrete0|now constructor|cbn; tauto].
  Qed.
  Lemma session_n n : dimension doc n -> pb_n pb = n.
  Proof.
    intros G. destruct (session_parts _ _ _ _ _ _ _ _ _ Hs) as [P]. destruct P. unfold get_raw in s_n0.
    rewrite (config_given doc s_c0 "N_VARS" _ (Raw (YInt (Z.of_nat n))) Hdoc s_read0 G) in s_n0; [|constructor|cbn; tauto].
    - cbn [option_bind as_nat] in s_n0. destruct (Z.leb_spec 0 (Z.of_nat n)); [|lia]. rewrite Nat2Z.id in s_n0. congruence.
    - intros H. repeat (destruct H as [H|H]; [discriminate|]). destruct H.
  Qed.
  Lemma session_verifier (v : verifier_type) : (exists c, read_config doc = Some c /\ get_verifier_type c = Some v) ->
    v = VZ3 /\ (forall s, ~ gives doc "VERIFIER" s) \/ exists s, gives doc "VERIFIER" (YStr s) /\ spelled s (verifier_name v).
  Proof.
    intros (c & R & G). unfold get_verifier_type in G.
    destruct (getattr c "VERIFIER") as [[| | |v'| |]|] eqn:E; try discriminate. injection G as ->.
    destruct (given_or_not doc "VERIFIER") as [[y Gy]|Gn].
    - right. assert (M : means "VERIFIER" y (Verifier v)).
      { eapply config_value; eauto; [cbn; tauto|]. intros H. repeat (destruct H as [H|H]; [discriminate|]). destruct H. }
      inversion M; subst. eauto.
    - left. rewrite (config_default doc c _ Hdoc R Gn) in E. cbn in E. split; [congruence|exact Gn].
  Qed.
  Lemma session_symb : pb_symb pb <> SSYMPY /\ (not_cvc5 doc -> pb_symb pb <> SCVC5).
  Proof.
    destruct (session_parts _ _ _ _ _ _ _ _ _ Hs) as [P]. destruct P.
    split; [intros E; rewrite E in s_library0; destruct s_v0; discriminate|].
    intros Nc E. rewrite E in s_library0. destruct s_v0; try discriminate.
    destruct (session_verifier VCVC5) as [[K _]|(s & G & S)]; [eauto|discriminate|]. now apply (Nc s).
  Qed.
  Lemma session_quad s : gives doc "FACTORS" (YStr s) -> spelled s "QUADRATIC" -> pb_quad pb = true.
  Proof.
    intros G S. destruct (session_parts _ _ _ _ _ _ _ _ _ Hs) as [P]. destruct P. rewrite s_quad0. unfold get_quad.
    rewrite (config_given doc s_c0 "FACTORS" (YStr s) (Factors QUADRATIC)); auto; [now constructor|cbn; tauto].
  Qed.
  Lemma session_no_quad : (forall s, gives doc "FACTORS" (YStr s) -> ~ spelled s "QUADRATIC") -> pb_quad pb = false.
  Proof.
    intros H. destruct (session_parts _ _ _ _ _ _ _ _ _ Hs) as [P]. destruct P. rewrite s_quad0. unfold get_quad.
    destruct (getattr s_c0 "FACTORS") as [[| | | |[|]|]|] eqn:E; try reflexivity. exfalso.
    destruct (given_or_not doc "FACTORS") as [[y Gy]|Gn].
    - assert (M : means "FACTORS" y (Factors QUADRATIC)).
      { eapply config_value; eauto; [cbn; tauto|]. intros K. repeat (destruct K as [K|K]; [discriminate|]). destruct K. }
      inversion M; subst. now apply (H s).
    - rewrite (config_default doc s_c0 _ Hdoc s_read0 Gn) in E. discriminate.
  Qed.
  Lemma session_llo b : (forall v, gives doc "LLO" v -> v = YBool b) -> (b = true -> exists v, gives doc "LLO" v) -> pb_llo pb = b.
  Proof.
    intros H Hb. destruct (session_parts _ _ _ _ _ _ _ _ _ Hs) as [P]. destruct P. rewrite s_llo0. unfold get_raw.
    destruct (given_or_not doc "LLO") as [[y Gy]|Gn].
    - pose proof (H y Gy). subst y.
      rewrite (config_given doc s_c0 "LLO" (YBool b) (Raw (YBool b)) Hdoc s_read0 Gy); [reflexivity| |cbn; tauto].
      constructor. intros K. repeat (destruct K as [K|K]; [discriminate|]). destruct K.
    - rewrite (config_default doc s_c0 _ Hdoc s_read0 Gn). cbn. destruct b; [|reflexivity].
      destruct (Hb eq_refl) as (v & Gv). now elim (Gn v).
  Qed.

  (** The sets. *)
  Lemma session_domain l g : declares doc (pb_n pb) l g ->
    exists D, reads g D /\ forall P : parts numpy f1 f2 rand randc doc pb net ctrl, dlookup l (s_domains _ _ _ _ _ _ _ _ _ P) = Some D.
  Proof.
    intros (d & value & G & Nd & Hin & Ht & Hp).
    destruct (set_text_reads _ _ _ Ht Hp) as (D & ED & RD). rewrite string_of_list_ascii_of_string in ED.
    exists D. split; [exact RD|]. intros P. destruct P. cbn [s_domains].
    apply bind_some in s_section0. destruct s_section0 as (sec & E1 & E2).
    unfold read_section in E1. rewrite (assoc_nodup "DOMAINS" doc _ Hdoc G) in E1. cbn [option_bind] in E1.
    destruct (section_strings d sec E1) as [K1 K2].
    rewrite (read_domains_lookup sec s_domains0 l value); auto. now rewrite K1.
  Qed.
  Lemma session_set l g : declares doc (pb_n pb) l g -> is_border l = false -> pb_type pb <> RAR ->
    (pb_type pb = ROA -> l <> XD) ->
    forall x, inside (pb_sets pb) l x <-> in_region g x.
  Proof.
    intros G Hl Hr Hx x. destruct (session_domain l g G) as (D & RD & HD).
    destruct (session_parts _ _ _ _ _ _ _ _ _ Hs) as [P]. specialize (HD P). destruct P. cbn [s_domains] in HD.
    destruct s_formulas0 as (fs & E & ->). apply bind_some in E. destruct E as (sym & E1 & E2).
    assert (Esym : sym = map (fun e => (fst e, if is_border (fst e) then SBoundary (snd e) else SDomain (snd e))) s_final0).
    { destruct (pb_type pb); cbn in E1; congruence. }
    pose proof (dlookup_symbols l s_final0) as K. rewrite <- Esym in K.
    rewrite (sets_keep _ _ _ _ _ s_sets0 l Hl Hx), HD, Hl in K. cbn [option_map] in K.
    pose proof (formulas_lookup _ _ _ _ _ E2 K) as F. cbn [formula] in F. injection F as F.
    unfold inside. rewrite <- F. destruct G as (d & value & _ & _ & _ & _ & Hp). now apply reads_region.
  Qed.
  Lemma session_border l b g : declares doc (pb_n pb) l g -> In (l, b) (required_borders (pb_type pb)) -> pb_type pb <> RAR ->
    is_border l = false ->
    fence (pb_n pb) (inside (pb_sets pb) l) (inside (pb_sets pb) b) /\ forall x, inside (pb_sets pb) b x -> in_region g x.
  Proof.
    intros G Hb Hr Hl.
    assert (Hx : pb_type pb = ROA -> l <> XD) by (intros E; rewrite E in Hb; destruct Hb).
    destruct (session_domain l g G) as (D & RD & HD).
    destruct (session_parts _ _ _ _ _ _ _ _ _ Hs) as [P]. specialize (HD P). destruct P. cbn [s_domains] in HD.
    destruct s_formulas0 as (fs & E & ->). apply bind_some in E. destruct E as (sym & E1 & E2).
    assert (Esym : sym = map (fun e => (fst e, if is_border (fst e) then SBoundary (snd e) else SDomain (snd e))) s_final0).
    { destruct (pb_type pb); cbn in E1; congruence. }
    pose proof (dlookup_symbols l s_final0) as K. pose proof (dlookup_symbols b s_final0) as Kb. rewrite <- Esym in K, Kb.
    rewrite (sets_keep _ _ _ _ _ s_sets0 l Hl Hx), HD, Hl in K. cbn [option_map] in K.
    rewrite (sets_border _ _ _ _ _ l b s_sets0 Hb), HD, (borders_are _ _ Hb : is_border b = true) in Kb. cbn [option_map] in Kb.
    pose proof (formulas_lookup _ _ _ _ _ E2 K) as F. cbn [formula] in F. injection F as F.
    pose proof (formulas_lookup _ _ _ _ _ E2 Kb) as Fb. cbn [formula] in Fb.
    destruct G as (d & value & _ & _ & _ & _ & Hp). destruct (reads_fits _ _ _ RD Hp) as [Ft Bd].
    unfold inside. rewrite <- F. split.
    - now apply (C30_leaving_crosses_boundary D).
    - intros x Hbx. now apply (reads_boundary (pb_n pb) g D _ x RD Hp Fb).
  Qed.

  (** RAR: XNF is the complement of XF. *)
  Lemma session_symbols_rar : pb_type pb = RAR -> forall P : parts numpy f1 f2 rand randc doc pb net ctrl,
    exists fs sym df, pb_sets pb = lookup_set fs /\ formulas (pb_n pb) sym = Some fs /\
      dlookup XF (s_final _ _ _ _ _ _ _ _ _ P) = Some df /\
      sym = dset XNF (SComplement df) (map (fun e => (fst e, if is_border (fst e) then SBoundary (snd e) else SDomain (snd e)))
                                          (s_final _ _ _ _ _ _ _ _ _ P)).
  Proof.
    intros T P. destruct P. cbn [s_final]. destruct s_formulas0 as (fs & E & E').
    apply bind_some in E. destruct E as (sym & E1 & E2). rewrite T in E1. cbn [initialise_domains] in E1.
    apply bind_some in E1. destruct E1 as (df & E0 & E1). injection E1 as <-. eauto 7.
  Qed.
  Lemma session_set_rar l g : declares doc (pb_n pb) l g -> is_border l = false -> pb_type pb = RAR -> l <> XNF ->
    forall x, inside (pb_sets pb) l x <-> in_region g x.
  Proof.
    intros G Hl T Hx x. destruct (session_domain l g G) as (D & RD & HD).
    destruct (session_parts _ _ _ _ _ _ _ _ _ Hs) as [P]. specialize (HD P).
    destruct (session_symbols_rar T P) as (fs & sym & df & Efs & E2 & _ & Esym). destruct P. cbn [s_domains s_final] in *.
    pose proof (dlookup_symbols l s_final0) as K.
    rewrite (sets_keep _ _ _ _ _ s_sets0 l Hl) in K by congruence. rewrite HD, Hl in K. cbn [option_map] in K.
    assert (K' : dlookup l sym = Some (SDomain D)).
    { rewrite Esym, dlookup_dset. destruct (label_eqb XNF l) eqn:Q; [|exact K]. apply label_eqb_spec in Q. congruence. }
    pose proof (formulas_lookup _ _ _ _ _ E2 K') as F. cbn [formula] in F. injection F as F.
    unfold inside. rewrite Efs, <- F. destruct G as (d & value & _ & _ & _ & _ & Hp). now apply reads_region.
  Qed.
  Lemma session_complement_rar g : declares doc (pb_n pb) XF g -> pb_type pb = RAR ->
    forall x, inside (pb_sets pb) XNF x <-> ~ in_region g x.
  Proof.
    intros G T x. destruct (session_domain XF g G) as (D & RD & HD).
    destruct (session_parts _ _ _ _ _ _ _ _ _ Hs) as [P]. specialize (HD P).
    destruct (session_symbols_rar T P) as (fs & sym & df & Efs & E2 & Edf & Esym). destruct P. cbn [s_domains s_final] in *.
    rewrite (sets_keep _ _ _ _ _ s_sets0 XF eq_refl) in Edf by congruence. rewrite HD in Edf. injection Edf as <-.
    assert (K' : dlookup XNF sym = Some (SComplement D)) by (rewrite Esym, dlookup_dset; reflexivity).
    pose proof (formulas_lookup _ _ _ _ _ E2 K') as F. cbn [formula] in F. injection F as F.
    unfold inside. rewrite Efs, <- F. destruct G as (d & value & _ & _ & _ & _ & Hp).
    unfold generate_complement. cbn [holds]. now rewrite (reads_region (pb_n pb) g D).
  Qed.
  Lemma session_border_rar g : declares doc (pb_n pb) XS g -> pb_type pb = RAR ->
    fence (pb_n pb) (inside (pb_sets pb) XS) (inside (pb_sets pb) XS_BORDER) /\ forall x, inside (pb_sets pb) XS_BORDER x -> in_region g x.
  Proof.
    intros G T. destruct (session_domain XS g G) as (D & RD & HD).
    destruct (session_parts _ _ _ _ _ _ _ _ _ Hs) as [P]. specialize (HD P).
    destruct (session_symbols_rar T P) as (fs & sym & df & Efs & E2 & _ & Esym). destruct P. cbn [s_domains s_final] in *.
    assert (Hb : In (XS, XS_BORDER) (required_borders (pb_type pb))) by (rewrite T; cbn; auto).
    pose proof (dlookup_symbols XS s_final0) as K. pose proof (dlookup_symbols XS_BORDER s_final0) as Kb.
    rewrite (sets_keep _ _ _ _ _ s_sets0 XS eq_refl), HD in K by congruence. cbn [option_map is_border] in K.
    rewrite (sets_border _ _ _ _ _ XS XS_BORDER s_sets0 Hb), HD in Kb. cbn [option_map is_border] in Kb.
    assert (K1 : dlookup XS sym = Some (SDomain D)) by (rewrite Esym, dlookup_dset; exact K).
    assert (K2 : dlookup XS_BORDER sym = Some (SBoundary D)) by (rewrite Esym, dlookup_dset; exact Kb).
    pose proof (formulas_lookup _ _ _ _ _ E2 K1) as F. cbn [formula] in F. injection F as F.
    pose proof (formulas_lookup _ _ _ _ _ E2 K2) as Fb. cbn [formula] in Fb.
    destruct G as (d & value & _ & _ & _ & _ & Hp). destruct (reads_fits _ _ _ RD Hp) as [Ft Bd].
    unfold inside. rewrite Efs, <- F. split.
    - now apply (C30_leaving_crosses_boundary D).
    - intros x Hbx. now apply (reads_boundary (pb_n pb) g D _ x RD Hp Fb).
  Qed.

  (** The networks. *)
  Lemma session_net : wf_net net /\ in_size net = pb_n pb /\ (avoids doc relu_names -> smooth_net net) /\
    (pb_type pb = LYAPUNOV \/ pb_type pb = ROA -> avoids doc offset_names -> zero_preserving net).
  Proof.
    destruct (session_parts _ _ _ _ _ _ _ _ _ Hs) as [P]. destruct P. eapply learner_facts; eauto.
  Qed.
  Lemma session_outputs trees om : inputs_of doc trees om ->
    (forall P : parts numpy f1 f2 rand randc doc pb net ctrl, s_outputs _ _ _ _ _ _ _ _ _ P = om) /\
    forall m, om = Some m -> wf_controller (pb_n pb) m ctrl.
  Proof.
    intros H.
    assert (Nc : ~ In "CTRLAYER" choice_fields).
    { intros K. repeat (destruct K as [K|K]; [discriminate|]). destruct K. }
    assert (St : In "CTRLAYER" settings) by (cbn; tauto).
    destruct H as [Hn|sizes m ss Gl Ga Len Hm Hv Hd].
    - split; [|discriminate]. intros P. destruct P. cbn [s_outputs]. unfold get_outputs, get_raw in s_getout0.
      destruct (given_or_not doc "CTRLAYER") as [[y Gy]|Gn].
      + pose proof (Hn y Gy). subst y.
        rewrite (config_given doc s_c0 "CTRLAYER" YNull (Raw YNull) Hdoc s_read0 Gy) in s_getout0; auto; [congruence|now constructor].
      + rewrite (config_default doc s_c0 _ Hdoc s_read0 Gn) in s_getout0. cbn in s_getout0. congruence.
    - assert (As : forall l, map_opt as_nat (map (fun k => YInt (Z.of_nat k)) l) = Some l).
      { induction l as [|k l IH]; [reflexivity|]. cbn. rewrite IH.
        destruct (Z.leb_spec 0 (Z.of_nat k)); [|lia]. cbn. now rewrite Nat2Z.id. }
      assert (Ly : forall c, read_config doc = Some c ->
        getattr c "CTRLAYER" = Some (Raw (YList (map (fun k => YInt (Z.of_nat k)) (sizes ++ [m]))))).
      { intros c R. eapply config_given; eauto. now constructor. }
      split.
      + intros P. destruct P. cbn [s_outputs]. unfold get_outputs, get_raw in s_getout0. rewrite (Ly _ s_read0) in s_getout0.
        rewrite map_app in s_getout0. cbn [map] in s_getout0.
        assert (La : forall (l : list yaml) y, exists x r, l ++ [y] = x :: r /\ List.last r x = y).
        { intros [|x l] y; cbn; [eauto|]. exists x, (l ++ [y]). split; [reflexivity|]. now rewrite last_last. }
        destruct (La (map (fun k => YInt (Z.of_nat k)) sizes) (YInt (Z.of_nat m))) as (x & r & Er & El).
        rewrite Er, El in s_getout0. cbn [as_nat] in s_getout0.
        destruct (Z.leb_spec 0 (Z.of_nat m)); [|lia]. rewrite Nat2Z.id in s_getout0. cbn in s_getout0. congruence.
      + intros m' Em. injection Em as <-. destruct (session_parts _ _ _ _ _ _ _ _ _ Hs) as [P]. destruct P.
        unfold controller_of in s_ctrl0. unfold get_raw in s_ctrl0. rewrite (Ly _ s_read0) in s_ctrl0.
        unfold get_sizes, get_raw in s_ctrl0. rewrite (Ly _ s_read0), As in s_ctrl0. cbn [option_bind] in s_ctrl0.
        apply bind_some in s_ctrl0. destruct s_ctrl0 as (acts & Eact & E).
        destruct (length (sizes ++ [m]) <=? 1)%nat; [discriminate|]. injection E as <-.
        unfold get_activations in Eact.
        destruct (getattr s_c0 "CTRLACTIVATION") as [[| | | | |l]|] eqn:Eg; try discriminate.
        assert (M : means "CTRLACTIVATION" (YList (map YStr ss)) (Activations l)).
        { eapply config_value; eauto; cbn; tauto. }
        assert (Ll : length l = length ss).
        { inversion M as [| | | |f ss' l' Hf F2 E1 E2 E3|f v' Hn]; subst.
          apply Forall2_len in F2. apply (f_equal (@length yaml)) in E2. rewrite !map_length in E2. lia. }
        pose proof (activations_ok _ _ Eact) as Fa. apply map_opt_Forall2, Forall2_len in Eact.
        exists (linears randc 0 (pb_n pb) sizes false), (linear (randc (length sizes)) (List.last sizes (pb_n pb)) m false),
          (List.last sizes (pb_n pb)). cbn [k_layers k_acts].
        rewrite linears_snoc, Nat.add_0_l. split; [reflexivity|]. rewrite linears_length. split; [lia|].
        split; [apply Forall_app; split; [apply linears_bias|repeat constructor]|].
        split; [apply linears_wf; [lia|auto]|]. apply linear_wf.
  Qed.

  (** The dynamics. *)
  Lemma session_dynamics trees om i : usual i -> equations doc trees -> inputs_of doc trees om ->
    forall k xdot, pb_xdot pb k = Some xdot -> (forall m, om = Some m -> wf_controller (pb_n pb) m k) ->
    forall s j, (j < pb_n pb)%nat ->
      field xdot s j = system_field i (pb_n pb) trees (feedback_law (pb_n pb) om k) s j.
  Proof.
    intros U (lines & G & W & St) Hin k xdot E Hk s j Hj.
    destruct (session_outputs trees om Hin) as [Ho _].
    destruct (session_parts _ _ _ _ _ _ _ _ _ Hs) as [P]. specialize (Ho P). destruct P. cbn [s_outputs] in Ho. subst s_outputs0.
    rewrite s_xdot0 in E. apply bind_some in s_system0. destruct s_system0 as (ls & Els & Ees).
    assert (ls = lines) as ->.
    { unfold read_system in Els. rewrite (assoc_nodup "SYSTEM" doc _ Hdoc G) in Els. cbn [option_bind iterate] in Els.
      clear - Els. revert ls Els. induction lines as [|l lines IH]; cbn; intros ls E; [congruence|].
      apply bind_some in E. destruct E as (r & Er & E). rewrite (IH r Er) in E. congruence. }
    assert (Hlib : s_lib0 <> LibSympy) by (intros ->; destruct s_v0; discriminate).
    refine (proj2 (xdot_written s_lib0 f1 f2 trees lines s_es0 Hlib W St Ees (pb_symb pb) (pb_n pb) om k xdot i U s_ok0 E _) s j Hj).
    destruct om as [m|]; cbn; [|exact I]. split; [now apply Hk|].
    inversion Hin as [|sizes m' ss Gl Ga Len Hm Hv Hd]; subst. repeat split; auto.
    intros ->. destruct s_v0; try discriminate.
    destruct (session_verifier VDREAL) as [[K _]|(sp & Gv & Sp)]; [eauto|discriminate|]. now apply (Hd sp).
  Qed.
  Lemma session_length k xdot : pb_xdot pb k = Some xdot -> length xdot = pb_n pb.
  Proof.
    destruct (session_parts _ _ _ _ _ _ _ _ _ Hs) as [P]. destruct P. rewrite s_xdot0. intros E.
    unfold system_ok in s_ok0. rewrite !andb_true_iff in s_ok0. destruct s_ok0 as [[[_ O2] _] _]. apply Nat.eqb_eq in O2.
    unfold xdot_of in E. destruct s_outputs0.
    - apply bind_some in E. destruct E as (u & _ & E). rewrite (smt_rhs_length _ _ _ _ _ _ E). exact O2.
    - rewrite (smt_rhs_length _ _ _ _ _ _ E). exact O2.
  Qed.
  Lemma session_well_posed : well_posed pb net.
  Proof.
    destruct session_net as (W & N & _). repeat split; auto. apply session_length.
  Qed.
End Session.
