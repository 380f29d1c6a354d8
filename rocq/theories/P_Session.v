(** C62: the problem worked on is the one in the configuration file. *)
From Coquelicot Require Import Coquelicot.
From Coq Require Import String Ascii Reals QArith Qreals Bool Arith ZArith Decimal Lra Lia List.
From Verif Require Import M_Syntax M_Certificates M_Verifier M_Activations M_Domains M_Network M_Learner M_Cegis M_Labels M_Fossil M_Double
  M_Control M_Parser M_Lexer M_Variables M_DomainParser M_Cli M_Config S_Activations S_Network S_Fossil S_Dynamics S_Certificates S_Domains
  S_Parser S_Lexer S_Variables S_DomainParser S_Control S_Cli S_Config S_Session
  P_Parser P_Lexer P_Variables P_Domains P_DomainParser P_Cli P_Cegis P_Labels P_Activations P_Translator P_Control L_Verifier L_Activations L_Network L_Config L_Session.
Import ListNotations.
Local Open Scope string_scope.
Local Open Scope list_scope.
Local Open Scope R_scope.

Ltac not_listed := let K := fresh in intros K; repeat (destruct K as [K|K]; [discriminate|]); destruct K.

(** ** Settings *)
Lemma raw_setting doc c f y d : NoDup (map fst doc) -> read_config doc = Some c -> In f settings -> ~ In f choice_fields ->
  getattr default_config f = Some (Raw d) -> get_raw c f = Some y -> setting doc f d y.
Proof.
  intros N R F Nc D G. unfold get_raw in G. destruct (getattr c f) as [[y'| | | | |]|] eqn:E; try discriminate. injection G as ->.
  destruct (given_or_not doc f) as [[v Gv]|Gn].
  - rewrite (config_given doc c f v (Raw v) N R Gv (means_plain f v Nc) F) in E. injection E as <-. now constructor.
  - rewrite (config_default doc c f N R Gn), D in E. injection E as <-. now constructor.
Qed.
Lemma int_setting doc c f z d : NoDup (map fst doc) -> read_config doc = Some c -> In f settings -> ~ In f choice_fields ->
  getattr default_config f = Some (Raw d) -> get_int c f = Some z -> setting doc f d (YInt z).
Proof.
  intros N R F Nc D G. unfold get_int in G. destruct (get_raw c f) as [y|] eqn:E; [|discriminate].
  destruct y; try discriminate. injection G as ->. eapply raw_setting; eauto.
Qed.
Lemma truthy_no y : truthy y = false <-> no y.
Proof.
  unfold no. split.
  - destruct y; cbn [truthy]; rewrite ?negb_false_iff, ?Z.eqb_eq, ?Nat.eqb_eq, ?length_zero_iff_nil, ?String.eqb_eq; intros H;
      try (subst; auto 10; fail); try discriminate. apply Qeq_bool_iff in H. eauto 10.
  - intros [-> |[-> |[-> |[(q & -> & K)|[-> |[-> | ->]]]]]]; try reflexivity. cbn [truthy]. apply Qeq_bool_iff in K. now rewrite K.
Qed.

Section Settings.
  Context (numpy : interp) (f1 f2 : nat) (rand randc : nat -> nat -> nat -> Q) (doc : document).
  Context (pb : problem controller) (net : network) (ctrl : controller).
  Hypothesis Hdoc : NoDup (map fst doc).
  Hypothesis Hs : session_of numpy f1 f2 rand randc doc = Some (pb, net, ctrl).

  Lemma config_meaning f v : gives doc f v -> In f settings -> (In f activation_fields -> exists l, v = YList l) ->
    forall c, read_config doc = Some c -> exists a, means f v a /\ getattr c f = Some a.
  Proof.
    intros G F L c R. unfold read_config in R. destruct (forallb _ _); [|discriminate].
    pose proof (read_fields_get _ _ _ Hdoc R f) as E. apply settings_has in F. pose proof F as F'. apply hasattr_get in F.
    destruct (getattr default_config f); [|contradiction]. rewrite (assoc_nodup _ _ _ Hdoc G) in E.
    assert (C : convert_field f v <> None) by (apply (proj2 (read_fields_some doc default_config)); [congruence|exact G|exact F']).
    destruct (convert_field f v) as [att|] eqn:Ea; [|contradiction]. exists att. split; [now apply convert_sound|exact E].
  Qed.
  Lemma the_certificate : choice doc "CERTIFICATE" "LYAPUNOV" (certificate_name (pb_type pb)).
  Proof.
    destruct (session_parts _ _ _ _ _ _ _ _ _ Hs) as [P]. destruct P. unfold get_certificate_type in s_type.
    destruct (getattr s_c "CERTIFICATE") as [[|ct| | | |]|] eqn:E; try discriminate. injection s_type as <-.
    destruct (given_or_not doc "CERTIFICATE") as [[v Gv]|Gn].
    - assert (M : means "CERTIFICATE" v (Certificate ct)) by (eapply config_value; eauto; [cbn; tauto|not_listed]).
      inversion M; subst. econstructor; eauto.
    - rewrite (config_default doc s_c _ Hdoc s_read Gn) in E. injection E as <-. now constructor.
  Qed.
  Lemma the_time : choice doc "TIME_DOMAIN" "CONTINUOUS" (if pb_discrete pb then "DISCRETE" else "CONTINUOUS").
  Proof.
    destruct (session_parts _ _ _ _ _ _ _ _ _ Hs) as [P]. destruct P. unfold get_time in s_gettime.
    destruct (getattr s_c "TIME_DOMAIN") as [[| |t| | |]|] eqn:E; try discriminate. injection s_gettime as <-.
    assert (En : (if pb_discrete pb then "DISCRETE" else "CONTINUOUS") = time_name t) by (rewrite s_discrete; now destruct t).
    rewrite En. destruct (given_or_not doc "TIME_DOMAIN") as [[v Gv]|Gn].
    - assert (M : means "TIME_DOMAIN" v (Time t)) by (eapply config_value; eauto; [cbn; tauto|not_listed]).
      inversion M; subst. econstructor; eauto.
    - rewrite (config_default doc s_c _ Hdoc s_read Gn) in E. injection E as <-. now constructor.
  Qed.
  Lemma the_solver : choice doc "VERIFIER" "Z3" (solver_name (pb_symb pb)).
  Proof.
    destruct (session_parts _ _ _ _ _ _ _ _ _ Hs) as [P]. destruct P.
    assert (En : solver_name (pb_symb pb) = verifier_name s_v).
    { destruct s_v; cbn in s_library; try discriminate; injection s_library as _ <-; reflexivity. }
    rewrite En. destruct (session_verifier doc Hdoc s_v ltac:(eauto)) as [[E Gn]|(s & G & S)].
    - rewrite E. now constructor.
    - econstructor; eauto.
  Qed.
  Lemma the_factors : choice doc "FACTORS" "NONE" (if pb_quad pb then "QUADRATIC" else "NONE").
  Proof.
    destruct (session_parts _ _ _ _ _ _ _ _ _ Hs) as [P]. destruct P. rewrite s_quad. unfold get_quad.
    destruct (given_or_not doc "FACTORS") as [[v Gv]|Gn].
    - destruct (config_meaning "FACTORS" v Gv ltac:(cbn; tauto) ltac:(not_listed) _ s_read) as (a & M & ->).
      inversion M; subst; try (match goal with H : In _ activation_fields |- _ => revert H; not_listed end).
      + destruct f; econstructor; eauto.
      + match goal with H : ~ In _ choice_fields |- _ => elim H; cbn; tauto end.
    - rewrite (config_default doc s_c _ Hdoc s_read Gn). now constructor.
  Qed.

  (** ** Networks *)
  Lemma act_applies t a : activation_fcn t = Some a -> applies t a.
  Proof.
    intros H N1 N2. split.
    - intros h Hh w j x. destruct t; cbn in H, Hh; try discriminate; try contradiction; injection H as <-; injection Hh as <-; reflexivity.
    - intros k Hk w j x. destruct t; cbn in H, Hk; try discriminate; injection H as <-; injection Hk as <-; reflexivity.
  Qed.
  Lemma the_activations f acts c : read_config doc = Some c -> f = "ACTIVATION" \/ f = "ACTIVATION_ALT" ->
    get_activations c f = Some acts -> (exists v, gives doc f v /\ ~ exists l, v = YList l) \/ activations doc f acts.
  Proof.
    intros R Hf G. unfold get_activations in G. destruct (getattr c f) as [[| | | | |l]|] eqn:E; try discriminate.
    assert (F : In f settings) by (destruct Hf as [-> | ->]; cbn; tauto).
    destruct (given_or_not doc f) as [[v Gv]|Gn].
    - destruct v as [| | | | | |y|]; try (left; eexists; split; [exact Gv|intros (? & K); discriminate]). right.
      destruct (config_meaning f _ Gv F ltac:(eauto) c R) as (a & M & Ea). rewrite E in Ea. injection Ea as <-.
      inversion M as [| | | |f' ss l' Hf' F2 E1 E2 E3|]; subst. econstructor; [exact Gv|].
      apply map_opt_Forall2 in G. clear - F2 G. revert acts G. induction F2 as [|s t ss l S F2 IH]; intros acts G.
      + inversion G. constructor.
      + inversion G; subst. constructor; [|now apply IH]. exists t. split; [exact S|]. now apply act_applies.
    - right. rewrite (config_default doc c f Hdoc R Gn) in E.
      assert (l = [SQUARE]) as -> by (destruct Hf as [-> | ->]; cbn in E; congruence).
      cbn in G. injection G as <-. now constructor.
  Qed.

  Lemma sizes_ints l sizes : map_opt as_nat l = Some sizes -> l = map (fun k => YInt (Z.of_nat k)) sizes.
  Proof.
    intros H. apply map_opt_Forall2 in H. induction H as [|y k l sizes E H IH]; [reflexivity|]. cbn. rewrite <- IH. f_equal.
    destruct y; cbn in E; try discriminate. destruct (Z.leb_spec 0 z); [|discriminate]. injection E as <-. now rewrite Z2Nat.id.
  Qed.
  Lemma the_network c neurons f b n net' : read_config doc = Some c ->
    (neurons = "N_HIDDEN_NEURONS" /\ f = "ACTIVATION" \/ neurons = "N_HIDDEN_NEURONS_ALT" /\ f = "ACTIVATION_ALT") ->
    (forall v, gives doc f v -> exists l, v = YList l) ->
    learner_from rand c neurons f b n = Some net' -> shaped doc neurons f b n net'.
  Proof.
    intros R Hf Hl E. assert (Hf' : f = "ACTIVATION" \/ f = "ACTIVATION_ALT") by tauto.
    destruct (learner_from_facts _ _ _ _ _ _ _ _ Hdoc R Hf' E) as (W & I & _ & _).
    unfold learner_from in E. apply bind_some in E. destruct E as (sizes & Es & E). apply bind_some in E. destruct E as (acts & Ea & E).
    destruct (length acts <? length sizes)%nat eqn:L; [discriminate|]. apply Nat.ltb_ge in L.
    destruct (_ && _) eqn:Llo in E; [discriminate|]. injection E as <-.
    split; [exact I|]. split; [exact W|]. cbn [hidden last].
    assert (K : forall k n, map (fun la : layer * act => length (weight (fst la))) (combine (linears rand k n sizes b) acts) = sizes /\
                map snd (combine (linears rand k n sizes b) acts) = firstn (length sizes) acts).
    { clear -L. revert acts L. induction sizes as [|m sizes IH]; intros [|a acts] L k n; try (cbn in L; lia); try (split; reflexivity).
      cbn [linears combine map fst snd length firstn]. destruct (IH acts ltac:(cbn in L; lia) (S k) m) as [I1 I2]. rewrite I1, I2.
      split; [|reflexivity]. f_equal. now apply linear_wf. }
    split; [|split].
    - replace (map _ (combine _ _)) with (map (fun k => YInt (Z.of_nat k)) sizes).
      + unfold get_sizes in Es. destruct (get_raw c neurons) as [y|] eqn:Er; [|discriminate]. destruct y; try discriminate.
        rewrite <- (sizes_ints _ _ Es). eapply raw_setting; eauto; destruct Hf as [[-> _]|[-> _]]; try (cbn; tauto); try not_listed; reflexivity.
      + rewrite <- (proj1 (K 0%nat n)) at 1. now rewrite map_map.
    - rewrite (proj2 (K 0%nat n)). exists (skipn (length sizes) acts). rewrite firstn_skipn. split.
      + destruct (the_activations f acts c R Hf' Ea) as [(v & G & N)|H]; [|exact H]. destruct (Hl v G) as (l & ->). elim N. eauto.
      + intros G. apply skipn_all2. apply andb_false_iff in Llo. destruct Llo as [Llo|Llo]; [now apply Nat.ltb_ge in Llo|].
        exfalso. revert Llo. unfold get_raw. rewrite (config_given doc c "LLO" (YBool true) (Raw (YBool true)) Hdoc R G); [discriminate|constructor; not_listed|cbn; tauto].
    - assert (B : forall rand n m, bias (linear rand n m b) = None <-> b = false).
      { intros. unfold linear. cbn [bias]. destruct b; split; congruence. }
      constructor; [apply B|]. apply Forall_forall. intros l H. apply in_map_iff in H. destruct H as ([l' a] & <- & H).
      apply in_combine_l in H. cbn [fst]. clear -H B. revert H. generalize 0%nat as k. revert n. induction sizes as [|m sizes IH]; intros n k H; [destruct H|].
      destruct H as [<-|H]; [apply B|now apply (IH m (S k))].
  Qed.
End Settings.

(** ** Right-hand sides for the samples *)
Lemma apply_defined lib i j f l l' w : length l = length l' -> apply lib i f l = Some w -> exists w', apply lib j f l' = Some w'.
Proof.
  intros L E. destruct lib, f, l as [|x [|y [|z l]]], l' as [|x' [|y' [|z' l']]]; try discriminate L; cbn in *; try discriminate; eauto.
Qed.
Lemma aval_defined lib i j e : forall w, aval lib i e = Some w -> exists w', aval lib j e = Some w'.
Proof.
  induction e as [q|k d|a IH|o a b IHa IHb|f args IH] using ast_induct; intros w E.
  - cbn in *. eauto.
  - cbn in *. eauto.
  - cbn [aval] in *. destruct (aval lib i a) as [x|]; [|discriminate]. destruct (IH x eq_refl) as (y & ->). cbn. eauto.
  - cbn [aval] in *. destruct (aval lib i a) as [x|]; [|discriminate]. destruct (aval lib i b) as [y|]; [|discriminate].
    destruct (IHa x eq_refl) as (x' & ->). destruct (IHb y eq_refl) as (y' & ->). cbn. eauto.
  - rewrite aval_args in *. destruct (map_opt (aval lib i) args) as [l|] eqn:El; [|discriminate].
    assert (K : exists l', map_opt (aval lib j) args = Some l' /\ length l = length l').
    { clear E. revert l El. induction IH as [|x r Hx Hr IHr]; intros l El; simpl in *; [injection El as <-; eauto|].
      destruct (aval lib i x) as [y|]; [|discriminate]. destruct (map_opt (aval lib i) r) as [l'|]; [|discriminate].
      destruct (Hx y eq_refl) as (y' & ->). destruct (IHr l' eq_refl) as (r' & -> & L). injection El as <-. cbn. eexists. split; [reflexivity|]. cbn. lia. }
    destruct K as (l' & -> & L). cbn [option_bind] in *. eapply apply_defined; eauto.
Qed.
Lemma system_aval lib i j es ws : map_opt (aval lib i) es = Some ws -> exists ws', map_opt (aval lib j) es = Some ws'.
Proof.
  intros H. apply map_opt_Forall2 in H. induction H as [|e w es ws E H IH]; [eexists; reflexivity|].
  destruct IH as (ws' & E'). destruct (aval_defined lib i j e w E) as (w' & E''). cbn. rewrite E'', E'. cbn. eauto.
Qed.
Lemma system_sympy lib i es ws : map_opt (aval lib i) es = Some ws -> map_opt (aval LibSympy i) es = Some ws.
Proof.
  intros H. apply map_opt_Forall2 in H. induction H as [|e w es ws E H IH]; [reflexivity|].
  cbn. rewrite (aval_sympy _ _ _ _ E), IH. reflexivity.
Qed.

Section Torch.
  Context (lib : library) (f1 f2 : nat) (trees : list tree) (lines : list string) (es : list ast).
  Hypothesis Hlib : lib <> LibSympy.
  Hypothesis Hw : Forall2 written trees lines.
  Hypothesis Hstd : Forall (fun t => std Sum t /\ no_minus_power t) trees.
  Hypothesis Hp : map_opt (parse_text f1 f2) lines = Some es.

  Lemma torch_written b n outputs k0 xdot k numpy s : system_ok lib n es outputs = true ->
    xdot_of lib b n es outputs k0 = Some xdot -> (n <= 10)%nat ->
    match outputs with
    | None => True
    | Some m => (m <= 10)%nat /\ (forall d, In (VU, d) (flat_map variables trees) -> exists j, (j < m)%nat /\ d = Nat.to_uint j) /\
        wf_controller n m k /\ ctrl_softplus_ok n k s
    end ->
    torch_of numpy es outputs k (map s (seq 0 n)) =
    map (system_field numpy n trees (trained_law n outputs k) s) (seq 0 n).
  Proof.
    intros Ok E H10 Hin. unfold system_ok in Ok. rewrite !andb_true_iff in Ok. destruct Ok as [[[O1 O2] O3] O4].
    apply negb_true_iff in O1. apply Nat.eqb_eq in O2, O3.
    assert (Hnc : ~ constant_side es) by (intros C; apply constant_spec in C; congruence).
    assert (exists u, smt_rhs lib (leftover n) es (new_vars n) u = Some xdot) as (u & Es).
    { destruct outputs as [m|]; cbn [xdot_of] in E; [|eauto]. apply bind_some in E. destruct E as (u & E1 & E2). eauto. }
    destruct (system_defined _ _ _ _ _ _ Es) as (ws & Ew). pose proof (system_variables lib f1 f2 trees lines es Hlib Hw Hstd Hp ws Ew) as Ev.
    assert (Lr : length (map s (seq 0 n)) = n) by now rewrite map_length, seq_length.
    assert (HX : exactly es VX (length (map s (seq 0 n)))).
    { pose proof (smt_rhs_value lib zeros _ es _ _ xdot s zeros_usual Es) as V. rewrite row_new_vars in V.
      apply exactly_count; [|lia]. intros q Hq.
      destruct (in_dec occ_dec (VX, name q) (flat_map vars es)) as [H|H]; [exact H|].
      rewrite (C38_symbols_missing lib zeros (fun x => eval s (leftover n x)) es (map s (seq 0 n)) (option_map (map (eval s)) u) q Hq H) in V.
      discriminate. }
    set (law := trained_law n outputs k s).
    assert (Hl : exists u', match outputs with None => None | Some _ => Some (ctrl_forward k (map s (seq 0 n))) end = u' /\ inputs u' = law /\ u' <> Some [] /\
              exactly es VU (length law) /\ (length law <= 10)%nat).
    { eexists. split; [reflexivity|]. unfold law. destruct outputs as [m|]; cbn [trained_law inputs] in *.
      - destruct Hin as (Hm & Hv & Wk & Hsp). rewrite !andb_true_iff in O4. destruct O4 as [[O4 O5] O6]. apply Nat.eqb_eq in O4. apply Nat.ltb_lt in O5.
        destruct (ctrl_forward_value n m k s Wk Hsp) as [Lu Vu]. unfold row in Lu, Vu.
        assert (El : ctrl_forward k (map s (seq 0 n)) = map (feedback n k s) (seq 0 m)).
        { apply (nth_ext _ _ 0 0); rewrite ?map_length, ?seq_length; [exact Lu|]. intros q Hq. rewrite Lu in Hq.
          rewrite (map_nth_lt _ (seq 0 m) q 0%nat) by (rewrite seq_length; lia). rewrite seq_nth by lia. now apply Vu. }
        rewrite map_length, seq_length. rewrite El. repeat split; auto.
        + intros H. injection H as H. apply (f_equal (@length R)) in H. rewrite map_length, seq_length in H. cbn in H. lia.
        + intros H. apply Hv. rewrite <- Ev. exact H.
        + intros (q & Hq & ->). apply in_symbols.
          assert (I : incl (map name (seq 0 m)) (symbols VU es)).
          { apply NoDup_length_incl; [apply symbols_nodup|rewrite map_length, seq_length; lia|].
            intros d Hd'. apply in_symbols in Hd'. unfold mentions in Hd'. rewrite Ev in Hd'. apply in_names. now apply Hv. }
          apply I, in_names. exists q. auto.
      - apply Nat.eqb_eq in O4. cbn [length]. repeat split; auto; try lia; try discriminate.
        + intros H. exfalso. apply in_symbols in H. destruct (symbols VU es); [destruct H|discriminate].
        + intros (q & Hq & _). lia. }
    rewrite Lr in HX.     destruct Hl as (u' & Eu & Ei & Hne & HU & L10). unfold torch_of. rewrite Eu. rewrite (C38_numbers numpy es (map s (seq 0 n)) u'); rewrite ?Ei, ?Lr; auto.
    destruct (system_aval lib zeros (component numpy (map s (seq 0 n)) law) es ws Ew) as (ws' & Ew').
    rewrite (system_sympy _ _ _ _ Ew'). rewrite (system_values lib f1 f2 trees lines es Hlib Hw Hstd Hp _ _ Ew').
    assert (Lt : length trees = n) by (apply map_opt_Forall2, Forall2_len in Hp; apply Forall2_len in Hw; lia).
    apply (nth_ext _ _ 0 0); rewrite !map_length, ?seq_length; [exact Lt|]. intros q Hq.
    rewrite (map_nth_lt _ trees q (CNum 0)) by lia. rewrite (map_nth_lt _ (seq 0 n) q 0%nat) by (rewrite seq_length; lia). rewrite seq_nth by lia. reflexivity.
  Qed.
End Torch.

(** * C62 *)
(** The settings of the problem are those of the file, or the defaults. *)
Theorem C62_settings :
  forall (numpy : interp) (f1 f2 : nat) (rand randc : nat -> nat -> nat -> Q) (doc : document)
    (pb : problem controller) (net : network) (ctrl : controller),
    NoDup (map fst doc) -> session_of numpy f1 f2 rand randc doc = Some (pb, net, ctrl) ->
    choice doc "CERTIFICATE" "LYAPUNOV" (certificate_name (pb_type pb)) /\
    choice doc "TIME_DOMAIN" "CONTINUOUS" (if pb_discrete pb then "DISCRETE" else "CONTINUOUS") /\
    choice doc "VERIFIER" "Z3" (solver_name (pb_symb pb)) /\
    choice doc "FACTORS" "NONE" (if pb_quad pb then "QUADRATIC" else "NONE") /\
    setting doc "N_VARS" (YInt 0) (YInt (Z.of_nat (pb_n pb))) /\
    setting doc "ROUNDING" (YInt 3) (YInt (pb_rounding pb)) /\
    setting doc "CEGIS_MAX_ITERS" (YInt 10) (YInt (pb_max_iters pb)) /\
    (exists y, setting doc "LLO" (YBool false) y /\ (pb_llo pb = false <-> no y)) /\
    (exists y, setting doc "CTRLAYER" YNull y /\ (pb_control pb = false <-> y = YNull)).
Proof.
  intros numpy f1 f2 rand randc doc pb net ctrl N H.
  refine (conj (the_certificate _ _ _ _ _ _ _ _ _ N H) (conj (the_time _ _ _ _ _ _ _ _ _ N H)
    (conj (the_solver _ _ _ _ _ _ _ _ _ N H) (conj (the_factors _ _ _ _ _ _ _ _ _ N H) _)))).
  destruct (session_parts _ _ _ _ _ _ _ _ _ H) as [P]. destruct P.
  assert (Sz : setting doc "N_VARS" (YInt 0) (YInt (Z.of_nat (pb_n pb)))).
  { apply bind_some in s_n. destruct s_n as (y & Ey & En).
    assert (y = YInt (Z.of_nat (pb_n pb))) as <-.
    { destruct y; cbn in En; try discriminate. destruct (Z.leb_spec 0 z); [|discriminate]. injection En as <-. now rewrite Z2Nat.id. }
    eapply (raw_setting doc s_c); [exact N|exact s_read|cbn; tauto|not_listed|reflexivity|eassumption]. }
  refine (conj Sz (conj _ (conj _ (conj _ _)))).
  - eapply (int_setting doc s_c); [exact N|exact s_read|cbn; tauto|not_listed|reflexivity|eassumption].
  - eapply (int_setting doc s_c); [exact N|exact s_read|cbn; tauto|not_listed|reflexivity|eassumption].
  - destruct (given_or_not doc "LLO") as [[v Gv]|Gn].
    + exists v. split; [now constructor|]. unfold get_raw in s_llo.
      rewrite (config_given doc s_c "LLO" v (Raw v) N s_read Gv) in s_llo; [|constructor; not_listed|cbn; tauto].
      rewrite s_llo. apply truthy_no.
    + exists (YBool false). split; [now constructor|]. unfold get_raw in s_llo. rewrite (config_default doc s_c _ N s_read Gn) in s_llo.
      rewrite s_llo. apply truthy_no.
  - unfold get_outputs in s_getout. destruct (get_raw s_c "CTRLAYER") as [y|] eqn:Er; [|discriminate].
    exists y. split; [eapply (raw_setting doc s_c); [exact N|exact s_read|cbn; tauto|not_listed|reflexivity|eassumption]|].
    rewrite s_control. destruct y as [| | | | | |l|]; try discriminate; [injection s_getout as <-; tauto|]. destruct l as [|x l]; [discriminate|].
    destruct (as_nat (List.last l x)); [|discriminate]. injection s_getout as <-. split; discriminate.
Qed.
(** The sets of the problem are those written in the file. *)
Theorem C62_sets :
  forall (numpy : interp) (f1 f2 : nat) (rand randc : nat -> nat -> nat -> Q) (doc : document)
    (pb : problem controller) (net : network) (ctrl : controller) (n : nat),
    NoDup (map fst doc) -> session_of numpy f1 f2 rand randc doc = Some (pb, net, ctrl) -> dimension doc n ->
    (forall l g, declares doc n l g -> l <> XS_BORDER -> l <> XG_BORDER -> (pb_type pb = ROA -> l <> XD) -> (pb_type pb = RAR -> l <> XNF) ->
       forall x, inside (pb_sets pb) l x <-> in_region g x) /\
    (forall g, declares doc n XF g -> pb_type pb = RAR -> forall x, inside (pb_sets pb) XNF x <-> ~ in_region g x).
Proof.
  intros numpy f1 f2 rand randc doc pb net ctrl n N H D.
  pose proof (session_n _ _ _ _ _ _ _ _ _ N H n D) as En. subst n. split.
  - intros l g G B1 B2 Ro Rr. assert (Hb : is_border l = false) by (destruct l; try reflexivity; congruence).
    assert (T : pb_type pb = RAR \/ pb_type pb <> RAR) by (destruct (pb_type pb); (now left) || (right; discriminate)). destruct T as [T|T].
    + apply (session_set_rar _ _ _ _ _ _ _ _ _ N H); auto.
    + apply (session_set _ _ _ _ _ _ _ _ _ N H); auto.
  - intros g G T. apply (session_complement_rar _ _ _ _ _ _ _ _ _ N H); auto.
Qed.
(** The networks have the widths and activations of the file. *)
Theorem C62_networks :
  forall (numpy : interp) (f1 f2 : nat) (rand randc : nat -> nat -> nat -> Q) (doc : document)
    (pb : problem controller) (net : network) (ctrl : controller) (n : nat),
    NoDup (map fst doc) -> session_of numpy f1 f2 rand randc doc = Some (pb, net, ctrl) -> dimension doc n ->
    (forall v, gives doc "ACTIVATION" v -> exists l, v = YList l) ->
    shaped doc "N_HIDDEN_NEURONS" "ACTIVATION" (match pb_type pb with LYAPUNOV | ROA | STABLESAFE => false | _ => true end) n net.
Proof.
  intros numpy f1 f2 rand randc doc pb net ctrl n N H D Hl.
  pose proof (session_n _ _ _ _ _ _ _ _ _ N H n D) as En. subst n.
  destruct (session_parts _ _ _ _ _ _ _ _ _ H) as [P]. destruct P.
  eapply (the_network rand doc N s_c); eauto.
Qed.
Theorem C62_second_network :
  forall (numpy : interp) (f1 f2 : nat) (rand rand2 randc : nat -> nat -> nat -> Q) (doc : document)
    (pb : problem controller) (net net2 : network) (ctrl : controller) (n : nat),
    NoDup (map fst doc) -> session2_of numpy f1 f2 rand rand2 randc doc = Some (pb, net, net2, ctrl) -> dimension doc n ->
    (forall v, gives doc "ACTIVATION_ALT" v -> exists l, v = YList l) ->
    session_of numpy f1 f2 rand randc doc = Some (pb, net, ctrl) /\ (pb_type pb = STABLESAFE \/ pb_type pb = RAR) /\
    shaped doc "N_HIDDEN_NEURONS_ALT" "ACTIVATION_ALT" true n net2 /\
    (* training starts from it as drawn: LLO does not concern the second network *)
    d_barr (initial2 pb net net2 ctrl) = net2.
Proof.
  intros numpy f1 f2 rand rand2 randc doc pb net net2 ctrl n N H D Hl. unfold session2_of in H.
  apply bind_some in H. destruct H as ([[pb' net'] ctrl'] & Hs & H).
  assert (T : pb_type pb' = STABLESAFE \/ pb_type pb' = RAR) by (destruct (pb_type pb'); try discriminate; auto).
  assert (E : option_bind (read_config doc) (fun c => option_bind (learner_alt_of rand2 c (pb_n pb')) (fun net2 => Some (pb', net', net2, ctrl'))) = Some (pb, net, net2, ctrl))
    by (destruct (pb_type pb'); try discriminate; exact H).
  apply bind_some in E. destruct E as (c & Ec & E). apply bind_some in E. destruct E as (n2 & En & E). injection E as <- <- <- <-.
  split; [exact Hs|]. split; [exact T|]. pose proof (session_n _ _ _ _ _ _ _ _ _ N Hs n D) as Enn. subst n.
  split; [|reflexivity]. eapply (the_network rand2 doc N c); eauto.
Qed.
(** The data are simulated with the system of the file in feedback with the controller (up to ten states, see C38). *)
Theorem C62_simulation :
  forall (numpy : interp) (f1 f2 : nat) (rand randc : nat -> nat -> nat -> Q) (doc : document)
    (pb : problem controller) (net : network) (ctrl : controller) (n : nat) (trees : list tree) (outputs : option nat) xdot,
    NoDup (map fst doc) -> session_of numpy f1 f2 rand randc doc = Some (pb, net, ctrl) ->
    dimension doc n -> (n <= 10)%nat -> equations doc trees -> inputs_of doc trees outputs -> pb_xdot pb ctrl = Some xdot ->
    forall (k : controller) (s : state),
      (forall m, outputs = Some m -> wf_controller n m k /\ ctrl_softplus_ok n k s) ->
      pb_f pb k (map s (seq 0 n)) = map (system_field numpy n trees (trained_law n outputs k) s) (seq 0 n).
Proof.
  intros numpy f1 f2 rand randc doc pb net ctrl n trees outputs xdot N H D L (lines & G & W & St) Hin E k s Hk.
  pose proof (session_n _ _ _ _ _ _ _ _ _ N H n D) as En. subst n.
  destruct (session_outputs _ _ _ _ _ _ _ _ _ N H trees outputs Hin) as [Ho _].
  destruct (session_parts _ _ _ _ _ _ _ _ _ H) as [P]. specialize (Ho P). destruct P. cbn [L_Session.s_outputs] in Ho. subst s_outputs.
  rewrite s_xdot in E. rewrite s_f. apply bind_some in s_system. destruct s_system as (ls & Els & Ees).
  assert (ls = lines) as ->.
  { unfold read_system in Els. rewrite (assoc_nodup "SYSTEM" doc _ N G) in Els. cbn [option_bind iterate] in Els.
    clear - Els. revert ls Els. induction lines as [|l lines IH]; cbn; intros ls E; [congruence|].
    apply bind_some in E. destruct E as (r & Er & E). rewrite (IH r Er) in E. congruence. }
  assert (Hlib : s_lib <> LibSympy) by (intros ->; destruct s_v; discriminate).
  apply (torch_written s_lib f1 f2 trees lines s_es Hlib W St Ees (pb_symb pb) (pb_n pb) outputs ctrl xdot k numpy s s_ok E L).
  destruct outputs as [m|]; [|exact I]. inversion Hin as [|sizes m' ss Gl Ga Len Hm Hv Hd]; subst.
  destruct (Hk m eq_refl). auto.
Qed.
