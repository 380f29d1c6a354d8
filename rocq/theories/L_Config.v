(** Lemmas for C59: the symbolic right-hand side is the written system. *)
From Coquelicot Require Import Coquelicot.
From Coq Require Import String Ascii Reals QArith Qreals Bool Arith ZArith Decimal Lra Lia List.
From Verif Require Import M_Syntax M_Certificates M_Verifier M_Activations M_Domains M_Network M_Learner M_Cegis M_Labels M_Fossil
  M_Control M_Parser M_Lexer M_Variables M_DomainParser M_Cli M_Config S_Dynamics S_Parser S_Lexer S_Variables S_DomainParser
  S_Control S_Cli S_Config P_Parser P_Lexer P_Variables P_Cli L_Activations P_Translator P_Control.
Import ListNotations.
Local Open Scope list_scope.
Local Open Scope R_scope.

Lemma bind_some {A B} (o : option A) (g : A -> option B) r :
  option_bind o g = Some r -> exists x, o = Some x /\ g x = Some r.
Proof. destruct o; cbn; [eauto|discriminate]. Qed.
Lemma map_some {A B} (g : A -> B) o r : option_map g o = Some r -> exists x, o = Some x /\ r = g x.
Proof. destruct o; cbn; [|discriminate]. intros E. injection E as <-. eauto. Qed.

Lemma Forall2_len {A B} (P : A -> B -> Prop) l m : Forall2 P l m -> length l = length m.
Proof. induction 1; cbn; congruence. Qed.

(** ** Solver terms *)
Lemma sym_induct (P : sym -> Prop) :
  (forall q, P (SNum q)) -> (forall x, P (SVar x)) -> (forall a, P a -> P (SNeg a)) ->
  (forall o a b, P a -> P b -> P (SBin o a b)) -> (forall f args, Forall P args -> P (SFun f args)) ->
  forall a, P a.
Proof.
  intros H1 H2 H3 H4 H5. fix IH 1. intros [q|x|a|o a b|f args].
  - apply H1.
  - apply H2.
  - apply H3, IH.
  - apply H4; apply IH.
  - apply H5. induction args as [|a l IHl]; constructor; [apply IH|exact IHl].
Qed.

Lemma constant_value lib i env a : forall q, constant a = Some q -> sval lib i env a = Some (Q2R q).
Proof.
  induction a as [q0|x|a IH|o a b IHa IHb|f args IH] using sym_induct; intros q H; cbn [constant] in H; try discriminate.
  - injection H as <-. reflexivity.
  - apply map_some in H. destruct H as (x & E & ->). cbn [sval]. rewrite (IH _ E). cbn. now rewrite Q2R_opp.
  - destruct o; try discriminate; apply bind_some in H; destruct H as (x & Ex & H); apply bind_some in H;
      destruct H as (y & Ey & H); injection H as <-; cbn [sval]; rewrite (IHa _ Ex), (IHb _ Ey); cbn [option_bind op_eval].
    + now rewrite Q2R_plus.
    + now rewrite Q2R_minus.
    + now rewrite Q2R_mult.
Qed.
Lemma natural_value q k : natural q = Some k -> Q2R q = INR k.
Proof.
  unfold natural. intros H. rewrite <- (Qeq_eqR _ _ (Qred_correct q)).
  destruct (Qred q) as [z d]. cbn [Qden Qnum] in H. destruct d; try discriminate.
  destruct (0 <=? z)%Z eqn:E; [|discriminate]. injection H as <-. apply Z.leb_le in E.
  unfold Q2R. cbn [Qnum Qden]. rewrite INR_IZR_INZ, Z2Nat.id by auto. field.
Qed.
Lemma function_value i s f u e : usual i -> function_of f = Some u -> i_fun i f (eval s e) = eval s (EUn u e).
Proof.
  intros (_ & H1 & H2 & H3 & H4 & H5) H.
  destruct f; cbn in H; try discriminate; injection H as <-; cbn [eval unop_eval];
    rewrite ?H1, ?H2, ?H3, ?H4, ?H5; reflexivity.
Qed.
Lemma term_value lib i s env : usual i -> forall a e, term lib env a = Some e ->
  sval lib i (fun x => eval s (env x)) a = Some (eval s e).
Proof.
  intros U. induction a as [q|x|a IH|o a b IHa IHb|f args IH] using sym_induct; intros e H; cbn [term] in H.
  - injection H as <-. reflexivity.
  - injection H as <-. reflexivity.
  - apply map_some in H. destruct H as (x & E & ->). cbn [sval]. rewrite (IH _ E). reflexivity.
  - destruct o.
    1-4: apply bind_some in H; destruct H as (x & Ex & H); apply bind_some in H; destruct H as (y & Ey & H);
      injection H as <-; cbn [sval]; rewrite (IHa _ Ex), (IHb _ Ey); reflexivity.
    apply bind_some in H; destruct H as (x & Ex & H); apply bind_some in H; destruct H as (k & Ek & H).
    injection H as <-. apply bind_some in Ek. destruct Ek as (q & Eq & Ek).
    cbn [sval]. rewrite (IHa _ Ex), (constant_value lib i _ b q Eq). cbn [option_bind op_eval eval].
    rewrite (natural_value q k Ek). now rewrite (proj1 U).
  - destruct args as [|a [|b l]]; try discriminate. destruct lib; try discriminate.
    apply bind_some in H; destruct H as (u & Eu & H). apply map_some in H. destruct H as (x & E & ->).
    apply Forall_inv in IH. rewrite sval_args. cbn [map_opt]. rewrite (IH _ E). cbn [option_bind apply].
    now rewrite (function_value i s f u x U Eu).
Qed.
Lemma term_defined lib env env' a e : term lib env a = Some e -> exists e', term lib env' a = Some e'.
Proof.
  revert e. induction a as [q|x|a IH|o a b IHa IHb|f args IH] using sym_induct; intros e H; cbn [term] in H |- *; eauto.
  - apply map_some in H. destruct H as (x & E & ->). destruct (IH _ E) as (e' & ->). cbn. eauto.
  - destruct o.
    1-4: apply bind_some in H; destruct H as (x & Ex & H); apply bind_some in H; destruct H as (y & Ey & H);
      destruct (IHa _ Ex) as (ea & ->), (IHb _ Ey) as (eb & ->); cbn; eauto.
    apply bind_some in H; destruct H as (x & Ex & H); apply bind_some in H; destruct H as (k & Ek & H).
    destruct (IHa _ Ex) as (ea & ->). rewrite Ek. cbn. eauto.
  - destruct args as [|a [|b l]]; try discriminate. destruct lib; try discriminate.
    apply bind_some in H; destruct H as (u & Eu & H). apply map_some in H. destruct H as (x & E & ->).
    apply Forall_inv in IH. rewrite Eu. destruct (IH _ E) as (e' & ->). cbn. eauto.
Qed.

(** ** Substitution *)
Lemma map_opt_map {A B C D} (g : A -> option B) (h : C -> option D) (f : B -> D) (k : A -> C) l :
  (forall x, h (k x) = option_map f (g x)) -> map_opt h (map k l) = option_map (map f) (map_opt g l).
Proof.
  intros H. induction l as [|x l IH]; [reflexivity|]. cbn. rewrite H. destruct (g x); cbn; [|reflexivity].
  rewrite IH. destruct (map_opt g l); reflexivity.
Qed.
Definition on_snd {A B C} (f : B -> C) (p : A * B) : A * C := (fst p, f (snd p)).
Lemma combine_on_snd {A B C} (f : B -> C) (l : list A) : forall m, combine l (map f m) = map (on_snd f) (combine l m).
Proof. induction l as [|x l IH]; intros [|y m]; cbn; auto. now rewrite IH. Qed.
Lemma state_entries_map {A B} (f : A -> B) s v :
  state_entries s (map f v) = option_map (map (on_snd f)) (state_entries s v).
Proof.
  unfold state_entries. rewrite map_length, combine_on_snd. apply map_opt_map.
  intros [k x]. cbn. destruct (lookup _ _); reflexivity.
Qed.
Lemma input_entries_map {A B} (f : A -> B) s u :
  input_entries s (map f u) = option_map (map (on_snd f)) (input_entries s u).
Proof.
  unfold input_entries. rewrite <- (map_id (combine _ _)) at 1. apply map_opt_map.
  intros [k x]. cbn. destruct (lookup _ _); cbn; [|reflexivity].
  rewrite nth_error_map. destruct (nth_error u k); reflexivity.
Qed.
Lemma substitute_map {A B} (f : A -> B) en free x :
  substitute (map (on_snd f) en) (fun y => f (free y)) x = f (substitute en free x).
Proof.
  unfold substitute. induction en as [|[y r] en IH]; [reflexivity|]. cbn [map find on_snd fst snd].
  destruct (ident_eq_dec x y); [reflexivity|exact IH].
Qed.
Lemma sval_env lib i env env' a : (forall x, env x = env' x) -> sval lib i env a = sval lib i env' a.
Proof.
  intros E. induction a as [q|x|a IH|o a b IHa IHb|f args IH] using sym_induct; cbn [sval].
  - reflexivity.
  - now rewrite E.
  - now rewrite IH.
  - now rewrite IHa, IHb.
  - change (sval lib i env (SFun f args) = sval lib i env' (SFun f args)). rewrite !sval_args.
    f_equal. apply map_opt_ext. intros x Hx. rewrite Forall_forall in IH. now apply IH.
Qed.
Lemma terms_value lib i s env l : usual i -> forall es, map_opt (term lib env) l = Some es ->
  map_opt (sval lib i (fun x => eval s (env x))) l = Some (map (eval s) es).
Proof.
  intros U es H. apply map_opt_Forall2 in H. apply map_opt_Forall2.
  induction H as [|a e l es H _ IH]; cbn; constructor; auto. now apply (term_value lib i s env).
Qed.
(** The solver's right-hand side evaluates to the one of M_Variables. *)
Lemma smt_rhs_value lib i free es v u xdot s : usual i -> smt_rhs lib free es v u = Some xdot ->
  M_Variables.f_smt lib i (fun x => eval s (free x)) es (map (eval s) v) (option_map (map (eval s)) u) = Some (map (eval s) xdot).
Proof.
  intros U H. unfold smt_rhs in H. unfold M_Variables.f_smt.
  destruct (existsb is_number es); [discriminate|].
  destruct (symbolic_system lib es start) as [a st].
  destruct (p_us st) as [|p l], u as [u|]; try discriminate; cbn [option_map].
  - apply bind_some in H. destruct H as (en & En & H). rewrite state_entries_map, En. cbn [option_map option_bind].
    rewrite <- (terms_value lib i s _ a U xdot H). apply map_opt_ext. intros x _. apply sval_env. intros y.
    apply (substitute_map (eval s) en free y).
  - apply bind_some in H. destruct H as (en & En & H). apply bind_some in H. destruct H as (eu & Eu & H).
    rewrite state_entries_map, En, input_entries_map, Eu. cbn [option_map option_bind].
    rewrite <- (terms_value lib i s _ a U xdot H). apply map_opt_ext. intros x _. apply sval_env. intros y.
    rewrite <- map_app. apply (substitute_map (eval s) (en ++ eu) free y).
Qed.
Lemma smt_rhs_terms lib free es v u xdot : smt_rhs lib free es v u = Some xdot ->
  exists env, map_opt (term lib env) (fst (symbolic_system lib es start)) = Some xdot.
Proof.
  intros H. unfold smt_rhs in H. destruct (existsb is_number es); [discriminate|].
  destruct (symbolic_system lib es start) as [a st].
  destruct (p_us st) as [|p l], u as [u|]; try discriminate.
  - apply bind_some in H. destruct H as (en & En & H). eauto.
  - apply bind_some in H. destruct H as (en & En & H). apply bind_some in H. destruct H as (eu & Eu & H). eauto.
Qed.
Lemma smt_rhs_length lib free es v u xdot : smt_rhs lib free es v u = Some xdot -> length xdot = length es.
Proof.
  intros H. destruct (smt_rhs_terms _ _ _ _ _ _ H) as (env & E). apply map_opt_Forall2 in E.
  rewrite <- (symbolic_length lib es start). symmetry. clear - E. induction E; cbn; congruence.
Qed.

(** Every expression of the system can be evaluated. *)
Definition zeros : interp := {| i_var := fun _ _ => 0; i_pow := fun x y => x ^ Z.to_nat (up y - 1);
  i_fun := fun f => match f with FSin => sin | FCos => cos | FExp => exp | FLog => ln | FSqrt => sqrt | FTanh => tanh end |}.
Lemma zeros_usual : usual zeros.
Proof.
  split; [|repeat split]. intros x k. cbn. f_equal.
  rewrite <- (tech_up (INR k) (Z.of_nat k + 1)); [lia| |]; rewrite plus_IZR, <- INR_IZR_INZ; lra.
Qed.
Lemma system_defined lib free es v u xdot : smt_rhs lib free es v u = Some xdot ->
  exists ws, map_opt (aval lib zeros) es = Some ws.
Proof.
  intros H. destruct (smt_rhs_terms _ _ _ _ _ _ H) as (env & E).
  assert (exists es', map_opt (term lib (fun _ => ENum 0)) (fst (symbolic_system lib es start)) = Some es') as (es' & E').
  { apply map_opt_some. intros a Ha. apply map_opt_Forall2 in E.
    destruct (In_nth_error _ _ Ha) as (j & Ej).
    assert (K : forall l r, Forall2 (fun x y => term lib env x = Some y) l r -> In a l -> exists e, term lib env a = Some e).
    { induction 1; intros []; subst; eauto. }
    destruct (K _ _ E Ha) as (e & Ee). destruct (term_defined lib env (fun _ => ENum 0) a e Ee) as (e' & ->). discriminate. }
  pose proof (terms_value lib zeros (fun _ => 0) _ _ zeros_usual _ E') as T.
  destruct (system_spec lib zeros (fun x => eval (fun _ => 0) (ENum 0)) zeros eq_refl eq_refl es start) as [_ K].
  cbv beta in T. rewrite K in T; [eauto|]. intros k d x _. cbn. unfold Q2R. cbn. lra.
Qed.

(** ** Variables of a text *)
Definition token_var (k : token) : list (vkind * uint) := match k with TVar k d => [(k, d)] | _ => [] end.
Lemma variables_text t : variables t = flat_map token_var (S_Parser.text t).
Proof.
  induction t; cbn [variables S_Parser.text flat_map token_var app]; rewrite ?flat_map_app; cbn [flat_map token_var app];
    rewrite ?app_nil_r; congruence.
Qed.
Lemma tree_eq_variables t t' : tree_eq t t' -> variables t = variables t'.
Proof. induction 1; cbn; congruence. Qed.
Lemma parsed_variables lib i t s f1 f2 a v : lib <> LibSympy ->
  written t s -> std Sum t -> no_minus_power t ->
  parse_text f1 f2 s = Some a -> aval lib i a = Some v -> vars a = variables t.
Proof.
  intros L W Hs Hn E Ev. destruct (written_tokens t s W) as (t' & Et & T).
  unfold parse_text in E. rewrite Et in E. cbn [option_bind] in E.
  destruct (std_fos Sum t' (tree_eq_std _ _ Hs _ T) (tree_eq_minus _ _ T Hn)) as (t2 & F & Sm & _).
  destruct Sm as (Tx & _). rewrite <- Tx in E.
  destruct (accepted_both lib i t2 f1 f2 a v F (fun e => False_ind _ (L e)) E Ev) as [_ V].
  rewrite V, strip_variables, variables_text, Tx, <- variables_text. symmetry. now apply tree_eq_variables.
Qed.

Lemma tree_eq_total t t' : tree_eq t t' -> total t -> total t'.
Proof.
  induction 1 as [q q' E|k d|f a b E IH|a b E IH|a b E IH|o a b a' b' E1 IH1 E2 IH2]; cbn [total]; try tauto.
  destruct o; try tauto. intros [T (q & -> & Hq)]. split; [auto|]. inversion E2; subst. eexists. split; [reflexivity|]. congruence.
Qed.
Lemma parsed_total lib i t s f1 f2 a v : lib <> LibSympy ->
  written t s -> std Sum t -> no_minus_power t -> total t ->
  parse_text f1 f2 s = Some a -> aval lib i a = Some v -> exists t', a = strip t' /\ total t'.
Proof.
  intros L W Hs Hn Ht E Ev. destruct (written_tokens t s W) as (t' & Et & T).
  unfold parse_text in E. rewrite Et in E. cbn [option_bind] in E.
  destruct (std_fos Sum t' (tree_eq_std _ _ Hs _ T) (tree_eq_minus _ _ T Hn)) as (t2 & F & Sm & _).
  destruct Sm as (Tx & _ & _ & _ & _ & Tt). rewrite <- Tx in E.
  destruct (accepted_both lib i t2 f1 f2 a v F (fun e => False_ind _ (L e)) E Ev) as [_ V].
  exists t2. split; [exact V|]. apply Tt. now apply (tree_eq_total t).
Qed.

(** ** The system *)
Section System.
  Context (lib : library) (f1 f2 : nat) (trees : list tree) (lines : list string) (es : list ast).
  Hypothesis Hlib : lib <> LibSympy.
  Hypothesis Hw : Forall2 written trees lines.
  Hypothesis Hstd : Forall (fun t => std Sum t /\ no_minus_power t) trees.
  Hypothesis Hp : map_opt (parse_text f1 f2) lines = Some es.

  Lemma system_variables ws : map_opt (aval lib zeros) es = Some ws -> flat_map vars es = flat_map variables trees.
  Proof.
    intros E. apply map_opt_Forall2 in E. pose proof (proj1 (map_opt_Forall2 _ _ _) Hp) as P. clear Hp.
    revert es ws P E Hstd. induction Hw as [|t s ts ss W Hr IH]; intros es' ws P E St.
    - inversion P; subst. reflexivity.
    - inversion P as [|s0 a0 ss0 es0 Ea P0]; subst. inversion E as [|a1 w es1 ws1 Ew E1]; subst.
      apply Forall_cons_iff in St. destruct St as [[S1 S2] St].
      cbn. f_equal; [|now apply (IH Hr _ ws1)]. eapply parsed_variables; eauto.
  Qed.
  Lemma system_values i ws : map_opt (aval lib i) es = Some ws -> ws = map (value i) trees.
  Proof.
    intros E. apply map_opt_Forall2 in E. pose proof (proj1 (map_opt_Forall2 _ _ _) Hp) as P. clear Hp.
    revert es ws P E Hstd. induction Hw as [|t s ts ss W Hr IH]; intros es' ws P E St.
    - inversion P; subst. inversion E. reflexivity.
    - inversion P as [|s0 a0 ss0 es0 Ea P0]; subst. inversion E as [|a1 w es1 ws1 Ew E1]; subst.
      apply Forall_cons_iff in St. destruct St as [[S1 S2] St].
      cbn. f_equal; [|now apply (IH Hr es0)]. eapply (C37_characters lib); eauto. intros; contradiction.
  Qed.

  Definition inputs_ok (n : nat) (outputs : option nat) (k : controller) : Prop :=
    match outputs with
    | None => True
    | Some m => wf_controller n m k /\ (m <= 10)%nat /\
        (forall d, In (VU, d) (flat_map variables trees) -> exists j, (j < m)%nat /\ d = Nat.to_uint j) /\
        (lib = LibDReal -> NoDup (named VU (flat_map variables trees)))
    end.
  Lemma row_new_vars n s : map (eval s) (new_vars n) = map s (seq 0 n).
  Proof. unfold new_vars. rewrite map_map. reflexivity. Qed.

  Lemma xdot_written b n outputs k xdot i : usual i -> system_ok lib n es outputs = true ->
    xdot_of lib b n es outputs k = Some xdot -> inputs_ok n outputs k ->
    length xdot = n /\ forall s j, (j < n)%nat -> field xdot s j = system_field i n trees (feedback_law n outputs k) s j.
  Proof.
    intros U Ok E Hin. unfold system_ok in Ok. rewrite !andb_true_iff in Ok. destruct Ok as [[[O1 O2] O3] O4].
    apply negb_true_iff in O1. apply Nat.eqb_eq in O2, O3.
    assert (Hnc : ~ constant_side es) by (intros C; apply constant_spec in C; congruence).
    assert (exists u, smt_rhs lib (leftover n) es (new_vars n) u = Some xdot /\
              match outputs with None => u = None | Some m => exists u', u = Some u' /\ to_symbolic b k (new_vars n) = Some u' end)
      as (u & Es & Hu).
    { destruct outputs as [m|]; cbn [xdot_of] in E; [|eauto]. apply bind_some in E. destruct E as (u & E1 & E2). eauto 6. }
    split; [rewrite (smt_rhs_length _ _ _ _ _ _ Es); exact O2|]. intros s j Hj.
    destruct (system_defined _ _ _ _ _ _ Es) as (ws & Ew). pose proof (system_variables ws Ew) as Ev.
    pose proof (smt_rhs_value lib i _ es _ _ xdot s U Es) as V. rewrite row_new_vars in V.
    assert (Lr : length (map s (seq 0 n)) = n) by now rewrite map_length, seq_length.
    assert (HX : exactly es VX n).
    { rewrite <- Lr. apply exactly_count; [|lia]. intros q Hq.
      destruct (in_dec occ_dec (VX, name q) (flat_map vars es)) as [H|H]; [exact H|].
      rewrite (C38_symbols_missing lib i (fun x => eval s (leftover n x)) es (map s (seq 0 n)) (option_map (map (eval s)) u) q Hq H) in V.
      discriminate. }
    assert (Hl : exists law, law = feedback_law n outputs k s /\ exactly es VU (length law) /\ (length law <= 10)%nat /\
              option_map (map (eval s)) u <> Some [] /\ inputs (option_map (map (eval s)) u) = law /\ (lib = LibDReal -> inputs_once es)).
    { exists (feedback_law n outputs k s). split; [reflexivity|]. destruct outputs as [m|]; cbn [feedback_law inputs_ok] in *.
      - destruct Hin as (Wk & Hm & Hv & Hd). destruct Hu as (u' & -> & Eu). rewrite !andb_true_iff in O4.
        destruct O4 as [[O4 O5] O6]. apply Nat.eqb_eq in O4. apply Nat.ltb_lt in O5.
        destruct (to_symbolic_value b n m k u' Wk Eu) as [Lu Vu].
        assert (El : map (eval s) u' = map (feedback n (rounded k) s) (seq 0 m)).
        { apply (nth_ext _ _ 0 0); rewrite !map_length, ?seq_length; [exact Lu|]. intros q Hq. rewrite Lu in Hq.
          rewrite (map_nth_lt (eval s) u' q (ENum 0)) by lia. rewrite (map_nth_lt _ (seq 0 m) q 0%nat) by (rewrite seq_length; lia).
          rewrite seq_nth by lia. now apply Vu. }
        rewrite map_length, seq_length. cbn [option_map inputs]. rewrite El. repeat split; auto.
        + intros H. apply Hv. rewrite <- Ev. exact H.
        + intros (q & Hq & ->). apply in_symbols.
          assert (I : incl (map name (seq 0 m)) (symbols VU es)).
          { apply NoDup_length_incl; [apply symbols_nodup|rewrite map_length, seq_length; lia|].
            intros d Hd'. apply in_symbols in Hd'. unfold mentions in Hd'. rewrite Ev in Hd'. apply in_names. now apply Hv. }
          apply I, in_names. exists q. auto.
        + intros H. injection H as H. apply (f_equal (@length R)) in H. rewrite map_length, seq_length in H. cbn in H. lia.
        + intros L. unfold inputs_once. rewrite Ev. auto.
      - subst u. apply Nat.eqb_eq in O4. cbn [length]. repeat split; auto; try lia; try discriminate.
        + intros H. exfalso. apply in_symbols in H. destruct (symbols VU es); [destruct H|discriminate].
        + intros (q & Hq & _). lia.
        + intros _. unfold inputs_once. apply length_zero_iff_nil in O4.
          destruct (named VU (flat_map vars es)) as [|d l] eqn:En; [constructor|exfalso].
          assert (M : mentions es VU d) by (apply in_named; rewrite En; now left). apply in_symbols in M. rewrite O4 in M. exact M. }
    destruct Hl as (law & -> & HU & H10 & Hne & Ein & Hdr).
    rewrite (C38_symbols lib i) in V; rewrite ?Lr, ?Ein; auto. rewrite Ein in V.
    apply system_values in V. unfold field, system_field.
    rewrite <- (map_nth_lt (eval s) xdot j (ENum 0%Q) 0) by (rewrite (smt_rhs_length _ _ _ _ _ _ Es); lia).
    rewrite V. rewrite (map_nth_lt _ trees j (CNum 0)); [reflexivity|].
    assert (length trees = length es); [|lia].
    apply map_opt_Forall2, Forall2_len in Hp. apply Forall2_len in Hw. lia.
  Qed.
End System.
