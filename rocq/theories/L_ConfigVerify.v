(** Lemmas for C61: the candidate of a configuration file. *)
From Coquelicot Require Import Coquelicot.
From Coq Require Import String Ascii Reals QArith Qreals Bool Arith ZArith Decimal Lra Lia List.
From Verif Require Import M_Syntax M_Certificates M_Verifier M_Activations M_Domains M_Network M_Learner M_Cegis M_Labels M_Fossil
  M_Control M_Parser M_Lexer M_Variables M_DomainParser M_Cli M_Config M_Verify M_ConfigVerify S_Dynamics S_Parser S_Lexer S_Variables
  S_DomainParser S_Control S_Cli S_Config S_Verify S_ConfigVerify P_Parser P_Lexer P_Variables P_Cli L_Activations P_Translator P_Control L_Config.
Import ListNotations.
Local Open Scope list_scope.
Local Open Scope R_scope.

Lemma everywhere_total t : everywhere t -> total t.
Proof.
  induction t as [q|k d|f t IH|t IH|t IH|o a IHa b IHb]; cbn [everywhere total]; try tauto.
  - intros [Hf H]. destruct Hf as [-> |[-> |[-> | ->]]]; repeat split; auto; discriminate.
  - destruct o; tauto.
Qed.

(** ** The candidate is the only expression of a system. *)
Lemma candidate_rhs lib free e v C : candidate_expr lib free e v = Some C ->
  p_us (snd (M_Variables.symbolic lib e start)) = [] -> smt_rhs lib free [e] v None = Some [C].
Proof.
  unfold candidate_expr, smt_rhs. cbn [existsb symbolic_system]. destruct (is_number e); [discriminate|].
  destruct (M_Variables.symbolic lib e start) as [a s]. cbn [orb snd]. intros H ->.
  apply bind_some in H. destruct H as (en & -> & H). cbn [option_bind map_opt]. rewrite H. reflexivity.
Qed.

Lemma no_inputs_left lib l s : (forall d, ~ In (VU, d) l) -> p_us s = [] -> p_us (snd (assign lib l s)) = [].
Proof.
  revert s. induction l as [|[k d] l IH]; intros s H E; cbn [assign]; [exact E|].
  destruct k; [|elim (H d); now left]. assert (H' : forall d, ~ In (VU, d) l) by (intros d' K; apply (H d'); now right).
  assert (E' : p_us (snd (make_var lib s VX d)) = []) by (unfold make_var; destruct (lookup d (p_xs s)); exact E).
  destruct (make_var lib s VX d) as [x s1]. specialize (IH s1 H' E'). destruct (assign lib l s1) as [r s2]. exact IH.
Qed.

(** Sub-expressions of the solver's expression. *)
Lemma term_elementary lib env n :
  forall t s e, total t ->
    (forall k d x, In (k, d, x) (fst (assign lib (M_Variables.vars (strip t)) s)) -> elementary n (env x)) ->
    term lib env (fst (M_Variables.symbolic lib (strip t) s)) = Some e -> elementary n e.
Proof.
  induction t as [q|k d|f t IH|t IH|t IH|o a IHa b IHb]; intros s e Ht Hv E; cbn [strip] in *.
  - injection E as <-. split; [exact I|intros; exact I].
  - cbn [M_Variables.symbolic M_Variables.vars assign] in *. destruct (make_var lib s k d) as [x s1]. cbn [fst term] in *.
    injection E as <-. apply (Hv k d). now left.
  - destruct Ht as (F1 & F2 & Ht). cbn [M_Variables.symbolic M_Variables.vars flat_map] in *. rewrite app_nil_r in Hv.
    specialize (IH s). destruct (M_Variables.symbolic lib (strip t) s) as [y s1]. cbn [fst term] in *.
    destruct lib; try discriminate. apply bind_some in E. destruct E as (u & Eu & E). apply map_some in E. destruct E as (x & Ex & ->).
    destruct (IH x Ht Hv Ex) as [U D]. split; [exact U|]. intros st. destruct f; try congruence; cbn in Eu; injection Eu as <-; exact (D st).
  - now apply (IH s).
  - cbn [M_Variables.symbolic M_Variables.vars total] in *. specialize (IH s). destruct (M_Variables.symbolic lib (strip t) s) as [y s1].
    cbn [fst term] in *. apply map_some in E. destruct E as (x & Ex & ->). destruct (IH x Ht Hv Ex) as [U D]. split; [exact U|exact D].
  - cbn [M_Variables.symbolic M_Variables.vars] in *. rewrite assign_app in Hv. specialize (IHa s).
    destruct (symbolic_spec lib zeros (fun _ => 0) zeros eq_refl eq_refl (strip a) s) as [Es _].
    destruct (M_Variables.symbolic lib (strip a) s) as [y s1] eqn:Ea. cbn [snd] in Es.
    destruct (assign lib (M_Variables.vars (strip a)) s) as [p1 s1'] eqn:Ep1. cbn [snd] in Es. subst s1'.
    specialize (IHb s1).
    assert (Hb0 : forall q, b = CNum q -> M_Variables.symbolic lib (strip b) s1 = (SNum q, s1)) by (intros q ->; reflexivity).
    destruct (M_Variables.symbolic lib (strip b) s1) as [z s2] eqn:Eb.
    destruct (assign lib (M_Variables.vars (strip b)) s1) as [p2 s2'] eqn:Ep2. cbn [fst] in *.
    assert (Ha' : forall k d x, In (k, d, x) p1 -> elementary n (env x)) by (intros; eapply Hv, in_or_app; eauto).
    assert (Hb' : forall k d x, In (k, d, x) p2 -> elementary n (env x)) by (intros; eapply Hv, in_or_app; eauto).
    cbn [term] in E. destruct o; cbn [total] in Ht.
    1-3: apply bind_some in E; destruct E as (x & Ex & E); apply bind_some in E; destruct E as (w & Ew & E); injection E as <-;
      destruct Ht as [Ta Tb]; destruct (IHa x Ta Ha' Ex) as [Ua Da], (IHb w Tb Hb' Ew) as [Ub Db]; split; [now split|intros st; split; auto].
    + destruct Ht as [Ta (q & Eq & Hq)]. specialize (Hb0 q Eq). injection Hb0 as -> ->. cbn [term option_bind] in E.
      apply bind_some in E. destruct E as (x & Ex & E). injection E as <-. destruct (IHa x Ta Ha' Ex) as [Ua Da].
      split; [split; [exact Ua|exact I]|]. intros st. split; [apply Da|]. split; [exact I|exact Hq].
    + apply bind_some in E. destruct E as (x & Ex & E). apply bind_some in E. destruct E as (k & _ & E). injection E as <-.
      destruct (IHa x Ht Ha' Ex) as [Ua Da]. split; [exact Ua|exact Da].
Qed.

Lemma substitute_member {A} (en : list (ident * A)) free x :
  In (x, substitute en free x) en \/ forall q, ~ In (x, q) en.
Proof.
  unfold substitute. destruct (find _ en) as [p|] eqn:E.
  - left. apply find_some in E. destruct E as [H K]. destruct (ident_eq_dec x (fst p)) as [-> |]; [|discriminate]. now destruct p.
  - right. intros q H. apply (find_none _ _ E) in H. cbn in H. destruct (ident_eq_dec x x); congruence.
Qed.

(** The candidate in the solver is the one in the file. *)
Section Candidate.
  Context (lib : library) (f1 f2 : nat) (n : nat) (t : tree) (line : string) (e : ast) (C : expr) (i : interp).
  Hypothesis Hlib : lib <> LibSympy.
  Hypothesis Hi : usual i.
  Hypothesis Hw : written t line.
  Hypothesis Hstd : std Sum t.
  Hypothesis Hm : no_minus_power t.
  Hypothesis Hp : parse_text f1 f2 line = Some e.
  Hypothesis Hv : of_state n t.
  Hypothesis HC : candidate_expr lib (leftover n) e (new_vars n) = Some C.

  Lemma candidate_parts : exists en, state_entries (snd (M_Variables.symbolic lib e start)) (new_vars n) = Some en /\
    term lib (substitute en (leftover n)) (fst (M_Variables.symbolic lib e start)) = Some C /\ is_number e = false.
  Proof.
    unfold candidate_expr in HC. destruct (is_number e); [discriminate|].
    destruct (M_Variables.symbolic lib e start) as [a s]. apply bind_some in HC. destruct HC as (en & E1 & E2). eauto.
  Qed.
  Lemma candidate_defined : exists w, aval lib zeros e = Some w.
  Proof.
    destruct candidate_parts as (en & _ & E & _).
    destruct (term_defined lib _ (fun _ => ENum 0) _ _ E) as (C0 & E0).
    pose proof (term_value lib zeros (fun _ => 0) _ zeros_usual _ _ E0) as T.
    destruct (symbolic_spec lib zeros (fun x => eval (fun _ => 0) (ENum 0)) zeros eq_refl eq_refl e start) as [_ K].
    cbv beta in T. rewrite K in T; [eauto|]. intros k d x _. cbn. unfold Q2R. cbn. lra.
  Qed.
  Lemma candidate_variables : M_Variables.vars e = variables t.
  Proof. destruct candidate_defined as (w & E). eapply (parsed_variables lib zeros); eauto. Qed.
  Lemma no_inputs_in : p_us (snd (M_Variables.symbolic lib e start)) = [].
  Proof.
    destruct (symbolic_spec lib zeros (fun _ => 0) zeros eq_refl eq_refl e start) as [-> _].
    apply no_inputs_left; [|reflexivity]. intros d H. rewrite candidate_variables in H. destruct (Hv _ _ H) as [K _]. discriminate.
  Qed.
  Lemma candidate_value s : eval s C = written_value i n t s.
  Proof.
    pose proof (candidate_rhs lib _ e _ C HC no_inputs_in) as E.
    pose proof (smt_rhs_value lib i _ [e] _ None [C] s Hi E) as V. rewrite row_new_vars in V. cbn [option_map] in V.
    assert (Lr : length (map s (seq 0 n)) = n) by now rewrite map_length, seq_length.
    assert (Ev : flat_map M_Variables.vars [e] = variables t) by (cbn; rewrite app_nil_r; apply candidate_variables).
    rewrite (C38_symbols lib i) in V.
    - cbn [map map_opt inputs] in V. destruct (aval lib _ e) as [w|] eqn:Ew; [|discriminate]. cbn in V. injection V as V.
      rewrite <- V. unfold written_value. eapply (C37_characters lib); eauto. intros; contradiction.
    - rewrite Lr. intros d. unfold M_Variables.named, S_Variables.mentions. rewrite Ev. split.
      + intros H. destruct (Hv _ _ H) as [_ K]. exact K.
      + intros (j & Hj & ->). destruct (in_dec occ_dec (VX, name j) (variables t)) as [H|H]; [exact H|].
        rewrite <- Ev in H.
        rewrite (C38_symbols_missing lib i (fun x => eval s (leftover n x)) [e] (map s (seq 0 n)) None j) in V; [discriminate|lia|exact H].
    - intros d. cbn [inputs length]. split; [|intros (j & Hj & _); lia].
      unfold S_Variables.mentions. rewrite Ev. intros H. destruct (Hv _ _ H) as [K _]. discriminate.
    - cbn. lia.
    - discriminate.
    - intros _. unfold inputs_once. rewrite Ev. destruct (M_Variables.named VU (variables t)) as [|d l] eqn:En; [constructor|exfalso].
      assert (H : In d (M_Variables.named VU (variables t))) by (rewrite En; now left). apply in_named in H.
      destruct (Hv _ _ H) as [K _]. discriminate.
    - intros K. apply constant_spec in K. destruct candidate_parts as (_ & _ & _ & N). cbn in K. rewrite N in K. discriminate.
  Qed.
  Lemma candidate_elementary : everywhere t -> elementary n C.
  Proof.
    intros He. destruct candidate_defined as (w & Ew). destruct candidate_parts as (en & E1 & E2 & _).
    destruct (parsed_total lib zeros t line f1 f2 e w Hlib Hw Hstd Hm (everywhere_total t He) Hp Ew) as (t' & Ee & Ht).
    pose proof candidate_variables as CV. rewrite Ee in CV, E1, E2.
    destruct (symbolic_spec lib zeros (fun _ => 0) zeros eq_refl eq_refl (strip t') start) as [Es _]. rewrite Es in E1.
    refine (term_elementary lib _ n t' start C Ht _ E2). intros k d x Hx.
    assert (Hd : lib = LibDReal -> NoDup (M_Variables.named VU (M_Variables.vars (strip t')))).
    { intros _. rewrite CV. destruct (M_Variables.named VU (variables t)) as [|d' l] eqn:En; [constructor|exfalso].
      assert (H : In d' (M_Variables.named VU (variables t))) by (rewrite En; now left). apply in_named in H.
      destruct (Hv _ _ H) as [K _]. discriminate. }
    pose proof (assign_pairs lib _ start (inv_start lib) Hd k d x Hx) as G.
    assert (Hin : In (k, d) (variables t)).
    { rewrite <- CV. destruct (in_dec occ_dec (k, d) (M_Variables.vars (strip t'))) as [H|H]; [exact H|].
      assert (get (snd (assign lib (M_Variables.vars (strip t')) start)) k d = None) by (apply assign_get; split; [destruct k; reflexivity|exact H]).
      congruence. }
    destruct (Hv _ _ Hin) as [-> (j & Hj & ->)].
    destruct (substitute_member en (leftover n) x) as [H|H].
    - apply (state_in _ _ _ E1) in H. destruct H as (q & H & _). unfold new_vars in H. rewrite nth_error_map in H.
      destruct (nth_error (seq 0 n) q) as [m|] eqn:Em; [|discriminate]. cbn in H. injection H as <-.
      apply nth_error_In, in_seq in Em. split; [cbn; lia|intros; exact I].
    - exfalso. apply (H (EVar j)). apply (state_in _ _ _ E1). exists j. split; [|exact G].
      unfold new_vars. rewrite nth_error_map. erewrite nth_error_nth' with (d := 0%nat) by (rewrite seq_length; lia).
      rewrite seq_nth by lia. reflexivity.
  Qed.
End Candidate.
