(** Property C39 (and C40 for the command line): labels of sets. *)
From Coq Require Import Reals QArith List Bool Arith Lia.
From Verif Require Import M_Syntax M_Certificates M_Verifier M_Activations M_Cegis M_Labels S_Cegis S_Labels
  L_Verifier P_Cegis M_Network M_Learner M_Fossil S_Verifier P_Verifier M_Domains M_Learning S_Learning P_Learning.
Import ListNotations.

Lemma mem_In l s : mem l s = true <-> In l s.
Proof.
  unfold mem. rewrite existsb_exists. split.
  - intros (x & Hx & E). apply label_eqb_spec in E. now subst.
  - intros H. exists l. split; auto. apply label_eqb_refl.
Qed.
Lemma set_eqb_iff a b : set_eqb a b = true <-> same_labels a b.
Proof.
  unfold set_eqb, same_labels. rewrite andb_true_iff, !forallb_forall. split.
  - intros [A B] l. split; intros H; apply mem_In; auto.
  - intros H. split; intros l Hl; apply mem_In, H; auto.
Qed.
Lemma set_eqb_pred r (Q : label -> Prop) s : (forall l, In l r <-> Q l) ->
    (set_eqb r s = true <-> forall l, In l s <-> Q l).
Proof. intros H. rewrite set_eqb_iff. unfold same_labels. split; intros K l; specialize (K l); specialize (H l); tauto. Qed.

Lemma time_ok_iff t c : time_ok t c = true <-> supported t c.
Proof. unfold supported. destruct t, c; cbn; intuition congruence. Qed.

(** * C39 *)
(** In discrete time only LYAPUNOV and BARRIERALT are accepted. *)
Theorem C39_time_domain :
  forall (D T : Type) t c (domains : list (label * D)) (data : list (label * T)),
    accepted t c domains data = true -> supported t c.
Proof.
  intros D T t c domains data H. apply time_ok_iff. unfold accepted in H. destruct (initialise_domains c domains); [|discriminate].
  apply andb_true_iff in H. tauto.
Qed.
(** A configuration passes the label check iff its labels are exactly the required ones
    (STABLESAFE also allows the extra sample set XR). *)
Theorem C39_check_is_exact :
  forall c domains data, c <> CUSTOM ->
    (assert_state c domains data = true <->
     (forall l, In l domains <-> needs_domain c l) /\
     ((forall l, In l data <-> needs_data c l) \/
      (c = STABLESAFE /\ forall l, In l data <-> needs_data c l \/ l = XR))).
Proof.
  intros c domains data Hc. unfold assert_state, set_assertion. rewrite andb_true_iff.
  destruct c; try contradiction; cbn [state_domains state_data].
  all: try (match goal with |- (set_eqb ?r _ = true /\ set_eqb ?r' _ = true) <-> (_ /\ (_ \/ (?c = _ /\ _))) =>
    rewrite (set_eqb_pred r (needs_domain c)) by (intros l; simpl; intuition congruence);
    rewrite (set_eqb_pred r' (needs_data c)) by (intros l; simpl; intuition congruence);
    intuition discriminate end).
  rewrite (set_eqb_pred _ (needs_domain STABLESAFE)) by (intros l; simpl; intuition congruence).
  destruct (mem XR data) eqn:E.
  - apply mem_In in E.
    rewrite (set_eqb_pred _ (fun l => needs_data STABLESAFE l \/ l = XR)) by (intros l; simpl; intuition congruence).
    split; [tauto|]. intros [A [B|[_ B]]]; [|tauto]. exfalso. apply B in E. simpl in E. intuition discriminate.
  - rewrite (set_eqb_pred _ (needs_data STABLESAFE)) by (intros l; simpl; intuition congruence).
    split; [tauto|]. intros [A [B|[_ B]]]; [tauto|]. exfalso.
    assert (K : In XR data) by (apply B; now right). apply mem_In in K. congruence.
Qed.

(** *** Reading the data dictionary *)
Lemma read_dict {D} (domains : list (label * D)) : forall ns data,
  NoDup (keys ns) ->
  (forall l, is_border l = true -> In l (keys ns) -> In l (keys domains)) ->
  exists data', read_data_dict ns domains data = Some data' /\
    forall l, dlookup l data' =
      match dlookup l ns, dlookup l domains with
      | Some n, Some d => Some (if is_border l then Border d n else Sample d n)
      | _, _ => dlookup l data
      end.
Proof.
  induction ns as [|[l n] ns IH]; intros data Hn Hb.
  - exists data. split; [reflexivity|]. intros l. reflexivity.
  - inversion Hn as [|? ? Hl Hn']; subst.
    assert (Hb' : forall m, is_border m = true -> In m (keys ns) -> In m (keys domains)).
    { intros m A B. apply Hb; auto. now right. }
    assert (Hnone : dlookup l ns = None).
    { destruct (dlookup l ns) eqn:E; auto. elim Hl. apply dlookup_keys. congruence. }
    assert (S : forall m, dlookup m ((l, n) :: ns) = if label_eqb l m then Some n else dlookup m ns).
    { intros m. unfold dlookup. simpl. now destruct (label_eqb l m). }
    assert (G : forall d s data', dlookup l domains = Some d ->
      s = (if is_border l then Border d n else Sample d n) ->
      read_data_dict ns domains (dset l s data) = Some data' ->
      (forall m, dlookup m data' = match dlookup m ns, dlookup m domains with
         | Some n, Some d => Some (if is_border m then Border d n else Sample d n) | _, _ => dlookup m (dset l s data) end) ->
      forall m, dlookup m data' = match dlookup m ((l, n) :: ns), dlookup m domains with
         | Some n, Some d => Some (if is_border m then Border d n else Sample d n) | _, _ => dlookup m data end).
    { intros d s data' Hd -> _ H m. rewrite H, S, dlookup_dset. destruct (label_eqb l m) eqn:E.
      - apply label_eqb_spec in E. subst m. now rewrite Hnone, Hd.
      - reflexivity. }
    cbn [read_data_dict]. destruct (is_border l) eqn:B.
    + destruct (dlookup l domains) as [d|] eqn:Hd.
      2:{ exfalso. apply (dlookup_keys l domains); auto. apply Hb; auto. now left. }
      cbn [option_bind]. destruct (IH (dset l (Border d n) data) Hn' Hb') as (data' & E & H).
      exists data'. split; auto. eapply G; eauto.
    + destruct (dlookup l domains) as [d|] eqn:Hd.
      * destruct (IH (dset l (Sample d n) data) Hn' Hb') as (data' & E & H).
        exists data'. split; auto. eapply G; eauto.
      * destruct (IH data Hn' Hb') as (data' & E & H). exists data'. split; auto.
        intros m. rewrite H, S. destruct (label_eqb l m) eqn:Em; auto.
        apply label_eqb_spec in Em. subst m. now rewrite Hnone, Hd.
Qed.

Lemma dlookup_dremove {A} l m (d : list (label * A)) :
  dlookup m (dremove l d) = if label_eqb l m then None else dlookup m d.
Proof.
  unfold dlookup, dremove. induction d as [|[k v] d IH]; simpl; [now destruct (label_eqb l m)|].
  destruct (label_eqb k l) eqn:E; simpl.
  - rewrite IH. apply label_eqb_spec in E. subst k. destruct (label_eqb l m) eqn:F; auto.
  - destruct (label_eqb k m) eqn:F; auto.
    destruct (label_eqb l m) eqn:G; auto. apply label_eqb_spec in F, G. subst. rewrite label_eqb_refl in E. discriminate.
Qed.
Lemma dlookup_symbols {D} l (d : list (label * D)) :
  dlookup l (map (fun e => (fst e, if is_border (fst e) then SBoundary (snd e) else SDomain (snd e))) d)
  = option_map (fun x => if is_border l then SBoundary x else SDomain x) (dlookup l d).
Proof.
  unfold dlookup. induction d as [|[k v] d IH]; simpl; auto.
  destruct (label_eqb k l) eqn:E; auto. apply label_eqb_spec in E. now subst.
Qed.

(** [accepted] in terms of look-ups. *)
Lemma accepted_lookup {D T} t c (domains : list (label * D)) (data : list (label * T)) sym :
  c <> CUSTOM -> time_ok t c = true ->
  initialise_domains c domains = Some sym ->
  (forall l, dlookup l sym <> None <-> needs_domain c l) ->
  (forall l, dlookup l data <> None <-> needs_data c l) ->
  accepted t c domains data = true.
Proof.
  intros Hc Ht Hs A B. unfold accepted. rewrite Hs, Ht. apply C39_check_is_exact; auto. split.
  - intros l. rewrite <- A. apply (dlookup_keys l sym).
  - left. intros l. rewrite <- B. apply (dlookup_keys l data).
Qed.

(** A dictionary described label by label. *)
Lemma lookups {D} (Q : label -> Prop) (d : list (label * D)) :
  (forall l, In l (keys d) -> Q l) -> forall l, ~ Q l -> dlookup l d = None.
Proof. intros H l Hl. destruct (dlookup l d) eqn:E; auto. elim Hl. apply H, dlookup_keys. congruence. Qed.
Lemma lookup_some {D} l (d : list (label * D)) : In l (keys d) -> exists v, dlookup l d = Some v.
Proof. intros H. apply dlookup_keys in H. destruct (dlookup l d); eauto. congruence. Qed.

Ltac lk :=
  repeat first
    [ progress (rewrite ?dlookup_dset, ?dlookup_dremove, ?dlookup_symbols; cbn [label_eqb option_map is_border])
    | match goal with
      | E : dlookup ?l ?d = _ |- context [dlookup ?l ?d] => rewrite E
      | F : forall l, dlookup l ?d = _ |- context [dlookup ?l ?d] => rewrite (F l)
      end ].
(** The command line: whoever names the advertised sets (borders excepted) and gives a
    number of samples for each of the advertised data sets gets a configuration which
    passes the checks, whose samples and symbolic sets are the ones meant. *)
Theorem C39_command_line :
  forall (D : Type) t c doms dats (domains : list (label * D)) ns,
    advertised c = Some (doms, dats) -> supported t c ->
    (forall l, In l (keys domains) -> In l doms) ->
    (forall l, In l doms -> is_border l = false -> In l (keys domains)) ->
    NoDup (keys ns) -> (forall l, In l (keys ns) <-> In l dats) ->
    exists data domains' sym,
      parse_sets c domains (PerSet ns) = Some (data, domains') /\
      initialise_domains c domains' = Some sym /\
      accepted t c domains' data = true /\
      (forall l, needs_data c l -> exists n s, dlookup l ns = Some n /\
         dlookup l data = Some s /\ source_is domains n (means c l) s) /\
      (forall l, needs_domain c l -> exists s,
         dlookup l sym = Some s /\ symbolic_is domains (means c l) s).
Proof.
  intros D t c doms dats domains ns Ha Ht H1 H2 Hn H3. apply time_ok_iff in Ht.
  assert (Hc : c <> CUSTOM) by (intros ->; discriminate).
  assert (N : forall l, ~ In l doms -> dlookup l domains = None) by (apply lookups; exact H1).
  assert (Nn : forall l, ~ In l dats -> dlookup l ns = None) by (apply lookups; intros l; apply H3).
  assert (Y : forall l, In l doms -> is_border l = false -> exists v, dlookup l domains = Some v)
    by (intros; apply lookup_some; auto).
  assert (Yn : forall l, In l dats -> exists v, dlookup l ns = Some v)
    by (intros; apply lookup_some, H3; auto).
  clear H1 H2 H3.
  destruct c; try contradiction; injection Ha as <- <-;
    repeat match goal with
    | Y : forall l, In l ?s -> is_border l = false -> _ |- _ =>
        let go l := let v := fresh "d" in let E := fresh "E" in
          try (destruct (Y l ltac:(simpl; tauto) eq_refl) as (v & E)) in
        go XD; go XI; go XU; go XS; go XG; go XF; clear Y
    | Yn : forall l, In l ?s -> exists v, dlookup l ns = _ |- _ =>
        let go l := let v := fresh "n" in let E := fresh "E" in
          try (destruct (Yn l ltac:(simpl; tauto)) as (v & E)) in
        go XD; go XI; go XU; go XS; go XG; go XF; go XNF; go XG_BORDER; clear Yn
    | N : forall l, ~ In l _ -> dlookup l ?d = None |- _ =>
        let go l := let E := fresh "E" in
          try (pose proof (N l ltac:(simpl; intuition discriminate)) as E) in
        go XD; go XI; go XU; go XS; go XG; go XF; go XNF; go XG_BORDER; go XS_BORDER; go XR; clear N
    end;
    unfold parse_sets, add_borders; cbn [required_borders add_borders_for];
    repeat (rewrite ?dlookup_dset; cbn [label_eqb]; first [rewrite E | rewrite E0 | rewrite E1 | rewrite E2 | rewrite E3 ]; cbn [option_bind]);
    cbn [option_bind read_data];
    match goal with |- context [read_data_dict ns ?x []] => set (domains1 := x) end;
    (assert (Hb : forall l, is_border l = true -> In l (keys ns) -> In l (keys domains1));
     [intros l; destruct l; try discriminate; intros _; rewrite !dlookup_keys; unfold domains1; rewrite ?dlookup_dset; cbn [label_eqb]; congruence|]);
    destruct (read_dict domains1 ns [] Hn Hb) as (data & Ed & F);
    rewrite Ed; cbn [option_bind adjust]; unfold adjust_roa, adjust_rwa, adjust_rar, amount;
    subst domains1; lk; cbn [option_bind];
    (do 3 eexists; split; [reflexivity|]); cbn [initialise_domains]; lk; cbn [option_bind];
    (split; [reflexivity|]);
    (split; [eapply accepted_lookup; [discriminate|assumption|cbn [initialise_domains]; lk; reflexivity| |];
             intros l; destruct l; lk; simpl; intuition (congruence||discriminate)|]);
    split; intros l Hl; destruct l; try (exfalso; simpl in Hl; intuition discriminate);
    lk; cbn [means source_is symbolic_is option_map is_border]; lk; eauto 10.
Qed.

Example C39_command_line_example :
  let domains := [(XD, 1); (XI, 2); (XS, 3); (XG, 4)]%nat in
  let ns := [(XD, 100); (XI, 10); (XU, 50); (XS, 20); (XG, 20); (XG_BORDER, 30)]%nat in
  parse_sets RSWS domains (PerSet ns) =
  Some ([(XD, Sample 1 100); (XI, Sample 2 10); (XS, Sample 3 20); (XG, Sample 4 20);
         (XG_BORDER, Border 4 30); (XU, Difference 1 3 50)],
        [(XD, 1); (XI, 2); (XS, 3); (XG, 4); (XS_BORDER, 3); (XG_BORDER, 4)])%nat.
Proof. reflexivity. Qed.

(** Calling the API directly with the advertised labels works for every certificate but
    ROA, whose advertised XD the check refuses. *)
Theorem C39_advertised_api :
  forall (D T : Type) c t doms dats (domains : list (label * D)) (data : list (label * T)),
    advertised c = Some (doms, dats) -> supported t c ->
    (forall l, In l (keys domains) <-> In l doms) -> (forall l, In l (keys data) <-> In l dats) ->
    accepted t c domains data = true <-> c <> ROA.
Proof.
  intros D T c t doms dats domains data Ha Ht Hd Hs. apply time_ok_iff in Ht.
  assert (Hc : c <> CUSTOM) by (intros ->; discriminate).
  assert (K : forall l, dlookup l domains <> None <-> In l doms) by (intros l; rewrite <- dlookup_keys; apply Hd).
  assert (K' : forall l, dlookup l data <> None <-> In l dats) by (intros l; rewrite <- dlookup_keys; apply Hs).
  destruct (cert_eqb c ROA) eqn:E.
  - assert (c = ROA) by (destruct c; try discriminate; reflexivity). subst c. split; [|congruence].
    intros H. exfalso. unfold accepted, initialise_domains in H. rewrite Ht in H. simpl andb in H.
    apply C39_check_is_exact in H; [|discriminate]. destruct H as [H _].
    assert (A : In XD (map fst (map (fun e : label * D => (fst e, if is_border (fst e) then SBoundary (snd e) else SDomain (snd e))) domains))).
    { rewrite map_map. apply Hd. injection Ha as <- <-. now left. }
    apply H in A. discriminate.
  - split; [intros _ ->; discriminate|]. intros _.
    assert (X : forall l, dlookup l (map (fun e : label * D => (fst e, if is_border (fst e) then SBoundary (snd e) else SDomain (snd e))) domains) <> None <-> In l doms).
    { intros l. rewrite dlookup_symbols. rewrite <- K. destruct (dlookup l domains); simpl; intuition discriminate. }
    destruct (cert_eqb c RAR) eqn:E'.
    + assert (c = RAR) by (destruct c; try discriminate; reflexivity). subst c. injection Ha as <- <-.
      destruct (dlookup XF domains) as [d|] eqn:Ef; [|exfalso; apply (K XF); [simpl; tauto|exact Ef]].
      eapply accepted_lookup; [discriminate|exact Ht|cbn [initialise_domains]; rewrite Ef; reflexivity| |].
      * intros l. rewrite dlookup_dset. destruct (label_eqb XNF l) eqn:En.
        -- apply label_eqb_spec in En. subst l. simpl. intuition discriminate.
        -- rewrite X. destruct l; try discriminate; simpl; intuition discriminate.
      * intros l. rewrite K'. simpl. intuition congruence.
    + eapply accepted_lookup; [exact Hc|exact Ht| | |].
      * destruct c; try discriminate; reflexivity.
      * intros l. rewrite X. destruct c; try discriminate; injection Ha as <- <-; simpl; intuition congruence.
      * intros l. rewrite K'. destruct c; try discriminate; injection Ha as <- <-; simpl; intuition congruence.
Qed.

(** One number for N_DATA: the configuration is accepted exactly for the certificates
    without border sets. *)
Lemma dlookup_scalar {D} l n (d : list (label * D)) :
  dlookup l (map (fun e => (fst e, Sample (snd e) n)) d) = option_map (fun x => Sample x n) (dlookup l d).
Proof.
  unfold dlookup. induction d as [|[k v] d IH]; simpl; auto. now destruct (label_eqb k l).
Qed.
Theorem C39_scalar_n_data :
  forall (D : Type) c t doms dats (domains : list (label * D)) n,
    advertised c = Some (doms, dats) -> supported t c ->
    (forall l, In l (keys domains) -> In l doms) ->
    (forall l, In l doms -> is_border l = false -> In l (keys domains)) ->
    exists data domains', parse_sets c domains (Scalar n) = Some (data, domains') /\
      (accepted t c domains' data = true <-> ~ exists l, In l doms /\ is_border l = true).
Proof.
  intros D c t doms dats domains n Ha Ht H1 H2. apply time_ok_iff in Ht.
  assert (Hc : c <> CUSTOM) by (intros ->; discriminate).
  assert (N : forall l, ~ In l doms -> dlookup l domains = None) by (apply lookups; exact H1).
  assert (Y : forall l, In l doms -> is_border l = false -> exists v, dlookup l domains = Some v)
    by (intros; apply lookup_some; auto).
  clear H1 H2.
  assert (R : forall (domains : list (label * D)) (data : list (label * M_Labels.source D)) l, ~ needs_data c l -> c <> STABLESAFE ->
    dlookup l data <> None -> accepted t c domains data = false).
  { intros ds data l Hl Hs Hd. destruct (accepted t c ds data) eqn:E; auto. exfalso. unfold accepted in E.
    destruct (initialise_domains c ds); [|discriminate]. apply andb_true_iff in E. destruct E as [_ E].
    apply C39_check_is_exact in E; auto. destruct E as [_ [E|[E _]]]; [|contradiction].
    apply Hl, E. apply (dlookup_keys l data). exact Hd. }
  destruct c; try contradiction; injection Ha as <- <-;
    repeat match goal with
    | Y : forall l, In l ?s -> is_border l = false -> _ |- _ =>
        let go l := let v := fresh "d" in let E := fresh "E" in
          try (destruct (Y l ltac:(simpl; tauto) eq_refl) as (v & E)) in
        go XD; go XI; go XU; go XS; go XG; go XF; clear Y
    | N : forall l, ~ In l _ -> dlookup l ?d = None |- _ =>
        let go l := let E := fresh "E" in
          try (pose proof (N l ltac:(simpl; intuition discriminate)) as E) in
        go XD; go XI; go XU; go XS; go XG; go XF; go XNF; go XG_BORDER; go XS_BORDER; go XR; clear N
    end;
    unfold parse_sets, add_borders; cbn [required_borders add_borders_for]; lk; cbn [option_bind];
    lk; cbn [option_bind read_data adjust]; unfold adjust_roa, adjust_rwa, adjust_rar, amount; lk; cbn [option_bind];
    lk; cbn [option_bind]; (do 2 eexists; split; [reflexivity|]).
  all: try (split; [intros _ (l & Hl & Hb); destruct l; simpl in *; intuition discriminate|intros _;
     eapply accepted_lookup; [discriminate|assumption|reflexivity| |];
     intros l; destruct l; lk; rewrite ?dlookup_scalar; lk; simpl; intuition (congruence||discriminate)]).
  all: split; [intros Hx; exfalso; rewrite (R _ _ XS_BORDER) in Hx;
    [discriminate|simpl; intuition discriminate|discriminate|rewrite ?dlookup_dset; cbn [label_eqb]; rewrite dlookup_scalar; lk; discriminate]
   |intros H; exfalso; apply H; exists XS_BORDER; simpl; tauto].
Qed.

(** Each certificate only reads the sets it requires: its conditions do not depend on
    anything else in the dictionary. *)
Theorem C39_conditions_use_required_sets :
  forall c llo xs d d' beta V W Vdot Wdot, (forall l, needs_domain c l -> d l = d' l) ->
    match c with
    | LYAPUNOV => lyapunov_constraints llo xs d V Vdot = lyapunov_constraints llo xs d' V Vdot
    | ROA => roa_constraints llo xs d beta V Vdot = roa_constraints llo xs d' beta V Vdot
    | BARRIER => barrier_constraints d V Vdot = barrier_constraints d' V Vdot
    | BARRIERALT => barrier_alt_constraints d V Vdot = barrier_alt_constraints d' V Vdot
    | RWS | RWA => rws_constraints d V Vdot = rws_constraints d' V Vdot
    | RSWS | RSWA => rws_constraints d V Vdot = rws_constraints d' V Vdot /\
        stay_border_condition d V beta = stay_border_condition d' V beta /\
        stay_lie_condition d V Vdot beta = stay_lie_condition d' V Vdot beta
    | STABLESAFE => safe_roa_constraints llo xs d beta V W Vdot Wdot = safe_roa_constraints llo xs d' beta V W Vdot Wdot
    | RAR => rar_constraints d V W Vdot Wdot = rar_constraints d' V W Vdot Wdot
    | CUSTOM => True
    end.
Proof.
  intros c llo xs d d' beta V W Vdot Wdot H.
  destruct c; try exact I; try (split; [|split]);
  unfold safe_roa_constraints, rar_constraints, lyapunov_constraints, roa_constraints, barrier_constraints,
    barrier_alt_constraints, rws_constraints, stay_border_condition, stay_lie_condition, goal_final_sets;
  repeat match goal with |- context [d ?l] => rewrite (H l) by (simpl; tauto) end; reflexivity.
Qed.

(** Every label under which a condition (hence a counterexample) is reported has samples. *)
Theorem C39_condition_labels_have_data :
  forall llo xs d beta V W Vdot Wdot c gs l,
    match c with
    | LYAPUNOV => gs = lyapunov_constraints llo xs d V Vdot
    | ROA => gs = roa_constraints llo xs d beta V Vdot
    | BARRIER => gs = barrier_constraints d V Vdot
    | BARRIERALT => gs = barrier_alt_constraints d V Vdot
    | RWS | RWA | RSWS | RSWA => gs = rws_constraints d V Vdot
    | STABLESAFE => gs = safe_roa_constraints llo xs d beta V W Vdot Wdot
    | RAR => gs = rar_constraints d V W Vdot Wdot
    | CUSTOM => False
    end -> In l (keys (concat gs)) -> needs_data c l.
Proof.
  intros llo xs d beta V W Vdot Wdot c gs l H Hl.
  destruct c; try contradiction; subst gs; simpl in Hl; simpl; intuition congruence.
Qed.

Lemma dset_In {A} l (v : A) d m : In m (keys (dset l v d)) <-> m = l \/ In m (keys d).
Proof.
  rewrite !dlookup_keys, dlookup_dset. destruct (label_eqb l m) eqn:E.
  - apply label_eqb_spec in E. subst. intuition congruence.
  - split; [tauto|]. intros [->|H]; auto. rewrite label_eqb_refl in E. discriminate.
Qed.
Lemma dset_NoDup {A} l (v : A) d : NoDup (keys d) -> NoDup (keys (dset l v d)).
Proof.
  induction d as [|[m w] d IH]; simpl; intros H.
  - constructor; [easy|constructor].
  - inversion H as [|? ? Hm Hd]; subst. destruct (label_eqb m l) eqn:E; simpl.
    + now constructor.
    + constructor; [|auto]. intros K. apply dset_In in K. destruct K as [->|K]; [|contradiction].
      rewrite label_eqb_refl in E. discriminate.
Qed.
Lemma run_group_labels be : forall g k res k' res', run_group be k g res = (k', res') ->
  NoDup (keys res) -> NoDup (keys res') /\ forall l, In l (keys res') -> In l (keys res) \/ In l (keys g).
Proof.
  induction g as [|[l f] g IH]; simpl; intros k res k' res' E Hn.
  - inversion E; subst. auto.
  - destruct (IH _ _ _ _ E (dset_NoDup _ _ _ Hn)) as [A B]. split; auto.
    intros m Hm. apply B in Hm. destruct Hm as [Hm|Hm]; [|now right; right].
    apply dset_In in Hm. destruct Hm as [->|Hm]; [right; now left|now left].
Qed.
Lemma run_groups_labels be : forall gs k res k' res', run_groups be k gs res = (k', res') ->
  NoDup (keys res) -> NoDup (keys res') /\ forall l, In l (keys res') -> In l (keys res) \/ In l (keys (concat gs)).
Proof.
  induction gs as [|g gs IH]; intros k res k' res' E Hn; cbn [run_groups] in E.
  - inversion E; subst. auto.
  - destruct (run_group be k g res) as [k1 r1] eqn:E1.
    destruct (run_group_labels be _ _ _ _ _ E1 Hn) as [A B].
    assert (C : forall l, In l (keys r1) -> In l (keys res) \/ In l (keys (concat (g :: gs)))).
    { intros l Hl. apply B in Hl. unfold keys in *. simpl. rewrite map_app, in_app_iff. tauto. }
    destruct (any_sat be r1).
    + inversion E; subst. auto.
    + destruct (IH _ _ _ _ E A) as [F G]. split; auto. intros l Hl. apply G in Hl. destruct Hl as [Hl|Hl]; auto.
      right. unfold keys in *. simpl. rewrite map_app, in_app_iff. tauto.
Qed.

(** For the assembled tool: a data dictionary which passes the label check has an entry
    for every counterexample the verifier can report (so [S[key]] in the CEGIS loop never
    raises); this discharges the hypothesis [cex_labels_ok] of C31-C33. *)
Theorem C39_counterexamples_have_data :
  forall K (pb : problem K) (env : environment K) (domains : list label) (S : dict),
    pb_type pb <> CUSTOM ->
    assert_state (pb_type pb) domains (keys S) = true ->
    cex_labels_ok (fossil pb env) S.
Proof.
  intros K pb env domains S Hc Ha it p c found cex E. cbn [c_verify fossil] in E. unfold fossil_verify in E.
  destruct (fossil_constraints pb (l_beta p) (fst c) (snd c)) as [gs|] eqn:Eg; [|discriminate]. cbn [option_bind] in E.
  set (v := verify _ _ _) in E. assert (Ev : v_cex v = cex) by congruence. subst v.
  destruct (run_groups (e_solver env it) 0 gs []) as [k' res] eqn:Er.
  destruct (run_groups_labels _ _ _ _ _ _ Er (NoDup_nil _)) as [A B].
  assert (Ek : keys cex = keys res).
  { rewrite <- Ev. unfold verify. rewrite Er. cbn [snd]. destruct (forallb _ res); cbn [v_cex]; unfold keys; now rewrite map_map. }
  rewrite Ek. split; auto. intros l Hl.
  assert (Hk : In l (keys cex)).
  { apply dlookup_keys. intros F. apply Hl. unfold rows. now rewrite F. }
  rewrite Ek in Hk. apply B in Hk. destruct Hk as [[]|Hk].
  assert (N : needs_data (pb_type pb) l).
  { eapply (C39_condition_labels_have_data (pb_llo pb) (new_vars (pb_n pb)) (pb_sets pb) (l_beta p) (fst c) (fst c) (snd c) (snd c)); [|exact Hk].
    unfold fossil_constraints in Eg. destruct (pb_type pb); try discriminate Eg; injection Eg as <-; reflexivity. }
  apply C39_check_is_exact in Ha; auto. destruct Ha as [_ [Ha|[_ Ha]]]; apply Ha; auto.
Qed.

(** *** C40 on the command line *)
Lemma dset_fresh_keys {A} l (v : A) d : ~ In l (keys d) -> keys (dset l v d) = keys d ++ [l].
Proof.
  unfold keys. induction d as [|[m w] d IH]; simpl; intros H; auto.
  destruct (label_eqb m l) eqn:E; [apply label_eqb_spec in E; tauto|]. simpl. f_equal. apply IH. tauto.
Qed.
Definition has_domain {D} (domains : list (label * D)) (l : label) : bool := has_key l domains.
Lemma read_dict_keys {D} (domains : list (label * D)) : forall ns data data',
  NoDup (keys ns) -> (forall l, In l (keys ns) -> ~ In l (keys data)) ->
  read_data_dict ns domains data = Some data' ->
  keys data' = keys data ++ filter (has_domain domains) (keys ns).
Proof.
  induction ns as [|[l n] ns IH]; intros data data' Hn Hd E; cbn [read_data_dict] in E.
  - inversion E; subst. simpl. now rewrite app_nil_r.
  - inversion Hn as [|? ? Hl Hn']; subst. simpl keys. cbn [filter]. unfold has_domain at 1, has_key.
    assert (G : forall s, read_data_dict ns domains (dset l s data) = Some data' ->
      keys data' = keys data ++ l :: filter (has_domain domains) (keys ns)).
    { intros s Es. rewrite (IH _ _ Hn' ltac:(intros m Hm K; apply dset_In in K; destruct K as [->|K];
        [exact (Hl Hm)|apply (Hd m); [now right|exact K]]) Es).
      rewrite dset_fresh_keys by (apply Hd; now left). now rewrite <- app_assoc. }
    destruct (is_border l).
    + destruct (dlookup l domains) as [d|]; [|discriminate]. cbn [option_bind] in E. eauto.
    + destruct (dlookup l domains) as [d|]; [eauto|].
      rewrite (IH _ _ Hn' ltac:(intros m Hm; apply Hd; now right) E). reflexivity.
Qed.

(** A RAR configuration made by the command line stores its samples in the order of N_DATA
    with the unsafe samples after the goal and final ones... *)
Theorem C40_rar_command_line_order :
  forall (D : Type) (domains : list (label * D)) ns data domains',
    (forall l, In l (keys domains) -> user_domain RAR l) ->
    NoDup (keys ns) -> parse_sets RAR domains (PerSet ns) = Some (data, domains') ->
    exists first, keys data = first ++ [XU; XNF].
Proof.
  intros D domains ns data domains' H1 Hn E. unfold parse_sets, add_borders in E. cbn [required_borders add_borders_for] in E.
  destruct (dlookup XS domains) as [xs|] eqn:Es; [|discriminate]. cbn [option_bind read_data] in E.
  set (d1 := dset XS_BORDER xs domains) in *.
  destruct (read_data_dict ns d1 []) as [data0|] eqn:E0; [|discriminate]. cbn [option_bind adjust] in E.
  pose proof (read_dict_keys d1 ns [] data0 Hn ltac:(simpl; tauto) E0) as K. simpl in K.
  assert (A : forall l, (l = XU \/ l = XNF) -> ~ In l (keys data0)).
  { intros l Hl. rewrite K, filter_In. intros [_ F]. unfold has_domain, has_key in F.
    destruct (dlookup l d1) eqn:El; [|discriminate]. assert (In l (keys d1)) by (apply dlookup_keys; congruence).
    subst d1. apply dset_In in H. destruct H as [H|H]; [destruct Hl; subst; discriminate|].
    apply H1 in H. simpl in H. destruct Hl; subst; intuition discriminate. }
  unfold adjust_rar in E.
  destruct (dlookup XD d1); [|discriminate]. destruct (dlookup XS d1); [|discriminate].
  destruct (dlookup XF d1); [|discriminate]. cbn [option_bind] in E.
  destruct (amount (PerSet ns) XU); [|discriminate]. cbn [option_bind] in E.
  destruct (amount (PerSet ns) XNF); [|discriminate]. cbn [option_bind] in E.
  injection E as <- <-. exists (keys data0).
  rewrite dset_fresh_keys, dset_fresh_keys, <- app_assoc; [reflexivity|apply A; auto|].
  rewrite dset_In. intros [K'|K']; [discriminate|]. revert K'. apply A. auto.
Qed.

(** ...so that without a controller the goal and final samples are paired with the images
    of other samples in the loss (here with equally many samples in the three sets). *)
Theorem C40_rar_command_line_images :
  forall v1 v2 l2 g1 f sd si su sg sf snf,
    let S := [(XD, sd); (XI, si); (XG, sg); (XF, sf); (XU, su); (XNF, snf)] in
    let Sdot := map (fun e => (fst e, map f (snd e))) S in
    length su = length sg -> length sf = length sg ->
    exists rws, rar_batch v1 v2 l2 g1 None S Sdot =
      Some (rws, (map v2 sg, map v2 snf, map v2 (sg ++ sf ++ snf),
                  map2 l2 (sg ++ sf ++ snf) (map f (sf ++ su ++ snf)))).
Proof.
  intros v1 v2 l2 g1 f sd si su sg sf snf S Sdot Hu Hf.
  unfold rar_batch, guard, rows_of. rewrite (images_len f None) by (right; now split).
  unfold dlookup, S. cbn [find fst snd label_eqb option_map option_bind]. fold S.
  assert (E : cat [XD; XI; XU; XG; XF; XNF] S = Some (sd ++ si ++ su ++ sg ++ sf ++ snf ++ [])).
  { repeat (apply cat_one; [reflexivity|]). reflexivity. }
  rewrite E, app_nil_r. cbn [option_bind]. set (s := sd ++ si ++ su ++ sg ++ sf ++ snf).
  assert (I : cat_values Sdot = map f sd ++ map f (si ++ sg ++ sf ++ su ++ snf)).
  { unfold Sdot. rewrite cat_values_map. rewrite <- map_app. f_equal. unfold S, cat_values. simpl. now rewrite app_nil_r. }
  unfold images. cbn [option_bind]. unfold get_all at 1. rewrite I.
  assert (L : length s = length (map f sd ++ map f (si ++ sg ++ sf ++ su ++ snf))).
  { unfold s. rewrite !app_length, !map_length, !app_length. lia. }
  rewrite L, Nat.eqb_refl. cbn [option_bind].
  assert (L1 : length (map f sd) = length sd) by (rewrite map_length; lia).
  assert (L2 : length (map f (si ++ sg ++ sf ++ su ++ snf)) = length (si ++ su ++ sg ++ sf ++ snf))
    by (rewrite map_length, !app_length; lia).
  destruct (rar_slices v1 v2 l2 g1 f sd si su sg sf snf (map f sd) L1 s eq_refl
              (map f (si ++ sg ++ sf ++ su ++ snf)) L2) as (A & B & C & D & F & G & H & K).
  rewrite G, H, K. eexists. do 3 f_equal.
  set (n2 := (length sd + length si + length su)%nat).
  set (n5 := (n2 + length sg + length sf + length snf)%nat).
  replace (map f sd ++ map f (si ++ sg ++ sf ++ su ++ snf)) with (map f (sd ++ si ++ sg) ++ map f (sf ++ su ++ snf))
    by (rewrite !map_app, <- !app_assoc; reflexivity).
  replace s with ((sd ++ si ++ su) ++ (sg ++ sf ++ snf)) by (unfold s; rewrite <- !app_assoc; reflexivity).
  assert (M : forall (a b : list point) c d, length a = length c -> map2 l2 (a ++ b) (c ++ d) = map2 l2 a c ++ map2 l2 b d).
  { induction a; destruct c; simpl; intros d Hl; try discriminate; auto. specialize (IHa b c d ltac:(lia)). unfold map2 in *. simpl. now rewrite IHa. }
  rewrite M by (rewrite map_length, !app_length; lia).
  assert (M2 : forall a b, length a = length b -> length (map2 l2 a b) = length a).
  { intros a b Hl. unfold map2. rewrite map_length, combine_length. lia. }
  apply slice_end.
  - rewrite M2 by (rewrite map_length, !app_length; lia). rewrite !app_length. unfold n2. lia.
  - rewrite M2 by (rewrite map_length, !app_length; lia). rewrite M2 by (rewrite map_length, !app_length; lia). rewrite !app_length. unfold n5, n2. lia.
Qed.
