(** C65: the summary of a results file counts every recorded run once, on the line of its benchmark. *)
From Coq Require Import List String Ascii Bool Arith ZArith QArith Lia Lqa.
From Verif Require Import M_Activations M_Cegis M_Recorder M_Analyser S_Analyser P_Recorder.
Import ListNotations.
Local Close Scope Q_scope.
Local Open Scope string_scope.

Lemma prefix_underscore a s : prefix "_" (String a s) = Ascii.eqb a "_".
Proof.
  cbn [prefix]. destruct (ascii_dec "_" a) as [<-|N].
  - rewrite Ascii.eqb_refl. now destruct s.
  - destruct (Ascii.eqb_spec a "_"); [subst; contradiction|reflexivity].
Qed.
Lemma escape_latexed s : escape s = latexed s.
Proof.
  unfold escape. induction s as [|a s IH]; [reflexivity|]. cbn [replace latexed String.length Nat.sub].
  rewrite IH, prefix_underscore. now destruct (Ascii.eqb a "_").
Qed.
Lemma minimum_ok l : forall x, In (minimum x l) (x :: l) /\ forall y, In y (x :: l) -> (minimum x l <= y)%Q.
Proof.
  unfold minimum. induction l as [|b l IH]; cbn [fold_left]; intros x.
  - split; [now left|]. intros y [<-|[]]. apply Qle_refl.
  - destruct (Qle_bool x b) eqn:E.
    + destruct (IH x) as [H1 H2]. apply Qle_bool_iff in E. split.
      * destruct H1 as [H1|H1]; [now left|]. right. now right.
      * intros y [<-|[<-|Hy]]; [apply H2; now left|eapply Qle_trans; [apply H2; now left|exact E]|apply H2; now right].
    + destruct (IH b) as [H1 H2]. assert (b <= x)%Q.
      { destruct (Qlt_le_dec b x) as [L|L]; [now apply Qlt_le_weak|]. apply Qle_bool_iff in L. congruence. }
      split.
      * right. exact H1.
      * intros y [<-|Hy]; [eapply Qle_trans; [apply H2; now left|assumption]|now apply H2].
Qed.
Lemma maximum_ok l : forall x, In (maximum x l) (x :: l) /\ forall y, In y (x :: l) -> (y <= maximum x l)%Q.
Proof.
  unfold maximum. induction l as [|b l IH]; cbn [fold_left]; intros x.
  - split; [now left|]. intros y [<-|[]]. apply Qle_refl.
  - destruct (Qle_bool b x) eqn:E.
    + destruct (IH x) as [H1 H2]. apply Qle_bool_iff in E. split.
      * destruct H1 as [H1|H1]; [now left|]. right. now right.
      * intros y [<-|[<-|Hy]]; [apply H2; now left|eapply Qle_trans; [exact E|apply H2; now left]|apply H2; now right].
    + destruct (IH b) as [H1 H2]. assert (x <= b)%Q.
      { destruct (Qlt_le_dec x b) as [L|L]; [now apply Qlt_le_weak|]. apply Qle_bool_iff in L. congruence. }
      split.
      * right. exact H1.
      * intros y [<-|Hy]; [eapply Qle_trans; [eassumption|apply H2; now left]|now apply H2].
Qed.
Lemma sum_ok l : forall a, (fold_left Qplus l a == a + fold_right Qplus 0 l)%Q.
Proof.
  induction l as [|b l IH]; cbn [fold_left fold_right]; intros a; [ring|]. rewrite IH. ring.
Qed.
Lemma stats_ok l s : stats l = Some s -> summary l s.
Proof.
  destruct l as [|x l]; [discriminate|]. cbn [stats]. intros [= <-]. cbn [summary].
  split; [apply minimum_ok|]. split; [apply maximum_ok|].
  unfold sum. cbn [fold_left]. rewrite sum_ok. cbn [fold_right].
  change (Z.pos (Pos.of_succ_nat (List.length l))) with (Z.of_nat (List.length (x :: l))).
  set (n := inject_Z (Z.of_nat (List.length (x :: l)))).
  assert (N : ~ (n == 0)%Q).
  { unfold n, Qeq. cbn [inject_Z Qnum Qden List.length]. lia. }
  rewrite Qmult_comm, Qmult_div_r by exact N. ring.
Qed.
Lemma ratio_ok (l : list bool) : l <> [] -> percentage (List.length (filter (fun b => b) l)) (List.length l) (ratio l).
Proof.
  intros H. unfold percentage, ratio. set (s := (100 * Z.of_nat _)%Z). assert (0 < Z.of_nat (List.length l))%Z by (destruct l; [contradiction|cbn; lia]).
  pose proof (Z.div_mod s (Z.of_nat (List.length l))). pose proof (Z.mod_pos_bound s (Z.of_nat (List.length l))). nia.
Qed.

Lemma key_eq_true a b : key_eq a b = true <-> a = b.
Proof. unfold key_eq. destruct (list_eq_dec string_dec a b); split; congruence. Qed.
Lemma first_keys_spec l : forall seen,
  NoDup (first_keys seen l) /\ (forall k, In k (first_keys seen l) <-> In k (map k_key l) /\ ~ In k seen).
Proof.
  induction l as [|a l IH]; cbn [first_keys map]; intros seen; [split; [constructor|cbn; tauto]|].
  destruct (existsb (key_eq (k_key a)) seen) eqn:E.
  - destruct (IH seen) as [H1 H2]. split; [exact H1|]. intros k. rewrite H2. cbn [In].
    apply existsb_exists in E. destruct E as (y & Hy & E). apply key_eq_true in E. subst y. intuition congruence.
  - destruct (IH (k_key a :: seen)) as [H1 H2]. assert (N : ~ In (k_key a) seen).
    { intros Hy. assert (T : existsb (key_eq (k_key a)) seen = true) by (apply existsb_exists; exists (k_key a); split; [exact Hy|now apply key_eq_true]).
      congruence. }
    split.
    + constructor; [|exact H1]. rewrite H2. cbn. tauto.
    + intros k. cbn [In]. rewrite H2. cbn [In].
      destruct (list_eq_dec string_dec (k_key a) k) as [<-|Hk]; [|clear -Hk; intuition congruence].
      split; [intros _; split; [now left|exact N]|intros _; now left].
Qed.

(** A row written by the recorder. *)
Lemma keep_recorded show c r T row : record_row c r T = Some row ->
  rc_latex c <> Some "" -> rc_domains c <> Some "" -> rc_model_name c <> Some "" ->
  keep show (combine HEADER row) =
    Some (Some {| k_key := benchmark show c; k_result := rr_res r; k_total := T; k_learner := hd 0%Q (rr_times r) |}).
Proof.
  unfold record_row. intros H Hla Hdm Hmn. unfold benchmark, has_alt, activation_list, or_empty.
  destruct (rc_model_name c) as [mn|]; [|discriminate]. cbn [option_bind] in H.
  set (nu := VNat match rc_ctrlayer c with Some l => List.last l 0%nat | None => 0%nat end).
  assert (N : exists cl ca, (match rc_ctrlayer c with
               | Some l => match rev l with
                           | [] => None
                           | m :: _ => Some (VNat m, VNats (removelast l), VActs (rc_ctrlactivation c))
                           end
               | None => Some (VNat 0, VNone, VNone)
               end) = Some (nu, cl, ca)).
  { destruct (rc_ctrlayer c) as [l|]; [|eexists _, _; reflexivity]. destruct (rev l) as [|m t] eqn:Er; [discriminate|].
    unfold nu. rewrite (last_rev l m t 0%nat Er). eexists _, _. reflexivity. }
  destruct N as (cl & ca & E). rewrite E in H. clear E. cbn [option_bind] in H.
  destruct (rc_latex c) as [la|]; [|destruct (rc_certificate c); cbn in H; try discriminate; destruct (get_activations (rc_activation_alt c)); discriminate].
  destruct (rc_domains c) as [dm|]; [|destruct (rc_certificate c); cbn in H; try discriminate; destruct (get_activations (rc_activation_alt c)); discriminate].
  assert (Nla : String.eqb la "" = false) by (destruct (String.eqb_spec la ""); congruence).
  assert (Ndm : String.eqb dm "" = false) by (destruct (String.eqb_spec dm ""); congruence).
  assert (Nmn : String.eqb mn "" = false) by (destruct (String.eqb_spec mn ""); congruence).
  assert (K : forall prop aln ala act al aa, property_name (rc_certificate c) = Some prop -> prop <> "" ->
    replace "RSWS" "RSWA" 0 (replace "RWS" "RWA" 0 prop) = prop_name (rc_certificate c) ->
    get_activations (rc_activation c) = Some act ->
    text show al = aln -> text show aa = ala ->
    option_bind (Some la) (fun latex => option_bind (Some dm) (fun domains => option_bind (property_name (rc_certificate c)) (fun prop =>
      option_bind (get_activations (rc_activation c)) (fun acts =>
      match rr_times r with
      | t0 :: t1 :: t2 :: t3 :: _ =>
        Some [VStr prop; VNat (rc_n_vars c); nu; VBool (rr_res r); VStr mn; VNat (rr_seed r);
            VStr latex; VStr domains; VNat (rr_N_data r); VNats (rc_neurons c); VStr acts; cl; ca;
            al; aa; VStr (rc_factors c); VBool (rc_llo c); VBool (rc_symmetric_belt c);
            VStr (rc_time_domain c); VStr (rc_verifier c); VNat (rr_iters r); VNum T;
            VNum t0; VNum t1; VNum t2; VNum t3]
      | _ => None
      end)))) = Some row ->
    keep show (combine HEADER row) = Some (Some {| k_key := [la; dm; latexed mn; show (VNat (rc_n_vars c)); show nu; prop_name (rc_certificate c);
       show (VNats (rc_neurons c)) ++ ", " ++ or_empty aln; latexed act ++ ", " ++ match ala with Some s => latexed s | None => "" end];
       k_result := rr_res r; k_total := T; k_learner := hd 0%Q (rr_times r) |})).
  { intros prop aln ala act al aa Hp Np Hr Ha <- <- G. rewrite Hp, Ha in G. cbn [option_bind] in G.
    destruct (rr_times r) as [|t0 [|t1 [|t2 [|t3 ts]]]]; try discriminate. injection G as <-.
    assert (Eact : String.eqb act "" = false).
    { unfold get_activations in Ha. destruct (all_some _); [|discriminate]. injection Ha as <-. reflexivity. }
    assert (Eprop : String.eqb prop "" = false) by (destruct (String.eqb_spec prop ""); congruence).
    unfold keep, index, joined, cell. unfold HEADER. cbn [combine column String.eqb Ascii.eqb Bool.eqb option_map option_bind the_bool the_number].
    assert (TS : forall t, String.eqb t "" = false -> text show (VStr t) = Some t) by (intros t Et; cbn; now rewrite Et).
    rewrite !TS by assumption. change (text show (VNat (rc_n_vars c))) with (Some (show (VNat (rc_n_vars c)))).
    change (text show nu) with (Some (show nu)). change (text show (VNats (rc_neurons c))) with (Some (show (VNats (rc_neurons c)))).
    cbn [option_map option_bind]. unfold full. cbn [all_some option_bind option_map hd]. rewrite !escape_latexed, Hr.
    do 3 f_equal. unfold or_empty. destruct (text show al), (text show aa); rewrite ?escape_latexed; reflexivity. }
  destruct (rc_certificate c) eqn:Ec; cbn [option_bind] in H;
    try (destruct (get_activations (rc_activation_alt c)) as [aa|] eqn:Eaa; [|discriminate H]; cbn [option_bind] in H);
    cbn [property_name option_bind] in H; try discriminate H;
    (destruct (get_activations (rc_activation c)) as [ac|] eqn:Eac; [|discriminate H]).
  all: try (rewrite (K _ None None ac VNone VNone eq_refl ltac:(discriminate) eq_refl eq_refl eq_refl eq_refl H); reflexivity).
  all: assert (Taa : text show (VStr aa) = Some aa)
      by (unfold get_activations in Eaa; destruct (all_some _); [|discriminate Eaa]; injection Eaa as <-; reflexivity).
  all: rewrite (K _ (Some (show (VNats (rc_neurons_alt c)))) (Some aa) ac (VNats (rc_neurons_alt c)) (VStr aa) eq_refl
      ltac:(discriminate) eq_refl eq_refl eq_refl Taa H); reflexivity.
Qed.

(** The rows the table is made of. *)
Definition kept_of (show : value -> string) (x : run) : kept :=
  {| k_key := benchmark show (config_of x); k_result := succeeded x; k_total := total_time x; k_learner := learner_time x |}.
Lemma keep_all_recorded show l : Forall (fun x => labelled (config_of x)) l ->
  keep_all show (map (combine HEADER) (rows_of l)) = Some (map (kept_of show) (filter was_recorded l)).
Proof.
  induction 1 as [|[[c r] T] l (H1 & H2 & H3) _ IH]; [reflexivity|]. cbn [rows_of filter was_recorded]. unfold record.
  destruct (record_row c r T) as [row|] eqn:E; cbn [snd]; [|exact IH].
  cbn [map keep_all]. rewrite (keep_recorded show c r T row E H1 H2 H3). cbn [option_bind]. now rewrite IH.
Qed.
Lemma names_header l : names (map VStr l) = Some l.
Proof. induction l as [|a l IH]; [reflexivity|]. cbn. now rewrite IH. Qed.
Lemma table_recorded show l : Forall (fun x => labelled (config_of x)) l ->
  table_main show (record_all l None) =
    match filter was_recorded l with
    | [] => None
    | rs => let ks := map (kept_of show) rs in all_some (map (summarise ks) (first_keys [] ks))
    end.
Proof.
  intros H. unfold table_main. destruct (C44_file l) as [-> _].
  pose proof (keep_all_recorded show l H) as K.
  assert (Z : rows_of l = [] <-> filter was_recorded l = []).
  { clear. induction l as [|[[c r] T] l IH]; [tauto|]. cbn [rows_of filter was_recorded]. unfold record.
    destruct (record_row c r T); cbn [snd]; [split; discriminate|exact IH]. }
  destruct (rows_of l) as [|row rows].
  - rewrite (proj1 Z eq_refl). reflexivity.
  - destruct (filter was_recorded l) as [|x rs]; [now pose proof (proj2 Z eq_refl)|].
    unfold read_csv. rewrite names_header. cbn [option_bind]. rewrite K. reflexivity.
Qed.
Lemma all_some_all {A B} (f : A -> option B) l : (forall a, In a l -> f a <> None) -> exists l', all_some (map f l) = Some l'.
Proof.
  induction l as [|a l IH]; intros H; [eexists; reflexivity|]. destruct IH as (l' & E); [intros b Hb; apply H; now right|].
  cbn [map all_some]. destruct (f a) as [b|] eqn:Ea; [|exfalso; apply (H a); [now left|exact Ea]]. rewrite E. eexists. reflexivity.
Qed.
Lemma all_some_map {A B} (f : A -> option B) l : forall l', all_some (map f l) = Some l' -> Forall2 (fun a b => f a = Some b) l l'.
Proof.
  induction l as [|a l IH]; cbn; intros l' H; [injection H as <-; constructor|].
  destruct (f a) as [b|] eqn:Ea; [|discriminate]. destruct (all_some (map f l)) as [m|]; [|discriminate].
  injection H as <-. constructor; auto.
Qed.
Lemma summarise_key ks key ln : summarise ks key = Some ln -> ln_key ln = key.
Proof. unfold summarise. destruct (stats _); [|discriminate]. destruct (stats _); [|discriminate]. now intros [= <-]. Qed.
Lemma lines_keys ks keys t : Forall2 (fun a b => summarise ks a = Some b) keys t -> map ln_key t = keys.
Proof. induction 1 as [|a b keys t H _ IH]; [reflexivity|]. cbn. now rewrite IH, (summarise_key _ _ _ H). Qed.
Lemma filter_kept show key rs :
  filter (fun k => key_eq (k_key k) key) (map (kept_of show) rs) =
  map (kept_of show) (filter (fun x => key_eq (benchmark show (config_of x)) key) rs).
Proof.
  induction rs as [|x rs IH]; [reflexivity|]. cbn [map filter]. change (k_key (kept_of show x)) with (benchmark show (config_of x)).
  destruct (key_eq _ key); cbn [map]; now rewrite IH.
Qed.
Lemma filter_both {A} (f g : A -> bool) l : filter g (filter f l) = filter (fun x => f x && g x)%bool l.
Proof. induction l as [|a l IH]; [reflexivity|]. cbn. destruct (f a); cbn; [destruct (g a)|]; now rewrite IH. Qed.
Lemma filter_map_bool {A} (f : A -> bool) l : List.length (filter (fun b => b) (map f l)) = List.length (filter f l).
Proof. induction l as [|a l IH]; [reflexivity|]. cbn. destruct (f a); cbn; now rewrite IH. Qed.

Lemma filter_length_le' {A} (f : A -> bool) l : (List.length (filter f l) <= List.length l)%nat.
Proof. induction l as [|a l IH]; cbn; [lia|]. destruct (f a); cbn; lia. Qed.
Lemma filter_length_all {A} (f : A -> bool) l : List.length (filter f l) = List.length l -> forall x, In x l -> f x = true.
Proof.
  induction l as [|a l IH]; cbn; intros H x Hx; [destruct Hx|]. pose proof (filter_length_le' f l).
  destruct (f a) eqn:E; cbn in H; [|lia]. destruct Hx as [<-|Hx]; [exact E|]. apply IH; [lia|exact Hx].
Qed.
Lemma filter_all {A} (f : A -> bool) l : (forall x, In x l -> f x = true) -> filter f l = l.
Proof. induction l as [|a l IH]; cbn; intros H; [reflexivity|]. rewrite (H a) by now left. f_equal. apply IH. auto. Qed.

(** C65: the table has one line per benchmark that was recorded, and a line counts each run of its
    benchmark exactly once. *)
Theorem C65_table : forall show (l : list run) t,
  Forall (fun x => labelled (config_of x)) l ->
  table_main show (record_all l None) = Some t ->
  NoDup (map ln_key t) /\
  (forall key, In key (map ln_key t) <-> exists x, In x l /\ was_recorded x = true /\ benchmark show (config_of x) = key) /\
  forall ln, In ln t ->
    let runs := filter (on_line show (ln_key ln)) l in
    runs <> [] /\
    percentage (count succeeded runs) (List.length runs) (ln_success ln) /\
    summary (map total_time runs) (ln_total ln) /\ summary (map learner_time runs) (ln_learner ln).
Proof.
  intros show l t Hl H. rewrite table_recorded in H by exact Hl.
  set (rs := filter was_recorded l) in *. assert (E : all_some (map (summarise (map (kept_of show) rs)) (first_keys [] (map (kept_of show) rs))) = Some t).
  { destruct rs; [discriminate|exact H]. }
  clear H. apply all_some_map in E. pose proof (lines_keys _ _ _ E) as K.
  destruct (first_keys_spec (map (kept_of show) rs) []) as [D1 D2].
  split; [now rewrite K|]. split.
  - intros key. rewrite K, D2, map_map. split.
    + intros [H _]. apply in_map_iff in H. destruct H as (x & Ex & Hx). apply filter_In in Hx. exists x. split; [apply Hx|]. split; [apply Hx|exact Ex].
    + intros (x & Hx & Hr & Ex). split; [|easy]. apply in_map_iff. exists x. split; [exact Ex|]. apply filter_In. now split.
  - intros ln Hln runs.
    assert (S : summarise (map (kept_of show) rs) (ln_key ln) = Some ln).
    { clear -E Hln. induction E as [|a b keys t Ha _ IH]; [destruct Hln|]. destruct Hln as [<-|Hln]; [|auto].
      now rewrite (summarise_key _ _ _ Ha). }
    unfold summarise in S. rewrite filter_kept in S.
    assert (R : filter (fun x => key_eq (benchmark show (config_of x)) (ln_key ln)) rs = runs).
    { unfold rs, runs. rewrite filter_both. reflexivity. }
    rewrite R in S. rewrite !map_map in S.
    change (map (fun x => k_total (kept_of show x)) runs) with (map total_time runs) in S.
    change (map (fun x => k_learner (kept_of show x)) runs) with (map learner_time runs) in S.
    change (map (fun x => k_result (kept_of show x)) runs) with (map succeeded runs) in S.
    destruct (stats (map total_time runs)) as [tt|] eqn:E1; [|discriminate]. cbn [option_bind] in S.
    destruct (stats (map learner_time runs)) as [lt|] eqn:E2; [|discriminate]. cbn [option_bind] in S.
    assert (N : runs <> []) by (intros N; rewrite N in E1; discriminate E1).
    assert (E3 : ln_success ln = ratio (map succeeded runs)) by now injection S as <-.
    assert (E4 : ln_total ln = tt) by now injection S as <-.
    assert (E5 : ln_learner ln = lt) by now injection S as <-.
    rewrite E3, E4, E5. refine (conj N (conj _ (conj (stats_ok _ _ E1) (stats_ok _ _ E2)))).
    pose proof (ratio_ok (map succeeded runs)) as P. rewrite map_length, filter_map_bool in P. apply P. now destruct runs.
Qed.

(** There is a table as soon as one run was recorded; otherwise there is no file, and opening it fails. *)
Theorem C65_available : forall show (l : list run),
  Forall (fun x => labelled (config_of x)) l ->
  table_main show (record_all l None) <> None <-> exists x, In x l /\ was_recorded x = true.
Proof.
  intros show l Hl. rewrite table_recorded by exact Hl. split.
  - intros H. destruct (filter was_recorded l) as [|x rs] eqn:E; [now elim H|]. exists x. apply filter_In. rewrite E. now left.
  - intros (x & Hx & Hr).
    assert (Hin : In x (filter was_recorded l)) by (apply filter_In; now split).
    destruct (filter was_recorded l) as [|y rs] eqn:E; [destruct Hin|]. cbv zeta. set (ks := map (kept_of show) (y :: rs)).
    destruct (all_some_all (summarise ks) (first_keys [] ks)) as (t & Et); [|now rewrite Et].
    intros key Hk. destruct (first_keys_spec ks []) as [_ D]. apply D in Hk. destruct Hk as [Hk _]. apply in_map_iff in Hk.
    destruct Hk as (k & <- & Hk). unfold summarise.
    assert (G : In k (filter (fun k' => key_eq (k_key k') (k_key k)) ks)) by (apply filter_In; split; [exact Hk|now apply key_eq_true]).
    destruct (filter _ ks) as [|k1 g]; [destruct G|]. discriminate.
Qed.

(** The success rate is a percentage, 100 exactly when every run of the line succeeded. *)
Theorem C65_success_rate : forall show (l : list run) t ln,
  Forall (fun x => labelled (config_of x)) l ->
  table_main show (record_all l None) = Some t -> In ln t ->
  (0 <= ln_success ln <= 100)%Z /\
  (ln_success ln = 100%Z <-> forall x, In x l -> was_recorded x = true -> benchmark show (config_of x) = ln_key ln -> succeeded x = true).
Proof.
  intros show l t ln Hl H Hln. destruct (C65_table show l t Hl H) as (_ & _ & K). destruct (K ln Hln) as (N & P & _).
  set (runs := filter (on_line show (ln_key ln)) l) in *. unfold percentage, count in P.
  assert (L : (0 < List.length runs)%nat) by (destruct runs; [contradiction|cbn; lia]).
  pose proof (filter_length_le' succeeded runs) as L2.
  split; [nia|]. split.
  - intros E x Hx Hr Hk. rewrite E in P. assert (L3 : List.length (filter succeeded runs) = List.length runs) by nia.
    apply (filter_length_all succeeded runs L3). apply filter_In. split; [exact Hx|]. unfold on_line. rewrite Hr, Hk. cbn [andb].
    destruct (list_eq_dec string_dec (ln_key ln) (ln_key ln)); congruence.
  - intros A. assert (E : filter succeeded runs = runs).
    { apply filter_all. intros x Hx. apply filter_In in Hx. destruct Hx as [Hx O]. unfold on_line in O.
      apply andb_true_iff in O. destruct O as [O1 O2]. destruct (list_eq_dec string_dec _ _) as [Ek|]; [|discriminate]. auto. }
    rewrite E in P. nia.
Qed.
(** Two configurations that differ in the verifier, the time domain, the learning factors, LLO, the
    controller's hidden layers or the seed share a line. *)
Theorem C65_merged : forall show c c',
  rc_certificate c = rc_certificate c' -> rc_n_vars c = rc_n_vars c' -> rc_neurons c = rc_neurons c' ->
  rc_activation c = rc_activation c' -> rc_neurons_alt c = rc_neurons_alt c' -> rc_activation_alt c = rc_activation_alt c' ->
  option_map (fun l => List.last l 0%nat) (rc_ctrlayer c) = option_map (fun l => List.last l 0%nat) (rc_ctrlayer c') ->
  rc_model_name c = rc_model_name c' -> rc_latex c = rc_latex c' -> rc_domains c = rc_domains c' ->
  benchmark show c = benchmark show c'.
Proof.
  intros show c c' H1 H2 H3 H4 H5 H6 H7 H8 H9 H10. unfold benchmark, has_alt. rewrite H1, H2, H3, H4, H5, H6, H8, H9, H10.
  do 4 f_equal. destruct (rc_ctrlayer c), (rc_ctrlayer c'); try discriminate H7; cbn in H7; [injection H7 as ->|]; reflexivity.
Qed.

(** The lines appear in the order in which the benchmarks were first recorded: later runs add lines at the end. *)
Lemma first_keys_app seen l l' : exists rest, first_keys seen (l ++ l') = (first_keys seen l ++ rest)%list.
Proof.
  revert seen. induction l as [|a l IH]; intros seen; cbn [first_keys List.app]; [eexists; reflexivity|].
  destruct (existsb (key_eq (k_key a)) seen); [apply IH|]. destruct (IH (k_key a :: seen)) as [rest ->]. now exists rest.
Qed.
Theorem C65_order : forall show (l l' : list run) t t',
  Forall (fun x => labelled (config_of x)) (l ++ l') ->
  table_main show (record_all l None) = Some t -> table_main show (record_all (l ++ l') None) = Some t' ->
  exists rest, map ln_key t' = (map ln_key t ++ rest)%list.
Proof.
  intros show l l' t t' Hl H H'. assert (Hl1 := proj1 (proj1 (Forall_app _ _ _) Hl)).
  rewrite table_recorded in H by exact Hl1. rewrite table_recorded in H' by exact Hl. rewrite filter_app in H'.
  set (rs := filter was_recorded l) in *. set (rs' := filter was_recorded l') in *.
  assert (E : all_some (map (summarise (map (kept_of show) rs)) (first_keys [] (map (kept_of show) rs))) = Some t) by (destruct rs; [discriminate|exact H]).
  assert (E' : all_some (map (summarise (map (kept_of show) (rs ++ rs'))) (first_keys [] (map (kept_of show) (rs ++ rs')))) = Some t') by (destruct (rs ++ rs')%list; [discriminate|exact H']).
  apply all_some_map, lines_keys in E. apply all_some_map, lines_keys in E'. rewrite E, E', map_app. apply first_keys_app.
Qed.
(** [get_benchmarks]: the names of the recorded models, each once, in the order of their first run. *)
Lemma recorded_name c r T row : record_row c r T = Some row ->
  exists mn, rc_model_name c = Some mn /\ column "Benchmark_file" (combine HEADER row) = Some (VStr mn).
Proof.
  unfold record_row. destruct (rc_model_name c) as [mn|]; [|discriminate]. cbn [option_bind]. intros H. exists mn. split; [reflexivity|].
  match type of H with option_bind ?o _ = _ => destruct o as [[[nu cl] ca]|]; [|discriminate H] end; cbn [option_bind] in H.
  match type of H with option_bind ?o _ = _ => destruct o as [[al aa]|]; [|discriminate H] end; cbn [option_bind] in H.
  do 4 (match type of H with option_bind ?o _ = _ => destruct o; [|discriminate H] end; cbn [option_bind] in H).
  destruct (rr_times r) as [|t0 [|t1 [|t2 [|t3 ts]]]]; try discriminate. injection H as <-. reflexivity.
Qed.
Definition same_value (v w : value) : bool := match v, w with VStr a, VStr b => String.eqb a b | _, _ => false end.
Definition uniques (l : list value) : list value := fold_left (fun seen v => if existsb (same_value v) seen then seen else (seen ++ [v])%list) l [].
Lemma names_recorded l : exists ns, all_some (map (column "Benchmark_file") (map (combine HEADER) (rows_of l))) = Some (map VStr ns) /\
  forall n, In n ns <-> exists x, In x l /\ was_recorded x = true /\ rc_model_name (config_of x) = Some n.
Proof.
  induction l as [|[[c r] T] l (ns & E & H)]; [exists []; split; [reflexivity|]; intros n; split; [intros []|intros (x & [] & _)]|].
  cbn [rows_of]. unfold record. destruct (record_row c r T) as [row|] eqn:Er; cbn [snd].
  - destruct (recorded_name c r T row Er) as (mn & Em & Ec). exists (mn :: ns). cbn [map all_some]. rewrite Ec, E. split; [reflexivity|]. intros n. split.
    + intros [<-|Hn]; [exists ((c, r), T); cbn [was_recorded config_of]; unfold record; rewrite Er; split; [now left|]; split; [reflexivity|exact Em]|].
      apply H in Hn. destruct Hn as (x & Hx & R). exists x. split; [now right|exact R].
    + intros (x & [<-|Hx] & R & M); [left; cbn in M; congruence|]. right. apply H. exists x. tauto.
  - exists ns. split; [exact E|]. intros n. rewrite H. split; intros (x & Hx & R & M).
    + exists x. split; [now right|tauto].
    + destruct Hx as [<-|Hx]; [cbn [was_recorded] in R; unfold record in R; rewrite Er in R; discriminate|]. exists x. tauto.
Qed.
Lemma rows_of_app l l' : rows_of (l ++ l') = (rows_of l ++ rows_of l')%list.
Proof. induction l as [|[[c r] T] l IH]; [reflexivity|]. cbn [List.app rows_of]. rewrite IH. now destruct (record_row c r T). Qed.
Lemma uniques_fold l : forall seen, exists more, fold_left (fun seen v => if existsb (same_value v) seen then seen else (seen ++ [v])%list) l seen = (seen ++ more)%list.
Proof.
  induction l as [|v l IH]; intros seen; cbn [fold_left]; [exists []; now rewrite app_nil_r|]. destruct (existsb (same_value v) seen); [apply IH|].
  destruct (IH (seen ++ [v])%list) as (more & ->). exists (v :: more). now rewrite <- app_assoc.
Qed.
Lemma existsb_same a ns : existsb (same_value (VStr a)) (map VStr ns) = true <-> In a ns.
Proof.
  rewrite existsb_exists. split.
  - intros (w & Hw & E). apply in_map_iff in Hw. destruct Hw as (b & <- & Hb). cbn in E. apply String.eqb_eq in E. now subst.
  - intros H. exists (VStr a). split; [now apply in_map|]. cbn. apply String.eqb_refl.
Qed.
Lemma uniques_names ns : forall seen, NoDup seen -> exists out,
  fold_left (fun seen v => if existsb (same_value v) seen then seen else (seen ++ [v])%list) (map VStr ns) (map VStr seen) = map VStr out /\
  NoDup out /\ forall n, In n out <-> In n seen \/ In n ns.
Proof.
  induction ns as [|a ns IH]; intros seen N; cbn [map fold_left]; [exists seen; split; [reflexivity|]; split; [exact N|]; cbn; tauto|].
  destruct (existsb (same_value (VStr a)) (map VStr seen)) eqn:E.
  - destruct (IH seen N) as (out & E1 & E2 & E3). exists out. split; [exact E1|]. split; [exact E2|]. intros n. rewrite E3. cbn. apply existsb_same in E. split; [tauto|]. intros [H|[<-|H]]; tauto.
  - assert (Na : ~ In a seen) by (intros X; apply existsb_same in X; congruence).
    destruct (IH (seen ++ [a])%list) as (out & E1 & E2 & E3).
    { apply NoDup_rev in N. rewrite <- (rev_involutive (seen ++ [a])). apply NoDup_rev. rewrite rev_app_distr. cbn. constructor; [rewrite <- in_rev; exact Na|exact N]. }
    exists out. rewrite map_app in E1. split; [exact E1|]. split; [exact E2|]. intros n. rewrite E3, in_app_iff. cbn. tauto.
Qed.
Theorem C65_benchmarks : forall (l : list run),
  (forall b, get_benchmarks (record_all l None) = Some b ->
     exists out, b = map VStr out /\ NoDup out /\
       forall n, In n out <-> exists x, In x l /\ was_recorded x = true /\ rc_model_name (config_of x) = Some n) /\
  (get_benchmarks (record_all l None) <> None <-> exists x, In x l /\ was_recorded x = true) /\
  (forall l' b b', get_benchmarks (record_all l None) = Some b -> get_benchmarks (record_all (l ++ l') None) = Some b' -> exists more, b' = (b ++ more)%list).
Proof.
  assert (F : forall l, get_benchmarks (record_all l None) =
    match rows_of l with [] => None | _ => option_bind (all_some (map (column "Benchmark_file") (map (combine HEADER) (rows_of l)))) (fun v => Some (uniques v)) end).
  { intros l. unfold get_benchmarks. destruct (C44_file l) as [-> _]. destruct (rows_of l); [reflexivity|]. unfold read_csv. rewrite names_header. reflexivity. }
  intros l. split; [|split].
  - intros b H. rewrite F in H. destruct (names_recorded l) as (ns & E & Hn). rewrite E in H. destruct (rows_of l); [discriminate|]. cbn [option_bind] in H. injection H as <-.
    destruct (uniques_names ns [] (NoDup_nil _)) as (out & E1 & E2 & E3). exists out. split; [exact E1|]. split; [exact E2|]. intros n. rewrite E3, <- Hn. cbn. tauto.
  - rewrite F. destruct (names_recorded l) as (ns & E & Hn). rewrite E. split.
    + intros H. clear -H. induction l as [|[[c r] T] l IH]; [now elim H|]. cbn [rows_of] in H. unfold record in H. destruct (record_row c r T) as [row|] eqn:Er; cbn [snd] in H.
      * exists ((c, r), T). cbn [was_recorded]. unfold record. rewrite Er. split; [now left|reflexivity].
      * destruct (IH H) as (x & Hx & R). exists x. split; [now right|exact R].
    + intros (x & Hx & R). assert (Nr : rows_of l <> []).
      { clear -Hx R. induction l as [|[[c r] T] l IH]; [destruct Hx|]. cbn [rows_of]. unfold record. destruct (record_row c r T) eqn:Er; cbn [snd]; [discriminate|].
        destruct Hx as [<-|Hx]; [cbn [was_recorded] in R; unfold record in R; rewrite Er in R; discriminate|]. now apply IH. }
      destruct (rows_of l); [contradiction|]. cbn. discriminate.
  - intros l' b b' H H'. rewrite F in H, H'. rewrite rows_of_app in H'.
    destruct (names_recorded l) as (ns & E & _), (names_recorded l') as (ns' & E' & _).
    assert (Ea : all_some (map (column "Benchmark_file") (map (combine HEADER) (rows_of l ++ rows_of l'))) = Some (map VStr (ns ++ ns'))).
    { rewrite !map_app. revert ns E. generalize (map (column "Benchmark_file") (map (combine HEADER) (rows_of l))) as o. clear -E'. induction o as [|v o IH]; intros ns E.
      - injection E as E. destruct ns; [|discriminate]. exact E'.
      - cbn [List.app all_some] in E |- *. destruct v as [v|]; [|discriminate]. destruct (all_some o) as [w|] eqn:Eo; [|discriminate]. injection E as E. destruct ns as [|n ns]; [discriminate|]. injection E as -> ->.
        now rewrite (IH ns eq_refl). }
    rewrite E in H. rewrite Ea in H'. destruct (rows_of l) as [|row rows]; [discriminate|]. cbn [option_bind List.app] in H, H'. injection H as <-. injection H' as <-.
    unfold uniques. rewrite map_app, fold_left_app. apply uniques_fold.
Qed.

(** Three recorded runs and one that could not be recorded: two lines, one with one of two runs successful. *)
Definition other_config : rconfig :=
  {| rc_certificate := RWS; rc_n_vars := 2%nat; rc_neurons := [5]%nat; rc_activation := [SQUARE];
     rc_ctrlayer := None; rc_ctrlactivation := []; rc_neurons_alt := []; rc_activation_alt := []; rc_factors := "NONE"; rc_llo := false;
     rc_symmetric_belt := true; rc_time_domain := "CONTINUOUS"; rc_verifier := "Z3";
     rc_model_name := Some "Linear_1"; rc_latex := Some "l"; rc_domains := Some "d" |}.
Definition failed_result : rresult := {| rr_res := false; rr_iters := 3%nat; rr_N_data := 1500%nat; rr_times := [2; 2; 3; 4]%Q; rr_seed := 168%nat |}.
Definition demo_runs : list run :=
  [(demo_config, demo_rresult, 10%Q); (other_config, demo_rresult, 5%Q);
   (other_config, {| rr_res := true; rr_iters := 0; rr_N_data := 0; rr_times := []; rr_seed := 0 |}, 1%Q); (demo_config, failed_result, 20%Q)].
Example C65_example : exists a b,
  table_main (fun _ => "#") (record_all demo_runs None) = Some [a; b] /\
  ln_key a = ["l"; "d"; "Linear1"; "#"; "#"; "RAR"; "#, #"; "[$\varphi\_{2}$,$\sigma\_{\mathrm{t}}$], [$\sigma\_{\mathrm{sig}}$]"] /\
  ln_success a = 50%Z /\ (let '(lo, m, hi) := ln_total a in lo == 10 /\ m == 15 /\ hi == 20)%Q /\
  (let '(lo, m, hi) := ln_learner a in lo == 1 /\ m == 3 # 2 /\ hi == 2)%Q /\
  ln_key b = ["l"; "d"; "Linear\_1"; "#"; "#"; "RWA"; "#, "; "[$\varphi\_{2}$], "] /\ ln_success b = 100%Z /\
  Forall (fun x => labelled (config_of x)) demo_runs.
Proof.
  eexists _, _. split; [vm_compute; reflexivity|].
  repeat (split; [vm_compute; repeat split; reflexivity|]). repeat constructor; discriminate.
Qed.
