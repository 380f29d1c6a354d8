(** Property C74: the settings that can change what is verified, and those that cannot. *)
From Coq Require Import String Ascii Reals QArith Bool Arith ZArith Lia List.
From Verif Require Import M_Syntax M_Certificates M_Verifier M_Activations M_Domains M_Network M_Cegis M_Labels M_Fossil M_Double
  M_Control M_Parser M_Lexer M_Variables M_DomainParser M_Cli M_Config M_Verify M_ConfigVerify M_Documents S_Cli S_Config S_Settings P_Cli P_ConfigExamples.
Import ListNotations.
Local Close Scope Q_scope.
Local Open Scope string_scope.
Local Open Scope list_scope.

Lemma agree_assoc fs doc doc' f : NoDup (map fst doc) -> NoDup (map fst doc') -> agree fs doc doc' -> In f fs -> assoc f doc = assoc f doc'.
Proof.
  intros N N' A F. destruct (assoc f doc) as [v|] eqn:E.
  - apply assoc_in in E. apply (A f v F) in E. symmetry. now apply assoc_nodup.
  - destruct (assoc f doc') as [v|] eqn:E'; [|reflexivity]. apply assoc_in in E'. apply (A f v F) in E'.
    rewrite (assoc_nodup _ _ _ N E') in E. discriminate.
Qed.
Lemma convert_plain f v : ~ In f choice_fields -> convert_field f v <> None.
Proof.
  intros H. unfold convert_field.
  repeat match goal with |- context [String.eqb f ?s] => destruct (String.eqb_spec f s) as [->|]; [elim H; cbn; tauto|] end. discriminate.
Qed.
Lemma choice_deciding f : In f choice_fields -> In f deciding.
Proof. cbn. tauto. Qed.
Lemma readable doc doc' : agree deciding doc doc' -> read_config doc <> None -> read_config doc' <> None.
Proof.
  intros A. unfold read_config. destruct (forallb (present doc) required_fields) eqn:P; [|congruence].
  replace (forallb (present doc') required_fields) with true.
  - intros H. apply read_fields_some. intros f v I K. destruct (in_dec string_dec f choice_fields) as [C|C]; [|now apply convert_plain].
    apply (proj2 (read_fields_some doc default_config)); auto. apply (A f v); auto. now apply choice_deciding.
  - symmetry. apply forallb_forall. intros f I. rewrite forallb_forall in P. apply P in I as I'. apply present_spec in I'. destruct I' as (v & I').
    apply present_spec. exists v. apply (A f v); auto. cbn in I. cbn. tauto.
Qed.
Lemma agree_sym fs doc doc' : agree fs doc doc' -> agree fs doc' doc.
Proof. intros A f v F. symmetry. now apply A. Qed.
Lemma same_attributes doc doc' c c' : NoDup (map fst doc) -> NoDup (map fst doc') -> agree deciding doc doc' ->
  read_config doc = Some c -> read_config doc' = Some c' -> forall f, In f deciding -> getattr c f = getattr c' f.
Proof.
  intros N N' A R R' f F. unfold read_config in R, R'. destruct (forallb _ _); [|discriminate]. destruct (forallb _ _); [|discriminate].
  rewrite (read_fields_get doc default_config c N R f), (read_fields_get doc' default_config c' N' R' f).
  now rewrite (agree_assoc deciding doc doc' f N N' A F).
Qed.

(** ** N_DATA *)
Definition like (nd nd' : n_data) : Prop :=
  match nd, nd' with Scalar _, Scalar _ => True | PerSet a, PerSet b => map fst a = map fst b | _, _ => False end.
Definition same_keys {D} (p q : option (list (label * source D) * list (label * D))) : Prop :=
  match p, q with Some (a, d), Some (b, e) => map fst a = map fst b /\ d = e | None, None => True | _, _ => False end.
Lemma dset_keys {A} l (v w : A) a b : map fst a = map fst b -> map fst (dset l v a) = map fst (dset l w b).
Proof.
  revert b. induction a as [|[k x] a IH]; intros [|[k' y] b] E; try discriminate; [reflexivity|].
  cbn [map fst] in E. injection E as -> E. unfold dset. fold (@dset A). cbn. destruct (label_eqb k' l) eqn:Ek; cbn; rewrite ?Ek; cbn; f_equal; auto.
Qed.
Lemma read_dict_keys {D} (domains : list (label * D)) a : forall b x y, map fst a = map fst b -> map fst x = map fst y ->
  match read_data_dict a domains x, read_data_dict b domains y with Some p, Some q => map fst p = map fst q | None, None => True | _, _ => False end.
Proof.
  induction a as [|[l n] a IH]; intros [|[l' n'] b] x y E E'; try discriminate; cbn [read_data_dict]; [exact E'|].
  cbn [map fst] in E. injection E as -> E. destruct (is_border l'); destruct (dlookup l' domains) as [d|]; cbn [option_bind]; auto.
  all: try exact I; apply IH; auto; now apply dset_keys.
Qed.
Lemma lookup_keys {A B} l (a : list (label * A)) (b : list (label * B)) : map fst a = map fst b ->
  (exists x y, dlookup l a = Some x /\ dlookup l b = Some y) \/ (dlookup l a = None /\ dlookup l b = None).
Proof.
  unfold dlookup. revert b. induction a as [|[k x] a IH]; intros [|[k' y] b] E; try discriminate; [now right|].
  cbn [map fst] in E. injection E as -> E. cbn. destruct (label_eqb k' l); eauto.
Qed.
Lemma amount_like nd nd' l : like nd nd' -> (exists n m, amount nd l = Some n /\ amount nd' l = Some m) \/ (amount nd l = None /\ amount nd' l = None).
Proof. destruct nd, nd'; cbn; try tauto; [eauto|apply lookup_keys]. Qed.
Lemma parse_sets_like {D} ty (domains : list (label * D)) nd nd' : like nd nd' -> same_keys (parse_sets ty domains nd) (parse_sets ty domains nd').
Proof.
  intros L. unfold parse_sets. destruct (add_borders domains ty) as [ds|]; cbn [option_bind]; [|exact I].
  assert (K : match read_data nd ds, read_data nd' ds with Some p, Some q => map fst p = map fst q | None, None => True | _, _ => False end).
  { destruct nd as [n|ns], nd' as [n'|ns']; cbn in L |- *; try tauto; [now rewrite !map_map|now apply read_dict_keys]. }
  destruct (read_data nd ds) as [p|], (read_data nd' ds) as [q|]; try contradiction; cbn [option_bind]; [|exact I].
  assert (W : same_keys (adjust_rwa p ds nd) (adjust_rwa q ds nd')).
  { unfold adjust_rwa. destruct (dlookup XD ds) as [xd|]; cbn [option_bind]; [|exact I]. destruct (dlookup XS ds) as [xs|]; cbn [option_bind]; [|exact I].
    destruct (amount_like nd nd' XU L) as [(n & m & -> & ->)|[-> ->]]; cbn [option_bind]; [|exact I]. split; [now apply dset_keys|reflexivity]. }
  destruct ty; cbn [adjust]; auto; try (split; auto; fail).
  - unfold adjust_roa. destruct (dlookup XD ds); cbn [option_bind]; [|exact I]. now split.
  - unfold adjust_rar. destruct (dlookup XD ds) as [xd|]; cbn [option_bind]; [|exact I]. destruct (dlookup XS ds) as [xs|]; cbn [option_bind]; [|exact I].
    destruct (dlookup XF ds) as [xf|]; cbn [option_bind]; [|exact I].
    destruct (amount_like nd nd' XU L) as [(n & m & -> & ->)|[-> ->]]; cbn [option_bind]; [|exact I].
    destruct (amount_like nd nd' XNF L) as [(n' & m' & -> & ->)|[-> ->]]; cbn [option_bind]; [|exact I].
    split; [|reflexivity]. now apply dset_keys, dset_keys.
Qed.
Lemma amounts_like doc doc' : NoDup (map fst doc) -> NoDup (map fst doc') -> same_samples doc doc' ->
  match read_amounts doc, read_amounts doc' with Some a, Some b => like a b | None, None => True | _, _ => False end.
Proof.
  intros N N' [(z & z' & P & P' & G & G')|(ns & P & G & G')]; unfold read_amounts;
    rewrite (assoc_nodup _ _ _ N G), (assoc_nodup _ _ _ N' G'); cbn [option_bind].
  - cbn [as_nat]. rewrite (proj2 (Z.leb_le 0 z) P), (proj2 (Z.leb_le 0 z') P'). exact I.
  - assert (K : forall g : string * (Z * Z) -> Z, Forall (fun p => (0 <= g p)%Z) ns ->
      match map_opt (fun p : string * yaml => option_bind (label_of_name (fst p)) (fun l => option_map (pair l) (as_nat (snd p)))) (map (fun p => (fst p, YInt (g p))) ns),
        map_opt (fun p : string * (Z * Z) => label_of_name (fst p)) ns with Some a, Some b => map fst a = b | None, None => True | _, _ => False end).
    { intros g. clear G G' P. induction ns as [|[k zz] ns IH]; intros F; cbn [map map_opt fst snd]; [reflexivity|].
      inversion F as [|? ? F1 F2]; subst. destruct (label_of_name k) as [l|]; cbn [option_bind]; [|exact I].
      cbn [as_nat]. rewrite (proj2 (Z.leb_le 0 _) F1). cbn [option_map option_bind]. specialize (IH F2).
      destruct (map_opt _ (map _ ns)) as [a|], (map_opt _ ns) as [b|]; cbn [option_bind option_map]; try tauto. cbn [map fst]. now f_equal. }
    pose proof (K (fun p => fst (snd p)) ltac:(eapply Forall_impl; [|exact P]; now intros ? [? ?])) as K1.
    pose proof (K (fun p => snd (snd p)) ltac:(eapply Forall_impl; [|exact P]; now intros ? [? ?])) as K2. cbv beta in K1, K2.
    destruct (map_opt (fun p : string * (Z * Z) => label_of_name (fst p)) ns) as [b|].
    + destruct (map_opt _ (map (fun p => (fst p, YInt (fst (snd p)))) ns)) as [a|]; [|contradiction].
      destruct (map_opt _ (map (fun p => (fst p, YInt (snd (snd p)))) ns)) as [a'|]; [|contradiction]. cbn. congruence.
    + destruct (map_opt _ (map (fun p => (fst p, YInt (fst (snd p)))) ns)) as [a|]; [contradiction|].
      destruct (map_opt _ (map (fun p => (fst p, YInt (snd (snd p)))) ns)) as [a'|]; [contradiction|]. exact I.
Qed.

(** ** The theorem *)
Ltac deciding_field := unfold deciding; cbn; tauto.
Lemma same_session numpy f1 f2 rand randc doc doc' : NoDup (map fst doc) -> NoDup (map fst doc') -> agree deciding doc doc' -> same_samples doc doc' ->
  session_of numpy f1 f2 rand randc doc = session_of numpy f1 f2 rand randc doc'.
Proof.
  intros N N' A D. unfold session_of.
  destruct (read_config doc) as [c|] eqn:R, (read_config doc') as [c'|] eqn:R'.
  2:{ elim (readable doc doc' A); congruence. }
  2:{ elim (readable doc' doc (agree_sym _ _ _ A)); congruence. }
  2:{ reflexivity. }
  pose proof (same_attributes doc doc' c c' N N' A R R') as E.
  unfold get_certificate_type, get_time, get_verifier_type, get_outputs, get_int, get_quad, learner_of, learner_from, controller_of, get_sizes, get_activations, get_raw.
  unfold read_system, read_section.
  rewrite !(agree_assoc deciding doc doc' _ N N' A) by deciding_field.
  cbn [option_bind]. rewrite !E by deciding_field.
  pose proof (amounts_like doc doc' N N' D) as L.
  assert (K : forall X (a b : option X) Y (g h : X -> option Y), a = b -> (forall x, g x = h x) -> option_bind a g = option_bind b h).
  { intros X a b Y g h -> H. destruct b; cbn [option_bind]; auto. }
  do 2 (apply K; [reflexivity|intros ?]). apply K; [reflexivity|intros [lib b]].
  do 5 (apply K; [reflexivity|intros ?]).
  destruct (negb _); [reflexivity|]. apply K; [reflexivity|intros domains].
  destruct (read_amounts doc) as [nd|], (read_amounts doc') as [nd'|]; try contradiction; cbn [option_bind]; [|reflexivity].
  match goal with |- option_bind (parse_sets ?ty _ _) _ = _ => pose proof (parse_sets_like ty domains nd nd' L) as Q end.
  destruct (parse_sets _ domains nd) as [[data ds]|], (parse_sets _ domains nd') as [[data' ds']|]; try contradiction; cbn [option_bind]; [|reflexivity].
  destruct Q as [Q ->]. unfold accepted. rewrite Q. reflexivity.
Qed.
Lemma same_session2 numpy f1 f2 rand rand2 randc doc doc' : NoDup (map fst doc) -> NoDup (map fst doc') -> agree deciding doc doc' -> same_samples doc doc' ->
  session2_of numpy f1 f2 rand rand2 randc doc = session2_of numpy f1 f2 rand rand2 randc doc'.
Proof.
  intros N N' A D. unfold session2_of. rewrite (same_session numpy f1 f2 rand randc doc doc' N N' A D).
  destruct (session_of numpy f1 f2 rand randc doc') as [[[pb net] ctrl]|]; [|reflexivity]. cbn [option_bind].
  destruct (read_config doc) as [c|] eqn:R, (read_config doc') as [c'|] eqn:R'.
  2:{ elim (readable doc doc' A); congruence. }
  2:{ elim (readable doc' doc (agree_sym _ _ _ A)); congruence. }
  2:{ reflexivity. }
  pose proof (same_attributes doc doc' c c' N N' A R R') as E. cbn [option_bind].
  unfold learner_alt_of, learner_from, get_sizes, get_activations, get_raw. rewrite !E by deciding_field. reflexivity.
Qed.
(** Two files which agree on the deciding settings start the same search: the same problem, the same networks and the same controller; and
    with the same CANDIDATE they get the same verdict. *)
Theorem C74_same_run : forall numpy f1 f2 rand rand2 randc doc doc',
  NoDup (map fst doc) -> NoDup (map fst doc') -> agree deciding doc doc' -> same_samples doc doc' ->
  session_of numpy f1 f2 rand randc doc = session_of numpy f1 f2 rand randc doc' /\
  session2_of numpy f1 f2 rand rand2 randc doc = session2_of numpy f1 f2 rand rand2 randc doc' /\
  (agree ["CANDIDATE"] doc doc' -> forall be noise,
     verify_file numpy f1 f2 rand randc doc be noise = verify_file numpy f1 f2 rand randc doc' be noise).
Proof.
  intros numpy f1 f2 rand rand2 randc doc doc' N N' A D.
  pose proof (same_session numpy f1 f2 rand randc doc doc' N N' A D) as S1.
  split; [exact S1|]. split; [now apply same_session2|]. intros C be noise. unfold verify_file, candidate_text.
  rewrite S1, (agree_assoc ["CANDIDATE"] doc doc' _ N N' C) by (now left).
  destruct (read_config doc) as [c|] eqn:R, (read_config doc') as [c'|] eqn:R'.
  2:{ elim (readable doc doc' A); congruence. }
  2:{ elim (readable doc' doc (agree_sym _ _ _ A)); congruence. }
  2:{ reflexivity. }
  pose proof (same_attributes doc doc' c c' N N' A R R') as E. cbn [option_bind].
  unfold get_verifier_type. now rewrite !E by deciding_field.
Qed.

(** ** Each of them matters *)
Definition put (f : string) (v : yaml) (doc : document) : document :=
  (f, v) :: filter (fun p => negb (String.eqb (fst p) f)) doc.
Lemma put_nodup f v doc : NoDup (map fst doc) -> NoDup (map fst (put f v doc)).
Proof.
  intros N. cbn [put map fst]. constructor.
  - intros H. apply in_map_iff in H. destruct H as ([g w] & E & H). apply filter_In in H. destruct H as [_ H]. cbn in E, H. subst.
    now rewrite String.eqb_refl in H.
  - induction doc as [|[g w] doc IH]; [constructor|]. inversion N as [|? ? N1 N2]; subst. cbn [filter fst].
    destruct (negb (String.eqb g f)); [|now apply IH]. cbn [map fst]. constructor; [|now apply IH].
    intros H. apply N1. cbn [fst]. apply in_map_iff in H. destruct H as (p & E & H). apply filter_In in H. rewrite <- E. now apply in_map.
Qed.
Lemma put_agree f v doc fs : ~ In f fs -> agree fs doc (put f v doc).
Proof.
  intros F g w G. unfold gives. cbn [put]. split.
  - intros H. right. apply filter_In. split; [exact H|]. cbn. destruct (String.eqb_spec g f); [congruence|reflexivity].
  - intros [E|H]; [congruence|]. now apply filter_In in H.
Qed.
Definition one_q (k row col : nat) : Q := 1.
Definition started (doc : document) := session2_of math 300 300 one_q one_q one_q doc.
(** What distinguishes the runs below. *)
Definition look (x : option (problem controller * network * network * controller)) :=
  option_map (fun '(pb, net, net2, ctrl) =>
    (net, net2, ctrl, pb_sets pb XI, pb_xdot pb ctrl, (pb_type pb, pb_llo pb, pb_quad pb, pb_symb pb), (pb_rounding pb, pb_max_iters pb))) x.
Theorem C74_each_matters : forall f, In f deciding -> exists doc v,
  NoDup (map fst doc) /\ agree (filter (fun g => negb (String.eqb g f)) settings) doc (put f v doc) /\
  exists numpy f1 f2 rand rand2 randc,
    session2_of numpy f1 f2 rand rand2 randc doc <> session2_of numpy f1 f2 rand rand2 randc (put f v doc).
Proof.
  intros f F.
  assert (H : forall v, look (started doc_stable_safe_test) <> look (started (put f v doc_stable_safe_test)) -> exists doc v,
    NoDup (map fst doc) /\ agree (filter (fun g => negb (String.eqb g f)) settings) doc (put f v doc) /\
    exists numpy f1 f2 rand rand2 randc,
      session2_of numpy f1 f2 rand rand2 randc doc <> session2_of numpy f1 f2 rand rand2 randc (put f v doc)).
  { intros v D. exists doc_stable_safe_test, v. split.
    { cbn. repeat (apply NoDup_cons; [cbn; intuition discriminate|]). apply NoDup_nil. }
    split.
    { apply put_agree. intros H. apply filter_In in H. destruct H as [_ H]. now rewrite String.eqb_refl in H. }
    exists math, 300%nat, 300%nat, one_q, one_q, one_q. intros E. apply D. unfold started. now rewrite E. }
  unfold deciding in F. repeat (destruct F as [<-|F]); [..|destruct F].
  - apply (H (YList [YStr "x1 - u0"; YStr "x0-x1"])). vm_compute. discriminate.
  - apply (H (YInt 3)). vm_compute. discriminate.
  - apply (H (YStr "RAR")). vm_compute. discriminate.
  - apply (H (YMap [("XD", YStr "Sphere([0,0], 1.1)"); ("XI", YStr "Sphere([0,0], 0.2)"); ("XU", YStr "Sphere([0.8,0.8], 0.1)")])). vm_compute. discriminate.
  - apply (H (YStr "DISCRETE")). vm_compute. discriminate.
  - apply (H (YStr "Z3")). vm_compute. discriminate.
  - apply (H (YInt 11)). vm_compute. discriminate.
  - apply (H (YList [YInt 6])). vm_compute. discriminate.
  - apply (H (YList [YStr "LINEAR"])). vm_compute. discriminate.
  - apply (H (YList [YInt 6; YInt 1])). vm_compute. discriminate.
  - apply (H (YList [YStr "SQUARE"])). vm_compute. discriminate.
  - apply (H (YList [YInt 6])). vm_compute. discriminate.
  - apply (H (YList [YStr "LINEAR"])). vm_compute. discriminate.
  - apply (H (YInt 4)). vm_compute. discriminate.
  - apply (H (YStr "QUADRATIC")). vm_compute. discriminate.
  - apply (H (YBool true)). vm_compute. discriminate.
Qed.
(** The hypotheses of C74_same_run are met by two files which differ in every other setting. *)
Definition other_doc : document :=
  map (fun p : string * yaml => if String.eqb (fst p) "N_DATA" then ("N_DATA", YMap [("XD", YInt 7); ("XI", YInt 8); ("XU", YInt 9)]) else p)
    (put "CEGIS_MAX_TIME_S" (YInt 1) (put "LOSS_MARGIN" (YList [YInt 1; YInt 1]) (put "ACCURACY_MARGIN" (YList [YInt 1; YInt 1])
    (put "LEARNING_RATE" (YNum (1 # 2)) (put "SYMMETRIC_BELT" (YBool true) (put "PRECISION" (YNum (1 # 2)) (put "DREAL_JOBS" (YInt 4) (put "VERBOSE" (YInt 2) (put "SEED" (YInt 17)
      doc_stable_safe_test))))))))).
Example ex_same : started other_doc = started doc_stable_safe_test /\ started other_doc <> None.
Proof.
  split; [|vm_compute; discriminate].
  assert (N : NoDup (map fst other_doc)) by (vm_compute; repeat (apply NoDup_cons; [cbn; intuition discriminate|]); apply NoDup_nil).
  assert (N' : NoDup (map fst doc_stable_safe_test)) by (vm_compute; repeat (apply NoDup_cons; [cbn; intuition discriminate|]); apply NoDup_nil).
  apply (C74_same_run math 300 300 one_q one_q one_q other_doc doc_stable_safe_test N N').
  - intros f v F. unfold other_doc, put, doc_stable_safe_test, gives. cbn. split; intros G;
      repeat (destruct G as [G|G]; [first [injection G as <- <-; exfalso; revert F; unfold deciding; cbn; intuition discriminate | rewrite <- G; cbn; tauto]|]);
      destruct G.
  - right. exists [("XD", (7, 1000)); ("XI", (8, 1000)); ("XU", (9, 1000))]%Z. split; [repeat constructor; cbn; lia|].
    unfold gives. cbn. split; tauto.
Qed.
