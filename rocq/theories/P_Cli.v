(** C58: reading a configuration file. *)
From Coq Require Import String Ascii List Bool Arith ZArith Permutation Lia.
From Verif Require Import M_Certificates M_Verifier M_Activations M_Cegis M_Labels M_DomainParser M_Parser M_Cli S_Cli.
Import ListNotations.
Local Open Scope string_scope.
Local Open Scope list_scope.

(** ** Names *)
Lemma upper_char_spec a b : (97 <= nat_of_ascii b <= 122)%nat \/ letter a b <-> (97 <= nat_of_ascii b <= 122)%nat \/ upper_char a = b.
Proof.
  destruct (le_lt_dec 97 (nat_of_ascii b)) as [L|L], (le_lt_dec (nat_of_ascii b) 122) as [M|M]; try tauto.
  all: assert (E : ~ (97 <= nat_of_ascii b <= 122)%nat) by lia.
  all: split; (intros [H|H]; [tauto|right]).
  all: unfold letter, upper_char in *.
  - destruct H as [<-|[H1 H2]].
    + destruct (Nat.leb_spec 97 (nat_of_ascii a)); [|reflexivity].
      destruct (Nat.leb_spec (nat_of_ascii a) 122); [lia|reflexivity].
    + lia.
  - destruct (Nat.leb_spec 97 (nat_of_ascii a)); [|now left].
    destruct (Nat.leb_spec (nat_of_ascii a) 122); [|now left]. cbn [andb] in H.
    assert (nat_of_ascii b = nat_of_ascii a - 32)%nat by (rewrite <- H, nat_ascii_embedding; lia). lia.
  - destruct H as [<-|[H1 H2]].
    + destruct (Nat.leb_spec 97 (nat_of_ascii a)); [lia|reflexivity].
    + destruct (Nat.leb_spec 97 (nat_of_ascii a)); [|lia]. destruct (Nat.leb_spec (nat_of_ascii a) 122); [|lia].
      cbn [andb]. rewrite H2. replace (nat_of_ascii b + 32 - 32)%nat with (nat_of_ascii b) by lia. apply ascii_nat_embedding.
  - destruct (Nat.leb_spec 97 (nat_of_ascii a)); [|now left].
    destruct (Nat.leb_spec (nat_of_ascii a) 122); [|now left]. cbn [andb] in H.
    right. assert (nat_of_ascii b = nat_of_ascii a - 32)%nat by (rewrite <- H, nat_ascii_embedding; lia). lia.
  - lia.
  - lia.
Qed.
Definition capital (c : ascii) : Prop := ~ (97 <= nat_of_ascii c <= 122)%nat.
Lemma spelled_upper s w : Forall capital (list_ascii_of_string w) -> (spelled s w <-> upper s = w).
Proof.
  revert w. induction s as [|a s IH]; intros [|b w] C; unfold spelled in *; cbn [list_ascii_of_string upper] in *.
  - split; [reflexivity|constructor].
  - split; intros H; inversion H.
  - split; intros H; inversion H.
  - inversion C as [|? ? Cb Cw]; subst. specialize (IH w Cw). pose proof (upper_char_spec a b) as U.
    unfold capital in Cb. split; intros H.
    + inversion H; subst. f_equal; tauto.
    + injection H as H1 H2. constructor; tauto.
Qed.
Ltac capitals := repeat (constructor; [unfold capital; vm_compute; lia|]); constructor.
Lemma certificate_capital c : Forall capital (list_ascii_of_string (certificate_name c)).
Proof. destruct c; cbn; capitals. Qed.
Lemma time_capital c : Forall capital (list_ascii_of_string (time_name c)).
Proof. destruct c; cbn; capitals. Qed.
Lemma verifier_capital c : Forall capital (list_ascii_of_string (verifier_name c)).
Proof. destruct c; cbn; capitals. Qed.
Lemma factor_capital c : Forall capital (list_ascii_of_string (factor_name c)).
Proof. destruct c; cbn; capitals. Qed.
Lemma activation_capital c : Forall capital (list_ascii_of_string (activation_name c)).
Proof. destruct c; cbn; capitals. Qed.

Lemma assoc_cons {A} k x (a : A) l : assoc k ((x, a) :: l) = if String.eqb x k then Some a else assoc k l.
Proof. unfold assoc. cbn [find fst]. now destruct (String.eqb x k). Qed.
Lemma assoc_in {A} k (l : list (string * A)) a : assoc k l = Some a -> In (k, a) l.
Proof.
  induction l as [|[x b] l IH]; [discriminate|]. rewrite assoc_cons. destruct (String.eqb_spec x k) as [->|]; intros H.
  - left. congruence.
  - right. auto.
Qed.
Lemma assoc_nodup {A} k (l : list (string * A)) a : NoDup (map fst l) -> In (k, a) l -> assoc k l = Some a.
Proof.
  induction l as [|[x b] l IH]; intros N H; [easy|]. inversion N; subst. rewrite assoc_cons. destruct H as [H|H].
  - injection H as -> ->. now rewrite String.eqb_refl.
  - destruct (String.eqb_spec x k) as [->|]; [|auto]. elim H2. apply in_map_iff. now exists (k, a).
Qed.
Lemma assoc_none {A} k (l : list (string * A)) : assoc k l = None <-> ~ In k (map fst l).
Proof.
  induction l as [|[x b] l IH]; [cbn; tauto|]. rewrite assoc_cons. cbn [map fst In].
  destruct (String.eqb_spec x k) as [->|]; [split; [discriminate|intros H; elim H; now left]|]. rewrite IH. intuition.
Qed.

Lemma enum_spec {A} (name : A -> string) (names : list (string * A)) s a :
  (forall b, Forall capital (list_ascii_of_string (name b))) ->
  (forall x b, assoc x names = Some b <-> x = name b) ->
  (string_to_enum_value names (YStr s) = Some a <-> spelled s (name a)).
Proof. intros C N. cbn [string_to_enum_value]. rewrite spelled_upper by auto. apply N. Qed.
Ltac table := intros x b; split;
  [unfold assoc; cbn [find fst];
   repeat (match goal with |- context [String.eqb ?u x] => destruct (String.eqb_spec u x) as [<-|] end;
     [cbn [option_map snd]; intros H; injection H as <-; reflexivity|]); discriminate
  |intros ->; destruct b; reflexivity].
Lemma certificate_table : forall x b, assoc x certificate_names = Some b <-> x = certificate_name b.
Proof. unfold certificate_names. table. Qed.
Lemma time_table : forall x b, assoc x time_names = Some b <-> x = time_name b.
Proof. unfold time_names. table. Qed.
Lemma verifier_table : forall x b, assoc x verifier_names = Some b <-> x = verifier_name b.
Proof. unfold verifier_names. table. Qed.
Lemma factor_table : forall x b, assoc x factor_names = Some b <-> x = factor_name b.
Proof. unfold factor_names. table. Qed.
Lemma activation_table : forall x b, assoc x activation_names = Some b <-> x = activation_name b.
Proof. unfold activation_names. table. Qed.

(** ** One field *)
Lemma map_opt_Forall2 {A B} (g : A -> option B) l r : map_opt g l = Some r <-> Forall2 (fun x y => g x = Some y) l r.
Proof.
  revert r. induction l as [|x l IH]; intros r; cbn [map_opt].
  - split; [intros H; injection H as <-; constructor|intros H; inversion H; reflexivity].
  - split.
    + destruct (g x) as [y|] eqn:E; [|discriminate]. destruct (map_opt g l) as [r'|] eqn:El; [|discriminate].
      intros H. injection H as <-. constructor; auto. now apply IH.
    + intros H. inversion H as [|? y ? r' Hx Hl]; subst. rewrite Hx. apply IH in Hl. now rewrite Hl.
Qed.
Lemma enum_string {A} (names : list (string * A)) v a : string_to_enum_value names v = Some a -> exists s, v = YStr s.
Proof. destruct v; try discriminate. eauto. Qed.
Lemma Forall2_impl' {A B} (P Q : A -> B -> Prop) l r : (forall x y, P x y -> Q x y) -> Forall2 P l r -> Forall2 Q l r.
Proof. intros H. induction 1; constructor; auto. Qed.

Lemma activations_sound l r : read_activations (YList l) = Some r ->
  exists ss, l = map YStr ss /\ Forall2 (fun s a => spelled s (activation_name a)) ss r.
Proof.
  unfold read_activations. cbn [iterate option_bind]. intros H. apply map_opt_Forall2 in H.
  induction H as [|x y l r E H (ss & -> & F)]; [exists []; split; [reflexivity|constructor]|].
  destruct (enum_string _ _ _ E) as (s & ->). exists (s :: ss). split; [reflexivity|]. constructor; auto.
  now apply (enum_spec activation_name activation_names) in E; auto using activation_capital, activation_table.
Qed.
Lemma activations_complete ss r : Forall2 (fun s a => spelled s (activation_name a)) ss r ->
  read_activations (YList (map YStr ss)) = Some r.
Proof.
  intros H. unfold read_activations. cbn [iterate option_bind]. apply map_opt_Forall2.
  induction H; cbn [map]; constructor; auto.
  apply (enum_spec activation_name activation_names); auto using activation_capital, activation_table.
Qed.
Ltac in_list := cbn; tauto.
Lemma convert_complete f v a : means f v a -> convert_field f v = Some a.
Proof.
  intros H. destruct H as [s c H|s c H|s c H|s c H|f ss l I H|f v I]; unfold convert_field.
  - rewrite String.eqb_refl. rewrite (proj2 (enum_spec certificate_name certificate_names s c certificate_capital certificate_table) H). reflexivity.
  - cbn [String.eqb Ascii.eqb Bool.eqb]. rewrite (proj2 (enum_spec time_name time_names s c time_capital time_table) H). reflexivity.
  - cbn [String.eqb Ascii.eqb Bool.eqb]. rewrite (proj2 (enum_spec verifier_name verifier_names s c verifier_capital verifier_table) H). reflexivity.
  - cbn [String.eqb Ascii.eqb Bool.eqb]. rewrite (proj2 (enum_spec factor_name factor_names s c factor_capital factor_table) H). reflexivity.
  - rewrite (activations_complete _ _ H). cbn in I. destruct I as [<-|[<-|[<-|[]]]]; reflexivity.
  - destruct (String.eqb_spec f "CERTIFICATE") as [->|]; [elim I; in_list|].
    destruct (String.eqb_spec f "TIME_DOMAIN") as [->|]; [elim I; in_list|].
    destruct (String.eqb_spec f "VERIFIER") as [->|]; [elim I; in_list|].
    destruct (String.eqb_spec f "FACTORS") as [->|]; [elim I; in_list|].
    destruct (String.eqb_spec f "ACTIVATION") as [->|]; [elim I; in_list|].
    destruct (String.eqb_spec f "CTRLACTIVATION") as [->|]; [elim I; in_list|].
    destruct (String.eqb_spec f "ACTIVATION_ALT") as [->|]; [elim I; in_list|]. reflexivity.
Qed.
Lemma convert_sound f v a : (In f activation_fields -> exists l, v = YList l) -> convert_field f v = Some a -> means f v a.
Proof.
  intros L H. unfold convert_field in H.
  destruct (String.eqb_spec f "CERTIFICATE") as [->|N1].
  { destruct (string_to_enum_value _ v) as [c|] eqn:E; [|discriminate]. injection H as <-.
    destruct (enum_string _ _ _ E) as (s & ->). constructor.
    now apply (enum_spec certificate_name certificate_names s c certificate_capital certificate_table). }
  destruct (String.eqb_spec f "TIME_DOMAIN") as [->|N2].
  { destruct (string_to_enum_value _ v) as [c|] eqn:E; [|discriminate]. injection H as <-.
    destruct (enum_string _ _ _ E) as (s & ->). constructor.
    now apply (enum_spec time_name time_names s c time_capital time_table). }
  destruct (String.eqb_spec f "VERIFIER") as [->|N3].
  { destruct (string_to_enum_value _ v) as [c|] eqn:E; [|discriminate]. injection H as <-.
    destruct (enum_string _ _ _ E) as (s & ->). constructor.
    now apply (enum_spec verifier_name verifier_names s c verifier_capital verifier_table). }
  destruct (String.eqb_spec f "FACTORS") as [->|N4].
  { destruct (string_to_enum_value _ v) as [c|] eqn:E; [|discriminate]. injection H as <-.
    destruct (enum_string _ _ _ E) as (s & ->). constructor.
    now apply (enum_spec factor_name factor_names s c factor_capital factor_table). }
  destruct (String.eqb f "ACTIVATION" || String.eqb f "CTRLACTIVATION" || String.eqb f "ACTIVATION_ALT") eqn:E.
  - assert (I : In f activation_fields).
    { rewrite !orb_true_iff, !String.eqb_eq in E. cbn. intuition. }
    destruct (L I) as (l & ->). destruct (read_activations (YList l)) as [r|] eqn:Er; [|discriminate]. injection H as <-.
    destruct (activations_sound _ _ Er) as (ss & -> & F). now constructor.
  - injection H as <-. constructor. rewrite !orb_false_iff, !String.eqb_neq in E. cbn. intuition.
Qed.
(** A field has at most one meaning. *)
Lemma means_unique f v a b : means f v a -> means f v b -> a = b.
Proof. intros H K. apply convert_complete in H, K. congruence. Qed.

(** ** The loop *)
Lemma getattr_set c f a g : getattr (setattr c f a) g = if String.eqb f g then option_map (fun _ => a) (getattr c g) else getattr c g.
Proof.
  unfold getattr, setattr, assoc. induction c as [|[x b] c IH]; cbn [map find fst]; [now destruct (String.eqb f g)|].
  destruct (String.eqb_spec x f) as [->|N]; cbn [fst].
  - destruct (String.eqb_spec f g) as [->|M]; [reflexivity|exact IH].
  - destruct (String.eqb_spec x g) as [->|M]; [|exact IH]. destruct (String.eqb_spec f g); [congruence|reflexivity].
Qed.
Lemma hasattr_set c f a g : hasattr (setattr c f a) g = hasattr c g.
Proof.
  unfold hasattr, setattr. induction c as [|[x b] c IH]; cbn [map existsb fst]; [reflexivity|].
  rewrite IH. f_equal. destruct (String.eqb x f); reflexivity.
Qed.
Lemma hasattr_get c f : hasattr c f = true <-> getattr c f <> None.
Proof.
  unfold hasattr, getattr. rewrite existsb_exists. split.
  - intros ([x a] & I & E). cbn in E. apply String.eqb_eq in E. subst. intros N. apply assoc_none in N. apply N.
    apply in_map_iff. now exists (f, a).
  - intros N. destruct (assoc f c) as [a|] eqn:E; [|congruence]. apply assoc_in in E. exists (f, a). split; auto. apply String.eqb_refl.
Qed.
Lemma read_fields_get doc : forall c c', NoDup (map fst doc) -> read_fields doc c = Some c' -> forall f,
  getattr c' f = match getattr c f with
                 | None => None
                 | Some d => match assoc f doc with Some v => convert_field f v | None => Some d end
                 end.
Proof.
  induction doc as [|[g v] doc IH]; intros c c' N H f; cbn [read_fields] in H.
  - injection H as <-. now destruct (getattr c f).
  - inversion N as [|? ? Ng Nd]; subst. rewrite assoc_cons. destruct (hasattr c g) eqn:Hg.
    + destruct (convert_field g v) as [a|] eqn:Ea; [|discriminate]. cbn [option_bind] in H.
      rewrite (IH _ _ Nd H f), getattr_set. destruct (String.eqb_spec g f) as [->|M].
      * destruct (getattr c f) as [d|]; [|reflexivity]. cbn [option_map].
        rewrite (proj2 (assoc_none f doc)) by exact Ng. congruence.
      * reflexivity.
    + rewrite (IH _ _ Nd H f). destruct (String.eqb_spec g f) as [->|M]; [|reflexivity].
      destruct (getattr c f) as [d|] eqn:Ed; [|reflexivity]. exfalso.
      assert (hasattr c f = true) by (apply hasattr_get; congruence). congruence.
Qed.
Lemma read_fields_some doc : forall c,
  (forall f v, In (f, v) doc -> hasattr c f = true -> convert_field f v <> None) <-> read_fields doc c <> None.
Proof.
  induction doc as [|[g v] doc IH]; intros c; cbn [read_fields]; [split; [discriminate|intros _ f v []]|].
  destruct (hasattr c g) eqn:Hg.
  - destruct (convert_field g v) as [a|] eqn:Ea; cbn [option_bind].
    + rewrite <- IH. split; intros H f w I K.
      * rewrite hasattr_set in K. apply H; auto. now right.
      * destruct I as [I|I]; [injection I as <- <-; congruence|]. apply H; auto. now rewrite hasattr_set.
    + split; [|congruence]. intros H. exfalso. apply (H g v); auto. now left.
  - rewrite <- IH. split; intros H f w I K; [apply H; auto; now right|].
    destruct I as [I|I]; [injection I as <- <-; congruence|]. now apply H.
Qed.
Lemma settings_has f : hasattr default_config f = true <-> In f settings.
Proof.
  unfold hasattr. rewrite existsb_exists. change settings with (map fst default_config). rewrite in_map_iff. split.
  - intros (p & I & E). apply String.eqb_eq in E. eauto.
  - intros (p & E & I). exists p. split; auto. now apply String.eqb_eq.
Qed.
Lemma present_spec doc f : present doc f = true <-> exists v, gives doc f v.
Proof.
  unfold present, gives. rewrite existsb_exists. split.
  - intros ([x v] & I & E). apply String.eqb_eq in E. cbn in E. subst. eauto.
  - intros (v & I). exists (f, v). split; auto. apply String.eqb_refl.
Qed.

(** ** C58 *)
(** Every setting has the value the file gives it, or else its default. *)
Theorem C58_settings :
  forall doc c, NoDup (map fst doc) ->
    (forall f v, gives doc f v -> In f activation_fields -> exists l, v = YList l) ->
    read_config doc = Some c ->
    forall f, In f settings ->
      (exists v a, gives doc f v /\ means f v a /\ getattr c f = Some a) \/
      ((forall v, ~ gives doc f v) /\ getattr c f = getattr default_config f).
Proof.
  intros doc c N L H f F. unfold read_config in H. destruct (forallb _ _); [|discriminate].
  pose proof (read_fields_get _ _ _ N H f) as G.
  apply settings_has, hasattr_get in F. destruct (getattr default_config f) as [d|] eqn:Ed; [|congruence].
  destruct (assoc f doc) as [v|] eqn:Ev.
  - left. pose proof (assoc_in _ _ _ Ev) as I.
    assert (S : exists r, read_fields doc default_config = Some r) by eauto.
    assert (C : convert_field f v <> None).
    { apply (proj2 (read_fields_some doc default_config)); [congruence|exact I|]. apply hasattr_get. congruence. }
    destruct (convert_field f v) as [a|] eqn:Ea; [|congruence]. exists v, a. split; [exact I|]. split; [|exact G].
    apply convert_sound; auto. intros K. now apply (L f v).
  - right. split; [|exact G]. intros v I. apply assoc_none in Ev. apply Ev. apply in_map_iff. now exists (f, v).
Qed.

(** A file is accepted as soon as the required fields are there and every setting it gives
    has a meaning. *)
Theorem C58_accepted :
  forall doc,
    (forall f, In f ["SYSTEM"; "CERTIFICATE"; "DOMAINS"; "TIME_DOMAIN"] -> exists v, gives doc f v) ->
    (forall f v, gives doc f v -> In f settings -> exists a, means f v a) ->
    exists c, read_config doc = Some c.
Proof.
  intros doc R M. unfold read_config. replace (forallb (present doc) required_fields) with true.
  - assert (S : read_fields doc default_config <> None).
    { apply read_fields_some. intros f v I K. apply settings_has in K. destruct (M f v I K) as (a & Ha).
      rewrite (convert_complete _ _ _ Ha). discriminate. }
    destruct (read_fields doc default_config) as [c|]; [eauto|congruence].
  - symmetry. apply forallb_forall. intros f I. apply present_spec. now apply R.
Qed.
(** And refused when one is missing, or a choice is not one of the names. *)
Theorem C58_refused :
  forall doc,
    (exists f, In f ["SYSTEM"; "CERTIFICATE"; "DOMAINS"; "TIME_DOMAIN"] /\ forall v, ~ gives doc f v) \/
    (exists f v, gives doc f v /\ In f choice_fields /\ (In f activation_fields -> exists l, v = YList l) /\ forall a, ~ means f v a) ->
    read_config doc = None.
Proof.
  intros doc H. unfold read_config. destruct (forallb (present doc) required_fields) eqn:P; [|reflexivity].
  destruct H as [(f & I & H)|(f & v & G & I & L & H)].
  - rewrite forallb_forall in P. apply P in I. apply present_spec in I. destruct I as (v & I). now elim (H v).
  - destruct (read_fields doc default_config) as [c|] eqn:E; [|reflexivity]. exfalso.
    assert (K : convert_field f v <> None).
    { apply (proj2 (read_fields_some doc default_config)); [congruence|exact G|]. apply settings_has.
      cbn in I. cbn. intuition. }
    destruct (convert_field f v) as [a|] eqn:Ea; [|congruence]. apply (H a). now apply convert_sound.
Qed.
(** The order of the fields does not matter. *)
Lemma setattr_comm c f a g b : f <> g -> setattr (setattr c f a) g b = setattr (setattr c g b) f a.
Proof.
  intros N. unfold setattr. rewrite !map_map. apply map_ext. intros [x d]. cbn [fst].
  destruct (String.eqb_spec x f) as [->|Nf]; cbn [fst].
  - destruct (String.eqb_spec f g); [congruence|]. cbn [fst]. now rewrite String.eqb_refl.
  - destruct (String.eqb_spec x g); cbn [fst]; destruct (String.eqb_spec x f); congruence || reflexivity.
Qed.
Lemma read_fields_perm d1 d2 : Permutation d1 d2 -> NoDup (map fst d1) -> forall c, read_fields d1 c = read_fields d2 c.
Proof.
  induction 1 as [|[f v] l l' P IH|[f v] [g w] l|l1 l2 l3 P1 IH1 P2 IH2]; intros N c.
  - reflexivity.
  - inversion N; subst. cbn [read_fields]. destruct (hasattr c f); [|auto]. destruct (convert_field f v); [|reflexivity].
    cbn [option_bind]. auto.
  - cbn [read_fields]. inversion N as [|? ? Nf N']; subst. cbn in Nf.
    destruct (hasattr c f) eqn:Hf, (hasattr c g) eqn:Hg; rewrite ?Hf, ?Hg.
    + destruct (convert_field f v) as [a|] eqn:Ea, (convert_field g w) as [b|] eqn:Eb; cbn [option_bind];
        rewrite ?hasattr_set, ?Hf, ?Hg, ?Ea, ?Eb; cbn [option_bind]; auto.
      rewrite setattr_comm; [reflexivity|]. intros ->. tauto.
    + destruct (convert_field f v) as [a|]; cbn [option_bind]; rewrite ?hasattr_set, ?Hg; reflexivity.
    + destruct (convert_field g w) as [a|]; cbn [option_bind]; rewrite ?hasattr_set, ?Hf; reflexivity.
    + reflexivity.
  - rewrite IH1 by auto. apply IH2. eapply Permutation_NoDup; [|exact N]. now apply Permutation_map.
Qed.
Theorem C58_order_irrelevant :
  forall doc doc', NoDup (map fst doc) -> Permutation doc doc' -> read_config doc' = read_config doc.
Proof.
  intros doc doc' N P. unfold read_config.
  replace (forallb (present doc') required_fields) with (forallb (present doc) required_fields).
  - destruct (forallb _ _); [|reflexivity]. symmetry. now apply read_fields_perm.
  - assert (X : forall (p q : string -> bool) l, (forall f, p f = q f) -> forallb p l = forallb q l).
    { intros p q l H. induction l as [|x l IH]; [reflexivity|]. cbn [forallb]. now rewrite H, IH. }
    apply X. intros f. apply eq_true_iff_eq. rewrite !present_spec. unfold gives.
    split; intros (v & I); exists v; [eapply Permutation_in; eauto|eapply Permutation_in; [apply Permutation_sym|]; eauto].
Qed.
(** A field with another name is ignored: the settings, and what is read from the other sections. *)
Theorem C58_unknown_ignored :
  forall l1 f v l2, ~ In f settings ->
    let with_field := l1 ++ (f, v) :: l2 in let without := l1 ++ l2 in
    read_config with_field = read_config without /\ read_system with_field = read_system without /\
    read_section with_field = read_section without /\ read_amounts with_field = read_amounts without.
Proof.
  intros l1 f v l2 F. cbn zeta.
  assert (A : forall k, k <> f -> @assoc yaml k (l1 ++ (f, v) :: l2) = assoc k (l1 ++ l2)).
  { intros k K. induction l1 as [|[x a] l1 IH]; cbn [app]; rewrite !assoc_cons.
    - destruct (String.eqb_spec f k); [congruence|reflexivity].
    - now rewrite IH. }
  assert (K : forall k, In k settings -> k <> f) by (intros k I ->; tauto).
  split; [|unfold read_system, read_section, read_amounts; rewrite !A by (apply K; in_list); auto].
  unfold read_config. replace (forallb (present (l1 ++ (f, v) :: l2)) required_fields) with (forallb (present (l1 ++ l2)) required_fields).
  - destruct (forallb _ _); [|reflexivity].
    assert (H : hasattr default_config f = false).
    { destruct (hasattr default_config f) eqn:E; [|reflexivity]. apply settings_has in E. tauto. }
    clear A K. revert H. generalize default_config. induction l1 as [|[x a] l1 IH]; intros c H; cbn [app read_fields].
    + now rewrite H.
    + destruct (hasattr c x); [|now apply IH].
      destruct (convert_field x a); [|reflexivity]. cbn [option_bind]. apply IH. now rewrite hasattr_set.
  - assert (E : forall k, In k required_fields -> present (l1 ++ l2) k = present (l1 ++ (f, v) :: l2) k).
    { intros k I. unfold present. rewrite !existsb_app. cbn [existsb fst].
      destruct (String.eqb_spec f k) as [->|]; [|reflexivity]. elim F. cbn in I. cbn. intuition. }
    clear -E. induction required_fields as [|k ks IH]; [reflexivity|]. cbn [forallb]. rewrite IH, (E k); auto; [now left|].
    intros k' I. apply E. now right.
Qed.
(** Settings with a default that does not help: without N_DATA the file is refused, without
    N_VARS the system has no variables. *)
Theorem C58_defaults_refuted :
  (forall doc, (forall v, ~ gives doc "N_DATA" v) -> read_amounts doc = None) /\
  getattr default_config "N_DATA" = Some (Raw (YInt 500)) /\
  (forall doc c, NoDup (map fst doc) -> (forall v, ~ gives doc "N_VARS" v) -> read_config doc = Some c ->
     getattr c "N_VARS" = Some (Raw (YInt 0))).
Proof.
  split; [|split; [reflexivity|]].
  - intros doc H. unfold read_amounts. rewrite (proj2 (assoc_none "N_DATA" doc)); [reflexivity|].
    intros I. apply in_map_iff in I. destruct I as ([x v] & E & I). cbn in E. subst. now elim (H v).
  - intros doc c N H E. unfold read_config in E. destruct (forallb _ _); [|discriminate].
    rewrite (read_fields_get _ _ _ N E). rewrite (proj2 (assoc_none "N_VARS" doc)); [reflexivity|].
    intros I. apply in_map_iff in I. destruct I as ([x v] & Ex & I). cbn in Ex. subst. now elim (H v).
Qed.
(** A dictionary, or an empty string, passes for a list of activations. *)
Theorem C58_lenient_refuted :
  (forall d l, Forall2 (fun p a => spelled (fst p) (activation_name a)) d l ->
     convert_field "ACTIVATION" (YMap d) = Some (Activations l)) /\
  convert_field "ACTIVATION" (YStr "") = Some (Activations []).
Proof.
  split; [|reflexivity]. intros d l H. unfold convert_field. cbn [String.eqb Ascii.eqb Bool.eqb orb].
  replace (read_activations (YMap d)) with (Some l); [reflexivity|]. symmetry.
  unfold read_activations. cbn [iterate option_bind]. apply map_opt_Forall2.
  induction H as [|[s y] a d l E H IH]; cbn [map fst] in *; constructor; auto.
  now apply (enum_spec activation_name activation_names); auto using activation_capital, activation_table.
Qed.

(** ** README.md:32-48 *)
Definition readme : document :=
  [("N_VARS", YInt 2); ("SYSTEM", YList [YStr "x1 - x0**3"; YStr "u0"]); ("CERTIFICATE", YStr "Lyapunov");
   ("TIME_DOMAIN", YStr "CONTINUOUS"); ("DOMAINS", YMap [("XD", YStr "Torus([0,0], 1.0, 0.01)")]);
   ("N_DATA", YMap [("XD", YInt 1000)]); ("N_HIDDEN_NEURONS", YList [YInt 5; YInt 5]);
   ("ACTIVATION", YList [YStr "SIGMOID"; YStr "SQUARE"]); ("CTRLAYER", YList [YInt 5; YInt 1]);
   ("CTRLACTIVATION", YList [YStr "LINEAR"]); ("VERIFIER", YStr "DREAL")].
Example C58_example :
  NoDup (map fst readme) /\
  (forall f v, gives readme f v -> In f activation_fields -> exists l, v = YList l) /\
  (exists c, read_config readme = Some c /\ getattr c "CERTIFICATE" = Some (Certificate LYAPUNOV) /\
     getattr c "ACTIVATION" = Some (Activations [SIGMOID; SQUARE]) /\ getattr c "ROUNDING" = Some (Raw (YInt 3))) /\
  read_system readme = Some ["x1 - x0**3"; "u0"] /\
  spelled "Lyapunov" "LYAPUNOV" /\ ~ In "N_VAR" settings.
Proof.
  split; [|split; [|split; [|split; [|split]]]].
  - repeat (constructor; [cbn; intuition discriminate|]). constructor.
  - intros f v G I. cbn in G. cbn in I.
    repeat (destruct G as [G|G]; [injection G as <- <-; first [now eauto|exfalso; intuition discriminate]|]). easy.
  - eexists. split; [vm_compute; reflexivity|]. vm_compute. auto.
  - reflexivity.
  - apply spelled_upper; [apply (certificate_capital LYAPUNOV)|reflexivity].
  - cbn. intuition discriminate.
Qed.

(** ** The number of samples *)
(** N_DATA is one number for all sets, or a number for each of the sets named; it must be given. *)
Theorem C58_amounts :
  forall doc, NoDup (map fst doc) ->
    (forall k, gives doc "N_DATA" (YInt (Z.of_nat k)) -> read_amounts doc = Some (Scalar k)) /\
    (forall d, gives doc "N_DATA" (YMap (map (fun p => (label_name (fst p), YInt (Z.of_nat (snd p)))) d)) -> read_amounts doc = Some (PerSet d)) /\
    (forall z, gives doc "N_DATA" (YInt z) -> (z < 0)%Z -> read_amounts doc = None) /\
    ((forall v, ~ gives doc "N_DATA" v) -> read_amounts doc = None).
Proof.
  intros doc N.
  assert (A : forall k, as_nat (YInt (Z.of_nat k)) = Some k).
  { intros k. cbn. destruct (Z.leb_spec 0 (Z.of_nat k)); [|lia]. now rewrite Nat2Z.id. }
  split; [|split; [|split]].
  - intros k G. unfold read_amounts. rewrite (assoc_nodup _ _ _ N G). cbn [option_bind]. now rewrite A.
  - intros d G. unfold read_amounts. rewrite (assoc_nodup _ _ _ N G). cbn [option_bind].
    assert (E : map_opt (fun p : string * yaml => option_bind (label_of_name (fst p)) (fun l => option_map (pair l) (as_nat (snd p))))
                  (map (fun p => (label_name (fst p), YInt (Z.of_nat (snd p)))) d) = Some d).
    { clear G. induction d as [|[l k] d IH]; [reflexivity|]. cbn [map map_opt fst snd].
      assert (El : label_of_name (label_name l) = Some l) by (destruct l; reflexivity).
      rewrite El. cbn [option_bind]. rewrite A. cbn [option_map option_bind]. now rewrite IH. }
    now rewrite E.
  - intros z G Hz. unfold read_amounts. rewrite (assoc_nodup _ _ _ N G). cbn [option_bind]. cbn. destruct (Z.leb_spec 0 z); [lia|reflexivity].
  - intros G. unfold read_amounts. destruct (assoc "N_DATA" doc) as [v|] eqn:E; [|reflexivity]. elim (G v). now apply assoc_in.
Qed.
Example C58_amounts_example : gives readme "N_DATA" (YMap (map (fun p => (label_name (fst p), YInt (Z.of_nat (snd p)))) [(XD, Z.to_nat 1000)])) /\
  gives [("N_DATA", YInt 500)] "N_DATA" (YInt (Z.of_nat (Z.to_nat 500))).
Proof. split; cbn [map fst snd label_name]; rewrite Z2Nat.id by lia; cbn; tauto. Qed.
