(** Property C37, on characters: the text of an expression has its usual meaning. *)
From Coquelicot Require Import Coquelicot.
From Coq Require Import Reals QArith Qreals Bool Arith Lra Lia Decimal Ascii String List.
From Verif Require Import M_Syntax M_Activations M_Parser M_DomainParser M_Lexer S_Parser S_DomainParser S_Lexer
  P_Parser P_DomainParser.
Import ListNotations.
Local Open Scope list_scope.
Local Open Scope R_scope.

(** * Tokens up to equal numbers *)
Inductive tok_eq : token -> token -> Prop :=
| te_num q q' : Q2R q = Q2R q' -> tok_eq (TNum q) (TNum q')
| te_same t : tok_eq t t.
Inductive tree_eq : tree -> tree -> Prop :=
| tr_num q q' : Q2R q = Q2R q' -> tree_eq (CNum q) (CNum q')
| tr_var k d : tree_eq (CVar k d) (CVar k d)
| tr_fun f a b : tree_eq a b -> tree_eq (CFun f a) (CFun f b)
| tr_paren a b : tree_eq a b -> tree_eq (CParen a) (CParen b)
| tr_neg a b : tree_eq a b -> tree_eq (CNeg a) (CNeg b)
| tr_bin o a b a' b' : tree_eq a a' -> tree_eq b b' -> tree_eq (CBin o a b) (CBin o a' b').

Lemma tok_eq_not_num t t' : tok_eq t t' -> (forall q, t <> TNum q) -> t' = t.
Proof. intros [q q' E|t0] N; [now elim (N q)|reflexivity]. Qed.
Lemma text_eq : forall t ks, Forall2 tok_eq (S_Parser.text t) ks -> exists t', ks = S_Parser.text t' /\ tree_eq t t'.
Proof.
  induction t as [q|k d|f t IH|t IH|t IH|o a IHa b IHb]; intros ks H; cbn [S_Parser.text] in H.
  - inversion H as [|x y l l' E F]; subst. inversion F; subst.
    inversion E; subst; [exists (CNum q'); split; [reflexivity|now constructor]|exists (CNum q); split; [reflexivity|now constructor]].
  - inversion H as [|x y l l' E F]; subst. inversion F; subst. inversion E; subst.
    exists (CVar k d). split; [reflexivity|constructor].
  - inversion H as [|x y l l' E F]; subst. inversion E; subst. inversion F as [|x1 y1 l1 l1' E1 F1]; subst.
    inversion E1; subst. apply Forall2_app_inv_l in F1. destruct F1 as (k1 & k2 & F1 & F2 & ->).
    destruct (IH _ F1) as (t' & -> & T). inversion F2 as [|x2 y2 l2 l2' E2 F3]; subst. inversion F3; subst.
    inversion E2; subst. exists (CFun f t'). split; [reflexivity|now constructor].
  - inversion H as [|x1 y1 l1 l1' E1 F1]; subst.
    inversion E1; subst. apply Forall2_app_inv_l in F1. destruct F1 as (k1 & k2 & F1 & F2 & ->).
    destruct (IH _ F1) as (t' & -> & T). inversion F2 as [|x2 y2 l2 l2' E2 F3]; subst. inversion F3; subst.
    inversion E2; subst. exists (CParen t'). split; [reflexivity|now constructor].
  - inversion H as [|x y l l' E F]; subst. inversion E; subst. destruct (IH _ F) as (t' & -> & T).
    exists (CNeg t'). split; [reflexivity|now constructor].
  - apply Forall2_app_inv_l in H. destruct H as (k1 & k2 & F1 & F2 & ->).
    destruct (IHa _ F1) as (a' & -> & Ta). inversion F2 as [|x y l l' E F]; subst. inversion E; subst.
    destruct (IHb _ F) as (b' & -> & Tb). exists (CBin o a' b'). split; [reflexivity|now constructor].
Qed.

Lemma tree_eq_value i t t' : tree_eq t t' -> value i t = value i t'.
Proof.
  induction 1 as [q q' E|k d|f a b _ IH|a b _ IH|a b _ IH|o a b a' b' _ IHa _ IHb]; cbn; try congruence.
  destruct o; congruence.
Qed.
Lemma tree_eq_std : forall c t, std c t -> forall t', tree_eq t t' -> std c t'.
Proof.
  induction 1; intros t' T; try (inversion T; subst; constructor; auto; fail); try (now constructor; auto).
Qed.
Lemma tree_eq_pow t t' : tree_eq t t' -> (forall a b, t <> CBin OPow a b) -> forall a b, t' <> CBin OPow a b.
Proof. intros [] N a0 b0 E; try discriminate. inversion E; subst. now elim (N a b). Qed.
Lemma tree_eq_minus t t' : tree_eq t t' -> no_minus_power t -> no_minus_power t'.
Proof.
  induction 1 as [q q' E|k d|f a b _ IH|a b _ IH|a b H IH|o a b a' b' _ IHa _ IHb]; cbn; try tauto.
  intros [N M]. split; [|auto]. now apply (tree_eq_pow a).
Qed.
Lemma tree_eq_opens : forall t t', tree_eq t t' -> opens t' -> opens t.
Proof.
  intros t t' H [r Hr]. assert (A : exists k l, S_Parser.text t = k :: l /\ (k = TLpar <-> exists l', S_Parser.text t' = TLpar :: l')).
  { clear Hr r. induction H as [q q' E|k d|f a b _ IH|a b _ IH|a b _ IH|o a b a' b' _ IHa _ IHb];
      cbn [S_Parser.text].
    1-5: do 2 eexists; split; [reflexivity|]; split; [intros E0|intros (l' & E0)]; try discriminate; eauto.
    destruct IHa as (k & l & -> & K). cbn [app]. do 2 eexists. split; [reflexivity|]. rewrite K.
    split; intros (l' & E); [rewrite E; cbn; eauto|]. destruct (S_Parser.text a') as [|x l0] eqn:Ea; cbn in E.
    - exfalso. clear - Ea. destruct a'; cbn in Ea; try discriminate. now destruct (S_Parser.text a'1).
    - inversion E; subst. eauto. }
  destruct A as (k & l & E & K). exists l. rewrite E. f_equal. apply K. eauto.
Qed.
Lemma tree_eq_double t t' : tree_eq t t' -> no_double_paren t -> no_double_paren t'.
Proof.
  induction 1 as [q q' E|k d|f a b H IH|a b H IH|a b H IH|o a b a' b' _ IHa _ IHb]; cbn; try tauto;
    intros [N M]; (split; [intros O; apply N; now apply (tree_eq_opens _ _ H)|auto]).
Qed.
Lemma tree_eq_plain t t' : tree_eq t t' -> plain_arguments t -> plain_arguments t'.
Proof.
  induction 1 as [q q' E|k d|f a b H IH|a b H IH|a b H IH|o a b a' b' _ IHa _ IHb]; cbn; try tauto.
  intros [N M]; (split; [intros O; apply N; now apply (tree_eq_opens _ _ H)|auto]).
Qed.
Lemma tree_eq_functions t t' : tree_eq t t' -> no_functions t -> no_functions t'.
Proof. induction 1; cbn; tauto. Qed.

(** * Reading one token *)
Definition wide (k : token) : Prop := wordlike k = true.
(** Which token may follow without white space in between. *)
Definition apart (k k' : token) : Prop :=
  ~ (wide k /\ wide k') /\ ~ (k = TOp OMul /\ (k' = TOp OMul \/ k' = TOp OPow)).
(** What the next character may be after the token [k]. *)
Definition clear (k : token) (r : S_DomainParser.text) : Prop :=
  match r with
  | [] => True
  | c :: _ => (wide k -> is_ident c = false /\ c <> "."%char) /\ (k = TOp OMul -> c <> "*"%char)
  end.

Lemma digit_ident c : is_digit c = true -> is_ident c = true.
Proof. intros H. unfold is_ident. now rewrite H. Qed.
Lemma clear_ends k r : wide k -> clear k r -> ends r.
Proof.
  intros W C. destruct r as [|c r]; [exact I|]. cbn in *. destruct C as [C _]. destruct (C W) as [C1 _].
  destruct (is_digit c) eqn:D; auto. now rewrite digit_ident in C1.
Qed.
Lemma clear_stops k r : wide k -> clear k r -> stops r.
Proof.
  intros W C. pose proof (clear_ends k r W C) as E. destruct r as [|c r]; [exact I|]. cbn in *.
  split; auto. now apply C.
Qed.

Lemma index_digits d : Forall (fun c => (48 <= nat_of_ascii c <= 57)%nat) (index_text d).
Proof. induction d; cbn; constructor; auto; cbn; lia. Qed.
Lemma uint_of_index d : uint_of (index_text d) = d.
Proof. induction d; cbn [index_text uint_of]; rewrite ?IHd; reflexivity. Qed.

Lemma unsigned_integer ds r : numeral ds -> stops r ->
  unsigned (ds ++ r) = Some ((nat_of_digits ds # 1)%Q, r).
Proof.
  intros [N F] S. unfold unsigned. rewrite digits_run by auto using stops_ends.
  destruct ds as [|c ds]; [congruence|]. destruct r as [|c' r]; [reflexivity|]. cbn in S.
  destruct (Ascii.eqb_spec c' "."); [tauto|reflexivity].
Qed.
Lemma unsigned_decimal ds fs r : numeral ds -> numeral fs -> ends r ->
  unsigned (ds ++ ["."%char] ++ fs ++ r) = Some ((nat_of_digits (ds ++ fs) # Z.to_pos (10 ^ Z.of_nat (length fs)))%Q, r).
Proof.
  intros [N F] [N' F'] S. unfold unsigned. cbn [app]. rewrite digits_run by (auto; reflexivity).
  destruct ds as [|c ds]; [congruence|]. cbn [Ascii.eqb Bool.eqb]. rewrite digits_run by auto.
  destruct fs as [|f fs]; [congruence|reflexivity].
Qed.

Lemma token_first k t : token_text k t -> exists c t', t = c :: t' /\ is_space c = false /\
  (wide k -> is_ident c = true) /\ (~ wide k -> is_ident c = false /\ c <> "."%char) /\
  (c = "*"%char -> k = TOp OMul \/ k = TOp OPow).
Proof.
  assert (A : forall q ds, numeral ds -> exists c t', ds = c :: t' /\ is_space c = false /\
    (wide (TNum q) -> is_ident c = true) /\ (~ wide (TNum q) -> is_ident c = false /\ c <> "."%char) /\
    (c = "*"%char -> TNum q = TOp OMul \/ TNum q = TOp OPow)).
  { intros q [|c ds] [N F]; [congruence|]. inversion F; subst. assert (D : is_digit c = true) by now apply digit_range.
    exists c, ds. refine (conj eq_refl (conj (digit_not_space c D) (conj (fun _ => digit_ident c D) (conj _ _)))).
    - intros W. now elim W.
    - intros ->. discriminate D. }
  intros [q ds H _|q ds fs H _ _|d|d| | | | | | | | | | | | |];
    [now apply A|destruct (A q ds H) as (c & t' & -> & B); exists c; eexists; split; [reflexivity|exact B]|..];
    (eexists; eexists; split; [reflexivity|]; refine (conj eq_refl (conj _ (conj _ _)));
     intros W; try reflexivity; try (now elim W); try discriminate; auto; split; (reflexivity || discriminate)).
Qed.

Lemma is_digit_letter : forall c, is_digit c = true -> forall d, is_digit d = false -> Ascii.eqb c d = false.
Proof. intros c H d D. destruct (Ascii.eqb_spec c d); [congruence|reflexivity]. Qed.

Lemma lex_token : forall k t r, token_text k t -> clear k r ->
  exists k', tok_eq k k' /\ lex_one false (t ++ r) = Some (k', r) /\ wordlike k' = wordlike k /\
    (forall prev, ~ wide k -> lex_one prev (t ++ r) = Some (k', r)).
Proof.
  intros k t r H C.
  assert (NUM : forall ds tl, numeral ds -> lex_one false (ds ++ tl) = option_map (fun p => (TNum (fst p), snd p)) (unsigned (ds ++ tl))).
  { intros [|c ds] tl [N F]; [congruence|]. inversion F; subst. cbn [app lex_one].
    now rewrite (proj1 (digit_range c)). }
  destruct H as [q ds H V|q ds fs H H' V|d|d| | | | | | | | | | | | |].
  - exists (TNum (nat_of_digits ds # 1)). assert (W : wide (TNum q)) by reflexivity. repeat split.
    + constructor. rewrite V. unfold Q2R. cbn [Qnum Qden]. rewrite nat_of_digits_whole, Rinv_1. ring.
    + rewrite NUM, unsigned_integer; auto. now apply (clear_stops (TNum q)).
    + intros prev N. now elim N.
  - exists (TNum (nat_of_digits (ds ++ fs) # Z.to_pos (10 ^ Z.of_nat (length fs)))).
    assert (W : wide (TNum q)) by reflexivity. repeat split.
    + constructor. rewrite V, Q2R_frac, nat_of_digits_whole, whole_app, (whole_fraction fs). field.
      apply pow_nonzero. lra.
    + rewrite <- !app_assoc. rewrite NUM, unsigned_decimal; auto. now apply (clear_ends (TNum q)).
    + intros prev N. now elim N.
  - exists (TVar VX d). repeat split; [constructor| |intros prev N; now elim N].
    cbn [app lex_one]. cbn [is_digit nat_of_ascii]. replace (is_digit "x") with false by reflexivity.
    cbn [Ascii.eqb Bool.eqb]. rewrite digits_run by (try apply index_digits; now apply (clear_ends (TVar VX d))).
    now rewrite uint_of_index.
  - exists (TVar VU d). repeat split; [constructor| |intros prev N; now elim N].
    cbn [app lex_one]. replace (is_digit "u") with false by reflexivity.
    cbn [Ascii.eqb Bool.eqb]. rewrite digits_run by (try apply index_digits; now apply (clear_ends (TVar VU d))).
    now rewrite uint_of_index.
  - exists (TFun FSin). repeat split; [constructor| |intros prev N; now elim N].
    destruct r as [|c r]; [reflexivity|]. destruct C as [C _]. destruct (C eq_refl) as [C1 _].
    cbn. unfold keyword_here. cbn. now rewrite C1.
  - exists (TFun FCos). repeat split; [constructor| |intros prev N; now elim N].
    destruct r as [|c r]; [reflexivity|]. destruct C as [C _]. destruct (C eq_refl) as [C1 _].
    cbn. unfold keyword_here. cbn. now rewrite C1.
  - exists (TFun FExp). repeat split; [constructor| |intros prev N; now elim N].
    destruct r as [|c r]; [reflexivity|]. destruct C as [C _]. destruct (C eq_refl) as [C1 _].
    cbn. unfold keyword_here. cbn. now rewrite C1.
  - exists (TFun FLog). repeat split; [constructor| |intros prev N; now elim N].
    destruct r as [|c r]; [reflexivity|]. destruct C as [C _]. destruct (C eq_refl) as [C1 _].
    cbn. unfold keyword_here. cbn. now rewrite C1.
  - exists (TFun FSqrt). repeat split; [constructor| |intros prev N; now elim N].
    destruct r as [|c r]; [reflexivity|]. destruct C as [C _]. destruct (C eq_refl) as [C1 _].
    cbn. unfold keyword_here. cbn. now rewrite C1.
  - exists (TFun FTanh). repeat split; [constructor| |intros prev N; now elim N].
    destruct r as [|c r]; [reflexivity|]. destruct C as [C _]. destruct (C eq_refl) as [C1 _].
    cbn. unfold keyword_here. cbn. now rewrite C1.
  - exists (TOp OAdd). repeat split; constructor.
  - exists (TOp OSub). repeat split; constructor.
  - exists (TOp OMul). assert (E : forall prev, lex_one prev (["*"%char] ++ r) = Some (TOp OMul, r)).
    { intros prev. cbn. destruct r as [|c r]; [reflexivity|]. destruct C as [_ C].
      destruct (Ascii.eqb_spec c "*") as [->|]; [now elim (C eq_refl)|reflexivity]. }
    repeat split; auto; constructor.
  - exists (TOp ODiv). repeat split; constructor.
  - exists (TOp OPow). repeat split; constructor.
  - exists TLpar. repeat split; constructor.
  - exists TRpar. repeat split; constructor.
Qed.

(** * The whole text *)
Fixpoint separated (ks : list token) : Prop :=
  match ks with
  | k :: l => match l with k' :: _ => apart k k' /\ separated l | [] => True end
  | [] => True
  end.
Lemma space_clear k c r : is_space c = true -> clear k (c :: r).
Proof.
  intros H. cbn. assert (A : is_ident c = false /\ c <> "."%char /\ c <> "*"%char).
  { unfold is_space in H. assert (E : forall m, nat_of_ascii c = m -> c = ascii_of_nat m) by (intros m <-; now rewrite ascii_nat_embedding).
    rewrite !orb_true_iff, !Nat.eqb_eq in H. destruct H as [[[H|H]|H]|H]; apply E in H; subst; repeat split; discriminate. }
  tauto.
Qed.
Lemma clear_next k b k' t r : blank b -> token_text k' t -> (b = [] -> apart k k') -> clear k (b ++ t ++ r).
Proof.
  intros B T A. destruct b as [|c b].
  - destruct (token_first k' t T) as (c & t' & -> & S & W & W' & M). cbn. destruct (A eq_refl) as [A1 A2]. split.
    + intros Wk. apply W'. intros Wk'. now apply A1.
    + intros E Ec. apply A2. split; auto.
  - cbn [app]. apply space_clear. apply blank_space in B. now inversion B.
Qed.

Lemma lex_spaced : forall ks cs, spaced ks cs -> separated ks -> forall fuel prev,
  (length ks <= fuel)%nat ->
  (prev = true -> match ks with k :: _ => ~ wide k \/ starts_space cs = true | [] => True end) ->
  exists ks', Forall2 tok_eq ks ks' /\ lex fuel prev cs = Some ks'.
Proof.
  induction 1 as [b B|b k t ks ts B T Hs IH]; intros Sep fuel prev Hf Hp.
  - exists []. split; [constructor|]. destruct fuel; cbn [lex]; rewrite <- (app_nil_r b), (skip_blank b [] B); reflexivity.
  - destruct fuel as [|fuel]; [cbn in Hf; lia|].
    assert (C : clear k ts).
    { destruct Hs as [b' B'|b' k' t' ks' ts' B' T' Hs'].
      - destruct B' as [|c b' Hc B']; [exact I|]. apply space_clear.
        destruct Hc as [-> | [-> | [-> | ->]]]; reflexivity.
      - apply (clear_next _ _ k'); auto. intros _. apply Sep. }
    destruct (lex_token k t ts T C) as (k' & E & L1 & W & L2).
    destruct (token_first k t T) as (c & t' & Et & S & _).
    assert (Sk : skip (b ++ t ++ ts) = t ++ ts) by (rewrite skip_blank by auto; subst; now apply skip_visible).
    cbn [lex]. rewrite Sk.
    assert (L : lex_one (prev && negb (starts_space (b ++ t ++ ts))) (t ++ ts) = Some (k', ts)).
    { destruct (prev && negb (starts_space (b ++ t ++ ts))) eqn:Ep; [|exact L1].
      apply L2. apply andb_true_iff in Ep. destruct Ep as [-> Es]. destruct (Hp eq_refl) as [N|N]; auto.
      rewrite N in Es. discriminate. }
    destruct (t ++ ts) as [|c0 r0] eqn:Ets; [subst t; discriminate|]. rewrite L. cbn [option_bind].
    destruct (IH (match ks as l return separated (k :: l) -> separated l with [] => fun _ => I | _ => fun s => proj2 s end Sep)
      fuel (wordlike k')) as (ks' & F & El).
    + cbn in Hf. lia.
    + rewrite W. intros Wk. destruct ks as [|k2 ks]; auto. left. intros W2. destruct Sep as [[A _] _]. apply A. split; assumption.
    + rewrite El. exists (k' :: ks'). split; [now constructor|reflexivity].
Qed.

(** Texts of trees need no white space. *)
Definition last_word (ks : list token) (k : token) : Prop := exists l, ks = l ++ [k].
Lemma separated_app : forall l1 k k' l2, separated (l1 ++ [k]) -> separated (k' :: l2) -> apart k k' ->
  separated ((l1 ++ [k]) ++ k' :: l2).
Proof.
  induction l1 as [|a l1 IH]; intros k k' l2 S1 S2 A; [cbn in *; tauto|].
  specialize (IH k k' l2). change ((a :: l1) ++ [k]) with (a :: (l1 ++ [k])) in *.
  destruct (l1 ++ [k]) as [|b l] eqn:E; [now destruct l1|].
  change (apart a b /\ separated (b :: l)) in S1. destruct S1 as [S1 S1'].
  change (apart a b /\ separated ((b :: l) ++ k' :: l2)). auto.
Qed.
Definition opening (k : token) : Prop := wide k \/ k = TLpar \/ k = TOp OSub.
Definition closing (k : token) : Prop := match k with TNum _ | TVar _ _ | TRpar => True | _ => False end.
Lemma text_shape t : separated (S_Parser.text t) /\
  (exists k l, S_Parser.text t = k :: l /\ opening k) /\ (exists l k, S_Parser.text t = l ++ [k] /\ closing k).
Proof.
  assert (AO : forall k, opening k -> forall p, (forall q, p <> TNum q) -> (forall v d, p <> TVar v d) -> (forall f, p <> TFun f) -> apart p k).
  { intros k Ok p N1 N2 N3. split.
    - intros [W _]. destruct p; try discriminate; congruence.
    - intros [-> [-> | ->]]; destruct Ok as [Ok|[Ok|Ok]]; discriminate. }
  assert (CO : forall k, closing k -> forall p, (forall q, p <> TNum q) -> (forall v d, p <> TVar v d) -> (forall f, p <> TFun f) -> apart k p).
  { intros k Ck p N1 N2 N3. split.
    - intros [_ W]. destruct p; try discriminate; congruence.
    - intros [-> _]. contradiction. }
  induction t as [q|k d|f t (S & (k1 & l1 & E1 & O1) & (l2 & k2 & E2 & C2))|t (S & (k1 & l1 & E1 & O1) & (l2 & k2 & E2 & C2))
                 |t (S & (k1 & l1 & E1 & O1) & (l2 & k2 & E2 & C2))
                 |o a (Sa & (ka & la & Ea & Oa) & (la2 & ka2 & Ea2 & Ca)) b (Sb & (kb & lb & Eb & Ob) & (lb2 & kb2 & Eb2 & Cb))];
    cbn [S_Parser.text].
  - split; [exact I|]. split; [do 2 eexists; split; [reflexivity|now left]|exists [], (TNum q); split; reflexivity].
  - split; [exact I|]. split; [do 2 eexists; split; [reflexivity|now left]|exists [], (TVar k d); split; reflexivity].
  - split; [|split; [do 2 eexists; split; [reflexivity|now left]|exists (TFun f :: TLpar :: S_Parser.text t), TRpar; split; reflexivity]].
    rewrite E2. split; [split; [intros [_ W]; discriminate|intros [E _]; discriminate]|].
    assert (K : separated ((l2 ++ [k2]) ++ [TRpar])).
    { apply separated_app; [now rewrite <- E2|exact I|]. apply CO; congruence. }
    rewrite <- E2, E1 in *. cbn [app] in *. split; [apply AO; congruence|exact K].
  - split; [|split; [do 2 eexists; split; [reflexivity|right; now left]|exists (TLpar :: S_Parser.text t), TRpar; split; reflexivity]].
    rewrite E2. 
    assert (K : separated ((l2 ++ [k2]) ++ [TRpar])).
    { apply separated_app; [now rewrite <- E2|exact I|]. apply CO; congruence. }
    rewrite <- E2, E1 in *. cbn [app] in *. split; [apply AO; congruence|exact K].
  - split; [|split; [do 2 eexists; split; [reflexivity|right; now right]|exists (TOp OSub :: l2), k2; split; [now rewrite E2|exact C2]]].
    rewrite E1 in *. split; [apply AO; congruence|exact S].
  - split; [|split].
    + rewrite Ea2. apply separated_app; [now rewrite <- Ea2| |apply CO; congruence].
      rewrite Eb in *. split; [apply AO; congruence|exact Sb].
    + rewrite Ea. cbn [app]. do 2 eexists. split; [reflexivity|exact Oa].
    + exists (S_Parser.text a ++ TOp o :: lb2), kb2. rewrite Eb2, <- app_assoc. split; [reflexivity|exact Cb].
Qed.

Lemma spaced_length ks cs : spaced ks cs -> (length ks <= length cs)%nat.
Proof.
  induction 1 as [b B|b k t ks ts B T Hs IH]; cbn [length]; [lia|].
  destruct (token_first k t T) as (c & t' & -> & _). rewrite !app_length. cbn [length]. lia.
Qed.
Lemma written_tokens t s : written t s -> exists t', tokens s = Some (S_Parser.text t') /\ tree_eq t t'.
Proof.
  intros H. destruct (lex_spaced _ _ H (proj1 (text_shape t)) (length (list_ascii_of_string s)) false) as (ks & F & E).
  - now apply spaced_length.
  - discriminate.
  - destruct (text_eq t ks F) as (t' & -> & T). exists t'. split; auto.
Qed.

(** * C37 on characters *)
Theorem C37_characters lib i t s f1 f2 a v :
  written t s -> std Sum t -> no_minus_power t -> (lib = LibSympy -> plain_arguments t) ->
  parse_text f1 f2 s = Some a -> aval lib i a = Some v -> v = value i t.
Proof.
  intros W Hs Hn Hl E Ev. destruct (written_tokens t s W) as (t' & Et & T).
  unfold parse_text in E. rewrite Et in E. cbn [option_bind] in E.
  rewrite (tree_eq_value i t t' T).
  eapply C37_usual_precedence; eauto.
  - now apply (tree_eq_std _ t).
  - now apply (tree_eq_minus t).
  - intros L. now apply (tree_eq_plain t); auto.
Qed.

Theorem C37_characters_accepted lib i t s :
  written t s -> std Sum t -> no_minus_power t -> no_double_paren t -> (lib = LibSMT -> no_functions t) ->
  exists f1 f2 a, parse_text f1 f2 s = Some a /\ aval lib i a = Some (value i t).
Proof.
  intros W Hs Hn Hd Hf. destruct (written_tokens t s W) as (t' & Et & T).
  unfold parse_text. rewrite Et. cbn [option_bind]. rewrite (tree_eq_value i t t' T).
  apply C37_accepted.
  - now apply (tree_eq_std _ t).
  - now apply (tree_eq_minus t).
  - now apply (tree_eq_double t).
  - intros L. now apply (tree_eq_functions t); auto.
Qed.

(** The hypotheses hold for a concrete text: "- x0 + 1.5*sin(x1)**2". *)
Definition demo_text : string := "- x0 + 1.5*sin(x1)**2".
Definition demo_tree : tree :=
  CBin OAdd (CNeg (CVar VX (D0 Nil)))
    (CBin OMul (CNum (3 # 2)) (CBin OPow (CFun FSin (CVar VX (D1 Nil))) (CNum (2 # 1)))).
Theorem C37_characters_example :
  written demo_tree demo_text /\ std Sum demo_tree /\ no_minus_power demo_tree /\ no_double_paren demo_tree /\
  exists f1 f2 a, parse_text f1 f2 demo_text = Some a /\
    forall i, aval LibDReal i a = Some (- i_var i VX (D0 Nil) + 3 / 2 * i_pow i (i_fun i FSin (i_var i VX (D1 Nil))) 2).
Proof.
  assert (B0 : blank []) by constructor.
  assert (B1 : blank [" "%char]) by (constructor; [now left|constructor]).
  assert (N : forall c, (48 <= nat_of_ascii c <= 57)%nat -> numeral [c]).
  { intros c H. split; [discriminate|]. constructor; [exact H|constructor]. }
  assert (V : forall c k, (nat_of_ascii c - 48)%nat = k -> digit_value c = INR k) by (intros c k <-; reflexivity).
  assert (Q : Q2R (3 # 2) = 3 / 2) by (unfold Q2R; cbn [Qnum Qden]; lra).
  assert (Q' : Q2R (2 # 1) = 2) by (unfold Q2R; cbn [Qnum Qden]; lra).
  split; [|split; [|split; [|split]]].
  - unfold written, demo_tree. cbn [S_Parser.text app].
    apply (spaced_cons [] _ ["-"%char]); [auto|constructor|].
    apply (spaced_cons [" "%char] _ ["x"%char; "0"%char]); [auto|apply (tt_state (D0 Nil))|].
    apply (spaced_cons [" "%char] _ ["+"%char]); [auto|constructor|].
    apply (spaced_cons [" "%char] _ (["1"%char] ++ ["."%char] ++ ["5"%char])); [auto| |].
    { apply tt_decimal; [apply N; cbn; lia|apply N; cbn; lia|]. rewrite Q. cbn [whole fraction length pow]. rewrite (V "1"%char 1%nat), (V "5"%char 5%nat) by reflexivity. cbn [INR]. lra. }
    apply (spaced_cons [] _ ["*"%char]); [auto|constructor|].
    apply (spaced_cons [] _ (list_ascii_of_string "sin")); [auto|constructor|].
    apply (spaced_cons [] _ ["("%char]); [auto|constructor|].
    apply (spaced_cons [] _ ["x"%char; "1"%char]); [auto|apply (tt_state (D1 Nil))|].
    apply (spaced_cons [] _ [")"%char]); [auto|constructor|].
    apply (spaced_cons [] _ ["*"%char; "*"%char]); [auto|constructor|].
    apply (spaced_cons [] _ ["2"%char]); [auto| |].
    { apply tt_integer; [apply N; cbn; lia|]. rewrite Q'. cbn [whole length pow]. rewrite (V "2"%char 2%nat) by reflexivity. cbn [INR]. lra. }
    constructor. constructor.
  - unfold demo_tree. repeat constructor.
  - unfold demo_tree. cbn. intuition discriminate.
  - unfold demo_tree. cbn. repeat split; try (intros [r E]; discriminate E).
  - exists 60%nat, 60%nat. eexists. split; [vm_compute; reflexivity|]. intros i. cbn -[Q2R].
    repeat f_equal; unfold Q2R; cbn [Qnum Qden]; lra.
Qed.
