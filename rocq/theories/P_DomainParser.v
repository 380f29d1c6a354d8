(** Property C56: the text of a set denotes that set. *)
From Coquelicot Require Import Coquelicot.
From Coq Require Import Reals QArith Qreals Bool Arith Lra Lia Ascii String List.
From Verif Require Import M_Syntax M_Verifier M_Activations M_Domains S_Domains M_Certificates
  M_DomainParser S_DomainParser L_Holds P_Domains.
Import ListNotations.
Local Open Scope list_scope.
Local Open Scope R_scope.

(** * Characters *)
Lemma blank_space : forall b, blank b -> Forall (fun c => is_space c = true) b.
Proof. intros b H. eapply Forall_impl; [|exact H]. intros c [-> | [-> | [-> | ->]]]; reflexivity. Qed.
Lemma skip_blank : forall b cs, blank b -> skip (b ++ cs) = skip cs.
Proof.
  intros b cs H. apply blank_space in H. induction H as [|c b Hc _ IH]; [reflexivity|].
  cbn. now rewrite Hc.
Qed.
Lemma skip_visible : forall c r, is_space c = false -> skip (c :: r) = c :: r.
Proof. intros c r H. cbn. now rewrite H. Qed.
Lemma lit_hit : forall c b r, is_space c = false -> blank b -> lit c (b ++ c :: r) = Some r.
Proof. intros c b r Hc Hb. unfold lit. rewrite skip_blank, skip_visible, Ascii.eqb_refl; auto. Qed.
Lemma lit_miss : forall c d b r, is_space d = false -> blank b -> c <> d -> lit c (b ++ d :: r) = None.
Proof.
  intros c d b r Hc Hb N. unfold lit. rewrite skip_blank, skip_visible by auto.
  destruct (Ascii.eqb_spec c d); congruence.
Qed.

Lemma digit_range : forall c, (48 <= nat_of_ascii c <= 57)%nat <-> is_digit c = true.
Proof. intros c. unfold is_digit. rewrite andb_true_iff, !Nat.leb_le. tauto. Qed.
Definition ends (r : text) : Prop := match r with [] => True | c :: _ => is_digit c = false end.
Lemma digits_run : forall ds r, Forall (fun c => (48 <= nat_of_ascii c <= 57)%nat) ds -> ends r ->
  digits (ds ++ r) = (ds, r).
Proof.
  induction ds as [|c ds IH]; intros r H E.
  - destruct r as [|c r]; [reflexivity|]. cbn in *. now rewrite E.
  - inversion H; subst. cbn. rewrite (proj1 (digit_range c)) by auto. now rewrite IH.
Qed.

Lemma digit_not_space : forall c, is_digit c = true -> is_space c = false.
Proof.
  intros c H. apply digit_range in H. unfold is_space.
  repeat match goal with |- context [(?a =? ?b)%nat] => destruct (Nat.eqb_spec a b); [lia|] end. reflexivity.
Qed.

(** * Numbers *)
Definition first_of_number (c : ascii) : Prop := is_digit c = true \/ c = "+"%char \/ c = "-"%char.
Lemma number_first : forall t v, number_text t v -> exists c t', t = c :: t' /\ first_of_number c.
Proof.
  assert (A : forall ds, numeral ds -> exists c t', ds = c :: t' /\ is_digit c = true).
  { intros [|c ds] [N F]; [congruence|]. inversion F; subst. exists c, ds. split; auto. now apply digit_range. }
  intros t v [sg s ds Hs Hd|sg s ds fs Hs Hd Hf]; destruct (A _ Hd) as (c & t' & -> & Hc);
    inversion Hs; subst; cbn; eauto 6 using or_introl;
    (eexists; eexists; split; [reflexivity|]; unfold first_of_number; auto).
Qed.
Lemma first_not_space : forall c, first_of_number c -> is_space c = false.
Proof. intros c [H|[->| ->]]; [now apply digit_not_space|reflexivity|reflexivity]. Qed.
Lemma first_not : forall c d, first_of_number c -> is_digit d = false -> d <> "+"%char -> d <> "-"%char -> c <> d.
Proof. intros c d [H|[->| ->]] D P M E; subst; congruence. Qed.

Lemma fold_digits : forall ds z,
  IZR (fold_left (fun n c => (10 * n + Z.of_nat (nat_of_ascii c - 48))%Z) ds z) = IZR z * 10 ^ length ds + whole ds.
Proof.
  induction ds as [|c ds IH]; intros z; cbn [fold_left whole length pow]; [ring|].
  rewrite IH, plus_IZR, mult_IZR, <- INR_IZR_INZ. unfold digit_value. ring.
Qed.
Lemma nat_of_digits_whole : forall ds, IZR (nat_of_digits ds) = whole ds.
Proof. intros ds. unfold nat_of_digits. rewrite fold_digits. ring. Qed.
Lemma whole_app : forall ds fs, whole (ds ++ fs) = whole ds * 10 ^ length fs + whole fs.
Proof.
  induction ds as [|c ds IH]; intros fs; cbn [whole app]; [ring|].
  rewrite IH, app_length, pow_add. ring.
Qed.
Lemma whole_fraction : forall fs, whole fs = fraction fs * 10 ^ length fs.
Proof.
  induction fs as [|c fs IH]; cbn [whole fraction length pow]; [ring|]. rewrite IH. field.
Qed.
Lemma Q2R_frac : forall z k, Q2R (z # Z.to_pos (10 ^ Z.of_nat k)) = IZR z / 10 ^ k.
Proof.
  intros z k. unfold Q2R. cbn [Qnum Qden].
  rewrite Z2Pos.id by (apply Z.pow_pos_nonneg; lia). rewrite <- pow_IZR. reflexivity.
Qed.

Definition neg_of (s : R) : bool := if Rlt_dec s 0 then true else false.
Lemma signed_text : forall sg s ds r, sign_text sg s -> numeral ds -> ends r ->
  signed (sg ++ ds ++ r) = Some (neg_of s, ds, r).
Proof.
  intros sg s ds r Hs [N F] E. unfold signed, neg_of.
  destruct ds as [|c ds]; [congruence|].
  assert (Hc : is_digit c = true) by (apply digit_range; now inversion F).
  inversion Hs; subst.
  - cbn [app].
    destruct (Ascii.eqb_spec c "-") as [->|_]; [discriminate|].
    destruct (Ascii.eqb_spec c "+") as [->|_]; [discriminate|].
    change (c :: ds ++ r) with ((c :: ds) ++ r). rewrite digits_run by auto.
    destruct (Rlt_dec 1 0); [lra|reflexivity].
  - cbn [app]. cbn [Ascii.eqb Bool.eqb].
    change (c :: ds ++ r) with ((c :: ds) ++ r). rewrite digits_run by auto.
    destruct (Rlt_dec 1 0); [lra|reflexivity].
  - cbn [app]. cbn [Ascii.eqb Bool.eqb].
    change (c :: ds ++ r) with ((c :: ds) ++ r). rewrite digits_run by auto.
    destruct (Rlt_dec (-1) 0); [reflexivity|lra].
Qed.
Lemma sgn_IZR : forall sg s z, sign_text sg s -> IZR (sgn (neg_of s) z) = s * IZR z.
Proof.
  intros sg s z H. unfold neg_of, sgn. inversion H; subst; destruct (Rlt_dec _ _); try lra;
    rewrite ?opp_IZR; ring.
Qed.

(** What may follow a number. *)
Definition stops (r : text) : Prop := match r with [] => True | c :: _ => is_digit c = false /\ c <> "."%char end.
Lemma stops_ends : forall r, stops r -> ends r.
Proof. intros [|c r]; cbn; tauto. Qed.
Lemma skip_number : forall b t v r, blank b -> number_text t v -> skip (b ++ t ++ r) = t ++ r.
Proof.
  intros b t v r Hb Ht. rewrite skip_blank by auto.
  destruct (number_first _ _ Ht) as (c & t' & -> & Hc). apply skip_visible. now apply first_not_space.
Qed.
Lemma number_parse : forall b t v r, blank b -> number_text t v -> stops r ->
  exists q, number (b ++ t ++ r) = Some (q, r) /\ Q2R q = v.
Proof.
  intros b t v r Hb Ht Hr. unfold number, decimal, integer.
  rewrite (skip_number b t v r Hb Ht).
  destruct Ht as [sg s ds Hs Hd|sg s ds fs Hs Hd Hf].
  - rewrite <- app_assoc, (signed_text sg s ds r) by auto using stops_ends.
    exists (sgn (neg_of s) (nat_of_digits ds) # 1). split.
    + destruct r as [|c r]; [reflexivity|]. cbn in Hr.
      destruct (Ascii.eqb_spec c "."); [tauto|reflexivity].
    + unfold Q2R. cbn [Qnum Qden]. rewrite (sgn_IZR sg) by auto. rewrite nat_of_digits_whole.
      rewrite Rinv_1. ring.
  - rewrite <- !app_assoc. cbn [app]. rewrite (signed_text sg s ds ("."%char :: fs ++ r)) by (cbn; auto).
    cbn [Ascii.eqb Bool.eqb].
    rewrite digits_run by (try apply Hf; auto using stops_ends).
    destruct Hf as [N F]. destruct fs as [|f fs]; [congruence|].
    eexists. split; [reflexivity|].
    rewrite Q2R_frac, (sgn_IZR sg) by auto. rewrite nat_of_digits_whole, whole_app, (whole_fraction (f :: fs)).
    field. apply pow_nonzero. lra.
Qed.

(** * Lists of numbers *)
Lemma blank_stops : forall b r, blank b -> stops r -> stops (b ++ r).
Proof.
  intros b r H S. destruct H as [|c b Hc _]; [exact S|]. cbn.
  destruct Hc as [-> | [-> | [-> | ->]]]; split; (reflexivity || discriminate).
Qed.
(** The rest of the text after a list of numbers: something that is neither part of a
    number nor a comma. *)
Definition closes (r : text) : Prop := exists b c r', blank b /\ r = b ++ c :: r' /\
  is_space c = false /\ is_digit c = false /\ c <> "."%char /\ c <> ","%char /\ c <> "+"%char /\ c <> "-"%char.
Lemma closes_stops : forall r, closes r -> stops r.
Proof. intros r (b & c & r' & Hb & -> & _ & D & P & _). apply blank_stops; cbn; auto. Qed.
Lemma closes_blank : forall b r, blank b -> closes r -> closes (b ++ r).
Proof.
  intros b r Hb (b' & c & r' & Hb' & -> & H). exists (b ++ b'), c, r'.
  rewrite app_assoc. repeat split; try tauto. now apply Forall_app.
Qed.
Lemma lit_closes : forall r, closes r -> lit "," r = None.
Proof. intros r (b & c & r' & Hb & -> & S & _ & _ & C & _). apply lit_miss; auto. Qed.

Lemma more_numbers_end : forall fuel r, closes r -> more_numbers fuel r = ([], r).
Proof. intros [|fuel] r H; [reflexivity|]. cbn [more_numbers]. now rewrite lit_closes. Qed.

Lemma numbers_count : forall t vs, numbers_text t vs -> (length vs <= length t)%nat.
Proof.
  assert (A : forall t v, number_text t v -> (1 <= length t)%nat).
  { intros t v H. destruct (number_first _ _ H) as (c & t' & -> & _). cbn. lia. }
  induction 1 as [b1 t v b2 _ Ht _|b1 t v b2 ts vs _ Ht _ _ IH];
    apply A in Ht; rewrite !app_length; cbn [length app]; lia.
Qed.
Lemma numbers_parse : forall t vs, numbers_text t vs -> forall r, closes r ->
  exists q r1 qs, number (t ++ r) = Some (q, r1) /\ (length vs <= S (length r1))%nat /\
    map Q2R (q :: qs) = vs /\
    forall fuel, (length vs <= S fuel)%nat ->
      exists r', more_numbers fuel r1 = (qs, r') /\ skip r' = skip r /\ closes r'.
Proof.
  induction 1 as [b1 t v b2 Hb1 Ht Hb2|b1 t v b2 ts vs Hb1 Ht Hb2 Hts IH]; intros r Hr.
  - destruct (number_parse b1 t v (b2 ++ r) Hb1 Ht) as (q & Eq & Vq).
    { apply blank_stops; auto using closes_stops. }
    exists q, (b2 ++ r), []. rewrite <- !app_assoc. repeat split; auto.
    + cbn. lia.
    + cbn. now rewrite Vq.
    + intros fuel _. exists (b2 ++ r). rewrite more_numbers_end by now apply closes_blank.
      repeat split; auto using skip_blank, closes_blank.
  - destruct (number_parse b1 t v (b2 ++ ","%char :: ts ++ r) Hb1 Ht) as (q & Eq & Vq).
    { apply blank_stops; auto. cbn. split; [reflexivity|discriminate]. }
    destruct (IH r Hr) as (q2 & r2 & qs & E2 & L2 & V2 & M2).
    exists q, (b2 ++ ","%char :: ts ++ r), (q2 :: qs).
    rewrite <- !app_assoc. cbn [app] in *. repeat split; auto.
    + apply numbers_count in Hts. rewrite !app_length. cbn [length]. rewrite !app_length. lia.
    + change (map Q2R (q :: q2 :: qs)) with (Q2R q :: map Q2R (q2 :: qs)). now rewrite Vq, V2.
    + intros fuel Hf. cbn [length] in Hf.
      assert (L : (1 <= length vs)%nat) by (inversion Hts; cbn; lia).
      destruct fuel as [|fuel]; [lia|].
      destruct (M2 fuel ltac:(lia)) as (r' & Er' & Sr' & Cr').
      exists r'. cbn [more_numbers]. rewrite lit_hit by auto.
      rewrite E2, Er'. auto.
Qed.
Lemma delimited_parse : forall t vs r, numbers_text t vs -> closes r ->
  exists qs r', delimited (t ++ r) = Some (qs, r') /\ map Q2R qs = vs /\ skip r' = skip r /\ closes r'.
Proof.
  intros t vs r Ht Hr. destruct (numbers_parse t vs Ht r Hr) as (q & r1 & qs & E & L & V & M).
  destruct (M (length r1) L) as (r' & E' & S' & C').
  exists (q :: qs), r'. unfold delimited. rewrite E, E'. auto.
Qed.

(** * Brackets *)
Lemma lit_skip : forall c r r', skip r = skip r' -> lit c r = lit c r'.
Proof. intros c r r' H. unfold lit. now rewrite H. Qed.
Lemma number_closes : forall r, closes r -> number r = None.
Proof.
  intros r (b & c & r' & Hb & -> & S & D & P & _ & Pl & Mi).
  unfold number, decimal, integer. rewrite skip_blank, skip_visible by auto.
  unfold signed. destruct (Ascii.eqb_spec c "-"); [congruence|]. destruct (Ascii.eqb_spec c "+"); [congruence|].
  cbn [digits]. now rewrite D.
Qed.
Lemma delimited_closes : forall r, closes r -> delimited r = None.
Proof. intros r H. unfold delimited. now rewrite number_closes. Qed.
Lemma numbers_first : forall t vs, numbers_text t vs ->
  exists b c t', blank b /\ t = b ++ c :: t' /\ first_of_number c.
Proof.
  intros t vs [b1 t0 v b2 Hb1 Ht Hb2|b1 t0 v b2 ts vs' Hb1 Ht Hb2 _];
    destruct (number_first _ _ Ht) as (c & t' & -> & Hc); exists b1, c; eexists; repeat split; eauto; reflexivity.
Qed.
Lemma lit_number : forall x t vs r, numbers_text t vs -> is_digit x = false -> x <> "+"%char -> x <> "-"%char ->
  lit x (t ++ r) = None.
Proof.
  intros x t vs r Ht D P M. destruct (numbers_first _ _ Ht) as (b & c & t' & Hb & -> & Hc).
  rewrite <- app_assoc. cbn [app]. apply lit_miss; auto using first_not_space.
  apply not_eq_sym. now apply first_not.
Qed.
Lemma skip_not_space : forall cs c r, skip cs = c :: r -> is_space c = false.
Proof.
  induction cs as [|d cs IH]; intros c r H; cbn in H; [discriminate|].
  destruct (is_space d) eqn:E; [eauto|]. now inversion H; subst.
Qed.

(** Closing bracket ahead. *)
Lemma items_end : forall fuel r r2, lit "]" r = Some r2 -> closes r -> items fuel r = ([], r).
Proof.
  intros [|fuel] r r2 L C; [reflexivity|]. cbn [items].
  assert (E : lit "[" r = None).
  { unfold lit in *. destruct (skip r) as [|c r']; [discriminate|].
    destruct (Ascii.eqb_spec "]" c); [subst; reflexivity|discriminate]. }
  rewrite E, delimited_closes; auto.
Qed.
Lemma list_parse : forall t vs r, list_text t vs ->
  exists l qs b, number_list (t ++ r) = Some (l, b ++ r) /\ flat l = Some qs /\ map Q2R qs = vs /\ blank b.
Proof.
  intros t vs r (b1 & ts & b2 & Hb1 & Hb2 & Ht & ->).
  rewrite <- !app_assoc. cbn [app]. unfold number_list. rewrite lit_hit by auto.
  assert (C : closes ("]"%char :: b2 ++ r)).
  { exists [], "]"%char, (b2 ++ r). repeat split; try discriminate. constructor. }
  destruct (delimited_parse ts vs _ Ht C) as (qs & r' & E & V & S' & C').
  assert (L : lit "]" r' = Some (b2 ++ r)).
  { rewrite (lit_skip _ _ _ S'). apply (lit_hit "]" []); [reflexivity|constructor]. }
  destruct (length (ts ++ "]"%char :: b2 ++ r)) as [|fuel] eqn:Lf.
  { rewrite app_length in Lf. cbn in Lf. lia. }
  cbn [items]. rewrite (lit_number _ _ _ _ Ht) by (reflexivity || discriminate).
  rewrite E, (items_end _ _ _ L C'), app_nil_r, L.
  exists (map NNum qs), qs, b2. repeat split; auto.
  clear. induction qs as [|q qs IH]; cbn; [reflexivity|]. now rewrite IH.
Qed.

(** * Arguments *)
Lemma one_parse : forall t v r, one_text t v -> stops r ->
  exists q b, number (t ++ r) = Some (q, b ++ r) /\ Q2R q = v /\ blank b.
Proof.
  intros t v r H S. unfold one_text in H. remember [v] as vs eqn:Ev.
  destruct H as [b1 t0 v0 b2 Hb1 Ht Hb2|b1 t0 v0 b2 ts vs Hb1 Ht Hb2 Hts].
  - inversion Ev; subst. destruct (number_parse b1 t0 v (b2 ++ r) Hb1 Ht) as (q & E & V).
    { now apply blank_stops. }
    exists q, b2. rewrite <- !app_assoc. auto.
  - inversion Ev; subst. inversion Hts.
Qed.
Lemma stops_comma : forall b r, blank b -> stops (b ++ ","%char :: r).
Proof. intros b r H. apply blank_stops; auto. cbn. split; [reflexivity|discriminate]. Qed.
Lemma args_list_num : forall tc c tr r rest, list_text tc c -> one_text tr r -> stops rest ->
  exists l qs q b, parse_args [KList; KNum] (tc ++ comma ++ tr ++ rest) = Some ([AList l; ANum q], b ++ rest) /\
    flat l = Some qs /\ map Q2R qs = c /\ Q2R q = r /\ blank b.
Proof.
  intros tc c tr r rest Hc Hr S.
  destruct (list_parse tc c (comma ++ tr ++ rest) Hc) as (l & qs & b1 & E1 & F & V & B1).
  destruct (one_parse tr r rest Hr S) as (q & b & E2 & Vq & B2).
  exists l, qs, q, b. cbn [parse_args parse_arg]. rewrite E1. unfold comma. cbn [app].
  rewrite lit_hit by auto. rewrite E2. auto.
Qed.
Lemma args_list_list : forall tl lo th hi rest, list_text tl lo -> list_text th hi ->
  exists l1 l2 q1 q2 b, parse_args [KList; KList] (tl ++ comma ++ th ++ rest) = Some ([AList l1; AList l2], b ++ rest) /\
    flat l1 = Some q1 /\ map Q2R q1 = lo /\ flat l2 = Some q2 /\ map Q2R q2 = hi /\ blank b.
Proof.
  intros tl lo th hi rest H1 H2.
  destruct (list_parse tl lo (comma ++ th ++ rest) H1) as (l1 & q1 & b1 & E1 & F1 & V1 & B1).
  destruct (list_parse th hi rest H2) as (l2 & q2 & b2 & E2 & F2 & V2 & B2).
  exists l1, l2, q1, q2, b2. cbn [parse_args parse_arg]. rewrite E1. unfold comma. cbn [app].
  rewrite lit_hit by auto. rewrite E2. auto 6.
Qed.
Lemma args_list_num_num : forall tc c to ro ti ri rest, list_text tc c -> one_text to ro -> one_text ti ri ->
  stops rest ->
  exists l qs qo qi b, parse_args [KList; KNum; KNum] (tc ++ comma ++ to ++ comma ++ ti ++ rest) =
      Some ([AList l; ANum qo; ANum qi], b ++ rest) /\
    flat l = Some qs /\ map Q2R qs = c /\ Q2R qo = ro /\ Q2R qi = ri /\ blank b.
Proof.
  intros tc c to ro ti ri rest Hc Ho Hi S.
  destruct (list_parse tc c (comma ++ to ++ comma ++ ti ++ rest) Hc) as (l & qs & b1 & E1 & F & V & B1).
  destruct (one_parse to ro (comma ++ ti ++ rest) Ho) as (qo & b2 & E2 & Vo & B2).
  { apply (stops_comma []). constructor. }
  destruct (one_parse ti ri rest Hi S) as (qi & b & E3 & Vi & B3).
  exists l, qs, qo, qi, b. cbn [parse_args parse_arg]. rewrite E1. unfold comma in *. cbn [app] in *.
  rewrite lit_hit by auto. rewrite E2, lit_hit by auto. rewrite E3. auto 6.
Qed.

Lemma groups_end : forall fuel ks b r, blank b -> groups fuel (KList :: ks) (b ++ ")"%char :: r) = ([], b ++ ")"%char :: r).
Proof.
  intros [|fuel] ks b r Hb; [reflexivity|]. cbn [groups].
  rewrite lit_miss by (auto; discriminate).
  assert (E : parse_args (KList :: ks) (b ++ ")"%char :: r) = None).
  { cbn [parse_args parse_arg]. unfold number_list. rewrite lit_miss by (auto; discriminate). now destruct ks. }
  now rewrite E.
Qed.
Lemma paren_parse : forall b2 args a b3 ks tail, blank b2 ->
  (forall rest, stops rest -> lit "(" (args ++ rest) = None) ->
  (exists b, parse_args (KList :: ks) (args ++ tail) = Some (a, b ++ tail) /\ blank b) ->
  tail = ")"%char :: b3 ->
  paren (KList :: ks) (b2 ++ ["("%char] ++ args ++ tail) = Some ([GGroup a], b3).
Proof.
  intros b2 args a b3 ks tail Hb2 HL HA ->. unfold paren. cbn [app]. rewrite lit_hit by auto.
  assert (S : stops (")"%char :: b3)) by (cbn; split; [reflexivity|discriminate]).
  destruct (length (args ++ ")"%char :: b3)) as [|fuel] eqn:Lf.
  { rewrite app_length in Lf. cbn in Lf. lia. }
  destruct HA as (b & E & Hb).
  cbn [groups]. rewrite (HL _ S), E, groups_end, lit_hit by auto. reflexivity.
Qed.
Lemma list_no_paren : forall t vs r, list_text t vs -> lit "(" (t ++ r) = None.
Proof.
  intros t vs r (b1 & ts & b2 & Hb1 & Hb2 & Ht & ->). rewrite <- !app_assoc. cbn [app].
  apply lit_miss; auto; discriminate.
Qed.

Lemma prefix_app : forall w r, prefix w (w ++ r) = Some r.
Proof. induction w as [|a w IH]; intros r; [reflexivity|]. cbn. now rewrite Ascii.eqb_refl. Qed.
Definition not_ident (r : text) : Prop := match r with c :: _ => is_ident c = false | [] => True end.
Lemma keyword_hit : forall w c w' b1 r, list_ascii_of_string w = c :: w' -> is_space c = false -> blank b1 ->
  not_ident r -> keyword w (b1 ++ list_ascii_of_string w ++ r) = Some r.
Proof.
  intros w c w' b1 r E S B N. unfold keyword. rewrite skip_blank by auto.
  assert (K : skip (list_ascii_of_string w ++ r) = list_ascii_of_string w ++ r)
    by (rewrite E; now apply skip_visible).
  rewrite K, prefix_app. destruct r as [|d r]; [reflexivity|]. cbn in N. now rewrite N.
Qed.
Lemma blank_not_ident : forall b r, blank b -> not_ident (b ++ "("%char :: r).
Proof.
  intros b r H. destruct H as [|c b Hc _]; [reflexivity|]. cbn.
  destruct Hc as [-> | [-> | [-> | ->]]]; reflexivity.
Qed.
Lemma list_ascii_inj : forall t, list_ascii_of_string (string_of_list_ascii t) = t.
Proof. apply list_ascii_of_string_of_list_ascii. Qed.

Lemma kind_parse : forall k args t (P : fset -> Prop), keyword_text (kind_name k) args t ->
  (forall rest, stops rest -> lit "(" (args ++ rest) = None) ->
  (forall rest, stops rest -> exists a b D, parse_args (kind_args k) (args ++ rest) = Some (a, b ++ rest) /\ blank b /\
     make k [GGroup a] = Some D /\ P D) ->
  exists D, parse_domain (string_of_list_ascii t) = Some D /\ P D.
Proof.
  intros k args t P (b1 & b2 & b3 & Hb1 & Hb2 & Hb3 & ->) HL HA.
  destruct (HA ([")"%char] ++ b3)) as (a & b & D & EA & Hb & HM & HP).
  { cbn. split; [reflexivity|discriminate]. }
  exists D. split; [|exact HP].
  assert (PK : parse_kind k (b1 ++ list_ascii_of_string (kind_name k) ++ b2 ++ ["("%char] ++ args ++ [")"%char] ++ b3) = Some D).
  { unfold parse_kind.
    assert (K : keyword (kind_name k) (b1 ++ list_ascii_of_string (kind_name k) ++ b2 ++ ["("%char] ++ args ++ [")"%char] ++ b3)
                = Some (b2 ++ ["("%char] ++ args ++ [")"%char] ++ b3)).
    { destruct k; (eapply keyword_hit; [reflexivity|reflexivity|auto|now apply blank_not_ident]). }
    rewrite K. cbn [option_bind].
    assert (G : paren (kind_args k) (b2 ++ ["("%char] ++ args ++ [")"%char] ++ b3) = Some ([GGroup a], b3)).
    { destruct k; cbn [kind_args] in *; (eapply paren_parse; [auto|auto|eauto|reflexivity]). }
    rewrite G. cbn [option_bind].
    rewrite <- (app_nil_r b3), (skip_blank b3 [] Hb3). cbn [skip]. exact HM. }
  unfold parse_domain. rewrite list_ascii_inj.
  assert (X : forall k', k' <> k ->
    parse_kind k' (b1 ++ list_ascii_of_string (kind_name k) ++ b2 ++ ["("%char] ++ args ++ [")"%char] ++ b3) = None).
  { intros k' N. unfold parse_kind, keyword. rewrite skip_blank by auto.
    destruct k, k'; try congruence; reflexivity. }
  destruct k; rewrite ?X by discriminate; rewrite PK; reflexivity.
Qed.

(** * C56 *)
Lemma sum_below_ext : forall n f g, (forall j, (j < n)%nat -> f j = g j) -> sum_below n f = sum_below n g.
Proof. induction n as [|n IH]; intros f g H; cbn; [reflexivity|]. rewrite (IH f g), H; auto. Qed.
Lemma sum_below_nonneg : forall n f, (forall j, 0 <= f j) -> 0 <= sum_below n f.
Proof. induction n as [|n IH]; intros f H; cbn; [lra|]. specialize (IH f H). specialize (H n). lra. Qed.
Lemma qn_map : forall l i, qn l i = nth i (map Q2R l) 0.
Proof. intros l i. unfold qn. rewrite <- (map_nth Q2R l 0%Q). f_equal. unfold Q2R; cbn. now rewrite Rmult_0_l. Qed.
Lemma distance_dist2 : forall qs x, distance (map Q2R qs) x = sqrt (dist2 qs None x).
Proof.
  intros qs x. unfold distance, dist2. f_equal. rewrite map_length. apply sum_below_ext.
  intros j _. cbn [coord]. now rewrite qn_map.
Qed.
Lemma dist2_nonneg : forall qs x, 0 <= dist2 qs None x.
Proof. intros. apply sum_below_nonneg. intros. apply pow2_ge_0. Qed.
Lemma sqrt_le_iff : forall a r, 0 <= a -> 0 <= r -> (sqrt a <= r <-> a <= r ^ 2).
Proof.
  intros a r A Hr. split; intros H.
  - rewrite <- (sqrt_sqrt a) by auto. pose proof (sqrt_pos a). nra.
  - rewrite <- (sqrt_pow2 r) by auto. now apply sqrt_le_1_alt.
Qed.
Lemma le_sqrt_iff : forall a r, 0 <= a -> 0 <= r -> (r <= sqrt a <-> r ^ 2 <= a).
Proof.
  intros a r A Hr. split; intros H.
  - rewrite <- (sqrt_sqrt a) by auto. pose proof (sqrt_pos a). nra.
  - rewrite <- (sqrt_pow2 r) by auto. now apply sqrt_le_1_alt.
Qed.

(** The parsed object, exactly. *)
Definition reads (g : region) (D : fset) : Prop :=
  match g with
  | Ball c r => exists qs q, D = Sph qs q None /\ c = map Q2R qs /\ r = Q2R q
  | Box lo hi => exists q1 q2, D = Rect q1 q2 /\ lo = map Q2R q1 /\ hi = map Q2R q2
  | Shell c ro ri => exists qs qo qi, D = Tor qs qo qi None /\ c = map Q2R qs /\ ro = Q2R qo /\ ri = Q2R qi
  end.
Lemma set_text_reads n t g : region_text t g -> proper n g ->
  exists D, parse_domain (string_of_list_ascii t) = Some D /\ reads g D.
Proof.
  intros H P. destruct H as [tc c tr r t Hc Hr K|tl lo th hi t Hl Hh K|tc c to ro ti ri t Hc Ho Hi K].
  - eapply (kind_parse KSphere); [exact K| |].
    + intros rest _. rewrite <- app_assoc. now apply (list_no_paren tc c).
    + intros rest S. destruct (args_list_num tc c tr r rest Hc Hr S) as (l & qs & q & b & E & F & V & Vq & B).
      rewrite <- !app_assoc. exists [AList l; ANum q], b, (Sph qs q None).
      cbn [make]. rewrite F. repeat split; auto. exists qs, q. auto.
  - eapply (kind_parse KRectangle); [exact K| |].
    + intros rest _. rewrite <- app_assoc. now apply (list_no_paren tl lo).
    + intros rest S. destruct (args_list_list tl lo th hi rest Hl Hh) as (l1 & l2 & q1 & q2 & b & E & F1 & V1 & F2 & V2 & B).
      rewrite <- !app_assoc. exists [AList l1; AList l2], b, (Rect q1 q2).
      cbn [make]. rewrite F1, F2. cbn [option_bind]. split; [exact E|]. split; [exact B|]. split; [reflexivity|].
      exists q1, q2. auto.
  - eapply (kind_parse KTorus); [exact K| |].
    + intros rest _. rewrite <- app_assoc. now apply (list_no_paren tc c).
    + intros rest S.
      destruct (args_list_num_num tc c to ro ti ri rest Hc Ho Hi S) as (l & qs & qo & qi & b & E & F & V & Vo & Vi & B).
      rewrite <- !app_assoc. exists [AList l; ANum qo; ANum qi], b, (Tor qs qo qi None).
      cbn [proper] in P. destruct P as (Ln & P0 & P1).
      assert (NQ : Qle_bool qo qi = false).
      { destruct (Qle_bool qo qi) eqn:Eq; [|reflexivity]. apply Qle_bool_iff, Qle_Rle in Eq. lra. }
      cbn [make]. rewrite F. cbn [option_bind]. rewrite NQ. split; [exact E|]. split; [exact B|]. split; [reflexivity|].
      exists qs, qo, qi. auto.
Qed.
Lemma reads_fits n g D : reads g D -> proper n g -> fits n D /\ has_boundary D.
Proof.
  destruct g as [c r|lo hi|c ro ri]; intros H P; cbn [reads proper] in *.
  - destruct H as (qs & q & -> & -> & ->). rewrite map_length in P. cbn. tauto.
  - destruct H as (q1 & q2 & -> & -> & ->). rewrite !map_length in P. cbn. tauto.
  - destruct H as (qs & qo & qi & -> & -> & -> & ->). rewrite map_length in P. cbn. tauto.
Qed.
Lemma reads_region n g D : reads g D -> proper n g ->
  forall x, holds x (generate_domain D (new_vars n)) <-> in_region g x.
Proof.
  intros H P x. destruct (reads_fits n g D H P) as [F _]. rewrite C27_formula_denotes_set by exact F. clear F.
  destruct g as [c r|lo hi|c ro ri]; cbn [reads proper] in *.
  - destruct H as (qs & q & -> & -> & ->). cbn. rewrite distance_dist2.
    rewrite sqrt_le_iff by (auto using dist2_nonneg; tauto). reflexivity.
  - destruct H as (q1 & q2 & -> & -> & ->). cbn. rewrite map_length.
    split; intros Hx i Hi; specialize (Hx i Hi); rewrite ?qn_map in *; auto.
  - destruct H as (qs & qo & qi & -> & -> & -> & ->). cbn -[pow]. rewrite distance_dist2.
    rewrite sqrt_le_iff, le_sqrt_iff by (auto using dist2_nonneg; lra). reflexivity.
Qed.
(** The symbolic boundary is a part of the set. *)
Lemma reads_boundary n g D b x : reads g D -> proper n g -> generate_boundary D (new_vars n) = Some b ->
  holds x b -> in_region g x.
Proof.
  intros H P E Hb. rewrite <- (reads_region n g D H P). destruct (reads_fits n g D H P) as [F _].
  destruct g as [c r|lo hi|c ro ri]; cbn [reads proper] in *.
  - destruct H as (qs & q & -> & -> & ->). cbn [generate_boundary] in E. apply Some_eq in E. subst b.
    cbn [holds generate_domain cmp_holds] in *. lra.
  - destruct H as (q1 & q2 & -> & -> & ->). cbn [generate_boundary] in E. apply Some_eq in E. subst b.
    rewrite L_Holds.holds_fand, !Forall_cons_iff in Hb. tauto.
  - destruct H as (qs & qo & qi & -> & -> & -> & ->). cbn [generate_boundary] in E. apply Some_eq in E. subst b.
    assert (M : Q2R (qi * qi) < Q2R (qo * qo)) by (rewrite !Q2R_mult; nra).
    cbn [generate_domain pick]. rewrite L_Holds.holds_fand, !Forall_cons_iff.
    unfold sq in *. cbn [holds for_ fold_right cmp_holds eval] in *. (split; [|split; [|constructor]]); destruct Hb as [Hb|[Hb|[]]]; lra.
Qed.

Theorem C56_set_text :
  forall n t g, region_text t g -> proper n g ->
    exists D, parse_domain (string_of_list_ascii t) = Some D /\
      forall x, holds x (generate_domain D (new_vars n)) <-> in_region g x.
Proof.
  intros n t g H P. destruct (set_text_reads n t g H P) as (D & E & R). exists D. split; [exact E|].
  now apply reads_region.
Qed.

(** The reading is unique. *)
Theorem C56_unambiguous :
  forall n t g1 g2, region_text t g1 -> region_text t g2 -> proper n g1 -> proper n g2 ->
    forall x, in_region g1 x <-> in_region g2 x.
Proof.
  intros n t g1 g2 H1 H2 P1 P2 x.
  destruct (C56_set_text n t g1 H1 P1) as (D1 & E1 & M1).
  destruct (C56_set_text n t g2 H2 P2) as (D2 & E2 & M2).
  assert (D1 = D2) by congruence. subst. rewrite <- M1, <- M2. reflexivity.
Qed.

(** ** What the parser also accepts *)
(** A missing comma, or a difference, inside a list is read as two entries; a second
    argument list is ignored. *)
Theorem C56_lenient_refuted :
  parse_domain "Sphere([1-2], 3)" = Some (Sph [1 # 1; -2 # 1] (3 # 1) None) /\
  parse_domain "Sphere([0 1], 3)" = parse_domain "Sphere([0, 1], 3)" /\
  parse_domain "Sphere([0, 0], 1 [5, 5], 9)" = parse_domain "Sphere([0, 0], 1)" /\
  parse_domain "Sphere([0, 0], 1 [5, 5], 9)" <> None.
Proof. repeat split; try (vm_compute; reflexivity). vm_compute. discriminate. Qed.

(** * Only plain characters are ever accepted after the keyword *)
Definition consumes (cs r : text) : Prop := exists p, cs = p ++ r /\ Forall plain p.
Lemma consumes_refl : forall r, consumes r r.
Proof. intros r. exists []. auto. Qed.
Lemma consumes_trans : forall a b c, consumes a b -> consumes b c -> consumes a c.
Proof.
  intros a b c (p & -> & Hp) (q & -> & Hq). exists (p ++ q). rewrite app_assoc. split; auto.
  now apply Forall_app.
Qed.
Lemma consumes_cons : forall c r, plain c -> consumes (c :: r) r.
Proof. intros c r H. exists [c]. auto. Qed.
Lemma space_plain : forall c, is_space c = true -> plain c.
Proof.
  intros c H. unfold is_space in H. rewrite !orb_true_iff, !Nat.eqb_eq in H. unfold plain.
  rewrite <- (ascii_nat_embedding c).
  destruct H as [[[-> | ->] | ->] | ->]; cbn; auto 30.
Qed.
Lemma digit_plain : forall c, is_digit c = true -> plain c.
Proof.
  intros c H. apply digit_range in H. left. rewrite <- (ascii_nat_embedding c).
  assert (E : exists k, nat_of_ascii c = (48 + k)%nat /\ (k < 10)%nat) by (exists (nat_of_ascii c - 48)%nat; lia).
  destruct E as (k & -> & Hk).
  do 10 (destruct k as [|k]; [cbn; auto 30|]). lia.
Qed.
Lemma skip_consumes : forall cs, consumes cs (skip cs).
Proof.
  induction cs as [|c cs IH]; [apply consumes_refl|]. cbn. destruct (is_space c) eqn:E.
  - eapply consumes_trans; [apply consumes_cons, space_plain, E|exact IH].
  - apply consumes_refl.
Qed.
Lemma lit_consumes : forall c cs r, plain c -> lit c cs = Some r -> consumes cs r.
Proof.
  intros c cs r P H. unfold lit in H. pose proof (skip_consumes cs) as S.
  destruct (skip cs) as [|d r']; [discriminate|].
  destruct (Ascii.eqb_spec c d) as [->|]; [|discriminate]. inversion H; subst.
  eapply consumes_trans; [exact S|now apply consumes_cons].
Qed.
Lemma digits_consumes : forall cs d r, digits cs = (d, r) -> consumes cs r.
Proof.
  induction cs as [|c cs IH]; intros d r H; cbn in H; [inversion H; apply consumes_refl|].
  destruct (is_digit c) eqn:E.
  - destruct (digits cs) as [d' r'] eqn:E'. inversion H; subst.
    eapply consumes_trans; [apply consumes_cons, digit_plain, E|eapply IH; reflexivity].
  - inversion H. apply consumes_refl.
Qed.
Ltac plain_lit := left; cbn; auto 30.
Lemma signed_consumes : forall cs n d r, signed cs = Some (n, d, r) -> consumes cs r.
Proof.
  intros cs n d r H. unfold signed in H.
  destruct (match cs with [] => (false, cs) | c :: r0 => if Ascii.eqb c "-" then (true, r0)
     else if Ascii.eqb c "+" then (false, r0) else (false, cs) end) as [n' r0] eqn:E0.
  assert (C0 : consumes cs r0).
  { destruct cs as [|c cs]; [inversion E0; apply consumes_refl|].
    destruct (Ascii.eqb_spec c "-") as [->|]; [inversion E0; apply consumes_cons; plain_lit|].
    destruct (Ascii.eqb_spec c "+") as [->|]; [inversion E0; apply consumes_cons; plain_lit|].
    inversion E0; apply consumes_refl. }
  destruct (digits r0) as [d' r'] eqn:E. destruct d'; [discriminate|]. inversion H; subst.
  eapply consumes_trans; [exact C0|eapply digits_consumes; exact E].
Qed.
Lemma number_consumes : forall cs q r, number cs = Some (q, r) -> consumes cs r.
Proof.
  intros cs q r H. unfold number, decimal, integer in H.
  destruct (signed (skip cs)) as [[[n d] r0]|] eqn:E; [|discriminate].
  assert (C : consumes cs r0) by (eapply consumes_trans; [apply skip_consumes|eapply signed_consumes; exact E]).
  destruct r0 as [|c r0]; [inversion H; subst; exact C|].
  destruct (Ascii.eqb_spec c ".") as [->|]; [|inversion H; subst; exact C].
  destruct (digits r0) as [fs r'] eqn:E'. destruct fs; inversion H; subst; [exact C|].
  eapply consumes_trans; [exact C|]. eapply consumes_trans; [apply consumes_cons; plain_lit|].
  eapply digits_consumes; exact E'.
Qed.
Lemma more_consumes : forall fuel cs l r, more_numbers fuel cs = (l, r) -> consumes cs r.
Proof.
  induction fuel as [|fuel IH]; intros cs l r H; cbn in H; [inversion H; apply consumes_refl|].
  destruct (lit "," cs) as [r0|] eqn:E; [|inversion H; apply consumes_refl].
  destruct (number r0) as [[q r1]|] eqn:E1; [|inversion H; apply consumes_refl].
  destruct (more_numbers fuel r1) as [l' r2] eqn:E2. inversion H; subst.
  eapply consumes_trans; [eapply lit_consumes; [|exact E]; plain_lit|].
  eapply consumes_trans; [eapply number_consumes; exact E1|]. eapply IH; exact E2.
Qed.
Lemma delimited_consumes : forall cs l r, delimited cs = Some (l, r) -> consumes cs r.
Proof.
  intros cs l r H. unfold delimited in H. destruct (number cs) as [[q r1]|] eqn:E1; [|discriminate].
  destruct (more_numbers (length r1) r1) as [l' r2] eqn:E2. inversion H; subst.
  eapply consumes_trans; [eapply number_consumes; exact E1|]. eapply more_consumes; exact E2.
Qed.
Lemma items_consumes : forall fuel cs l r, items fuel cs = (l, r) -> consumes cs r.
Proof.
  induction fuel as [|fuel IH]; intros cs l r H; cbn in H; [inversion H; apply consumes_refl|].
  destruct (lit "[" cs) as [r0|] eqn:E.
  - destruct (items fuel r0) as [l1 r1] eqn:E1. destruct (lit "]" r1) as [r2|] eqn:E2; [|inversion H; apply consumes_refl].
    destruct (items fuel r2) as [l3 r3] eqn:E3. inversion H; subst.
    eapply consumes_trans; [eapply lit_consumes; [|exact E]; plain_lit|].
    eapply consumes_trans; [eapply IH; exact E1|].
    eapply consumes_trans; [eapply lit_consumes; [|exact E2]; plain_lit|]. eapply IH; exact E3.
  - destruct (delimited cs) as [[qs r0]|] eqn:E0; [|inversion H; apply consumes_refl].
    destruct (items fuel r0) as [l1 r1] eqn:E1. inversion H; subst.
    eapply consumes_trans; [eapply delimited_consumes; exact E0|]. eapply IH; exact E1.
Qed.
Lemma list_consumes : forall cs l r, number_list cs = Some (l, r) -> consumes cs r.
Proof.
  intros cs l r H. unfold number_list in H. destruct (lit "[" cs) as [r0|] eqn:E; [|discriminate].
  destruct (items (length r0) r0) as [l1 r1] eqn:E1. destruct (lit "]" r1) as [r2|] eqn:E2; [|discriminate].
  inversion H; subst.
  eapply consumes_trans; [eapply lit_consumes; [|exact E]; plain_lit|].
  eapply consumes_trans; [eapply items_consumes; exact E1|].
  eapply lit_consumes; [|exact E2]; plain_lit.
Qed.
Lemma arg_consumes : forall k cs a r, parse_arg k cs = Some (a, r) -> consumes cs r.
Proof.
  intros [|] cs a r H; cbn in H.
  - destruct (number_list cs) as [[l r0]|] eqn:E; [|discriminate]. inversion H; subst. eapply list_consumes; exact E.
  - destruct (number cs) as [[q r0]|] eqn:E; [|discriminate]. inversion H; subst. eapply number_consumes; exact E.
Qed.
Lemma args_consumes : forall ks cs l r, parse_args ks cs = Some (l, r) -> consumes cs r.
Proof.
  induction ks as [|k ks IH]; intros cs l r H.
  - inversion H. apply consumes_refl.
  - destruct ks as [|k' ks].
    + cbn in H. destruct (parse_arg k cs) as [[a r0]|] eqn:E; [|discriminate]. inversion H; subst.
      eapply arg_consumes; exact E.
    + change (match parse_arg k cs with
        | Some (a, r) => match lit "," r with
          | Some r1 => match parse_args (k' :: ks) r1 with Some (l, r2) => Some (a :: l, r2) | None => None end
          | None => None end | None => None end = Some (l, r)) in H.
      destruct (parse_arg k cs) as [[a r0]|] eqn:E; [|discriminate].
      destruct (lit "," r0) as [r1|] eqn:E1; [|discriminate].
      destruct (parse_args (k' :: ks) r1) as [[l2 r2]|] eqn:E2; [|discriminate]. inversion H; subst.
      eapply consumes_trans; [eapply arg_consumes; exact E|].
      eapply consumes_trans; [eapply lit_consumes; [|exact E1]; plain_lit|]. eapply IH; exact E2.
Qed.
Lemma groups_consumes : forall fuel ks cs l r, groups fuel ks cs = (l, r) -> consumes cs r.
Proof.
  induction fuel as [|fuel IH]; intros ks cs l r H; cbn in H; [inversion H; apply consumes_refl|].
  destruct (lit "(" cs) as [r0|] eqn:E.
  - destruct (groups fuel ks r0) as [l1 r1] eqn:E1. destruct (lit ")" r1) as [r2|] eqn:E2; [|inversion H; apply consumes_refl].
    destruct (groups fuel ks r2) as [l3 r3] eqn:E3. inversion H; subst.
    eapply consumes_trans; [eapply lit_consumes; [|exact E]; plain_lit|].
    eapply consumes_trans; [eapply IH; exact E1|].
    eapply consumes_trans; [eapply lit_consumes; [|exact E2]; plain_lit|]. eapply IH; exact E3.
  - destruct (parse_args ks cs) as [[qs r0]|] eqn:E0; [|inversion H; apply consumes_refl].
    destruct (groups fuel ks r0) as [l1 r1] eqn:E1. inversion H; subst.
    eapply consumes_trans; [eapply args_consumes; exact E0|]. eapply IH; exact E1.
Qed.
Lemma prefix_split : forall w cs r, prefix w cs = Some r -> cs = w ++ r.
Proof.
  induction w as [|a w IH]; intros cs r H; [cbn in H; now inversion H|].
  destruct cs as [|b cs]; [discriminate|]. cbn in H. destruct (Ascii.eqb_spec a b) as [->|]; [|discriminate].
  apply IH in H. subst. reflexivity.
Qed.
Lemma skip_split : forall cs, exists b, blank b /\ cs = b ++ skip cs.
Proof.
  induction cs as [|c cs (b & Hb & E)]; [exists []; split; [constructor|reflexivity]|].
  cbn. destruct (is_space c) eqn:S.
  - exists (c :: b). split; [|cbn; now rewrite <- E]. constructor; auto.
    unfold is_space in S. rewrite !orb_true_iff, !Nat.eqb_eq in S. rewrite <- (ascii_nat_embedding c).
    destruct S as [[[-> | ->] | ->] | ->]; cbn; auto.
  - exists []. split; [constructor|reflexivity].
Qed.

(** Scientific notation, variables, arithmetic: never accepted, so never misread. *)
Theorem C56_plain_characters :
  forall s D, parse_domain s = Some D ->
    exists b w rest, list_ascii_of_string s = b ++ list_ascii_of_string w ++ rest /\ blank b /\
      (w = "Sphere" \/ w = "Rectangle" \/ w = "Torus")%string /\ Forall plain rest.
Proof.
  intros s D H. unfold parse_domain in H. set (cs := list_ascii_of_string s) in *.
  assert (A : exists k, parse_kind k cs = Some D).
  { destruct (parse_kind KSphere cs) eqn:E1; [exists KSphere; congruence|].
    destruct (parse_kind KRectangle cs) eqn:E2; [exists KRectangle; congruence|]. now exists KTorus. }
  clear H. destruct A as (k & H). unfold parse_kind in H.
  destruct (keyword (kind_name k) cs) as [r|] eqn:E; [|discriminate]. cbn [option_bind] in H.
  destruct (paren (kind_args k) r) as [[t r1]|] eqn:E1; [|discriminate]. cbn [option_bind] in H.
  destruct (skip r1) as [|c r2] eqn:E2; [|discriminate].
  destruct (skip_split cs) as (b & Hb & Eb).
  assert (P : skip cs = list_ascii_of_string (kind_name k) ++ r).
  { apply prefix_split. unfold keyword in E.
    destruct (prefix (list_ascii_of_string (kind_name k)) (skip cs)) as [[|c r2]|]; try exact E; try discriminate.
    destruct (is_ident c); [discriminate|exact E]. }
  exists b, (kind_name k), r. rewrite P in Eb. split; [exact Eb|]. split; [exact Hb|].
  split; [destruct k; auto|].
  assert (C : consumes r []).
  { unfold paren in E1. destruct (lit "(" r) as [r3|] eqn:L; [|discriminate].
    destruct (groups (length r3) (kind_args k) r3) as [l1 r4] eqn:G. destruct (lit ")" r4) as [r5|] eqn:L5; [|discriminate].
    inversion E1; subst.
    eapply consumes_trans; [eapply lit_consumes; [|exact L]; plain_lit|].
    eapply consumes_trans; [eapply groups_consumes; exact G|].
    eapply consumes_trans; [eapply lit_consumes; [|exact L5]; plain_lit|].
    rewrite <- E2. apply skip_consumes. }
  destruct C as (p & -> & Hp). now rewrite app_nil_r.
Qed.

(** ** The DOMAINS section *)
Lemma label_of_name_name : forall l, label_of_name (label_name l) = Some l.
Proof. destruct l; reflexivity. Qed.
Lemma label_of_name_some : forall s l, label_of_name s = Some l -> s = label_name l.
Proof.
  intros s l H. unfold label_of_name in H. apply find_some in H. destruct H as [_ H].
  apply String.eqb_eq in H. congruence.
Qed.
Theorem C56_domains_section :
  forall (section : list (string * string)),
    NoDup (map fst section) ->
    (forall key value, In (key, value) section ->
       (exists l, key = label_name l) /\ parse_domain value <> None) ->
    exists r, read_domains section = Some r /\
      forall l D, dlookup l r = Some D <->
        exists value, In (label_name l, value) section /\ parse_domain value = Some D.
Proof.
  induction section as [|[key value] d IH]; intros ND H.
  - exists []. split; [reflexivity|]. intros l D. split; [intros E; discriminate E|intros (v & [] & _)].
  - inversion ND as [|? ? NI ND']; subst.
    destruct IH as (r & Er & Hr); [exact ND'|intros k v Hk; apply H; now right|].
    destruct (H key value ltac:(now left)) as [(l0 & ->) Hv].
    destruct (parse_domain value) as [D0|] eqn:Ev; [|congruence].
    exists ((l0, D0) :: r). cbn [read_domains]. rewrite label_of_name_name. cbn [option_bind].
    rewrite Ev. cbn [option_bind]. rewrite Er. split; [reflexivity|].
    intros l D.
    assert (Hl : dlookup l ((l0, D0) :: r) = if label_eqb l0 l then Some D0 else dlookup l r).
    { unfold dlookup. cbn [find fst]. now destruct (label_eqb l0 l). }
    rewrite Hl. clear Hl. destruct (label_eqb l0 l) eqn:El.
    + assert (l0 = l) by (destruct l, l0; (reflexivity || discriminate El)). subst. split.
      * intros E. inversion E; subst. exists value. split; [now left|exact Ev].
      * intros (v & [Hin|Hin] & Pv); [congruence|].
        exfalso. apply NI. apply in_map_iff. now exists (label_name l, v).
    + rewrite Hr. split.
      * intros (v & Hin & Pv). exists v. split; [now right|exact Pv].
      * intros (v & [Hin|Hin] & Pv); [|now exists v].
        assert (Hn : label_name l0 = label_name l) by congruence. apply (f_equal label_of_name) in Hn. rewrite !label_of_name_name in Hn.
        inversion Hn; subst. destruct l; discriminate El.
Qed.

(** ** A concrete case: the first line of the README's example *)
Example C56_example :
  region_text (list_ascii_of_string "Torus([0,0], 1.0, 0.01)") (Shell [1 * (INR 0 * 1 + 0); 1 * (INR 0 * 1 + 0)]
    (1 * ((INR 1 * 1 + 0) + (INR 0 + 0) / 10)) (1 * ((INR 0 * 1 + 0) + (INR 0 + (INR 1 + 0) / 10) / 10))) /\
  parse_domain "Torus([0,0], 1.0, 0.01)" = Some (Tor [0 # 1; 0 # 1] (10 # 10) (1 # 100) None) /\
  exists x, in_region (Shell [0; 0] 1 (1 / 100)) x.
Proof.
  assert (Z : forall c, (48 <= nat_of_ascii c <= 57)%nat -> numeral [c]).
  { intros c Hc. split; [discriminate|]. constructor; auto. }
  assert (N0 : number_text (list_ascii_of_string "0") (1 * (INR 0 * 1 + 0))).
  { apply (integer_text [] 1 ["0"%char]); [constructor|apply Z; cbn; lia]. }
  split; [|split].
  - eapply (torus_text (list_ascii_of_string "[0,0]") _ (list_ascii_of_string " 1.0") _ (list_ascii_of_string " 0.01")).
    + exists [], (list_ascii_of_string "0,0"), []. repeat split; try constructor.
      refine (next_number [] ["0"%char] _ [] ["0"%char] _ _ N0 _ _); try constructor.
      refine (one_number [] ["0"%char] _ [] _ N0 _); constructor.
    + refine (one_number [" "%char] (list_ascii_of_string "1.0") _ [] _ _ _); [constructor; [now left|constructor]| |constructor].
      apply (decimal_text [] 1 ["1"%char] ["0"%char]); [constructor|apply Z; cbn; lia|apply Z; cbn; lia].
    + refine (one_number [" "%char] (list_ascii_of_string "0.01") _ [] _ _ _); [constructor; [now left|constructor]| |constructor].
      apply (decimal_text [] 1 ["0"%char] (list_ascii_of_string "01")); [constructor|apply Z; cbn; lia|].
      split; [discriminate|]. repeat constructor; cbn; lia.
    + exists [], [], []. repeat split; constructor.
  - vm_compute. reflexivity.
  - exists (fun i => match i with O => 1 / 2 | _ => 0 end). cbn. unfold distance. cbn.
    replace (0 + (1 / 2 - 0) * ((1 / 2 - 0) * 1) + (0 - 0) * ((0 - 0) * 1)) with (1 / 2 * (1 / 2)) by lra.
    rewrite sqrt_square by lra. lra.
Qed.
