(** Property C37: precedence of parsed expressions. *)
From Coq Require Import Reals QArith Qreals List Bool Arith Lia Lra Decimal.
From Verif Require M_Variables.
From Verif Require Import M_Activations M_Parser S_Parser L_Parser.
Import ListNotations.
Local Open Scope nat_scope.

(** ** The grammar fossil really uses: a minus sign binds tighter than a power; division,
    multiplication, subtraction and addition have four different precedences. *)
Inductive fos : nat -> tree -> Prop :=
| fos_num q : fos 0 (CNum q)
| fos_var k d : fos 0 (CVar k d)
| fos_fun f t : fos 6 t -> fos 0 (CFun f t)
| fos_paren t : fos 6 t -> fos 0 (CParen t)
| fos_up k t : fos k t -> k < 6 -> fos (S k) t
| fos_neg t : fos 1 t -> fos 1 (CNeg t)
| fos_pow a b : fos 1 a -> fos 2 b -> fos 2 (CBin OPow a b)
| fos_left k o a b : level_op (S k) = Some o -> o <> OPow -> fos (S k) a -> fos k b -> fos (S k) (CBin o a b).

Fixpoint size (t : tree) : nat :=
  match t with
  | CNum _ | CVar _ _ => 1
  | CFun _ t | CParen t | CNeg t => S (size t)
  | CBin _ a b => S (size a + size b)
  end.
Lemma size_pos t : 0 < size t.
Proof. destruct t; simpl; lia. Qed.

Lemma value_bin i o a b : value i (CBin o a b) = op_eval i o (value i a) (value i b).
Proof. now destruct o. Qed.

(** ** Function calls in parsed input *)
Definition calls (ts rest : list token) : Prop :=
  forall c1 f c2, ts = c1 ++ TFun f :: c2 -> parse Nested (c2 ++ rest) <> Fail.
Lemma calls_nil r : calls [] r.
Proof. intros c1 f c2 E. destruct c1; discriminate. Qed.
Lemma app_split {A} (a b c d : list A) (x : A) : a ++ b = c ++ x :: d ->
  (exists e, a = c ++ x :: e /\ d = e ++ b) \/ (exists e, c = a ++ e /\ b = e ++ x :: d).
Proof.
  revert c. induction a as [|y a IH]; simpl; intros c E.
  - right. exists c. auto.
  - destruct c as [|z c]; simpl in E.
    + injection E as <- <-. left. exists a. auto.
    + injection E as <- E. destruct (IH _ E) as [(e & -> & ->)|(e & -> & ->)]; [left|right]; exists e; auto.
Qed.
Lemma calls_app a b r : calls (a ++ b) r <-> calls a (b ++ r) /\ calls b r.
Proof.
  unfold calls. split.
  - intros H. split; intros c1 f c2 E; subst.
    + rewrite app_assoc. apply (H c1 f). now rewrite <- app_assoc.
    + apply (H (a ++ c1) f). now rewrite <- app_assoc.
  - intros [A B] c1 f c2 E. apply app_split in E. destruct E as [(e & -> & ->)|(e & -> & ->)].
    + rewrite <- app_assoc. now apply (A c1 f).
    + now apply (B e f).
Qed.
Lemma calls_cons x a r : calls (x :: a) r <->
  (forall f, x = TFun f -> parse Nested (a ++ r) <> Fail) /\ calls a r.
Proof.
  unfold calls. split.
  - intros H. split; [intros f ->; now apply (H [] f)|]. intros c1 f c2 ->. now apply (H (x :: c1) f).
  - intros [A B] c1 f c2 E. destruct c1 as [|y c1]; simpl in E.
    + injection E as -> ->. now apply (A f).
    + injection E as <- ->. now apply (B c1 f).
Qed.
Lemma run_calls f : forall n ts l r, run f n ts = Ok l r -> exists c, ts = c ++ r /\ calls c r.
Proof.
  induction f as [|f IH]; intros n ts l r E; [discriminate|].
  rewrite run_S in E. unfold step in E.
  assert (One : forall x t, (forall f, x <> TFun f) -> exists c, x :: t = c ++ t /\ calls c t).
  { intros x t Hx. exists [x]. split; auto. apply calls_cons. split; [intros g ->; now elim (Hx g)|apply calls_nil]. }
  assert (Add : forall x c t, (forall f, x <> TFun f) -> calls c t -> calls (x :: c) t).
  { intros x c t Hx Hc. apply calls_cons. split; auto. intros g ->. now elim (Hx g). }
  destruct n as [[|[|k]]| | |o k].
  - destruct ts as [|[q|v d|g|o| |] t]; try discriminate.
    + injection E as <- <-. now apply One.
    + injection E as <- <-. now apply One.
    + destruct (run f Nested t) as [l' r'| |] eqn:E1; try discriminate. injection E as <- <-.
      destruct (IH _ _ _ _ E1) as (c & -> & C). exists (TFun g :: c). split; auto. apply calls_cons. split; auto.
      intros _ _. rewrite <- (run_parse f); rewrite E1; discriminate.
    + destruct (run f Nested (TLpar :: t)) as [l' r'| |] eqn:E1; try discriminate.
      * injection E as <- <-. exact (IH _ _ _ _ E1).
      * destruct (run f (Level top) t) as [l' [|[| | | | |] r']| |] eqn:E2; try discriminate.
        injection E as <- <-. destruct (IH _ _ _ _ E2) as (c & -> & C).
        exists (TLpar :: c ++ [TRpar]). split; [simpl; now rewrite <- app_assoc|]. apply Add; [easy|].
        apply calls_app. split; auto. apply Add; [easy|apply calls_nil].
  - assert (G : run f (Level 0) ts = Ok l r -> exists c, ts = c ++ r /\ calls c r) by (intros E0; exact (IH _ _ _ _ E0)).
    destruct ts as [|[q|v d|g|o| |] t]; try (now apply G). destruct o; try (now apply G).
    destruct (run f (Level 1) t) as [l' r'| |] eqn:E1; try discriminate; [|now apply G].
    injection E as <- <-. destruct (IH _ _ _ _ E1) as (c & -> & C).
    exists (TOp OSub :: c). split; auto. now apply Add.
  - destruct (level_op (S (S k))) as [o|]; [|discriminate].
    destruct (run f (Level (S k)) ts) as [a r1| |] eqn:E1; try discriminate.
    destruct (IH _ _ _ _ E1) as (c & -> & C).
    match type of E with context [run f (Loop o ?m) r1] => destruct (run f (Loop o m) r1) as [[|x l'] r2| |] eqn:E2 end;
      try discriminate.
    + injection E as <- <-. exists c. auto.
    + injection E as <- <-. destruct (IH _ _ _ _ E2) as (c2 & -> & C2).
      exists (c ++ c2). rewrite app_assoc. split; [auto|]. now apply calls_app.
  - destruct ts as [|[q|v d|g|o| |] t]; try discriminate.
    destruct (run f Items t) as [l' [|[| | | | |] r']| |] eqn:E1; try discriminate.
    injection E as <- <-. destruct (IH _ _ _ _ E1) as (c & -> & C).
    exists (TLpar :: c ++ [TRpar]). split; [simpl; now rewrite <- app_assoc|]. apply Add; [easy|].
    apply calls_app. split; auto. apply Add; [easy|apply calls_nil].
  - destruct (run f Nested ts) as [a r1| |] eqn:E1; try discriminate.
    + destruct (run f Items r1) as [l' r2| |] eqn:E2; try discriminate. injection E as <- <-.
      destruct (IH _ _ _ _ E1) as (c & -> & C). destruct (IH _ _ _ _ E2) as (c2 & -> & C2).
      exists (c ++ c2). rewrite app_assoc. split; [auto|]. now apply calls_app.
    + destruct (run f (Level top) ts) as [a r1| |] eqn:E3; try discriminate.
      * destruct (run f Items r1) as [l' r2| |] eqn:E2; try discriminate. injection E as <- <-.
        destruct (IH _ _ _ _ E3) as (c & -> & C). destruct (IH _ _ _ _ E2) as (c2 & -> & C2).
        exists (c ++ c2). rewrite app_assoc. split; [auto|]. now apply calls_app.
      * injection E as <- <-. exists []. split; auto. apply calls_nil.
  - assert (G : Ok [] ts = Ok l r -> exists c, ts = c ++ r /\ calls c r).
    { intros E0. injection E0 as <- <-. exists []. split; auto. apply calls_nil. }
    destruct ts as [|[q|v d|g|o'| |] t]; try (now apply G). destruct (op_eqb o o'); [|now apply G].
    destruct (run f (Level k) t) as [b r1| |] eqn:E1; try discriminate; [|now apply G].
    destruct (run f (Loop o k) r1) as [l' r2| |] eqn:E2; try discriminate. injection E as <- <-.
    destruct (IH _ _ _ _ E1) as (c & -> & C). destruct (IH _ _ _ _ E2) as (c2 & -> & C2).
    exists (TOp o' :: c ++ c2). simpl. rewrite app_assoc. split; [auto|]. apply Add; [easy|]. now apply calls_app.
Qed.

(** ** Conversion *)
Lemma map_opt_impl {A B} (g h : A -> option B) l r :
  (forall x y, g x = Some y -> h x = Some y) -> map_opt g l = Some r -> map_opt h l = Some r.
Proof.
  intros H. revert r. induction l as [|x l IH]; simpl; intros r E; auto.
  destruct (g x) as [y|] eqn:Ex; [|discriminate]. rewrite (H _ _ Ex). cbn [option_bind] in *.
  destruct (map_opt g l) as [r'|]; [|discriminate]. now rewrite (IH r' eq_refl).
Qed.
Lemma convert_mono f : forall p a, convert f p = Some a -> convert (S f) p = Some a.
Proof.
  induction f as [|f IH]; intros p a E; [discriminate|].
  assert (M : forall l r, map_opt (convert f) l = Some r -> map_opt (convert (S f)) l = Some r)
    by (intros l r; apply map_opt_impl; auto).
  remember (S f) as g. cbn [convert]. rewrite Heqg in E at 1. cbn [convert] in E.
  destruct p as [q|k d|h|o| |l]; auto.
  destruct l as [|x [|y l]]; [discriminate|auto|].
  destruct ((3 <=? length (x :: y :: l)) && Nat.odd (length (x :: y :: l))).
  - destruct y as [ | | |o| | ]; try discriminate.
    destruct (map_opt (convert f) (evens (x :: POp o :: l))) as [r|] eqn:Er; [|discriminate].
    now rewrite (M _ _ Er).
  - destruct x as [q|k d|h|o| |l']; auto; try discriminate.
    + destruct y as [ | | | | |args]; auto.
      destruct (map_opt (convert f) args) as [r|] eqn:Er; [|discriminate]. now rewrite (M _ _ Er).
    + destruct (convert f y) as [b|] eqn:Eb; [|discriminate]. now rewrite (IH _ _ Eb).
Qed.
Lemma convert_more f g p a : f <= g -> convert f p = Some a -> convert g p = Some a.
Proof. induction 1; auto. intros. now apply convert_mono, IHle. Qed.

(** The tree without its parentheses. *)
Fixpoint strip (t : tree) : ast :=
  match t with
  | CNum q => ANum q
  | CVar k d => AVar k d
  | CFun f t => AFun f [strip t]
  | CParen t => strip t
  | CNeg t => ANeg (strip t)
  | CBin o a b => ABin o (strip a) (strip b)
  end.
Lemma strip_variables t : M_Variables.vars (strip t) = variables t.
Proof. induction t; cbn; rewrite ?app_nil_r; congruence. Qed.
(** No logarithm or root, and division by numbers other than zero only. *)
Fixpoint total (t : tree) : Prop :=
  match t with
  | CNum _ | CVar _ _ => True
  | CFun f t => f <> FLog /\ f <> FSqrt /\ total t
  | CParen t | CNeg t => total t
  | CBin OPow a b => total a
  | CBin ODiv a b => total a /\ exists q, b = CNum q /\ Q2R q <> 0%R
  | CBin _ a b => total a /\ total b
  end.

Section Meaning.
  Context (lib : library) (i : interp).
  Definition sound (p : ptree) (t : tree) : Prop :=
    forall f a v, convert f p = Some a -> aval lib i a = Some v ->
      v = value i t /\ a = strip t.
  Definition complete (p : ptree) (t : tree) : Prop :=
    exists f a, convert f p = Some a /\ aval lib i a = Some (value i t).
  Definition simple (t : tree) : Prop := no_double_paren t /\ (lib = LibSMT -> no_functions t).
  Definition good (p : ptree) (t : tree) : Prop := sound p t /\ (simple t -> complete p t).

  Lemma good_num q : good (PNum q) (CNum q).
  Proof.
    split.
    - intros [|f] a v E Ev; [discriminate|]. simpl in E. injection E as <-. injection Ev as <-. split; reflexivity.
    - intros _. exists 1, (ANum q). auto.
  Qed.
  Lemma good_var k d : good (PVar k d) (CVar k d).
  Proof.
    split.
    - intros [|f] a v E Ev; [discriminate|]. simpl in E. injection E as <-. injection Ev as <-. split; reflexivity.
    - intros _. exists 1, (AVar k d). auto.
  Qed.
  Lemma good_single p t : good p t -> good (PList [p]) t.
  Proof.
    intros [S C]. split.
    - intros [|f] a v E Ev; [discriminate|]. simpl in E. eauto.
    - intros H. destruct (C H) as (f & a & E & Ev). exists (Datatypes.S f), a. auto.
  Qed.
  Lemma good_paren p t : good p t -> good p (CParen t).
  Proof.
    intros [S C]. split; [exact S|]. intros [[_ H] K]. apply C. split; auto.
  Qed.
  Lemma good_neg p t : good p t -> good (PList [PNeg; p]) (CNeg t).
  Proof.
    intros [S C]. split.
    - intros [|f] a v E Ev; [discriminate|]. simpl in E. destruct (convert f p) as [b|] eqn:Eb; [|discriminate].
      injection E as <-. simpl in Ev. destruct (aval lib i b) as [w|] eqn:Ew; [|discriminate].
      injection Ev as <-. destruct (S _ _ _ Eb Ew) as [-> V]. split; [auto|simpl; now rewrite V].
    - intros H. destruct (C H) as (f & a & E & Ev). exists (Datatypes.S f), (ANeg a). simpl. now rewrite E, Ev.
  Qed.
  Lemma aval_fun f args : aval lib i (AFun f args) = option_bind (map_opt (aval lib i) args) (apply lib i f).
  Proof.
    cbn [aval]. f_equal. induction args as [|x l IH]; [reflexivity|]. cbn [map_opt]. now rewrite IH.
  Qed.
  Lemma good_fun h p t : good p t -> good (PList [PFun h; PList [p]]) (CFun h t).
  Proof.
    intros [S C]. split.
    - intros [|f] a v E Ev; [discriminate|]. simpl in E. destruct (convert f p) as [b|] eqn:Eb; [|discriminate].
      injection E as <-. rewrite aval_fun in Ev. simpl in Ev. destruct (aval lib i b) as [w|] eqn:Ew; [|discriminate].
      simpl in Ev. destruct (S _ _ _ Eb Ew) as [-> V]. split; [|simpl; now rewrite V].
      destruct lib, h; simpl in Ev; simpl; congruence.
    - intros [[_ H] K]. destruct C as (f & a & E & Ev); [split; auto; intros L; elim (K L)|].
      exists (Datatypes.S f), (AFun h [a]). simpl. rewrite E, Ev. simpl.
      destruct lib; [destruct h; auto..|elim K; auto].
  Qed.

  Definition ops (o : op) (ps : list ptree) : list ptree := flat_map (fun p => [POp o; p]) ps.
  Lemma ops_length o ps : length (ops o ps) = 2 * length ps.
  Proof. unfold ops. induction ps as [|p ps IH]; simpl in *; lia. Qed.
  Lemma evens_ops p o : forall ps, evens (p :: ops o ps) = p :: ps.
  Proof.
    intros ps. revert p. induction ps as [|q ps IH]; intros p; auto.
    change (evens (p :: POp o :: q :: ops o ps) = p :: q :: ps). cbn [evens]. f_equal. apply IH.
  Qed.
  Lemma fold_sound o : forall ts args a0 h v,
    (forall w, aval lib i a0 = Some w -> w = value i h /\ a0 = strip h) ->
    Forall2 (fun a t => forall w, aval lib i a = Some w -> w = value i t /\ a = strip t) args ts ->
    aval lib i (fold_left (ABin o) args a0) = Some v ->
    v = value i (fold_left (CBin o) ts h) /\
    fold_left (ABin o) args a0 = strip (fold_left (CBin o) ts h).
  Proof.
    induction ts as [|t ts IH]; intros args a0 h v H0 H E; inversion H; subst; simpl in *; auto.
    eapply IH; [|eassumption|eassumption]. intros w Ew. simpl in Ew.
    destruct (aval lib i a0) as [x0|]; [|discriminate]. cbn [option_bind] in Ew.
    destruct (aval lib i x) as [x1|]; [|discriminate]. cbn [option_bind] in Ew. injection Ew as <-.
    match goal with K : forall w, Some x1 = Some w -> _ |- _ => rename K into Kx end.
    destruct (H0 _ eq_refl) as [-> V0]. destruct (Kx _ eq_refl) as [-> V1].
    rewrite value_bin. split; [reflexivity|]. simpl. now rewrite V0, V1.
  Qed.
  Lemma fold_complete o : forall ts args a0 h,
    aval lib i a0 = Some (value i h) ->
    Forall2 (fun a t => aval lib i a = Some (value i t)) args ts ->
    aval lib i (fold_left (ABin o) args a0) = Some (value i (fold_left (CBin o) ts h)).
  Proof.
    induction ts as [|t ts IH]; intros args a0 h H0 H; inversion H; subst; simpl in *; auto.
    apply IH; auto. rewrite value_bin. cbn [aval]. rewrite H0. match goal with K : aval lib i x = _ |- _ => rewrite K end. reflexivity.
  Qed.
  Lemma simple_fold o : forall ts h, simple (fold_left (CBin o) ts h) -> simple h /\ Forall simple ts.
  Proof.
    induction ts as [|t ts IH]; simpl; intros h H; auto.
    apply IH in H. destruct H as [[[A B] K] F]. split; [|constructor; auto].
    - split; auto. intros L. apply K in L. apply L.
    - split; auto. intros L. apply K in L. apply L.
  Qed.
  Lemma good_fold o p0 ps h ts : good p0 h -> Forall2 good ps ts -> ps <> [] ->
    good (PList (p0 :: ops o ps)) (fold_left (CBin o) ts h).
  Proof.
    intros G0 G Hp.
    assert (Cv : forall f, convert (Datatypes.S f) (PList (p0 :: ops o ps)) =
      option_bind (map_opt (convert f) (p0 :: ps)) (fun args =>
        match args with [] => None | a :: args => Some (fold_left (ABin o) args a) end)).
    { intros f. destruct ps as [|p1 ps]; [congruence|]. pose proof (evens_ops p0 o (p1 :: ps)) as Ee.
      change (ops o (p1 :: ps)) with (POp o :: p1 :: ops o ps) in *.
      remember (convert f) as cf. cbn [convert]. rewrite <- Heqcf.
      assert (L : length (p0 :: POp o :: p1 :: ops o ps) = 2 * (length ps + 1) + 1) by (simpl length; rewrite ops_length; lia).
      rewrite L. replace (3 <=? 2 * (length ps + 1) + 1) with true by (symmetry; apply Nat.leb_le; lia).
      rewrite (Nat.add_1_r (2 * _)), Nat.odd_succ, Nat.even_mul. rewrite Ee. reflexivity. }
    split.
    - intros [|f] a v E Ev; [discriminate|]. rewrite Cv in E. cbn [map_opt] in E.
      destruct (convert f p0) as [a0|] eqn:E0; [|discriminate]. cbn [option_bind] in E.
      destruct (map_opt (convert f) ps) as [args|] eqn:Ea; [|discriminate]. cbn [option_bind] in E.
      injection E as <-. eapply fold_sound; [| |exact Ev].
      + intros w Ew. destruct G0 as [S _]. eauto.
      + clear -Ea G. revert args Ea. induction G as [|p t ps ts [S _] G IH]; simpl; intros args Ea.
        * injection Ea as <-. constructor.
        * destruct (convert f p) as [b|] eqn:Eb; [|discriminate]. cbn [option_bind] in Ea.
          destruct (map_opt (convert f) ps) as [r|]; [|discriminate]. injection Ea as <-.
          constructor; [|now apply IH]. intros w Ew. eauto.
    - intros H. apply simple_fold in H. destruct H as [Hh Ht]. destruct G0 as [_ C0].
      destruct (C0 Hh) as (f0 & a0 & E0 & V0).
      assert (K : exists f args, map_opt (convert f) ps = Some args /\
        Forall2 (fun a t => aval lib i a = Some (value i t)) args ts).
      { clear -G Ht. induction G as [|p t ps ts [_ C] G IH].
        - exists 0, []. auto.
        - inversion Ht as [|? ? Ht1 Ht2]; subst. destruct (IH Ht2) as (f & args & E & V). destruct (C Ht1) as (g & a & Eg & Vg).
          exists (f + g), (a :: args). split; [|constructor; auto]. simpl.
          rewrite (convert_more g (f + g) _ _ ltac:(lia) Eg). cbn [option_bind].
          rewrite (map_opt_impl (convert f) (convert (f + g)) ps args); auto.
          intros x y. apply convert_more. lia. }
      destruct K as (f & args & E & V).
      exists (Datatypes.S (f + f0)), (fold_left (ABin o) args a0). split.
      + rewrite Cv. cbn [map_opt]. rewrite (convert_more f0 (f + f0) _ _ ltac:(lia) E0). cbn [option_bind].
        rewrite (map_opt_impl (convert f) (convert (f + f0)) ps args); auto. intros x y. apply convert_more. lia.
      + now apply fold_complete.
  Qed.

  (** Two or more items in parentheses cannot be converted. *)
  Lemma bad_list f l1 x l : valuelike x -> convert f (PList (PList l1 :: x :: l)) = None.
  Proof.
    intros V. destruct f as [|f]; auto. remember (convert f) as cf. cbn [convert]. rewrite <- Heqcf.
    destruct ((3 <=? length (PList l1 :: x :: l)) && Nat.odd (length (PList l1 :: x :: l))); auto.
    destruct x; auto; elim V.
  Qed.
  Lemma good_bad l1 x l t : valuelike x -> opens t -> good (PList (PList l1 :: x :: l)) (CParen t).
  Proof.
    intros V O. split.
    - intros f a v E. rewrite bad_list in E; auto. discriminate.
    - intros [[N _] _]. now elim N.
  Qed.
  Lemma good_bad_fun h l1 x l t : opens t -> lib <> LibSympy ->
    good (PList [PFun h; PList (PList l1 :: x :: l)]) (CFun h t).
  Proof.
    intros O L. split.
    - intros [|f] a v E Ev; [discriminate|]. remember (PList l1 :: x :: l) as args.
      remember (convert f) as cf. cbn [convert length Nat.leb andb] in E. rewrite <- Heqcf in E.
      destruct (map_opt cf args) as [r|] eqn:Er; [|discriminate]. injection E as <-.
      rewrite aval_fun in Ev. destruct (map_opt (aval lib i) r) as [vs|] eqn:Ev2; [|discriminate].
      cbn [option_bind] in Ev.
      assert (Ln : forall A B (g : A -> option B) l r, map_opt g l = Some r -> length r = length l).
      { clear. induction l as [|y l IH]; simpl; intros r E; [now injection E as <-|].
        destruct (g y); [|discriminate]. cbn [option_bind] in E. destruct (map_opt g l); [|discriminate].
        injection E as <-. simpl. f_equal. auto. }
      apply Ln in Er. apply Ln in Ev2. subst args. simpl in Er. destruct vs as [|v1 [|v2 vs]]; simpl in Ev2; try lia.
      destruct lib; try congruence; destruct h; discriminate.
    - intros [[N _] _]. now elim N.
  Qed.
End Meaning.

(** ** What the parser does on the text of a tree *)
Definition oplevel (o : op) : nat :=
  match o with OPow => 2 | ODiv => 3 | OMul => 4 | OSub => 5 | OAdd => 6 end.
Definition stop (k : nat) (rest : list token) : Prop :=
  match rest with TOp o :: _ => k < oplevel o | _ => True end.
Lemma level_op_spec k o : level_op k = Some o <-> k = oplevel o.
Proof.
  split; [|intros ->; now destruct o].
  do 7 (destruct k as [|k]; [simpl; intros E; inversion E; try reflexivity|]). discriminate.
Qed.
Lemma op_eqb_spec a b : op_eqb a b = true <-> a = b.
Proof. destruct a, b; simpl; split; congruence. Qed.

Lemma fos_level k t : fos k t -> k <= 6.
Proof.
  induction 1; lia.
Qed.
Lemma fos_le k k' t : fos k t -> k <= k' -> k' <= 6 -> fos k' t.
Proof. intros H. induction 1; intros K; auto. apply fos_up; [apply IHle; lia|lia]. Qed.

Lemma decompose k o t : fos (S k) t -> level_op (S k) = Some o -> o <> OPow ->
  exists h ts, t = fold_left (CBin o) ts h /\ fos k h /\ Forall (fos k) ts /\
    text t = text h ++ flat_map (fun x => TOp o :: text x) ts /\
    (ts = [] /\ h = t \/ size h < size t /\ Forall (fun x => size x < size t) ts).
Proof.
  intros H Ho Hp. remember (S k) as k' eqn:Ek. revert k Ek Ho.
  induction H; intros k0 Ek Ho; try discriminate.
  - injection Ek as ->. exists t, []. simpl. rewrite app_nil_r. repeat split; auto.
  - injection Ek as <-. simpl in Ho. congruence.
  - injection Ek as <-. rewrite H in Ho. injection Ho as ->.
    destruct (IHfos1 k eq_refl H) as (h & ts & -> & A & B & C & D).
    exists h, (ts ++ [b]). rewrite fold_left_app. split; [reflexivity|]. split; auto.
    split; [apply Forall_app; auto|]. split.
    + cbn [text]. rewrite C, flat_map_app. simpl. now rewrite app_nil_r, <- app_assoc.
    + right. pose proof (size_pos b). pose proof (size_pos (fold_left (CBin o) ts h)).
      destruct D as [[-> _]|[D E]]; cbn [size fold_left app] in *.
      * split; [lia|]. repeat constructor. lia.
      * split; [lia|]. apply Forall_app. split; [|repeat constructor; lia].
        eapply Forall_impl; [|exact E]. simpl. intros. lia.
Qed.

Lemma parse_nested_not ts : (forall r, ts <> TLpar :: r) -> parse Nested ts = Fail.
Proof. intros H. rewrite parse_step. destruct ts as [|[| | | | |] r]; try reflexivity. now elim (H r). Qed.
Lemma parse_level_rpar k r : k <= 6 -> parse (Level k) (TRpar :: r) = Fail.
Proof.
  intros Hk. induction k as [|[|k] IH]; rewrite parse_step.
  - reflexivity.
  - simpl. apply IH. lia.
  - cbn [step]. destruct (level_op (S (S k))); auto. rewrite IH by lia. reflexivity.
Qed.
Lemma parse_items_rpar r : parse Items (TRpar :: r) = Ok [] (TRpar :: r).
Proof.
  rewrite parse_step. cbn [step]. rewrite parse_nested_not by discriminate.
  rewrite parse_level_rpar by (unfold top; lia). reflexivity.
Qed.
Lemma parse_loop_stop o k rest : stop (oplevel o) rest -> parse (Loop o k) rest = Ok [] rest.
Proof.
  intros H. rewrite parse_step. destruct rest as [|[| | |o'| |] r]; try reflexivity. simpl in *.
  destruct (op_eqb o o') eqn:E; auto. apply op_eqb_spec in E. subst. lia.
Qed.

(** The parenthesis a text begins with. *)
Lemma leftmost k t : fos k t -> opens t -> exists t1 tail,
  text t = TLpar :: text t1 ++ TRpar :: tail /\ fos 6 t1 /\ size t1 < size t /\ (tail = [] -> t = CParen t1) /\
  (plain_arguments t -> plain_arguments t1).
Proof.
  induction 1 as [q|v d|f t H IH|t H IH|k t H IH Hk|t H IH|a b Ha IHa Hb IHb|k o a b Hk Ho Ha IHa Hb IHb]; intros [r E]; try discriminate.
  - simpl in E. exists t, []. simpl. auto.
  - apply IH. now exists r.
  - assert (O : opens a).
    { unfold opens. simpl in E. destruct (text a) as [|x s] eqn:Ea; [simpl in E; discriminate|]. simpl in E. injection E as -> _. eauto. }
    destruct (IHa O) as (t1 & tail & E1 & F & S & _ & P). exists t1, (tail ++ TOp OPow :: text b).
    simpl. rewrite E1. split; [simpl; now rewrite <- app_assoc|]. split; auto. split; [lia|]. split; [|tauto].
    intros K. apply app_eq_nil in K. destruct K; discriminate.
  - assert (O : opens a).
    { unfold opens. simpl in E. destruct (text a) as [|x s] eqn:Ea; [simpl in E; discriminate|]. simpl in E. injection E as -> _. eauto. }
    destruct (IHa O) as (t1 & tail & E1 & F & S & _ & P). exists t1, (tail ++ TOp o :: text b).
    simpl. rewrite E1. split; [simpl; now rewrite <- app_assoc|]. split; auto. split; [lia|]. split; [|tauto].
    intros K. apply app_eq_nil in K. destruct K; discriminate.
Qed.
Lemma text_nonempty t : text t <> [].
Proof. destruct t; simpl; try discriminate. intros E. apply app_eq_nil in E. now destruct E. Qed.

Lemma close_text t rest : (text t ++ [TRpar]) ++ rest = text t ++ TRpar :: rest.
Proof. now rewrite <- app_assoc. Qed.
Section Forward.
  Context (lib : library) (i : interp).
  Definition reads (k : nat) (t : tree) (rest : list token) : Prop :=
    exists p, parse (Level k) (text t ++ rest) = Ok [p] rest /\ good lib i p t.

  Lemma loop_reads o k : forall ts rest,
    level_op (S k) = Some o -> o <> OPow -> stop (S k) rest ->
    Forall (fun x => forall rest, stop k rest -> calls (text x) rest -> reads k x rest) ts ->
    calls (flat_map (fun x => TOp o :: text x) ts) rest ->
    exists ps, parse (Loop o k) (flat_map (fun x => TOp o :: text x) ts ++ rest) = Ok (ops o ps) rest /\
      Forall2 (good lib i) ps ts.
  Proof.
    intros ts rest Hk Hp Hs. apply level_op_spec in Hk.
    induction ts as [|x ts IH]; intros F C.
    - exists []. split; auto. simpl. apply parse_loop_stop. now rewrite <- Hk.
    - inversion F as [|? ? Fx Ft]; subst. cbn [flat_map] in *. rewrite <- app_comm_cons in C. apply calls_cons in C. destruct C as [_ C].
      apply calls_app in C. destruct C as [C1 C2].
      destruct (IH Ft C2) as (ps & E & G).
      destruct (Fx (flat_map (fun x => TOp o :: text x) ts ++ rest)) as (p & Ep & Gp); auto.
      { destruct ts as [|y ts]; simpl; [|lia]. unfold stop in *. destruct rest as [|[| | |o'| |] r]; auto. lia. }
      exists (p :: ps). split; [|constructor; auto].
      rewrite <- app_comm_cons, <- app_comm_cons, <- app_assoc.
      rewrite parse_step. cbn [step]. replace (op_eqb o o) with true by (symmetry; now apply op_eqb_spec).
      rewrite Ep, E. reflexivity.
  Qed.

  Lemma forward : forall m t, size t < m -> (lib = LibSympy -> plain_arguments t) ->
    (forall k rest, fos k t -> stop k rest -> calls (text t) rest -> reads k t rest) /\
    (forall rest, fos 6 t -> calls (text t) (TRpar :: rest) ->
       parse Nested (TLpar :: text t ++ TRpar :: rest) = Fail \/
       exists l, parse Nested (TLpar :: text t ++ TRpar :: rest) = Ok [PList l] rest /\
         good lib i (PList l) (CParen t) /\
         (forall h, (lib = LibSympy -> ~ opens t) -> good lib i (PList [PFun h; PList l]) (CFun h t))).
  Proof.
    induction m as [|m IHm]; intros t Hm Hl; [lia|].
    assert (P1 : forall k rest, fos k t -> stop k rest -> calls (text t) rest -> reads k t rest).
    { induction k as [|k IHk]; intros rest Hf Hs Hc.
      - inversion Hf as [q E|v d E|f e He E|e He E| | | | ]; subst; simpl in Hm.
        + exists (PNum q). split; [rewrite parse_step; reflexivity|apply good_num].
        + exists (PVar v d). split; [rewrite parse_step; reflexivity|apply good_var].
        + cbn [text] in Hc. apply calls_cons in Hc. destruct Hc as [Hc1 Hc2]. specialize (Hc1 f eq_refl).
          apply calls_cons in Hc2. destruct Hc2 as [_ Hc2]. apply calls_app in Hc2. destruct Hc2 as [Hc2 _].
          destruct (IHm e ltac:(lia) ltac:(intros L; apply Hl in L; apply L)) as [_ H2].
          destruct (H2 rest He Hc2) as [K|(l & K & _ & G)].
          * elim Hc1. rewrite <- K. f_equal. simpl. f_equal. now rewrite <- app_assoc.
          * exists (PList [PFun f; PList l]). split; [|apply G; intros L; apply Hl in L; apply L].
            rewrite parse_step. cbn [text]. rewrite <- app_comm_cons, <- app_comm_cons, close_text. cbn [step]. rewrite K. reflexivity.
        + cbn [text] in Hc. apply calls_cons in Hc. destruct Hc as [_ Hc]. apply calls_app in Hc. destruct Hc as [Hc _].
          destruct (IHm e ltac:(lia) ltac:(intros L; apply Hl in L; apply L)) as [H1 H2].
          unfold reads. rewrite parse_step. cbn [text]. rewrite <- app_comm_cons, close_text. cbn [step].
          destruct (H2 rest He Hc) as [K|(l & K & G & _)]; rewrite K.
          * destruct (H1 6 (TRpar :: rest) He I Hc) as (p & Ep & Gp). unfold top. rewrite Ep.
            exists p. split; auto. now apply good_paren.
          * exists (PList l). auto.
      - destruct k as [|[|k]].
        + inversion Hf as [ | | | |? ? H0 _|t' H1| |? ? ? ? Ho]; subst; [| |discriminate].
          * assert (R : reads 0 t rest).
            { apply IHk; auto. destruct rest as [|[| | |[] | |] r]; simpl; lia || exact I. }
            destruct R as (p & Ep & G). exists p. split; auto. rewrite parse_step. rewrite <- Ep.
            inversion H0; subst; reflexivity.
          * cbn [text] in Hc. apply calls_cons in Hc. destruct Hc as [_ Hc]. simpl in Hm.
            destruct (IHm t' ltac:(lia) Hl) as [R _]. destruct (R 1 rest H1 Hs Hc) as (p & Ep & G).
            exists (PList [PNeg; p]). split; [|now apply good_neg].
            rewrite parse_step. cbn [text]. rewrite <- app_comm_cons. cbn [step]. rewrite Ep. reflexivity.
        + inversion Hf as [ | | | |? ? H0 _| |a b Ha Hb|? ? ? ? Ho Hp]; subst; [| |simpl in Ho; congruence].
          * destruct (IHk rest H0) as (p & Ep & G); auto. { destruct rest as [|[| | |[] | |] r]; simpl; lia || exact I. }
            exists p. split; auto. rewrite parse_step. cbn [step level_op]. rewrite Ep.
            rewrite parse_loop_stop; auto.
          * cbn [text] in Hc. apply calls_app in Hc. destruct Hc as [Ca Cb]. apply calls_cons in Cb. destruct Cb as [_ Cb].
            simpl in Hm. destruct (IHm a ltac:(lia) ltac:(intros L; apply Hl in L; apply L)) as [Ra _].
            destruct (IHm b ltac:(lia) ltac:(intros L; apply Hl in L; apply L)) as [Rb _].
            destruct (Ra 1 (TOp OPow :: text b ++ rest) Ha ltac:(simpl; lia) Ca) as (pa & Ea & Ga).
            destruct (Rb 2 rest Hb Hs Cb) as (pb & Eb & Gb).
            exists (PList (pa :: ops OPow [pb])). split.
            -- rewrite parse_step. cbn [step level_op text]. rewrite <- app_assoc, <- app_comm_cons. rewrite Ea.
               rewrite parse_step. cbn [step op_eqb]. rewrite Eb. rewrite parse_loop_stop by exact Hs. reflexivity.
            -- change (CBin OPow a b) with (fold_left (CBin OPow) [b] a). apply good_fold; auto. discriminate.
        + assert (Ho : exists o, level_op (S (S (S k))) = Some o /\ o <> OPow).
          { pose proof (fos_level _ _ Hf). do 4 (destruct k as [|k]; [eexists; split; [reflexivity|discriminate]|]). lia. }
          destruct Ho as (o & Ho & Hp). pose proof Ho as Hlv. apply level_op_spec in Hlv.
          destruct (decompose _ _ _ Hf Ho Hp) as (h & ts & Et & Hh & Hts & Ex & Sz).
          destruct Sz as [[-> ->]|[Sh St]].
          * destruct (IHk rest Hh) as (p & Ep & G); auto. { destruct rest as [|[| | |o'| |] r]; simpl in *; lia || exact I. }
            exists p. split; auto. rewrite parse_step. cbn [step]. rewrite Ho, Ep.
            rewrite parse_loop_stop by (rewrite <- Hlv; exact Hs). destruct o; reflexivity.
          * assert (Pl : lib = LibSympy -> plain_arguments h /\ Forall plain_arguments ts).
            { intros L. apply Hl in L. rewrite Et in L. clear -L. revert h L. induction ts as [|x ts IH]; simpl; intros h L; auto.
              apply IH in L. destruct L as [[A B] C]. auto. }
            rewrite Ex in Hc. apply calls_app in Hc. destruct Hc as [Ch Ct].
            destruct ts as [|t1 ts'].
            { simpl in Et. subst h. lia. }
            destruct (IHm h ltac:(lia) ltac:(intros L; apply Pl in L; apply L)) as [Rh _].
            destruct (Rh (S (S k)) (flat_map (fun x => TOp o :: text x) (t1 :: ts') ++ rest) Hh) as (p0 & E0 & G0); auto.
            { simpl. lia. }
            destruct (loop_reads o (S (S k)) (t1 :: ts') rest Ho Hp Hs) as (ps & El & Gl); auto.
            { rewrite Forall_forall in *. intros x Hx rest' Hs' Hc'.
              destruct (IHm x) as [Rx _].
              - apply St in Hx. lia.
              - intros L. apply Pl in L. destruct L as [_ L]. auto.
              - apply Rx; auto. }
            exists (PList (p0 :: ops o ps)). rewrite Et. split; [|apply good_fold; auto; intros ->; inversion Gl].
            rewrite <- Et, Ex, <- app_assoc. rewrite parse_step. cbn [step]. rewrite Ho, E0.
            replace (match o with OPow => S (S (S k)) | _ => S (S k) end) with (S (S k)) by (destruct o; congruence).
            rewrite El. destruct ps as [|p1 ps]; [inversion Gl|]. reflexivity. }
    split; [exact P1|].
    intros rest Hf Hc.
    assert (Content : parse Nested (text t ++ TRpar :: rest) = Fail ->
      exists l, parse Nested (TLpar :: text t ++ TRpar :: rest) = Ok [PList l] rest /\
         good lib i (PList l) (CParen t) /\
         (forall h, (lib = LibSympy -> ~ opens t) -> good lib i (PList [PFun h; PList l]) (CFun h t))).
    { intros K. destruct (P1 6 (TRpar :: rest) Hf I Hc) as (p & Ep & G).
      exists [p]. split; [|split; [now apply good_single, good_paren|intros h _; now apply good_fun]].
      rewrite parse_step. cbn [step]. rewrite (parse_step Items). cbn [step]. rewrite K. unfold top. rewrite Ep.
      rewrite parse_items_rpar. reflexivity. }
    destruct (text t) as [|tok r0] eqn:Et; [now elim (text_nonempty t)|].
    destruct tok; try (right; apply Content; apply parse_nested_not; discriminate).
    rewrite <- Et in *. assert (O : opens t) by (now exists r0).
    destruct (leftmost 6 t Hf O) as (t1 & tail & E1 & F1 & S1 & T1 & Pl).
    destruct (IHm t1 ltac:(lia) ltac:(auto)) as [_ H2].
    assert (C1 : calls (text t1) (TRpar :: (tail ++ TRpar :: rest))).
    { rewrite E1 in Hc. apply calls_cons in Hc. destruct Hc as [_ Hc]. apply calls_app in Hc. destruct Hc as [Hc _]. exact Hc. }
    assert (Es : text t ++ TRpar :: rest = TLpar :: text t1 ++ TRpar :: (tail ++ TRpar :: rest)).
    { rewrite E1. simpl. rewrite <- app_assoc. reflexivity. }
    destruct (H2 _ F1 C1) as [K|(l1 & K & G1 & _)].
    - right. apply Content. now rewrite Es.
    - rewrite <- Es in K.
      assert (En : parse Nested (TLpar :: text t ++ TRpar :: rest) =
        match parse Items (tail ++ TRpar :: rest) with
        | Ok l (TRpar :: r) => Ok [PList (PList l1 :: l)] r | Fuel => Fuel | _ => Fail end).
      { rewrite parse_step. cbn [step]. rewrite (parse_step Items). cbn [step]. rewrite K.
        destruct (parse Items (tail ++ TRpar :: rest)) as [l [|[| | | | |] r]| |]; reflexivity. }
      destruct (parse Items (tail ++ TRpar :: rest)) as [l' r'| |] eqn:Ei; [|now left|now elim (parse_not_fuel Items (tail ++ TRpar :: rest))].
      destruct r' as [|[| | | | |] r']; try (now left).
      destruct (parse_consumes _ _ _ _ Ei) as (c & Ec & Bc & Vl & Nl).
      assert (Bt : balanced tail).
      { pose proof (text_balanced t) as B. rewrite E1 in B. unfold balanced in *.
        change (TLpar :: text t1 ++ TRpar :: tail) with ((TLpar :: text t1 ++ [TRpar] ++ tail)) in B. rewrite app_comm_cons, app_assoc in B.
        rewrite depth_app in B. pose proof (balanced_paren _ (text_balanced t1)) as B1. unfold balanced in B1.
        rewrite <- app_comm_cons in B. rewrite B1 in B. exact B. }
      destruct (balanced_unique _ _ _ _ Bt Bc Ec) as [-> <-].
      right. exists (PList l1 :: l'). split; [exact En|].
      destruct l' as [|x l'].
      + rewrite (T1 (Nl eq_refl)). split; [now apply good_single, good_paren|]. intros h _. now apply good_fun.
      + inversion Vl as [|? ? Vx _]; subst. split; [now apply good_bad|]. intros h Hs. apply good_bad_fun; auto.
        intros L. now apply Hs in L.
  Qed.
End Forward.

(** ** From the usual grammar to fossil's: the same text, the same value *)
Definition same (t' t : tree) : Prop :=
  text t' = text t /\ (forall i, value i t' = value i t) /\ (plain_arguments t' <-> plain_arguments t) /\
  (no_double_paren t' <-> no_double_paren t) /\ (no_functions t' <-> no_functions t) /\ (total t -> total t') /\ (natural_powers t -> natural_powers t').
Lemma same_refl t : same t t.
Proof. unfold same. intuition. Qed.
Lemma same_trans a b c : same a b -> same b c -> same a c.
Proof.
  intros (A1 & A2 & A3 & A4 & A5 & A6) (B1 & B2 & B3 & B4 & B5 & B6). unfold same.
  split; [congruence|]. split; [intros i; rewrite A2; apply B2|]. tauto.
Qed.
Lemma same_opens a b : same a b -> opens a <-> opens b.
Proof. intros (E & _). unfold opens. now rewrite E. Qed.
Lemma text_num b q : text b = [TNum q] -> b = CNum q.
Proof.
  destruct b as [q'|k d|f t|t|t|o a b]; cbn; intros E; try discriminate; [now injection E as ->|].
  exfalso. destruct (text a) as [|x l] eqn:Ea; [now apply text_nonempty in Ea|]. injection E as _ E. destruct l; discriminate.
Qed.
Lemma same_bin o a a' b b' : same a a' -> same b b' -> same (CBin o a b) (CBin o a' b').
Proof.
  intros (A1 & A2 & A3 & A4 & A5 & A6) (B1 & B2 & B3 & B4 & B5 & B6). unfold same. cbn [text plain_arguments no_double_paren no_functions].
  split; [congruence|]. split; [intros i; rewrite !value_bin; congruence|].
  split; [tauto|]. split; [tauto|]. split; [tauto|].
  destruct A6 as [A6 A7], B6 as [B6 B7].
  destruct o; cbn [total natural_powers]; try tauto.
  - split; [|tauto]. intros [T (q & -> & Hq)]. split; [auto|]. exists q. split; [|exact Hq]. now apply text_num.
  - split; [tauto|]. intros [T (q & k & -> & Hq)]. split; [auto|]. exists q, k. split; [|exact Hq]. now apply text_num.
Qed.
Lemma same_paren a b : same a b -> same (CParen a) (CParen b).
Proof.
  intros H. pose proof (same_opens _ _ H) as O. destruct H as (A1 & A2 & A3 & A4 & A5 & A6).
  unfold same. cbn [text plain_arguments no_double_paren no_functions value total natural_powers].
  split; [congruence|]. split; [intros i; congruence|]. tauto.
Qed.
Lemma same_fun f a b : same a b -> same (CFun f a) (CFun f b).
Proof.
  intros H. pose proof (same_opens _ _ H) as O. destruct H as (A1 & A2 & A3 & A4 & A5 & A6).
  unfold same. cbn [text plain_arguments no_double_paren no_functions value total natural_powers].
  split; [congruence|]. split; [intros i; congruence|]. tauto.
Qed.
Lemma same_neg a b : same a b -> same (CNeg a) (CNeg b).
Proof.
  intros (A1 & A2 & A3 & A4 & A5 & A6).
  unfold same. cbn [text plain_arguments no_double_paren no_functions value total natural_powers].
  split; [congruence|]. split; [intros i; congruence|]. tauto.
Qed.
Lemma same_assoc o o' a b c : (forall x y z, (forall i, op_eval i o (op_eval i o' x y) z = op_eval i o' x (op_eval i o y z))) ->
  (total (CBin o (CBin o' a b) c) -> total (CBin o' a (CBin o b c))) ->
  (natural_powers (CBin o (CBin o' a b) c) -> natural_powers (CBin o' a (CBin o b c))) ->
  same (CBin o' a (CBin o b c)) (CBin o (CBin o' a b) c).
Proof.
  intros H H' H''. unfold same. cbn [text plain_arguments no_double_paren no_functions].
  split; [now rewrite <- app_assoc|]. split; [intros i; rewrite !value_bin; symmetry; apply H|]. tauto.
Qed.
Lemma push_sub a b : fos 6 a -> fos 4 b -> exists c, fos 6 c /\ same c (CBin OSub a b).
Proof.
  intros Ha Hb. inversion Ha as [ | | | |k t H Hk| | |k o a1 a2 Ho Hp H1 H2]; subst.
  - exists (CBin OSub a b). split; [|apply same_refl]. apply fos_up; [|lia]. apply fos_left; auto. discriminate.
  - injection Ho as <-. exists (CBin OAdd a1 (CBin OSub a2 b)). split.
    + apply fos_left; auto. apply fos_left; auto. discriminate.
    + apply same_assoc; [intros x y z i; simpl; lra|cbn [total]; tauto|cbn [natural_powers]; tauto].
Qed.
Lemma push_div a b : fos 4 a -> fos 2 b -> exists c, fos 4 c /\ same c (CBin ODiv a b).
Proof.
  intros Ha Hb. inversion Ha as [ | | | |k t H Hk| | |k o a1 a2 Ho Hp H1 H2]; subst.
  - exists (CBin ODiv a b). split; [|apply same_refl]. apply fos_up; [|lia]. apply fos_left; auto. discriminate.
  - injection Ho as <-. exists (CBin OMul a1 (CBin ODiv a2 b)). split.
    + apply fos_left; auto. apply fos_left; auto. discriminate.
    + apply same_assoc; [intros x y z i; simpl; unfold Rdiv; lra|cbn [total]; tauto|cbn [natural_powers]; tauto].
Qed.
Definition cat_level (c : cat) : nat :=
  match c with Sum => 6 | Product => 4 | Factor => 2 | Power => 2 | Primary => 0 end.
Lemma std_fos c t : std c t -> no_minus_power t -> exists t', fos (cat_level c) t' /\ same t' t /\
  (c <> Sum -> c <> Product -> (forall a b, t <> CBin OPow a b) -> fos 1 t').
Proof.
  induction 1 as [a b Ha IHa Hb IHb|a b Ha IHa Hb IHb|t H IH|a b Ha IHa Hb IHb|a b Ha IHa Hb IHb|t H IH
    |t H IH|t H IH|a b Ha IHa Hb IHb|t H IH|q|k d|f t H IH|t H IH]; simpl cat_level in *; intros N.
  - destruct N as [Na Nb]. destruct (IHa Na) as (a' & Fa & Sa & _). destruct (IHb Nb) as (b' & Fb & Sb & _).
    exists (CBin OAdd a' b'). split; [apply fos_left; auto; [discriminate|apply fos_up; auto; lia]|]. split; [now apply same_bin|congruence].
  - destruct N as [Na Nb]. destruct (IHa Na) as (a' & Fa & Sa & _). destruct (IHb Nb) as (b' & Fb & Sb & _).
    destruct (push_sub a' b' Fa Fb) as (c & Fc & Sc). exists c. split; auto. split; [|congruence].
    eapply same_trans; [exact Sc|]. now apply same_bin.
  - destruct (IH N) as (t' & F & S & _). exists t'. split; [apply (fos_le 4); auto; lia|]. split; [auto|congruence].
  - destruct N as [Na Nb]. destruct (IHa Na) as (a' & Fa & Sa & _). destruct (IHb Nb) as (b' & Fb & Sb & _).
    exists (CBin OMul a' b'). split; [apply fos_left; auto; [discriminate|apply fos_up; auto; lia]|]. split; [now apply same_bin|congruence].
  - destruct N as [Na Nb]. destruct (IHa Na) as (a' & Fa & Sa & _). destruct (IHb Nb) as (b' & Fb & Sb & _).
    destruct (push_div a' b' Fa Fb) as (c & Fc & Sc). exists c. split; auto. split; [|congruence].
    eapply same_trans; [exact Sc|]. now apply same_bin.
  - destruct (IH N) as (t' & F & S & _). exists t'. split; [apply (fos_le 2); auto; lia|]. split; [auto|congruence].
  - destruct N as [Np N]. destruct (IH N) as (t' & F & S & G).
    assert (F1 : fos 1 t') by (apply G; congruence).
    exists (CNeg t'). split; [apply fos_up; [now apply fos_neg|lia]|]. split; [now apply same_neg|].
    intros _ _ _. now apply fos_neg.
  - destruct (IH N) as (t' & F & S & G). exists t'. split; auto. split; auto. intros _ _ Hp. apply G; congruence.
  - destruct N as [Na Nb]. destruct (IHa Na) as (a' & Fa & Sa & _). destruct (IHb Nb) as (b' & Fb & Sb & _).
    exists (CBin OPow a' b'). split; [apply fos_pow; auto; apply fos_up; auto; lia|]. split; [now apply same_bin|].
    intros _ _ Hp. now elim (Hp a b).
  - destruct (IH N) as (t' & F & S & G). exists t'. split; [apply (fos_le 0); auto; lia|]. split; auto.
    intros _ _ _. apply (fos_le 0); auto; lia.
  - exists (CNum q). split; [constructor|]. split; [apply same_refl|]. intros. apply fos_up; [constructor|lia].
  - exists (CVar k d). split; [constructor|]. split; [apply same_refl|]. intros. apply fos_up; [constructor|lia].
  - destruct (IH N) as (t' & F & S & _). exists (CFun f t'). split; [now constructor|]. split; [now apply same_fun|].
    intros. apply fos_up; [now constructor|lia].
  - destruct (IH N) as (t' & F & S & _). exists (CParen t'). split; [now constructor|]. split; [now apply same_paren|].
    intros. apply fos_up; [now constructor|lia].
Qed.

(** ** Accepted input *)
Lemma accepted_both lib i t f1 f2 a v : fos 6 t -> (lib = LibSympy -> plain_arguments t) ->
  parse_expression f1 f2 (text t) = Some a -> aval lib i a = Some v ->
  v = value i t /\ a = strip t.
Proof.
  intros Hf Hl E Ev. unfold parse_expression in E.
  destruct (run f1 (Level top) (text t)) as [l r| |] eqn:Er; try discriminate. destruct r; try discriminate.
  destruct (run_calls _ _ _ _ _ Er) as (c & Ec & C). rewrite app_nil_r in Ec. subst c.
  destruct (forward lib i (S (size t)) t ltac:(lia) Hl) as [R _].
  destruct (R 6 [] Hf I C) as (p & Ep & G). rewrite app_nil_r in Ep.
  assert (Ef : run f1 (Level top) (text t) <> Fuel) by (rewrite Er; discriminate).
  apply run_parse in Ef. rewrite Er in Ef. unfold top in Ef. rewrite Ep in Ef. injection Ef as ->.
  apply good_single in G. destruct G as [S _]. eapply S; eauto.
Qed.
Lemma accepted_value lib i t f1 f2 a v : fos 6 t -> (lib = LibSympy -> plain_arguments t) ->
  parse_expression f1 f2 (text t) = Some a -> aval lib i a = Some v -> v = value i t.
Proof. intros Hf Hl E Ev. exact (proj1 (accepted_both lib i t f1 f2 a v Hf Hl E Ev)). Qed.
Lemma nested_content lib i t rest : fos 6 t -> (lib = LibSympy -> plain_arguments t) -> ~ opens t -> calls (text t) (TRpar :: rest) ->
  exists p, parse Nested (TLpar :: text t ++ TRpar :: rest) = Ok [PList [p]] rest /\ good lib i p t.
Proof.
  intros Hf Hl Ho C. destruct (forward lib i (S (size t)) t ltac:(lia) Hl) as [R _].
  destruct (R 6 (TRpar :: rest) Hf I C) as (p & Ep & G). exists p. split; auto.
  rewrite parse_step. cbn [step]. rewrite (parse_step Items). cbn [step]. rewrite parse_nested_not.
  - unfold top. rewrite Ep. rewrite parse_items_rpar. reflexivity.
  - intros r E. apply Ho. destruct (text t) as [|x s] eqn:Et; [now elim (text_nonempty t)|].
    injection E as -> _. unfold opens. eauto.
Qed.
Lemma simple_calls k t : fos k t -> no_double_paren t -> forall rest, calls (text t) rest.
Proof.
  induction 1 as [q|v d|f t H IH|t H IH|k t H IH Hk|t H IH|a b Ha IHa Hb IHb|k o a b Hk Ho Ha IHa Hb IHb];
    intros N rest; cbn [text]; auto.
  - apply calls_cons. split; [discriminate|apply calls_nil].
  - apply calls_cons. split; [discriminate|apply calls_nil].
  - destruct N as [No N]. apply calls_cons. split.
    + intros g _. destruct (nested_content LibDReal {| i_var := fun _ _ => 0%R; i_pow := Rplus; i_fun := fun _ x => x |} t rest H)
        as (p & Ep & _); auto; [discriminate|].
      rewrite <- app_comm_cons, close_text. rewrite Ep. discriminate.
    + apply calls_cons. split; [discriminate|]. apply calls_app. split; [apply IH; auto|].
      apply calls_cons. split; [discriminate|apply calls_nil].
  - destruct N as [No N]. apply calls_cons. split; [discriminate|]. apply calls_app. split; [apply IH; auto|].
    apply calls_cons. split; [discriminate|apply calls_nil].
  - apply calls_cons. split; [discriminate|]. apply IH. exact N.
  - destruct N as [Na Nb]. apply calls_app. split; [auto|]. apply calls_cons. split; [discriminate|auto].
  - destruct N as [Na Nb]. apply calls_app. split; [auto|]. apply calls_cons. split; [discriminate|auto].
Qed.
Lemma parse_run n ts : exists f, run f n ts = parse n ts.
Proof. unfold parse. eauto. Qed.
Lemma accepted lib i t : fos 6 t -> no_double_paren t -> (lib = LibSMT -> no_functions t) -> (lib = LibSympy -> plain_arguments t) ->
  exists f1 f2 a, parse_expression f1 f2 (text t) = Some a /\ aval lib i a = Some (value i t).
Proof.
  intros Hf Hd Hn Hl. destruct (forward lib i (S (size t)) t ltac:(lia) Hl) as [R _].
  destruct (R 6 [] Hf I (simple_calls _ _ Hf Hd [])) as (p & Ep & G). rewrite app_nil_r in Ep.
  apply good_single in G. destruct G as [_ C]. destruct (C (conj Hd Hn)) as (f2 & a & E & Ev).
  destruct (parse_run (Level 6) (text t)) as (f1 & E1). exists f1, f2, a. split; auto.
  unfold parse_expression, top. rewrite E1, Ep. exact E.
Qed.

(** ** C37 *)
(** An expression written in the usual notation, without a minus sign in front of a power,
    has its usual value, whenever fossil accepts it.  (For sympy: when no argument of a
    function begins with a parenthesis, see [C37_sympy_square_root].) *)
Theorem C37_usual_precedence lib i t f1 f2 a v :
  std Sum t -> no_minus_power t -> (lib = LibSympy -> plain_arguments t) ->
  parse_expression f1 f2 (text t) = Some a -> aval lib i a = Some v -> v = value i t.
Proof.
  intros Hs Hn Hl E Ev. destruct (std_fos _ _ Hs Hn) as (t' & F & (S1 & S2 & S3 & S4 & S5 & S6) & _).
  rewrite <- S1 in E. rewrite <- S2. eapply accepted_value; eauto. tauto.
Qed.

Lemma plain_of_simple t : no_double_paren t -> plain_arguments t.
Proof. induction t; simpl; intuition. Qed.
(** It accepts all of them that have no two adjacent opening parentheses and only
    functions the library has. *)
Theorem C37_accepted lib i t :
  std Sum t -> no_minus_power t -> no_double_paren t -> (lib = LibSMT -> no_functions t) ->
  exists f1 f2 a, parse_expression f1 f2 (text t) = Some a /\ aval lib i a = Some (value i t).
Proof.
  intros Hs Hn Hd Hf. destruct (std_fos _ _ Hs Hn) as (t' & F & (S1 & S2 & S3 & S4 & S5 & S6) & _).
  rewrite <- S1, <- S2. apply accepted; auto; try tauto. intros _. apply plain_of_simple. tauto.
Qed.

(** A minus sign in front of a power applies to the base: [- p ** e] means [(- p) ** e]. *)
Theorem C37_minus_power lib i p e f1 f2 a v :
  std Primary p -> std Factor e -> no_minus_power p -> no_minus_power e ->
  (lib = LibSympy -> plain_arguments p /\ plain_arguments e) ->
  parse_expression f1 f2 (text (CNeg (CBin OPow p e))) = Some a -> aval lib i a = Some v ->
  v = i_pow i (- value i p) (value i e).
Proof.
  intros Hp He Np Ne Hl E Ev.
  destruct (std_fos _ _ Hp Np) as (p' & Fp & (S1 & S2 & S3 & _) & _).
  destruct (std_fos _ _ He Ne) as (e' & Fe & (T1 & T2 & T3 & _) & _).
  change (text (CNeg (CBin OPow p e))) with (TOp OSub :: text p ++ TOp OPow :: text e) in E.
  rewrite <- S1, <- T1 in E.
  change (TOp OSub :: text p' ++ TOp OPow :: text e') with (text (CBin OPow (CNeg p') e')) in E.
  rewrite <- S2, <- T2. change (i_pow i (- value i p') (value i e')) with (value i (CBin OPow (CNeg p') e')).
  eapply accepted_value; eauto.
  - apply (fos_le 2); [|lia..]. apply fos_pow; auto. apply fos_neg. now apply fos_up; [|lia].
  - intros L. apply Hl in L. simpl. tauto.
Qed.
Theorem C37_minus_power_accepted lib i p e :
  std Primary p -> std Factor e -> no_minus_power p -> no_minus_power e ->
  no_double_paren p -> no_double_paren e -> (lib = LibSMT -> no_functions p /\ no_functions e) ->
  exists f1 f2 a, parse_expression f1 f2 (text (CNeg (CBin OPow p e))) = Some a /\
    aval lib i a = Some (i_pow i (- value i p) (value i e)).
Proof.
  intros Hp He Np Ne Dp De Hf.
  destruct (std_fos _ _ Hp Np) as (p' & Fp & (S1 & S2 & S3 & S4 & S5 & S6) & _).
  destruct (std_fos _ _ He Ne) as (e' & Fe & (T1 & T2 & T3 & T4 & T5 & T6) & _).
  change (text (CNeg (CBin OPow p e))) with (TOp OSub :: text p ++ TOp OPow :: text e).
  rewrite <- S1, <- T1, <- S2, <- T2.
  change (TOp OSub :: text p' ++ TOp OPow :: text e') with (text (CBin OPow (CNeg p') e')).
  change (i_pow i (- value i p') (value i e')) with (value i (CBin OPow (CNeg p') e')).
  apply accepted.
  - apply (fos_le 2); [|lia..]. apply fos_pow; auto. apply fos_neg. now apply fos_up; [|lia].
  - simpl. tauto.
  - intros L. apply Hf in L. simpl. tauto.
  - intros _. pose proof (plain_of_simple p). pose proof (plain_of_simple e). simpl. tauto.
Qed.

(** ** Rejected input *)
(** A minus sign in front of a text. *)
Lemma minus_front k t : fos k t -> 1 <= k -> exists t', fos k t' /\ text t' = TOp OSub :: text t /\
  (no_double_paren t -> no_double_paren t') /\ match t with CVar _ _ => forall i, value i t' = (- value i t)%R | _ => True end.
Proof.
  induction 1 as [q|v d|f t H IH|t H IH|k t H IH Hk|t H IH|a b Ha IHa Hb IHb|k o a b Hk Ho Ha IHa Hb IHb]; intros L; try lia.
  - destruct k as [|k].
    + exists (CNeg t). split; [|split; [auto|split; [auto|]]]; [apply fos_neg; now apply fos_up|]. now destruct t.
    + destruct IH as (t' & F & E & N); [lia|]. exists t'. split; [now apply fos_up|auto].
  - exists (CNeg (CNeg t)). split; [|auto]. apply fos_neg. now apply fos_neg.
  - destruct IHa as (a' & F & E & N & _); [lia|]. exists (CBin OPow a' b). split; [now apply fos_pow|].
    simpl. rewrite E. split; [reflexivity|tauto].
  - destruct IHa as (a' & F & E & N & _); [lia|]. exists (CBin o a' b). split; [now apply fos_left|].
    simpl. rewrite E. split; [reflexivity|tauto].
Qed.
(** The contents of parentheses that begin with a parenthesis and go on with a minus sign. *)
Definition some_interp : interp := {| i_var := fun _ _ => 0%R; i_pow := Rplus; i_fun := fun _ x => x |}.
Lemma nested_pair lib i t1 t2 rest : fos 6 t1 -> fos 4 t2 -> ~ opens t1 -> no_double_paren t1 -> no_double_paren t2 ->
  exists p x t', valuelike x /\ good lib i p t1 /\ good lib i x t' /\ no_double_paren t' /\
    match t2 with CVar _ _ => value i t' = (- value i t2)%R | _ => True end /\
    parse Nested (TLpar :: text (CBin OSub (CParen t1) t2) ++ TRpar :: rest) = Ok [PList [PList [p]; x]] rest.
Proof.
  intros F1 F2 O1 N1 N2.
  destruct (minus_front 4 t2 F2 ltac:(lia)) as (t' & F & E & N & Val).
  assert (F6 : fos 6 t') by (apply (fos_le 4); auto; lia).
  destruct (nested_content lib i t1 (TOp OSub :: text t2 ++ TRpar :: rest) F1) as (p & Ep & G); auto.
  { intros _. now apply plain_of_simple. }
  { now apply (simple_calls 6). }
  destruct (forward lib i (S (size t')) t' ltac:(lia)) as [R _].
  { intros _. apply plain_of_simple. tauto. }
  destruct (R 6 (TRpar :: rest) F6 I) as (x & Ex & Gx).
  { apply (simple_calls 6); tauto. }
  exists p, x, t'. split; [|split; [exact G|split; [exact Gx|split; [tauto|split; [destruct t2; auto|]]]]].
  { destruct (parse_consumes _ _ _ _ Ex) as (c & _ & _ & Sh). destruct Sh as [(y & Ey & V) _]. now injection Ey as ->. }
  rewrite E in Ex. cbn [text] in *. rewrite <- app_assoc, <- !app_comm_cons, <- app_assoc.
  change ([TRpar] ++ TOp OSub :: text t2 ++ TRpar :: rest) with (TRpar :: TOp OSub :: text t2 ++ TRpar :: rest).
  rewrite parse_step. cbn [step]. rewrite (parse_step Items). cbn [step]. rewrite Ep.
  rewrite (parse_step Items). cbn [step]. rewrite parse_nested_not by discriminate.
  unfold top. rewrite <- app_comm_cons in Ex. rewrite Ex. rewrite parse_items_rpar. reflexivity.
Qed.
Lemma level_up ts l : ts <> [] -> (forall r, ts <> TOp OSub :: r) -> parse (Level 0) ts = Ok l [] ->
  parse (Level 6) ts = Ok l [].
Proof.
  intros Hn Hm E.
  assert (E1 : parse (Level 1) ts = Ok l []).
  { rewrite parse_step. cbn [step]. destruct ts as [|[| | |[]| |] r]; auto. now elim (Hm r). }
  do 5 (rewrite parse_step; cbn [step level_op]). rewrite E1.
  do 5 (rewrite parse_loop_stop by exact I; cbn [app]). reflexivity.
Qed.

(** "((t1) - t2)" is always refused, although it is correct. *)
Theorem C37_paren_minus_rejected t1 t2 f1 f2 :
  std Sum t1 -> std Product t2 -> no_minus_power t1 -> no_minus_power t2 ->
  ~ opens t1 -> no_double_paren t1 -> no_double_paren t2 ->
  parse_expression f1 f2 (text (CParen (CBin OSub (CParen t1) t2))) = None.
Proof.
  intros H1 H2 M1 M2 O1 N1 N2.
  destruct (std_fos _ _ H1 M1) as (u1 & F1 & S1 & _). destruct (std_fos _ _ H2 M2) as (u2 & F2 & S2 & _).
  pose proof (same_opens _ _ S1) as Q1. destruct S1 as (T1 & _ & _ & D1 & _). destruct S2 as (T2 & _ & _ & D2 & _).
  destruct (nested_pair LibDReal some_interp u1 u2 [] F1 F2) as (p & x & t' & Vx & _ & _ & _ & _ & E); try tauto.
  assert (Et : text (CParen (CBin OSub (CParen t1) t2)) = TLpar :: text (CBin OSub (CParen u1) u2) ++ [TRpar])
    by (cbn [text]; now rewrite T1, T2).
  unfold parse_expression. destruct (run f1 (Level top) _) as [l r| |] eqn:Er; auto. destruct r; auto.
  assert (Ef : run f1 (Level top) (text (CParen (CBin OSub (CParen t1) t2))) <> Fuel) by (rewrite Er; discriminate).
  apply run_parse in Ef. rewrite Er, Et in Ef. unfold top in Ef.
  rewrite (level_up _ [PList [PList [p]; x]]) in Ef.
  - injection Ef as ->. destruct f2 as [|f2]; auto. simpl convert. now apply (bad_list f2).
  - discriminate.
  - discriminate.
  - rewrite parse_step. cbn [step]. rewrite E. reflexivity.
Qed.

(** The argument of a function must not begin with a parenthesis followed by +, *, / or **:
    "f((t1) * t2)" is always refused. *)
Theorem C37_argument_rejected f o t1 t2 f1 f2 :
  o <> OSub -> std Sum t1 -> no_minus_power t1 -> ~ opens t1 -> no_double_paren t1 ->
  parse_expression f1 f2 (text (CFun f (CBin o (CParen t1) t2))) = None.
Proof.
  intros Ho H1 M1 O1 N1.
  destruct (std_fos _ _ H1 M1) as (u1 & F1 & S1 & _). pose proof (same_opens _ _ S1) as Q1. destruct S1 as (T1 & _ & _ & D1 & _).
  destruct (nested_content LibDReal some_interp u1 (TOp o :: text t2 ++ [TRpar]) F1) as (p & Ep & _); try tauto; try discriminate.
  { apply (simple_calls 6); tauto. }
  rewrite T1 in Ep.
  assert (Et : text (CFun f (CBin o (CParen t1) t2)) = TFun f :: TLpar :: TLpar :: text t1 ++ TRpar :: TOp o :: text t2 ++ [TRpar]).
  { cbn [text]. rewrite <- app_assoc, <- !app_comm_cons, <- app_assoc. reflexivity. }
  assert (E0 : parse (Level 0) (text (CFun f (CBin o (CParen t1) t2))) = Fail).
  { rewrite Et. rewrite parse_step. cbn [step]. rewrite (parse_step Nested). cbn [step].
    rewrite (parse_step Items). cbn [step]. rewrite Ep. rewrite (parse_step Items). cbn [step].
    rewrite parse_nested_not by discriminate.
    assert (L : forall k, k <= 6 -> parse (Level k) (TOp o :: text t2 ++ [TRpar]) = Fail).
    { induction k as [|[|k] IH]; intros K; rewrite parse_step.
      - reflexivity.
      - simpl. destruct o; try congruence; apply IH; lia.
      - cbn [step]. destruct (level_op (S (S k))); auto. rewrite IH by lia. reflexivity. }
    rewrite L by (unfold top; lia). reflexivity. }
  assert (L : forall k, k <= 6 -> parse (Level k) (text (CFun f (CBin o (CParen t1) t2))) = Fail).
  { induction k as [|[|k] IH]; intros K; auto; rewrite parse_step.
    - rewrite Et at 1. cbn [step]. rewrite <- Et. exact E0.
    - cbn [step]. destruct (level_op (S (S k))); auto. rewrite IH by lia. reflexivity. }
  unfold parse_expression. destruct (run f1 (Level top) _) as [l r| |] eqn:Er; auto.
  assert (Ef : run f1 (Level top) (text (CFun f (CBin o (CParen t1) t2))) <> Fuel) by (rewrite Er; discriminate).
  apply run_parse in Ef. rewrite Er, L in Ef by (unfold top; lia). discriminate.
Qed.

(** With sympy, "sqrt((t1) - t2)" is accepted and means sqrt(t1): the second item is
    passed as sympy's [evaluate] argument. *)
Theorem C37_sympy_square_root i t1 t2 :
  std Sum t1 -> std Product t2 -> no_minus_power t1 -> no_minus_power t2 ->
  ~ opens t1 -> no_double_paren t1 -> no_double_paren t2 ->
  exists f1 f2 a, parse_expression f1 f2 (text (CFun FSqrt (CBin OSub (CParen t1) t2))) = Some a /\
    aval LibSympy i a = Some (i_fun i FSqrt (value i t1)).
Proof.
  intros H1 H2 M1 M2 O1 N1 N2.
  destruct (std_fos _ _ H1 M1) as (u1 & F1 & S1 & _). destruct (std_fos _ _ H2 M2) as (u2 & F2 & S2 & _).
  pose proof (same_opens _ _ S1) as Q1. destruct S1 as (T1 & V1 & _ & D1 & _). destruct S2 as (T2 & _ & _ & D2 & _).
  destruct (nested_pair LibSympy i u1 u2 [] F1 F2) as (p & x & t' & Vx & G1 & G2 & N' & Val & E); try tauto.
  assert (Et : text (CFun FSqrt (CBin OSub (CParen t1) t2)) = TFun FSqrt :: TLpar :: text (CBin OSub (CParen u1) u2) ++ [TRpar])
    by (cbn [text]; now rewrite T1, T2).
  apply good_single in G1. destruct G1 as [_ C1]. destruct G2 as [_ C2].
  destruct C1 as (g1 & a1 & E1 & A1); [split; [tauto|discriminate]|].
  destruct C2 as (g2 & a2 & E2 & A2); [split; [tauto|discriminate]|].
  destruct (parse_run (Level 6) (text (CFun FSqrt (CBin OSub (CParen t1) t2)))) as (f1 & Ef).
  rewrite Et, (level_up _ [PList [PFun FSqrt; PList [PList [p]; x]]]), <- Et in Ef.
  - exists f1, (S (S (g1 + g2))), (AFun FSqrt [a1; a2]). split.
    + unfold parse_expression, top. rewrite Ef.
      pose proof (convert_more g1 (g1 + g2) _ _ ltac:(lia) E1) as K1.
      pose proof (convert_more g2 (g1 + g2) _ _ ltac:(lia) E2) as K2.
      generalize dependent (g1 + g2). intros g K1 K2.
      change (option_map (AFun FSqrt) (map_opt (convert g) [PList [p]; x]) = Some (AFun FSqrt [a1; a2])).
      cbn [map_opt]. rewrite K1, K2. reflexivity.
    + rewrite aval_fun. cbn [map_opt]. rewrite A1, A2. simpl. now rewrite V1.
  - discriminate.
  - discriminate.
  - rewrite parse_step. cbn [step]. rewrite E. reflexivity.
Qed.

(** With sympy, "log((t1) - x1)" is accepted and means the logarithm of t1 to the base -x1. *)
Theorem C37_sympy_logarithm i t1 k d :
  std Sum t1 -> no_minus_power t1 -> ~ opens t1 -> no_double_paren t1 ->
  exists f1 f2 a, parse_expression f1 f2 (text (CFun FLog (CBin OSub (CParen t1) (CVar k d)))) = Some a /\
    aval LibSympy i a = Some (i_fun i FLog (value i t1) / i_fun i FLog (- i_var i k d))%R.
Proof.
  intros H1 M1 O1 N1.
  destruct (std_fos _ _ H1 M1) as (u1 & F1 & S1 & _).
  assert (F2 : fos 4 (CVar k d)) by (apply (fos_le 0); [apply fos_var|lia|lia]).
  assert (N2 : no_double_paren (CVar k d)) by exact I.
  pose proof (same_opens _ _ S1) as Q1. destruct S1 as (T1 & V1 & _ & D1 & _).
  destruct (nested_pair LibSympy i u1 (CVar k d) [] F1 F2) as (p & x & t' & Vx & G1 & G2 & N' & Val & E); try tauto.
  assert (Et : text (CFun FLog (CBin OSub (CParen t1) (CVar k d))) = TFun FLog :: TLpar :: text (CBin OSub (CParen u1) (CVar k d)) ++ [TRpar])
    by (cbn [text]; now rewrite T1).
  apply good_single in G1. destruct G1 as [_ C1]. destruct G2 as [_ C2].
  destruct C1 as (g1 & a1 & E1 & A1); [split; [tauto|discriminate]|].
  destruct C2 as (g2 & a2 & E2 & A2); [split; [tauto|discriminate]|].
  destruct (parse_run (Level 6) (text (CFun FLog (CBin OSub (CParen t1) (CVar k d))))) as (f1 & Ef).
  rewrite Et, (level_up _ [PList [PFun FLog; PList [PList [p]; x]]]), <- Et in Ef.
  - exists f1, (S (S (g1 + g2))), (AFun FLog [a1; a2]). split.
    + unfold parse_expression, top. rewrite Ef.
      pose proof (convert_more g1 (g1 + g2) _ _ ltac:(lia) E1) as K1.
      pose proof (convert_more g2 (g1 + g2) _ _ ltac:(lia) E2) as K2.
      generalize dependent (g1 + g2). intros g K1 K2.
      change (option_map (AFun FLog) (map_opt (convert g) [PList [p]; x]) = Some (AFun FLog [a1; a2])).
      cbn [map_opt]. rewrite K1, K2. reflexivity.
    + rewrite aval_fun. cbn [map_opt]. rewrite A1, A2. simpl. rewrite V1, Val. reflexivity.
  - discriminate.
  - discriminate.
  - rewrite parse_step. cbn [step]. rewrite E. reflexivity.
Qed.

(** ** Examples *)
Definition ex_x0 : tree := CVar VX (D0 Nil).
Definition ex_two : tree := CNum 2.
Definition ex_interp : interp := {| i_var := fun _ _ => 3%R; i_pow := Rmult; i_fun := fun _ x => x |}.
(** x0 - 2 + sin(x0) / 2 - x0 ** - 2 *)
Definition ex_sum : tree :=
  CBin OSub (CBin OAdd (CBin OSub ex_x0 ex_two) (CBin ODiv (CFun FSin ex_x0) ex_two)) (CBin OPow ex_x0 (CNeg ex_two)).
Ltac stdgram := repeat (first
  [apply std_num|apply std_var|apply std_fun|apply std_paren|apply std_pow|apply std_neg|apply std_mul|apply std_div
  |apply std_add|apply std_sub|apply std_power|apply std_factor|apply std_product|apply std_sum]).
Example C37_example_hypotheses : std Sum ex_sum /\ no_minus_power ex_sum /\ no_double_paren ex_sum /\ plain_arguments ex_sum.
Proof.
  split; [unfold ex_sum, ex_x0, ex_two; stdgram|]. simpl. repeat split; try discriminate; intros [r E]; discriminate.
Qed.
Example C37_example_accepted : exists f1 f2 a, parse_expression f1 f2 (text ex_sum) = Some a.
Proof.
  destruct C37_example_hypotheses as (A & B & C & D).
  destruct (C37_accepted LibDReal ex_interp ex_sum A B C ltac:(discriminate)) as (f1 & f2 & a & E & _). eauto.
Qed.
(** - x0 ** 2 at 3 is not - 9 for fossil when powers are read as in real arithmetic. *)
Definition sq_interp : interp := {| i_var := fun _ _ => 3%R; i_pow := fun x _ => (x * x)%R; i_fun := fun _ x => x |}.
Example C37_example_minus_power :
  value sq_interp (CNeg (CBin OPow ex_x0 ex_two)) = (- 9)%R /\
  exists f1 f2 a, parse_expression f1 f2 (text (CNeg (CBin OPow ex_x0 ex_two))) = Some a /\ aval LibSMT sq_interp a = Some 9%R.
Proof.
  split; [simpl; lra|].
  destruct (C37_minus_power_accepted LibSMT sq_interp ex_x0 ex_two) as (f1 & f2 & a & E & V); try exact I.
  - unfold ex_x0. stdgram.
  - unfold ex_two. stdgram.
  - intros _. split; exact I.
  - exists f1, f2, a. split; auto. rewrite V. f_equal. simpl. lra.
Qed.
(** ((x0) - 2), sin((x0) * 2) and sqrt((x0) - 2) meet the hypotheses of the rejections. *)
Example C37_example_rejected : std Sum ex_x0 /\ std Product ex_two /\ no_minus_power ex_x0 /\ no_minus_power ex_two /\
  ~ opens ex_x0 /\ no_double_paren ex_x0 /\ no_double_paren ex_two /\ std Sum (CParen (CBin OSub (CParen ex_x0) ex_two)) /\
  std Sum (CFun FSin (CBin OMul (CParen ex_x0) ex_two)).
Proof.
  unfold ex_x0, ex_two.
  split; [stdgram|]. split; [stdgram|]. split; [exact I|]. split; [exact I|]. split; [intros [r E]; discriminate|].
  split; [exact I|]. split; [exact I|]. split; stdgram.
Qed.
Example C37_sympy_logarithm_example : exists f1 f2 a,
  parse_expression f1 f2 (text (CFun FLog (CBin OSub (CParen ex_two) ex_x0))) = Some a.
Proof.
  destruct (C37_sympy_logarithm ex_interp ex_two VX (D0 Nil)) as (f1 & f2 & a & E & _); [unfold ex_two; stdgram|exact I| |exact I|eauto].
  intros O. destruct O as [r O]; discriminate.
Qed.
