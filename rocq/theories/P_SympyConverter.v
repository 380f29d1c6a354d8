(** C64: sympy_converter keeps the meaning of what it converts. *)
From Coq Require Import String Reals QArith Qreals List Bool ZArith Lra Lia.
From Verif Require Import M_Activations M_SympyConverter S_SympyConverter.
Import ListNotations.
Local Open Scope string_scope.
Local Open Scope R_scope.

Lemma spexpr_ind' (P : spexpr -> Prop) :
  (forall s, P (SpSymbol s)) -> (forall q, P (SpNumber q)) ->
  (forall l, Forall P l -> P (SpAdd l)) -> (forall l, Forall P l -> P (SpMul l)) ->
  (forall b x, P b -> P x -> P (SpPow b x)) -> (forall f l, Forall P l -> P (SpFunction f l)) -> P SpOther ->
  forall e, P e.
Proof.
  intros H1 H2 H3 H4 H5 H6 H7. fix IH 1. intros [s|q|l|l|b x|f l|].
  - apply H1.
  - apply H2.
  - apply H3. induction l; constructor; auto.
  - apply H4. induction l; constructor; auto.
  - apply H5; apply IH.
  - apply H6. induction l; constructor; auto.
  - apply H7.
Qed.

Section Meaning.
  Context (pw : R -> R -> R) (Hpw : power_law pw) (syms : symbols) (to_number approximate : Q -> option target)
    (rho : string -> R) (env : string -> R) (f1 : string -> R -> R) (f2 : string -> R -> R -> R).
  Hypothesis (HF : faithful pw syms rho env f1 f2)
    (HN : forall q t, number to_number approximate q = Some t -> tval pw env f1 f2 t = Q2R q).
  Notation "'val' t" := (tval pw env f1 f2 t) (at level 10).

  Lemma fold_args_value op (unit : R) rop conv l t :
    (forall a b, val (op a b) = rop (val a) (val b)) ->
    (forall a b c, rop (rop a b) c = rop a (rop b c)) -> (forall a, rop a unit = a) ->
    Forall (fun e => forall t, conv e = Some t -> val t = spval pw rho e) l ->
    fold_args op (map conv l) = Some t -> val t = fold_right rop unit (map (spval pw rho) l).
  Proof.
    intros Hop A U H E. destruct l as [|e l]; [discriminate|]. cbn [map fold_args] in E. inversion H as [|? ? He Hl]; subst; clear H.
    cbn [map fold_right].
    assert (G : forall l acc t, Forall (fun e => forall t, conv e = Some t -> val t = spval pw rho e) l ->
      fold_left (fun acc y => option_bind acc (fun a => option_bind y (fun b => Some (op a b)))) (map conv l) acc = Some t ->
      exists a, acc = Some a /\ val t = rop (val a) (fold_right rop unit (map (spval pw rho) l))).
    { clear - Hop A U. induction l as [|e l IH]; cbn [map fold_left fold_right]; intros acc t H E.
      - exists t. now rewrite U.
      - inversion H as [|? ? He Hl]; subst. apply IH in E; [|exact Hl]. destruct E as (a & Ea & E).
        destruct acc as [a0|]; [|discriminate]. cbn in Ea. destruct (conv e) as [b|] eqn:Eb; [|discriminate]. injection Ea as <-.
        exists a0. split; [reflexivity|]. rewrite E, Hop, A. now rewrite (He b eq_refl). }
    apply G in E; [|exact Hl]. destruct E as (a & Ea & E). rewrite E. now rewrite (He a Ea).
  Qed.
  Lemma call_value f a conv t : (forall t, conv a = Some t -> val t = spval pw rho a) ->
    call syms f (map conv [a]) = Some t -> val t = spval pw rho (SpFunction f [a]).
  Proof.
    intros H E. unfold call in E. cbn [map] in E. destruct (known_function f) eqn:K; [|discriminate].
    destruct (conv a) as [x|] eqn:Ex; [|discriminate]. cbn in E.
    destruct (get f syms) as [[|g]|] eqn:G; try discriminate. injection E as <-. cbn.
    assert (exists h, real_function f = Some h) as [h Hh].
    { unfold known_function in K. cbn in K. unfold real_function. destruct (String.eqb f "sin"); [eauto|]. destruct (String.eqb f "cos"); [eauto|].
      destruct (String.eqb f "exp"); [eauto|]. destruct (String.eqb f "tanh"); [eauto|discriminate]. }
    destruct HF as (_ & HFn & _). rewrite Hh. rewrite (HFn f g h Hh G). now rewrite (H x eq_refl).
  Qed.
  Lemma power_value x e t : power syms x e = Some t -> val t = pw (val x) (val e).
  Proof.
    unfold power. destruct HF as (_ & _ & HP). destruct (get "pow" syms) as [[|g]|] eqn:G; try discriminate; intros [= <-]; cbn; auto.
  Qed.

  Lemma convert_plain_value e : regular pw rho e -> forall t, convert_plain syms to_number approximate e = Some t -> val t = spval pw rho e.
  Proof.
    induction e as [s|q|l IH|l IH|b x IHb IHx|f l IH|] using spexpr_ind'; intros Hr t E; cbn [convert_plain] in E.
    - unfold symbol in E. destruct (get s syms) as [[u|]|] eqn:G; try discriminate. injection E as <-. exact (proj1 HF s u G).
    - exact (HN q t E).
    - inversion Hr as [| |? Hl| | | |]; subst.
      apply (fold_args_value TAdd 0 Rplus (convert_plain syms to_number approximate) l t); auto; intros; try ring.
      rewrite Forall_forall in *. auto.
    - inversion Hr as [| | |? Hl| | |]; subst.
      apply (fold_args_value TMul 1 Rmult (convert_plain syms to_number approximate) l t); auto; intros; try ring.
      rewrite Forall_forall in *. auto.
    - inversion Hr as [| | | |? ? Hb Hx Hz| |]; subst.
      destruct (convert_plain syms to_number approximate b) as [b'|]; [|discriminate]. cbn [option_bind] in E.
      destruct (convert_plain syms to_number approximate x) as [x'|]; [|discriminate]. cbn [option_bind] in E.
      rewrite (power_value _ _ _ E). cbn. now rewrite (IHb Hb b' eq_refl), (IHx Hx x' eq_refl).
    - inversion Hr as [| | | | |? a Ha|]; subst. inversion IH as [|? ? IHa _]; subst.
      apply (call_value f a (convert_plain syms to_number approximate)); auto.
    - discriminate.
  Qed.

  Lemma literal_value t i : literal t = Some i -> val t = IZR i /\ (0 <= i)%Z.
  Proof.
    destruct t as [[] q| | | | |]; cbn; try discriminate. intros H.
    destruct (Qred q) as [n d] eqn:E. cbn in H. destruct d; try discriminate. destruct (0 <=? n)%Z eqn:L; [|discriminate]. injection H as <-.
    split; [|now apply Z.leb_le]. rewrite <- (Qeq_eqR (Qred q) q (Qred_correct q)). rewrite E. unfold Q2R. cbn. field.
  Qed.
  Lemma repeat_mul_value t i : (0 < i)%Z -> val (repeat_mul t i) = val t ^ Z.to_nat i.
  Proof.
    intros Hi. unfold repeat_mul. replace (Z.to_nat i) with (S (Z.to_nat (i - 1))) by lia.
    induction (Z.to_nat (i - 1)) as [|k IH]; [cbn; ring|].
    change (Nat.iter (S k) (fun rv => TMul rv t) t) with (TMul (Nat.iter k (fun rv => TMul rv t) t) t).
    change (val (TMul (Nat.iter k (fun rv => TMul rv t) t) t)) with (val (Nat.iter k (fun rv => TMul rv t) t) * val t).
    rewrite IH. cbn [pow]. ring.
  Qed.

  Lemma convert_value e : regular pw rho e -> forall t, convert syms to_number approximate e = Some t -> val t = spval pw rho e.
  Proof.
    induction e as [s|q|l IH|l IH|b x IHb IHx|f l IH|] using spexpr_ind'; intros Hr t E; cbn [convert] in E.
    - unfold symbol in E. destruct (get s syms) as [[u|]|] eqn:G; try discriminate. injection E as <-. exact (proj1 HF s u G).
    - exact (HN q t E).
    - inversion Hr as [| |? Hl| | | |]; subst.
      apply (fold_args_value TAdd 0 Rplus (convert syms to_number approximate) l t); auto; intros; try ring.
      rewrite Forall_forall in *. auto.
    - inversion Hr as [| | |? Hl| | |]; subst.
      apply (fold_args_value TMul 1 Rmult (convert syms to_number approximate) l t); auto; intros; try ring.
      rewrite Forall_forall in *. auto.
    - pose proof (convert_plain_value _ Hr) as HP. inversion Hr as [| | | |? ? Hb Hx Hz| |]; subst.
      destruct (convert syms to_number approximate b) as [b'|]; [|discriminate]. cbn [option_bind] in E.
      destruct (convert syms to_number approximate x) as [x'|]; [|discriminate]. cbn [option_bind] in E.
      destruct (literal x') as [i|] eqn:L; [|exact (HP t E)].
      injection E as <-. destruct (literal_value _ _ L) as [V Hi]. rewrite (IHx Hx x' eq_refl) in V.
      assert (0 < i)%Z by (destruct (Z.eq_dec i 0) as [->|]; [contradiction|lia]).
      rewrite (repeat_mul_value b' i) by assumption. cbn [spval]. rewrite V, (IHb Hb b' eq_refl).
      replace (IZR i) with (INR (S (Z.to_nat (i - 1)))) by (rewrite INR_IZR_INZ; f_equal; lia).
      rewrite Hpw. f_equal. lia.
    - inversion Hr as [| | | | |? a Ha|]; subst. inversion IH as [|? ? IHa _]; subst.
      apply (call_value f a (convert syms to_number approximate)); auto.
    - discriminate.
  Qed.
End Meaning.

(** Whatever is converted has the value of the source, wherever the numbers are converted exactly and no
    exponent is zero. *)
Theorem C64_meaning : forall pw syms to_number approximate expand_pow rho env f1 f2 e t,
  power_law pw -> faithful pw syms rho env f1 f2 ->
  (forall q t, to_number q = Some t -> tval pw env f1 f2 t = Q2R q) -> (forall q, to_number q <> None) ->
  regular pw rho e ->
  sympy_converter syms to_number approximate expand_pow e = Some t ->
  tval pw env f1 f2 t = spval pw rho e.
Proof.
  intros pw syms tn ap [] rho env f1 f2 e t Hp HF Hn Ht Hr E; cbn in E.
  all: assert (HN : forall q t, number tn ap q = Some t -> tval pw env f1 f2 t = Q2R q)
    by (intros q u; unfold number; specialize (Ht q); destruct (tn q) as [w|] eqn:Eq; [intros [= <-]; auto|now contradict Ht]).
  - exact (convert_value pw Hp syms tn ap rho env f1 f2 HF HN e Hr t E).
  - exact (convert_plain_value pw syms tn ap rho env f1 f2 HF HN e Hr t E).
Qed.

Section Total.
  Context (syms : symbols) (to_number approximate : Q -> option target).
  Definition numeral (q : Q) : Prop := to_number q <> None \/ approximate q <> None.
  Definition pow_ok : Prop := forall t, get "pow" syms <> Some (Term t).

  Lemma fold_args_total op (l : list (option target)) : fold_args op l <> None <-> l <> [] /\ Forall (fun o => o <> None) l.
  Proof.
    destruct l as [|o l]; [split; [intros H; now contradict H|intros [H _]; now contradict H]|]. cbn [fold_args].
    assert (G : forall l acc, fold_left (fun acc y => option_bind acc (fun a => option_bind y (fun b => Some (op a b)))) l acc <> None <->
      acc <> None /\ Forall (fun o => o <> None) l).
    { clear. induction l as [|y l IH]; cbn; intros acc; [intuition|]. rewrite IH. destruct acc as [a|]; cbn.
      - destruct y as [b|]; cbn; split; intros [H1 H2].
        + split; [discriminate|]. constructor; [discriminate|exact H2].
        + split; [discriminate|]. now inversion H2.
        + now contradict H1.
        + exfalso. inversion H2 as [|? ? Hn _]. now apply Hn.
      - split; intros [H _]; now contradict H. }
    rewrite G. split.
    - intros [H1 H2]. split; [discriminate|constructor; auto].
    - intros [_ H]. inversion H. auto.
  Qed.
  Lemma number_total q : number to_number approximate q <> None <-> numeral q.
  Proof. unfold number, numeral. destruct (to_number q); [|tauto]. split; [left|]; discriminate. Qed.
  Lemma power_total x e : pow_ok -> power syms x e <> None.
  Proof. unfold power, pow_ok. destruct (get "pow" syms) as [[t|f]|]; intros H; try discriminate. exfalso. now apply (H t). Qed.
  Lemma known_In f : known_function f = true <-> In f ["tanh"; "sin"; "cos"; "exp"].
  Proof.
    unfold known_function. rewrite existsb_exists. split.
    - intros (x & Hx & E). apply String.eqb_eq in E. now subst.
    - intros H. exists f. split; [exact H|apply String.eqb_refl].
  Qed.
  Lemma call_total f l conv :
    Forall (fun e => conv e <> None <-> convertible syms numeral e) l ->
    (call syms f (map conv l) <> None <-> convertible syms numeral (SpFunction f l)).
  Proof.
    intros H. unfold call. destruct (known_function f) eqn:K.
    - destruct l as [|a l]; cbn [map].
      + split; [intros E; now contradict E|intros E; inversion E].
      + inversion H as [|? ? Ha _]; subst. split.
        * intros E. destruct (conv a) as [x|] eqn:Ex; [|now contradict E]. cbn in E.
          destruct (get f syms) as [[t|g]|] eqn:G; try (now contradict E).
          apply (CFunction _ _ f g a l); [now apply known_In|exact G|]. apply Ha. discriminate.
        * intros E. inversion E as [| | | | |? g ? ? Hf Hg Hc]; subst. apply Ha in Hc. destruct (conv a); [|now contradict Hc].
          cbn. rewrite Hg. discriminate.
    - split; [intros E; now contradict E|]. intros E. inversion E as [| | | | |? g ? ? Hf Hg Hc]; subst.
      apply known_In in Hf. congruence.
  Qed.
  Lemma map_total (conv : spexpr -> option target) l : Forall (fun e => conv e <> None <-> convertible syms numeral e) l ->
    (Forall (fun o => o <> None) (map conv l) <-> Forall (convertible syms numeral) l).
  Proof. intros H. rewrite Forall_map, !Forall_forall in *. split; intros G e He; apply (H e He); auto. Qed.
  Lemma map_nonempty {A B} (f : A -> B) l : map f l <> [] <-> l <> [].
  Proof. destruct l; cbn; split; congruence. Qed.

  Lemma convert_plain_total (Hp : pow_ok) e : convert_plain syms to_number approximate e <> None <-> convertible syms numeral e.
  Proof.
    induction e as [s|q|l IH|l IH|b x IHb IHx|f l IH|] using spexpr_ind'; cbn [convert_plain].
    - unfold symbol. split.
      + destruct (get s syms) as [[t|]|] eqn:G; intros H; try (now contradict H). now apply (CSymbol _ _ s t).
      + intros H. inversion H as [? t G| | | | |]; subst. rewrite G. discriminate.
    - rewrite number_total. split; [apply CNumber|]. intros H. now inversion H.
    - rewrite fold_args_total, map_nonempty, (map_total _ _ IH). split; [intros []; now apply CAdd|]. intros H. inversion H. auto.
    - rewrite fold_args_total, map_nonempty, (map_total _ _ IH). split; [intros []; now apply CMul|]. intros H. inversion H. auto.
    - split.
      + intros H. destruct (convert_plain syms to_number approximate b); [|now contradict H]. cbn [option_bind] in H.
        destruct (convert_plain syms to_number approximate x); [|now contradict H].
        apply CPow; [apply IHb|apply IHx]; discriminate.
      + intros H. inversion H as [| | | |? ? Hb Hx|]; subst. apply IHb in Hb. apply IHx in Hx.
        destruct (convert_plain syms to_number approximate b); [|now contradict Hb]. cbn [option_bind].
        destruct (convert_plain syms to_number approximate x); [|now contradict Hx]. now apply power_total.
    - now apply call_total.
    - split; [intros H; now contradict H|intros H; inversion H].
  Qed.
  Lemma convert_total (Hp : pow_ok) e : convert syms to_number approximate e <> None <-> convertible syms numeral e.
  Proof.
    induction e as [s|q|l IH|l IH|b x IHb IHx|f l IH|] using spexpr_ind'; cbn [convert].
    - exact (convert_plain_total Hp (SpSymbol s)).
    - exact (convert_plain_total Hp (SpNumber q)).
    - rewrite fold_args_total, map_nonempty, (map_total _ _ IH). split; [intros []; now apply CAdd|]. intros H. inversion H. auto.
    - rewrite fold_args_total, map_nonempty, (map_total _ _ IH). split; [intros []; now apply CMul|]. intros H. inversion H. auto.
    - split.
      + intros H. destruct (convert syms to_number approximate b); [|now contradict H]. cbn [option_bind] in H.
        destruct (convert syms to_number approximate x); [|now contradict H].
        apply CPow; [apply IHb|apply IHx]; discriminate.
      + intros H. pose proof (proj2 (convert_plain_total Hp _) H) as G. inversion H as [| | | |? ? Hb Hx|]; subst. apply IHb in Hb. apply IHx in Hx.
        destruct (convert syms to_number approximate b); [|now contradict Hb]. cbn [option_bind].
        destruct (convert syms to_number approximate x) as [x'|]; [|now contradict Hx].
        cbn [option_bind]. destruct (literal x'); [discriminate|exact G].
    - now apply call_total.
    - split; [intros H; now contradict H|intros H; inversion H].
  Qed.
End Total.

(** An expression is converted exactly if it is built from bound symbols, numbers, sums, products, powers
    and the functions sin, cos, exp, tanh of the dictionary; everything else raises. *)
Theorem C64_accepts : forall syms to_number approximate expand_pow e,
  (forall t, get "pow" syms <> Some (Term t)) ->
  (sympy_converter syms to_number approximate expand_pow e <> None <->
   convertible syms (fun q => to_number q <> None \/ approximate q <> None) e).
Proof.
  intros syms tn ap [] e Hp; [apply convert_total|apply convert_plain_total]; exact Hp.
Qed.

(** The exponent 0: with z3 numerals, the unevaluated power x**0 becomes x. *)
Theorem C64_zero_exponent_refuted : forall pw rho env f1 f2 approximate,
  (forall x, pw x 0 = 1) -> env "x" = 2 -> rho "x" = 2 ->
  exists t, sympy_converter [("x", Term (TVar "x"))] real_val approximate true (SpPow (SpSymbol "x") (SpNumber 0)) = Some t /\
    tval pw env f1 f2 t = 2 /\ spval pw rho (SpPow (SpSymbol "x") (SpNumber 0)) = 1.
Proof.
  intros pw rho env f1 f2 ap Hpw He Hr. exists (TVar "x"). split; [reflexivity|]. split; [exact He|].
  cbn. replace (Q2R 0) with 0 by (unfold Q2R; cbn; lra). apply Hpw.
Qed.

(** x*(y + 1/2)**3 + sin(x), for z3 and with Python floats. *)
Definition demo_source : spexpr :=
  SpAdd [SpMul [SpSymbol "x"; SpPow (SpAdd [SpSymbol "y"; SpNumber (1 # 2)]) (SpNumber 3)]; SpFunction "sin" [SpSymbol "x"]].
Definition demo_syms : symbols := [("x", Term (TVar "x")); ("y", Term (TVar "y")); ("sin", Func "sin"); ("pow", Func "pow")].
Example C64_example : forall expand_pow,
  let pw := fun x y => x ^ Z.to_nat (up y - 1) in
  let f1 := fun f x => if String.eqb f "sin" then sin x else 0 in
  let f2 := fun (_ : string) => pw in
  let rho := fun s => if String.eqb s "x" then 5 else 7 in
  power_law pw /\ faithful pw demo_syms rho rho f1 f2 /\ regular pw rho demo_source /\
  (forall q t, real_val q = Some t -> tval pw rho f1 f2 t = Q2R q) /\
  exists t, sympy_converter demo_syms real_val (fun _ => None) expand_pow demo_source = Some t.
Proof.
  intros expand pw f1 f2 rho. split; [|split; [|split; [|split]]].
  - intros x k. unfold pw. f_equal. rewrite <- (tech_up (INR (S k)) (Z.of_nat (S k) + 1)).
    + lia.
    + rewrite plus_IZR, <- INR_IZR_INZ. lra.
    + rewrite plus_IZR, <- INR_IZR_INZ. lra.
  - split; [|split].
    + intros s t. unfold demo_syms. cbn [get]. destruct (String.eqb "x" s) eqn:E1.
      { apply String.eqb_eq in E1. subst. intros [= <-]. reflexivity. }
      destruct (String.eqb "y" s) eqn:E2.
      { apply String.eqb_eq in E2. subst. intros [= <-]. reflexivity. }
      destruct (String.eqb "sin" s); [discriminate|]. destruct (String.eqb "pow" s); discriminate.
    + intros s f g. unfold demo_syms. cbn [get]. intros Hg. destruct (String.eqb "x" s); [discriminate|]. destruct (String.eqb "y" s); [discriminate|].
      destruct (String.eqb "sin" s) eqn:E.
      { apply String.eqb_eq in E. subst. injection Hg as <-. now intros [= <-]. }
      destruct (String.eqb "pow" s) eqn:E'; [|discriminate]. apply String.eqb_eq in E'. subst. discriminate.
    + reflexivity.
  - repeat constructor. cbn. unfold Q2R. cbn. lra.
  - intros q t [= <-]. reflexivity.
  - destruct expand; eexists; vm_compute; reflexivity.
Qed.
Example C64_accepts_example :
  sympy_converter demo_syms real_val (fun _ => None) true (SpFunction "log" [SpSymbol "x"]) = None /\
  sympy_converter [] to_float (fun _ => None) true (SpSymbol "x") = None.
Proof. split; reflexivity. Qed.
