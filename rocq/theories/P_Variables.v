(** Property C38: the variables of a parsed system. *)
From Coq Require Import Reals QArith List Bool Arith Lia Lra Decimal DecimalFacts DecimalNat Permutation Sorted.
From Verif Require Import M_Activations M_Parser M_Variables S_Variables.
Import ListNotations.
Local Open Scope nat_scope.

(** ** Order of names *)
Lemma digits_inj a : forall b, digits a = digits b -> a = b.
Proof. induction a; intros b E; destruct b; simpl in E; try discriminate; try reflexivity; injection E as E; f_equal; auto. Qed.
Lemma lex_refl a : lex_leb a a = true.
Proof. induction a as [|x a IH]; simpl; auto. rewrite Nat.eqb_refl, IH. now rewrite orb_true_r. Qed.
Lemma lex_total a : forall b, lex_leb a b = true \/ lex_leb b a = true.
Proof.
  induction a as [|x a IH]; intros [|y b]; simpl; auto.
  destruct (Nat.lt_trichotomy x y) as [H|[->|H]].
  - left. apply orb_true_iff. left. now apply Nat.ltb_lt.
  - rewrite Nat.eqb_refl. destruct (IH b) as [E|E]; rewrite E; [left|right]; now rewrite orb_true_r.
  - right. apply orb_true_iff. left. now apply Nat.ltb_lt.
Qed.
Lemma lex_cons x y a b : lex_leb (x :: a) (y :: b) = true <-> x < y \/ x = y /\ lex_leb a b = true.
Proof. simpl. now rewrite orb_true_iff, andb_true_iff, Nat.ltb_lt, Nat.eqb_eq. Qed.
Lemma lex_antisym a : forall b, lex_leb a b = true -> lex_leb b a = true -> a = b.
Proof.
  induction a as [|x a IH]; intros [|y b] A B; try discriminate; auto.
  apply lex_cons in A. apply lex_cons in B. destruct A as [A|[-> A]]; destruct B as [B|[? B]]; try lia.
  f_equal. auto.
Qed.
Lemma lex_trans a : forall b c, lex_leb a b = true -> lex_leb b c = true -> lex_leb a c = true.
Proof.
  induction a as [|x a IH]; intros [|y b] [|z c] A B; try discriminate; auto.
  apply lex_cons in A. apply lex_cons in B. apply lex_cons. destruct A as [A|[-> A]]; destruct B as [B|[-> B]].
  - left; lia.
  - left; lia.
  - left; lia.
  - right. split; auto. eauto.
Qed.
Definition le_name (a b : uint) : Prop := name_leb a b = true.
Lemma insert_perm x l : Permutation (insert x l) (x :: l).
Proof.
  induction l as [|y l IH]; simpl; auto. destruct (name_leb x y); auto.
  rewrite IH. apply perm_swap.
Qed.
Lemma sort_perm l : Permutation (sort l) l.
Proof. induction l as [|x l IH]; simpl; auto. rewrite insert_perm. now constructor. Qed.
Lemma insert_sorted x l : StronglySorted le_name l -> StronglySorted le_name (insert x l).
Proof.
  induction 1 as [|y l H IH F]; simpl; [repeat constructor|].
  destruct (name_leb x y) eqn:E.
  - constructor; [now constructor|]. constructor; auto. rewrite Forall_forall in *. intros z Hz.
    eapply lex_trans; [exact E|]. now apply F.
  - constructor; auto. rewrite Forall_forall in *. intros z Hz. apply (Permutation_in _ (insert_perm x l)) in Hz.
    destruct Hz as [<-|Hz]; [|now apply F].
    destruct (lex_total (digits x) (digits y)) as [K|K]; auto. unfold name_leb in E. congruence.
Qed.
Lemma sort_sorted l : StronglySorted le_name (sort l).
Proof. induction l; simpl; [constructor|]. now apply insert_sorted. Qed.
Lemma sorted_unique a : forall b, StronglySorted le_name a -> StronglySorted le_name b -> Permutation a b -> a = b.
Proof.
  induction a as [|x a IH]; intros b A B P.
  - apply Permutation_nil in P. now subst.
  - destruct b as [|y b]; [apply Permutation_sym, Permutation_nil in P; discriminate|].
    inversion A as [|? ? A1 A2]; subst. inversion B as [|? ? B1 B2]; subst. rewrite Forall_forall in *.
    assert (x = y).
    { assert (Ix : In x (y :: b)) by (eapply Permutation_in; [exact P|now left]).
      assert (Iy : In y (x :: a)) by (eapply Permutation_in; [apply Permutation_sym; exact P|now left]).
      destruct Ix as [Ix|Ix]; auto. destruct Iy as [Iy|Iy]; auto.
      apply digits_inj, lex_antisym; [apply (A2 y Iy)|apply (B2 x Ix)]. }
    subst. f_equal. apply IH; auto. eapply Permutation_cons_inv; eauto.
Qed.
Lemma sort_unique a l : NoDup l -> StronglySorted le_name a -> NoDup a -> (forall d, In d l <-> In d a) -> sort l = a.
Proof.
  intros N S Na H. apply sorted_unique; auto; [apply sort_sorted|].
  rewrite sort_perm. apply NoDup_Permutation; auto.
Qed.

Definition name (i : nat) : uint := Nat.to_uint i.
Lemma name_inj i j : name i = name j -> i = j.
Proof. apply Unsigned.to_uint_inj. Qed.
Lemma names_nodup n s : NoDup (map name (seq s n)).
Proof.
  revert s. induction n as [|n IH]; intros s; simpl; constructor; auto.
  intros H. apply in_map_iff in H. destruct H as (j & E & Hj). apply name_inj in E. subst. apply in_seq in Hj. lia.
Qed.
Lemma names_sorted n : n <= 10 -> StronglySorted le_name (map name (seq 0 n)).
Proof.
  intros H. do 11 (destruct n as [|n]; [repeat (constructor || reflexivity)|]). lia.
Qed.
Lemma in_names n d : In d (map name (seq 0 n)) <-> exists i, i < n /\ d = name i.
Proof.
  rewrite in_map_iff. split.
  - intros (i & <- & Hi). apply in_seq in Hi. exists i. split; [lia|auto].
  - intros (i & Hi & ->). exists i. split; auto. apply in_seq. lia.
Qed.

Lemma in_named k l d : In d (named k l) <-> In (k, d) l.
Proof.
  unfold named. rewrite in_flat_map. split.
  - intros ([k' d'] & H & E). simpl in E. destruct k', k; simpl in E; try contradiction; (destruct E as [E|E]; [now subst|contradiction]).
  - intros H. exists (k, d). split; auto. simpl. destruct k; simpl; auto.
Qed.
Lemma in_symbols k es d : In d (symbols k es) <-> mentions es k d.
Proof.
  unfold symbols, mentions. rewrite <- in_named. split; intros H.
  - apply (Permutation_in _ (sort_perm _)) in H. now apply nodup_In in H.
  - apply (Permutation_in _ (Permutation_sym (sort_perm _))). now apply nodup_In.
Qed.
Lemma symbols_nodup k es : NoDup (symbols k es).
Proof. unfold symbols. eapply Permutation_NoDup; [apply Permutation_sym, sort_perm|apply NoDup_nodup]. Qed.
Lemma symbols_perm k es n : exactly es k n -> Permutation (symbols k es) (map name (seq 0 n)).
Proof.
  intros H. apply NoDup_Permutation; [apply symbols_nodup|apply names_nodup|].
  intros d. rewrite in_symbols, in_names. apply H.
Qed.
Lemma symbols_few k es n : exactly es k n -> n <= 10 -> symbols k es = map name (seq 0 n).
Proof.
  intros H Hn. apply sorted_unique; [apply sort_sorted|now apply names_sorted|now apply symbols_perm].
Qed.
Lemma symbols_length k es n : exactly es k n -> length (symbols k es) = n.
Proof. intros H. rewrite (Permutation_length (symbols_perm _ _ _ H)). now rewrite map_length, seq_length. Qed.

Lemma index_nth d l : In d l -> nth_error l (index d l) = Some d.
Proof.
  induction l as [|y l IH]; simpl; [easy|]. intros H. destruct (uint_eq_dec d y) as [->|N]; [reflexivity|].
  destruct H as [->|H]; [congruence|]. simpl. auto.
Qed.
Lemma index_lt d l : In d l -> index d l < length l.
Proof. intros H. apply index_nth in H. apply nth_error_Some. congruence. Qed.
Lemma index_unique d l i : NoDup l -> nth_error l i = Some d -> index d l = i.
Proof.
  intros N E. assert (In d l) by (eapply nth_error_In; eauto).
  eapply NoDup_nth_error; eauto.
  - now apply index_lt.
  - rewrite E. now apply index_nth.
Qed.
Lemma index_name i n : i < n -> index (name i) (map name (seq 0 n)) = i.
Proof.
  intros H. apply index_unique; [apply names_nodup|].
  rewrite nth_error_map. erewrite nth_error_nth' with (d := 0) by now rewrite seq_length.
  now rewrite seq_nth.
Qed.

(** ** Values depend on the variables that occur *)
Section Induct.
  Context (P : ast -> Prop)
    (Hn : forall q, P (ANum q)) (Hv : forall k d, P (AVar k d)) (Hm : forall a, P a -> P (ANeg a))
    (Hb : forall o a b, P a -> P b -> P (ABin o a b)) (Hf : forall f args, Forall P args -> P (AFun f args)).
  Fixpoint ast_induct (e : ast) : P e :=
    match e with
    | ANum q => Hn q
    | AVar k d => Hv k d
    | ANeg a => Hm a (ast_induct a)
    | ABin o a b => Hb o a b (ast_induct a) (ast_induct b)
    | AFun f args => Hf f args ((fix go l : Forall P l := match l with
        | [] => Forall_nil P | x :: l => Forall_cons x (ast_induct x) (go l) end) args)
    end.
End Induct.
Lemma aval_args lib i f args : aval lib i (AFun f args) = option_bind (map_opt (aval lib i) args) (apply lib i f).
Proof. cbn [aval]. f_equal. induction args as [|x l IH]; [reflexivity|]. cbn [map_opt]. now rewrite IH. Qed.
Lemma apply_ext lib i j f l : i_fun i = i_fun j -> apply lib i f l = apply lib j f l.
Proof. intros E. unfold apply. rewrite E. reflexivity. Qed.
Lemma op_ext i j o x y : i_pow i = i_pow j -> op_eval i o x y = op_eval j o x y.
Proof. intros E. unfold op_eval. now rewrite E. Qed.
Lemma aval_ext lib i j : i_pow i = i_pow j -> i_fun i = i_fun j ->
  forall e, (forall k d, In (k, d) (vars e) -> i_var i k d = i_var j k d) -> aval lib i e = aval lib j e.
Proof.
  intros Ep Ef. induction e as [q|k d|a IH|o a b IHa IHb|f args IH] using ast_induct; intros H.
  - reflexivity.
  - simpl. rewrite H; auto. now left.
  - cbn [aval]. rewrite IH; auto.
  - cbn [aval]. rewrite IHa, IHb; [|intros; apply H; simpl; apply in_or_app; auto..].
    destruct (aval lib j a); auto. destruct (aval lib j b); auto. cbn [option_bind]. now rewrite (op_ext i j).
  - rewrite !aval_args.
    assert (E : map_opt (aval lib i) args = map_opt (aval lib j) args).
    { simpl in H. induction IH as [|x l Hx Hl IHl]; simpl; auto.
      rewrite Hx by (intros; apply H; simpl; apply in_or_app; auto).
      rewrite IHl by (intros; apply H; simpl; apply in_or_app; auto). reflexivity. }
    rewrite E. destruct (map_opt (aval lib j) args); auto. simpl. now apply apply_ext.
Qed.
Lemma map_opt_ext {A B} (g h : A -> option B) l : (forall x, In x l -> g x = h x) -> map_opt g l = map_opt h l.
Proof.
  induction l as [|x l IH]; simpl; intros H; auto. rewrite H by auto. rewrite IH by auto. reflexivity.
Qed.
Lemma mentions_in es e k d : In e es -> In (k, d) (vars e) -> mentions es k d.
Proof. intros A B. unfold mentions. apply in_flat_map. eauto. Qed.

Definition inputs (u : option (list R)) : list R := match u with Some u => u | None => [] end.
Lemma of_name i : Nat.of_uint (name i) = i.
Proof. apply Unsigned.of_to. Qed.

Lemma numpy_right rest es v u e : exactly es VX (length v) -> length v <= 10 -> exactly es VU (length u) -> length u <= 10 ->
  In e es -> aval LibSympy (numpy_interp rest es v u) e = aval LibSympy (component rest v u) e.
Proof.
  intros Hx Lx Hu Lu He. apply aval_ext; auto. intros k d Hd. pose proof (mentions_in _ _ _ _ He Hd) as M.
  unfold numpy_interp, component, i_var. destruct k.
  - rewrite (symbols_few _ _ _ Hx Lx). apply Hx in M. destruct M as (i & Hi & ->).
    change (Nat.to_uint i) with (name i). rewrite index_name by auto. now rewrite of_name.
  - rewrite (symbols_few _ _ _ Hu Lu). apply Hu in M. destruct M as (i & Hi & ->).
    change (Nat.to_uint i) with (name i). rewrite index_name by auto. now rewrite of_name.
Qed.

(** ** A right-hand side without variables and functions *)
Lemma is_number_spec e : is_number e = true <-> literal e.
Proof.
  induction e; simpl; try (split; [discriminate|tauto]); auto; [tauto|].
  rewrite andb_true_iff. tauto.
Qed.
Lemma constant_spec es : existsb is_number es = true <-> constant_side es.
Proof.
  unfold constant_side. rewrite existsb_exists. split; intros (e & H & E); exists e; split; auto; now apply is_number_spec.
Qed.
Lemma not_constant es : ~ constant_side es -> existsb is_number es = false.
Proof. rewrite <- constant_spec. now destruct (existsb is_number es). Qed.
(** Such a system is refused, although it has a meaning (x' = 1). *)
Theorem C38_constant_refused lib rest free es v u :
  constant_side es -> f_smt lib rest free es v u = None.
Proof. intros H. apply constant_spec in H. unfold f_smt. now rewrite H. Qed.
Theorem C38_constant_refused_numbers rest es v u :
  constant_side es -> f_torch rest es v u = None.
Proof. intros H. apply constant_spec in H. unfold f_torch. now rewrite H. Qed.

(** ** C38: numbers *)
(** With at most ten states and ten inputs, the numerical right-hand side is the value of the
    expressions with x_i for component i of the state and u_i for component i of the input. *)
Theorem C38_numbers rest es v u :
  exactly es VX (length v) -> length v <= 10 -> exactly es VU (length (inputs u)) -> length (inputs u) <= 10 ->
  u <> Some [] -> ~ constant_side es ->
  f_torch rest es v u = map_opt (aval LibSympy (component rest v (inputs u))) es.
Proof.
  intros Hx Lx Hu Lu Hn Hc. unfold f_torch. rewrite (not_constant _ Hc), (symbols_length _ _ _ Hx), Nat.eqb_refl.
  pose proof (symbols_length _ _ _ Hu) as Eu. destruct u as [u|]; simpl inputs in *.
  - destruct (symbols VU es) as [|d l] eqn:Es; [destruct u; [congruence|discriminate]|].
    rewrite Eu, Nat.eqb_refl. apply map_opt_ext. intros e He. now apply numpy_right.
  - destruct (symbols VU es); [|discriminate]. apply map_opt_ext. intros e He. now apply numpy_right.
Qed.

Lemma not_leading_zero i d : name i = D0 d -> d = Nil.
Proof.
  intros E. pose proof (Unsigned.to_of (name i)) as H. rewrite of_name in H. change (Nat.to_uint i) with (name i) in H. rewrite E in H.
  unfold unorm in H. simpl in H. destruct (nzhead d) eqn:K.
  - now injection H.
  - exfalso. rewrite <- K in H. now elim (nzhead_nonzero d d).
  - discriminate.
  - discriminate.
  - discriminate.
  - discriminate.
  - discriminate.
  - discriminate.
  - discriminate.
  - discriminate.
  - discriminate.
Qed.
Lemma below_ten i : name_leb (name i) (name 10) = true -> i = 0 \/ i = 1 \/ i = 10.
Proof.
  unfold name_leb. intros H. change (digits (name 10)) with [1; 0] in H.
  destruct (name i) as [|d|d|d|d|d|d|d|d|d|d] eqn:E; cbn [digits] in H; try (apply lex_cons in H; destruct H as [H|[H _]]; lia).
  - exfalso. pose proof (Unsigned.to_of (name i)) as K. rewrite of_name in K. change (Nat.to_uint i) with (name i) in K. rewrite E in K. discriminate.
  - left. apply name_inj. rewrite E. apply not_leading_zero in E. now subst.
  - right. apply lex_cons in H. destruct H as [H|[_ H]]; [lia|].
    destruct d; cbn [digits] in H; try (apply lex_cons in H; destruct H as [H|[H _]]; lia).
    + left. now apply name_inj.
    + apply lex_cons in H. destruct H as [H|[_ H]]; [lia|]. destruct d; try discriminate. right. now apply name_inj.
Qed.
Lemma index_ten es n : exactly es VX n -> 10 < n -> index (name 10) (symbols VX es) = 2.
Proof.
  intros H Hn.
  assert (I : forall i, i < n -> In (name i) (symbols VX es)) by (intros i Hi; apply in_symbols, H; eauto).
  pose proof (symbols_nodup VX es) as N. pose proof (sort_sorted (nodup uint_eq_dec (named VX (flat_map vars es)))) as S.
  change (StronglySorted le_name (symbols VX es)) in S.
  assert (A : forall d, In d (symbols VX es) -> le_name d (name 10) -> d = name 0 \/ d = name 1 \/ d = name 10).
  { intros d Hd L. apply in_symbols, H in Hd. destruct Hd as (i & _ & ->). apply below_ten in L.
    destruct L as [->|[->| ->]]; auto. }
  assert (I0 := I 0 ltac:(lia)). assert (I1 := I 1 ltac:(lia)). assert (I10 := I 10 ltac:(lia)).
  destruct (symbols VX es) as [|a l]; [easy|].
  inversion S as [|? ? S1 S2]; subst. rewrite Forall_forall in S2.
  inversion N as [|? ? N1 N2]; subst.
  assert (Ea : a = name 0).
  { destruct I0 as [E0|I0]; auto. pose proof (S2 _ I0) as L0. destruct I10 as [E10|I10].
    - subst a. exfalso. revert L0. vm_compute. discriminate.
    - destruct (A a (or_introl eq_refl) (S2 _ I10)) as [E|[E|E]]; auto.
      + subst a. exfalso. revert L0. vm_compute. discriminate.
      + subst a. tauto. }
  subst a. destruct I1 as [E1|I1]; [discriminate|]. destruct I10 as [E10|I10]; [discriminate|].
  destruct l as [|b l]; [easy|]. inversion S1 as [|? ? S3 S4]; subst. rewrite Forall_forall in S4.
  inversion N2 as [|? ? N3 N4]; subst.
  assert (Eb : b = name 1).
  { destruct I1 as [E1|I1]; auto. pose proof (S4 _ I1) as L0. destruct I10 as [E10|I10].
    - subst b. exfalso. revert L0. vm_compute. discriminate.
    - destruct (A b ltac:(simpl; auto) (S4 _ I10)) as [E|[E|E]]; auto.
      + subst b. elim N1. now left.
      + subst b. tauto. }
  subst b. destruct I10 as [E10|I10]; [discriminate|].
  destruct l as [|c l]; [easy|]. inversion S3 as [|? ? S5 S6]; subst. rewrite Forall_forall in S6.
  assert (Ec : c = name 10).
  { destruct I10 as [E10|I10]; auto. destruct (A c ltac:(simpl; auto) (S6 _ I10)) as [E|[E|E]]; auto.
    - subst c. elim N1. right. now left.
    - subst c. elim N3. now left. }
  subst c. cbn [index]. destruct (uint_eq_dec (name 10) (name 0)); [discriminate|].
  destruct (uint_eq_dec (name 10) (name 1)); [discriminate|]. destruct (uint_eq_dec (name 10) (name 10)); [reflexivity|congruence].
Qed.
Lemma map_opt_nth {A B} (g : A -> option B) l : forall r j x, map_opt g l = Some r -> nth_error l j = Some x ->
  exists y, g x = Some y /\ nth_error r j = Some y.
Proof.
  induction l as [|a l IH]; intros r j x E Ej; [destruct j; discriminate|].
  simpl in E. destruct (g a) as [b|] eqn:Ea; [|discriminate]. destruct (map_opt g l) as [r'|]; [|discriminate].
  injection E as <-. destruct j as [|j]; simpl in *.
  - injection Ej as <-. eauto.
  - eauto.
Qed.
(** With more than ten states, x10 is component 2. *)
Theorem C38_numbers_beyond_ten rest es v u ws j :
  exactly es VX (length v) -> 10 < length v -> f_torch rest es v u = Some ws ->
  nth_error es j = Some (AVar VX (Nat.to_uint 10)) -> nth_error ws j = Some (nth 2 v 0%R).
Proof.
  intros Hx Lx E Ej. unfold f_torch in E. destruct (existsb is_number es); [discriminate|].
  destruct (length v =? _); [|discriminate].
  assert (K : forall w, map_opt (aval LibSympy (numpy_interp rest es v w)) es = Some ws -> nth_error ws j = Some (nth 2 v 0%R)).
  { intros w Ew. destruct (map_opt_nth _ _ _ _ _ Ew Ej) as (y & Ey & En). rewrite En. simpl in Ey.
    injection Ey as <-. f_equal. f_equal. apply (index_ten _ _ Hx Lx). }
  destruct (symbols VU es), u; try discriminate; eauto. destruct (length l0 =? _); [|discriminate]. eauto.
Qed.

(** A system whose expressions mention the right number of variables, but not x_i, or
    only some of them, is refused. *)
Theorem C38_numbers_missing rest es v u i :
  i < length v -> ~ mentions es VX (Nat.to_uint i) ->
  (forall d, mentions es VX d -> exists j, j < length v /\ d = Nat.to_uint j) ->
  f_torch rest es v u = None.
Proof.
  intros Hi Hm Hs. unfold f_torch. destruct (existsb is_number es); auto. destruct (length v =? length (symbols VX es)) eqn:E; auto.
  apply Nat.eqb_eq in E. exfalso.
  assert (L : length (name i :: symbols VX es) <= length (map name (seq 0 (length v)))).
  { apply NoDup_incl_length.
    - constructor; [|apply symbols_nodup]. now rewrite in_symbols.
    - intros d [<-|Hd]; apply in_names; [eauto|]. apply Hs. now apply in_symbols. }
  rewrite map_length, seq_length in L. simpl in L. lia.
Qed.

(** ** Symbols: the variables created *)
Definition get (s : pstate) (k : vkind) (d : uint) : option ident :=
  lookup d (match k with VX => p_xs s | VU => p_us s end).
Lemma lookup_none d l : lookup d l = None <-> ~ In d (map fst l).
Proof.
  unfold lookup. induction l as [|[e x] l IH]; simpl; [tauto|].
  destruct (uint_eq_dec d e) as [->|N]; simpl.
  - split; [discriminate|]. intros H. elim H. now left.
  - rewrite IH. intuition.
Qed.
Lemma lookup_in d l x : lookup d l = Some x -> In (d, x) l.
Proof.
  unfold lookup. induction l as [|[e y] l IH]; simpl; [discriminate|].
  destruct (uint_eq_dec d e) as [->|N]; simpl; [intros E; injection E as ->; now left|auto].
Qed.
Lemma exists_in d (l : list (uint * ident)) :
  existsb (fun p => if uint_eq_dec d (fst p) then true else false) l = true <-> In d (map fst l).
Proof.
  rewrite existsb_exists, in_map_iff. split.
  - intros (p & Hp & E). destruct (uint_eq_dec d (fst p)); [|discriminate]. eauto.
  - intros (p & <- & Hp). exists p. split; auto. destruct (uint_eq_dec (fst p) (fst p)); congruence.
Qed.
Lemma update_keys d x l : map fst (update d x l) = if existsb (fun p => if uint_eq_dec d (fst p) then true else false) l
  then map fst l else map fst l ++ [d].
Proof.
  unfold update. destruct (existsb _ l).
  - rewrite map_map. apply map_ext. intros [e y]. simpl. destruct (uint_eq_dec d e); auto.
  - now rewrite map_app.
Qed.
Lemma lookup_update d x l e : lookup e (update d x l) = if uint_eq_dec e d then Some x else lookup e l.
Proof.
  unfold update. destruct (existsb _ l) eqn:E.
  - apply exists_in in E. unfold lookup. induction l as [|[a y] l IH]; simpl in *; [easy|].
    destruct (uint_eq_dec d a) as [->|N]; simpl.
    + destruct (uint_eq_dec e a) as [->|M]; [destruct (uint_eq_dec a a); [auto|congruence]|].
      destruct (in_dec uint_eq_dec a (map fst l)) as [I|I].
      * rewrite IH by auto. destruct (uint_eq_dec e a); [congruence|reflexivity].
      * f_equal. f_equal. clear -I. induction l as [|[b z] l IH]; simpl in *; auto.
        destruct (uint_eq_dec a b); [subst; tauto|]. f_equal. tauto.
    + destruct (uint_eq_dec e a) as [->|M]; simpl; [destruct (uint_eq_dec a d); [congruence|reflexivity]|].
      apply IH. destruct E; [congruence|auto].
  - assert (K : ~ In d (map fst l)) by (rewrite <- exists_in, E; discriminate).
    unfold lookup. clear E. induction l as [|[a y] l IH]; simpl in *.
    + destruct (uint_eq_dec e d); reflexivity.
    + destruct (uint_eq_dec e a) as [->|M]; simpl; [destruct (uint_eq_dec a d); [subst; tauto|reflexivity]|].
      apply IH. tauto.
Qed.

(** The occurrences in a text and the variables made for them. *)
Fixpoint assign (lib : library) (l : list (vkind * uint)) (s : pstate) : list (vkind * uint * ident) * pstate :=
  match l with
  | [] => ([], s)
  | (k, d) :: l => let (x, s) := make_var lib s k d in let (r, s) := assign lib l s in ((k, d, x) :: r, s)
  end.
Lemma assign_app lib l1 : forall l2 s, assign lib (l1 ++ l2) s =
  let (p1, s1) := assign lib l1 s in let (p2, s2) := assign lib l2 s1 in (p1 ++ p2, s2).
Proof.
  induction l1 as [|[k d] l1 IH]; intros l2 s; simpl.
  - now destruct (assign lib l2 s).
  - destruct (make_var lib s k d) as [x s1]. rewrite IH. destruct (assign lib l1 s1) as [p1 s2].
    now destruct (assign lib l2 s2).
Qed.
Definition symbolic_list (lib : library) : list ast -> pstate -> list sym * pstate :=
  fix go l s := match l with
    | [] => ([], s)
    | x :: l => let (y, s) := symbolic lib x s in let (r, s) := go l s in (y :: r, s)
    end.
Lemma symbolic_system_list lib es : forall s, symbolic_system lib es s = symbolic_list lib es s.
Proof.
  induction es as [|e es IH]; intros s; simpl; auto. destruct (symbolic lib e s) as [a s1]. now rewrite IH.
Qed.
Lemma sval_args lib rest env f args : sval lib rest env (SFun f args) = option_bind (map_opt (sval lib rest env) args) (apply lib rest f).
Proof. cbn [sval]. f_equal. induction args as [|x l IH]; [reflexivity|]. cbn [map_opt]. now rewrite IH. Qed.
Lemma symbolic_spec lib rest env i : i_pow i = i_pow rest -> i_fun i = i_fun rest -> forall e s,
  snd (symbolic lib e s) = snd (assign lib (vars e) s) /\
  ((forall k d x, In (k, d, x) (fst (assign lib (vars e) s)) -> env x = i_var i k d) ->
   sval lib rest env (fst (symbolic lib e s)) = aval lib i e).
Proof.
  intros Ep Ef. induction e as [q|k d|a IH|o a b IHa IHb|f args IH] using ast_induct; intros s.
  - split; auto.
  - simpl. destruct (make_var lib s k d) as [x s1]. simpl. split; auto. intros H. f_equal. apply H. auto.
  - cbn [symbolic vars]. destruct (IH s) as [E V]. destruct (symbolic lib a s) as [a' s1]. simpl fst in *. simpl snd in *.
    split; auto. intros H. cbn [sval aval]. now rewrite V.
  - cbn [symbolic vars]. destruct (IHa s) as [Ea Va]. destruct (symbolic lib a s) as [a' s1].
    destruct (IHb s1) as [Eb Vb]. destruct (symbolic lib b s1) as [b' s2]. simpl fst in *. simpl snd in *.
    rewrite assign_app. destruct (assign lib (vars a) s) as [p1 t1]. simpl fst in *. simpl snd in *. subst t1.
    destruct (assign lib (vars b) s1) as [p2 t2]. simpl fst in *. simpl snd in *. split; auto.
    intros H. cbn [sval aval]. rewrite Va, Vb by (intros; apply H, in_or_app; auto).
    destruct (aval lib i a); auto. destruct (aval lib i b); auto. cbn [option_bind]. now rewrite (op_ext rest i).
  - cbn [symbolic vars].
    assert (K : snd (symbolic_list lib args s) = snd (assign lib (flat_map vars args) s) /\
      ((forall k d x, In (k, d, x) (fst (assign lib (flat_map vars args) s)) -> env x = i_var i k d) ->
       map_opt (sval lib rest env) (fst (symbolic_list lib args s)) = map_opt (aval lib i) args)).
    { revert s. induction IH as [|e l He Hl IHl]; intros s; simpl; auto.
      destruct (He s) as [E1 V1]. destruct (symbolic lib e s) as [a' s1].
      destruct (IHl s1) as [E2 V2]. destruct (symbolic_list lib l s1) as [r s2]. simpl fst in *. simpl snd in *.
      rewrite assign_app. destruct (assign lib (vars e) s) as [p1 t1]. simpl fst in *. simpl snd in *. subst t1.
      destruct (assign lib (flat_map vars l) s1) as [p2 t2]. simpl fst in *. simpl snd in *. split; auto.
      intros H. simpl. rewrite V1, V2 by (intros; apply H, in_or_app; auto). reflexivity. }
    fold (symbolic_list lib). destruct (symbolic_list lib args s) as [r s1]. simpl fst in *. simpl snd in *.
    destruct K as [K1 K2]. split; auto. intros H. rewrite sval_args, aval_args, K2 by exact H.
    destruct (map_opt (aval lib i) args); auto. simpl. now apply apply_ext.
Qed.
Lemma system_spec lib rest env i : i_pow i = i_pow rest -> i_fun i = i_fun rest -> forall es s,
  snd (symbolic_system lib es s) = snd (assign lib (flat_map vars es) s) /\
  ((forall k d x, In (k, d, x) (fst (assign lib (flat_map vars es) s)) -> env x = i_var i k d) ->
   map_opt (sval lib rest env) (fst (symbolic_system lib es s)) = map_opt (aval lib i) es).
Proof.
  intros Ep Ef. induction es as [|e l IHl]; intros s; simpl; auto.
  destruct (symbolic_spec lib rest env i Ep Ef e s) as [E1 V1]. destruct (symbolic lib e s) as [a' s1].
  destruct (IHl s1) as [E2 V2]. destruct (symbolic_system lib l s1) as [r s2]. simpl fst in *. simpl snd in *.
  rewrite assign_app. destruct (assign lib (vars e) s) as [p1 t1]. simpl fst in *. simpl snd in *. subst t1.
  destruct (assign lib (flat_map vars l) s1) as [p2 t2]. simpl fst in *. simpl snd in *. split; auto.
  intros H. simpl. rewrite V1, V2 by (intros; apply H, in_or_app; auto). reflexivity.
Qed.

(** Invariant of the parser's dictionaries. *)
Definition right_kind (lib : library) (s : pstate) (k : vkind) (d : uint) (x : ident) : Prop :=
  match x with
  | ByName k' d' => k' = k /\ d' = d /\ lib <> LibDReal
  | Fresh n => n < p_next s /\ lib = LibDReal
  end.
Record Inv (lib : library) (s : pstate) : Prop := {
  inv_xs : NoDup (map fst (p_xs s));
  inv_us : NoDup (map fst (p_us s));
  inv_kind : forall k d x, get s k d = Some x -> right_kind lib s k d x;
  inv_inj : forall k d k' d' x, get s k d = Some x -> get s k' d' = Some x -> k = k' /\ d = d'
}.
Lemma inv_start lib : Inv lib start.
Proof. split; try (apply NoDup_nil); intros [] *; discriminate. Qed.
Lemma nodup_snoc {A} (l : list A) x : NoDup l -> ~ In x l -> NoDup (l ++ [x]).
Proof.
  intros N K. apply (Permutation_NoDup (l := x :: l)); [|now constructor].
  apply Permutation_cons_append.
Qed.
Lemma nodup_update d x l : NoDup (map fst l) -> NoDup (map fst (update d x l)).
Proof.
  intros N. rewrite update_keys. destruct (existsb _ l) eqn:E; auto.
  apply nodup_snoc; auto. rewrite <- exists_in, E. discriminate.
Qed.
Definition set_var (s : pstate) (k : vkind) (d : uint) (x : ident) : pstate :=
  match k with
  | VX => {| p_xs := update d x (p_xs s); p_us := p_us s; p_next := S (p_next s) |}
  | VU => {| p_xs := p_xs s; p_us := update d x (p_us s); p_next := S (p_next s) |}
  end.
Lemma vkind_dec : forall a b : vkind, {a = b} + {a <> b}.
Proof. decide equality. Qed.
Lemma get_set s k d x k' d' : get (set_var s k d x) k' d' =
  if vkind_dec k' k then if uint_eq_dec d' d then Some x else get s k' d' else get s k' d'.
Proof.
  unfold get, set_var. destruct k, k'; simpl; rewrite ?lookup_update; destruct (vkind_dec _ _); try congruence; auto.
Qed.
Lemma inv_set lib s k d : Inv lib s -> Inv lib (set_var s k d (new_var lib s k d)).
Proof.
  intros [A B C D]. assert (G : p_next (set_var s k d (new_var lib s k d)) = S (p_next s)) by (destruct k; reflexivity).
  assert (F : forall k' d' y, get s k' d' = Some y -> y = new_var lib s k d -> k' = k /\ d' = d).
  { intros k' d' y E ->. apply C in E. unfold new_var in E. destruct lib; simpl in E; try lia; intuition. }
  split.
  - destruct k; simpl; auto. now apply nodup_update.
  - destruct k; simpl; auto. now apply nodup_update.
  - intros k' d' x. rewrite get_set. intros E.
    assert (Old : get s k' d' = Some x -> right_kind lib (set_var s k d (new_var lib s k d)) k' d' x).
    { intros E'. apply C in E'. unfold right_kind in *. destruct x; auto. rewrite G. intuition lia. }
    destruct (vkind_dec k' k) as [->|]; auto. destruct (uint_eq_dec d' d) as [->|]; auto.
    injection E as <-. unfold right_kind. rewrite G. unfold new_var. destruct lib; repeat split; try lia; discriminate.
  - intros k1 d1 k2 d2 x. rewrite !get_set.
    destruct (vkind_dec k1 k) as [K1|K1], (uint_eq_dec d1 d) as [D1|D1];
    destruct (vkind_dec k2 k) as [K2|K2], (uint_eq_dec d2 d) as [D2|D2]; intros E1 E2; subst;
      try (split; congruence); try (exact (D _ _ _ _ _ E1 E2));
      try (injection E1 as <-; destruct (F _ _ _ E2 eq_refl); subst; congruence);
      try (injection E2 as <-; destruct (F _ _ _ E1 eq_refl); subst; congruence).
Qed.
Lemma make_var_cases lib s k d :
  (k = VX /\ exists x, get s VX d = Some x /\ make_var lib s k d = (x, s)) \/
  ((k = VU \/ get s k d = None) /\ make_var lib s k d = (new_var lib s k d, set_var s k d (new_var lib s k d))).
Proof.
  unfold make_var, get. destruct k.
  - destruct (lookup d (p_xs s)) as [x|] eqn:E; [left|right]; auto. split; auto. eauto.
  - right. auto.
Qed.
Lemma assign_inv lib l : forall s, Inv lib s -> Inv lib (snd (assign lib l s)).
Proof.
  induction l as [|[k d] l IH]; intros s I; simpl; auto.
  destruct (make_var_cases lib s k d) as [(-> & x & E & ->)|(_ & ->)].
  - specialize (IH s I). now destruct (assign lib l s).
  - specialize (IH _ (inv_set lib s k d I)). now destruct (assign lib l _).
Qed.
Lemma assign_get lib l : forall s k d, get (snd (assign lib l s)) k d = None <-> get s k d = None /\ ~ In (k, d) l.
Proof.
  induction l as [|[k d] l IH]; intros s k' d'; simpl; [tauto|].
  destruct (make_var_cases lib s k d) as [(-> & x & E & ->)|(_ & ->)].
  - specialize (IH s k' d'). destruct (assign lib l s). simpl in *. rewrite IH. split; [|intuition].
    intros [A B]. split; auto. intros [K|K]; auto. injection K as <- <-. congruence.
  - specialize (IH (set_var s k d (new_var lib s k d)) k' d'). destruct (assign lib l _). simpl in *. rewrite IH, get_set.
    destruct (vkind_dec k' k) as [->|N]; [destruct (uint_eq_dec d' d) as [->|N]|].
    + split; [intros [A _]; discriminate|]. intros [_ A]. elim A. now left.
    + split; intros [A B]; split; auto. intros [K|K]; auto. congruence.
    + split; intros [A B]; split; auto. intros [K|K]; auto. congruence.
Qed.
Lemma assign_keep lib l : forall s k d x, get s k d = Some x -> k = VX \/ ~ In (VU, d) l ->
  get (snd (assign lib l s)) k d = Some x.
Proof.
  induction l as [|[k d] l IH]; intros s k' d' y E H; simpl; auto.
  destruct (make_var_cases lib s k d) as [(-> & x & Ex & ->)|(Hk & ->)].
  - assert (K := IH s k' d' y E). destruct (assign lib l s). simpl in *. apply K. intuition.
  - assert (K := IH (set_var s k d (new_var lib s k d)) k' d' y). destruct (assign lib l _). simpl in *. apply K; [|intuition].
    rewrite get_set. destruct (vkind_dec k' k) as [->|]; auto. destruct (uint_eq_dec d' d) as [->|]; auto.
    exfalso. destruct Hk as [->|Hk]; [|congruence]. destruct H as [H|H]; [discriminate|]. apply H. now left.
Qed.
(** Which variable an occurrence is. *)
Lemma assign_pairs lib l : forall s, Inv lib s -> (lib = LibDReal -> NoDup (named VU l)) ->
  forall k d x, In (k, d, x) (fst (assign lib l s)) -> get (snd (assign lib l s)) k d = Some x.
Proof.
  induction l as [|[k d] l IH]; intros s I N k' d' x; simpl; [easy|].
  assert (N' : lib = LibDReal -> NoDup (named VU l)).
  { intros L. apply N in L. destruct k; simpl in L; auto. now inversion L. }
  destruct (make_var_cases lib s k d) as [(-> & y & E & ->)|(Hk & ->)].
  - pose proof (IH s I N') as K. pose proof (assign_keep lib l s VX d y E (or_introl eq_refl)) as Kp.
    destruct (assign lib l s) as [ps s1]. simpl in *. intros [H|H]; auto. now injection H as <- <- <-.
  - pose proof (IH _ (inv_set lib s k d I) N') as K.
    pose proof (assign_inv lib l _ (inv_set lib s k d I)) as If.
    pose proof (assign_keep lib l (set_var s k d (new_var lib s k d)) k d (new_var lib s k d)) as Kp.
    pose proof (assign_get lib l (set_var s k d (new_var lib s k d)) k d) as Kg.
    assert (G : get (set_var s k d (new_var lib s k d)) k d = Some (new_var lib s k d)).
    { rewrite get_set. destruct (vkind_dec k k); [|congruence]. destruct (uint_eq_dec d d); congruence. }
    destruct (assign lib l _) as [ps s1]. simpl in *. intros [H|H]; auto. injection H as <- <- <-.
    destruct k; [now apply Kp; auto|]. destruct lib eqn:L.
    + apply Kp; auto. right. specialize (N eq_refl). simpl in N. inversion N; subst. now rewrite <- in_named.
    + destruct (get s1 VU d) as [z|] eqn:Ez; [|destruct Kg as [Kg _]; destruct (Kg eq_refl); congruence].
      apply (inv_kind _ _ If) in Ez. destruct z; simpl in Ez; [|intuition discriminate]. destruct Ez as (-> & -> & _). reflexivity.
    + destruct (get s1 VU d) as [z|] eqn:Ez; [|destruct Kg as [Kg _]; destruct (Kg eq_refl); congruence].
      apply (inv_kind _ _ If) in Ez. destruct z; simpl in Ez; [|intuition discriminate]. destruct Ez as (-> & -> & _). reflexivity.
Qed.
Lemma assign_lost l : forall s n k d, Inv LibDReal s -> n < p_next s ->
  get (snd (assign LibDReal l s)) k d = Some (Fresh n) -> get s k d = Some (Fresh n) /\ (k = VU -> ~ In (VU, d) l).
Proof.
  induction l as [|[k d] l IH]; intros s n k' d' I Hn; simpl; [auto|].
  destruct (make_var_cases LibDReal s k d) as [(-> & y & E & ->)|(Hk & ->)].
  - pose proof (IH s n k' d' I Hn) as K. destruct (assign LibDReal l s). simpl in *. intros G. destruct (K G) as [A B].
    split; auto. intros Q [H|H]; [discriminate|]. now apply B.
  - pose proof (IH (set_var s k d (new_var LibDReal s k d)) n k' d' (inv_set _ _ k d I)) as K.
    destruct (assign LibDReal l _). simpl in *. intros G. destruct K as [A B]; auto.
    { destruct k; simpl; lia. }
    rewrite get_set in A. destruct (vkind_dec k' k) as [->|Nk]; [destruct (uint_eq_dec d' d) as [->|Nd]|].
    + injection A as A. lia.
    + split; auto. intros Q [H|H]; [congruence|]. now apply B.
    + split; auto. intros Q [H|H]; [congruence|]. now apply B.
Qed.

(** ** Substitution *)
Lemma map_opt_in {A B} (g : A -> option B) l : forall r, map_opt g l = Some r ->
  forall y, In y r <-> exists x, In x l /\ g x = Some y.
Proof.
  induction l as [|a l IH]; intros r E y; simpl in *.
  - injection E as <-. split; [easy|]. intros (x & [] & _).
  - destruct (g a) as [b|] eqn:Ea; [|discriminate]. destruct (map_opt g l) as [r'|]; [|discriminate].
    injection E as <-. simpl. rewrite (IH r' eq_refl). split.
    + intros [<-|(x & Hx & Ex)]; eauto.
    + intros (x & [<-|Hx] & Ex); [left; congruence|right; eauto].
Qed.
Lemma map_opt_some {A B} (g : A -> option B) l : (forall x, In x l -> g x <> None) -> exists r, map_opt g l = Some r.
Proof.
  induction l as [|a l IH]; intros H; simpl; [now exists []|].
  destruct (g a) as [b|] eqn:Ea; [|exfalso; apply (H a); [now left|exact Ea]].
  destruct IH as (r & ->); [intros x Hx; apply H; now right|]. now exists (b :: r).
Qed.
Lemma map_opt_none {A B} (g : A -> option B) l x : In x l -> g x = None -> map_opt g l = None.
Proof.
  intros H E. destruct (map_opt g l) as [r|] eqn:Er; auto.
  exfalso. revert r Er. induction l as [|a l IH]; intros r Er; [easy|]. simpl in Er. destruct H as [->|H].
  - now rewrite E in Er.
  - destruct (g a); [|discriminate]. destruct (map_opt g l) as [r'|]; [|discriminate]. eapply IH; eauto.
Qed.
Lemma in_enum {A} (l : list A) s i x : In (i, x) (combine (seq s (length l)) l) <-> s <= i /\ nth_error l (i - s) = Some x.
Proof.
  revert s. induction l as [|a l IH]; intros s; simpl.
  - split; [easy|]. intros [_ H]. destruct (i - s); discriminate.
  - rewrite IH. split.
    + intros [E|[H E]]; [injection E as <- <-|].
      * rewrite Nat.sub_diag. auto.
      * split; [lia|]. replace (i - s) with (S (i - S s)) by lia. exact E.
    + intros [H E]. destruct (i - s) as [|m] eqn:Em; simpl in E.
      * left. injection E as ->. f_equal. lia.
      * right. split; [lia|]. now replace (i - S s) with m by lia.
Qed.
Lemma substitute_at {A} (en : list (ident * A)) free x r : (exists q, In (x, q) en) -> (forall q, In (x, q) en -> q = r) -> substitute en free x = r.
Proof.
  intros (q & Hq) H. unfold substitute. destruct (find _ en) as [[y w]|] eqn:E.
  - apply find_some in E. destruct E as [E1 E2]. simpl in *. destruct (ident_eq_dec x y); [subst|discriminate]. auto.
  - exfalso. pose proof (find_none _ _ E _ Hq) as K. simpl in K. destruct (ident_eq_dec x x); congruence.
Qed.
Lemma substitute_out {A} (en : list (ident * A)) free x : (forall q, ~ In (x, q) en) -> substitute en free x = free x.
Proof.
  intros H. unfold substitute. destruct (find _ en) as [[y w]|] eqn:E; auto.
  apply find_some in E. destruct E as [E1 E2]. simpl in *. destruct (ident_eq_dec x y); [subst|discriminate]. now elim (H w).
Qed.
Lemma state_in {A} s (v : list A) en : state_entries s v = Some en -> forall x r, In (x, r) en <->
  exists i, nth_error v i = Some r /\ get s VX (name i) = Some x.
Proof.
  intros E x r. rewrite (map_opt_in _ _ _ E). split.
  - intros ([i q] & H & K). apply in_enum in H. rewrite Nat.sub_0_r in H. destruct H as [_ H]. simpl in K.
    destruct (lookup _ (p_xs s)) as [y|] eqn:Ey; [|discriminate]. injection K as <- <-. exists i. auto.
  - intros (i & H & K). exists (i, r). split; [apply in_enum; rewrite Nat.sub_0_r; split; [lia|auto]|].
    simpl. unfold get in K. change (Nat.to_uint i) with (name i). now rewrite K.
Qed.
Lemma state_some {A} s (v : list A) en : state_entries s v = Some en -> forall i, i < length v -> get s VX (name i) <> None.
Proof.
  intros E i Hi K. apply nth_error_Some in Hi. destruct (nth_error v i) as [r|] eqn:Er; [|congruence].
  unfold state_entries in E. erewrite map_opt_none in E; [discriminate| |].
  - apply (in_enum v 0 i r). rewrite Nat.sub_0_r. split; [lia|exact Er].
  - simpl. unfold get in K. change (Nat.to_uint i) with (name i). now rewrite K.
Qed.
Definition inames (s : pstate) : list uint := sort (map fst (p_us s)).
Lemma input_in {A} s (u : list A) eu : Inv LibDReal s \/ Inv LibSympy s \/ Inv LibSMT s -> input_entries s u = Some eu -> forall x r, In (x, r) eu <->
  exists d, get s VU d = Some x /\ nth_error u (index d (inames s)) = Some r.
Proof.
  intros I E x r. assert (N : NoDup (inames s)).
  { unfold inames. eapply Permutation_NoDup; [apply Permutation_sym, sort_perm|]. destruct I as [I|[I|I]]; apply (inv_us _ _ I). }
  rewrite (map_opt_in _ _ _ E). fold (inames s). split.
  - intros ([i d] & H & K). apply in_enum in H. rewrite Nat.sub_0_r in H. destruct H as [_ H]. simpl in K.
    destruct (lookup d (p_us s)) as [y|] eqn:Ey; [|discriminate]. simpl in K.
    destruct (nth_error u i) as [q|] eqn:Eq; [|discriminate]. injection K as <- <-. exists d. split; auto.
    now rewrite (index_unique _ _ _ N H).
  - intros (d & K & H). exists (index d (inames s), d). split.
    + apply in_enum. rewrite Nat.sub_0_r. split; [lia|]. apply index_nth. unfold inames.
      apply (Permutation_in _ (Permutation_sym (sort_perm _))).
      destruct (in_dec uint_eq_dec d (map fst (p_us s))) as [J|J]; auto. apply lookup_none in J. unfold get in K. congruence.
    + simpl. unfold get in K. now rewrite K, H.
Qed.

(** ** The symbolic right-hand side *)
Definition mixed (rest : interp) (es : list ast) (v u : list R) : interp :=
  {| i_var := fun k d => match k with
                         | VX => nth (Nat.of_uint d) v 0%R
                         | VU => nth (index d (symbols VU es)) u 0%R
                         end;
     i_pow := i_pow rest; i_fun := i_fun rest |}.
Lemma occ_dec : forall a b : vkind * uint, {a = b} + {a <> b}.
Proof. decide equality; [apply uint_eq_dec|apply vkind_dec]. Qed.
Definition final (lib : library) (es : list ast) : pstate := snd (assign lib (flat_map vars es) start).
Lemma final_inv lib es : Inv lib (final lib es).
Proof. apply assign_inv, inv_start. Qed.
Lemma inv_any lib s : Inv lib s -> Inv LibDReal s \/ Inv LibSympy s \/ Inv LibSMT s.
Proof. destruct lib; auto. Qed.
Lemma final_get lib es k d : get (final lib es) k d <> None <-> mentions es k d.
Proof.
  unfold final, mentions. pose proof (assign_get lib (flat_map vars es) start k d) as [A B]. split; intros H.
  - destruct (in_dec occ_dec (k, d) (flat_map vars es)) as [I|I]; auto.
    elim H. apply B. split; auto. destruct k; reflexivity.
  - intros E. apply A in E. tauto.
Qed.
Lemma final_keys lib es d : In d (map fst (p_us (final lib es))) <-> mentions es VU d.
Proof.
  rewrite <- (final_get lib). unfold get. split; intros H.
  - intros E. apply lookup_none in E. tauto.
  - destruct (in_dec uint_eq_dec d (map fst (p_us (final lib es)))) as [I|I]; auto. apply lookup_none in I. tauto.
Qed.
Lemma final_keys_x lib es d : In d (map fst (p_xs (final lib es))) <-> mentions es VX d.
Proof.
  rewrite <- (final_get lib). unfold get. split; intros H.
  - intros E. apply lookup_none in E. tauto.
  - destruct (in_dec uint_eq_dec d (map fst (p_xs (final lib es)))) as [I|I]; auto. apply lookup_none in I. tauto.
Qed.
Lemma final_names lib es : inames (final lib es) = symbols VU es.
Proof.
  apply sort_unique.
  - apply (inv_us _ _ (final_inv lib es)).
  - apply sort_sorted.
  - apply symbols_nodup.
  - intros d. now rewrite final_keys, in_symbols.
Qed.
Lemma final_none lib es : p_us (final lib es) = [] <-> symbols VU es = [].
Proof.
  rewrite <- (final_names lib). unfold inames. split; intros H; [now rewrite H|].
  assert (P := sort_perm (map fst (p_us (final lib es)))). rewrite H in P. apply Permutation_nil in P.
  now destruct (p_us (final lib es)).
Qed.
Lemma system_final lib es : snd (symbolic_system lib es start) = final lib es.
Proof.
  apply (system_spec lib {| i_var := fun _ _ => 0%R; i_pow := Rplus; i_fun := fun _ x => x |} (fun _ => 0%R)
    {| i_var := fun _ _ => 0%R; i_pow := Rplus; i_fun := fun _ x => x |} eq_refl eq_refl).
Qed.
Lemma state_total {A} lib es (v : list A) : exactly es VX (length v) -> exists en, state_entries (final lib es) v = Some en.
Proof.
  intros H. apply map_opt_some. intros [i r] Hi. apply in_enum in Hi. rewrite Nat.sub_0_r in Hi. destruct Hi as [_ Hi].
  assert (Li : i < length v) by (apply nth_error_Some; congruence). simpl.
  assert (M : mentions es VX (Nat.to_uint i)) by (apply H; eauto). apply (final_get lib) in M. unfold get in M.
  destruct (lookup (Nat.to_uint i) (p_xs (final lib es))); [discriminate|congruence].
Qed.
Lemma input_total {A} lib es (u : list A) : length (symbols VU es) <= length u -> exists eu, input_entries (final lib es) u = Some eu.
Proof.
  intros H. apply map_opt_some. fold (inames (final lib es)). rewrite (final_names lib es).
  intros [i d] Hi. apply in_enum in Hi. rewrite Nat.sub_0_r in Hi. destruct Hi as [_ Hi]. simpl.
  assert (M : mentions es VU d) by (apply in_symbols; eapply nth_error_In; eauto). apply (final_get lib) in M. unfold get in M.
  destruct (lookup d (p_us (final lib es))); [|congruence]. simpl.
  assert (Li : i < length u) by (assert (i < length (symbols VU es)) by (apply nth_error_Some; congruence); lia).
  apply nth_error_Some in Li. destruct (nth_error u i); [discriminate|congruence].
Qed.
Lemma occurrences lib rest es (v u : list R) free en eu :
  exactly es VX (length v) -> (lib = LibDReal -> inputs_once es) -> length (symbols VU es) <= length u ->
  state_entries (final lib es) v = Some en -> (eu = [] /\ symbols VU es = [] \/ input_entries (final lib es) u = Some eu) ->
  forall k d x, In (k, d, x) (fst (assign lib (flat_map vars es) start)) ->
  substitute (en ++ eu) free x = i_var (mixed rest es v u) k d.
Proof.
  intros Hx Ho Lu Een Eeu k d x Hi.
  assert (M : mentions es k d).
  { unfold mentions. clear -Hi. revert Hi. generalize start. induction (flat_map vars es) as [|[k' d'] l IH]; intros s; simpl; [easy|].
    destruct (make_var lib s k' d') as [y s1]. specialize (IH s1). destruct (assign lib l s1) as [ps s2]. simpl in *.
    intros [E|E]; [left; congruence|right; auto]. }
  pose proof (assign_pairs lib (flat_map vars es) start (inv_start lib) Ho k d x Hi) as G. fold (final lib es) in G.
  pose proof (final_inv lib es) as I. pose proof (state_in _ _ _ Een) as Sin.
  assert (Uin : forall x r, In (x, r) eu -> exists d, get (final lib es) VU d = Some x /\ nth_error u (index d (symbols VU es)) = Some r).
  { destruct Eeu as [[-> _]|Eeu]; [easy|]. intros x' r Hr. rewrite <- (final_names lib).
    now apply (input_in _ _ _ (inv_any _ _ I) Eeu). }
  destruct k.
  - apply Hx in M. destruct M as (i & Hlt & ->). change (Nat.to_uint i) with (name i) in *.
    pose proof (nth_error_nth' v 0%R Hlt) as En. simpl. rewrite of_name. apply substitute_at.
    + exists (nth i v 0%R). apply in_or_app. left. apply Sin. eauto.
    + intros q Hq. apply in_app_or in Hq. destruct Hq as [Hq|Hq].
      * apply Sin in Hq. destruct Hq as (j & Ej & Gj). destruct (inv_inj _ _ I _ _ _ _ _ G Gj) as [_ K].
        apply name_inj in K. subst j. congruence.
      * apply Uin in Hq. destruct Hq as (d' & Gd & _). destruct (inv_inj _ _ I _ _ _ _ _ G Gd). discriminate.
  - assert (Hd : In d (symbols VU es)) by now apply in_symbols.
    assert (Li : index d (symbols VU es) < length u) by (apply index_lt in Hd; lia).
    pose proof (nth_error_nth' u 0%R Li) as En. simpl. apply substitute_at.
    + exists (nth (index d (symbols VU es)) u 0%R). apply in_or_app. right.
      destruct Eeu as [[_ E0]|Eeu]; [rewrite E0 in Hd; easy|].
      apply (input_in _ _ _ (inv_any _ _ I) Eeu). exists d. rewrite (final_names lib). auto.
    + intros q Hq. apply in_app_or in Hq. destruct Hq as [Hq|Hq].
      * apply Sin in Hq. destruct Hq as (j & Ej & Gj). destruct (inv_inj _ _ I _ _ _ _ _ G Gj). discriminate.
      * apply Uin in Hq. destruct Hq as (d' & Gd & Ed). destruct (inv_inj _ _ I _ _ _ _ _ G Gd) as [_ <-]. congruence.
Qed.
Lemma smt_general lib rest free es v u :
  exactly es VX (length v) -> (lib = LibDReal -> inputs_once es) ->
  match u with None => symbols VU es = [] | Some u => symbols VU es <> [] /\ length (symbols VU es) <= length u end ->
  ~ constant_side es ->
  f_smt lib rest free es v u = map_opt (aval lib (mixed rest es v (inputs u))) es.
Proof.
  intros Hx Ho Hu Hc. unfold f_smt. rewrite (not_constant _ Hc).
  destruct (state_total lib es v Hx) as (en & Een).
  pose proof (fun env i A B => proj2 (system_spec lib rest env i A B es start)) as Sp.
  pose proof (system_final lib es) as Fs. destruct (symbolic_system lib es start) as [a s]. simpl in Fs, Sp. subst s.
  destruct u as [u|]; simpl inputs.
  - destruct Hu as [Hn Lu]. destruct (p_us (final lib es)) as [|p l] eqn:Eu; [now apply final_none in Eu|].
    destruct (input_total lib es u Lu) as (eu & Eeu). rewrite Een, Eeu. cbn [option_bind].
    apply Sp; auto. apply (occurrences lib); auto.
  - pose proof Hu as Eu. apply (final_none lib) in Eu. rewrite Eu, Een. cbn [option_bind].
    apply Sp; auto. intros k d x Hi. rewrite <- (List.app_nil_r en). apply (occurrences lib) with (u := []); auto.
    rewrite Hu. simpl. lia.
Qed.

(** ** C38: symbols *)
(** For every dimension, and at most ten inputs, the symbolic right-hand side is the value of the
    expressions with x_i for component i of the state and u_i for component i of the input; for
    dReal if each control variable occurs once. *)
Theorem C38_symbols lib rest free es v u :
  exactly es VX (length v) -> exactly es VU (length (inputs u)) -> length (inputs u) <= 10 -> u <> Some [] ->
  (lib = LibDReal -> inputs_once es) -> ~ constant_side es ->
  f_smt lib rest free es v u = map_opt (aval lib (component rest v (inputs u))) es.
Proof.
  intros Hx Hu Lu Hn Ho Hc. rewrite smt_general; auto.
  - apply map_opt_ext. intros e He. apply aval_ext; auto. intros k d Hd. pose proof (mentions_in _ _ _ _ He Hd) as M.
    unfold mixed, component, i_var. destruct k; auto. rewrite (symbols_few _ _ _ Hu Lu).
    apply Hu in M. destruct M as (i & Hi & ->). change (Nat.to_uint i) with (name i). rewrite index_name by auto. now rewrite of_name.
  - pose proof (symbols_length _ _ _ Hu) as E. destruct u as [u|]; simpl inputs in *; [split; [|lia]|].
    + intros K. rewrite K in E. destruct u; [congruence|discriminate].
    + now destruct (symbols VU es).
Qed.

(** A state variable which no expression mentions: the symbolic right-hand side raises. *)
Theorem C38_symbols_missing lib rest free es v u i :
  i < length v -> ~ mentions es VX (Nat.to_uint i) -> f_smt lib rest free es v u = None.
Proof.
  intros Hi Hm. unfold f_smt. destruct (existsb is_number es); auto. pose proof (system_final lib es) as Fs. destruct (symbolic_system lib es start) as [a s]. simpl in Fs. subst s.
  assert (E : state_entries (final lib es) v = None).
  { destruct (state_entries (final lib es) v) as [en|] eqn:E; auto. pose proof (state_some _ _ _ E i Hi) as K.
    apply final_get in K. tauto. }
  rewrite E. destruct (p_us (final lib es)), u; reflexivity.
Qed.

Lemma exactly_count es (v : list R) : (forall i, i < length v -> mentions es VX (name i)) -> length (symbols VX es) <= length v -> exactly es VX (length v).
Proof.
  intros H L. assert (Incl : incl (symbols VX es) (map name (seq 0 (length v)))).
  { apply NoDup_length_incl; [apply names_nodup|rewrite map_length, seq_length; lia|].
    intros d Hd. apply in_names in Hd. destruct Hd as (i & Hi & ->). apply in_symbols. auto. }
  intros d. split.
  - intros M. apply in_symbols, Incl, in_names in M. exact M.
  - intros (i & Hi & ->). now apply H.
Qed.
(** The assertions of a controlled system and a symbolic right-hand side that does not raise: the state
    variables are x0 to x(n-1). *)
Theorem C38_controllable lib rest free es v u ws :
  controllable_ok lib es = true -> length v = length es -> f_smt lib rest free es v u = Some ws ->
  exactly es VX (length es).
Proof.
  intros C L E. rewrite <- L. apply exactly_count.
  - intros i Hi. destruct (in_dec uint_eq_dec (name i) (symbols VX es)) as [I|I]; [now apply in_symbols|].
    rewrite in_symbols in I. rewrite (C38_symbols_missing lib rest free es v u i Hi I) in E. discriminate.
  - unfold controllable_ok in C. pose proof (system_final lib es) as Fs. destruct (symbolic_system lib es start) as [a s].
    simpl in Fs. subst s. apply andb_true_iff in C. destruct C as [_ C]. apply Nat.eqb_eq in C. rewrite L, C.
    rewrite <- (map_length fst (p_xs _)). apply NoDup_incl_length; [apply symbols_nodup|].
    intros d Hd. now apply final_keys_x, in_symbols.
Qed.

Lemma apply_sympy lib i f l w : apply lib i f l = Some w -> apply LibSympy i f l = Some w.
Proof. destruct lib, f, l as [|x [|y l]]; simpl; auto; discriminate. Qed.
Lemma aval_sympy lib i e : forall w, aval lib i e = Some w -> aval LibSympy i e = Some w.
Proof.
  induction e as [q|k d|a IH|o a b IHa IHb|f args IH] using ast_induct; intros w E; auto.
  - cbn [aval] in *. destruct (aval lib i a) as [x|]; [|discriminate]. now rewrite (IH x eq_refl).
  - cbn [aval] in *. destruct (aval lib i a) as [x|]; [|discriminate]. destruct (aval lib i b) as [y|]; [|discriminate].
    now rewrite (IHa x eq_refl), (IHb y eq_refl).
  - rewrite aval_args in *. destruct (map_opt (aval lib i) args) as [l|] eqn:El; [|discriminate].
    assert (K : map_opt (aval LibSympy i) args = Some l).
    { clear E. revert l El. induction IH as [|x r Hx Hr IHr]; intros l El; simpl in *; auto.
      destruct (aval lib i x) as [y|]; [|discriminate]. destruct (map_opt (aval lib i) r) as [l'|]; [|discriminate].
      now rewrite (Hx y eq_refl), (IHr l' eq_refl). }
    rewrite K. simpl in *. now apply (apply_sympy lib).
Qed.
(** With at most ten states, the numerical and the symbolic right-hand side agree whenever
    neither raises (whatever the names of the inputs). *)
Theorem C38_same_system lib rest free es v u w1 w2 :
  length v <= 10 -> (lib = LibDReal -> inputs_once es) ->
  f_torch rest es v u = Some w1 -> f_smt lib rest free es v u = Some w2 -> w1 = w2.
Proof.
  intros Lv Ho E1 E2.
  assert (Ls : length v = length (symbols VX es)).
  { unfold f_torch in E1. destruct (existsb is_number es); [discriminate|]. destruct (length v =? _) eqn:L; [|discriminate]. now apply Nat.eqb_eq. }
  assert (Hx : exactly es VX (length v)).
  { apply exactly_count; [|lia]. intros i Hi. destruct (in_dec uint_eq_dec (name i) (symbols VX es)) as [I|I]; [now apply in_symbols|].
    rewrite in_symbols in I. rewrite (C38_symbols_missing lib rest free es v u i Hi I) in E2. discriminate. }
  assert (Hu : match u with None => symbols VU es = [] | Some u => symbols VU es <> [] /\ length (symbols VU es) <= length u end).
  { unfold f_torch in E1. destruct (existsb is_number es); [discriminate|]. destruct (length v =? _); [|discriminate]. destruct (symbols VU es) as [|d l], u as [u|]; try discriminate; auto.
    destruct (length u =? length (d :: l)) eqn:L; [|discriminate]. apply Nat.eqb_eq in L. split; [discriminate|lia]. }
  assert (Hc : ~ constant_side es).
  { intros Hc. rewrite (C38_constant_refused lib rest free es v u Hc) in E2. discriminate. }
  rewrite smt_general in E2; auto.
  assert (E3 : map_opt (aval LibSympy (numpy_interp rest es v (inputs u))) es = Some w1).
  { unfold f_torch in E1. destruct (existsb is_number es); [discriminate|]. destruct (length v =? _); [|discriminate]. destruct (symbols VU es) as [|d l], u as [u|]; try discriminate; auto.
    destruct (length u =? length (d :: l)) eqn:L; [|discriminate]. exact E1. }
  assert (E4 : map_opt (aval LibSympy (mixed rest es v (inputs u))) es = Some w2).
  { clear -E2. revert w2 E2. generalize (mixed rest es v (inputs u)) as i. intros i. induction es as [|e l IH]; intros w2 E2; simpl in *; auto.
    destruct (aval lib i e) as [y|] eqn:Ey; [|discriminate]. destruct (map_opt (aval lib i) l) as [r|]; [|discriminate].
    rewrite (aval_sympy _ _ _ _ Ey), (IH r eq_refl). exact E2. }
  assert (E5 : map_opt (aval LibSympy (numpy_interp rest es v (inputs u))) es = map_opt (aval LibSympy (mixed rest es v (inputs u))) es).
  { apply map_opt_ext. intros e He. apply aval_ext; auto. intros k d Hd. pose proof (mentions_in _ _ _ _ He Hd) as M.
    unfold mixed, numpy_interp, i_var. destruct k; auto. rewrite (symbols_few _ _ _ Hx Lv).
    apply Hx in M. destruct M as (i & Hi & ->). change (Nat.to_uint i) with (name i). rewrite index_name by auto. now rewrite of_name. }
  congruence.
Qed.

(** With dReal, a control variable which occurs again later is never replaced by the feedback. *)
Lemma list_app_sym lib es1 : forall es2 s, symbolic_system lib (es1 ++ es2) s =
  let (a1, s1) := symbolic_system lib es1 s in let (a2, s2) := symbolic_system lib es2 s1 in (a1 ++ a2, s2).
Proof.
  induction es1 as [|e es1 IH]; intros es2 s; simpl.
  - now destruct (symbolic_system lib es2 s).
  - destruct (symbolic lib e s) as [a s1]. rewrite IH. destruct (symbolic_system lib es1 s1) as [a1 s2].
    now destruct (symbolic_system lib es2 s2).
Qed.
Lemma symbolic_length lib es : forall s, length (fst (symbolic_system lib es s)) = length es.
Proof.
  induction es as [|e es IH]; intros s; simpl; auto. destruct (symbolic lib e s) as [a s1].
  specialize (IH s1). destruct (symbolic_system lib es s1). simpl in *. auto.
Qed.
Theorem C38_dreal_repeated rest es1 es2 d :
  mentions es2 VU d -> exists x, forall free v u ws,
    f_smt LibDReal rest free (es1 ++ AVar VU d :: es2) v u = Some ws -> nth_error ws (length es1) = Some (free x).
Proof.
  intros M. set (s1 := final LibDReal es1).
  exists (Fresh (p_next s1)). intros free v u ws E. unfold f_smt in E. destruct (existsb is_number _); [discriminate|].
  pose proof (system_final LibDReal (es1 ++ AVar VU d :: es2)) as Fs.
  rewrite list_app_sym in *. pose proof (system_final LibDReal es1) as F1. pose proof (symbolic_length LibDReal es1 start) as L1.
  destruct (symbolic_system LibDReal es1 start) as [a1 t1]. simpl in F1, L1. subst t1. fold s1 in E, Fs.
  cbn [symbolic_system symbolic make_var] in *. change (new_var LibDReal s1 VU d) with (Fresh (p_next s1)) in *.
  set (s2 := {| p_xs := p_xs s1; p_us := update d (Fresh (p_next s1)) (p_us s1); p_next := S (p_next s1) |}) in *.
  pose proof (system_spec LibDReal rest (fun _ => 0%R) rest eq_refl eq_refl es2 s2) as [F2 _].
  destruct (symbolic_system LibDReal es2 s2) as [a2 s3]. simpl in F2, Fs.
  assert (I1 : Inv LibDReal s1) by apply final_inv.
  assert (I2 : Inv LibDReal s2) by apply (inv_set LibDReal s1 VU d I1).
  assert (Lost : forall k e, get s3 k e <> Some (Fresh (p_next s1))).
  { intros k e G. rewrite F2 in G. apply (assign_lost _ _ _ _ _ I2 (Nat.lt_succ_diag_r _)) in G. destruct G as [G N].
    assert (G2 : get s2 VU d = Some (Fresh (p_next s1))).
    { unfold get, s2. simpl. rewrite lookup_update. destruct (uint_eq_dec d d); congruence. }
    destruct (inv_inj _ _ I2 _ _ _ _ _ G G2) as [-> ->]. now apply N. }
  assert (K : forall en eu, (state_entries s3 v = Some en) -> (eu = [] \/ exists w, input_entries s3 w = Some eu) ->
    map_opt (sval LibDReal rest (substitute (en ++ eu) free)) (a1 ++ SVar (Fresh (p_next s1)) :: a2) = Some ws ->
    nth_error ws (length es1) = Some (free (Fresh (p_next s1)))).
  { intros en eu Een Eeu Em. rewrite <- L1.
    destruct (map_opt_nth _ _ _ (length a1) (SVar (Fresh (p_next s1))) Em) as (y & Ey & En).
    { rewrite nth_error_app2 by lia. now rewrite Nat.sub_diag. }
    rewrite En. simpl in Ey. injection Ey as <-. f_equal. apply substitute_out. intros q Hq. apply in_app_or in Hq. destruct Hq as [Hq|Hq].
    - apply (state_in _ _ _ Een) in Hq. destruct Hq as (i & _ & G). now apply Lost in G.
    - destruct Eeu as [->|(w & Eeu)]; [easy|]. apply (input_in s3 w eu) in Hq; auto.
      + destruct Hq as (e & G & _). now apply Lost in G.
      + left. rewrite Fs. apply final_inv. }
  destruct (p_us s3), u as [u|]; try discriminate.
  - destruct (state_entries s3 v) as [en|] eqn:Een; [|discriminate]. cbn [option_bind] in E.
    apply (K en []); auto. now rewrite List.app_nil_r.
  - destruct (state_entries s3 v) as [en|] eqn:Een; [|discriminate]. cbn [option_bind] in E.
    destruct (input_entries s3 u) as [eu|] eqn:Eeu; [|discriminate]. cbn [option_bind] in E.
    apply (K en eu); eauto.
Qed.

(** ** Examples *)
(** x0' = x1, x1' = - x0 + u0 *)
Definition ex_system : list ast :=
  [AVar VX (name 1); ABin OAdd (ANeg (AVar VX (name 0))) (AVar VU (name 0))].
Example C38_example_hypotheses :
  exactly ex_system VX 2 /\ exactly ex_system VU 1 /\ inputs_once ex_system /\ ~ constant_side ex_system.
Proof.
  unfold exactly, mentions, inputs_once. simpl. split; [|split; [|split]].
  - intros d. split.
    + intros [E|[E|[E|[]]]]; try discriminate; injection E as <-; [exists 1|exists 0]; split; auto.
    + intros (i & Hi & ->). destruct i as [|[|i]]; auto. lia.
  - intros d. split.
    + intros [E|[E|[E|[]]]]; try discriminate; injection E as <-; exists 0; auto.
    + intros (i & Hi & ->). destruct i as [|i]; auto. lia.
  - repeat constructor. easy.
  - intros (e & [<-|[<-|[]]] & H); simpl in H; tauto.
Qed.
Example C38_example_constant rest free v :
  constant_side [AVar VX (name 0); ANum 1] /\ f_smt LibDReal rest free [AVar VX (name 0); ANum 1] v None = None.
Proof.
  assert (H : constant_side [AVar VX (name 0); ANum 1]) by (exists (ANum 1); simpl; auto).
  split; [exact H|now apply C38_constant_refused].
Qed.
Example C38_example_values rest free :
  f_torch rest ex_system [2; 3]%R (Some [5]%R) = Some [3; (- (2) + 5)]%R /\
  f_smt LibDReal rest free ex_system [2; 3]%R (Some [5]%R) = Some [3; (- (2) + 5)]%R.
Proof.
  destruct C38_example_hypotheses as (A & B & C & K). split.
  - rewrite C38_numbers; simpl; auto; try lia. discriminate.
  - rewrite C38_symbols; simpl; auto; try lia. discriminate.
Qed.
(** u0 in both equations *)
Example C38_example_repeated rest : exists x, forall free v u ws,
  f_smt LibDReal rest free ([] ++ AVar VU (name 0) :: [AVar VU (name 0)]) v u = Some ws -> nth_error ws 0 = Some (free x).
Proof. apply (C38_dreal_repeated rest [] [AVar VU (name 0)] (name 0)). left. reflexivity. Qed.
(** Eleven states, x_i' = x_i. *)
Example C38_example_eleven rest v : length v = 11 -> exists ws,
  f_torch rest (map (fun i => AVar VX (name i)) (seq 0 11)) v None = Some ws /\ nth_error ws 10 = Some (nth 2 v 0%R).
Proof.
  intros L. set (es := map (fun i => AVar VX (name i)) (seq 0 11)).
  assert (H : exactly es VX (length v)).
  { intros d. rewrite L. unfold mentions. split.
    - intros M. apply in_flat_map in M. destruct M as (e & He & M). apply in_map_iff in He. destruct He as (i & <- & Hi).
      simpl in M. destruct M as [M|[]]. injection M as <-. apply in_seq in Hi. exists i. split; [lia|reflexivity].
    - intros (i & Hi & ->). apply in_flat_map. exists (AVar VX (name i)). split; [|now left].
      apply in_map_iff. exists i. split; auto. apply in_seq. lia. }
  assert (E : exists ws, f_torch rest es v None = Some ws).
  { unfold f_torch. rewrite not_constant, (symbols_length _ _ _ H), Nat.eqb_refl; [eexists; reflexivity|].
    intros (e & He & K). apply in_map_iff in He. destruct He as (i & <- & _). exact K. }
  destruct E as (ws & E). exists ws. split; auto.
  eapply C38_numbers_beyond_ten; [exact H|rewrite L; lia|exact E|reflexivity].
Qed.
