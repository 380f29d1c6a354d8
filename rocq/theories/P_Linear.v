(** C68: linearising a model. *)
From Coquelicot Require Import Coquelicot.
From Coq Require Import String Reals QArith Qreals List Lra Lia Arith Bool.
From Verif Require Import M_Syntax M_Activations M_Control M_Recorder M_Model M_Linear S_Model S_Domains S_Dynamics S_Linear L_Calculus L_Topology L_Continuity L_Domains L_Network L_Frechet.
Import ListNotations.
Local Open Scope R_scope.

(** ** The terms of a model *)
Definition inputs_of (m : benchmark_model) (n : nat) : list expr := if bm_control m then symbols_u n (input_count m) else [].
Lemma inputs_length m n : List.length (inputs_of m n) = input_dim m.
Proof. unfold inputs_of, input_dim, symbols_u, input_count. destruct (bm_control m); [|reflexivity]. now rewrite map_length, seq_length. Qed.
Lemma leaves_symbols l : leaves (PList (map (PLeaf (KVar SSYMPY)) l)) = Some l.
Proof. cbn [leaves]. rewrite map_map. induction l as [|e l IH]; [reflexivity|]. cbn [map all_some]. now rewrite IH. Qed.
Lemma get_model_terms m n f : get_model m n = Some f -> all_some (map (uterm SSYMPY (symbols_x n) (inputs_of m n)) (bm_smt m)) = Some f.
Proof.
  intros H. unfold get_model, symbols_x in H. destruct n as [|n]; [discriminate|].
  cbn [seq map] in H. unfold call in H. cbn [contains_object symb_eqb] in H.
  set (us := inputs_of m (S n)) in *.
  assert (Eu : terms_of (if bm_control m then InputTerms (symbols_u (S n) (input_count m)) else NoInputs) = Some us).
  { unfold us, inputs_of. destruct (bm_control m); reflexivity. }
  rewrite Eu in H. unfold symbolic_case in H.
  change (PLeaf (KVar SSYMPY) (EVar 0) :: map (PLeaf (KVar SSYMPY)) (map EVar (seq 1 n)))
    with (map (PLeaf (KVar SSYMPY)) (symbols_x (S n))) in H.
  rewrite leaves_symbols in H. cbn [option_bind snd] in H. unfold f_smt_terms in H.
  destruct (unpack (bm_unpack_v m) (symbols_x (S n)) && unpack (bm_unpack_u m) us); [|discriminate].
  destruct (forallb _ (bm_functions m)); [|discriminate].
  destruct (all_some (map (uterm SSYMPY (symbols_x (S n)) us) (bm_smt m))); [|discriminate]. now injection H as <-.
Qed.
Lemma symbols_x_nth n i : (i < n)%nat -> nth_error (symbols_x n) i = Some (EVar i).
Proof. intros H. unfold symbols_x. rewrite nth_error_map. rewrite (nth_error_nth' (seq 0 n) 0%nat) by (rewrite seq_length; exact H). now rewrite seq_nth. Qed.
Lemma symbols_x_some n i t : nth_error (symbols_x n) i = Some t -> (i < n)%nat /\ t = EVar i.
Proof.
  intros H. assert (L : (i < n)%nat).
  { assert (K : nth_error (symbols_x n) i <> None) by now rewrite H. apply nth_error_Some in K. unfold symbols_x in K. now rewrite map_length, seq_length in K. }
  split; [exact L|]. rewrite symbols_x_nth in H by exact L. now injection H as <-.
Qed.
Lemma inputs_some m n i t : nth_error (inputs_of m n) i = Some t -> (i < input_dim m)%nat /\ t = EVar (Nat.add n i).
Proof.
  intros H. assert (L : (i < input_dim m)%nat).
  { assert (K : nth_error (inputs_of m n) i <> None) by now rewrite H. apply nth_error_Some in K. now rewrite inputs_length in K. }
  split; [exact L|]. unfold inputs_of, input_dim in *. destruct (bm_control m); [|now destruct i].
  unfold symbols_u in H. rewrite nth_error_map in H. fold (input_count m) in L.
  rewrite (nth_error_nth' (seq n (input_count m)) 0%nat) in H by (rewrite seq_length; exact L). rewrite seq_nth in H by exact L. now injection H as <-.
Qed.
(** The state that stands for [x] and [u]. *)
Definition joint (n : nat) (x u : list R) : state := fun i => if (i <? n)%nat then nth i x 0 else nth (i - n) u 0.
Lemma joint_x n x u i : (i < n)%nat -> joint n x u i = nth i x 0.
Proof. intros H. unfold joint. now rewrite (proj2 (Nat.ltb_lt i n) H). Qed.
Lemma joint_u n x u i : joint n x u (Nat.add n i) = nth i u 0.
Proof. unfold joint. rewrite (proj2 (Nat.ltb_ge (Nat.add n i) n)) by lia. f_equal. lia. Qed.
Lemma sympy_fn name f : fncs SSYMPY name = Some f ->
  exists o, f = EUn o /\ (o = UNeg \/ o = UExp \/ o = USin \/ o = UCos) /\ forall x, function name x = unop_eval o x.
Proof.
  unfold fncs. destruct (String.eqb_spec name "sin") as [->|]; [intros [= <-]; exists USin; repeat split; auto|].
  destruct (String.eqb_spec name "cos") as [->|]; [intros [= <-]; exists UCos; repeat split; auto|].
  destruct (String.eqb_spec name "exp") as [->|]; [intros [= <-]; exists UExp; repeat split; auto|discriminate].
Qed.
Lemma uterm_joint m n e : forall t, uterm SSYMPY (symbols_x n) (inputs_of m n) e = Some t ->
  (forall x u, eval (joint n x u) t = value x u e) /\ smooth t /\ vars_below (n + input_dim m) t /\ (forall x u, regular x u e -> defined (joint n x u) t).
Proof.
  induction e as [q|i|j|a IH|a IHa b IHb|a IHa b IHb|a IHa b IHb|a IHa b IHb|a IH p|name a IH]; intros t H; cbn [uterm] in H.
  - injection H as <-. repeat split.
  - apply symbols_x_some in H. destruct H as [L ->]. repeat split; cbn; [|lia]. intros. now apply joint_x.
  - apply inputs_some in H. destruct H as [L ->]. repeat split; cbn; [|lia]. intros. now apply joint_u.
  - destruct (uterm _ _ _ a); [|discriminate]. injection H as <-. destruct (IH _ eq_refl) as (V & S & B & D).
    split; [intros; cbn [eval unop_eval value]; now rewrite V|]. split; [split; auto|]. split; [exact B|exact D].
  - destruct (uterm _ _ _ a); [|discriminate]. destruct (uterm _ _ _ b); [|discriminate]. injection H as <-.
    destruct (IHa _ eq_refl) as (V & S & B & D), (IHb _ eq_refl) as (V' & S' & B' & D').
    split; [intros; cbn [eval binop_eval value]; now rewrite V, V'|]. split; [repeat split; auto; discriminate|]. split; [split; assumption|].
    intros x u [H1 H2]. split; auto.
  - destruct (uterm _ _ _ a); [|discriminate]. destruct (uterm _ _ _ b); [|discriminate]. injection H as <-.
    destruct (IHa _ eq_refl) as (V & S & B & D), (IHb _ eq_refl) as (V' & S' & B' & D').
    split; [intros; cbn [eval binop_eval value]; now rewrite V, V'|]. split; [repeat split; auto; discriminate|]. split; [split; assumption|].
    intros x u [H1 H2]. split; auto.
  - destruct (uterm _ _ _ a); [|discriminate]. destruct (uterm _ _ _ b); [|discriminate]. injection H as <-.
    destruct (IHa _ eq_refl) as (V & S & B & D), (IHb _ eq_refl) as (V' & S' & B' & D').
    split; [intros; cbn [eval binop_eval value]; now rewrite V, V'|]. split; [repeat split; auto; discriminate|]. split; [split; assumption|].
    intros x u [H1 H2]. split; auto.
  - destruct (uterm _ _ _ a); [|discriminate]. destruct (uterm _ _ _ b); [|discriminate]. injection H as <-.
    destruct (IHa _ eq_refl) as (V & S & B & D), (IHb _ eq_refl) as (V' & S' & B' & D').
    split; [intros; cbn [eval binop_eval value]; now rewrite V, V'|]. split; [repeat split; auto; discriminate|]. split; [split; assumption|].
    intros x u (H1 & H2 & H3). split; [auto|]. split; [auto|]. now rewrite V'.
  - destruct (uterm _ _ _ a); [|discriminate]. injection H as <-. destruct (IH _ eq_refl) as (V & S & B & D).
    split; [intros; cbn [eval value]; now rewrite V|]. split; [exact S|]. split; [exact B|exact D].
  - destruct (fncs SSYMPY name) as [f|] eqn:E; [|discriminate]. cbn [option_bind] in H. destruct (uterm _ _ _ a); [|discriminate]. injection H as <-.
    destruct (IH _ eq_refl) as (V & S & B & D). destruct (sympy_fn name f E) as (o & -> & Ho & Hf).
    split; [intros; cbn [eval value]; now rewrite V, Hf|]. split; [split; assumption|]. split; [exact B|exact D].
Qed.
Lemma all_some_nth {A B} (f : A -> option B) l r (d : A) (d' : B) i :
  all_some (map f l) = Some r -> (i < List.length l)%nat -> f (nth i l d) = Some (nth i r d').
Proof.
  revert r i. induction l as [|a l IH]; intros r i H Hi; [cbn in Hi; lia|]. cbn [map all_some] in H.
  destruct (f a) as [b|] eqn:E; [|discriminate]. destruct (all_some (map f l)) as [r'|]; [|discriminate]. injection H as <-.
  destruct i as [|i]; [exact E|]. cbn [nth]. apply IH; [reflexivity|]. cbn in Hi. lia.
Qed.
Lemma all_some_length' {A} (l : list (option A)) r : all_some l = Some r -> List.length r = List.length l.
Proof.
  revert r. induction l as [|[a|] l IH]; intros r H; cbn [all_some] in H; [now injection H as <-| |discriminate].
  destruct (all_some l); [|discriminate]. injection H as <-. cbn. now rewrite IH.
Qed.
(** ** Substitution *)
Definition zeroed (zero : nat -> bool) (s : state) : state := fun i => if zero i then 0 else s i.
Lemma subs0_eval zero e s : eval s (subs0 zero e) = eval (zeroed zero s) e.
Proof.
  induction e as [q|i|f a IH|f a IHa b IHb|a IH k|c IHc a IHa b IHb]; cbn [subs0 eval]; auto; try congruence.
  - unfold zeroed. destruct (zero i); [apply Q2R_zero|reflexivity].
  - now rewrite IHc, IHa, IHb.
Qed.
Lemma subs0_defined zero e s : defined s (subs0 zero e) <-> defined (zeroed zero s) e.
Proof.
  induction e as [q|i|f a IH|f a IHa b IHb|a IH k|c IHc a IHa b IHb]; cbn [subs0 defined]; try tauto.
  - destruct (zero i); cbn; tauto.
  - destruct f; rewrite ?subs0_eval; tauto.
Qed.
Lemma closed_eval e s s' : closed e = true -> eval s e = eval s' e.
Proof.
  induction e as [q|i|f a IH|f a IHa b IHb|a IH k|c IHc a IHa b IHb]; cbn [closed eval]; intros H; auto; try discriminate.
  - now rewrite IH.
  - apply andb_true_iff in H. destruct H. now rewrite IHa, IHb.
  - now rewrite IH.
  - apply andb_true_iff in H. destruct H as [H H3]. apply andb_true_iff in H. destruct H. now rewrite IHc, IHa, IHb.
Qed.
Lemma eval_vars n e s s' : vars_below n e -> (forall i, (i < n)%nat -> s i = s' i) -> eval s e = eval s' e.
Proof.
  intros V E. induction e as [q|i|f a IH|f a IHa b IHb|a IH k|c IHc a IHa b IHb]; cbn [vars_below eval] in *; auto.
  - now rewrite IH.
  - destruct V. now rewrite IHa, IHb.
  - now rewrite IH.
  - destruct V as (V1 & V2 & V3). now rewrite IHc, IHa, IHb.
Qed.
Lemma defined_vars n e s s' : vars_below n e -> (forall i, (i < n)%nat -> s i = s' i) -> defined s e -> defined s' e.
Proof.
  intros V E. induction e as [q|i|f a IH|f a IHa b IHb|a IH k|c IHc a IHa b IHb]; cbn [vars_below defined] in *; auto.
  - destruct V as [V1 V2]. rewrite <- (eval_vars n b s s' V2 E). specialize (IHa V1). specialize (IHb V2). destruct f; tauto.
  - destruct V as (V1 & V2 & V3). intros (D1 & D2 & D3). repeat split; auto.
Qed.
Lemma diff_defined s e j : smooth e -> defined s e -> defined s (diff j e).
Proof.
  induction e as [q|i|f a IH|f a IHa b IHb|a IH [|k]|c IHc a IHa b IHb]; cbn [smooth defined diff]; intros Sm D; auto.
  - destruct (i =? j)%nat; exact I.
  - destruct Sm as [Hf Sm]. destruct Hf as [->|[->|[->| ->]]]; cbn; auto.
  - destruct Sm as (Hf & Sa & Sb). destruct f; cbn [defined].
    + destruct D; split; auto.
    + destruct D; split; auto.
    + destruct D; repeat split; auto.
    + destruct D as (D1 & D2 & D3). repeat split; auto. cbn [eval]. now apply pow_nonzero.
    + now destruct Hf.
Qed.
Lemma nth_zeros i n : nth i (zeros n) 0 = 0.
Proof. unfold zeros. destruct (Nat.lt_ge_cases i n); [now rewrite nth_repeat|]. now rewrite nth_overflow by (rewrite repeat_length; lia). Qed.
Lemma zeroed_joint n x u i : zeroed (fun i => (i <? n)%nat) (joint n x u) i = joint n (zeros n) u i.
Proof. unfold zeroed, joint. destruct (i <? n)%nat; [now rewrite nth_zeros|reflexivity]. Qed.
Lemma zeroed_inputs n x k i : zeroed (fun i => (n <=? i)%nat) (joint n x (zeros k)) i = joint n x (zeros k) i.
Proof.
  unfold zeroed, joint. destruct (Nat.leb_spec n i) as [H|H]; [|reflexivity].
  rewrite (proj2 (Nat.ltb_ge i n)) by exact H. now rewrite nth_zeros.
Qed.
(** ** From all variables to the state *)
Lemma maxnorm_joint n k x u : List.length x = n -> forall r, small r x -> 0 < r -> maxnorm (n + k) (offset (joint n (zeros n) u) (joint n x u)) <= r.
Proof.
  intros Hx r Hr Pr. apply maxnorm_le_box; [lra|]. intros i Hi. unfold offset, joint. destruct (Nat.ltb_spec i n) as [H|H].
  - rewrite nth_zeros, Rminus_0_r. assert (K : Rabs (nth i x 0) < r) by (apply Hr, nth_In; lia). apply Rabs_le_between. lra.
  - rewrite Rminus_diag_eq by reflexivity. lra.
Qed.
Lemma sum_joint n k (g : nat -> R) x u : List.length x = n ->
  sum_below (n + k) (fun j => g j * offset (joint n (zeros n) u) (joint n x u) j) = sum_below n (fun j => g j * nth j x 0).
Proof.
  intros Hx. induction k as [|k IH].
  - rewrite Nat.add_0_r. apply sum_below_ext. intros j Hj. unfold offset. rewrite !joint_x, nth_zeros by exact Hj. ring.
  - rewrite Nat.add_succ_r. cbn [sum_below]. rewrite IH. unfold offset. rewrite !joint_u. ring.
Qed.
Lemma small_pos r x : x <> [] -> small r x -> 0 < r.
Proof. destruct x as [|c x]; [easy|]. intros _ H. eapply Rle_lt_trans; [apply Rabs_pos|apply (H c); now left]. Qed.
Lemma first_order_of n k t u (F : list R -> R) row : (0 < n)%nat -> vars_below (n + k) t -> smooth t -> defined (joint n (zeros n) u) t ->
  (forall x, F x = eval (joint n x u) t) -> (forall j, (j < n)%nat -> nth j row 0 = eval (joint n (zeros n) u) (diff j t)) ->
  first_order n F row.
Proof.
  intros Hn V Sm D HF Hr e He. destruct (frechet_eval (n + k) t (joint n (zeros n) u) V Sm D e He) as (d & Hd & H).
  exists d. split; [exact Hd|]. intros x Hx Hs r Hxr.
  assert (Pr : 0 < r) by (apply (small_pos r x); [intros ->; cbn in Hx; lia|exact Hxr]).
  assert (C : close (n + k) d (joint n (zeros n) u) (joint n x u)).
  { intros i Hi. unfold joint. destruct (Nat.ltb_spec i n) as [L|L].
    - rewrite nth_zeros, Rminus_0_r. apply Hs, nth_In. lia.
    - rewrite Rminus_diag_eq by reflexivity. now rewrite Rabs_R0. }
  specialize (H _ C). cbv beta in H. rewrite sum_joint in H by exact Hx. rewrite !HF. unfold inner. rewrite Hx.
  rewrite (sum_below_ext n (fun j => nth j row 0 * nth j x 0) (fun j => eval (joint n (zeros n) u) (diff j t) * nth j x 0))
    by (intros j Hj; now rewrite Hr).
  match goal with |- Rabs ?a <= _ => match type of H with Rabs ?b <= _ => replace a with b by ring end end.
  eapply Rle_trans; [exact H|]. apply Rmult_le_compat_l; [lra|]. now apply maxnorm_joint.
Qed.
(** ** The result *)
Section Result.
  Context (simplified : expr -> expr) (m : benchmark_model) (n : nat) (A : list (list R)).
  Hypothesis (Hk : keeps_values simplified) (Hn : bm_n_vars m = Some n) (Hl : linearise simplified m = Some A).
  Lemma linearise_parts : exists f, get_model m n = Some f /\ f <> [] /\ check_zero simplified m n = true /\
    all_some (map (fun row => all_some (map (fun e => as_float (simplified (subs0 (fun i => (i <? n)%nat) e))) row))
      (map (fun fi => map (fun j => simplified (diff j fi)) (seq 0 n)) f)) = Some A.
  Proof.
    unfold linearise in Hl. rewrite Hn in Hl. destruct (check_zero simplified m n) eqn:C; [|discriminate].
    unfold linearise_with, get_jacobian in Hl. destruct (get_model m n) as [[|f0 f]|]; [discriminate| |discriminate].
    exists (f0 :: f). repeat split; [easy|exact Hl].
  Qed.
  Lemma n_positive : (0 < n)%nat.
  Proof. destruct linearise_parts as (f & G & _). destruct n; [discriminate|lia]. Qed.
  Lemma entry i j : (i < List.length (bm_smt m))%nat -> (j < n)%nat ->
    exists t, uterm SSYMPY (symbols_x n) (inputs_of m n) (nth i (bm_smt m) (UNum 0)) = Some t /\
      forall u, defined (joint n (zeros n) u) t -> nth j (nth i A []) 0 = eval (joint n (zeros n) u) (diff j t).
  Proof.
    intros Hi Hj. destruct linearise_parts as (f & G & _ & _ & E). apply get_model_terms in G.
    assert (Lf : List.length f = List.length (bm_smt m)) by (rewrite (all_some_length' _ _ G); now rewrite map_length).
    assert (U := all_some_nth _ _ _ (UNum 0) (ENum 0) i G Hi). exists (nth i f (ENum 0)). split; [exact U|]. intros u D.
    rewrite map_map in E. assert (R1 := all_some_nth _ f A (ENum 0) [] i E ltac:(lia)). cbv beta in R1.
    rewrite map_map in R1. assert (R2 := all_some_nth _ (seq 0 n) _ 0%nat 0 j R1 ltac:(now rewrite seq_length)). cbv beta in R2.
    rewrite seq_nth in R2 by exact Hj. cbn [Nat.add] in R2. set (t := nth i f (ENum 0)) in *.
    destruct (uterm_joint m n _ t U) as (_ & Sm & _ & _).
    assert (D1 := diff_defined _ t j Sm D). destruct (Hk _ _ D1) as [D2 V2].
    unfold as_float in R2. destruct (closed _) eqn:C; [|discriminate]. injection R2 as <-.
    rewrite (closed_eval _ _ (joint n (zeros n) u) C).
    set (z := fun i0 => (i0 <? n)%nat) in *.
    assert (Ez : forall i0, zeroed z (joint n (zeros n) u) i0 = joint n (zeros n) u i0) by (intros; apply zeroed_joint).
    assert (D3 : defined (joint n (zeros n) u) (subs0 z (simplified (diff j t)))).
    { apply subs0_defined. revert D2. generalize (simplified (diff j t)). intros e0. clear -Ez.
      assert (Ev : forall e, eval (zeroed z (joint n (zeros n) u)) e = eval (joint n (zeros n) u) e).
      { induction e as [q|i|f a IH|f a IHa b IHb|a IH k|c IHc a IHa b IHb]; cbn [eval]; auto; try congruence. now rewrite IHc, IHa, IHb. }
      induction e0 as [q|i|f a IH|f a IHa b IHb|a IH k|c IHc a IHa b IHb]; cbn [defined]; auto.
      - destruct f; rewrite ?Ev; tauto.
      - tauto. }
    destruct (Hk _ _ D3) as [_ ->]. rewrite subs0_eval, <- V2.
    assert (Ev : forall e, eval (zeroed z (joint n (zeros n) u)) e = eval (joint n (zeros n) u) e).
    { clear -Ez. induction e as [q|i|f a IH|f a IHa b IHb|a IH k|c IHc a IHa b IHb]; cbn [eval]; auto; try congruence. now rewrite IHc, IHa, IHb. }
    apply Ev.
  Qed.
  Lemma shape : List.length A = List.length (bm_smt m) /\ forall row, In row A -> List.length row = n.
  Proof.
    destruct linearise_parts as (f & G & _ & _ & E). apply get_model_terms in G.
    assert (Lf : List.length f = List.length (bm_smt m)) by (rewrite (all_some_length' _ _ G); now rewrite map_length).
    assert (La := all_some_length' _ _ E). rewrite !map_length in La. split; [congruence|].
    intros row Hr. apply In_nth with (d := []) in Hr. destruct Hr as (i & Hi & <-). rewrite map_map in E.
    assert (R1 := all_some_nth _ f A (ENum 0) [] i E ltac:(lia)). apply all_some_length' in R1. now rewrite !map_length, seq_length in R1.
  Qed.
  Lemma zero_at_origin i : (i < List.length (bm_smt m))%nat -> regular (zeros n) (zeros (input_dim m)) (nth i (bm_smt m) (UNum 0)) ->
    component m i (zeros n) (zeros (input_dim m)) = 0.
  Proof.
    intros Hi Hr. destruct linearise_parts as (f & G & _ & C & _). unfold check_zero in C. rewrite G in C. apply get_model_terms in G.
    assert (Lf : List.length f = List.length (bm_smt m)) by (rewrite (all_some_length' _ _ G); now rewrite map_length).
    assert (U := all_some_nth _ _ _ (UNum 0) (ENum 0) i G Hi). destruct (uterm_joint m n _ _ U) as (V & _ & _ & D). specialize (D _ _ Hr).
    rewrite forallb_forall in C. specialize (C (nth i f (ENum 0)) ltac:(apply nth_In; lia)).
    set (t := nth i f (ENum 0)) in *. set (s := joint n (zeros n) (zeros (input_dim m))) in *.
    set (z1 := fun i => (i <? n)%nat) in *. set (z2 := fun i => (n <=? i)%nat) in *.
    assert (E1 : forall i, zeroed z1 s i = s i) by (intros; apply zeroed_joint).
    assert (E2 : forall i, zeroed z2 s i = s i) by (intros; apply zeroed_inputs).
    assert (Ev : forall z, (forall i, zeroed z s i = s i) -> forall e, eval (zeroed z s) e = eval s e).
    { intros z Ez. induction e as [q|i0|g a IH|g a IHa b IHb|a IH k|c IHc a IHa b IHb]; cbn [eval]; auto; try congruence. now rewrite IHc, IHa, IHb. }
    assert (Dv : forall z, (forall i, zeroed z s i = s i) -> forall e, defined s e -> defined (zeroed z s) e).
    { intros z Ez. induction e as [q|i0|g a IH|g a IHa b IHb|a IH k|c IHc a IHa b IHb]; cbn [defined]; auto.
      - destruct g; rewrite ?(Ev z Ez); tauto.
      - tauto. }
    assert (D1 : defined s (subs0 z1 t)) by now apply subs0_defined, Dv.
    destruct (Hk _ _ D1) as [D2 V2]. assert (D3 : defined s (subs0 z2 (simplified (subs0 z1 t)))) by now apply subs0_defined, Dv.
    destruct (Hk _ _ D3) as [_ V3]. unfold component. rewrite <- V. fold s.
    rewrite subs0_eval, (Ev z2 E2), V2, subs0_eval, (Ev z1 E1) in V3. rewrite <- V3.
    destruct (simplified (subs0 z2 (simplified (subs0 z1 t)))); try discriminate. cbn [is_zero] in C. cbn [eval].
    apply Qeq_bool_iff in C. rewrite (Qeq_eqR _ _ C). apply Q2R_zero.
  Qed.
  Lemma first_order_row i u : (i < List.length (bm_smt m))%nat -> regular (zeros n) u (nth i (bm_smt m) (UNum 0)) ->
    first_order n (fun x => component m i x u) (nth i A []).
  Proof.
    intros Hi Hr. destruct (entry i 0 Hi n_positive) as (t & U & _).
    destruct (uterm_joint m n _ t U) as (V & Sm & B & D). specialize (D _ _ Hr).
    apply (first_order_of n (input_dim m) t u); auto using n_positive.
    - intros x. symmetry. apply V.
    - intros j Hj. destruct (entry i j Hi Hj) as (t' & U' & E). rewrite U in U'. injection U' as <-. now apply E.
  Qed.
End Result.

(** * C68 *)
(** The matrix holds the first-order behaviour of the model at the origin, whatever the inputs, and the origin
    is an equilibrium without inputs. *)
Theorem C68_linearisation :
  forall simplified m n A,
    keeps_values simplified -> bm_n_vars m = Some n -> linearise simplified m = Some A ->
    List.length A = List.length (bm_smt m) /\ (forall row, In row A -> List.length row = n) /\
    forall i, (i < List.length (bm_smt m))%nat ->
      (regular (zeros n) (zeros (input_dim m)) (nth i (bm_smt m) (UNum 0)) -> component m i (zeros n) (zeros (input_dim m)) = 0) /\
      forall u, regular (zeros n) u (nth i (bm_smt m) (UNum 0)) -> first_order n (fun x => component m i x u) (nth i A []).
Proof.
  intros sp m n A Hk Hn Hl. destruct (shape sp m n A Hn Hl) as [S1 S2]. split; [exact S1|]. split; [exact S2|]. intros i Hi. split.
  - now apply (zero_at_origin sp m n A Hk Hn Hl).
  - intros u Hr. now apply (first_order_row sp m n A Hk Hn Hl).
Qed.
Lemma only_length n j h : List.length (only n j h) = n.
Proof. unfold only. now rewrite map_length, seq_length. Qed.
Lemma nth_only n j h i : (i < n)%nat -> nth i (only n j h) 0 = if (i =? j)%nat then h else 0.
Proof.
  intros H. unfold only. rewrite (nth_indep _ 0 ((fun i => if (i =? j)%nat then h else 0) 0%nat)) by (rewrite map_length, seq_length; exact H).
  rewrite (map_nth (fun i => if (i =? j)%nat then h else 0)), seq_nth by exact H. reflexivity.
Qed.
Lemma only_zero n j : only n j 0 = zeros n.
Proof.
  apply nth_ext with (d := 0) (d' := 0); [rewrite only_length; unfold zeros; now rewrite repeat_length|]. rewrite only_length. intros i Hi.
  rewrite nth_only, nth_zeros by exact Hi. now destruct (i =? j)%nat.
Qed.
Lemma inner_only n j a h : (j < n)%nat -> inner a (only n j h) = nth j a 0 * h.
Proof.
  intros Hj. unfold inner. rewrite only_length.
  rewrite (sum_below_ext n _ (fun k => (if (j =? k)%nat then 1 else 0) * (nth k a 0 * h))).
  - now rewrite (sum_below_delta n j (fun k => nth k a 0 * h)).
  - intros k Hk. rewrite nth_only, Nat.eqb_sym by exact Hk. destruct (j =? k)%nat; ring.
Qed.
Lemma first_order_derive n F a j : (j < n)%nat -> first_order n F a -> is_derive (fun h => F (only n j h)) 0 (nth j a 0).
Proof.
  intros Hj H. apply is_derive_Reals. intros e He. destruct (H (e / 4) ltac:(lra)) as (d & Hd & H'). exists (mkposreal d Hd). cbn [pos].
  intros h Hh Hlt. rewrite Rplus_0_l. assert (Ph := Rabs_pos_lt h Hh).
  assert (Sm : forall r, Rabs h < r -> small r (only n j h)).
  { intros r Hr c Hc. unfold only in Hc. apply in_map_iff in Hc. destruct Hc as (i & <- & _). destruct (i =? j)%nat; [exact Hr|]. rewrite Rabs_R0. lra. }
  specialize (H' (only n j h) (only_length n j h) (Sm d Hlt) (2 * Rabs h) (Sm (2 * Rabs h) ltac:(lra))). rewrite inner_only in H' by exact Hj.
  rewrite only_zero.
  replace ((F (only n j h) - F (zeros n)) / h - nth j a 0) with ((F (only n j h) - (F (zeros n) + nth j a 0 * h)) / h) by (field; exact Hh).
  unfold Rdiv. rewrite Rabs_mult, Rabs_inv. apply Rmult_lt_reg_r with (Rabs h); [exact Ph|].
  match goal with |- ?a * / ?b * ?b < _ => replace (a * / b * b) with a by (field; lra) end.
  eapply Rle_lt_trans; [exact H'|]. assert (0 < e * Rabs h) by nra. lra.
Qed.
(** Its entries are the partial derivatives. *)
Theorem C68_partial_derivatives :
  forall simplified m n A,
    keeps_values simplified -> bm_n_vars m = Some n -> linearise simplified m = Some A ->
    forall i j u, (i < List.length (bm_smt m))%nat -> (j < n)%nat -> regular (zeros n) u (nth i (bm_smt m) (UNum 0)) ->
      is_derive (fun h => component m i (only n j h) u) 0 (nth j (nth i A []) 0).
Proof.
  intros sp m n A Hk Hn Hl i j u Hi Hj Hr. apply (first_order_derive n (fun x => component m i x u)); [exact Hj|].
  now apply (first_order_row sp m n A Hk Hn Hl).
Qed.
(** A model that does not rest at the origin is refused. *)
Theorem C68_not_an_equilibrium :
  forall simplified m n i,
    keeps_values simplified -> bm_n_vars m = Some n -> (i < List.length (bm_smt m))%nat ->
    regular (zeros n) (zeros (input_dim m)) (nth i (bm_smt m) (UNum 0)) -> component m i (zeros n) (zeros (input_dim m)) <> 0 ->
    linearise simplified m = None.
Proof.
  intros sp m n i Hk Hn Hi Hr Nz. destruct (linearise sp m) as [A|] eqn:E; [|reflexivity]. exfalso. apply Nz.
  now apply (zero_at_origin sp m n A Hk Hn E).
Qed.
(** So is a model whose derivatives at the origin depend on the inputs: the inputs are not set to zero. *)
Theorem C68_input_dependent_refused :
  forall simplified m n i j u u' l l',
    keeps_values simplified -> bm_n_vars m = Some n -> (i < List.length (bm_smt m))%nat -> (j < n)%nat ->
    regular (zeros n) u (nth i (bm_smt m) (UNum 0)) -> regular (zeros n) u' (nth i (bm_smt m) (UNum 0)) ->
    is_derive (fun h => component m i (only n j h) u) 0 l -> is_derive (fun h => component m i (only n j h) u') 0 l' -> l <> l' ->
    linearise simplified m = None.
Proof.
  intros sp m n i j u u' l l' Hk Hn Hi Hj Hr Hr' D D' Ne. destruct (linearise sp m) as [A|] eqn:E; [|reflexivity]. exfalso. apply Ne.
  assert (H1 := C68_partial_derivatives sp m n A Hk Hn E i j u Hi Hj Hr). assert (H2 := C68_partial_derivatives sp m n A Hk Hn E i j u' Hi Hj Hr').
  apply is_derive_unique in D, D', H1, H2. congruence.
Qed.
(** Every polynomial model without inputs that rests at the origin is linearised. *)
Lemma polynomial_term_smooth n e : polynomial_term n e -> smooth e.
Proof.
  induction e as [q|i|f a IH|f a IHa b IHb|a IH k|c IHc a IHa b IHb]; cbn [polynomial_term smooth]; auto.
  - destruct f; cbn beta iota; tauto.
  - destruct f; cbn beta iota; try tauto; intros [H1 H2]; repeat split; auto; discriminate.
Qed.
Lemma polynomial_term_defined n e s : polynomial_term n e -> defined s e.
Proof.
  induction e as [q|i|f a IH|f a IHa b IHb|a IH k|c IHc a IHa b IHb]; cbn [polynomial_term defined]; auto.
  - destruct f; cbn beta iota; tauto.
  - destruct f; cbn beta iota; try tauto; intros [H1 H2]; repeat split; auto.
  - tauto.
Qed.
Lemma polynomial_term_diff n j e : polynomial_term n e -> polynomial_term n (diff j e).
Proof.
  induction e as [q|i|f a IH|f a IHa b IHb|a IH [|k]|c IHc a IHa b IHb]; cbn [polynomial_term diff]; auto; try tauto.
  - intros _. destruct (i =? j)%nat; exact I.
  - destruct f; cbn beta iota; tauto.
  - destruct f; cbn beta iota; try tauto; intros [H1 H2]; cbn [polynomial_term]; repeat split; auto.
Qed.
Lemma polynomial_term_subs n e : polynomial_term n e -> polynomial_term 0 (subs0 (fun i => (i <? n)%nat) e).
Proof.
  induction e as [q|i|f a IH|f a IHa b IHb|a IH k|c IHc a IHa b IHb]; cbn [polynomial_term subs0]; auto; try tauto.
  - intros H. rewrite (proj2 (Nat.ltb_lt i n) H). exact I.
  - destruct f; cbn beta iota; tauto.
  - destruct f; cbn beta iota; try tauto; intros [H1 H2]; cbn [polynomial_term]; repeat split; auto.
Qed.
Lemma polynomial_term_subs0 z e : polynomial_term 0 e -> polynomial_term 0 (subs0 z e).
Proof.
  induction e as [q|i|f a IH|f a IHa b IHb|a IH k|c IHc a IHa b IHb]; cbn [polynomial_term subs0]; auto; try tauto.
  - intros H. lia.
  - destruct f; cbn beta iota; tauto.
  - destruct f; cbn beta iota; try tauto; intros [H1 H2]; cbn [polynomial_term]; repeat split; auto.
Qed.
Lemma uterm_polynomial n us e : polynomial n e -> exists t, uterm SSYMPY (symbols_x n) us e = Some t /\ polynomial_term n t.
Proof.
  induction e as [q|i|j|a IH|a IHa b IHb|a IHa b IHb|a IHa b IHb|a IHa b IHb|a IH p|name a IH]; cbn [polynomial uterm]; intros H; try tauto.
  - now exists (ENum q).
  - exists (EVar i). split; [now apply symbols_x_nth|exact H].
  - destruct (IH H) as (t & -> & P). now eexists.
  - destruct H as [H1 H2]. destruct (IHa H1) as (t & -> & P), (IHb H2) as (t' & -> & P'). now eexists.
  - destruct H as [H1 H2]. destruct (IHa H1) as (t & -> & P), (IHb H2) as (t' & -> & P'). now eexists.
  - destruct H as [H1 H2]. destruct (IHa H1) as (t & -> & P), (IHb H2) as (t' & -> & P'). now eexists.
  - destruct (IH H) as (t & -> & P). now eexists.
Qed.
Lemma all_some_exists {A B} (f : A -> option B) (P : B -> Prop) l : (forall a, In a l -> exists b, f a = Some b /\ P b) ->
  exists r, all_some (map f l) = Some r /\ forall b, In b r -> P b.
Proof.
  induction l as [|a l IH]; intros H; [exists []; split; [reflexivity|intros b []]|].
  destruct (H a (or_introl eq_refl)) as (b & E & Pb). destruct IH as (r & Er & Pr); [intros c Hc; apply H; now right|].
  exists (b :: r). cbn [map all_some]. rewrite E, Er. split; [reflexivity|]. intros c [<-|Hc]; auto.
Qed.
Theorem C68_polynomials_accepted :
  forall simplified m n,
    keeps_values simplified -> computes_polynomials simplified ->
    bm_n_vars m = Some n -> (0 < n)%nat -> bm_control m = false -> bm_functions m = [] -> bm_unpack_u m = None ->
    (bm_unpack_v m = None \/ bm_unpack_v m = Some n) -> bm_smt m <> [] ->
    (forall e, In e (bm_smt m) -> polynomial n e /\ value (zeros n) [] e = 0) ->
    exists A, linearise simplified m = Some A.
Proof.
  intros sp m n Hk [Hp Hc] Hn Pn Hu Hf Uu Uv Ne He.
  assert (Ei : inputs_of m n = []) by (unfold inputs_of; now rewrite Hu).
  destruct (all_some_exists (uterm SSYMPY (symbols_x n) []) (polynomial_term n) (bm_smt m)) as (f & Ef & Pf).
  { intros e Hin. apply uterm_polynomial. now apply He. }
  assert (G : get_model m n = Some f).
  { unfold get_model. rewrite Hu. destruct n as [|n']; [lia|]. unfold call, symbols_x. cbn [seq map contains_object symb_eqb terms_of].
    unfold symbolic_case.
    change (PLeaf (KVar SSYMPY) (EVar 0) :: map (PLeaf (KVar SSYMPY)) (map EVar (seq 1 n')))
      with (map (PLeaf (KVar SSYMPY)) (symbols_x (S n'))).
    rewrite leaves_symbols. cbn [option_bind snd]. unfold f_smt_terms. rewrite Uu, Hf. cbn [unpack forallb].
    assert (Ul : unpack (bm_unpack_v m) (symbols_x (S n')) = true).
    { destruct Uv as [-> | ->]; [reflexivity|]. cbn [unpack]. unfold symbols_x. rewrite map_length, seq_length. apply Nat.eqb_refl. }
    rewrite Ul. cbn [andb]. now rewrite Ef. }
  assert (Nf : f <> []).
  { intros ->. apply all_some_length' in Ef. rewrite map_length in Ef. now destruct (bm_smt m). }
  unfold linearise. rewrite Hn.
  assert (C : check_zero sp m n = true).
  { unfold check_zero. rewrite G. apply forallb_forall. intros t Ht.
    apply In_nth with (d := ENum 0) in Ht. destruct Ht as (i & Hi & <-).
    assert (Li : (i < List.length (bm_smt m))%nat) by (apply all_some_length' in Ef; rewrite map_length in Ef; lia).
    assert (Ut := all_some_nth _ _ _ (UNum 0) (ENum 0) i Ef Li). set (t := nth i f (ENum 0)) in *.
    assert (Pt : polynomial_term n t) by (apply Pf, nth_In; exact Hi).
    rewrite <- Ei in Ut. destruct (uterm_joint m n _ t Ut) as (V & _).
    assert (P1 := polynomial_term_subs n t Pt). assert (P2 := Hp 0%nat _ P1). assert (P3 := polynomial_term_subs0 (fun i => (n <=? i)%nat) _ P2).
    destruct (Hc _ P3) as (q & Eq). rewrite Eq. cbn [is_zero]. apply Qeq_bool_iff, eqR_Qeq. rewrite Q2R_zero.
    change (Q2R q) with (eval (joint n (zeros n) []) (ENum q)). rewrite <- Eq.
    set (s := joint n (zeros n) []) in *. destruct (Hk _ s (polynomial_term_defined 0 _ s P3)) as [_ ->]. rewrite subs0_eval.
    set (s' := zeroed (fun i => (n <=? i)%nat) s). destruct (Hk _ s' (polynomial_term_defined 0 _ s' P1)) as [_ ->]. rewrite subs0_eval.
    transitivity (eval s t); [|unfold s; rewrite V; apply He, nth_In; exact Li].
    assert (Ez : forall i, zeroed (fun i => (i <? n)%nat) s' i = s i).
    { intros k. unfold zeroed, s', s, joint, zeroed. destruct (Nat.ltb_spec k n) as [L|L].
      - now rewrite nth_zeros.
      - rewrite (proj2 (Nat.leb_le n k)) by exact L. now destruct (k - n)%nat. }
    clear -Ez. induction t as [q|k|g a IH|g a IHa b IHb|a IH k|c IHc a IHa b IHb]; cbn [eval]; auto; try congruence. now rewrite IHc, IHa, IHb. }
  rewrite C. unfold linearise_with, get_jacobian. rewrite G. destruct f as [|f0 f']; [easy|]. set (f := f0 :: f') in *. cbn [option_bind].
  destruct (all_some_exists (fun row => all_some (map (fun e => as_float (sp (subs0 (fun i => (i <? n)%nat) e))) row)) (fun _ => True)
    (map (fun fi => map (fun j => sp (diff j fi)) (seq 0 n)) f)) as (r & Er & _); [|now exists r].
  intros row Hrow. apply in_map_iff in Hrow. destruct Hrow as (fi & <- & Hfi).
  destruct (all_some_exists (fun e => as_float (sp (subs0 (fun i => (i <? n)%nat) e))) (fun _ => True) (map (fun j => sp (diff j fi)) (seq 0 n))) as (r & Er & _);
    [|now exists r].
  intros e Hin. apply in_map_iff in Hin. destruct Hin as (j & <- & _).
  assert (P1 := Hp n _ (polynomial_term_diff n j fi (Pf fi Hfi))). destruct (Hc _ (polynomial_term_subs n _ P1)) as (q & ->). cbn. now eexists.
Qed.
