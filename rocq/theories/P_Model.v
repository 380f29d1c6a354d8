(** C66: a model written in Python is the same system in the simulation and in every solver. *)
From Coq Require Import String Reals QArith Qreals List Bool Arith Lia Lra.
From Verif Require Import M_Syntax M_Activations M_Network M_Control M_Recorder M_Model S_Model M_Benchmarks L_Activations P_Activations.
Import ListNotations.
Local Open Scope string_scope.
Local Open Scope R_scope.

(** ** Numbers *)
Lemma torch_fn_value name : In name plain -> exists f, torch_fn name = Some f /\ forall x, f x = function name x.
Proof.
  intros H. cbn in H. repeat (destruct H as [<-|H]; [eexists; split; [reflexivity|intros x; cbn; try reflexivity]|]).
  - unfold torch_sigmoid, Rdiv. now rewrite Rmult_1_l.
  - destruct H.
Qed.
Lemma uval_value n k fs x u e : List.length x = n -> List.length u = k -> evaluable n k fs e ->
  exists r, uval x u e = Some r /\ item_value r = value x u e /\ (depends e = true -> r = Tensor (value x u e)).
Proof.
  intros Hx Hu. induction e as [q|i|j|a IH|a IHa b IHb|a IHa b IHb|a IHa b IHb|a IHa b IHb|a IH p|name a IH]; cbn [evaluable uval depends value]; intros H.
  - eexists. repeat split. discriminate.
  - rewrite (nth_error_nth' x 0) by lia. eexists. repeat split.
  - rewrite (nth_error_nth' u 0) by lia. eexists. repeat split.
  - destruct (IH H) as (r & -> & V & D). eexists. split; [reflexivity|]. destruct r; cbn in *; rewrite V; split; auto.
    intros K. specialize (D K). discriminate.
  - destruct H as [H1 H2]. destruct (IHa H1) as (r1 & -> & V1 & D1), (IHb H2) as (r2 & -> & V2 & D2). eexists. split; [reflexivity|].
    destruct r1, r2; cbn in *; rewrite V1, V2; split; auto. intros K. apply orb_true_iff in K. destruct K as [K|K]; [specialize (D1 K)|specialize (D2 K)]; discriminate.
  - destruct H as [H1 H2]. destruct (IHa H1) as (r1 & -> & V1 & D1), (IHb H2) as (r2 & -> & V2 & D2). eexists. split; [reflexivity|].
    destruct r1, r2; cbn in *; rewrite V1, V2; split; auto. intros K. apply orb_true_iff in K. destruct K as [K|K]; [specialize (D1 K)|specialize (D2 K)]; discriminate.
  - destruct H as [H1 H2]. destruct (IHa H1) as (r1 & -> & V1 & D1), (IHb H2) as (r2 & -> & V2 & D2). eexists. split; [reflexivity|].
    destruct r1, r2; cbn in *; rewrite V1, V2; split; auto. intros K. apply orb_true_iff in K. destruct K as [K|K]; [specialize (D1 K)|specialize (D2 K)]; discriminate.
  - destruct H as [H1 H2]. destruct (IHa H1) as (r1 & -> & V1 & D1), (IHb H2) as (r2 & -> & V2 & D2). eexists. split; [reflexivity|].
    destruct r1, r2; cbn in *; rewrite V1, V2; split; auto. intros K. apply orb_true_iff in K. destruct K as [K|K]; [specialize (D1 K)|specialize (D2 K)]; discriminate.
  - destruct (IH H) as (r & -> & V & D). eexists. split; [reflexivity|]. destruct r; cbn in *; rewrite V; split; auto.
    intros K. specialize (D K). discriminate.
  - destruct H as (_ & Hn & Hd & H). destruct (IH H) as (r & -> & V & D). destruct (torch_fn_value name Hn) as (f & -> & Hf).
    rewrite (D Hd). cbn. eexists. split; [reflexivity|]. cbn. now rewrite Hf.
Qed.
Lemma all_some_of {A B} (f : A -> option B) g l : (forall a, In a l -> f a = Some (g a)) -> all_some (map f l) = Some (map g l).
Proof.
  induction l as [|a l IH]; intros H; [reflexivity|]. cbn [map all_some]. rewrite (H a) by now left. rewrite IH; [reflexivity|].
  intros b Hb. apply H. now right.
Qed.
Lemma stack_rows {A} (g : A -> uexpr -> R) (ps : list A) (es : list uexpr) :
  stack_T (List.length ps) (map (fun e => map (fun p => g p e) ps) es) = map (fun p => map (g p) es) ps.
Proof.
  unfold stack_T. destruct ps as [|p0 ps']; [reflexivity|]. set (ps := p0 :: ps').
  apply nth_ext with (d := []) (d' := []); [now rewrite !map_length, seq_length|]. rewrite map_length, seq_length. intros i Hi.
  rewrite nth_indep with (d' := (fun i => map (fun col => nth i col 0) (map (fun e => map (fun p => g p e) ps) es)) 0%nat) by (rewrite map_length, seq_length; exact Hi).
  rewrite (map_nth (fun i => map (fun col => nth i col 0) (map (fun e => map (fun p => g p e) ps) es))), seq_nth by exact Hi. cbn [Nat.add].
  rewrite nth_indep with (d' := (fun p => map (g p) es) p0) by (rewrite map_length; exact Hi). rewrite (map_nth (fun p => map (g p) es)).
  rewrite map_map. apply map_ext. intros e.
  rewrite nth_indep with (d' := (fun p => g p e) p0) by (rewrite map_length; exact Hi). apply (map_nth (fun p => g p e)).
Qed.
Lemma rows_value m n k points : written_twice m n k ->
  Forall (fun p => List.length (fst p) = n /\ List.length (snd p) = k) points ->
  f_torch_rows m points = Some (map (fun p => map (value (fst p) (snd p)) (bm_smt m)) points).
Proof.
  intros (E & Ne & He & _) Hp. unfold f_torch_rows, columns. rewrite E.
  rewrite (all_some_of _ (fun e => map (fun p => value (fst p) (snd p) e) points)).
  - cbn [option_map]. rewrite (stack_rows (fun p e => value (fst p) (snd p) e)). destruct (bm_smt m); [contradiction|reflexivity].
  - intros e Hin. destruct (He e Hin) as [Hd Hv]. apply all_some_of. intros [x u] Hxu. rewrite Forall_forall in Hp. destruct (Hp _ Hxu) as [Hx Hu].
    destruct (uval_value n k _ x u e Hx Hu Hv) as (r & -> & _ & D). rewrite (D Hd). reflexivity.
Qed.
Lemma combine_widths {A B} (P : A -> Prop) (Q : B -> Prop) l : forall l', Forall P l -> Forall Q l' ->
  Forall (fun p => P (fst p) /\ Q (snd p)) (combine l l').
Proof.
  induction l as [|a l IH]; intros [|b l'] H1 H2; cbn; constructor; apply Forall_cons_iff in H1, H2; [now split|now apply IH].
Qed.

(** ** Terms *)
Lemma fncs_value b name : (exists f, fncs b name = Some f) <-> In name (offers b).
Proof.
  split.
  - intros [f H]. unfold fncs in H.
    destruct b; cbn [offers]; repeat (let E := fresh "E" in destruct (String.eqb name _) eqn:E in H;
      [apply String.eqb_eq in E; subst name; cbn; tauto|]); discriminate.
  - intros H. destruct b; cbn in H; repeat (destruct H as [<-|H]; [eexists; reflexivity|]); destruct H.
Qed.
Lemma fncs_eval b name f s e : fncs b name = Some f -> eval s (f e) = function name (eval s e).
Proof.
  intros H. assert (K : In name (offers b)) by (apply fncs_value; eauto).
  destruct b; cbn in K; repeat (destruct K as [<-|K]; [injection H as <-; cbn [eval unop_eval binop_eval]; unfold function; cbn|]);
    try destruct K; rewrite ?RMicromega.Q2R_1, ?RMicromega.Q2R_0; try reflexivity.
  all: try (unfold Rmax; destruct (Rlt_dec 0 (eval s e)), (Rle_dec (eval s e) 0); lra).
  symmetry. apply tanh_exp.
Qed.
Lemma uterm_value b n k fs x u e : List.length x = n -> List.length u = k -> evaluable n k fs e -> incl fs (offers b) ->
  exists t, uterm b x u e = Some t /\ forall s, eval s t = value (map (eval s) x) (map (eval s) u) e.
Proof.
  intros Hx Hu. induction e as [q|i|j|a IH|a IHa c IHb|a IHa c IHb|a IHa c IHb|a IHa c IHb|a IH p|name a IH]; cbn [evaluable uterm value]; intros H Hf.
  - eexists. split; [reflexivity|]. reflexivity.
  - rewrite (nth_error_nth' x (ENum 0)) by lia. eexists. split; [reflexivity|]. intros s.
    rewrite nth_indep with (d' := eval s (ENum 0)) by (rewrite map_length; lia). now rewrite map_nth.
  - rewrite (nth_error_nth' u (ENum 0)) by lia. eexists. split; [reflexivity|]. intros s.
    rewrite nth_indep with (d' := eval s (ENum 0)) by (rewrite map_length; lia). now rewrite map_nth.
  - destruct (IH H Hf) as (r & -> & V). eexists. split; [reflexivity|]. intros s. cbn. now rewrite V.
  - destruct H as [H1 H2]. destruct (IHa H1 Hf) as (r1 & -> & V1), (IHb H2 Hf) as (r2 & -> & V2). eexists. split; [reflexivity|]. intros s. cbn. now rewrite V1, V2.
  - destruct H as [H1 H2]. destruct (IHa H1 Hf) as (r1 & -> & V1), (IHb H2 Hf) as (r2 & -> & V2). eexists. split; [reflexivity|]. intros s. cbn. now rewrite V1, V2.
  - destruct H as [H1 H2]. destruct (IHa H1 Hf) as (r1 & -> & V1), (IHb H2 Hf) as (r2 & -> & V2). eexists. split; [reflexivity|]. intros s. cbn. now rewrite V1, V2.
  - destruct H as [H1 H2]. destruct (IHa H1 Hf) as (r1 & -> & V1), (IHb H2 Hf) as (r2 & -> & V2). eexists. split; [reflexivity|]. intros s. cbn. now rewrite V1, V2.
  - destruct (IH H Hf) as (r & -> & V). eexists. split; [reflexivity|]. intros s. cbn. now rewrite V.
  - destruct H as (Hn & _ & _ & H). destruct (IH H Hf) as (r & -> & V). destruct (proj2 (fncs_value b name) (Hf _ Hn)) as [f Ef]. rewrite Ef.
    eexists. split; [reflexivity|]. intros s. rewrite (fncs_eval b name f s r Ef), V. reflexivity.
Qed.
Lemma terms_value b m n k x u : written_twice m n k -> List.length x = n -> List.length u = k -> incl (bm_functions m) (offers b) ->
  exists ts, f_smt_terms m (Some b) x u = Some ts /\ forall s, map (eval s) ts = map (value (map (eval s) x) (map (eval s) u)) (bm_smt m).
Proof.
  intros (_ & _ & He & Uv & Uu & _) Hx Hu Hf. unfold f_smt_terms.
  assert (U1 : unpack (bm_unpack_v m) x = true) by (destruct Uv as [->| ->]; cbn; [reflexivity|now apply Nat.eqb_eq]).
  assert (U2 : unpack (bm_unpack_u m) u = true) by (destruct Uu as [->| ->]; cbn; [reflexivity|now apply Nat.eqb_eq]).
  rewrite U1, U2. cbn [andb].
  assert (U3 : forallb (fun name => match fncs b name with Some _ => true | None => false end) (bm_functions m) = true).
  { apply forallb_forall. intros name Hn. destruct (proj2 (fncs_value b name) (Hf _ Hn)) as [f ->]. reflexivity. }
  rewrite U3. clear U1 U2 U3 Uv Uu. induction (bm_smt m) as [|e es IH]; [exists []; split; reflexivity|].
  destruct (uterm_value b n k _ x u e Hx Hu (proj2 (He e (or_introl eq_refl))) Hf) as (t & Et & Vt).
  destruct IH as (ts & E & V); [intros a Ha; apply He; now right|].
  cbn [map all_some]. rewrite Et, E. eexists. split; [reflexivity|]. intros s. cbn [map]. now rewrite Vt, V.
Qed.

Lemma symb_eqb_eq a b : symb_eqb a b = true <-> a = b.
Proof. destruct a, b; cbn; split; congruence. Qed.
(** The call by the kind of the first element. *)
Fixpoint first_kind (o : pyobj) : option kind :=
  match o with PLeaf k _ => Some k | PList (o :: _) => first_kind o | _ => None end.
Lemma contains_first : forall o b, contains_object o b =
  match first_kind o with None => None | Some (KVar c) => Some (symb_eqb c b) | Some KOther => Some false end.
Proof.
  fix IH 1. intros [[c|] e|[|o l]|] b; cbn [contains_object first_kind]; try reflexivity. apply IH.
Qed.
Lemma call_first m st o u :
  call m st (AObject o) u =
    match first_kind o with
    | None => (st, Raises)
    | Some KOther => (st, ReturnsNone)
    | Some (KVar b) => match terms_of u with Some us => symbolic_case m b o us | None => (Some b, Raises) end
    end.
Proof.
  unfold call. rewrite !contains_first. destruct (first_kind o) as [[[]|]|]; cbn [symb_eqb]; reflexivity.
Qed.

Lemma closed_first m c st o :
  call_closed m c st (AObject o) =
    match first_kind o with
    | None => (st, Raises)
    | Some KOther => (st, ReturnsNone)
    | Some (KVar b) =>
        match option_bind (leaves o) (to_symbolic b c) with
        | None => ((Some b, snd st), Raises)
        | Some us => let (s, r) := call m (snd st) (AObject o) (InputTerms us) in ((Some b, s), r)
        end
    end.
Proof.
  unfold call_closed. rewrite !contains_first. destruct (first_kind o) as [[[]|]|]; cbn [symb_eqb]; reflexivity.
Qed.

(** * C66 *)
(** A user's model: one field, simulated row by row, and the same in every solver that offers the
    functions it looks up. *)
Theorem C66_one_field : forall m n k, written_twice m n k ->
  exists F, (forall x u, F x u = map (value x u) (bm_smt m)) /\
    simulates m n k F /\ forall b, incl (bm_functions m) (offers b) -> is_in_solver m n k F b.
Proof.
  intros m n k W. exists (fun x u => map (value x u) (bm_smt m)). split; [reflexivity|]. split.
  - intros st rows us Hr Hu L. cbn [call snd].
    assert (E : option_bind (points_of rows (if bm_control m then InputRows us else NoInputs)) (f_torch_rows m) = option_bind (Some (combine rows us)) (f_torch_rows m)).
    { destruct (bm_control m) eqn:C; cbn [points_of]; [now rewrite L, Nat.eqb_refl|].
      destruct W as (_ & _ & _ & _ & _ & K). destruct (K C) as [-> _]. cbn [option_bind]. f_equal.
      clear -Hu L. revert us Hu L. induction rows as [|x rows IH]; intros [|u us] Hu L; try discriminate; [reflexivity|].
      apply Forall_cons_iff in Hu. destruct Hu as [Hu0 Hu]. destruct u; [|discriminate]. cbn. f_equal. apply IH; [exact Hu|]. now injection L. }
    rewrite E. cbn [option_bind]. rewrite (rows_value m n k _ W) by exact (combine_widths (fun x : list R => List.length x = n) (fun u : list R => List.length u = k) _ _ Hr Hu). reflexivity.
  - intros b Hf st first rest us Hx Hu. rewrite call_first. cbn [first_kind].
    assert (Lv : leaves (PList (PLeaf (KVar b) first :: map (PLeaf KOther) rest)) = Some (first :: rest)).
    { cbn. replace (all_some _) with (Some rest); [reflexivity|]. clear. induction rest as [|a l IH]; [reflexivity|]. cbn. now rewrite <- IH. }
    assert (E : terms_of (if bm_control m then InputTerms us else NoInputs) = Some us).
    { destruct (bm_control m) eqn:C; [reflexivity|]. destruct W as (_ & _ & _ & _ & _ & K). destruct (K C) as [-> _]. now destruct us. }
    rewrite E. unfold symbolic_case. rewrite Lv. cbn [option_bind snd].
    destruct (terms_value b m n k (first :: rest) us W Hx Hu Hf) as (ts & -> & V). exists ts. split; [reflexivity|exact V].
Qed.
(** A function that the solver does not offer is a KeyError. *)
Theorem C66_missing_function : forall m b st o u, first_kind o = Some (KVar b) -> ~ incl (bm_functions m) (offers b) ->
  snd (call m st (AObject o) u) = Raises.
Proof.
  intros m b st o u K H. rewrite call_first, K. destruct (terms_of u) as [us|]; [|reflexivity]. unfold symbolic_case. cbn [snd].
  destruct (leaves o) as [x|]; [|reflexivity]. cbn [option_bind]. unfold f_smt_terms. destruct (_ && _); [|reflexivity].
  destruct (forallb _ _) eqn:E; [|reflexivity]. exfalso. apply H. intros name Hn. rewrite forallb_forall in E. specialize (E name Hn).
  apply fncs_value. destruct (fncs b name) as [f|]; [eauto|discriminate].
Qed.

(** Whatever was called before, on whatever arguments, and however it ended, a call gives the same result
    as on a new model. *)
Theorem C66_history : forall m (ops : list operation) st v u,
  snd (call m (fold_left (operate m) ops st) v u) = snd (call m None v u).
Proof.
  intros m ops st [rows| |o] u; try reflexivity. rewrite !call_first.
  destruct (first_kind o) as [[b|]|]; try reflexivity. 
Qed.
Theorem C66_history_closed : forall m c (ops : list operation) st v,
  snd (call_closed m c (fold_left (operate_closed m c) ops st) v) = snd (call_closed m c (None, None) v).
Proof.
  intros m c ops st v. set (st' := fold_left _ _ _). destruct v as [rows| |o]; try reflexivity.
  unfold call_closed. rewrite !contains_first. destruct (first_kind o) as [[[]|]|] eqn:K; cbn [symb_eqb]; try reflexivity.
  all: destruct (option_bind _ _) as [us|]; [|reflexivity]; cbn [snd]; rewrite !call_first, K; reflexivity.
Qed.
(** An argument that starts with anything but a variable (a dReal expression, a number) gives None and no
    exception. *)
Theorem C66_silent_none : forall m st o u, first_kind o = Some KOther -> snd (call m st (AObject o) u) = ReturnsNone.
Proof. intros m st o u H. now rewrite call_first, H. Qed.

(** ** The closed loop *)
Theorem C66_closed_loop : forall m c n k, written_twice m n k -> bm_control m = true ->
  (* simulated with the controller's outputs *)
  (forall st rows, Forall (fun x => List.length x = n) rows -> Forall (fun x => List.length (ctrl_forward c x) = k) rows ->
    snd (call_closed m c st (ATensor rows)) = Rows (map (fun x => map (value x (ctrl_forward c x)) (bm_smt m)) rows)) /\
  (* in the solver with the symbolic controller *)
  (forall st b first rest us, List.length (first :: rest) = n -> incl (bm_functions m) (offers b) ->
    to_symbolic b c (first :: rest) = Some us -> List.length us = k ->
    exists ts, snd (call_closed m c st (AObject (PList (PLeaf (KVar b) first :: map (PLeaf KOther) rest)))) = Terms ts /\
      forall s, map (eval s) ts = map (value (map (eval s) (first :: rest)) (map (eval s) us)) (bm_smt m)).
Proof.
  intros m c n k W C. destruct (C66_one_field m n k W) as (F & HF & Hsim & Hsol). split.
  - intros st rows Hr Hk. cbn [call_closed]. specialize (Hsim (snd st) rows (map (ctrl_forward c) rows) Hr). rewrite C in Hsim.
    assert (E : Forall (fun u => List.length u = k) (map (ctrl_forward c) rows)) by (apply Forall_map; exact Hk).
    specialize (Hsim E (map_length _ _)). destruct (call m (snd st) _ _) as [s r]. cbn [snd] in *. rewrite Hsim. f_equal.
    clear -HF. induction rows as [|x rows IH]; [reflexivity|]. cbn. now rewrite HF, IH.
  - intros st b first rest us Hx Hf Hu Lu. destruct (Hsol b Hf (snd st) first rest us Hx Lu) as (ts & E & V). rewrite C in E.
    exists ts. split; [|intros s; now rewrite V, HF].
    assert (Lv : leaves (PList (PLeaf (KVar b) first :: map (PLeaf KOther) rest)) = Some (first :: rest)).
    { cbn. replace (all_some _) with (Some rest); [reflexivity|]. clear. induction rest as [|a l IH]; [reflexivity|]. cbn. now rewrite <- IH. }
    rewrite closed_first. cbn [first_kind]. rewrite Lv. cbn [option_bind]. rewrite Hu.
    destruct (call m (snd st) _ _) as [s r]. exact E.
Qed.

(** ** The models that come with the tool *)
Definition uexpr_eq_dec : forall a b : uexpr, {a = b} + {a <> b}.
Proof.
  assert (Qd : forall a b : Q, {a = b} + {a <> b}) by (decide equality; [apply Pos.eq_dec|apply Z.eq_dec]).
  decide equality; try apply Nat.eq_dec; try apply string_dec; apply Qd.
Defined.
Definition mem (x : string) (l : list string) : bool := existsb (String.eqb x) l.
Lemma mem_in x l : mem x l = true <-> In x l.
Proof.
  unfold mem. rewrite existsb_exists. split; [intros (y & H & E); apply String.eqb_eq in E; now subst|].
  intros H. exists x. split; [exact H|apply String.eqb_refl].
Qed.
Fixpoint evaluableb (n k : nat) (fs : list string) (e : uexpr) : bool :=
  match e with
  | UNum _ => true
  | UVar i => i <? n
  | UInput j => j <? k
  | UMinus a | UPow a _ => evaluableb n k fs a
  | UAdd a b | USub a b | UMul a b | UDiv a b => evaluableb n k fs a && evaluableb n k fs b
  | UFn name a => mem name fs && mem name plain && depends a && evaluableb n k fs a
  end%nat.
Lemma evaluableb_ok n k fs e : evaluableb n k fs e = true -> evaluable n k fs e.
Proof.
  induction e; cbn [evaluableb evaluable]; rewrite ?andb_true_iff, ?mem_in, ?Nat.ltb_lt; tauto.
Qed.
Definition unpacks (o : option nat) (n : nat) : bool := match o with None => true | Some m => m =? n end%nat.
Definition written_twiceb (m : benchmark_model) (n k : nat) : bool :=
  (if list_eq_dec uexpr_eq_dec (bm_torch m) (bm_smt m) then true else false) && negb (List.length (bm_smt m) =? 0)%nat &&
  forallb (fun e => depends e && evaluableb n k (bm_functions m) e) (bm_smt m) &&
  unpacks (bm_unpack_v m) n && unpacks (bm_unpack_u m) k &&
  (bm_control m || (k =? 0) && match bm_unpack_u m with None => true | _ => false end)%nat.
Lemma unpacks_ok o n : unpacks o n = true -> o = None \/ o = Some n.
Proof. destruct o as [m|]; cbn; [rewrite Nat.eqb_eq; intros ->|]; auto. Qed.
Lemma written_twiceb_ok m n k : written_twiceb m n k = true -> written_twice m n k.
Proof.
  unfold written_twiceb. rewrite !andb_true_iff, !orb_true_iff, !andb_true_iff. intros (((((H1 & H2) & H3) & H4) & H5) & H6).
  unfold written_twice. destruct (list_eq_dec _ _ _); [|discriminate].
  refine (conj e (conj _ (conj _ (conj (unpacks_ok _ _ H4) (conj (unpacks_ok _ _ H5) _))))).
  - intros E. rewrite E in H2. discriminate.
  - intros a Ha. rewrite forallb_forall in H3. specialize (H3 a Ha). apply andb_true_iff in H3. split; [apply H3|apply evaluableb_ok, H3].
  - intros C. destruct H6 as [H6|[H6 H7]]; [congruence|]. apply Nat.eqb_eq in H6. destruct (bm_unpack_u m); [discriminate|auto].
Qed.
(** The declared dimensions of a model: [n_vars] and, with inputs, [n_u]. *)
Definition declares (m : benchmark_model) (n k : nat) : Prop :=
  bm_n_vars m = Some n /\ if bm_control m then bm_n_u m = Some k else k = 0%nat.
Theorem C66_shipped : forall m n k, In m benchmark_models -> declares m n k ->
  exists F, (forall x u, List.length (F x u) = n) /\ simulates m n k F /\
    forall b, if forallb (fun f => mem f (offers b)) (bm_functions m) then is_in_solver m n k F b
              else forall st o u, first_kind o = Some (KVar b) -> snd (call m st (AObject o) u) = Raises.
Proof.
  intros m n k Hm [Hn Hk].
  assert (W : written_twiceb m n k && (List.length (bm_smt m) =? n)%nat = true).
  { assert (A : forallb (fun m => match bm_n_vars m with
                                  | None => true
                                  | Some n => match (if bm_control m then bm_n_u m else Some 0%nat) with
                                              | None => true
                                              | Some k => written_twiceb m n k && (List.length (bm_smt m) =? n)%nat
                                              end
                                  end) benchmark_models = true) by (vm_compute; reflexivity).
    rewrite forallb_forall in A. specialize (A m Hm). rewrite Hn in A. destruct (bm_control m); [rewrite Hk in A|rewrite <- Hk in A]; exact A. }
  apply andb_true_iff in W. destruct W as [W L]. apply written_twiceb_ok in W. apply Nat.eqb_eq in L.
  destruct (C66_one_field m n k W) as (F & HF & Hsim & Hsol). exists F. split; [intros x u; now rewrite HF, map_length|]. split; [exact Hsim|].
  intros b. destruct (forallb _ (bm_functions m)) eqn:E.
  - apply Hsol. intros f Hf. rewrite forallb_forall in E. apply mem_in. now apply E.
  - intros st o u K. apply (C66_missing_function m b st o u K). intros I. assert (T : forallb (fun f => mem f (offers b)) (bm_functions m) = true); [|congruence].
    apply forallb_forall. intros f Hf. apply mem_in. now apply I.
Qed.
(** All of them declare their dimensions, except BenchmarkDT1 and CtrlCar, which cannot be used in a closed loop. *)
Theorem C66_declared : forall m, In m benchmark_models ->
  (exists n k, declares m n k) \/ ((bm_name m = "BenchmarkDT1" \/ bm_name m = "CtrlCar") /\ can_close m = false).
Proof.
  intros m Hm. cbn [In benchmark_models] in Hm. unfold declares.
  repeat (destruct Hm as [<-|Hm]; [first [left; eexists _, _; split; reflexivity | right; split; [auto|reflexivity]]|]). destruct Hm.
Qed.
(** GeneralClosedLoopModel accepts exactly the models that have both attributes. *)
Theorem C66_closable : forall m,
  can_close m = true <-> (exists n, bm_n_vars m = Some n) /\ exists k, bm_n_u m = Some k.
Proof.
  intros m. unfold can_close. split.
  - destruct (bm_n_vars m), (bm_n_u m); try discriminate. eauto.
  - intros [[n ->] [k ->]]. reflexivity.
Qed.
(** The three classes whose simulation is not their symbolic field. *)
Theorem C66_transposed_refuted :
  (* LinearDiscreteNVars: three states give a result of two rows, and two states a transposed one *)
  (forall a b c d e f, exists r, LinearDiscreteNVars_torch 2 [[a; b]; [c; d]; [e; f]] = Some r /\ List.length r = 2%nat) /\
  (forall a b c d, LinearDiscreteNVars_torch 2 [[a; b]; [c; d]] = Some [[Q2R (1 # 2) * a; Q2R (1 # 2) * c]; [Q2R (1 # 2) * b; Q2R (1 # 2) * d]]) /\
  (forall x y, exists t, LinearDiscreteNVars_smt [x; y] = Some t /\
     forall s, map (eval s) t = [Q2R (1 # 2) * eval s x; Q2R (1 # 2) * eval s y]).
Proof.
  split; [|split].
  - intros. eexists. split; reflexivity.
  - reflexivity.
  - intros. eexists. split; reflexivity.
Qed.
Theorem C66_satellite_raises : forall mu points, points <> [] ->
  Forall (fun p => List.length (fst p) = LinearSatellite_n_vars) points -> LinearSatellite_torch mu points = None.
Proof.
  intros mu [|[x u] ps] H F; [contradiction|]. apply Forall_cons_iff in F. destruct F as [L _]. cbn [fst] in L.
  unfold LinearSatellite_torch. cbn [map all_some].
  assert (E : all_some (map (nth_error x) (seq 0 6)) = None).
  { destruct x as [|a [|b [|c [|d [|e [|f x]]]]]]; try discriminate L. reflexivity. }
  rewrite E. reflexivity.
Qed.
(** ** Euler's method *)
Theorem C66_euler : forall m n k F b h, written_twice m n k -> simulates m n k F -> is_in_solver m n k F b ->
  (forall x u, List.length x = n -> List.length (F x u) = n) ->
  forall fncs rows us first rest ins,
    Forall (fun x => List.length x = n) rows -> Forall (fun u => List.length u = k) us -> List.length us = List.length rows ->
    List.length (first :: rest) = n -> List.length ins = k ->
    exists out ts,
      snd (call m fncs (ATensor rows) (if bm_control m then InputRows us else NoInputs)) = Rows out /\
      snd (call m fncs (AObject (PList (PLeaf (KVar b) first :: map (PLeaf KOther) rest))) (if bm_control m then InputTerms ins else NoInputs)) = Terms ts /\
      forall i s, (i < List.length rows)%nat -> map (eval s) (first :: rest) = nth i rows [] -> map (eval s) ins = nth i us [] ->
        nth i (euler_rows (Q2R h) rows out) [] = map (eval s) (euler_terms h (first :: rest) ts).
Proof.
  intros m n k F b h W Hsim Hsol HF fncs rows us first rest ins Hr Hu L Hx Hi.
  destruct (Hsol fncs first rest ins Hx Hi) as (ts & E & V).
  eexists _, ts. split; [apply (Hsim fncs rows us Hr Hu L)|]. split; [exact E|]. clear E Hsim Hsol.
  intros i s Hlt Ex Eu. set (X := first :: rest) in *. unfold euler_rows, euler_terms. rewrite map_map.
  set (g := fun p : list R * list R => map (fun '(a, b0) => a + Q2R h * b0) (combine (fst p) (F (fst p) (snd p)))).
  transitivity (g (nth i rows [], nth i us [])).
  - clear -Hlt L. revert us i Hlt L. induction rows as [|x rows IH]; cbn; intros us i Hlt L; [lia|].
    destruct us as [|u us]; [discriminate|]. cbn [combine map]. destruct i as [|i]; [reflexivity|]. cbn [nth]. apply IH; cbn in *; lia.
  - unfold g. cbn [fst snd]. rewrite <- Ex, <- Eu, <- V. clear.
    revert ts. induction X as [|a X IH]; intros [|t ts]; try reflexivity. cbn [map combine]. rewrite IH. reflexivity.
Qed.
(** The "LQR" classes are their open loops with the feedback u = -Kx. *)
Definition minus_K (K x : list R) : R := - fold_right Rplus 0 (map (fun '(k, y) => k * y) (combine K x)).
Theorem C66_lqr : forall x y z,
  map (value [x; y] []) (bm_smt Linear1LQR) = map (value [x; y] [minus_K [Q2R (414 # 1000); Q2R (1352 # 1000)] [x; y]]) (bm_smt Linear1) /\
  map (value [x; y] []) (bm_smt SecondOrderLQR) = map (value [x; y] [minus_K [1; Q2R (173 # 100)] [x; y]]) (bm_smt SecondOrder) /\
  map (value [x; y; z] []) (bm_smt ThirdOrderLQR) = map (value [x; y; z] [minus_K [Q2R (2371 # 100); Q2R (1849 # 100); 0] [x; y; z]]) (bm_smt ThirdOrder) /\
  map (value [x; y] []) (bm_smt SineModelLQR) =
    map (value [x; y] [minus_K [Q2R (721 # 100); Q2R (134 # 100)] [x; y]; minus_K [Q2R (134 # 100); Q2R (33 # 100)] [x; y]]) (bm_smt SineModel).
Proof.
  intros x y z. unfold minus_K. cbn [combine fold_right map]. repeat split; cbn [map bm_smt Linear1LQR Linear1 SecondOrderLQR SecondOrder ThirdOrderLQR ThirdOrder SineModelLQR SineModel value nth];
    repeat match goal with |- _ :: _ = _ :: _ => apply f_equal2 end; try reflexivity; unfold Q2R; cbn [Qnum Qden]; field.
Qed.

(** A run of calls: dReal, a text (which raises), z3 (no sin: raises), a batch, then cvc5. *)
Definition dreal_vars : pyobj := PList [PLeaf (KVar SDREAL) (EVar 0); PLeaf (KVar SDREAL) (EVar 1)].
Definition z3_vars : pyobj := PList [PLeaf (KVar SZ3) (EVar 0); PLeaf (KVar SZ3) (EVar 1)].
Definition cvc5_vars : pyobj := PList [PLeaf (KVar SCVC5) (EVar 0); PLeaf (KVar SCVC5) (EVar 1)].
Example C66_example :
  let ops := [Call (AObject dreal_vars) NoInputs; Call (AObject PText) NoInputs; Call (AObject z3_vars) NoInputs; Call (ATensor [[1; 2]]) NoInputs] in
  written_twice Barr2 2 0 /\
  snd (call Barr2 None (AObject dreal_vars) NoInputs) = Terms [EUn UExp (- EVar 0) + EVar 1 - ENum 1; - (EPow (EUn USin (EVar 0)) 2)]%E /\
  snd (call Barr2 None (AObject z3_vars) NoInputs) = Raises /\
  fold_left (operate Barr2) ops None = Some SZ3 /\
  snd (call Barr2 (fold_left (operate Barr2) ops None) (AObject cvc5_vars) NoInputs) = Terms [EUn UExp (- EVar 0) + EVar 1 - ENum 1; - (EPow (EUn USin (EVar 0)) 2)]%E /\
  snd (call Barr2 None (ATensor [[0; 2]; [0; 5]]) NoInputs) = Rows [map (value [0; 2] []) (bm_smt Barr2); map (value [0; 5] []) (bm_smt Barr2)] /\
  snd (call Barr2 None (AObject (PList [PLeaf KOther (EVar 0 + ENum 1)%E; PLeaf (KVar SDREAL) (EVar 1)])) NoInputs) = ReturnsNone.
Proof.
  cbv zeta. assert (W : written_twice Barr2 2 0) by (apply written_twiceb_ok; vm_compute; reflexivity).
  split; [exact W|]. do 4 (split; [reflexivity|]). split; [|reflexivity].
  destruct (C66_one_field Barr2 2 0 W) as (F & HF & Hs & _).
  refine (eq_trans (Hs None [[0; 2]; [0; 5]] [[]; []] _ _ eq_refl) _); [repeat constructor|repeat constructor|].
  cbn [combine map fst snd]. now rewrite !HF.
Qed.
