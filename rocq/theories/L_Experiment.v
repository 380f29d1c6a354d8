(** Lemmas for C72: the search a script starts. *)
From Coquelicot Require Import Coquelicot.
From Coq Require Import String Reals QArith Qreals Bool Arith ZArith Lra Lia List.
From Verif Require M_Recorder.
From Verif Require Import M_Syntax M_Certificates M_Verifier M_BetaSearch M_Activations M_Domains M_Network M_Learner M_Cegis M_Labels M_Fossil M_Double
  M_Control M_Parser M_Cli M_Config M_Model M_Benchmarks M_Experiment S_Verifier S_Activations S_Network S_Learner S_Cegis S_Fossil S_Double S_Dynamics S_Certificates S_Success S_Domains
  S_Control S_Model S_Experiment L_Verifier P_Cli L_Fossil P_BetaSearch P_Certificates P_Safety P_Stability P_Cegis P_Labels P_Domains P_Translator P_Control P_Fossil P_Double P_Model
  L_Config L_Session P_Config P_ConfigDouble.
Import ListNotations.
Local Open Scope list_scope.
Local Open Scope R_scope.

(** ** Checks by computation *)
Definition outputs_of (e : script) : nat := match x_ctrl e with None => 0%nat | Some (sizes, _) => List.last sizes 0%nat end.
Definition closes (e : script) : bool := match x_ctrl e with None => false | Some _ => true end.
Fixpoint distinct (l : list label) : bool :=
  match l with [] => true | x :: l => negb (existsb (label_eqb x) l) && distinct l end.
Lemma distinct_ok l : distinct l = true -> NoDup l.
Proof.
  induction l as [|x l IH]; cbn; intros H; constructor; apply andb_true_iff in H; destruct H as [H1 H2]; auto.
  intros I. apply negb_true_iff in H1. assert (existsb (label_eqb x) l = true) by (apply existsb_exists; exists x; split; [exact I|now apply label_eqb_spec]). congruence.
Qed.
Definition sel_fitsb (n k : nat) (sel : dimsel) : bool :=
  match sel with
  | Some (i :: l) => (List.length (i :: l) =? k)%nat && forallb (fun i => i <? n)%nat (i :: l)
  | _ => (k =? n)%nat
  end.
Fixpoint fitsb (n : nat) (S : fset) : bool :=
  match S with
  | Rect lb ub | OpenRect lb ub => (List.length lb =? n)%nat && (List.length ub =? n)%nat
  | Sph c _ sel | OpenSph c _ sel => sel_fitsb n (List.length c) sel
  | Ell a c _ sel => (List.length a =? List.length c)%nat && sel_fitsb n (List.length c) sel
  | OrthSph c _ => (List.length c =? n)%nat
  | Tor c _ _ sel => sel_fitsb n (List.length c) sel
  | Bean _ _ _ => (n =? 2)%nat
  | EmptyS => true
  | RealsS m => (m =? n)%nat
  | UnionS s1 s2 | InterS s1 s2 | MinusS s1 s2 => fitsb n s1 && fitsb n s2
  | ComplS s => fitsb n s
  end.
Lemma sel_fitsb_ok n k sel : sel_fitsb n k sel = true -> sel_fits n k sel.
Proof.
  destruct sel as [[|i l]|]; unfold sel_fitsb, sel_fits; try apply Nat.eqb_eq.
  rewrite andb_true_iff, Nat.eqb_eq, forallb_forall, Forall_forall. intros [-> H]. split; [reflexivity|].
  intros j J. now apply Nat.ltb_lt, H.
Qed.
Lemma fitsb_ok n S : fitsb n S = true -> fits n S.
Proof.
  induction S; cbn [fitsb fits]; rewrite ?andb_true_iff, ?Nat.eqb_eq; intuition auto using sel_fitsb_ok.
Qed.
Definition xfitsb (n : nat) (X : xset) : bool := match X with Shipped D => fitsb n D | Written _ => true end.
Definition plain_act (a : act_type) : bool := match a with RELU | RELU_SQUARE | REQU => false | _ => true end.
Definition fine (e : script) : bool :=
  match x_system e, library_of (x_verifier e) with
  | Some m, Some (_, b) =>
      written_twiceb m (x_n e) (outputs_of e) && (List.length (bm_smt m) =? x_n e)%nat && Bool.eqb (bm_control m) (closes e) &&
      forallb (fun f => mem f (offers b)) (bm_functions m) && negb (symb_eqb b SCVC5) && negb (symb_eqb b SSYMPY) &&
      negb (x_n e =? 0)%nat && distinct (map fst (x_domains e)) && forallb (fun p => xfitsb (x_n e) (snd p)) (x_domains e) &&
      forallb plain_act (x_acts e) && forallb plain_act (x_acts_alt e) &&
      match x_ctrl e with None => true | Some (sizes, names) => (List.length sizes =? Datatypes.S (List.length names))%nat end
  | _, _ => false
  end.

(** ** Networks *)
Lemma script_network_facts rand sizes names b n net : script_network rand sizes names b n = Some net ->
  wf_net net /\ in_size net = n /\ (forallb plain_act names = true -> smooth_net net) /\
  (b = false -> forallb (fun a => match activation_fcn a with Some a => zero_at_zero a | None => true end) names = true -> zero_preserving net).
Proof.
  intros E. unfold script_network in E. apply bind_some in E. destruct E as (acts & Ga & E).
  destruct (List.length acts =? List.length sizes)%nat eqn:L; [|discriminate].
  apply Nat.eqb_eq in L. cbn [negb] in E. injection E as <-. cbn [in_size].
  pose proof (activations_ok _ _ Ga) as Fo. apply map_opt_Forall2 in Ga. repeat split.
  - exists (List.last sizes n). cbn [in_size hidden last]. split; [apply linears_wf; [lia|assumption]|]. apply linear_wf.
  - intros Av. unfold smooth_net. cbn [hidden]. apply Forall_forall. intros [l a] H. apply in_combine_r in H.
    destruct (Forall2_in_r _ _ _ _ Ga H) as (t & Ht & Et). cbn [snd]. intros ->.
    rewrite forallb_forall in Av. specialize (Av t Ht). destruct t; cbn in Et, Av; discriminate.
  - cbn [hidden]. apply Forall_forall. intros [l a] Hin. cbn [fst snd]. split.
    + apply in_combine_l in Hin. subst b.
      pose proof (linears_bias rand sizes 0 n) as F; rewrite Forall_forall in F; now apply F.
    + apply in_combine_r in Hin. destruct (Forall2_in_r _ _ _ _ Ga Hin) as (t & Ht & Et).
      rewrite forallb_forall in H0. specialize (H0 t Ht). now rewrite Et in H0.
  - subst b. reflexivity.
Qed.

(** ** Sets *)
Lemma xformulas_lookup n sym : forall fs l x, xformulas n sym = Some fs -> dlookup l sym = Some x ->
  xformula n x = Some (lookup_set fs l).
Proof.
  unfold lookup_set, xformulas, dlookup. induction sym as [|[k y] sym IH]; cbn; intros fs l x E H; [discriminate|].
  destruct (xformula n y) as [f|] eqn:Ef; cbn in E; [|discriminate].
  apply bind_some in E. destruct E as (r & Er & E). injection E as <-. cbn [find fst].
  destruct (label_eqb k l); cbn in H |- *; [congruence|]. now apply IH.
Qed.
Lemma dlookup_nodup {A} l (x : A) d : NoDup (map fst d) -> In (l, x) d -> dlookup l d = Some x.
Proof.
  unfold dlookup. induction d as [|[k y] d IH]; cbn; intros N I; [destruct I|].
  inversion N as [|? ? N1 N2]; subst. destruct (label_eqb k l) eqn:E.
  - apply label_eqb_spec in E. subst k. destruct I as [I|I]; [injection I as ->; reflexivity|].
    elim N1. now apply (in_map fst) in I.
  - destruct I as [I|I]; [injection I as -> ->; rewrite (proj2 (label_eqb_spec l l) eq_refl) in E; discriminate|]. now apply IH.
Qed.

(** ** The system *)
Lemma leaves_vars b (xs : list expr) : leaves (PList (map (PLeaf (KVar b)) xs)) = Some xs.
Proof. cbn [leaves]. rewrite map_map. induction xs as [|x xs IH]; [reflexivity|]. cbn. now rewrite IH. Qed.
Lemma eval_vars n s : map (eval s) (new_vars n) = map s (seq 0 n).
Proof. unfold new_vars. rewrite map_map. reflexivity. Qed.
Lemma script_xdot_field e m lib b k xdot :
  fine e = true -> x_system e = Some m -> library_of (x_verifier e) = Some (lib, b) ->
  (x_ctrl e <> None -> wf_controller (x_n e) (outputs_of e) k) ->
  script_xdot m (closes e) b (x_n e) k = Some xdot ->
  List.length xdot = x_n e /\ forall s j, (j < x_n e)%nat -> field xdot s j = script_field e k s j.
Proof.
  intros F Em El Hk Hx. unfold fine in F. rewrite Em, El, !andb_true_iff in F.
  destruct F as (((((((((((W & L) & C) & O) & _) & _) & N0) & _) & _) & _) & _) & _).
  apply written_twiceb_ok in W. apply Nat.eqb_eq in L. apply Bool.eqb_prop in C. apply negb_true_iff, Nat.eqb_neq in N0.
  assert (O' : incl (bm_functions m) (offers b)) by (intros f I; rewrite forallb_forall in O; now apply mem_in, O).
  assert (Fk : forall xs : list expr, xs <> [] -> first_kind (PList (map (PLeaf (KVar b)) xs)) = Some (KVar b)) by (intros [|x xs] Hn; [congruence|reflexivity]).
  assert (Nv : new_vars (x_n e) <> []) by (unfold new_vars; destruct (x_n e); [lia|discriminate]).
  assert (T : forall us, List.length us = outputs_of e ->
    exists ts, symbolic_case m b (PList (map (PLeaf (KVar b)) (new_vars (x_n e)))) us = (Some b, Terms ts) /\
      forall s, map (eval s) ts = map (value (map s (seq 0 (x_n e))) (map (eval s) us)) (bm_smt m)).
  { intros us Hu. destruct (P_Model.terms_value b m (x_n e) (outputs_of e) (new_vars (x_n e)) us W (new_vars_length _) Hu O') as (ts & Et & V).
    exists ts. unfold symbolic_case. rewrite leaves_vars. cbn [option_bind]. rewrite Et. split; [reflexivity|].
    intros s. now rewrite V, eval_vars. }
  assert (Q : forall law ts, (forall s, map (eval s) ts = map (value (map s (seq 0 (x_n e))) (law s)) (bm_smt m)) -> (forall s, law s = script_law e k s) ->
    List.length ts = x_n e /\ forall s j, (j < x_n e)%nat -> field ts s j = script_field e k s j).
  { intros law ts V Hl. split.
    - specialize (V (fun _ => 0)). apply (f_equal (@List.length R)) in V. rewrite !map_length in V. congruence.
    - intros s j J. unfold field, script_field. rewrite Em.
      assert (Lt : List.length ts = x_n e) by (specialize (V s); apply (f_equal (@List.length R)) in V; rewrite !map_length in V; congruence).
      transitivity (nth j (map (eval s) ts) 0).
      + rewrite (nth_indep _ 0 (eval s (ENum 0))) by (rewrite map_length; lia). now rewrite map_nth.
      + rewrite V, Hl. rewrite (nth_indep _ 0 (value (map s (seq 0 (x_n e))) (script_law e k s) (UNum 0))) by (rewrite map_length; lia).
        now rewrite map_nth. }
  unfold script_xdot in Hx. unfold closes in *. destruct (x_ctrl e) as [[sizes names]|] eqn:Ec.
  - specialize (Hk ltac:(discriminate)). rewrite closed_first, (Fk _ Nv), leaves_vars in Hx. cbn [option_bind] in Hx.
    destruct (to_symbolic b k (new_vars (x_n e))) as [us|] eqn:Es; [|discriminate].
    destruct (to_symbolic_value b _ _ k us Hk Es) as [Lu Vu].
    rewrite call_first, (Fk _ Nv) in Hx. cbn [terms_of] in Hx.
    destruct (T us Lu) as (ts & Et & V). rewrite Et in Hx. cbn [snd] in Hx. injection Hx as <-.
    apply (Q (fun s => map (eval s) us) ts V). intros s. unfold script_law. rewrite Ec.
    unfold outputs_of in Lu, Vu. rewrite Ec in Lu, Vu. rewrite <- Lu in *.
    apply (nth_ext _ _ 0 0); [now rewrite !map_length, seq_length|].
    intros j J. rewrite map_length in J.
    rewrite (nth_indep _ 0 (eval s (ENum 0))) by (rewrite map_length; lia). rewrite map_nth, Vu by lia.
    rewrite (nth_indep _ 0 (feedback (x_n e) (rounded k) s 0)) by (rewrite map_length, seq_length; lia).
    rewrite map_nth, seq_nth by lia. reflexivity.
  - rewrite call_first, (Fk _ Nv) in Hx. cbn [terms_of] in Hx.
    destruct (T []) as (ts & Et & V); [unfold outputs_of; now rewrite Ec|]. rewrite Et in Hx. cbn [snd] in Hx. injection Hx as <-.
    apply (Q (fun _ => []) ts V). intros s. unfold script_law. now rewrite Ec.
Qed.
Lemma script_controller_wf randc e ctrl : fine e = true -> script_controller randc e = Some ctrl -> x_ctrl e <> None ->
  wf_controller (x_n e) (outputs_of e) ctrl.
Proof.
  intros F E Hc. unfold fine in F. destruct (x_system e) as [m|]; [|discriminate]. destruct (library_of (x_verifier e)) as [[lib b]|]; [|discriminate].
  rewrite !andb_true_iff in F. destruct F as [_ F]. unfold script_controller, outputs_of in *.
  destruct (x_ctrl e) as [[sizes names]|]; [|congruence]. apply Nat.eqb_eq in F.
  destruct (List.length sizes <=? 1)%nat; [discriminate|]. apply map_some in E. destruct E as (acts & Ea & ->).
  destruct (@exists_last _ sizes) as (hs & o & ->); [intros ->; discriminate|]. rewrite last_last.
  rewrite app_length in F. cbn [List.length] in F.
  pose proof (activations_ok _ _ Ea) as Fa. apply map_opt_Forall2, Forall2_len in Ea.
  exists (linears randc 0 (x_n e) hs false), (linear (randc (List.length hs)) (List.last hs (x_n e)) o false),
    (List.last hs (x_n e)). cbn [k_layers k_acts].
  rewrite linears_snoc, Nat.add_0_l. split; [reflexivity|]. rewrite linears_length. split; [lia|].
  split; [apply Forall_app; split; [apply linears_bias|repeat constructor]|].
  split; [apply linears_wf; [lia|auto]|]. apply linear_wf.
Qed.

Section Script.
  Context (rand randc : nat -> nat -> nat -> Q) (e : script) (pb : problem controller) (net : network) (ctrl : controller).
  Hypothesis Hf : fine e = true.
  Hypothesis Hs : script_session rand randc e = Some (pb, net, ctrl).

  Lemma script_parts : exists m lib b sym fs,
    x_system e = Some m /\ library_of (x_verifier e) = Some (lib, b) /\
    initialise_domains (x_type e) (x_domains e) = Some sym /\ xformulas (x_n e) sym = Some fs /\
    script_net rand e = Some net /\ script_controller randc e = Some ctrl /\
    pb_type pb = x_type e /\ pb_n pb = x_n e /\ pb_llo pb = x_llo e /\ pb_quad pb = false /\
    pb_discrete pb = (match x_time e with DISCRETE => true | CONTINUOUS => false end) /\
    pb_symb pb = b /\ pb_sets pb = lookup_set fs /\ pb_xdot pb = script_xdot m (closes e) b (x_n e) /\
    pb_f pb = script_torch m (closes e).
  Proof.
    pose proof Hs as H. unfold script_session in H. apply bind_some in H. destruct H as (pb' & Hp & H).
    apply bind_some in H. destruct H as (net' & Hn & H). apply map_some in H. destruct H as (c' & Hc & E). injection E as -> -> ->.
    unfold script_problem in Hp. apply bind_some in Hp. destruct Hp as (m & Em & Hp). apply bind_some in Hp. destruct Hp as ([lib b] & El & Hp).
    match type of Hp with (if ?c then _ else _) = _ => destruct c; [discriminate|] end.
    match type of Hp with (if ?c then _ else _) = _ => destruct c; [discriminate|] end.
    apply bind_some in Hp. destruct Hp as (fs & Efs & Hp). apply bind_some in Efs. destruct Efs as (sym & Esym & Efs).
    injection Hp as <-. exists m, lib, b, sym, fs. cbn. repeat (split; [solve [auto]|]). auto.
  Qed.
  Lemma fine_parts : exists m lib b, x_system e = Some m /\ library_of (x_verifier e) = Some (lib, b) /\ b <> SCVC5 /\ b <> SSYMPY /\
    NoDup (map fst (x_domains e)) /\ (forall l X, In (l, X) (x_domains e) -> xfitsb (x_n e) X = true) /\
    forallb plain_act (x_acts e) = true /\ forallb plain_act (x_acts_alt e) = true.
  Proof.
    pose proof Hf as F. unfold fine in F. destruct (x_system e) as [m|]; [|discriminate]. destruct (library_of (x_verifier e)) as [[lib b]|]; [|discriminate].
    rewrite !andb_true_iff in F. destruct F as (((((((((((W & L) & C) & O) & B1) & B2) & N0) & D) & X) & A) & A2) & _).
    exists m, lib, b. split; [reflexivity|]. split; [reflexivity|].
    split; [intros ->; discriminate|]. split; [intros ->; discriminate|]. split; [now apply distinct_ok|].
    split; [|auto]. intros l Y I. rewrite forallb_forall in X. exact (X _ I).
  Qed.
  Lemma script_symb : pb_symb pb <> SCVC5 /\ pb_symb pb <> SSYMPY.
  Proof.
    destruct script_parts as (m & lib & b & sym & fs & _ & El & _ & _ & _ & _ & _ & _ & _ & _ & _ & Eb & _).
    destruct fine_parts as (m' & lib' & b' & _ & El' & B1 & B2 & _). rewrite El in El'. injection El' as <- <-. rewrite Eb. auto.
  Qed.
  Lemma script_smooth : smooth_net net /\ wf_net net /\ in_size net = x_n e.
  Proof.
    destruct script_parts as (m & lib & b & sym & fs & _ & _ & _ & _ & En & _).
    destruct fine_parts as (_ & _ & _ & _ & _ & _ & _ & _ & _ & A & _).
    destruct (script_network_facts _ _ _ _ _ _ En) as (W & I & Sm & _). auto.
  Qed.
  Lemma script_dynamics k xdot : (x_ctrl e <> None -> wf_controller (x_n e) (outputs_of e) k) -> pb_xdot pb k = Some xdot ->
    List.length xdot = x_n e /\ forall s j, (j < x_n e)%nat -> field xdot s j = script_field e k s j.
  Proof.
    intros Hk Hx. destruct script_parts as (m & lib & b & sym & fs & Em & El & _ & _ & _ & _ & _ & _ & _ & _ & _ & _ & _ & Ex & _).
    rewrite Ex in Hx. eapply script_xdot_field; eauto.
  Qed.
  Lemma script_xdot_length k xdot : pb_xdot pb k = Some xdot -> List.length xdot = x_n e.
  Proof.
    intros Hx. destruct script_parts as (m & lib & b & sym & fs & Em & El & _ & _ & _ & _ & _ & _ & _ & _ & _ & _ & _ & Ex & _).
    rewrite Ex in Hx. unfold script_xdot in Hx.
    pose proof Hf as F. unfold fine in F. rewrite Em, El, !andb_true_iff in F.
    destruct F as (((((((((((W & L) & _) & _) & _) & _) & N0) & _) & _) & _) & _) & _). apply Nat.eqb_eq in L.
    assert (T : forall us ts, snd (symbolic_case m b (PList (map (PLeaf (KVar b)) (new_vars (x_n e)))) us) = Terms ts -> List.length ts = x_n e).
    { intros us ts. unfold symbolic_case. rewrite leaves_vars. cbn [option_bind snd]. unfold f_smt_terms.
      destruct (_ && _); [|discriminate]. destruct (forallb _ _); [|discriminate].
      destruct (M_Recorder.all_some _) as [l|] eqn:A; [|discriminate]. intros [= <-].
      assert (Q : forall (l : list (option expr)) r, M_Recorder.all_some l = Some r -> List.length r = List.length l).
      { clear. induction l as [|[x|] l IH]; cbn; intros r E; try discriminate; [now injection E as <-|].
        destruct (M_Recorder.all_some l) as [r'|]; cbn in E; [|discriminate]. injection E as <-. cbn. now rewrite (IH r'). }
      apply Q in A. now rewrite A, map_length. }
    assert (C : forall st u ts, snd (call m st (AObject (PList (map (PLeaf (KVar b)) (new_vars (x_n e))))) u) = Terms ts -> List.length ts = x_n e).
    { intros st u ts. rewrite call_first. destruct (first_kind _) as [[b'|]|] eqn:K; try discriminate.
      assert (b' = b) as -> by (unfold new_vars in K; destruct (x_n e); cbn in K; congruence).
      destruct (terms_of u) as [us|]; [apply T|discriminate]. }
    destruct (closes e).
    - rewrite closed_first in Hx. destruct (first_kind _) as [[b'|]|] eqn:K; try discriminate.
      destruct (option_bind _ _) as [us|]; [|discriminate].
      destruct (call m _ _ (InputTerms us)) as [st o] eqn:Eo. cbn [snd] in Hx. destruct o; try discriminate. injection Hx as <-.
      eapply (C None (InputTerms us)). cbn [snd] in Eo. now rewrite Eo.
    - destruct (snd (call m None _ NoInputs)) as [| | |ts] eqn:Eo; try discriminate. injection Hx as <-. eapply C, Eo.
  Qed.
  Lemma script_posed : well_posed pb net.
  Proof.
    destruct script_smooth as (_ & W & I). destruct script_parts as (m & lib & b & sym & fs & _ & _ & _ & _ & _ & _ & _ & En & _).
    repeat split; [exact W|congruence|]. intros k xdot H. rewrite En. eapply script_xdot_length, H.
  Qed.

  (** Sets. *)
  Lemma script_symbol l X : In (l, X) (x_domains e) -> (x_type e = RAR -> l <> XNF) ->
    xformula (x_n e) (if is_border l then SBoundary X else SDomain X) = Some (pb_sets pb l).
  Proof.
    intros I Hr. destruct script_parts as (m & lib & b & sym & fs & _ & _ & Ei & Ef & _ & _ & _ & _ & _ & _ & _ & _ & -> & _).
    destruct fine_parts as (_ & _ & _ & _ & _ & _ & _ & N & _).
    apply (xformulas_lookup _ _ _ _ _ Ef). pose proof (dlookup_symbols l (x_domains e)) as K.
    rewrite (dlookup_nodup l X _ N I) in K. cbn [option_map] in K. unfold initialise_domains in Ei.
    destruct (x_type e); try (injection Ei as <-; exact K).
    apply bind_some in Ei. destruct Ei as (d & _ & Ei). injection Ei as <-. rewrite dlookup_dset.
    destruct (label_eqb XNF l) eqn:Q; [apply label_eqb_spec in Q; symmetry in Q; now elim Hr|exact K].
  Qed.
  Lemma script_given l X : In (l, X) (x_domains e) ->
    forall s, given_set e l s <-> match X with Shipped D => member (x_n e) D s | Written g => holds s (g (new_vars (x_n e))) end.
  Proof.
    intros I s. destruct fine_parts as (_ & _ & _ & _ & _ & _ & _ & N & _). split.
    - intros (Y & J & H). apply (dlookup_nodup _ _ _ N) in I, J. rewrite I in J. injection J as <-. exact H.
    - intros H. exists X. auto.
  Qed.
  Lemma script_set l X : In (l, X) (x_domains e) -> is_border l = false -> (x_type e = RAR -> l <> XNF) ->
    forall s, inside (pb_sets pb) l s <-> given_set e l s.
  Proof.
    intros I B Hr s. pose proof (script_symbol l X I Hr) as E. rewrite B in E.
    destruct fine_parts as (_ & _ & _ & _ & _ & _ & _ & _ & Ft & _). specialize (Ft l X I).
    rewrite (script_given l X I). unfold inside. destruct X as [D|g]; cbn in E; injection E as <-; [|reflexivity].
    apply C27_formula_denotes_set. now apply fitsb_ok.
  Qed.
  Lemma script_border l b D : In (l, Shipped D) (x_domains e) -> In (b, Shipped D) (x_domains e) -> is_border l = false -> is_border b = true ->
    l <> XNF -> b <> XNF -> has_boundary D ->
    fence (x_n e) (inside (pb_sets pb) l) (inside (pb_sets pb) b) /\ generate_boundary D (new_vars (x_n e)) = Some (pb_sets pb b).
  Proof.
    intros I J Hl Hb N1 N2 HB. pose proof (script_symbol l _ I ltac:(auto)) as E. pose proof (script_symbol b _ J ltac:(auto)) as Eb.
    rewrite Hl in E. rewrite Hb in Eb. cbn in E, Eb. injection E as E.
    destruct fine_parts as (_ & _ & _ & _ & _ & _ & _ & _ & Ft & _). specialize (Ft l _ I). cbn in Ft. apply fitsb_ok in Ft.
    split; [|exact Eb]. unfold inside. rewrite <- E. now apply (C30_leaving_crosses_boundary D).
  Qed.
  Lemma script_complement : x_type e = RAR -> (exists X, In (XF, X) (x_domains e)) ->
    forall s, inside (pb_sets pb) XNF s <-> ~ given_set e XF s.
  Proof.
    intros T (X & I) s. destruct script_parts as (m & lib & b & sym & fs & _ & _ & Ei & Ef & _ & _ & _ & _ & _ & _ & _ & _ & -> & _).
    destruct fine_parts as (_ & _ & _ & _ & _ & _ & _ & N & Ft & _). rewrite T in Ei. cbn [initialise_domains] in Ei.
    rewrite (dlookup_nodup _ _ _ N I) in Ei. cbn [option_bind] in Ei. injection Ei as <-.
    assert (K : dlookup XNF (dset XNF (SComplement X) (map (fun e : label * xset => (fst e, if is_border (fst e) then SBoundary (snd e) else SDomain (snd e))) (x_domains e))) = Some (SComplement X))
      by (rewrite dlookup_dset; reflexivity).
    apply (xformulas_lookup _ _ _ _ _ Ef) in K. specialize (Ft XF X I). rewrite (script_given XF X I).
    destruct X as [D|g]; cbn in K; [|discriminate]. injection K as K. unfold inside. rewrite <- K.
    cbn in Ft. apply fitsb_ok in Ft. exact (C27_formula_denotes_set (ComplS D) (x_n e) s Ft).
  Qed.

  (** One function. *)
  Section One.
    Context (env : environment controller) (S : dict) (fuel : nat) (r : result (P := learned controller) (C := expr * expr)).
    Hypothesis Hlaw : lawful pb env.
    Hypothesis Hkeep : keeps_controller env.
    Hypothesis Hhon : honest pb env.
    Hypothesis Hrun : run_fossil pb env fuel net ctrl S = Some (Some r).
    Hypothesis Hres : r_res r = true.
    Lemma script_loop : same_field (x_n e) (closed_loop pb r) (script_field e (l_ctrl (r_learned r))).
    Proof.
      intros s j J. destruct (run_success pb env Hlaw net ctrl S fuel r Hrun Hres Hhon) as (it & V & Vdot & gs & _ & _ & _ & Hd & _).
      unfold closed_loop. apply (script_dynamics _ _) with (2 := Hd); [|exact J]. intros Hc.
      destruct script_parts as (m & lib & b & sym & fs & _ & _ & _ & _ & _ & Ec & _).
      refine (trained_controller (wf_controller (x_n e) (outputs_of e)) pb env net ctrl S fuel r _ _ Hrun Hres).
      - now apply (script_controller_wf randc).
      - intros it0 p S0 Sdot. apply Hkeep.
    Qed.
    Lemma script_loop_cont : (forall j p, (j < x_n e)%nat -> cont_at (x_n e) (fun s => script_field e (l_ctrl (r_learned r)) s j) p) ->
      forall j p, cont_at (x_n e) (fun s => closed_loop pb r s j) p.
    Proof.
      intros H j p. destruct (le_lt_dec (x_n e) j) as [L|L].
      - destruct (run_success pb env Hlaw net ctrl S fuel r Hrun Hres Hhon) as (it & V & Vdot & gs & _ & _ & _ & Hd & _).
        apply script_xdot_length in Hd.
        intros d Hd0. exists 1. split; [lra|]. intros s _. unfold closed_loop, field. rewrite nth_overflow by lia.
        cbn. rewrite Rminus_eq_0, Rabs_R0. exact Hd0.
      - intros d Hd0. destruct (H j p L d Hd0) as (d' & Hd' & K). exists d'. split; [exact Hd'|]. intros s Hs'.
        rewrite !(script_loop _ j L). now apply K.
    Qed.
  End One.

  (** Two functions. *)
  Section Two.
    Context (rand2 : nat -> nat -> nat -> Q) (net2 : network).
    Context (env : environment2 controller) (S : dict) (fuel : nat) (r : result (P := learned2 controller) (C := candidate2)).
    Hypothesis Hn2 : script_net_alt rand2 e = Some net2.
    Hypothesis Hkeep : keeps_controller2 env.
    Hypothesis Hrun : run_double pb env fuel net net2 ctrl S = Some (Some r).
    Hypothesis Hres : r_res r = true.
    Lemma script_posed2 : well_posed2 pb net net2 /\ smooth_net net2.
    Proof.
      pose proof script_posed as W. destruct (script_network_facts _ _ _ _ _ _ Hn2) as (A & B & C & _).
      destruct fine_parts as (_ & _ & _ & _ & _ & _ & _ & _ & _ & _ & P).
      destruct script_parts as (m & lib & b & sym & fs & _ & _ & _ & _ & _ & _ & _ & En & _).
      split; [split; [exact W|split; [exact A|split; [congruence|apply W]]]|now apply C].
    Qed.
    Lemma script_xdot2 : exists xdot, pb_xdot pb (d_ctrl (r_learned r)) = Some xdot.
    Proof.
      pose proof Hrun as Hr. unfold run_double in Hr. destruct (pb_discrete pb); [discriminate|].
      destruct (C32_result_was_verified _ _ _ _ _ _ _ Hr Hres) as (it & VV & cex & _ & _ & E2 & _).
      cbn [c_translate double] in E2. unfold double_translate in E2.
      destruct (pb_xdot pb (d_ctrl (r_learned r))) as [xdot|]; [eauto|discriminate].
    Qed.
    Lemma script_loop2 : same_field (x_n e) (closed_loop2 pb r) (script_field e (d_ctrl (r_learned r))).
    Proof.
      intros s j J. destruct script_xdot2 as (xdot & Ex). unfold closed_loop2, dynamics. rewrite Ex.
      apply (script_dynamics _ _) with (2 := Ex); [|exact J]. intros Hc.
      destruct script_parts as (m & lib & b & sym & fs & _ & _ & _ & _ & _ & Ec & _).
      refine (trained_controller2 (wf_controller (x_n e) (outputs_of e)) pb env net net2 ctrl S fuel r _ _ Hrun Hres).
      - now apply (script_controller_wf randc).
      - intros it0 p S0 Sdot. apply Hkeep.
    Qed.
    Lemma script_loop2_cont : (forall j p, (j < x_n e)%nat -> cont_at (x_n e) (fun s => script_field e (d_ctrl (r_learned r)) s j) p) ->
      forall j p, cont_at (x_n e) (fun s => closed_loop2 pb r s j) p.
    Proof.
      intros H j p. destruct (le_lt_dec (x_n e) j) as [L|L].
      - destruct script_xdot2 as (xdot & Ex). pose proof (script_xdot_length _ _ Ex) as Hd.
        intros d Hd0. exists 1. split; [lra|]. intros s _. unfold closed_loop2, dynamics, field. rewrite Ex, nth_overflow by lia.
        cbn. rewrite Rminus_eq_0, Rabs_R0. exact Hd0.
      - intros d Hd0. destruct (H j p L d Hd0) as (d' & Hd' & K). exists d'. split; [exact Hd'|]. intros s Hs'.
        rewrite !(script_loop2 _ j L). now apply K.
    Qed.
  End Two.
End Script.
