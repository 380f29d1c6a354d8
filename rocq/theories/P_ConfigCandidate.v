(** C61: what an accepted candidate satisfies as it is written, whatever the values of variables which
    are not state variables; and candidates that are refused. *)
From Coquelicot Require Import Coquelicot.
From Coq Require Import String Ascii Reals QArith Qreals Bool Arith ZArith Decimal Lra Lia List.
From Verif Require Import M_Syntax M_Certificates M_Verifier M_BetaSearch M_Activations M_Domains M_Network M_Learner M_Cegis M_Labels M_Fossil
  M_Control M_Parser M_Lexer M_Variables M_DomainParser M_Cli M_Config M_Verify M_ConfigVerify
  S_Verifier S_Activations S_Network S_Learner S_Cegis S_Fossil S_Dynamics S_Certificates S_Success S_Domains
  S_Parser S_Lexer S_Variables S_DomainParser S_Control S_Cli S_Config S_Verify S_ConfigVerify
  L_Domains L_Topology L_Continuity L_Fossil L_Success P_Verifier P_Certificates P_Safety P_Stability P_Parser P_Lexer P_Variables P_Verify P_Cli P_Translator P_Fossil
  L_Config L_Session L_Regions P_Config L_ConfigVerify P_ConfigVerify.
Import ListNotations.
Local Open Scope string_scope.
Local Open Scope list_scope.
Local Open Scope R_scope.

(** ** Variables of dReal *)
Notation dreal_pairs := (assign LibDReal).
Lemma pairs_old l : forall s k d x, In (k, d, x) (fst (dreal_pairs l s)) ->
  (k = VX /\ get s VX d = Some x) \/ exists m, x = Fresh m /\ (p_next s <= m)%nat.
Proof.
  induction l as [|[k0 d0] l IH]; intros s k d x H; [destruct H|]. cbn [assign] in H.
  destruct (make_var_cases LibDReal s k0 d0) as [(-> & y & E & Em)|(_ & Em)]; rewrite Em in H.
  - specialize (IH s k d x). destruct (dreal_pairs l s) as [r s2]. destruct H as [H|H]; [|now apply IH].
    injection H as <- <- <-. auto.
  - set (s1 := set_var s k0 d0 (new_var LibDReal s k0 d0)) in *.
    assert (N1 : p_next s1 = S (p_next s)) by (unfold s1; destruct k0; reflexivity).
    specialize (IH s1 k d x). destruct (dreal_pairs l s1) as [r s2]. destruct H as [H|H].
    + injection H as <- <- <-. right. exists (p_next s). split; [reflexivity|lia].
    + destruct (IH H) as [[-> G]|(m & -> & L)]; [|right; exists m; split; [reflexivity|lia]].
      unfold s1 in G. rewrite get_set in G. destruct (vkind_dec VX k0) as [<-|]; [|auto].
      destruct (uint_eq_dec d d0); [|auto]. injection G as <-. right. exists (p_next s). split; [reflexivity|lia].
Qed.
Lemma pairs_inj l : forall s, Inv LibDReal s -> forall k d k' d' x,
  In (k, d, x) (fst (dreal_pairs l s)) -> In (k', d', x) (fst (dreal_pairs l s)) -> k = k' /\ d = d'.
Proof.
  induction l as [|[k0 d0] l IH]; intros s I k d k' d' x H H'; [destruct H|]. cbn [assign] in H, H'.
  destruct (make_var_cases LibDReal s k0 d0) as [(-> & y & E & Em)|(_ & Em)]; rewrite Em in H, H'.
  - pose proof (pairs_old l s) as O. specialize (IH s I). destruct (dreal_pairs l s) as [r s2]. cbn [fst] in *.
    assert (X : forall k d, In (k, d, y) r -> VX = k /\ d0 = d).
    { intros k1 d1 K. destruct (O _ _ _ K) as [[-> G]|(m & -> & L)]; [now destruct (inv_inj _ _ I _ _ _ _ _ E G)|].
      apply (inv_kind _ _ I) in E. cbn in E. lia. }
    destruct H as [H|H], H' as [H'|H'].
    + split; congruence.
    + injection H as <- <- <-. now apply X.
    + injection H' as <- <- <-. destruct (X _ _ H). auto.
    + eapply IH; eauto.
  - set (s1 := set_var s k0 d0 (new_var LibDReal s k0 d0)) in *.
    assert (N1 : p_next s1 = S (p_next s)) by (unfold s1; destruct k0; reflexivity).
    pose proof (pairs_old l s1) as O. specialize (IH s1 (inv_set LibDReal s k0 d0 I)). fold s1 in IH.
    destruct (dreal_pairs l s1) as [r s2]. cbn [fst new_var] in *.
    assert (X : forall k d, In (k, d, Fresh (p_next s)) r -> k0 = k /\ d0 = d).
    { intros k1 d1 K. destruct (O _ _ _ K) as [[-> G]|(m & Em' & L)]; [|injection Em' as <-; lia].
      unfold s1 in G. rewrite get_set in G. destruct (vkind_dec VX k0) as [<-|].
      - destruct (uint_eq_dec d1 d0) as [-> |]; [auto|]. apply (inv_kind _ _ I) in G. cbn in G. lia.
      - apply (inv_kind _ _ I) in G. cbn in G. lia. }
    destruct H as [H|H], H' as [H'|H'].
    + split; congruence.
    + injection H as <- <- <-. now apply X.
    + injection H' as <- <- <-. destruct (X _ _ H). auto.
    + eapply IH; eauto.
Qed.
Lemma pairs_final l : forall s d x, get (snd (dreal_pairs l s)) VX d = Some x ->
  get s VX d = Some x \/ In (VX, d, x) (fst (dreal_pairs l s)).
Proof.
  induction l as [|[k0 d0] l IH]; intros s d x H; [now left|]. cbn [assign] in H |- *.
  destruct (make_var_cases LibDReal s k0 d0) as [(-> & y & E & Em)|(_ & Em)]; rewrite Em in H |- *.
  - specialize (IH s d x). destruct (dreal_pairs l s) as [r s2]. cbn [fst snd] in *. destruct (IH H); cbn; auto.
  - set (s1 := set_var s k0 d0 (new_var LibDReal s k0 d0)) in *.
    specialize (IH s1 d x). destruct (dreal_pairs l s1) as [r s2]. cbn [fst snd] in *. destruct (IH H) as [G|G]; [|cbn; auto].
    unfold s1 in G. rewrite get_set in G. destruct (vkind_dec VX k0) as [<-|]; [|auto].
    destruct (uint_eq_dec d d0) as [-> |]; [|auto]. injection G as <-. right. now left.
Qed.
Lemma pairs_got l : forall s d x, In (VX, d, x) (fst (dreal_pairs l s)) -> get (snd (dreal_pairs l s)) VX d = Some x.
Proof.
  induction l as [|[k0 d0] l IH]; intros s d x H; [destruct H|]. cbn [assign] in H |- *.
  destruct (make_var_cases LibDReal s k0 d0) as [(-> & y & E & Em)|(_ & Em)]; rewrite Em in H |- *.
  - specialize (IH s d x). pose proof (assign_keep LibDReal l s VX d x) as K. destruct (dreal_pairs l s) as [r s2]. cbn [fst snd] in *.
    destruct H as [H|H]; [|now apply IH]. injection H as <- <-. auto.
  - set (s1 := set_var s k0 d0 (new_var LibDReal s k0 d0)) in *.
    specialize (IH s1 d x). pose proof (assign_keep LibDReal l s1 VX d x) as K. destruct (dreal_pairs l s1) as [r s2]. cbn [fst snd] in *.
    destruct H as [H|H]; [|now apply IH]. injection H as E1 E2 E3. apply K; [|now left]. unfold s1. rewrite get_set. subst k0 d0 x.
    destruct (vkind_dec VX VX) as [_|N]; [|now elim N]. destruct (uint_eq_dec d d) as [_|N]; [reflexivity|now elim N].
Qed.

(** ** The candidate at any values of its variables *)
Section Candidate.
  Context (f1 f2 : nat) (n : nat) (t : tree) (line : string) (e : ast) (C : expr) (i : interp).
  Hypothesis Hi : usual i.
  Hypothesis Hw : written t line.
  Hypothesis Hstd : std Sum t.
  Hypothesis Hm : no_minus_power t.
  Hypothesis Hp : parse_text f1 f2 line = Some e.
  Hypothesis HC : candidate_expr LibDReal (leftover n) e (new_vars n) = Some C.

  Definition of_ident (ps : list (vkind * uint * ident)) (x : ident) : R :=
    match find (fun p => if ident_eq_dec x (snd p) then true else false) ps with
    | Some (k, d, _) => i_var i k d
    | None => 0
    end.
  Lemma of_ident_in ps k d x : (forall k' d', In (k', d', x) ps -> k = k' /\ d = d') -> In (k, d, x) ps -> of_ident ps x = i_var i k d.
  Proof.
    intros H K. unfold of_ident. destruct (find _ ps) as [[[k' d'] x']|] eqn:E.
    - apply find_some in E. destruct E as [E1 E2]. cbn in E2. destruct (ident_eq_dec x x') as [<-|]; [|discriminate].
      now destruct (H _ _ E1) as [<- <-].
    - apply (find_none _ _ E) in K. cbn in K. destruct (ident_eq_dec x x); congruence.
  Qed.
  Lemma candidate_at : exists s, (forall j, (j < n)%nat -> s j = i_var i VX (Nat.to_uint j)) /\ eval s C = value i t.
  Proof.
    destruct (candidate_parts LibDReal n e C HC) as (en & E1 & E2 & _).
    destruct (symbolic_spec LibDReal zeros (fun _ => 0) zeros eq_refl eq_refl e start) as [Es _]. rewrite Es in E1.
    set (ps := fst (dreal_pairs (M_Variables.vars e) start)) in *.
    set (s := fun m => if (m <? n)%nat then i_var i VX (Nat.to_uint m) else of_ident ps (Fresh (m - n))).
    exists s. split; [intros j Hj; unfold s; apply Nat.ltb_lt in Hj; now rewrite Hj|].
    pose proof (term_value LibDReal i s _ Hi _ _ E2) as T.
    destruct (symbolic_spec LibDReal i (fun x => eval s (substitute en (leftover n) x)) i eq_refl eq_refl e start) as [_ V].
    cbv beta in T. rewrite V in T.
    - eapply (C37_characters LibDReal); eauto. discriminate.
    - intros k d x Hx. fold ps in Hx.
      pose proof (pairs_inj (M_Variables.vars e) start (inv_start LibDReal)) as Inj. fold ps in Inj.
      assert (Fr : exists m, x = Fresh m).
      { destruct (pairs_old _ _ _ _ _ Hx) as [[_ G]|(m & -> & _)]; [discriminate G|eauto]. }
      destruct Fr as (m & ->).
      destruct (substitute_member en (leftover n) (Fresh m)) as [H|H].
      + apply (state_in _ _ _ E1) in H. destruct H as (q & H & G).
        unfold new_vars in H. rewrite nth_error_map in H. destruct (nth_error (seq 0 n) q) as [m'|] eqn:Em; [|discriminate]. cbn in H.
        assert (Lq : (q < n)%nat) by (rewrite <- (seq_length n 0); apply nth_error_Some; congruence).
        rewrite (nth_error_nth' _ 0%nat) in Em by (rewrite seq_length; lia). rewrite seq_nth in Em by lia. injection Em as <-.
        injection H as <-. destruct (pairs_final _ _ _ _ G) as [K|K]; [discriminate K|].
        destruct (Inj _ _ _ _ _ Hx K) as [-> ->]. cbn [eval Nat.add]. unfold s. apply Nat.ltb_lt in Lq. now rewrite Lq.
      + assert (N : substitute en (leftover n) (Fresh m) = leftover n (Fresh m)).
        { unfold substitute. destruct (find _ en) as [[x' q]|] eqn:E; [exfalso|reflexivity].
          apply find_some in E. destruct E as [K1 K2]. cbn [fst] in K2. destruct (ident_eq_dec (Fresh m) x') as [<-|]; [|discriminate]. now apply (H q). }
        rewrite N. cbn [leftover eval]. unfold s. destruct (Nat.ltb_spec (n + m) n); [lia|].
        replace (n + m - n)%nat with m by lia. apply of_ident_in; [|exact Hx]. intros k' d' K. eapply Inj; eauto.
  Qed.
End Candidate.

Lemma region_same n g s s' : proper n g -> (forall j, (j < n)%nat -> s' j = s j) -> in_region g s -> in_region g s'.
Proof.
  assert (D : forall c, length c = n -> (forall j, (j < n)%nat -> s' j = s j) -> distance c s' = distance c s).
  { intros c L H. unfold distance. f_equal. apply L_Domains.sum_below_ext. intros j Hj. rewrite H by lia. reflexivity. }
  destruct g as [c r|lo hi|c ro ri]; unfold proper, in_region; intros P H.
  - rewrite D; tauto.
  - intros K j Hj. rewrite H by lia. auto.
  - rewrite D; tauto.
Qed.

Section Accepted.
  Context (numpy : interp) (f1 f2 : nat) (rand randc : nat -> nat -> nat -> Q) (doc : document).
  Context (pb : problem controller) (net : network) (ctrl : controller).
  Context (be : backend) (noise : label -> nat -> nat -> R) (v : verdict) (n : nat) (t : tree).
  Hypothesis Hdoc : NoDup (map fst doc).
  Hypothesis Hs : session_of numpy f1 f2 rand randc doc = Some (pb, net, ctrl).
  Hypothesis Hn : dimension doc n.
  Hypothesis Hcand : candidate doc t.
  Hypothesis Hsolver : forall gs, trustworthy be gs.
  Hypothesis Hver : verify_file numpy f1 f2 rand randc doc be noise = Some v.
  Hypothesis Hfound : v_found v = true.

  Lemma accepted_conditions : exists C Cdot gs, candidate_constraints pb C Cdot = Some gs /\ certified gs /\
    forall i, usual i -> exists s, (forall j, (j < n)%nat -> s j = i_var i VX (Nat.to_uint j)) /\ sem C s = value i t.
  Proof.
    pose proof (session_n _ _ _ _ _ _ _ _ _ Hdoc Hs n Hn) as En.
    pose proof Hver as E. unfold verify_file in E. apply bind_some in E. destruct E as ([lib b] & El & E).
    apply bind_some in El. destruct El as (c & Ec & El). apply bind_some in El. destruct El as (vt & Evt & El).
    apply bind_some in E. destruct E as (e & Ee & E). apply bind_some in Ee. destruct Ee as (line & Et & Ee).
    rewrite Hs in E. cbn [option_bind] in E. destruct (candidate_line doc t line Hdoc Hcand Et) as (W & St & Nm).
    unfold verify_candidate in E. apply bind_some in E. destruct E as (xdot & Ex & E).
    apply bind_some in E. destruct E as (C & EC & E). rewrite En in EC.
    destruct (pb_symb pb) eqn:Sy; try discriminate.
    apply bind_some in E. destruct E as (grad & Eg & E). apply bind_some in E. destruct E as (gs & Egs & E). injection E as <-.
    assert (lib = LibDReal) as ->.
    { destruct (session_parts _ _ _ _ _ _ _ _ _ Hs) as [P].
      pose proof (s_library _ _ _ _ _ _ _ _ _ P) as L1. pose proof (s_read _ _ _ _ _ _ _ _ _ P) as L2. pose proof (s_getv _ _ _ _ _ _ _ _ _ P) as L3.
      rewrite L2 in Ec. injection Ec as <-. rewrite L3 in Evt. injection Evt as <-. rewrite El in L1. rewrite Sy in L1. injection L1 as E1 E2. subst b.
      clear - El. destruct (s_v _ _ _ _ _ _ _ _ _ P); cbn in El; congruence. }
    exists C, (edot grad xdot), gs. split; [exact Egs|]. split; [exists be, noise; auto|].
    intros i Hi. eapply candidate_at; eauto.
  Qed.

  Lemma accepted_lyapunov td gd : asks doc LYAPUNOV td -> (forall y, gives doc "LLO" y -> y = YBool false) -> declares doc n XD gd ->
    forall i s, usual i -> in_region gd s -> ~ origin n s -> (forall j, (j < n)%nat -> i_var i VX (Nat.to_uint j) = s j) ->
      0 < value i t.
  Proof.
    intros Ha Hl Dd i s Hi HD Ho Hv. pose proof (session_n _ _ _ _ _ _ _ _ _ Hdoc Hs n Hn) as En.
    apply (session_type _ _ _ _ _ _ _ _ _ Hdoc Hs) in Ha. destruct Ha as [Ty _].
    pose proof (session_llo _ _ _ _ _ _ _ _ _ Hdoc Hs false Hl ltac:(discriminate)) as El.
    destruct accepted_conditions as (C & Cdot & gs & Ec & Hc & K).
    unfold candidate_constraints, fossil_constraints in Ec. rewrite Ty, El in Ec. injection Ec as <-.
    assert (L : lyapunov_conditions false (pb_n pb) (pb_sets pb) (sem C) (sem Cdot)).
    { apply C06_lyapunov_obligations. apply certified_refuted; [|exact Hc].
      apply (C01_certificate_labels_distinct false (new_vars (pb_n pb)) (pb_sets pb) 0 C C Cdot Cdot). }
    destruct (K i Hi) as (s' & Hs' & <-).
    assert (Same : forall j, (j < n)%nat -> s' j = s j) by (intros j Hj; rewrite Hs' by exact Hj; now apply Hv).
    apply (proj1 (L s' ltac:(
      rewrite <- En in Dd; apply (session_set _ _ _ _ _ _ _ _ _ Hdoc Hs XD gd Dd eq_refl); [congruence|congruence|];
      destruct Dd as (? & ? & _ & _ & _ & _ & P); eapply region_same; [exact P| |exact HD]; rewrite En; exact Same)
      ltac:(rewrite En; intros O; apply Ho; intros j Hj; rewrite <- Same by exact Hj; now apply O))). reflexivity.
  Qed.
  Lemma accepted_barrier td gi gu gd : asks doc BARRIER td \/ asks doc BARRIERALT td ->
    declares doc n XI gi -> declares doc n XU gu -> declares doc n XD gd ->
    forall i s, usual i -> in_region gd s -> (forall j, (j < n)%nat -> i_var i VX (Nat.to_uint j) = s j) ->
      (in_region gi s -> value i t < 0) /\ (in_region gu s -> 0 < value i t).
  Proof.
    intros Ha Di Du Dd i s Hi HD Hv. pose proof (session_n _ _ _ _ _ _ _ _ _ Hdoc Hs n Hn) as En.
    assert (Ty : pb_type pb = BARRIER \/ pb_type pb = BARRIERALT).
    { destruct Ha as [Ha|Ha]; apply (session_type _ _ _ _ _ _ _ _ _ Hdoc Hs) in Ha; tauto. }
    assert (N1 : pb_type pb <> RAR) by (destruct Ty; congruence).
    assert (N2 : forall l, pb_type pb = ROA -> l <> XD) by (intros l E; destruct Ty; congruence).
    destruct accepted_conditions as (C & Cdot & gs & Ec & Hc & K).
    assert (L : (forall s, inside (pb_sets pb) XD s -> inside (pb_sets pb) XI s -> sem C s < 0) /\
                (forall s, inside (pb_sets pb) XD s -> inside (pb_sets pb) XU s -> 0 < sem C s)).
    { unfold candidate_constraints, fossil_constraints in Ec. destruct Ty as [Ty|Ty]; rewrite Ty in Ec; injection Ec as <-.
      - apply certified_barrier in Hc. unfold barrier_conditions in Hc. tauto.
      - apply certified_barrier_alt in Hc. unfold barrier_alt_conditions in Hc. tauto. }
    destruct (K i Hi) as (s' & Hs' & <-).
    assert (Same : forall j, (j < n)%nat -> s' j = s j) by (intros j Hj; rewrite Hs' by exact Hj; now apply Hv).
    assert (X : forall l g, declares doc n l g -> is_border l = false -> (pb_type pb = ROA -> l <> XD) -> in_region g s -> inside (pb_sets pb) l s').
    { intros l g D Hl Hr H. rewrite <- En in D. apply (session_set _ _ _ _ _ _ _ _ _ Hdoc Hs l g D Hl N1 Hr).
      destruct D as (? & ? & _ & _ & _ & _ & P). eapply region_same; [exact P| |exact H]. rewrite En. exact Same. }
    destruct L as [L1 L2]. split; intros H; [apply L1|apply L2]; eauto.
  Qed.
End Accepted.

(** * C61: an accepted candidate satisfies the conditions as it is written; a variable that is not one of the
    state variables, such as an input, may have any value. *)
Theorem C61_candidate_positive :
  forall (numpy : interp) (f1 f2 : nat) (rand randc : nat -> nat -> nat -> Q) (doc : document)
    (pb : problem controller) (net : network) (ctrl : controller) (be : backend) noise v (n : nat) (t : tree),
    NoDup (map fst doc) -> session_of numpy f1 f2 rand randc doc = Some (pb, net, ctrl) ->
    dimension doc n -> candidate doc t -> (forall gs, trustworthy be gs) ->
    verify_file numpy f1 f2 rand randc doc be noise = Some v -> v_found v = true ->
    forall time gd, asks doc LYAPUNOV time -> (forall y, gives doc "LLO" y -> y = YBool false) -> declares doc n XD gd ->
    forall (i : interp) (s : state), usual i -> in_region gd s -> ~ origin n s ->
      (forall j, (j < n)%nat -> i_var i VX (Nat.to_uint j) = s j) -> 0 < value i t.
Proof.
  intros numpy f1 f2 rand randc doc pb net ctrl be noise v n t H1 H2 H3 H4 H5 H6 H7.
  exact (accepted_lyapunov numpy f1 f2 rand randc doc pb net ctrl be noise v n t H1 H2 H3 H4 H5 H6 H7).
Qed.
Theorem C61_candidate_separates :
  forall (numpy : interp) (f1 f2 : nat) (rand randc : nat -> nat -> nat -> Q) (doc : document)
    (pb : problem controller) (net : network) (ctrl : controller) (be : backend) noise v (n : nat) (t : tree),
    NoDup (map fst doc) -> session_of numpy f1 f2 rand randc doc = Some (pb, net, ctrl) ->
    dimension doc n -> candidate doc t -> (forall gs, trustworthy be gs) ->
    verify_file numpy f1 f2 rand randc doc be noise = Some v -> v_found v = true ->
    forall time gi gu gd, asks doc BARRIER time \/ asks doc BARRIERALT time ->
    declares doc n XI gi -> declares doc n XU gu -> declares doc n XD gd ->
    forall (i : interp) (s : state), usual i -> in_region gd s -> (forall j, (j < n)%nat -> i_var i VX (Nat.to_uint j) = s j) ->
      (in_region gi s -> value i t < 0) /\ (in_region gu s -> 0 < value i t).
Proof.
  intros numpy f1 f2 rand randc doc pb net ctrl be noise v n t H1 H2 H3 H4 H5 H6 H7.
  exact (accepted_barrier numpy f1 f2 rand randc doc pb net ctrl be noise v n t H1 H2 H3 H4 H5 H6 H7).
Qed.
(** CANDIDATE is a list of one expression: anything else is refused. *)
Theorem C61_one_candidate :
  forall (numpy : interp) (f1 f2 : nat) (rand randc : nat -> nat -> nat -> Q) (doc : document) (be : backend) noise l,
    NoDup (map fst doc) -> gives doc "CANDIDATE" (YList l) -> (forall line, l <> [YStr line]) ->
    verify_file numpy f1 f2 rand randc doc be noise = None.
Proof.
  intros numpy f1 f2 rand randc doc be noise l N G H. unfold verify_file.
  assert (E : candidate_text doc = None).
  { unfold candidate_text. rewrite (assoc_nodup "CANDIDATE" doc _ N G). cbn [option_bind iterate].
    destruct l as [|y [|z l]]; try reflexivity. destruct y; try reflexivity. now elim (H s). }
  rewrite E. cbn [option_bind]. destruct (option_bind (read_config doc) _) as [[lib b]|]; reflexivity.
Qed.
