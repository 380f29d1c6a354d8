(** C77 and C78 for configuration files without a controller. *)
From Coquelicot Require Import Coquelicot.
From Coq Require Import String Ascii Reals QArith Qreals Bool Arith ZArith Lra Lia List.
From Verif Require Import M_Syntax M_Certificates M_Verifier M_Activations M_Domains M_Network M_Learner M_Cegis M_Labels M_Fossil M_Double
  M_Control M_Parser M_Lexer M_Variables M_DomainParser M_Cli M_Config S_Activations S_Network S_Learner S_Cegis S_Fossil S_Double S_Dynamics S_Domains
  S_Parser S_Lexer S_Variables S_DomainParser S_Control S_Cli S_Config S_Session S_Labels S_Start S_Progress S_Terminates S_ProgressTwo
  P_Parser P_Lexer P_Variables P_Labels P_Cegis P_Translator L_Verifier L_Network L_Config L_Session L_Start P_Session P_Start P_Progress P_Terminates P_ProgressTwo P_TerminatesTwo.
Import ListNotations.
Local Open Scope string_scope.
Local Open Scope list_scope.
Local Open Scope nat_scope.

Lemma point_is_row (x : point) : x = map (state_of x) (seq 0 (length x)).
Proof.
  induction x as [|a x IH]; [reflexivity|]. cbn [length seq map]. f_equal. rewrite <- seq_shift, map_map. exact IH.
Qed.

(** The right-hand side of the session is the system of the file, symbolically and on samples. *)
Lemma session_system doc ty time v n trees rounding iters numpy f1 f2 rand randc pb net ctrl xdot :
  documented doc ty time v n trees None rounding iters -> n <= 10 -> usual numpy ->
  session_of numpy f1 f2 rand randc doc = Some (pb, net, ctrl) -> pb_n pb = n -> pb_xdot pb ctrl = Some xdot -> length xdot = n ->
  without_controller pb xdot /\
    forall s j, j < n -> eval s (nth j xdot (ENum 0)) = system_field numpy n trees (fun _ => []) s j.
Proof.
  intros H L U E En Ex Lx. pose proof (d_fields _ _ _ _ _ _ _ _ _ H) as N.
  assert (Hin : inputs_of doc trees None).
  { pose proof (d_inputs _ _ _ _ _ _ _ _ _ H) as D. inversion D; subst. now constructor. }
  pose proof (d_equations _ _ _ _ _ _ _ _ _ H) as Heq. pose proof (d_dimension _ _ _ _ _ _ _ _ _ H) as Hd.
  assert (Sys : forall s j, j < n -> eval s (nth j xdot (ENum 0)) = system_field numpy n trees (fun _ => []) s j).
  { intros s j Hj. rewrite <- En in Hj |- *.
    exact (session_dynamics numpy f1 f2 rand randc doc pb net ctrl N E trees None numpy U Heq Hin ctrl xdot Ex ltac:(discriminate) s j Hj). }
  split; [|exact Sys].
  destruct (session_parts _ _ _ _ _ _ _ _ _ E) as [P].
  pose proof (proj1 (session_outputs numpy f1 f2 rand randc doc pb net ctrl N E trees None Hin) P) as Ho. destruct P. cbn [L_Session.s_outputs] in Ho. subst s_outputs.
  split; [now rewrite En|]. split; [intros k; rewrite <- Ex, s_xdot; reflexivity|]. split; [intros k k' x; rewrite s_f; reflexivity|].
  intros k x Hx. rewrite En in Hx.
  pose proof (C62_simulation numpy f1 f2 rand randc doc pb net ctrl n trees None xdot N E Hd L Heq Hin Ex k (state_of x) ltac:(discriminate)) as Hf.
  rewrite <- Hx in Hf at 1. rewrite <- (point_is_row x) in Hf. rewrite Hf. cbn [trained_law].
  apply nth_ext with (d := 0%R) (d' := 0%R).
  - rewrite !map_length, seq_length. now symmetry.
  - intros j Hj. rewrite map_length, seq_length in Hj.
    transitivity (system_field numpy n trees (fun _ => []) (state_of x) j).
    + rewrite (nth_indep _ _ (system_field numpy n trees (fun _ => []) (state_of x) 0)) by now rewrite map_length, seq_length.
      etransitivity; [apply (map_nth (fun j => system_field numpy n trees (fun _ => []) (state_of x) j))|]. now rewrite seq_nth.
    + rewrite <- Sys by exact Hj. symmetry.
      rewrite (nth_indep _ 0%R (eval (state_of x) (ENum 0))) by (rewrite map_length; lia). apply map_nth.
Qed.

Lemma document_system doc ty time v n trees rounding iters numpy f1 f2 rand randc pb net ctrl :
  documented doc ty time v n trees None rounding iters -> n <= 10 -> usual numpy ->
  session_of numpy f1 f2 rand randc doc = Some (pb, net, ctrl) -> started ty time v n None rounding iters pb net ctrl ->
  exists xdot, without_controller pb xdot /\
    forall s j, j < n -> eval s (nth j xdot (ENum 0)) = system_field numpy n trees (fun _ => []) s j.
Proof.
  intros H L U E St. destruct (st_xdot _ _ _ _ _ _ _ _ _ _ St ctrl) as (xdot & Ex & Lx); [exact (proj2 (st_ctrl _ _ _ _ _ _ _ _ _ _ St))|].
  exists xdot. now apply (session_system _ _ _ _ _ _ _ _ _ _ _ _ _ _ _ _ _ H L U E (st_n _ _ _ _ _ _ _ _ _ _ St) Ex).
Qed.

(** Nothing raises: with enough passes the loop returns a result. *)
Lemma passes_never_raise {P C} (k : components P C) p S : cex_labels_ok k S ->
  (forall it st, visited k p S it st -> pass_returns k it st) -> forall fuel, solve k fuel p S <> None -> exists r, solve k fuel p S = Some (Some r).
Proof.
  intros Hc Hret fuel Hn. unfold solve in *.
  assert (Hl : forall fuel it st, visited k p S it st -> loop k fuel it st <> Raised).
  { clear fuel Hn. induction fuel as [|fuel IH]; intros it st Hv; simpl; [discriminate|].
    pose proof (pass_iterates k p S it st (Hret it st Hv) Hc Hv) as Hit. destruct (M_Cegis.iterate k it st) as [[[|] st']|] eqn:E; [discriminate| |now elim Hit].
    apply IH. now apply (visited_next k p S it st). }
  specialize (Hl fuel 0 _ (visited_first k p S)).
  destruct (loop k fuel 0 (init_state k p S)) as [| |it st]; [now elim Hn|now elim Hl|]. eauto.
Qed.
Lemma continuous_unless ty time : supported time ty -> ty = STABLESAFE \/ ty = RAR -> time = CONTINUOUS.
Proof. intros T Hty. destruct time; [reflexivity|]. destruct (T eq_refl) as [-> | ->]; destruct Hty; discriminate. Qed.

Section One.
  Context (doc : document) (ty : cert_type) (time : time_domain) (v : verifier_type) (n : nat) (trees : list tree) (rounding iters : Z).
  Hypothesis H : documented doc ty time v n trees None rounding iters.
  Hypothesis Hn : n <= 10.
  Hypothesis Hr : (rounding < 0)%Z.
  Hypothesis Hv : v = VCVC5 -> time = DISCRETE.
  Hypothesis Hq : forall s, gives doc "FACTORS" (YStr s) -> spelled s "QUADRATIC" -> time = CONTINUOUS /\ ty <> STABLESAFE /\ ty <> RAR.

  Context (numpy : interp) (rand randc : nat -> nat -> nat -> Q) (f1 f2 : nat) (pb : problem controller) (net : network) (ctrl : controller).
  Hypothesis U : usual numpy.
  Hypothesis E : session_of numpy f1 f2 rand randc doc = Some (pb, net, ctrl).
  Hypothesis St : started ty time v n None rounding iters pb net ctrl.

  Lemma doc_library : pb_discrete pb = false -> pb_symb pb <> SCVC5.
  Proof.
    rewrite (st_discrete _ _ _ _ _ _ _ _ _ _ St), (st_symb _ _ _ _ _ _ _ _ _ _ St). intros D F.
    assert (Ev : v = VCVC5) by (destruct v; cbn in F; congruence). rewrite (Hv Ev) in D. discriminate.
  Qed.
  Lemma doc_discrete : pb_discrete pb = true -> pb_quad pb = false /\ (pb_type pb = LYAPUNOV \/ pb_type pb = BARRIERALT).
  Proof.
    rewrite (st_discrete _ _ _ _ _ _ _ _ _ _ St), (st_type _ _ _ _ _ _ _ _ _ _ St). intros D. destruct time eqn:Et; try discriminate D. split.
    - apply (session_no_quad numpy f1 f2 rand randc doc pb net ctrl (d_fields _ _ _ _ _ _ _ _ _ H) E). intros s G Sp. destruct (Hq s G Sp) as [F _]. discriminate F.
    - exact (d_time _ _ _ _ _ _ _ _ _ H eq_refl).
  Qed.
  Lemma doc_not_quad : ty = STABLESAFE \/ ty = RAR -> pb_quad pb = false.
  Proof.
    intros Hty. apply (session_no_quad numpy f1 f2 rand randc doc pb net ctrl (d_fields _ _ _ _ _ _ _ _ _ H) E). intros s G Sp.
    destruct (Hq s G Sp) as (_ & A & B). destruct Hty; auto.
  Qed.
  Lemma doc_continuous : ty = STABLESAFE \/ ty = RAR -> pb_discrete pb = false /\ pb_symb pb <> SCVC5.
  Proof.
    intros Hty. assert (D : pb_discrete pb = false).
    { rewrite (st_discrete _ _ _ _ _ _ _ _ _ _ St), (continuous_unless ty time (d_time _ _ _ _ _ _ _ _ _ H) Hty). reflexivity. }
    split; [exact D|now apply doc_library].
  Qed.
End One.

(** * C77: in a run of such a file, a counterexample that has been reported violates a later candidate only in the
    excused cases, when the tolerance of the test left it out, or when training ran out of steps. *)
Theorem C77_document :
  forall doc ty time v n trees rounding iters, documented doc ty time v n trees None rounding iters -> n <= 10 -> (rounding < 0)%Z ->
    (v = VCVC5 -> time = DISCRETE) ->
    (forall s, gives doc "FACTORS" (YStr s) -> spelled s "QUADRATIC" -> time = CONTINUOUS /\ ty <> STABLESAFE /\ ty <> RAR) ->
    exists F, forall numpy rand randc f1 f2, usual numpy -> F <= f1 -> F <= f2 -> exists pb net ctrl xdot,
      session_of numpy f1 f2 rand randc doc = Some (pb, net, ctrl) /\
      (forall s j, j < n -> eval s (nth j xdot (ENum 0)) = system_field numpy n trees (fun _ => []) s j) /\
      forall env S, lawful pb env -> sampled ty S -> NoDup (keys S) -> tests pb env -> (ty <> LYAPUNOV -> ty <> ROA -> rows XI S <> []) ->
        forall j it st p c l x, reported pb env (initial pb net ctrl) S j l x -> j < it -> trained pb env (initial pb net ctrl) S it st p c ->
          length x = n -> softplus_ok (l_net p) (state_of x) ->
          (time = DISCRETE -> softplus_ok (l_net p) (state_of (map (eval (state_of x)) xdot))) ->
          violates pb p c l x ->
          excused pb (l_beta p) l (state_of x) (eval (state_of x) (fst c)) (eval (state_of x) (snd c)) \/
          left_out pb (l_net p) (st_S st) l x (map (eval (state_of x)) xdot) \/ exhausted pb env it st p.
Proof.
  intros doc ty time v n trees rounding iters H Hn Hr Hv Hq. destruct (documented_started _ _ _ _ _ _ _ _ _ H) as (F & G).
  exists F. intros numpy rand randc f1 f2 U L1 L2. destruct (G numpy rand randc f1 f2 L1 L2) as (pb & net & ctrl & E & St).
  destruct (document_system _ _ _ _ _ _ _ _ _ _ _ _ _ _ _ _ H Hn U E St) as (xdot & Sys & Fld).
  exists pb, net, ctrl, xdot. split; [exact E|]. split; [exact Fld|]. intros env S Hl HS Hk Ht Hx j it st p c l x Hrep Hlt Htr Lx S1 S2 Hviol.
  destruct (st_net _ _ _ _ _ _ _ _ _ _ St) as (Wn & In & _).
  apply (C77_counterexamples_respected _ pb env xdot net ctrl S j it st p c l x); auto; rewrite ?(st_n _ _ _ _ _ _ _ _ _ _ St), ?(st_rounding _ _ _ _ _ _ _ _ _ _ St); auto.
  - eapply doc_library; eassumption.
  - eapply doc_discrete; eassumption.
  - now rewrite (st_type _ _ _ _ _ _ _ _ _ _ St).
  - now rewrite (st_type _ _ _ _ _ _ _ _ _ _ St).
  - intros D. apply S2. rewrite (st_discrete _ _ _ _ _ _ _ _ _ _ St) in D. destruct time; [discriminate D|reflexivity].
Qed.

(** * C78: a run of such a file returns after at most one iteration more than there are points in the pool, and
    with a certificate unless CEGIS_MAX_ITERS is smaller. *)
Theorem C78_document :
  forall doc ty time v n trees rounding iters, documented doc ty time v n trees None rounding iters -> n <= 10 -> (rounding < 0)%Z ->
    (v = VCVC5 -> time = DISCRETE) ->
    (forall s, gives doc "FACTORS" (YStr s) -> spelled s "QUADRATIC" -> time = CONTINUOUS /\ ty <> STABLESAFE /\ ty <> RAR) ->
    ty <> STABLESAFE -> ty <> RAR -> ty <> RSWS ->
    exists F, forall numpy rand randc f1 f2, usual numpy -> F <= f1 -> F <= f2 -> exists pb net ctrl xdot,
      session_of numpy f1 f2 rand randc doc = Some (pb, net, ctrl) /\
      (forall s j, j < n -> eval s (nth j xdot (ENum 0)) = system_field numpy n trees (fun _ => []) s j) /\
      forall env S pool, lawful pb env -> keeps_controller n None ctrl env -> environment_returns env -> sampled ty S -> NoDup (keys S) -> tests pb env ->
        answers_from pb env (initial pb net ctrl) S pool -> trains pb env (initial pb net ctrl) xdot S pool ->
        exists r, run_fossil pb env (length pool + 1) net ctrl S = Some (Some r) /\ r_iters r <= length pool + 1 /\
          ((iters < 0 \/ Z.of_nat (length pool) <= iters)%Z -> r_res r = true).
Proof.
  intros doc ty time v n trees rounding iters H Hn Hr Hv Hq N1 N2 N3. destruct (documented_started _ _ _ _ _ _ _ _ _ H) as (F & G).
  exists F. intros numpy rand randc f1 f2 U L1 L2. destruct (G numpy rand randc f1 f2 L1 L2) as (pb & net & ctrl & E & St).
  destruct (document_system _ _ _ _ _ _ _ _ _ _ _ _ _ _ _ _ H Hn U E St) as (xdot & Sys & Fld).
  exists pb, net, ctrl, xdot. split; [exact E|]. split; [exact Fld|]. intros env S pool Hl Hkc Hret HS Hk Ht Ha Htr.
  destruct (st_net _ _ _ _ _ _ _ _ _ _ St) as (Wn & In & _).
  assert (HS' : sampled (pb_type pb) S) by now rewrite (st_type _ _ _ _ _ _ _ _ _ _ St).
  destruct (C78_terminates _ pb env xdot net ctrl S pool Sys Hl Wn) as [T B]; auto;
    rewrite ?(st_n _ _ _ _ _ _ _ _ _ _ St), ?(st_rounding _ _ _ _ _ _ _ _ _ _ St), ?(st_type _ _ _ _ _ _ _ _ _ _ St); auto.
  { eapply doc_library; eassumption. }
  { rewrite <- (st_type _ _ _ _ _ _ _ _ _ _ St). eapply doc_discrete; eassumption. }
  specialize (T (length pool + 1) ltac:(lia)). unfold run_fossil in *.
  destruct (passes_never_raise (fossil pb env) (initial pb net ctrl) S (single_labels _ pb env S HS')) with (fuel := length pool + 1) as (r & Er); auto.
  { intros it st Hvis. apply (single_passes_any _ _ _ _ _ _ _ _ _ _ St env S Hl Hkc it st); auto; try congruence.
    - intros _ Z0. subst rounding. lia.
    - exact (d_type _ _ _ _ _ _ _ _ _ H). }
  exists r. split; [exact Er|]. rewrite <- (st_iters _ _ _ _ _ _ _ _ _ _ St). exact (B _ r Er).
Qed.

(** * The certificates with two functions *)
Theorem C77_document_two :
  forall doc ty time v n trees rounding iters, documented doc ty time v n trees None rounding iters -> n <= 10 -> (rounding < 0)%Z ->
    ty = STABLESAFE \/ ty = RAR -> layers doc v "N_HIDDEN_NEURONS_ALT" "ACTIVATION_ALT" -> v <> VCVC5 ->
    (forall s, gives doc "FACTORS" (YStr s) -> ~ spelled s "QUADRATIC") ->
    exists F, forall numpy rand rand2 randc f1 f2, usual numpy -> F <= f1 -> F <= f2 -> exists pb net net2 ctrl xdot,
      session2_of numpy f1 f2 rand rand2 randc doc = Some (pb, net, net2, ctrl) /\
      (forall s j, j < n -> eval s (nth j xdot (ENum 0)) = system_field numpy n trees (fun _ => []) s j) /\
      forall env S, lawful2 env -> sampled ty S -> in_order ty S -> tests2 pb env -> sized ty S ->
        forall j it st p c l x, reported2 pb env (initial2 pb net net2 ctrl) S j l x -> j < it -> trained2 pb env (initial2 pb net net2 ctrl) S it st p c ->
          length x = n -> softplus_ok (d_lyap p) (state_of x) -> softplus_ok (d_barr p) (state_of x) -> violates2 pb p c l x ->
          excused2 pb (d_beta p) l (state_of x) (eval (state_of x) (fst (fst c))) (eval (state_of x) (snd (fst c)))
            (eval (state_of x) (fst (snd c))) (eval (state_of x) (snd (snd c))) \/
          left_out2 pb (d_lyap p, d_barr p) (st_S st) l x (map (eval (state_of x)) xdot) \/ exhausted2 env it st p.
Proof.
  intros doc ty time v n trees rounding iters H Hn Hr Hty La Hv Hq. destruct (documented_started _ _ _ _ _ _ _ _ _ H) as (F & G).
  destruct (documented_reads _ _ _ _ _ _ _ _ _ H) as (cf & Hc).
  exists F. intros numpy rand rand2 randc f1 f2 U L1 L2. destruct (G numpy rand randc f1 f2 L1 L2) as (pb & net & ctrl & E & St).
  destruct (learner_read doc cf (d_fields _ _ _ _ _ _ _ _ _ H) Hc v rand2 _ _ true n La (proj1 (d_solver _ _ _ _ _ _ _ _ _ H)) (or_intror eq_refl))
    as (net2 & En & _ & Wn2 & In2).
  destruct (document_system _ _ _ _ _ _ _ _ _ _ _ _ _ _ _ _ H Hn U E St) as (xdot & Sys & Fld).
  exists pb, net, net2, ctrl, xdot. split.
  { unfold session2_of. rewrite E. cbn [option_bind]. rewrite (st_type _ _ _ _ _ _ _ _ _ _ St), (st_n _ _ _ _ _ _ _ _ _ _ St).
    unfold learner_alt_of. destruct Hty as [-> | ->]; rewrite Hc; cbn [option_bind]; rewrite En; reflexivity. }
  split; [exact Fld|]. intros env S Hl HS Ho Ht Hz j it st p c l x Hrep Hlt Htr Lx S1 S2 Hviol.
  destruct (st_net _ _ _ _ _ _ _ _ _ _ St) as (Wn & In & _).
  assert (D : pb_discrete pb = false /\ pb_symb pb <> SCVC5) by (eapply doc_continuous; try eassumption; intros; congruence).
  assert (Q : pb_quad pb = false).
  { eapply doc_not_quad; try eassumption. intros s Gs Sp. now elim (Hq s Gs). }
  apply (C77_counterexamples_respected_two _ pb env xdot net net2 ctrl S j it st p c l x); auto; try apply D;
    rewrite ?(st_n _ _ _ _ _ _ _ _ _ _ St), ?(st_rounding _ _ _ _ _ _ _ _ _ _ St), ?(st_type _ _ _ _ _ _ _ _ _ _ St); auto.
Qed.
Theorem C78_document_two :
  forall doc ty time v n trees rounding iters, documented doc ty time v n trees None rounding iters -> n <= 10 -> (rounding < 0)%Z ->
    ty = STABLESAFE \/ ty = RAR -> layers doc v "N_HIDDEN_NEURONS_ALT" "ACTIVATION_ALT" -> v <> VCVC5 ->
    (forall s, gives doc "FACTORS" (YStr s) -> ~ spelled s "QUADRATIC") ->
    exists F, forall numpy rand rand2 randc f1 f2, usual numpy -> F <= f1 -> F <= f2 -> exists pb net net2 ctrl xdot,
      session2_of numpy f1 f2 rand rand2 randc doc = Some (pb, net, net2, ctrl) /\
      (forall s j, j < n -> eval s (nth j xdot (ENum 0)) = system_field numpy n trees (fun _ => []) s j) /\
      forall env S pool, lawful2 env -> keeps_controller2 n None ctrl env -> (forall it b p x, e2_trajectory env it b p x <> None) ->
        sampled ty S -> in_order ty S -> tests2 pb env ->
        answers_from2 pb env (initial2 pb net net2 ctrl) S pool -> trains2 pb env (initial2 pb net net2 ctrl) xdot S pool ->
        exists r, run_double pb env (length pool + 1) net net2 ctrl S = Some (Some r) /\ r_iters r <= length pool + 1 /\
          ((iters < 0 \/ Z.of_nat (length pool) <= iters)%Z -> r_res r = true).
Proof.
  intros doc ty time v n trees rounding iters H Hn Hr Hty La Hv Hq. destruct (documented_started _ _ _ _ _ _ _ _ _ H) as (F & G).
  destruct (documented_reads _ _ _ _ _ _ _ _ _ H) as (cf & Hc).
  exists F. intros numpy rand rand2 randc f1 f2 U L1 L2. destruct (G numpy rand randc f1 f2 L1 L2) as (pb & net & ctrl & E & St).
  destruct (learner_read doc cf (d_fields _ _ _ _ _ _ _ _ _ H) Hc v rand2 _ _ true n La (proj1 (d_solver _ _ _ _ _ _ _ _ _ H)) (or_intror eq_refl))
    as (net2 & En & Tn2 & Wn2 & In2).
  destruct (document_system _ _ _ _ _ _ _ _ _ _ _ _ _ _ _ _ H Hn U E St) as (xdot & Sys & Fld).
  exists pb, net, net2, ctrl, xdot. split.
  { unfold session2_of. rewrite E. cbn [option_bind]. rewrite (st_type _ _ _ _ _ _ _ _ _ _ St), (st_n _ _ _ _ _ _ _ _ _ _ St).
    unfold learner_alt_of. destruct Hty as [-> | ->]; rewrite Hc; cbn [option_bind]; rewrite En; reflexivity. }
  split; [exact Fld|]. intros env S pool Hl Hkc Hret HS Ho Ht Ha Htr.
  destruct (st_net _ _ _ _ _ _ _ _ _ _ St) as (Wn & In & _).
  assert (D : pb_discrete pb = false /\ pb_symb pb <> SCVC5) by (eapply doc_continuous; try eassumption; intros; congruence).
  assert (Q : pb_quad pb = false).
  { eapply doc_not_quad; try eassumption. intros s Gs Sp. now elim (Hq s Gs). }
  assert (HS' : sampled (pb_type pb) S) by now rewrite (st_type _ _ _ _ _ _ _ _ _ _ St).
  destruct (C78_terminates_two _ pb env xdot net net2 ctrl S pool Sys Hl Wn Wn2) as [T B]; auto; try apply D;
    rewrite ?(st_n _ _ _ _ _ _ _ _ _ _ St), ?(st_rounding _ _ _ _ _ _ _ _ _ _ St), ?(st_type _ _ _ _ _ _ _ _ _ _ St); auto.
  specialize (T (length pool + 1) ltac:(lia)).
  assert (R : forall fuel, run_double pb env fuel net net2 ctrl S = solve (double pb env) fuel (initial2 pb net net2 ctrl) S).
  { intros fuel. unfold run_double. destruct D as [-> _]. reflexivity. }
  rewrite R in T.
  destruct (passes_never_raise (double pb env) (initial2 pb net net2 ctrl) S (double_labels _ pb env S HS')) with (fuel := length pool + 1) as (r & Er); auto.
  { intros it st Hvis. apply (two_passes _ _ _ _ _ _ _ _ _ _ St env S net2 Hl Hkc (conj Wn2 Tn2) it st Hty Hret Hvis). }
  rewrite <- R in Er. exists r. split; [exact Er|]. rewrite <- (st_iters _ _ _ _ _ _ _ _ _ _ St). exact (B _ r Er).
Qed.
