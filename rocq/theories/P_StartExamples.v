(** C75: files that are written as documented, environments that return, and files that are refused. *)
From Coquelicot Require Import Coquelicot.
From Coq Require Import String Ascii Reals QArith Qreals Bool Arith ZArith Decimal Lra Lia List.
From Verif Require Import M_Syntax M_Certificates M_Verifier M_Activations M_Domains M_Network M_Learner M_Cegis M_Labels M_Fossil M_Double
  M_Control M_Parser M_Lexer M_Variables M_DomainParser M_Cli M_Config S_Activations S_Network S_Learner S_Cegis S_Fossil S_Double S_Domains
  S_Parser S_Lexer S_Variables S_DomainParser S_Control S_Cli S_Config S_Labels S_Start L_Learner L_Demo P_Cli P_ConfigExamples P_DoubleExamples P_ConfigDoubleExamples P_Start.
Import ListNotations.
Local Close Scope Q_scope.
Local Open Scope string_scope.
Local Open Scope list_scope.
Local Open Scope nat_scope.

Ltac each H := cbn in H; repeat (destruct H as [H|H]; [try discriminate H|]); try destruct H.
Ltac absent := intros; exfalso; match goal with H : gives _ _ _ |- _ => unfold gives in H; each H end.
Lemma linear_spelled : spelled "LINEAR" (activation_name LINEAR). Proof. apply spelled_upper; [apply activation_capital|reflexivity]. Qed.
Lemma square_spelled : spelled "Square" (activation_name SQUARE). Proof. apply spelled_upper; [apply activation_capital|reflexivity]. Qed.
Lemma continuous_spelled : spelled "Continuous" (time_name CONTINUOUS). Proof. apply spelled_upper; [apply time_capital|reflexivity]. Qed.
Ltac plain_field := eexists; apply means_plain; cbn; intuition discriminate.
Lemma ex_values cert ct d : spelled cert (certificate_name ct) ->
  forall f y, gives (ex_doc cert d) f y -> In f settings -> exists a, S_Cli.means f y a.
Proof.
  intros Sp f y G _. unfold gives in G. cbn in G. repeat (destruct G as [G|G]; [injection G as <- <-|]); try destruct G; try plain_field.
  - eexists. now apply means_certificate with (c := ct).
  - eexists. apply means_time with (t := CONTINUOUS). apply continuous_spelled.
  - eexists. apply (means_activations "ACTIVATION" ["Square"] [SQUARE]); [cbn; tauto|]. constructor; [apply square_spelled|constructor].
  - eexists. apply (means_activations "CTRLACTIVATION" ["LINEAR"] [LINEAR]); [cbn; tauto|]. constructor; [apply linear_spelled|constructor].
Qed.
Lemma ex2_values cert ct llo d ns : spelled cert (certificate_name ct) ->
  forall f y, gives (ex2_doc cert llo d ns) f y -> In f settings -> exists a, S_Cli.means f y a.
Proof.
  intros Sp f y G _. unfold gives in G. cbn in G. repeat (destruct G as [G|G]; [injection G as <- <-|]); try destruct G; try plain_field.
  - eexists. now apply means_certificate with (c := ct).
  - eexists. apply means_time with (t := CONTINUOUS). apply continuous_spelled.
  - eexists. apply (means_activations "ACTIVATION" ["Square"] [SQUARE]); [cbn; tauto|]. constructor; [apply square_spelled|constructor].
  - eexists. apply (means_activations "ACTIVATION_ALT" ["Square"] [SQUARE]); [cbn; tauto|]. constructor; [apply square_spelled|constructor].
  - eexists. apply (means_activations "CTRLACTIVATION" ["LINEAR"] [LINEAR]); [cbn; tauto|]. constructor; [apply linear_spelled|constructor].
Qed.
Lemma ex_states d : In (VX, d) (flat_map variables [ex2_tree]) <-> exists j, j < 1 /\ d = Nat.to_uint j.
Proof.
  cbn. split.
  - intros [H|[H|[]]]; [injection H as <-; exists 0; split; [lia|reflexivity]|discriminate].
  - intros (j & Hj & ->). replace j with 0 by lia. now left.
Qed.
Lemma ex_inputs_are d : In (VU, d) (flat_map variables [ex2_tree]) <-> exists j, j < 1 /\ d = Nat.to_uint j.
Proof.
  cbn. split.
  - intros [H|[H|[]]]; [discriminate|injection H as <-; exists 0; split; [lia|reflexivity]].
  - intros (j & Hj & ->). replace j with 0 by lia. right. now left.
Qed.
Lemma ex_driven doc : gives doc "CTRLAYER" (YList [YInt 1; YInt 1]) -> gives doc "CTRLACTIVATION" (YList [YStr "LINEAR"]) ->
  driven doc VZ3 [ex2_tree] (Some 1).
Proof.
  intros G1 G2. refine (driven_by doc VZ3 [ex2_tree] [1] 1 [LINEAR] ["LINEAR"] G1 _ _ _ G2 _ _ _ ex_inputs_are).
  - discriminate.
  - repeat constructor.
  - lia.
  - constructor; [apply linear_spelled|constructor].
  - reflexivity.
  - repeat constructor.
Qed.
Lemma one_square doc f1 f2 : gives doc f1 (YList [YInt 1]) -> gives doc f2 (YList [YStr "Square"]) -> layers doc VZ3 f1 f2.
Proof.
  intros G1 G2. exists [1], [SQUARE]. split; [discriminate|]. split; [repeat constructor|]. split; [reflexivity|]. split; [repeat constructor|].
  split; [now left|]. left. exists ["Square"]. split; [exact G2|]. constructor; [apply square_spelled|constructor].
Qed.
Lemma ball_proper c r : (48 <= nat_of_ascii r <= 57)%nat -> proper 1 (Ball [c] (1 * (digit_value r * 1 + 0))%R).
Proof.
  intros H. split; [reflexivity|]. unfold digit_value. assert (0 <= INR (nat_of_ascii r - 48))%R by apply pos_INR. lra.
Qed.
Lemma written_sets doc ty d : gives doc "DOMAINS" (YMap d) -> NoDup (map fst d) ->
  Forall (fun p => exists l value g, user_domain ty l /\ fst p = label_name l /\ snd p = YStr value /\
    region_text (list_ascii_of_string value) g /\ proper 1 g) d ->
  (forall l, user_domain ty l -> In (label_name l) (map fst d)) -> sets_written doc ty 1.
Proof.
  intros G N F C. exists d. split; [exact G|]. split; [exact N|]. split; [|exact C]. rewrite Forall_forall in F. intros key y H. apply (F _ H).
Qed.
Ltac set_ball l := exists l; eexists; eexists; split; [cbn; tauto|split; [reflexivity|split; [reflexivity|split; [apply ball_text; cbn; lia|apply ball_proper; cbn; lia]]]].
Ltac set_box l := exists l; eexists; eexists; split; [cbn; tauto|split; [reflexivity|split; [reflexivity|split; [apply box_text; cbn; lia|split; reflexivity]]]].
Ltac every_label := let l := fresh in let Hl := fresh in intros l Hl; cbn in Hl; repeat match goal with G : _ \/ _ |- _ => destruct G end; subst; cbn; auto 10.

Lemma barrier_documented : documented barrier_doc BARRIER CONTINUOUS VZ3 1 [ex2_tree] (Some 1) 3 10.
Proof.
  constructor.
  - apply ex_nodup.
  - apply ex_values with (ct := BARRIER). apply spelled_upper; [apply certificate_capital|reflexivity].
  - now apply ex_asks.
  - discriminate.
  - discriminate.
  - split; [now left|]. right. split; [intros y H; absent|reflexivity].
  - cbn. auto.
  - apply ex_equations.
  - reflexivity.
  - constructor; [|constructor]. cbn. repeat split; auto; discriminate.
  - apply ex_states.
  - apply ex_driven; cbn; auto 20.
  - eapply written_sets; [cbn; auto 20|repeat (constructor; [cbn; intuition discriminate|]); constructor| |].
    + constructor; [set_ball XD|]. constructor; [set_ball XI|]. constructor; [set_box XU|constructor].
    + every_label.
  - left. exists [(XD, 100); (XI, 100); (XU, 100)]. split; [cbn; auto 20|]. split; [repeat (constructor; [cbn; intuition discriminate|]); constructor|].
    intros l. cbn. intuition congruence.
  - apply one_square; cbn; auto 20.
  - right. split; [intros y H; absent|reflexivity].
  - right. split; [intros y H; absent|reflexivity].
  - split; [lia|]. intros f y F G. cbn in F. destruct F as [<-|[<-|[<-|[]]]]; absent.
  - intros f y F G. cbn in F. destruct F as [<-|[<-|[<-|[]]]]; absent.
  - intros f F y G. cbn in F. destruct F as [<-|[<-|[<-|[<-|[]]]]]; absent.
Qed.
Lemma rar_documented : documented rar_doc RAR CONTINUOUS VZ3 1 [ex2_tree] (Some 1) 3 10.
Proof.
  constructor.
  - apply ex2_nodup.
  - apply ex2_values with (ct := RAR). apply spelled_upper; [apply certificate_capital|reflexivity].
  - now apply ex2_asks.
  - discriminate.
  - discriminate.
  - split; [now left|]. right. split; [intros y H; absent|reflexivity].
  - cbn. auto.
  - apply ex2_equations.
  - reflexivity.
  - constructor; [|constructor]. cbn. repeat split; auto; discriminate.
  - apply ex_states.
  - apply ex_driven; cbn; auto 20.
  - eapply written_sets; [cbn; auto 20|repeat (constructor; [cbn; intuition discriminate|]); constructor| |].
    + constructor; [set_ball XD|]. constructor; [set_ball XI|]. constructor; [set_ball XS|]. constructor; [set_ball XG|]. constructor; [set_ball XF|constructor].
    + every_label.
  - left. exists [(XD, 100); (XI, 100); (XU, 100); (XG, 100); (XF, 100); (XNF, 100)]. split; [cbn; auto 20|].
    split; [repeat (constructor; [cbn; intuition discriminate|]); constructor|]. intros l. cbn. intuition congruence.
  - apply one_square; cbn; auto 20.
  - right. split; [intros y H; absent|reflexivity].
  - right. split; [intros y H; absent|reflexivity].
  - split; [lia|]. intros f y F G. cbn in F. destruct F as [<-|[<-|[<-|[]]]]; absent.
  - intros f y F G. cbn in F. destruct F as [<-|[<-|[<-|[]]]]; absent.
  - intros f F y G. cbn in F. destruct F as [<-|[<-|[<-|[<-|[]]]]]; absent.
Qed.

(** An optimiser that moves nothing and a solver that never decides: the run still returns, without a certificate. *)
Definition idle : environment controller :=
  {| e_perfect := fun _ _ _ _ _ _ => false; e_step := fun _ _ _ _ _ net => net;
     e_ctrl := fun _ p _ _ => l_ctrl p; e_beta := fun _ _ _ _ => 0%Q; e_simp := fun e => e;
     e_solver := fun _ => smt_backend (fun _ _ => Unknown); e_noise := fun _ _ _ _ => 0%R;
     e_stay_fuel := fun _ => 0; e_stay_calls := fun _ => 0;
     e_trajectory := fun _ _ _ _ => Some []; e_estimate_beta := fun _ _ => Some tt |}.
Definition idle2 : environment2 controller :=
  {| e2_perfect := fun _ _ _ _ _ _ => false; e2_step := fun _ _ _ _ _ nets => nets;
     e2_ctrl := fun _ p _ _ => d_ctrl p; e2_beta := fun _ _ _ _ => 0%Q; e2_simp := fun e => e;
     e2_solver := fun _ => smt_backend (fun _ _ => Unknown); e2_noise := fun _ _ _ _ => 0%R;
     e2_trajectory := fun _ _ _ _ => Some [] |}.
Example C75_barrier_returns : exists F, forall numpy rand randc f1 f2, F <= f1 -> F <= f2 -> exists pb net ctrl r,
  session_of numpy f1 f2 rand randc barrier_doc = Some (pb, net, ctrl) /\
  run_fossil pb idle 11 net ctrl [(XD, []); (XI, []); (XU, [])] = Some (Some r).
Proof.
  destruct (C75_returns _ _ _ _ _ _ _ _ _ barrier_documented ltac:(discriminate) ltac:(discriminate) ltac:(lia) ltac:(discriminate)) as (F & H).
  exists F. intros numpy rand randc f1 f2 L1 L2. destruct (H numpy rand randc f1 f2 L1 L2) as (pb & net & ctrl & E & R). clear H.
  destruct (R idle [(XD, []); (XI, []); (XU, [])]) as (r & Er).
  - intros it p S Sdot t nt. split; [apply same_shape_refl|reflexivity].
  - intros it p S Sdot Hl. exact Hl.
  - split; discriminate.
  - discriminate.
  - intros l. cbn. intuition congruence.
  - exists pb, net, ctrl, r. split; [exact E|exact Er].
Qed.
Example C75_rar_returns : exists F, forall numpy rand rand2 randc f1 f2, F <= f1 -> F <= f2 -> exists pb net net2 ctrl r,
  session2_of numpy f1 f2 rand rand2 randc rar_doc = Some (pb, net, net2, ctrl) /\
  run_double pb idle2 11 net net2 ctrl [(XD, []); (XI, []); (XU, []); (XG, []); (XF, []); (XNF, [])] = Some (Some r).
Proof.
  destruct (C75_returns_two _ _ _ _ _ _ _ _ _ rar_documented (or_intror eq_refl) ltac:(apply one_square; cbn; auto 20) ltac:(lia)) as (F & H).
  exists F. intros numpy rand rand2 randc f1 f2 L1 L2. destruct (H numpy rand rand2 randc f1 f2 L1 L2) as (pb & net & net2 & ctrl & E & R). clear H.
  destruct (R idle2 [(XD, []); (XI, []); (XU, []); (XG, []); (XF, []); (XNF, [])]) as (r & Er).
  - intros it p S Sdot t nt. split; apply same_shape_refl.
  - intros it p S Sdot Hl. exact Hl.
  - discriminate.
  - intros l. cbn. intuition congruence.
  - exists pb, net, net2, ctrl, r. split; [exact E|exact Er].
Qed.

(** ** Refused files: one per reason, each a small change of the file above. *)
Definition without (field : string) (doc : document) : document := filter (fun p => negb (String.eqb (fst p) field)) doc.
Definition with_ (field : string) (y : yaml) (doc : document) : document := (field, y) :: without field doc.
Lemma without_nodup field doc : NoDup (map fst doc) -> NoDup (map fst (without field doc)).
Proof.
  induction doc as [|[f y] doc IH]; [constructor|]. cbn. intros H. inversion H as [|a b H1 H2]; subst.
  destruct (String.eqb f field); cbn; auto. constructor; auto. intros I. apply H1. apply in_map_iff in I. destruct I as (p & <- & I).
  apply filter_In in I. apply in_map. tauto.
Qed.
Lemma with_nodup field y doc : NoDup (map fst doc) -> NoDup (map fst (with_ field y doc)).
Proof.
  intros H. constructor; [|now apply without_nodup]. cbn [fst]. intros I. apply in_map_iff in I. destruct I as (p & E & I). apply filter_In in I.
  rewrite E, String.eqb_refl in I. destruct I. discriminate.
Qed.

Definition two_doc (line : string) : document := with_ "SYSTEM" (YList [YStr line]) barrier_doc.
Lemma two_equations line t : written t line -> std Sum t -> no_minus_power t -> equations (two_doc line) [t].
Proof. intros W S M. exists [line]. split; [now left|]. split; (constructor; [auto|constructor]). Qed.
Lemma number_written : written (CNum 1) "1".
Proof.
  unfold written. cbn [S_Parser.text list_ascii_of_string]. apply (spaced_cons [] _ ["1"%char] _ []); [constructor| |apply (spaced_nil []); constructor].
  apply tt_integer; [split; [discriminate|repeat constructor; cbn; lia]|]. cbn [whole length]. unfold digit_value. change (nat_of_ascii "1" - 48) with 1. cbn [INR pow]. unfold Q2R. cbn [Qnum Qden]. lra.
Qed.
Lemma state_written : written (CVar VX (D0 Nil)) "x0".
Proof.
  unfold written. cbn [S_Parser.text list_ascii_of_string]. apply (spaced_cons [] _ ["x"%char; "0"%char] _ []); [constructor| |apply (spaced_nil []); constructor].
  apply (tt_state (D0 Nil)).
Qed.
Example C75_refused_files : forall numpy f1 f2 rand randc, Forall (fun doc => session_of numpy f1 f2 rand randc doc = None)
  [without "N_DATA" barrier_doc; with_ "N_DATA" (YInt 500) (with_ "CERTIFICATE" (YStr "RSWS") barrier_doc);
   with_ "TIME_DOMAIN" (YStr "Discrete") barrier_doc; with_ "N_VARS" (YInt 2) barrier_doc; two_doc "1"; without "CTRLAYER" barrier_doc; two_doc "x0";
   with_ "CTRLAYER" (YList [YInt 1]) barrier_doc; with_ "N_HIDDEN_NEURONS" (YList [YInt 5; YInt 5]) barrier_doc].
Proof.
  assert (N : NoDup (map fst barrier_doc)) by apply ex_nodup.
  assert (Name : forall ct s, upper s = certificate_name ct -> spelled s (certificate_name ct)) by (intros ct s H; apply spelled_upper; [apply certificate_capital|exact H]).
  intros numpy f1 f2 rand randc. repeat (constructor; [apply C75_refused; [repeat apply with_nodup; repeat apply without_nodup; exact N|]|]); [..|constructor].
  - apply no_amounts. intros y H. absent.
  - apply (one_amount _ RSWS CONTINUOUS 500); [|cbn; auto|now left]. exists "RSWS", "Continuous". split; [cbn; auto|]. split; [now apply Name|].
    split; [cbn; auto 10|apply continuous_spelled].
  - apply (not_discrete _ BARRIER); try discriminate. exists "Barrier", "Discrete". split; [cbn; auto 10|]. split; [now apply Name|].
    split; [now left|]. apply spelled_upper; [apply (time_capital DISCRETE)|reflexivity].
  - apply (wrong_count _ 2 ["x0 + u0"]); [now left|cbn; auto 10|discriminate].
  - apply (constant_equation _ [CNum 1] (CNum 1)); [|constructor; [split; exact I|constructor]|now left|reflexivity].
    apply two_equations; [apply number_written|repeat constructor|exact I].
  - destruct (ex_equations "Barrier" [("XD", YStr "Sphere([0], 3)"); ("XI", YStr "Sphere([0], 1)"); ("XU", YStr "Rectangle([2], [3])")]) as (lines & G & H).
    apply (input_alone _ [ex2_tree] (D0 Nil)); [exists lines; split; [|exact H]; cbn in G |- *; intuition congruence| |cbn; auto|intros y G'; absent].
    constructor; [cbn; auto|constructor].
  - apply (controller_alone _ [CVar VX (D0 Nil)] [1; 1]); [apply two_equations; [apply state_written|repeat constructor|exact I]|constructor; [split; exact I|constructor]| |cbn; auto 20].
    intros d H. cbn in H. intuition discriminate.
  - apply (no_hidden_layer _ 1). now left.
  - apply (few_activations _ [5; 5] ["Square"]); [now left|cbn; auto 20|cbn; lia].
Qed.
