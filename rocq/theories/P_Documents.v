(** Property C73: what a success on each of the shipped configuration files proves. *)
From Coquelicot Require Import Coquelicot.
From Coq Require Import String Ascii Reals QArith Qreals Bool Arith ZArith Decimal Lra Lia List.
From Verif Require Import M_Syntax M_Certificates M_Verifier M_Activations M_Domains M_Network M_Cegis M_Labels M_Fossil M_Double
  M_Control M_Parser M_Lexer M_Variables M_DomainParser M_Cli M_Config M_ConfigVerify M_Documents S_Verifier S_Certificates S_Network S_Domains S_Dynamics S_Fossil S_Double S_Success
  S_Parser S_Lexer S_Variables S_DomainParser S_Control S_Cli S_Config S_Documents P_Parser P_TranslatorBugs P_Cli L_Session P_Config P_ConfigDouble P_ConfigExamples L_Texts L_Documents.
Import ListNotations.
Local Close Scope Q_scope.
Local Open Scope string_scope.
Local Open Scope list_scope.
Local Open Scope R_scope.

(** ** The files are read: networks and systems are built, whatever the random initial weights *)
Definition is_some {A} (o : option A) : bool := match o with Some _ => true | None => false end.
Lemma is_some_ex {A} (o : option A) : is_some o = true -> exists x, o = Some x.
Proof. destruct o; [eauto|discriminate]. Qed.
Theorem C73_start : forall numpy rand rand2 randc,
  Forall (fun doc => exists pb net ctrl, session_of numpy 300 300 rand randc doc = Some (pb, net, ctrl))
    [doc_root_lyap_test; doc_barr_test; doc_lyap_test; doc_roa_test; doc_rswa_test; doc_rwa_test; doc_verify] /\
  Forall (fun doc => exists pb net net2 ctrl, session2_of numpy 300 300 rand rand2 randc doc = Some (pb, net, net2, ctrl))
    [doc_ctrl_rar_sine; doc_rar_test; doc_stable_safe_test].
Proof.
  intros numpy rand rand2 randc. split.
  - assert (H : forallb (fun doc => is_some (session_of numpy 300 300 rand randc doc))
      [doc_root_lyap_test; doc_barr_test; doc_lyap_test; doc_roa_test; doc_rswa_test; doc_rwa_test; doc_verify] = true) by (vm_compute; reflexivity).
    rewrite forallb_forall in H. apply Forall_forall. intros doc Hd. destruct (is_some_ex _ (H doc Hd)) as ([[pb net] ctrl] & E). eauto.
  - assert (H : forallb (fun doc => is_some (session2_of numpy 300 300 rand rand2 randc doc))
      [doc_ctrl_rar_sine; doc_rar_test; doc_stable_safe_test] = true) by (vm_compute; reflexivity).
    rewrite forallb_forall in H. apply Forall_forall. intros doc Hd. destruct (is_some_ex _ (H doc Hd)) as ([[[pb net] net2] ctrl] & E). eauto.
Qed.

Ltac doc_declare v := refine (doc_declares _ 2 _ v _ _ _ _ _); [doc_has|doc_nodup|cbn; tauto|vm_compute; reflexivity|vm_compute; reflexivity].
Lemma disc_seen v q0 q1 q a b r s : set_value (see_set v) = Ball (map Q2R [q0; q1]) (Q2R q) -> Q2R q0 = a -> Q2R q1 = b -> Q2R q = r -> 0 <= r ->
  in_region (set_value (see_set v)) s <-> disc a b r s.
Proof. intros -> <- <- <- H. now apply disc_ball. Qed.
Lemma square_seen v a b h s : set_value (see_set v) = Box (map Q2R [a; a]) (map Q2R [b; b]) -> Q2R a = - h -> Q2R b = h ->
  in_region (set_value (see_set v)) s <-> square h s.
Proof. intros -> Ha <-. now apply square_box. Qed.
Ltac see_disc a b r := apply (disc_seen _ a b r); try reflexivity; unfold Q2R; cbn [Qnum Qden]; lra.
Ltac see_square a b := apply (square_seen _ a b); try reflexivity; unfold Q2R; cbn [Qnum Qden]; lra.
Lemma see_005 s : in_region (set_value (see_set "Sphere([0,0], 0.05)")) s <-> disc 0 0 (5/100) s. Proof. see_disc (0#1)%Q (0#1)%Q (1#20)%Q. Qed.
Lemma see_0075 s : in_region (set_value (see_set "Sphere([0,0], 0.075)")) s <-> disc 0 0 (75/1000) s. Proof. see_disc (0#1)%Q (0#1)%Q (3#40)%Q. Qed.
Lemma see_01 s : in_region (set_value (see_set "Sphere([0,0], 0.1)")) s <-> disc 0 0 (1/10) s. Proof. see_disc (0#1)%Q (0#1)%Q (1#10)%Q. Qed.
Lemma see_1 s : in_region (set_value (see_set "Sphere([0,0], 1.0)")) s <-> disc 0 0 1 s. Proof. see_disc (0#1)%Q (0#1)%Q (1#1)%Q. Qed.
Lemma see_11 s : in_region (set_value (see_set "Sphere([0,0], 1.1)")) s <-> disc 0 0 (11/10) s. Proof. see_disc (0#1)%Q (0#1)%Q (11#10)%Q. Qed.
Lemma see_08 s : in_region (set_value (see_set "Sphere([0.8,0.8], 0.1)")) s <-> disc (8/10) (8/10) (1/10) s. Proof. see_disc (4#5)%Q (4#5)%Q (1#10)%Q. Qed.
Lemma see_s35 s : in_region (set_value (see_set "Rectangle([-3.5, -3.5], [3.5, 3.5])")) s <-> square (35/10) s. Proof. see_square (-7#2)%Q (7#2)%Q. Qed.
Lemma see_s3 s : in_region (set_value (see_set "Rectangle([-3.0, -3.0], [3.0, 3.0])")) s <-> square 3 s. Proof. see_square (-3#1)%Q (3#1)%Q. Qed.
Lemma see_s2 s : in_region (set_value (see_set "Rectangle([-2.0, -2.0], [2.0, 2.0])")) s <-> square 2 s. Proof. see_square (-2#1)%Q (2#1)%Q. Qed.
Lemma see_s01 s : in_region (set_value (see_set "Rectangle([-0.1, -0.1], [0.1, 0.1])")) s <-> square (1/10) s. Proof. see_square (-1#10)%Q (1#10)%Q. Qed.
Lemma see_s02 s : in_region (set_value (see_set "Rectangle([-0.2, -0.2], [0.2, 0.2])")) s <-> square (2/10) s. Proof. see_square (-1#5)%Q (1#5)%Q. Qed.
Lemma disc_le r r' s : 0 <= r <= r' -> disc 0 0 r s -> disc 0 0 r' s.
Proof. unfold disc. intros H K. nra. Qed.
Lemma rws_iff (A B C D : state -> Prop) x T : (forall s, A s <-> C s) -> (forall s, B s <-> D s) -> reach_while_stay A B x T -> reach_while_stay C D x T.
Proof.
  intros H1 H2 [(t & Ht & G) K]. split; [exists t; split; [exact Ht|now apply H2]|]. intros u Hu Hv. apply H1, K; [exact Hu|].
  intros v Hv'. rewrite H2. now apply Hv.
Qed.

(** barr-test.yaml: whatever starts within 1/10 of the origin does not enter the disc around (0.8, 0.8) as long as it stays within 1.1. *)
Theorem C73_barrier : forall r, succeeds doc_barr_test r ->
  forall x T, plant (l_ctrl (r_learned r)) x T -> disc 0 0 (1/10) (x 0) ->
    (forall t, 0 <= t <= T -> disc 0 0 (11/10) (x t)) ->
    forall t, 0 <= t <= T -> ~ disc (8/10) (8/10) (1/10) (x t).
Proof.
  intros r (numpy & f1 & f2 & rand & randc & pb & net & ctrl & env & S & fuel & Hs & L & K & H & Hr & Hres) x T Hx H0 HD t Ht Hu.
  refine (C59_safety numpy f1 f2 rand randc doc_barr_test pb net ctrl env S fuel r math 2 plant_trees (Some 1%nat)
    _ Hs math_usual _ _ _ L K H Hr Hres _ _ _ (set_value (see_set "Sphere([0,0], 0.1)")) (set_value (see_set "Sphere([0.8,0.8], 0.1)")) (set_value (see_set "Sphere([0,0], 1.1)"))
    _ _ _ x T (plant_solves _ _ _ _ Hx) _ _ t Ht _).
  - doc_nodup.
  - doc_has.
  - doc_equations ["x1 + u0"; "x0-x1"] plant_written.
  - apply doc_inputs1; [doc_nodup|doc_has|doc_has].
  - left. doc_asks "Barrier" "CONTINUOUS".
  - doc_not_cvc5.
  - doc_avoids.
  - doc_declare "Sphere([0,0], 0.1)".
  - doc_declare "Sphere([0.8,0.8], 0.1)".
  - doc_declare "Sphere([0,0], 1.1)".
  - now apply see_01.
  - intros v Hv. now apply see_11, HD.
  - now apply see_08.
Qed.

(** stable-safe-test.yaml: the same. *)
Theorem C73_stable_safe : forall r, succeeds2 doc_stable_safe_test r ->
  forall x T, plant (d_ctrl (r_learned r)) x T -> disc 0 0 (1/10) (x 0) ->
    (forall t, 0 <= t <= T -> disc 0 0 (11/10) (x t)) ->
    forall t, 0 <= t <= T -> ~ disc (8/10) (8/10) (1/10) (x t).
Proof.
  intros r (numpy & f1 & f2 & rand & rand2 & randc & pb & net & net2 & ctrl & env & S & fuel & Hs & L & K & H & Hr & Hres) x T Hx H0 HD t Ht Hu.
  refine (C59_stable_safe numpy f1 f2 rand rand2 randc doc_stable_safe_test pb net net2 ctrl env S fuel r math 2 plant_trees (Some 1%nat)
    _ Hs math_usual _ _ _ L K H Hr Hres _ _ _ _ (set_value (see_set "Sphere([0,0], 0.1)")) (set_value (see_set "Sphere([0.8,0.8], 0.1)")) (set_value (see_set "Sphere([0,0], 1.1)"))
    _ _ _ x T (plant_solves _ _ _ _ Hx) _ _ t Ht _).
  - doc_nodup.
  - doc_has.
  - doc_equations ["x1 + u0"; "x0-x1"] plant_written.
  - apply doc_inputs1; [doc_nodup|doc_has|doc_has].
  - doc_asks "STABLESAFE" "CONTINUOUS".
  - doc_not_cvc5.
  - doc_avoids.
  - doc_avoids.
  - doc_declare "Sphere([0,0], 0.1)".
  - doc_declare "Sphere([0.8,0.8], 0.1)".
  - doc_declare "Sphere([0,0], 1.1)".
  - now apply see_01.
  - intros v Hv. now apply see_11, HD.
  - now apply see_08.
Qed.

(** rwa-test.yaml and rswa-test.yaml: whatever starts within 1/10 of the origin comes within 1/20 of it, in a common time, and stays
    within 1 before. *)
Theorem C73_reach : forall doc r, In doc [doc_rwa_test; doc_rswa_test] -> succeeds doc r ->
  exists T0, forall x T, T0 <= T -> plant (l_ctrl (r_learned r)) x T -> disc 0 0 (1/10) (x 0) ->
    reach_while_stay (disc 0 0 1) (disc 0 0 (5/100)) x T.
Proof.
  intros doc r Hd (numpy & f1 & f2 & rand & randc & pb & net & ctrl & env & S & fuel & Hs & L & K & H & Hr & Hres).
  assert (HH : exists T0, forall x T, T0 <= T -> solves 2 (system_field math 2 plant_trees (feedback_law 2 (Some 1%nat) (l_ctrl (r_learned r)))) x T ->
    in_region (set_value (see_set "Sphere([0,0], 0.1)")) (x 0) ->
    reach_while_stay (in_region (set_value (see_set "Sphere([0,0], 1.0)"))) (in_region (set_value (see_set "Sphere([0,0], 0.05)"))) x T).
  { destruct Hd as [<-|[<-|[]]];
    [refine (C59_reach_while_stay numpy f1 f2 rand randc doc_rwa_test pb net ctrl env S fuel r math 2 plant_trees (Some 1%nat)
      _ Hs math_usual _ _ _ L K H Hr Hres RWA _ _ _ (set_value (see_set "Sphere([0,0], 1.1)")) _ _ _ _ _ _ _ _ _ _)
    |refine (C59_reach_while_stay numpy f1 f2 rand randc doc_rswa_test pb net ctrl env S fuel r math 2 plant_trees (Some 1%nat)
      _ Hs math_usual _ _ _ L K H Hr Hres RSWA _ _ _ (set_value (see_set "Sphere([0,0], 1.1)")) _ _ _ _ _ _ _ _ _ _)].
    all: try (intros s Hs'; first [apply see_1; apply see_01 in Hs'; eapply disc_le; [|exact Hs']; lra|apply see_11; apply see_1 in Hs'; eapply disc_le; [|exact Hs']; lra]).
    all: try (doc_equations ["x1 + u0"; "x0-x1"] plant_written).
    all: try (apply doc_inputs1; [doc_nodup|doc_has|doc_has]).
    all: try doc_not_cvc5. all: try doc_avoids.
    all: try (doc_declare "Sphere([0,0], 0.1)"). all: try (doc_declare "Sphere([0,0], 1.0)"). all: try (doc_declare "Sphere([0,0], 0.05)"). all: try (doc_declare "Sphere([0,0], 1.1)").
    all: try (doc_asks "RWA" "CONTINUOUS"). all: try (doc_asks "RSWA" "CONTINUOUS"). all: try doc_has. all: doc_nodup. }
  destruct HH as (T0 & HH). exists T0. intros x T HT Hx H0.
  refine (rws_iff _ _ _ _ _ _ see_1 see_005 (HH x T HT (plant_solves _ _ _ _ Hx) _)). now apply see_01.
Qed.

(** rar-test.yaml: moreover whatever comes within 1/20 of the origin stays within 3/40 as long as it stays within 1.1. *)
Theorem C73_remain : forall r, succeeds2 doc_rar_test r ->
  exists T0, forall x T, plant (d_ctrl (r_learned r)) x T -> disc 0 0 (1/10) (x 0) ->
    (T0 <= T -> reach_while_stay (disc 0 0 1) (disc 0 0 (5/100)) x T) /\
    (forall a, 0 <= a <= T -> disc 0 0 (5/100) (x a) -> (forall t, a <= t <= T -> disc 0 0 (11/10) (x t)) ->
       forall t, a <= t <= T -> disc 0 0 (75/1000) (x t)).
Proof.
  intros r (numpy & f1 & f2 & rand & rand2 & randc & pb & net & net2 & ctrl & env & S & fuel & Hs & L & K & H & Hr & Hres).
  destruct (C59_reach_avoid_remain numpy f1 f2 rand rand2 randc doc_rar_test pb net net2 ctrl env S fuel r math 2 plant_trees (Some 1%nat))
    with (gi := set_value (see_set "Sphere([0,0], 0.1)")) (gs := set_value (see_set "Sphere([0,0], 1.0)")) (gg := set_value (see_set "Sphere([0,0], 0.05)"))
      (gf := set_value (see_set "Sphere([0,0], 0.075)")) (gd := set_value (see_set "Sphere([0,0], 1.1)")) as (T0 & HH).
  - doc_nodup.
  - exact Hs.
  - exact math_usual.
  - doc_has.
  - doc_equations ["x1 + u0"; "x0-x1"] plant_written.
  - apply doc_inputs1; [doc_nodup|doc_has|doc_has].
  - exact L.
  - exact K.
  - exact H.
  - exact Hr.
  - exact Hres.
  - doc_asks "RAR" "CONTINUOUS".
  - doc_not_cvc5.
  - doc_avoids.
  - doc_avoids.
  - doc_declare "Sphere([0,0], 0.1)".
  - doc_declare "Sphere([0,0], 1.0)".
  - doc_declare "Sphere([0,0], 0.05)".
  - doc_declare "Sphere([0,0], 0.075)".
  - doc_declare "Sphere([0,0], 1.1)".
  - intros s Hs'. apply see_1. apply see_01 in Hs'. eapply disc_le; [|exact Hs']. lra.
  - intros s Hs'. apply see_11. apply see_1 in Hs'. eapply disc_le; [|exact Hs']. lra.
  - exists T0. intros x T Hx H0. destruct (HH x T (plant_solves _ _ _ _ Hx) (proj2 (see_01 _) H0)) as [H1 H2]. split.
    + intros HT. exact (rws_iff _ _ _ _ _ _ see_1 see_005 (H1 HT)).
    + intros a Ha Hg HD t Ht. apply see_0075. apply (H2 a Ha); [now apply see_005|intros u Hu; now apply see_11, HD|exact Ht].
Qed.

(** ctrl_rar_sine.yaml: the pendulum. *)
Theorem C73_pendulum : forall r, succeeds2 doc_ctrl_rar_sine r ->
  exists T0, forall x T, pendulum (d_ctrl (r_learned r)) x T -> square 2 (x 0) ->
    (T0 <= T -> reach_while_stay (square 3) (square (1/10)) x T) /\
    (forall a, 0 <= a <= T -> square (1/10) (x a) -> (forall t, a <= t <= T -> square (35/10) (x t)) ->
       forall t, a <= t <= T -> square (2/10) (x t)).
Proof.
  intros r (numpy & f1 & f2 & rand & rand2 & randc & pb & net & net2 & ctrl & env & S & fuel & Hs & L & K & H & Hr & Hres).
  destruct (C59_reach_avoid_remain numpy f1 f2 rand rand2 randc doc_ctrl_rar_sine pb net net2 ctrl env S fuel r math 2 pendulum_trees (Some 2%nat))
    with (gi := set_value (see_set "Rectangle([-2.0, -2.0], [2.0, 2.0])")) (gs := set_value (see_set "Rectangle([-3.0, -3.0], [3.0, 3.0])"))
      (gg := set_value (see_set "Rectangle([-0.1, -0.1], [0.1, 0.1])"))
      (gf := set_value (see_set "Rectangle([-0.2, -0.2], [0.2, 0.2])")) (gd := set_value (see_set "Rectangle([-3.5, -3.5], [3.5, 3.5])")) as (T0 & HH).
  - doc_nodup.
  - exact Hs.
  - exact math_usual.
  - doc_has.
  - doc_equations ["x1 + u0"; "u1 + (0.73575*sin(x0) - 0.1*x1) / (0.0375) "] pendulum_written.
  - apply doc_inputs2; doc_has.
  - exact L.
  - exact K.
  - exact H.
  - exact Hr.
  - exact Hres.
  - doc_asks "RAR" "CONTINUOUS".
  - doc_not_cvc5.
  - doc_avoids.
  - doc_avoids.
  - doc_declare "Rectangle([-2.0, -2.0], [2.0, 2.0])".
  - doc_declare "Rectangle([-3.0, -3.0], [3.0, 3.0])".
  - doc_declare "Rectangle([-0.1, -0.1], [0.1, 0.1])".
  - doc_declare "Rectangle([-0.2, -0.2], [0.2, 0.2])".
  - doc_declare "Rectangle([-3.5, -3.5], [3.5, 3.5])".
  - intros s Hs'. apply see_s3. apply see_s2 in Hs'. unfold square in *. lra.
  - intros s Hs'. apply see_s35. apply see_s3 in Hs'. unfold square in *. lra.
  - exists T0. intros x T Hx H0. destruct (HH x T (pendulum_solves _ _ _ _ math_usual Hx) (proj2 (see_s2 _) H0)) as [H1 H2]. split.
    + intros HT. exact (rws_iff _ _ _ _ _ _ see_s3 see_s01 (H1 HT)).
    + intros a Ha Hg HD t Ht. apply see_s02. apply (H2 a Ha); [now apply see_s01|intros u Hu; now apply see_s35, HD|exact Ht].
Qed.
