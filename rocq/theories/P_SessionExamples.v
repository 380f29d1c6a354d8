(** C62: files that meet every hypothesis. *)
From Coquelicot Require Import Coquelicot.
From Coq Require Import String Ascii Reals QArith Qreals Bool Arith ZArith Decimal Lra Lia List.
From Verif Require Import M_Syntax M_Certificates M_Verifier M_Activations M_Domains M_Network M_Learner M_Cegis M_Labels M_Fossil
  M_Control M_Parser M_Lexer M_Variables M_DomainParser M_Cli M_Config S_Activations S_Network S_Fossil S_Dynamics S_Certificates S_Domains
  S_Parser S_Lexer S_Variables S_DomainParser S_Control S_Cli S_Config S_Session
  L_Verifier L_Config L_Session L_Regions P_Config P_ConfigExamples P_ConfigDouble P_ConfigDoubleExamples P_Session.
Import ListNotations.
Local Open Scope string_scope.
Local Open Scope list_scope.
Local Open Scope R_scope.

(** x' = x + u. *)
Example C62_example : exists pb xdot g, let doc := barrier_doc in let trees := [CBin OAdd (CVar VX (D0 Nil)) (CVar VU (D0 Nil))] in
  NoDup (map fst doc) /\ session_of math 100 100 ex_rand ex_randc doc = Some (pb, bar_net, ex_ctrl) /\
  dimension doc 1 /\ declares doc 1 XD g /\ pb_type pb = BARRIER /\ pb_max_iters pb = 10%Z /\ pb_rounding pb = 3%Z /\ pb_control pb = true /\
  (forall v, gives doc "ACTIVATION" v -> exists l, v = YList l) /\
  equations doc trees /\ inputs_of doc trees (Some 1%nat) /\ pb_xdot pb ex_ctrl = Some xdot /\
  forall s, wf_controller 1 1 ex_ctrl /\ ctrl_softplus_ok 1 ex_ctrl s /\ pb_f pb ex_ctrl [s 0%nat] = [s 0%nat - 2 * s 0%nat].
Proof.
  destruct (session_get (session_of math 100 100 ex_rand ex_randc barrier_doc)
    (fun x => let '(pb, net, ctrl) := x in (net, ctrl, pb_type pb, pb_max_iters pb, pb_rounding pb, pb_control pb, pb_xdot pb ctrl))
    (bar_net, ex_ctrl, BARRIER, 10%Z, 3%Z, true, Some ex_xdot)) as (pb & net & ctrl & E & H); [vm_compute; reflexivity|].
  injection H as -> -> H1 H2 H3 H4 H5. exists pb, ex_xdot, (zero_to three). cbv zeta.
  pose proof (session_outputs _ _ _ _ _ _ _ _ _ (ex_nodup _ _) E _ _ (ex_inputs _ _)) as [_ W].
  assert (D : dimension barrier_doc 1) by (cbn; auto).
  rewrite (session_n _ _ _ _ _ _ _ _ _ (ex_nodup _ _) E 1%nat D) in W. specialize (W 1%nat eq_refl).
  assert (Hsp : forall s, ctrl_softplus_ok 1 ex_ctrl s) by (intros s; cbn; repeat split; intros; exact I).
  refine (conj (ex_nodup _ _) (conj E (conj D (conj _ (conj H1 (conj H2 (conj H3 (conj H4 (conj _
    (conj (ex_equations _ _) (conj (ex_inputs _ _) (conj H5 _)))))))))))).
  - eapply ex_declares; [cbn; eauto|repeat (constructor; [cbn; intuition discriminate|]); constructor|apply (ball_text "0" "3"); cbn; lia|].
    split; [reflexivity|]. change (0 <= three). rewrite three_3. lra.
  - intros v G. cbn in G. repeat (destruct G as [G|G]; [try discriminate G; injection G as <-; eauto|]). destruct G.
  - intros s. split; [exact W|]. split; [apply Hsp|].
    change [s 0%nat] with (map s (seq 0 1)).
    rewrite (C62_simulation math 100 100 ex_rand ex_randc barrier_doc pb bar_net ex_ctrl 1 [CBin OAdd (CVar VX (D0 Nil)) (CVar VU (D0 Nil))] (Some 1%nat) ex_xdot
      (ex_nodup _ _) E D ltac:(lia) (ex_equations _ _) (ex_inputs _ _) H5); [|intros m Hm; injection Hm as <-; auto].
    cbn -[Q2R pow]. f_equal. unfold system_field. cbn -[Q2R pow]. unfold feedback, neuron, weight_of, bias_of. cbn -[Q2R pow]. unfold neuron, weight_of, bias_of. cbn -[Q2R pow].
    replace (Q2R 1) with 1 by (unfold Q2R; cbn; lra). replace (Q2R (-2)) with (-2) by (unfold Q2R; cbn; lra). lra.
Qed.
Example C62_second_network_example : exists pb, let doc := ss_doc in
  NoDup (map fst doc) /\ session2_of math 100 100 ex_rand ex_rand ex_randc doc = Some (pb, lya_net, bar_net, ex_ctrl) /\ dimension doc 1 /\
  (forall v, gives doc "ACTIVATION_ALT" v -> exists l, v = YList l).
Proof.
  destruct ss_session as (pb & E & _). exists pb. cbv zeta.
  split; [apply ex2_nodup|]. split; [exact E|]. split; [cbn; auto|].
  intros v G. cbn in G. repeat (destruct G as [G|G]; [try discriminate G; injection G as <-; eauto|]). destruct G.
Qed.
