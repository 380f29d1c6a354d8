(** Lemmas about complete runs. *)
From Coquelicot Require Import Coquelicot.
From Coq Require Import Reals QArith Qreals List Bool Arith ZArith Lra Lia.
From Verif Require Import M_Syntax M_Certificates M_Verifier M_BetaSearch M_Activations M_Network M_Learner M_Cegis M_Fossil
  S_Verifier S_Certificates S_Success S_Dynamics S_Network S_Learner S_Cegis S_Fossil
  L_Network L_Learner L_Success L_Smooth P_Certificates P_Translator P_Cegis.
Import ListNotations.
Local Open Scope R_scope.

Lemma twice_loop_shape llo cond step loops : forall t old net,
  optimiser llo step -> same_shape net (twice_loop cond step t loops old net).
Proof.
  induction loops as [|k IH]; intros t old net Ho; simpl; [apply same_shape_refl|].
  destruct (_ && _); [apply same_shape_refl|].
  eapply same_shape_trans; [apply (Ho t net)|]. now apply IH.
Qed.

Section Runs.
  Context {K : Type} (pb : problem K) (env : environment K).
  Hypothesis Hlaw : lawful pb env.

  Lemma learn_network_shape it p S Sdot net :
    same_shape net (learn_network pb (e_perfect env it p S Sdot) (e_step env it p S Sdot) net).
  Proof.
    unfold learn_network.
    assert (H := Hlaw it p S Sdot).
    destruct (pb_type pb); try (now apply (twice_loop_shape (pb_llo pb)));
      exact (learn_shape (pb_llo pb) (e_perfect env it p S Sdot, e_step env it p S Sdot) net H).
  Qed.

  Lemma visited_shape random ctrl S it st :
    visited (fossil pb env) (initial pb random ctrl) S it st -> same_shape random (l_net (st_params st)).
  Proof.
    induction 1 as [|it st st' Hv IH Hi].
    - apply init_shape.
    - apply iterate_inv in Hi. destruct Hi as (q & c & found & cex & t & H1 & _ & _ & _ & Hp & _).
      rewrite Hp. cbn [c_learn fossil] in H1. unfold fossil_learn in H1.
      apply P_Activations.Some_eq' in H1. subst q. cbn [l_net].
      eapply same_shape_trans; [exact IH|]. apply learn_network_shape.
  Qed.

  (** With LYAPUNOV / ROA the network is the result of [train]. *)
  Lemma visited_train random ctrl S it st :
    pb_type pb = LYAPUNOV \/ pb_type pb = ROA ->
    visited (fossil pb env) (initial pb random ctrl) S it st ->
    exists h, Forall (fun ps => optimiser (pb_llo pb) (snd ps)) h /\
      l_net (st_params st) = train (pb_llo pb) h (init_learner (pb_llo pb) random).
  Proof.
    intros Ht. induction 1 as [|it st st' Hv IH Hi].
    - exists []. split; [constructor|reflexivity].
    - apply iterate_inv in Hi. destruct Hi as (q & c & found & cex & t & H1 & _ & _ & _ & Hp & _).
      rewrite Hp. cbn [c_learn fossil] in H1. unfold fossil_learn in H1.
      apply P_Activations.Some_eq' in H1. subst q. cbn [l_net].
      destruct IH as (h & Hh & E).
      exists (h ++ [(e_perfect env it (st_params st) (st_S st) (st_Sdot st), e_step env it (st_params st) (st_S st) (st_Sdot st))]).
      split; [apply Forall_app; split; [auto|constructor; [apply Hlaw|constructor]]|].
      unfold train at 1. rewrite fold_left_app. fold (train (pb_llo pb) h (init_learner (pb_llo pb) random)).
      rewrite <- E. unfold learn_network. destruct Ht as [-> | ->]; reflexivity.
  Qed.

  Lemma run_success random ctrl S fuel r :
    run_fossil pb env fuel random ctrl S = Some (Some r) -> r_res r = true -> honest pb env ->
    exists it V Vdot gs,
      r_symbolic r = Some (V, Vdot) /\ same_shape random (l_net (r_learned r)) /\
      fossil_translate pb env it (r_learned r) = Some (V, Vdot) /\
      pb_xdot pb (l_ctrl (r_learned r)) = Some (dynamics pb (l_ctrl (r_learned r))) /\
      fossil_constraints pb (l_beta (r_learned r)) V Vdot = Some gs /\ certified gs /\
      (pb_type pb = RSWS -> exists fuel k beta,
         beta_search (e_solver env it) (pb_sets pb) V Vdot fuel k = Some (BetaTrue beta)) /\
      (pb_type pb = LYAPUNOV \/ pb_type pb = ROA -> exists h, h <> [] /\
         Forall (fun ps => optimiser (pb_llo pb) (snd ps)) h /\
         l_net (r_learned r) = train (pb_llo pb) h (init_learner (pb_llo pb) random)).
  Proof.
    intros Hr Hres Hh.
    destruct (C32_result_was_verified _ _ _ _ _ _ _ Hr Hres)
      as (it & [V Vdot] & cex & _ & E1 & E2 & E3 & E4 & st & Hv & E5).
    cbn [c_translate c_verify c_stay c_learn c_type fossil] in *.
    unfold fossil_verify in E3. cbn [fst snd] in E3.
    destruct (fossil_constraints pb (l_beta (r_learned r)) V Vdot) as [gs|] eqn:Eg; cbn [option_bind] in E3; [|discriminate].
    unfold fossil_learn in E5. apply P_Activations.Some_eq' in E5.
    exists it, V, Vdot, gs. split; [exact E1|]. split; [|split; [exact E2|split; [|split; [exact Eg|split; [|split]]]]].
    - rewrite E5. cbn [l_net]. eapply same_shape_trans; [apply (visited_shape _ _ _ _ _ Hv)|]. apply learn_network_shape.
    - unfold fossil_translate in E2. unfold dynamics. destruct (pb_xdot pb (l_ctrl (r_learned r))); [reflexivity|discriminate].
    - exists (e_solver env it), (e_noise env it). split; [now apply (Hh it (l_beta (r_learned r)) V Vdot)|].
      apply P_Activations.Some_eq' in E3. apply pair_equal_spec in E3. symmetry. apply E3.
    - intros Ht. specialize (E4 Ht). unfold fossil_stay in E4. cbn [fst snd] in E4.
      exists (e_stay_fuel env it), (e_stay_calls env it).
      destruct (beta_search _ _ _ _ _ _) as [[beta| |]|]; try discriminate. now exists beta.
    - intros Ht. destruct (visited_train _ _ _ _ _ Ht Hv) as (h & Hfh & E).
      exists (h ++ [(e_perfect env it (st_params st) (st_S st) (st_Sdot st), e_step env it (st_params st) (st_S st) (st_Sdot st))]).
      split; [intros E0; apply app_eq_nil in E0; destruct E0 as [_ E0]; discriminate E0|].
      split; [apply Forall_app; split; [auto|constructor; [apply Hlaw|constructor]]|].
      unfold train at 1. rewrite fold_left_app. fold (train (pb_llo pb) h (init_learner (pb_llo pb) random)).
      rewrite <- E, E5. cbn [l_net]. unfold learn_network. destruct Ht as [-> | ->]; reflexivity.
  Qed.
End Runs.

Lemma same_shape_smooth a b : same_shape a b -> smooth_net a -> smooth_net b.
Proof.
  intros (_ & E & _ & _) H. unfold smooth_net in *. apply (f_equal (map snd)) in E. rewrite !map_map in E. cbn [snd] in E.
  revert E H. generalize (hidden b). induction (hidden a) as [|[l x] hs IH]; intros [|[l' x'] hs'] E H; simpl in *;
    try discriminate; constructor; apply Forall_cons_iff in H; destruct H as [H1 H2]; injection E as E1 E2.
  - simpl in *. congruence.
  - now apply IH.
Qed.
Lemma same_shape_zero a b : same_shape a b -> zero_preserving a -> zero_preserving b.
Proof.
  intros (_ & E & _ & E4) [H Hb]. split; [|rewrite Hb in E4; now destruct (bias (last b))]. clear E4 Hb.
  revert E H. generalize (hidden b). induction (hidden a) as [|[l x] hs IH]; intros [|[l' x'] hs'] E H; simpl in *;
    try discriminate; constructor; apply Forall_cons_iff in H; destruct H as [[H1 H1'] H2]; injection E as E1 E2 E3 E4; simpl in *.
  - rewrite H1 in E2. split; [now destruct (bias l')|congruence].
  - now apply IH.
Qed.
